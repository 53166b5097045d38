(** WHILE loops: C66. *)
From Coq Require Import SpecFloat.
From Verif Require Import Base Text Model_StringUtil Model_Float Model_Axis Model_Number Model_Gcode Spec_Line Spec_Loop
  Proofs_Lexer Proofs_Total Proofs_Loop Proofs_While Prop_Expr.

(** The lines of a loop, with a newline at the end of each *)
Definition loop_text (first : text) (body : list text) (last : text) : list text := first :: map (fun b => b ++ [LF]) body ++ [last].

Lemma done_while : forall k s a b d, with_while (all_done k s) a b d = all_done k (with_while s a b d). Proof. reflexivity. Qed.
Lemma while_while : forall s a b d a' b' d', with_while (with_while s a b d) a' b' d' = with_while s a' b' d'. Proof. reflexivity. Qed.
Lemma done_done : forall s k l, all_done k (all_done l s) = all_done (k + l) s.
Proof. intros s k l. unfold all_done. cbn [g_events with_events]. rewrite app_assoc, <- repeat_app. destruct s. reflexivity. Qed.
Lemma again : forall s k cond loop,
  with_while (all_done k (with_while (all_done 1 (with_while s true cond [])) true cond loop)) false cond loop = with_while (all_done (S k) s) false cond loop.
Proof. intros s k cond loop. rewrite !done_while, done_done, !while_while, Nat.add_1_r. reflexivity. Qed.
Lemma loop_runs : forall c first cond body last s s', ~ In NUL first -> opens_loop first cond -> (forall b, In b body -> one_line b /\ ~ closes_loop b) ->
  ~ In NUL last -> closes_loop last -> g_do_while s = false -> g_iterating s = false ->
  let loop := concat (map (fun l => l ++ [LF]) (flat_map kept body)) in
  runs c (loop_text first body last) s s' <->
  exists f s1, while_end c f (parse_block c f) (with_while (all_done (S (length body)) s) false (skip_spaces cond) loop) = Done tt s1 /\ s' = all_done 1 s1.
Proof.
  intros c first cond body last s s' Hf Ho Hb Hl Hc Hd Hi loop. unfold loop_text.
  pose proof (while_line c first cond s Hf Ho Hd Hi) as R. change (first :: map (fun b => b ++ [LF]) body ++ [last]) with ([first] ++ map (fun b => b ++ [LF]) body ++ [last]).
  rewrite (runs_known _ _ _ _ _ _ R). pose proof (collected c body _ Hb (eq_refl : g_do_while (all_done 1 (with_while s true (skip_spaces cond) [])) = true)) as R1.
  rewrite (runs_known _ _ _ _ _ _ R1). rewrite (end_line c last _ _ Hl Hc) by reflexivity. fold loop.
  clear R R1. clearbody loop. 
  match goal with |- (exists g s2, while_end c g (parse_block c g) ?a = _ /\ _) <-> _ =>
    change a with (with_while (all_done (length body) (with_while (all_done 1 (with_while s true (skip_spaces cond) [])) true (skip_spaces cond) loop)) false (skip_spaces cond) loop) end.
  rewrite again. reflexivity.
Qed.
Lemma body_lines : forall body, (forall b, In b body -> one_line b) -> split_string (concat (map (fun l => l ++ [LF]) (flat_map kept body))) [LF] = loop_lines body.
Proof.
  intros body H. apply split_lines. intros l Hl Hn. apply in_flat_map in Hl as (b & Hb & Hk). apply kept_line in Hk as ->. apply (proj2 (H b Hb)), skip_spaces_In, Hn.
Qed.

(** C66: a loop that is executed to its end has the effects of its lines written out: the condition is evaluated, and as long as it
    is not zero the lines are executed and it is evaluated again. Blocks are reported as complete for the lines of the loop when they
    are read, and again for each time they are executed. *)
Theorem C66_loop : forall c first cond body last s s', reads_numbers c -> ignores_owner c ->
  ~ In NUL first -> opens_loop first cond -> (forall b, In b body -> one_line b /\ ~ closes_loop b) -> ~ In NUL last -> closes_loop last ->
  g_do_while s = false -> g_iterating s = false ->
  runs c (loop_text first body last) s s' ->
  exists n s'', unrolled c cond (loop_lines body) n (all_done (S (length body)) s) s'' /\ alike (all_done 1 s'') s'.
Proof.
  intros c first cond body last s s' N IO Hf Ho Hb Hl Hc Hd Hi R. apply (loop_runs c first cond body last s s' Hf Ho Hb Hl Hc Hd Hi) in R as (f & s1 & W & ->).
  assert (Hn : ~ In NUL (skip_spaces cond)).
  { destruct Ho as (w & r & El & _ & Er). intros H. apply skip_spaces_In in H. apply Hf, skip_spaces_In. rewrite El. apply in_or_app. right. apply skip_spaces_In. rewrite Er. now right. }
  destruct (loop_unrolled c N IO _ _ Hn f f _ _ _ (like_start s _ _ (S (length body)) Hd Hi) W) as (n & s'' & U & L). rewrite body_lines in U by (intros b B; apply Hb, B).
  exists n, s''. split; [apply unrolled_skip, U|]. destruct (like_alike _ _ _ _ L) as (E1 & E2). split.
  - cbn. f_equal. exact E1.
  - rewrite E2. reflexivity.
Qed.
Print Assumptions C66_loop.

(** Every such sequence of lines is what the loop does, if its lines are harmless. *)
Theorem C66_loop_ends : forall c first cond body last n s s'', reads_numbers c -> ignores_owner c ->
  ~ In NUL first -> opens_loop first cond -> (forall b, In b body -> one_line b /\ ~ closes_loop b /\ harmless b /\ no_while b) -> ~ In NUL last -> closes_loop last ->
  g_do_while s = false -> g_iterating s = false ->
  unrolled c cond (loop_lines body) n (all_done (S (length body)) s) s'' ->
  exists s', runs c (loop_text first body last) s s' /\ alike (all_done 1 s'') s'.
Proof.
  intros c first cond body last n s s'' N IO Hf Ho Hb Hl Hc Hd Hi U.
  assert (Hn : ~ In NUL (skip_spaces cond)).
  { destruct Ho as (w & r & El & _ & Er). intros H. apply skip_spaces_In in H. apply Hf, skip_spaces_In. rewrite El. apply in_or_app. right. apply skip_spaces_In. rewrite Er. now right. }
  apply unrolled_skip in U. rewrite <- body_lines in U by (intros b B; apply Hb, B).
  destruct (unrolled_loop c N IO _ _ Hn _ _ _ U) with (t := with_while (all_done (S (length body)) s) false (skip_spaces cond) (concat (map (fun l => l ++ [LF]) (flat_map kept body)))) as (f & t' & W & L).
  - rewrite body_lines by (intros b B; apply Hb, B). intros l Hi'. unfold loop_lines in Hi'. apply in_app_or in Hi' as [Hi'|[<-|[]]].
    + apply in_flat_map in Hi' as (b & B & K). apply kept_line in K as ->. destruct (Hb b B) as (_ & _ & H1 & H2). destruct (skip_spaces_spec b) as (sp & E & _).
      destruct (tame_sub (skip_spaces b) b) as [T1 T2]; [exists sp; exact E|split; assumption|]. split; assumption.
    + split; [split; [intros []|intros a b E; destruct a; discriminate E|intros []|reflexivity]|]. intros a b rest E (w & Hw & E'). destruct a, b; try discriminate E. destruct w; [discriminate Hw|discriminate E'].
  - apply like_start; assumption.
  - exists (all_done 1 t'). split; [apply (loop_runs c first cond body last s _ Hf Ho (fun b B => conj (proj1 (Hb b B)) (proj1 (proj2 (Hb b B)))) Hl Hc Hd Hi); eauto|].
    destruct (like_alike _ _ _ _ L) as (E1 & E2). split; [cbn; f_equal; exact E1|rewrite E2; reflexivity].
Qed.
Print Assumptions C66_loop_ends.

(** Beside: a loop that counts to 3. *)
Definition state_of (r : res unit) : gst := match r with Done _ s => s | _ => ex_state end.
Definition is_done (r : res unit) : bool := match r with Done _ _ => true | _ => false end.
Lemma done_is : forall r, is_done r = true -> r = Done tt (state_of r).
Proof. intros [[] s| |] H; [reflexivity|discriminate H..]. Qed.
Definition ex_lines (l : list text) : res unit := each (parse_block ex_cfg 60) l ex_state.
Lemma ex_runs : forall l, is_done (ex_lines l) = true -> runs ex_cfg l ex_state (state_of (ex_lines l)).
Proof. intros l H. exists 60%nat. exact (done_is (ex_lines l) H). Qed.
Definition ex_first := txt " while [#1 LT 3] DO".
Definition ex_body := [txt "  #1 = [#1 + 1]"; txt ""; txt "; nothing"; txt "#2 = [#2 + #1]"].
Example C66_example_loop : is_done (ex_lines (loop_text ex_first ex_body (txt "END"))) = true /\
  g_params (state_of (ex_lines (loop_text ex_first ex_body (txt "END")))) = Some [(txt "1", f32_of_Z 3); (txt "2", f32_of_Z 6); (txt "5220", f32_of_Z 1)].
Proof. split; vm_compute; reflexivity. Qed.
(** Lines that meet the conditions of the theorems. *)
Definition good_line (b : text) : bool :=
  negb (existsb (fun x => Ascii.eqb x NUL || Ascii.eqb x LF || Ascii.eqb x "(" || Ascii.eqb x "?" || Ascii.eqb (to_upper x) "W") b) &&
  negb (text_eqb (firstn 3 (map to_upper (skip_spaces b))) (txt "END")) && one_minus " " [] b.
Lemma good_line_good : forall b, good_line b = true -> one_line b /\ ~ closes_loop b /\ harmless b /\ no_while b.
Proof.
  intros b H. apply andb_prop in H as (H & Hm). apply andb_prop in H as (H & He). apply negb_true_iff in H, He.
  assert (A : forall x, In x b -> Ascii.eqb x NUL || Ascii.eqb x LF || Ascii.eqb x "(" || Ascii.eqb x "?" || Ascii.eqb (to_upper x) "W" = false).
  { intros x Hx. destruct (_ || _) eqn:E; [|reflexivity]. rewrite <- H. symmetry. apply existsb_exists. eauto. }
  assert (Q : forall x, In x b -> x <> NUL /\ x <> LF /\ x <> "("%char /\ x <> "?"%char /\ to_upper x <> "W"%char).
  { intros x Hx. specialize (A x Hx). repeat apply orb_false_elim in A as (A & ?). repeat split; apply Ascii.eqb_neq; assumption. }
  split; [split; intros h; apply Q in h; tauto|]. split; [|split; [split|]].
  - intros (r & p & E & Hp). rewrite E, map_app, Hp in He. rewrite firstn_app in He. cbn in He. discriminate He.
  - intros h. apply Q in h. tauto.
  - intros a d ->. exfalso. destruct (Q "("%char) as (_ & _ & h & _); [apply in_or_app; right; now left|]. apply h. reflexivity.
  - intros h. apply Q in h. tauto.
  - exact Hm.
  - intros a d rest -> (w & Hw & ->). destruct w as [|x w]; [discriminate Hw|]. injection Hw as Hx _. destruct (Q x) as (_ & _ & _ & _ & h); [apply in_or_app; right; now left|]. apply h, Hx.
Qed.
Lemma good_lines : forall body, forallb good_line body = true -> forall b, In b body -> one_line b /\ ~ closes_loop b /\ harmless b /\ no_while b.
Proof. intros body H b B. apply good_line_good. rewrite forallb_forall in H. apply H, B. Qed.
Example C66_example_hypotheses : reads_numbers ex_cfg /\ ignores_owner ex_cfg /\ opens_loop ex_first (txt "#1 LT 3] DO") /\ closes_loop (txt "END") /\
  (forall b, In b ex_body -> one_line b /\ ~ closes_loop b /\ harmless b /\ no_while b) /\ g_do_while ex_state = false /\ g_iterating ex_state = false /\
  loop_lines ex_body = [txt "#1 = [#1 + 1]"; txt "#2 = [#2 + #1]"; []].
Proof.
  split; [apply ex_reads|]. split; [intros ev; reflexivity|]. split; [exists (txt "while"), (txt " [#1 LT 3] DO"); repeat split; reflexivity|].
  split; [exists [], (txt "END"); split; reflexivity|]. split; [apply good_lines; reflexivity|]. repeat split; reflexivity.
Qed.

(** Finding: lines that come from a connection are given to the parser without the newline at their ends (linebuf-reader.cc, gcode-streamer.cc),
    and the lines of a loop are then put together as one. Here a comment hides the line behind it. *)
Theorem C66_streamed_refuted : ~ (forall c first body last s s1 s2, reads_numbers c -> ignores_owner c -> g_do_while s = false -> g_iterating s = false ->
  (forall b, In b body -> one_line b /\ ~ closes_loop b /\ harmless b /\ no_while b) ->
  runs c (loop_text first body last) s s1 -> runs c (first :: body ++ [last]) s s2 -> g_params s1 = g_params s2).
Proof.
  intros H. set (first := txt "WHILE [#1 EQ 0] DO"). set (body := [txt "#1=1;c"; txt "#2=7"]).
  specialize (H ex_cfg first body (txt "END") ex_state (state_of (ex_lines (loop_text first body (txt "END")))) (state_of (ex_lines (first :: body ++ [txt "END"]))) ex_reads (fun _ => eq_refl) eq_refl eq_refl
    (good_lines body eq_refl)).
  assert (P1 : g_params (state_of (ex_lines (loop_text first body (txt "END")))) = Some [(txt "1", f32_of_Z 1); (txt "2", f32_of_Z 7); (txt "5220", f32_of_Z 1)]) by (vm_compute; reflexivity).
  assert (P2 : g_params (state_of (ex_lines (first :: body ++ [txt "END"]))) = Some [(txt "1", f32_of_Z 1); (txt "5220", f32_of_Z 1)]) by (vm_compute; reflexivity).
  rewrite P1, P2 in H. assert (Q : Some [(txt "1", f32_of_Z 1); (txt "2", f32_of_Z 7); (txt "5220", f32_of_Z 1)] = Some [(txt "1", f32_of_Z 1); (txt "5220", f32_of_Z 1)]); [apply H|discriminate Q].
  - apply ex_runs. vm_compute. reflexivity.
  - apply ex_runs. vm_compute. reflexivity.
Qed.
Print Assumptions C66_streamed_refuted.
