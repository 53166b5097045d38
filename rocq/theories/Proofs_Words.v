(** Reading the words of a line. *)
From Coq Require Import SpecFloat.
From Verif Require Import Base Text Model_StringUtil Model_Float Model_Lexer Model_Axis Model_Gcode Spec_Lexer Proofs_Lexer
  Spec_Expr Proofs_Expr Spec_Line Proofs_Value Proofs_Fuel Proofs_Total Spec_Words.

(** States in which words have the same values. *)
Definition alike (s s' : gst) : Prop := g_params s' = g_params s /\ g_pos s' = g_pos s /\ g_do_while s' = g_do_while s.
Lemma alike_refl : forall s, alike s s.
Proof. intros s. repeat split. Qed.
Lemma alike_trans : forall a b d, alike a b -> alike b d -> alike a d.
Proof. intros a b d (H1 & H2 & H3) (H1' & H2' & H3'). repeat split; congruence. Qed.
Lemma alike_sym : forall a b, alike a b -> alike b a.
Proof. intros a b (H1 & H2 & H3). repeat split; congruence. Qed.

Lemma param_alike : forall s s' name, alike s s' -> param s' name = param s name.
Proof.
  intros s s' name (H1 & H2 & _). unfold param, read_parameter, bind, get. cbv beta iota zeta. rewrite H1.
  destruct (g_params s) as [m|]; [|reflexivity]. destruct (pm_find _ m); [reflexivity|].
  destruct (trim_whitespace name) as [|x [|y n]]; [reflexivity| |reflexivity]. destruct (letter_axis x); [|reflexivity].
  unfold bind, get, ret. now rewrite H2.
Qed.
Lemma operand_alike : forall c s s', alike s s' ->
  (forall t r rest, operand c s t r rest -> operand c s' t r rest) /\
  (forall k o d m t r rest, level c s k o d m t r rest -> level c s' k o d m t r rest).
Proof.
  intros c s s' A. apply (grammar_ind c s); intros.
  - eapply op_number; eauto.
  - rewrite <- (param_alike s s' name A). apply op_name; auto.
  - rewrite <- (param_alike s s' _ A). apply op_angle; auto.
  - rewrite <- (param_alike s s' _ A). eapply op_index; eauto.
  - eapply op_bracket; eauto.
  - eapply op_function; eauto.
  - eapply op_atan; eauto.
  - apply lv_operand; auto.
  - eapply lv_minus; eauto.
  - eapply lv_binary; eauto.
Qed.
Lemma word_alike : forall c s s' line l v rest, alike s s' -> word c s line l v rest -> word c s' line l v rest.
Proof.
  intros c s s' line l v rest A (x & r & r' & H1 & H2 & H3 & H4 & H5 & H6 & H7). exists x, r, r'.
  repeat (split; [assumption|]). split; [|assumption]. now apply (operand_alike c s s' A).
Qed.
Lemma words_alike : forall c s s' line ws rest, alike s s' -> words c s line ws rest -> words c s' line ws rest.
Proof. intros c s s' line ws rest A H. induction H; [constructor|]. econstructor; eauto. eapply word_alike; eauto. Qed.

Lemma skip_comment_closed : forall w r, ~ In ")"%char w -> skip_comment (w ++ ")"%char :: r) = Some r.
Proof.
  induction w as [|x w IH]; intros r H; cbn [app skip_comment]; [reflexivity|].
  destruct (Ascii.eqb_spec x ")"); [subst; exfalso; apply H; now left|]. apply IH. intros X. apply H. now right.
Qed.
Lemma opens_sub : forall line l, opens line l -> sub_of l line.
Proof.
  intros line l [<-|(w & r & E & _ & ->)].
  - destruct (skip_spaces_spec line) as (sp & E & _). now exists sp.
  - destruct (skip_spaces_spec line) as (sp & E1 & _). destruct (skip_spaces_spec r) as (sp' & E2 & _).
    exists (sp ++ "("%char :: w ++ ")"%char :: sp'). rewrite E1, E. rewrite E2 at 1. rewrite <- !app_assoc. cbn. now rewrite <- !app_assoc.
Qed.
Lemma opens_skip : forall line l, opens line l -> skip_spaces l = l.
Proof. intros line l [<-|(w & r & E & _ & ->)]; apply skip_spaces_idem. Qed.
Lemma NUL_sub' : forall a b, sub_of a b -> ~ In NUL b -> ~ In NUL a.
Proof. intros a b (w & ->) H Hi. apply H. apply in_or_app. auto. Qed.

Lemma expect_not : forall line e k, ~ In NUL line -> skip_spaces line = line -> 0 < e ->
  (forall k', In (k', e) control_keywords -> map to_upper k' = k) -> (forall t, ~ written k line t) ->
  expect line e = ret (false, line).
Proof.
  intros line e k Hn Hs He Hk Hw. destruct (expect_ok line e Hn He) as ([|] & rest & E & H1 & H2).
  - exfalso. destruct (H2 eq_refl) as (_ & _ & k' & p & r & Hi & Hl & Hp). apply (Hw r). exists p.
    rewrite Hp, (Hk k' Hi). split; [reflexivity|]. now rewrite <- Hl.
  - rewrite E, (H1 eq_refl). reflexivity.
Qed.
Lemma expect_not_if : forall line, ~ In NUL line -> skip_spaces line = line -> (forall t, ~ written (txt "IF") line t) ->
  expect line CK_IF = ret (false, line).
Proof.
  intros line Hn Hs Hw. apply expect_not with (k := txt "IF"); auto; [reflexivity|].
  intros k' Hi. cbn in Hi. repeat (destruct Hi as [Hi|Hi]; [first [discriminate | injection Hi as <-; reflexivity]|]). destruct Hi.
Qed.
Lemma expect_not_while : forall line, ~ In NUL line -> skip_spaces line = line -> (forall t, ~ written (txt "WHILE") line t) ->
  expect line CK_WHILE = ret (false, line).
Proof.
  intros line Hn Hs Hw. apply expect_not with (k := txt "WHILE"); auto; [reflexivity|].
  intros k' Hi. cbn in Hi. repeat (destruct Hi as [Hi|Hi]; [first [discriminate | injection Hi as <-; reflexivity]|]). destruct Hi.
Qed.

Lemma alpha_not : forall x, is_alpha x = true ->
  (is_space x || Ascii.eqb x ";" || Ascii.eqb x "%" || Ascii.eqb x "(" || Ascii.eqb x "#" || Ascii.eqb x "*") = false.
Proof.
  intros x H. pose proof (all_ascii (fun x => negb (is_alpha x) || negb (is_space x || Ascii.eqb x ";" || Ascii.eqb x "%" || Ascii.eqb x "(" || Ascii.eqb x "#" || Ascii.eqb x "*"))
    ltac:(vm_compute; reflexivity) x) as A. cbv beta in A. rewrite H in A. cbn [negb orb] in A. now destruct (_ || _).
Qed.

Section Words.
Variable c : gcfg.

Lemma gp_word : forall s line l v rest, word c s line l v rest -> calm s ->
  exists n, forall f pb, (n <= f)%nat -> parse_pair c f pb line s = Done (Some (l, v, rest)) s.
Proof.
  intros s line l v rest (x & r & r' & Hn & Ho & Ha & -> & Hk & Hop & ->) Hc.
  destruct (proj1 (evaluates c s) _ _ _ Hop) as [(n & H) _]. exists (S n). intros [|f] pb Hf; [lia|]. specialize (H f ltac:(lia)). cbv beta iota in H.
  pose proof (alpha_not x Ha) as N. repeat (apply orb_false_elim in N as [N ?]).
  pose proof (opens_sub _ _ Ho) as Sb. pose proof (opens_skip _ _ Ho) as Sk. pose proof (NUL_sub' _ _ Sb Hn) as Hx.
  cbn [parse_pair]. cbv zeta.
  assert (E : same_place (skip_spaces line) [] || starts ";" (skip_spaces line) || starts "%" (skip_spaces line) = false /\
     (if starts "(" (skip_spaces line) then match skip_comment (skip_spaces line) with None => bad | Some r => ret (skip_spaces r) end
      else ret (skip_spaces line)) = @ret text (x :: r)).
  { destruct Ho as [->|(w & r0 & E & Hw & ->)].
    - cbn [starts same_place length Nat.eqb]. repeat match goal with H : _ = false |- _ => rewrite H end. split; reflexivity.
    - rewrite E. split; [reflexivity|]. cbn [starts]. rewrite Ascii.eqb_refl.
      change ("("%char :: w ++ ")"%char :: r0) with (("("%char :: w) ++ ")"%char :: r0). rewrite skip_comment_closed; [reflexivity|].
      intros [X|X]; [discriminate|contradiction]. }
  destruct E as (-> & ->). unfold bind at 1. unfold get at 1. unfold calm in Hc. rewrite Hc. rewrite bind_ret.
  cbn [same_place length Nat.eqb]. rewrite expect_not_if by (auto; intros t; apply Hk). rewrite bind_ret.
  rewrite expect_not_while by (auto; intros t; apply Hk). rewrite bind_ret.
  repeat match goal with H : Ascii.eqb x _ = false |- _ => rewrite H end.
  destruct r as [|y r]; [exfalso; apply (proj1 (shorter c s)) in Hop; cbn in Hop; lia|].
  bd H. reflexivity.
Qed.

Lemma gp_end : forall s line, line_end line -> ~ In NUL line -> calm s ->
  forall f pb, (1 <= f)%nat -> parse_pair c f pb line s = Done None s.
Proof.
  intros s line He Hn Hc [|f] pb Hf; [lia|]. cbn [parse_pair]. cbv zeta.
  assert (E : same_place (skip_spaces line) [] || starts ";" (skip_spaces line) || starts "%" (skip_spaces line) = true \/ opens line []).
  { destruct He as [->|[(r & [-> | ->])|H]]; auto; left; reflexivity. }
  destruct (same_place (skip_spaces line) [] || starts ";" (skip_spaces line) || starts "%" (skip_spaces line)) eqn:B; [reflexivity|].
  destruct E as [|[E|(w & r0 & E & Hw & E2)]]; [discriminate|rewrite E in B; discriminate|].
  unfold bind at 1. unfold get at 1. unfold calm in Hc. rewrite Hc. rewrite E. cbn [starts]. rewrite Ascii.eqb_refl.
  change ("("%char :: w ++ ")"%char :: r0) with (("("%char :: w) ++ ")"%char :: r0). rewrite skip_comment_closed; [|intros [X|X]; [discriminate|contradiction]].
  rewrite bind_ret, <- E2. reflexivity.
Qed.

Lemma upper_upper : forall x, to_upper (to_upper x) = to_upper x.
Proof. intros x. apply Ascii.eqb_eq. revert x. apply (all_ascii (fun x => Ascii.eqb (to_upper (to_upper x)) (to_upper x))). vm_compute. reflexivity. Qed.
Lemma word_upper : forall s line l v rest, word c s line l v rest -> to_upper l = l.
Proof. intros s line l v rest (x & r & r' & _ & _ & _ & -> & _). apply upper_upper. Qed.
Lemma axis_upper : forall l, to_upper l = l -> is_axis_letter l = match letter_axis l with Some _ => true | None => false end.
Proof.
  intros l H. unfold letter_axis. rewrite H. unfold is_axis_letter. destruct (find _ all_axes) eqn:E.
  - apply existsb_exists. apply find_some in E. eauto.
  - apply not_true_is_false. intros X. apply existsb_exists in X as (a & Ha & X). pose proof (find_none _ _ E a Ha). cbv beta in *. congruence.
Qed.
Lemma axis_letter_of : forall l a, to_upper l = l -> letter_axis l = Some a -> l = axis_letter a.
Proof. intros l a H E. unfold letter_axis in E. rewrite H in E. apply find_some in E as (_ & E). apply Ascii.eqb_eq in E. auto. Qed.
Lemma letter_axis_letter : forall a, letter_axis (axis_letter a) = Some a.
Proof. destruct a; reflexivity. Qed.
Lemma axis_letter_eq : forall a b, Ascii.eqb (axis_letter a) (axis_letter b) = axis_eqb a b.
Proof. destruct a, b; reflexivity. Qed.

(** Reading the words one after the other. *)
Fixpoint over {A} (step : A -> ascii -> fl -> G (bool * A)) (acc : A) (ws : list (ascii * fl)) : G A :=
  match ws with
  | [] => ret acc
  | (l, v) :: ws => '(go, acc') <- step acc l v ;; if go : bool then over step acc' ws else bad
  end.

Lemma args_over : forall A (step : A -> ascii -> fl -> G (bool * A)) mine,
  (forall acc l v s, to_upper l = l -> exists acc' s', step acc l v s = Done (mine l, acc') s' /\ alike s s' /\ (mine l = false -> acc' = acc /\ s' = s)) ->
  forall s0 line ws rest, ~ In NUL rest -> words c s0 line ws rest -> only mine ws -> ends_at c s0 mine rest ->
  forall acc s, alike s0 s -> calm s ->
  exists acc' s', over step acc ws s = Done acc' s' /\ alike s s' /\
    exists n, forall k f pb, (n <= k)%nat -> (n <= f)%nat -> args k (parse_pair c f pb) step acc line s = Done (acc', rest) s'.
Proof.
  intros A step mine St s0 line ws rest Hn W. induction W as [line|line l v line1 ws rest Hw W IH]; intros Ho He acc s Ha Hc.
  - exists acc, s. split; [reflexivity|]. split; [apply alike_refl|]. destruct He as [He|(l & v & r & Hw & Hm)].
    + exists 1%nat. intros [|k] f pb Hk Hf; [lia|]. cbn [args]. now rewrite (bind_done _ _ _ _ _ _ _ (gp_end s line He Hn Hc f pb Hf)).
    + destruct (gp_word _ _ _ _ _ (word_alike _ _ _ _ _ _ _ Ha Hw) Hc) as (n & H). exists (S n). intros [|k] f pb Hk Hf; [lia|].
      cbn [args]. rewrite (bind_done _ _ _ _ _ _ _ (H f pb ltac:(lia))). destruct (St acc l v s (word_upper _ _ _ _ _ Hw)) as (acc' & s' & E & _ & Z).
      rewrite Hm in E. destruct (Z Hm) as (-> & ->). rewrite (bind_done _ _ _ _ _ _ _ E). reflexivity.
  - inversion Ho as [|? ? Hl Ho']; subst. cbn [fst] in Hl. destruct (St acc l v s (word_upper _ _ _ _ _ Hw)) as (acc1 & s1 & E & A1 & _). rewrite Hl in E.
    assert (Hc1 : calm s1) by (unfold calm in *; destruct A1 as (_ & _ & ->); exact Hc).
    destruct (IH Hn Ho' He acc1 s1 (alike_trans _ _ _ Ha A1) Hc1) as (acc' & s' & E2 & A2 & n & H2).
    exists acc', s'. split; [cbn [over]; now rewrite (bind_done _ _ _ _ _ _ _ E)|]. split; [eapply alike_trans; eauto|].
    destruct (gp_word _ _ _ _ _ (word_alike _ _ _ _ _ _ _ Ha Hw) Hc) as (n0 & H0). exists (S (n + n0)). intros [|k] f pb Hk Hf; [lia|].
    cbn [args]. rewrite (bind_done _ _ _ _ _ _ _ (H0 f pb ltac:(lia))). rewrite (bind_done _ _ _ _ _ _ _ E). apply H2; lia.
Qed.

Lemma last_cons : forall x v ws l, last_value l ((x, v) :: ws) =
  match last_value l ws with Some w => Some w | None => if Ascii.eqb x l then Some v else None end.
Proof.
  intros x v ws l. unfold last_value. cbn [fold_left fst snd].
  assert (H : forall r, fold_left (fun r w => if Ascii.eqb (fst w) l then Some (snd w) else r) ws r =
     match fold_left (fun r w => if Ascii.eqb (fst w) l then Some (snd w) else r) ws None with Some w => Some w | None => r end).
  { induction ws as [|[y w] ws IH] using rev_ind; intros r; [reflexivity|]. rewrite !fold_left_app. cbn [fold_left fst snd].
    destruct (Ascii.eqb y l); [reflexivity|]. apply IH. }
  apply H.
Qed.

(** From a command to a line. *)
Lemma leads_trans : forall line s l1 s1 l2 s2, leads c line s l1 s1 -> leads c l1 s1 l2 s2 -> leads c line s l2 s2.
Proof. intros line s l1 s1 l2 s2 H1 H2 r Hr. apply H1, H2, Hr. Qed.

Lemma parse_block_S : forall F line s, parse_block c (S F) line s = bind (block_loop c F (parse_pair c F (parse_block c F)) (Some line)) (fun _ => tell c EBlockDone) s.
Proof. reflexivity. Qed.
Lemma lead : forall s line letter v l rest s1, word c s line letter v l -> calm s ->
  (exists n, forall f F pb, (n <= f)%nat -> (n <= F)%nat -> run_command c f (parse_pair c F pb) letter v l (g_first_spline s) (begun s) = Done (Some rest) s1) ->
  leads c line s rest s1.
Proof.
  intros s line letter v l rest s1 Hw Hc (n & Hn) r (m & Hm). destruct (gp_word _ _ _ _ _ Hw Hc) as (k & Hk).
  assert (B : forall f F pb, (n <= f)%nat -> (n <= F)%nat -> (k <= F)%nat ->
     block_loop c (S f) (parse_pair c F pb) (Some line) s = block_loop c f (parse_pair c F pb) (Some rest) s1).
  { intros f F pb H1 H2 H3. cbn [block_loop]. rewrite (bind_done _ _ _ _ _ _ _ (Hk F pb H3)).
    specialize (Hn f F pb H1 H2). unfold begun in Hn. unfold tell, emit, bind, get, when, upd, ret. cbv beta iota zeta.
    destruct (g_running s) eqn:R; cbn [negb];
      match type of Hn with run_command _ _ ?gp _ _ _ ?X ?Y = _ =>
        match goal with |- context [run_command c f gp letter v l ?X' ?Y'] =>
          change (run_command c f gp letter v l X' Y') with (run_command c f gp letter v l X Y) end end; now rewrite Hn. }
  exists (S (S (n + k + m))). intros [|F] HF; [lia|]. destruct F as [|F]; [lia|]. rewrite parse_block_S.
  specialize (Hm (S F) ltac:(lia)) as Hm1. specialize (Hm (S (S F)) ltac:(lia)) as Hm2. rewrite parse_block_S in Hm1, Hm2.
  unfold bind at 1. set (pb := parse_block c (S F)) in *. rewrite B by lia.
  assert (M1 := more_block_loop c F F (parse_pair c F (parse_block c F)) (parse_pair c (S F) pb) (Some rest) (le_n _)
                 (fun t => more_parse_pair c F (S F) _ _ t ltac:(lia) (fun t => more_parse_block c F (S F) t ltac:(lia))) s1).
  assert (M2 := more_block_loop c F (S F) (parse_pair c (S F) pb) (parse_pair c (S F) pb) (Some rest) ltac:(lia) (fun t => more_refl _ _) s1).
  unfold bind at 1 in Hm1. unfold bind at 1 in Hm2.
  destruct M2 as [M2|M2]; [|rewrite M2; exact Hm2]. rewrite M2. destruct M1 as [M1|M1]; rewrite M1 in Hm1.
  - exact Hm1.
  - rewrite M2 in Hm1. exact Hm1.
Qed.

Lemma lead_end : forall s line, line_end line -> ~ In NUL line -> calm s -> outcome c line s (Done tt (seen [EBlockDone] s)).
Proof.
  intros s line He Hn Hc. exists 3%nat. intros [|[|F]] HF; [lia|lia|]. rewrite parse_block_S. unfold bind at 1.
  cbn [block_loop]. rewrite (bind_done _ _ _ _ _ _ _ (gp_end s line He Hn Hc (S F) _ ltac:(lia))). reflexivity.
Qed.
End Words.

(** A check for words with plain numbers. *)
Definition keyword_at (k t : text) : bool := text_eqb (map to_upper (firstn (length k) t)) k.
Definition read_word (c : gcfg) (line : text) : option (ascii * fl * text) :=
  if existsb (Ascii.eqb NUL) line then None
  else match skip_spaces line with
  | x :: r =>
      if is_alpha x && negb (keyword_at (txt "IF") (x :: r)) && negb (keyword_at (txt "WHILE") (x :: r)) then
        match skip_spaces r with
        | y :: q =>
            if is_alpha y || Ascii.eqb y "[" || Ascii.eqb y "#" then None
            else match gc_number c (y :: q) with
                 | Some (v, r') => if Nat.ltb (length r') (length (y :: q)) then Some (to_upper x, v, skip_spaces r') else None
                 | None => None
                 end
        | [] => None
        end
      else None
  | [] => None
  end.
Fixpoint read_words (c : gcfg) (n : nat) (line : text) : option (list (ascii * fl) * text) :=
  match n with
  | O => Some ([], line)
  | S n => match read_word c line with
           | None => None
           | Some (l, v, rest) => match read_words c n rest with None => None | Some (ws, r) => Some ((l, v) :: ws, r) end
           end
  end.
Lemma text_eqb_refl : forall a, text_eqb a a = true.
Proof. induction a; cbn; auto. now rewrite Ascii.eqb_refl. Qed.
Lemma text_eqb_eq : forall a b, text_eqb a b = true -> a = b.
Proof. induction a as [|x a IH]; intros [|y b] H; cbn in H; try discriminate; auto. apply andb_prop in H as [H1 H2]. apply Ascii.eqb_eq in H1 as ->. f_equal. auto. Qed.
Lemma keyword_at_right : forall k t rest, keyword_at k t = false -> ~ written k t rest.
Proof.
  intros k t rest H (w & <- & ->). unfold keyword_at in H. rewrite map_length, firstn_app, Nat.sub_diag, firstn_all, app_nil_r, text_eqb_refl in H. discriminate.
Qed.
Lemma read_word_right : forall c s line l v rest, read_word c line = Some (l, v, rest) -> word c s line l v rest.
Proof.
  intros c s line l v rest H. unfold read_word in H. destruct (existsb (Ascii.eqb NUL) line) eqn:N; [discriminate|].
  destruct (skip_spaces line) as [|x r] eqn:El; [discriminate|].
  destruct (is_alpha x && _ && _) eqn:A; [|discriminate]. apply andb_prop in A as [A A3]. apply andb_prop in A as [A1 A2].
  destruct (skip_spaces r) as [|y q] eqn:Er; [discriminate|].
  destruct (is_alpha y || Ascii.eqb y "[" || Ascii.eqb y "#") eqn:B; [discriminate|]. apply orb_false_elim in B as [B B3]. apply orb_false_elim in B as [B1 B2].
  destruct (gc_number c (y :: q)) as [[v' r']|] eqn:G; [|discriminate]. destruct (Nat.ltb_spec (length r') (length (y :: q))); [|discriminate].
  injection H as <- <- <-. exists x, r, r'. split.
  { intros X. apply not_true_iff_false in N. apply N. apply existsb_exists. exists NUL. split; [exact X|apply Ascii.eqb_refl]. }
  split; [now left|]. split; [exact A1|]. split; [reflexivity|]. split.
  { intros t. split; apply keyword_at_right; apply negb_true_iff; assumption. }
  split; [|reflexivity]. rewrite Er. eapply op_number; eauto.
  - eapply skip_spaces_head; eauto.
  - now apply Ascii.eqb_neq.
  - now apply Ascii.eqb_neq.
Qed.
Lemma read_words_right : forall c s n line ws rest, read_words c n line = Some (ws, rest) -> words c s line ws rest.
Proof.
  induction n as [|n IH]; intros line ws rest H; cbn in H; [injection H as <- <-; constructor|].
  destruct (read_word c line) as [[[l v] r]|] eqn:E; [|discriminate]. destruct (read_words c n r) as [[ws' r']|] eqn:E'; [|discriminate].
  injection H as <- <-. econstructor; [eapply read_word_right; eauto|eauto].
Qed.
Lemma only_right : forall mine ws, forallb (fun w => mine (fst w)) ws = true -> only mine ws.
Proof. intros mine ws H. apply Forall_forall. rewrite forallb_forall in H. exact H. Qed.
Lemma no_NUL : forall t, existsb (Ascii.eqb NUL) t = false -> ~ In NUL t.
Proof. intros t H X. apply not_true_iff_false in H. apply H. apply existsb_exists. exists NUL. split; [exact X|apply Ascii.eqb_refl]. Qed.
