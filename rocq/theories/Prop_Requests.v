(** Theorems about requests to the machine and about probing: C68, C69. *)
From Coq Require Import Reals SpecFloat.
From Flocq Require Import Core IEEE754.BinarySingleNaN.
From Verif Require Import Base Text Model_StringUtil Model_Float Model_Lexer Model_Axis Model_Number Model_Gcode
  Spec_Expr Proofs_Expr Spec_Line Proofs_Value Proofs_Fuel Proofs_Total Spec_Words Proofs_Words Spec_Moves Proofs_Moves Spec_Real Proofs_Real Spec_Coords Proofs_Offset Spec_Params Proofs_Params Proofs_Coords Prop_Expr Prop_Coords Spec_Requests.
Open Scope Z_scope.

(** C68: the commands without parameters ask the receiver once for what the table says, and
    change nothing else. *)
Theorem C68_request : forall c s line v rest e, g_do_while s = false -> word c s line "M" v rest -> In (int_of c v, e) requests ->
  leads c line s rest (seen [e; ECommandDone "M" v] (begun s)).
Proof.
  intros c s line v rest e Hc Hw He. eapply lead; [exact Hw|exact Hc|]. exists 0%nat. intros f F pb _ _.
  unfold run_command, run_M. cbn [Ascii.eqb Bool.eqb]. cbv zeta. unfold requests in He. cbn [In] in He.
  repeat match goal with H : _ \/ _ |- _ => destruct H as [H|H]; [injection H as Hv <-; rewrite <- Hv; reflexivity|] end. contradiction.
Qed.
Print Assumptions C68_request.

(** C68: those with a parameter ask with the value of the parameter. *)
Theorem C68_parameter : forall c s line letter v l p w rest ask after, g_do_while s = false ->
  word c s line letter v l -> word c s l p w rest -> In (letter, int_of c v, p, ask, after) with_parameter ->
  leads c line s rest (seen ([ask w] ++ after ++ [ECommandDone letter v]) (begun s)).
Proof.
  intros c s line letter v l p w rest ask after Hc Hw Hp Ht.
  destruct (gp_word c _ _ _ _ _ (word_alike _ _ _ _ _ _ _ (alike_begun s) Hp) (calm_begun s Hc)) as (n & H).
  eapply lead; [exact Hw|exact Hc|]. exists n. intros f F pb _ HF. specialize (H F pb HF).
  unfold run_command, run_M, run_G. cbv zeta. unfold with_parameter in Ht. cbn [In] in Ht.
  repeat match type of Ht with _ \/ _ => destruct Ht as [Ht|Ht]; [injection Ht as <- Hv <- <- <-; rewrite <- Hv; cbn [Ascii.eqb Bool.eqb Z.eqb Pos.eqb orb]; unfold set_param;
     unfold bind; rewrite H; reflexivity|] end. contradiction.
Qed.
Print Assumptions C68_parameter.

(** C68: without the parameter nothing is asked but to wait. *)
Theorem C68_no_parameter : forall c s line letter v rest p ask after, g_do_while s = false -> ~ In NUL rest ->
  word c s line letter v rest -> ends_at c s (Ascii.eqb p) rest -> In (letter, int_of c v, p, ask, after) with_parameter ->
  leads c line s rest (seen (after ++ [ECommandDone letter v]) (begun s)).
Proof.
  intros c s line letter v rest p ask after Hc Hn Hw He Ht.
  assert (X : exists n r, (forall F pb, (n <= F)%nat -> parse_pair c F pb rest (begun s) = Done r (begun s)) /\
                match r with Some (l, _, _) => Ascii.eqb l p = false | None => True end).
  { destruct (ends_alike c _ _ _ _ (alike_begun s) He) as [E|(l & w & r & E & N)].
    - exists 1%nat, None. split; [|exact I]. intros F pb HF. apply gp_end; auto. apply calm_begun, Hc.
    - destruct (gp_word c _ _ _ _ _ E (calm_begun s Hc)) as (n & H). exists n, (Some (l, w, r)). split; [intros; apply H; auto|]. rewrite Ascii.eqb_sym. exact N. }
  destruct X as (n & r & H & N). eapply lead; [exact Hw|exact Hc|]. exists n. intros f F pb _ HF. specialize (H F pb HF).
  unfold run_command, run_M, run_G. cbv zeta. unfold with_parameter in Ht. cbn [In] in Ht.
  repeat match type of Ht with _ \/ _ => destruct Ht as [Ht|Ht]; [injection Ht as <- Hv <- <- <-; rewrite <- Hv; cbn [Ascii.eqb Bool.eqb Z.eqb Pos.eqb orb]; unfold set_param;
     unfold bind; rewrite H; destruct r as [[[l w] r]|]; [rewrite N|]; reflexivity|] end. contradiction.
Qed.
Print Assumptions C68_no_parameter.

(** C68: M501 replaces the parameters by those loaded, and nothing else. *)
Theorem C68_load : forall c s line v rest m, g_do_while s = false -> word c s line "M" v rest -> int_of c v = 501 -> g_params s = Some m ->
  let asked := seen [ELoad] (begun s) in
  leads c line s rest (seen [ECommandDone "M" v] (with_params asked (Some (r_load (gc_reply c (g_events asked)) m)))).
Proof.
  intros c s line v rest m Hc Hw Hv Hm asked. eapply lead; [exact Hw|exact Hc|]. exists 0%nat. intros f F pb _ _.
  unfold run_command, run_M. cbn [Ascii.eqb Bool.eqb]. cbv zeta. rewrite Hv. cbn [Z.eqb Pos.eqb orb]. 
  assert (E : g_params (begun s) = Some m) by (destruct (begun_fields s) as ((-> & _) & _); exact Hm).
  unfold bind at 1 2. rewrite emit_seen. unfold line_is, bind, upd, ret. fold asked. change (ELoad :: g_events (begun s)) with (g_events asked). change (g_params asked) with (g_params (begun s)). rewrite E. reflexivity.
Qed.
Print Assumptions C68_load.

(** C68: every other command is passed on to the receiver with the rest of the line. If it
    takes the line (returns none) the line is over; if it reads words and returns the place
    behind them, the line goes on there. *)
Lemma foreign_run : forall c s f gp letter v line ls, to_upper letter = letter -> foreign c letter v -> run_command c f gp letter v line ls s =
  bind (unprocessed c gp letter v line) (fun l => bind (tell c (ECommandDone letter v)) (fun _ => ret l)) s.
Proof.
  intros c s f gp letter v line ls U [(-> & H)|[(-> & H)|(H & Ha)]]; unfold run_command.
  - cbn [Ascii.eqb Bool.eqb]. replace (run_G c f gp v line ls) with (unprocessed c gp "G" v line); [reflexivity|]. unfold run_G. cbv zeta. unfold known_G in H. cbn [In] in H.
    set (n := int_of c v) in *. clearbody n.
    repeat match goal with |- context [?a =? ?b] => replace (a =? b) with false by lia end. cbn [orb].
    replace ((54 <=? n) && (n <=? 59)) with false by lia. reflexivity.
  - cbn [Ascii.eqb Bool.eqb]. replace (run_M c f gp v line) with (unprocessed c gp "M" v line); [reflexivity|]. unfold run_M. cbv zeta. unfold known_M in H. cbn [In] in H.
    set (n := int_of c v) in *. clearbody n.
    repeat match goal with |- context [?a =? ?b] => replace (a =? b) with false by lia end. reflexivity.
  - cbn [In] in H. destruct (Ascii.eqb_spec letter "G"); [subst; tauto|]. destruct (Ascii.eqb_spec letter "M"); [subst; tauto|].
    destruct (Ascii.eqb_spec letter "F"); [subst; tauto|]. destruct (Ascii.eqb_spec letter "N"); [subst; tauto|].
    rewrite (axis_upper letter U) in Ha. destruct (letter_axis letter); [discriminate|reflexivity].
Qed.
Lemma pairs_read : forall c s line ws rest, calm s -> words c s line ws rest ->
  exists n l, length l = S (length ws) /\ nth (length ws) l [] = rest /\ forall F pb, (n <= F)%nat -> read_pairs (parse_pair c F pb) (length ws) line s = Done l s.
Proof.
  intros c s line ws rest Hc W. induction W as [line|line letter v l ws rest Hw W IH].
  - exists 0%nat, [line]. split; [reflexivity|]. split; [reflexivity|]. intros. reflexivity.
  - destruct IH as (n & r & L & N & H). destruct (gp_word c _ _ _ _ _ Hw Hc) as (k & Hk). exists (n + k)%nat, (line :: r).
    split; [cbn; lia|]. split; [exact N|]. intros F pb HF. cbn [length read_pairs]. unfold bind at 1. rewrite Hk by lia. unfold bind at 1. rewrite H by lia. reflexivity.
Qed.
Theorem C68_foreign : forall c s line letter v l ws rest, g_do_while s = false -> word c s line letter v l -> foreign c letter v ->
  let asked := seen [EUnprocessed letter v l] (begun s) in
  let answer := gc_reply c (g_events asked) in
  words c s l ws rest -> r_parse answer = length ws -> r_keep answer = Some (length ws) ->
  leads c line s rest (seen [ECommandDone letter v] asked).
Proof.
  intros c s line letter v l ws rest Hc Hw Hf asked answer W Hp Hk.
  destruct (pairs_read c asked l ws rest) as (n & r & L & N & H).
  { apply (calm_begun s Hc). } { eapply words_alike; [|exact W]. eapply alike_trans; [apply alike_begun|apply alike_seen]. }
  eapply lead; [exact Hw|exact Hc|]. exists n. intros f F pb _ HF. rewrite foreign_run by (eauto using word_upper).
  unfold unprocessed. unfold bind at 1 2. rewrite emit_seen. unfold bind at 1. fold asked.
  change (EUnprocessed letter v l :: g_events (begun s)) with (g_events asked). fold answer. rewrite Hp, H by exact HF. rewrite Hk.
  unfold ret at 1. rewrite (nth_indep r _ []) by lia. rewrite N. reflexivity.
Qed.
Print Assumptions C68_foreign.
Theorem C68_foreign_taken : forall c s line letter v l, g_do_while s = false -> word c s line letter v l -> foreign c letter v ->
  let asked := seen [EUnprocessed letter v l] (begun s) in
  let answer := gc_reply c (g_events asked) in
  r_parse answer = 0%nat -> r_keep answer = None ->
  outcome c line s (Done tt (seen [ECommandDone letter v; EBlockDone] asked)).
Proof.
  intros c s line letter v l Hc Hw Hf asked answer Hp Hk.
  destruct (gp_word c _ _ _ _ _ Hw Hc) as (n & H). exists (S (S (S n))). intros [|[|F]] HF; [lia|lia|]. rewrite parse_block_S. unfold bind at 1.
  cbn [block_loop]. rewrite (bind_done _ _ _ _ _ _ _ (H (S F) _ ltac:(lia))).
  assert (R : forall f gp ls, run_command c f gp letter v l ls (begun s) = Done None (seen [ECommandDone letter v] asked)).
  { intros f gp ls. rewrite foreign_run by (eauto using word_upper). unfold unprocessed. unfold bind at 1 2. rewrite emit_seen. unfold bind at 1. fold asked.
    change (EUnprocessed letter v l :: g_events (begun s)) with (g_events asked). fold answer. rewrite Hp, Hk. reflexivity. }
  destruct F as [|F]; [lia|]. cbn [block_loop]. set (gp := parse_pair c _ _). unfold begun in R. unfold tell, emit, bind, get, when, upd, ret. cbv beta iota zeta.
  destruct (g_running s) eqn:E; cbn [negb];
    match type of R with forall f gp ls, run_command _ _ _ _ _ _ _ ?Y = _ =>
      match goal with |- context [run_command c ?f gp letter v l ?ls ?Y'] =>
        change (run_command c f gp letter v l ls Y') with (run_command c f gp letter v l ls Y) end end; now rewrite R.
Qed.
Print Assumptions C68_foreign_taken.

(** ** C69 *)
(** G30 asks to probe along Z. If that succeeds, Z is where the probe says, the offsets are
    such that this place has the thickness of the probe as its coordinate, and the new
    origin is reported; if not, nothing changes. *)
Definition probe_next (u : fl) (acc : fl * fl) (l : ascii) (v : fl) : fl * fl :=
  if Ascii.eqb l "F" then (feedrate_of (f32_mul v u), snd acc) else (fst acc, f32_mul v u).
Lemma probe_are : forall s ws a b, only probe_letter ws -> fold_left (fun acc w => probe_next (g_unit s) acc (fst w) (snd w)) ws (a, b) =
  (match last_value "F" ws with Some v => f32_div (f32_mul v (g_unit s)) (f32_of_Z 60) | None => a end, match last_value "Z" ws with Some v => f32_mul v (g_unit s) | None => b end).
Proof.
  intros s ws. induction ws as [|[x v] ws IH]; intros a b Ho; [reflexivity|]. inversion Ho as [|? ? Hx Ho']; subst. cbn [fst] in Hx.
  cbn [fold_left fst snd]. rewrite !last_cons. unfold probe_next at 2. unfold probe_letter in Hx. cbn [fst snd].
  destruct (Ascii.eqb_spec x "F") as [->|].
  - rewrite IH by exact Ho'. change (Ascii.eqb "F" "Z") with false. cbv iota. f_equal; [destruct (last_value "F" ws); reflexivity|destruct (last_value "Z" ws); reflexivity].
  - cbn [orb] in Hx. rewrite Hx. rewrite IH by exact Ho'. f_equal; [destruct (last_value "F" ws); reflexivity|destruct (last_value "Z" ws); reflexivity].
Qed.
Theorem C69_probe : forall c s line v ws rest, ~ In NUL rest -> g_do_while s = false ->
  words c s line (("G"%char, v) :: ws) rest -> only probe_letter ws -> ends_at c s probe_letter rest -> int_of c v = 30 ->
  let asked := seen [EProbe (speed_of s ws) AZ] (begun s) in
  let answer := gc_reply c (g_events asked) in
  if r_ok answer then
    exists pos off e, (forall a, pos a = at_height (g_pos s) (r_probed answer) a) /\
      (forall a, off a = match a with AZ => f32_sub (f32_sub (r_probed answer) (thickness s ws)) (system_origin c s AZ) | _ => g_g92 s a end) /\
      reports_origin c (with_offset (with_g92 s off) true) (txt "G30") e /\
      leads c line s rest (seen [e; ECommandDone "G" v] (with_offset (with_g92 (with_pos asked pos) off) true))
  else leads c line s rest (seen [ECommandDone "G" v] asked).
Proof.
  intros c s line v ws rest Hn Hc W Ho He Hv asked answer. inversion W as [|? ? ? l ? ? Hw W']; subst.
  destruct (begun_fields s) as ((_ & _ & B3 & _ & _ & _ & B7 & _) & (B8 & B9 & B10 & _)).
  destruct (collect c _ (fun '(feedrate, thickness) l v =>
    bind (get g_unit) (fun u =>
    if Ascii.eqb l "F" then ret (true, (feedrate_of (f32_mul v u), thickness))
    else if Ascii.eqb l "Z" then ret (true, (feedrate, f32_mul v u))
    else ret (false, (feedrate, thickness)))) probe_letter (begun s) (probe_next (g_unit s))) with (line := l) (ws := ws) (rest := rest) (acc := (no_feedrate, f0)) as (n & H); auto.
  { intros [a b] x w U. unfold bind, get, probe_next, probe_letter. rewrite B3. destruct (Ascii.eqb x "F"), (Ascii.eqb x "Z"); reflexivity. }
  { eapply words_alike; [apply alike_begun|exact W']. } { eapply ends_alike; [apply alike_begun|exact He]. } { apply calm_begun, Hc. }
  rewrite (probe_are s ws) in H by exact Ho.
  replace (match last_value "F" ws with Some v0 => _ | None => no_feedrate end) with (speed_of s ws) in H by (unfold speed_of; rewrite minus_one; reflexivity).
  change (match last_value "Z" ws with Some v0 => f32_mul v0 (g_unit s) | None => f0 end) with (thickness s ws) in H.
  set (th := thickness s ws) in *. set (sp := speed_of s ws) in *.
  assert (Hrun : forall f F pb ls, (n <= f)%nat -> (n <= F)%nat -> run_command c f (parse_pair c F pb) "G" v l ls (begun s) =
    (if r_ok answer then
       bind (upd (fun s => with_pos s (set_axis (g_pos s) AZ (r_probed answer)))) (fun _ =>
       bind (upd (fun s => with_g92 s (set_axis (g_g92 s) AZ (f32_sub (f32_sub (g_pos s AZ) th) (origin_of c s AZ))))) (fun _ =>
       bind (set_current_offset c true (txt "G30")) (fun _ => bind (tell c (ECommandDone "G" v)) (fun _ => ret (Some rest)))))
     else bind (tell c (ECommandDone "G" v)) (fun _ => ret (Some rest))) asked).
  { intros f F pb ls Hf HF. unfold run_command, run_G. cbn [Ascii.eqb Bool.eqb]. cbv zeta. rewrite Hv.
    cbn [Z.eqb Pos.eqb orb Z.leb Z.compare Pos.compare Pos.compare_cont andb]. unfold handle_z_probe. unfold bind at 1 2. rewrite (H f F pb Hf HF).
    unfold bind at 1. rewrite emit_seen. fold asked. change (EProbe sp AZ :: g_events (begun s)) with (g_events asked). fold answer. destruct (r_ok answer); reflexivity. }
  destruct (r_ok answer) eqn:Eok.
  - set (pos := set_axis (g_pos asked) AZ (r_probed answer)).
    set (off := set_axis (g_g92 asked) AZ (f32_sub (f32_sub (r_probed answer) th) (origin_of c asked AZ))).
    destruct (inform_report c (with_offset (with_g92 (with_pos asked pos) off) true) (txt "G30")) as (e & Ee & Hre).
    exists pos, off, e.
    assert (P1 : g_pos asked = g_pos s) by exact B7. assert (P2 : g_g92 asked = g_g92 s) by exact B9.
    assert (P3 : forall a, system_origin c asked a = system_origin c s a).
    { intros a. unfold system_origin. change (g_origin asked) with (g_origin (begun s)). change (g_cs asked) with (g_cs (begun s)). now rewrite B10, B8. }
    split. { intros a. unfold pos. rewrite set_axis_at, P1. destruct a; reflexivity. }
    split. { intros a. unfold off. rewrite set_axis_at, P2, origin_is, P3. destruct a; reflexivity. }
    split. { destruct Hre as (o & -> & Ho2). exists o. split; [reflexivity|]. intros a. rewrite Ho2. f_equal. change (system_origin c asked a = system_origin c s a). apply P3. }
    eapply lead; [exact Hw|exact Hc|]. exists n. intros f F pb Hf HF. rewrite Hrun by assumption.
    unfold bind at 1, upd at 1. unfold bind at 1, upd at 1. unfold bind at 1, set_current_offset, bind, upd. fold pos.
    change (g_g92 (with_pos asked pos)) with (g_g92 asked). change (g_pos (with_pos asked pos) AZ) with (r_probed answer).
    change (origin_of c (with_pos asked pos) AZ) with (origin_of c asked AZ). fold off. rewrite Ee. reflexivity.
  - eapply lead; [exact Hw|exact Hc|]. exists n. intros f F pb Hf HF. rewrite Hrun by assumption. reflexivity.
Qed.
Print Assumptions C69_probe.

(** C69: in absolute coordinates, unscaled, going to the coordinate given as the thickness
    then means going to the probed height: exactly, if the numbers are multiples of one
    power of two. *)
Theorem C69_surface : forall c s h w pos off e, -149 <= e <= 103 -> g_abs s AZ = true -> g_scale s AZ = f32_of_Z 1 -> pos AZ = h ->
  off AZ = f32_sub (f32_sub h (thickness s [("Z"%char, w)])) (system_origin c s AZ) ->
  on_grid e h -> on_grid e (system_origin c s AZ) -> on_grid e (f32_mul w (g_unit s)) ->
  let g := goal_of c (with_offset (with_g92 (with_pos s pos) off) true) AZ w in fin32 g /\ val g = val h.
Proof.
  intros c s h w pos off e He Ha Hs Hp Ho G1 G2 G3.
  rewrite <- Hp. apply (C17_renamed_exactly c (with_pos s pos) AZ w e off); try assumption; try reflexivity.
  - rewrite Ho, <- Hp. reflexivity.
  - cbn [with_pos g_pos]. rewrite Hp. exact G1.
Qed.
Print Assumptions C69_surface.

(** ** Examples *)
Example C68_example_hypotheses : exists v w, word ex_cfg ex_state (txt "M109 (hot) s210 ; wait") "M" v (txt "(hot) s210 ; wait") /\
  word ex_cfg ex_state (txt "(hot) s210 ; wait") "S" w (txt "; wait") /\ int_of ex_cfg v = 109 /\ w = f32_of_Z 210.
Proof.
  eexists. exists (f32_of_Z 210). split; [apply read_word_right; vm_compute; reflexivity|]. split; [|split; [vm_compute; reflexivity|reflexivity]].
  exists "s"%char, (txt "210 ; wait"), (txt " ; wait"). split; [|split; [|split; [reflexivity|split; [reflexivity|split; [|split; [|reflexivity]]]]]].
  - cbn. intuition discriminate.
  - right. exists (txt "hot"), (txt " s210 ; wait"). split; [reflexivity|]. split; [cbn; intuition discriminate|reflexivity].
  - intros t. split; apply keyword_at_right; reflexivity.
  - apply op_number with (x := "2"%char) (r := txt "10 ; wait"); try reflexivity; try discriminate. cbn; lia.
Qed.
Definition told (r : res unit) : list event := match r with Done _ s => rev (g_events s) | _ => [] end.
(** The events of a line with several requests and an unknown command, the rest of which the
    receiver leaves; behind the three that set the machine up. *)
Example C68_example_effect : skipn 3 (filter (fun e => match e with EOrigin _ _ => false | _ => true end)
  (told (parse_block ex_cfg 60 (txt "M17 M106 S128 M109 M3 G4 P5") ex_state))) =
  [EStart true; EMotors true; ECommandDone "M" (f32_of_Z 17); EFan (f32_of_Z 128); ECommandDone "M" (f32_of_Z 106); EWaitTemperature; ECommandDone "M" (f32_of_Z 109);
   EUnprocessed "M" (f32_of_Z 3) (txt "G4 P5"); ECommandDone "M" (f32_of_Z 3); EDwell (f32_of_Z 5); ECommandDone "G" (f32_of_Z 4); EBlockDone].
Proof. vm_compute. reflexivity. Qed.
(** A probe of 3 mm at 24 mm: the surface is at 21 mm, so that Z0 leads there. *)
Definition probing := mk_gcfg (fun _ => f0) true strtof_decimal (fun _ x => x) f32_mul (fun x _ => x) (fun x _ => x)
  (fun _ _ _ _ _ _ => None) (fun _ => 0) (fun _ => mk_reply true (f32_of_Z 24) (fun p => p) 0 (Some 0%nat) (fun m => m)).
Example C69_example_effect :
  match parse_block probing 60 (txt "G30 F60 Z3 G1 Z0") (match new_parser probing (Some []) with Done _ s => s | _ => fresh probing (Some []) end) with
  | Done _ s => g_pos s AZ = f32_of_Z 21 /\ existsb (fun e => match e with EProbe f AZ => SFeqb f (f32_of_Z 1) | _ => false end) (g_events s) = true
  | _ => False
  end.
Proof. vm_compute. split; reflexivity. Qed.
Example C69_example_hypotheses : exists v ws rest, words ex_cfg ex_state (txt "G30 F60 Z3 ; touch") (("G"%char, v) :: ws) rest /\
  only probe_letter ws /\ ends_at ex_cfg ex_state probe_letter rest /\ int_of ex_cfg v = 30 /\ ~ In NUL rest /\ map fst ws = ["F"; "Z"]%char.
Proof.
  eexists. eexists. eexists. split; [econstructor; [apply read_word_right; vm_compute; reflexivity|apply (read_words_right _ _ 2); vm_compute; reflexivity]|].
  split; [apply only_right; vm_compute; reflexivity|]. split; [left; right; left; eexists; left; reflexivity|]. split; [vm_compute; reflexivity|].
  split; [cbn; intuition discriminate|reflexivity].
Qed.
