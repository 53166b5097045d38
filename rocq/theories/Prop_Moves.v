(** Theorems about coordinates and moves: C16, C20. *)
From Coq Require Import SpecFloat.
From Verif Require Import Base Text Model_StringUtil Model_Float Model_Lexer Model_Axis Model_Number Model_Gcode
  Spec_Expr Proofs_Expr Spec_Line Proofs_Value Proofs_Total Spec_Words Proofs_Words Spec_Moves Proofs_Moves Prop_Expr.

(** C16: G0 and G1 with any axis, F and S words, up to the end of the line or the next word
    with another letter: spindle speeds are passed on; the destination of each axis is its
    reference (origin and offset, or the present position) plus the given number in units
    and scaled, and for axes without a word the present position; the move is as
    [moved] says; nothing else changes. *)
Theorem C16_move : forall c s line v ws rest, ~ In NUL rest -> g_do_while s = false ->
  words c s line (("G"%char, v) :: ws) rest -> only move_letter ws -> ends_at c s move_letter rest ->
  (int_of c v = 0 \/ int_of c v = 1) ->
  let coordinated := int_of c v =? 1 in
  let s0 := seen (spindle_speeds ws) (with_modal (begun s) coordinated) in
  exists target affected, (forall a, target a = destination c s ws a) /\ (forall a, affected a = mentioned (axis_letter a) ws) /\
    leads c line s rest (seen [ECommandDone "G" v]
      (if existsb (fun w => is_axis_letter (fst w) || Ascii.eqb (fst w) "F") ws
       then moved c coordinated (speed_of s ws) affected target s0 else s0)).
Proof.
  intros c s line v ws rest Hn Hc W Ho He Hv coordinated s0.
  inversion W as [|? ? ? l ? ? Hw W']; subst.
  assert (A : alike s (with_modal (begun s) coordinated)) by (eapply alike_trans; [apply alike_begun|repeat split]).
  assert (He' : ends_at c (with_modal (begun s) coordinated) move_letter rest).
  { destruct He as [He|(l1 & v1 & r1 & H1 & H2)]; [now left|]. right. exists l1, v1, r1. split; [|exact H2]. eapply word_alike; eauto. }
  destruct (handle_move_words c (with_modal (begun s) coordinated) l ws rest false Hn) as (target & affected & H1 & H2 & n & H).
  { unfold calm. destruct A as (_ & _ & ->). exact Hc. }
  { eapply words_alike; eauto. }
  { exact Ho. }
  { exact He'. }
  exists target, affected. split; [|split; [exact H2|]].
  { intros a. rewrite H1. unfold destination. destruct A as (_ & -> & _). destruct (last_value (axis_letter a) ws); [|reflexivity].
    unfold begun. destruct (g_running s); reflexivity. }
  eapply lead; [exact Hw|exact Hc|]. exists n. intros f F pb Hf HF. unfold run_command, run_G. cbn [Ascii.eqb Bool.eqb]. cbv zeta.
  assert (Sp : speed_of (with_modal (begun s) coordinated) ws = speed_of s ws).
  { unfold speed_of. destruct (last_value "F" ws); [|reflexivity]. unfold begun. destruct (g_running s); reflexivity. }
  specialize (H f F pb Hf HF). rewrite Sp in H. unfold s0, coordinated in *.
  destruct Hv as [Hv|Hv]; rewrite Hv in *; cbn [Z.eqb Pos.eqb] in *.
  - unfold bind at 1 2, upd at 1. cbv beta iota. unfold bind at 1. cbn [orb] in H. rewrite H. reflexivity.
  - unfold bind at 1 2, upd at 1. cbv beta iota. unfold bind at 1. cbn [orb] in H. rewrite H. reflexivity.
Qed.
Print Assumptions C16_move.

(** Axis words without a command continue the last G0 or G1. The first word moves the
    position of its axis at once; the others are read from there. *)
Theorem C16_continuation : forall c s line a v l ws rest, ~ In NUL rest -> g_do_while s = false ->
  word c s line (axis_letter a) v l ->
  let shifted := with_pos (begun s) (fun b => if axis_eqb b a then goal_of c s a v else g_pos s b) in
  words c shifted l ws rest -> only move_letter ws -> ends_at c shifted move_letter rest ->
  exists target affected, (forall b, target b = destination c shifted ws b) /\ (forall b, affected b = mentioned (axis_letter b) ws) /\
    leads c line s rest (seen [ECommandDone "G" (if g_modal s then f32_of_Z 1 else f32_of_Z 0)]
      (moved c (g_modal s) (speed_of s ws) affected target (seen (spindle_speeds ws) shifted))).
Proof.
  intros c s line a v l ws rest Hn Hc Hw shifted W Ho He.
  assert (Eg : abs_axis_pos c a v (begun s) = goal_of c s a v).
  { rewrite goal_abs. unfold begun. destruct (g_running s); reflexivity. }
  assert (Hc' : calm shifted) by (apply (calm_begun s Hc)).
  destruct (handle_move_words c shifted l ws rest true Hn Hc' W Ho He) as (target & affected & H1 & H2 & n & H).
  exists target, affected. split; [exact H1|]. split; [exact H2|].
  eapply lead; [exact Hw|exact Hc|]. exists n. intros f F pb Hf HF.
  assert (M : g_modal shifted = g_modal s) by (unfold shifted, begun; destruct (g_running s); reflexivity).
  assert (Sp : speed_of shifted ws = speed_of s ws).
  { unfold speed_of. destruct (last_value "F" ws); [|reflexivity]. unfold shifted, begun. destruct (g_running s); reflexivity. }
  specialize (H f F pb Hf HF). rewrite Sp, M in H. cbn [orb] in H.
  unfold run_command.
  replace (Ascii.eqb (axis_letter a) "G") with false by (destruct a; reflexivity).
  replace (Ascii.eqb (axis_letter a) "M") with false by (destruct a; reflexivity).
  replace (Ascii.eqb (axis_letter a) "F") with false by (destruct a; reflexivity).
  replace (Ascii.eqb (axis_letter a) "N") with false by (destruct a; reflexivity). rewrite letter_axis_letter.
  unfold bind at 1, upd at 1. cbv beta iota.
  replace (with_pos (begun s) (set_axis (g_pos (begun s)) a (abs_axis_pos c a v (begun s)))) with shifted;
    [|unfold shifted; rewrite Eg; unfold begun; destruct (g_running s); reflexivity].
  unfold bind at 1. rewrite H. unfold bind at 1, get at 1.
  set (m := moved c _ _ _ _ _). assert (Em : g_modal m = g_modal s).
  { unfold m, moved. cbv zeta. destruct (r_ok _); [|exact M]. exact M. }
  rewrite Em. reflexivity.
Qed.
Print Assumptions C16_continuation.

(** F alone sets the speed without moving. *)
Theorem C16_feed : forall c s line v rest, g_do_while s = false -> word c s line "F" v rest ->
  leads c line s rest
    (seen [EMove true (f32_div (f32_mul v (g_unit s)) (f32_of_Z 60)) (g_pos s); ECommandDone "F" v] (begun s)).
Proof.
  intros c s line v rest Hc Hw. eapply lead; [exact Hw|exact Hc|]. exists 0%nat. intros. unfold run_command. cbn [Ascii.eqb Bool.eqb].
  unfold begun. destruct (g_running s); reflexivity.
Qed.
Print Assumptions C16_feed.

(** A line number does nothing. *)
Theorem C16_line_number : forall c s line v rest, g_do_while s = false -> word c s line "N" v rest -> leads c line s rest (begun s).
Proof. intros c s line v rest Hc Hw. eapply lead; [exact Hw|exact Hc|]. exists 0%nat. intros. reflexivity. Qed.
Print Assumptions C16_line_number.

(** The end of the line *)
Theorem C16_line_end : forall c s line, g_do_while s = false -> ~ In NUL line -> line_end line ->
  outcome c line s (Done tt (seen [EBlockDone] s)).
Proof. intros c s line Hc Hn He. now apply lead_end. Qed.
Print Assumptions C16_line_end.

(** Commands for modes: plane, unit, scale 1, absolute or relative coordinates, those of the
    extruder. *)
Theorem C16_modes : forall c s line letter v rest m, g_do_while s = false -> word c s line letter v rest ->
  mode_change c letter v = Some m ->
  exists s1, leads c line s rest (seen [ECommandDone letter v] s1) /\
    g_abs_g90 s1 = g_abs_g90 (m (begun s)) /\ (forall a, g_abs s1 a = g_abs (m (begun s)) a) /\
    with_abs s1 (fun _ => true) true = with_abs (m (begun s)) (fun _ => true) true.
Proof.
  intros c s line letter v rest m Hc Hw Hm.
  assert (X : exists s1, (forall f gp, run_command c f gp letter v rest (g_first_spline s) (begun s) = Done (Some rest) (seen [ECommandDone letter v] s1)) /\
    g_abs_g90 s1 = g_abs_g90 (m (begun s)) /\ (forall a, g_abs s1 a = g_abs (m (begun s)) a) /\
    with_abs s1 (fun _ => true) true = with_abs (m (begun s)) (fun _ => true) true).
  { unfold mode_change in Hm. unfold run_command. generalize (begun s). intros s'.
    destruct (Ascii.eqb letter "G") eqn:EG.
    - unfold run_G. cbv zeta. unfold is_number in Hm. cbv zeta in Hm.
      destruct (Z.eqb_spec (int_of c v) 17) as [->|]; [injection Hm as <-; eexists; split; [intros; reflexivity|repeat split]|].
      destruct (Z.eqb_spec (int_of c v) 18) as [->|]; [injection Hm as <-; eexists; split; [intros; reflexivity|repeat split]|].
      destruct (Z.eqb_spec (int_of c v) 19) as [->|]; [injection Hm as <-; eexists; split; [intros; reflexivity|repeat split]|].
      destruct ((int_of c v =? 20) || (int_of c v =? 70)) eqn:E1;
        [apply orb_prop in E1 as [E|E]; apply Z.eqb_eq in E; rewrite E; injection Hm as <-; eexists; (split; [intros; reflexivity|repeat split])|].
      destruct ((int_of c v =? 21) || (int_of c v =? 71)) eqn:E2;
        [apply orb_prop in E2 as [E|E]; apply Z.eqb_eq in E; rewrite E; injection Hm as <-; eexists; (split; [intros; reflexivity|repeat split])|].
      destruct (Z.eqb_spec (int_of c v) 50) as [->|]; [injection Hm as <-; eexists; split; [intros; reflexivity|repeat split]|].
      destruct (Z.eqb_spec (int_of c v) 90) as [->|].
      { destruct (SFeqb v _) eqn:E; [|discriminate]. injection Hm as <-. exists (with_abs s' (fun _ => true) true). split; [|repeat split].
        intros. cbn [Z.eqb Pos.eqb Z.leb Z.compare Pos.compare Pos.compare_cont orb andb].
        unfold handle_G90_G91. change (tenths 900) with (f32_div (f32_of_Z 900) (f32_of_Z 10)). rewrite E. reflexivity. }
      destruct (Z.eqb_spec (int_of c v) 91) as [H91|]; [|discriminate]. rewrite H91.
      destruct (SFeqb v _) eqn:E; [|discriminate]. injection Hm as <-. exists (with_abs s' (fun _ => false) false). split; [|repeat split].
      intros. cbn [Z.eqb Pos.eqb Z.leb Z.compare Pos.compare Pos.compare_cont orb andb].
      unfold handle_G90_G91. rewrite (eqb_not v (tenths 900) 90 91 c); [|vm_compute; reflexivity|vm_compute; reflexivity|exact H91|lia].
      change (tenths 910) with (f32_div (f32_of_Z 910) (f32_of_Z 10)). rewrite E. reflexivity.
    - destruct (Ascii.eqb letter "M"); [|discriminate]. unfold run_M. cbv zeta. cbv zeta in Hm.
      destruct (Z.eqb_spec (int_of c v) 82) as [->|]; [injection Hm as <-; eexists; split; [intros; reflexivity|]; split; [reflexivity|]; split; [|reflexivity]; intros []; reflexivity|].
      destruct (Z.eqb_spec (int_of c v) 83) as [->|]; [injection Hm as <-; eexists; split; [intros; reflexivity|]; split; [reflexivity|]; split; [|reflexivity]; intros []; reflexivity|discriminate]. }
  destruct X as (s1 & X & H). exists s1. split; [|exact H]. eapply lead; [exact Hw|exact Hc|]. exists 0%nat. intros. apply X.
Qed.
Print Assumptions C16_modes.

(** G51 sets the scale of X, Y and Z; words for other axes are ignored. *)
Theorem C16_scale : forall c s line v ws rest, ~ In NUL rest -> g_do_while s = false ->
  words c s line (("G"%char, v) :: ws) rest -> only is_axis_letter ws -> ends_at c s is_axis_letter rest -> int_of c v = 51 ->
  exists scale,
    (forall a, scale a = match a, last_value (axis_letter a) ws with
                         | AX, Some w | AY, Some w | AZ, Some w => w
                         | _, _ => g_scale s a
                         end) /\
    leads c line s rest (seen [ECommandDone "G" v] (with_scale (begun s) scale)).
Proof.
  intros c s line v ws rest Hn Hc W Ho He Hv. inversion W as [|? ? ? l ? ? Hw W']; subst.
  destruct (register_args c is_linear_axis with_scale g_scale (fun _ _ w => w)) with (s := begun s) (line := l) (ws := ws) (rest := rest)
    as (r & Hr & n & H); auto; try (intros []; reflexivity); try (intros; repeat split; fail).
  { apply calm_begun, Hc. } { eapply words_alike; [apply alike_begun|exact W']. } { eapply ends_alike; [apply alike_begun|exact He]. }
  exists r. split.
  { intros a. rewrite Hr. replace (g_scale (begun s)) with (g_scale s) by (unfold begun; destruct (g_running s); reflexivity).
    destruct a, (last_value _ ws); reflexivity. }
  eapply lead; [exact Hw|exact Hc|]. exists n. intros f F pb Hf HF. unfold run_command, run_G. cbn [Ascii.eqb Bool.eqb]. cbv zeta. rewrite Hv.
  cbn [Z.eqb Pos.eqb orb]. unfold bind at 1. unfold set_xyz_scale. unfold register_step in H. unfold bind at 1. rewrite H by assumption. reflexivity.
Qed.
Print Assumptions C16_scale.

(** C20: after a move by G0 or G1 the position is where the receiver was asked to go if it
    accepted this, and what it was before if it refused or there was nothing to move. *)
Theorem C20_refused_move : forall c s line v ws rest, ~ In NUL rest -> g_do_while s = false ->
  words c s line (("G"%char, v) :: ws) rest -> only move_letter ws -> ends_at c s move_letter rest ->
  (int_of c v = 0 \/ int_of c v = 1) ->
  exists s1, leads c line s rest s1 /\
    if existsb (fun w => is_axis_letter (fst w) || Ascii.eqb (fst w) "F") ws
    then exists feed pos h, let h1 := EMove (int_of c v =? 1) feed pos :: h in
           g_events s1 = ECommandDone "G" v :: h1 /\ g_pos s1 = (if r_ok (gc_reply c h1) then pos else g_pos s)
    else g_pos s1 = g_pos s.
Proof.
  intros c s line v ws rest Hn Hc W Ho He Hv. destruct (C16_move c s line v ws rest Hn Hc W Ho He Hv) as (target & affected & _ & _ & L).
  cbv zeta in L. set (s0 := seen (spindle_speeds ws) _) in L.
  assert (P0 : g_pos s0 = g_pos s) by (unfold s0, begun; destruct (g_running s); reflexivity).
  eexists. split; [exact L|]. destruct (existsb _ ws); [|exact P0].
  eexists. eexists. eexists. cbv zeta. unfold moved. cbv zeta. rewrite <- P0. generalize s0. intros t.
  split; [destruct (r_ok _); reflexivity|]. 
  match goal with |- context [if r_ok ?x then with_pos _ _ else _] => set (R := r_ok x) end.
  transitivity (if R then r_pos (gc_reply c (g_events (seen [EClamp affected target] t))) target else g_pos t); [destruct R; reflexivity|]. reflexivity.
Qed.
Print Assumptions C20_refused_move.

(** ** Examples *)
(** A line that meets the hypotheses, and its effect in relative mode with inches: from the
    position 0 to X 25.4 * 10; Y stays. *)
Definition ex_line := txt "G1 x10 (right) F600 S3 ; move".
Example C16_example_hypotheses : exists v ws rest, words ex_cfg ex_state ex_line (("G"%char, v) :: ws) rest /\
  only move_letter ws /\ ends_at ex_cfg ex_state move_letter rest /\ int_of ex_cfg v = 1 /\ ~ In NUL rest /\
  map fst ws = [("X"%char); ("F"%char); ("S"%char)].
Proof.
  assert (W1 : exists v x l, word ex_cfg ex_state ex_line "G" v (txt "x10 (right) F600 S3 ; move") /\ int_of ex_cfg v = 1 /\
     word ex_cfg ex_state (txt "x10 (right) F600 S3 ; move") "X" x (txt "(right) F600 S3 ; move") /\
     words ex_cfg ex_state (txt " F600 S3 ; move") l (txt "; move") /\ only move_letter l /\ map fst l = [("F"%char); ("S"%char)]).
  { eexists. eexists. eexists. split; [apply read_word_right; vm_compute; reflexivity|]. split; [vm_compute; reflexivity|].
    split; [apply read_word_right; vm_compute; reflexivity|]. split; [apply (read_words_right _ _ 2); vm_compute; reflexivity|].
    split; [apply only_right; vm_compute; reflexivity|reflexivity]. }
  destruct W1 as (v & x & l & H1 & H2 & H3 & H4 & H5 & H6). exists v, (("X"%char, x) :: l), (txt "; move").
  split; [|split; [|split; [|split; [exact H2|split]]]].
  - econstructor; [exact H1|]. econstructor; [exact H3|]. inversion H4 as [|? f fv ft l' ? Hf Hl']; subst. econstructor; [|exact Hl'].
    destruct Hf as (y & r & r' & _ & Ho & R). exists y, r, r'. split; [apply no_NUL; reflexivity|]. split; [|exact R].
    right. exists (txt "right"), (txt " F600 S3 ; move"). split; [reflexivity|]. split; [cbn; intros X; repeat (destruct X as [X|X]; [discriminate|]); exact X|].
    destruct Ho as [<-|(w & q & E & _)]; [reflexivity|discriminate].
  - constructor; [reflexivity|exact H5].
  - left. right. left. exists (txt " move"). now left.
  - apply no_NUL. reflexivity.
  - cbn [map fst]. now rewrite H6.
Qed.
Definition place (s : gst) : list (option Z) := map (fun a => fl_trunc (f32_mul (f32_of_Z 10) (g_pos s a))) [AX; AY; AZ; AE].
Example C16_example_effect :
  match parse_block ex_cfg 60 (txt "N1 G91 G20 M83 G1 X1 Y-0.5 E2 F6 (again) X1 G90 Z3") ex_state with
  | Done _ s => place s = [Some 254; Some (-127); Some 762; Some 508]
  | _ => False
  end.
Proof. vm_compute. reflexivity. Qed.

(** A receiver that refuses every move. *)
Definition refusing := mk_gcfg (fun _ => f0) true strtof_decimal (fun _ x => x) f32_mul (fun x _ => x) (fun x _ => x)
  (fun _ _ _ _ _ _ => None) (fun _ => 0) (fun _ => mk_reply false (f32_of_Z 0) (fun p => p) 0 (Some 0%nat) (fun m => m)).
(** Axis words without a command are different: the position changes although the receiver
    refused every move. *)
Theorem C20_continuation_refuted : ~ (forall c params s0 f line s a,
  new_parser c params = Done tt s0 -> parse_block c f line s0 = Done tt s ->
  (forall h, r_ok (gc_reply c h) = false) -> (forall axes, ~ In (EHome axes) (g_events s)) -> g_pos s a = g_pos s0 a).
Proof.
  intros H.
  assert (B : match new_parser refusing (Some []) with
    | Done _ s0 => match parse_block refusing 30 (txt "X5") s0 with
                   | Done _ s => SFeqb (g_pos s AX) (f32_of_Z 5) && negb (SFeqb (g_pos s0 AX) (f32_of_Z 5)) &&
                               forallb (fun e => match e with EHome _ => false | _ => true end) (g_events s)
                   | _ => false end
    | _ => false end = true) by (vm_compute; reflexivity).
  destruct (new_parser refusing (Some [])) as [[] s0| |] eqn:E0; [|discriminate..].
  destruct (parse_block refusing 30 (txt "X5") s0) as [[] s| |] eqn:E; [|discriminate..].
  assert (Hp : g_pos s AX = g_pos s0 AX).
  { apply (H refusing _ s0 30%nat (txt "X5") s AX E0 E); [reflexivity|]. intros x X. apply andb_prop in B as [_ B].
    rewrite forallb_forall in B. specialize (B _ X). discriminate. }
  rewrite Hp in B. destruct (SFeqb (g_pos s0 AX) (f32_of_Z 5)); discriminate.
Qed.
Print Assumptions C20_continuation_refuted.
