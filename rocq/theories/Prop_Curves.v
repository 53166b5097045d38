(** Theorems about the words of arcs and splines: C61, C62. *)
From Coq Require Import Reals Lra SpecFloat.
From Flocq Require Import Core IEEE754.BinarySingleNaN.
From Verif Require Import Base Text Model_StringUtil Model_Float Model_Lexer Model_Axis Model_Number Model_Gcode Model_Arc
  Spec_Expr Proofs_Expr Spec_Line Proofs_Value Proofs_Total Spec_Words Proofs_Words Spec_Moves Proofs_Moves Prop_Expr
  Spec_Real Proofs_Real Spec_Arc Spec_Curves Proofs_Curves.
Open Scope Z_scope.

Lemma same_begun : forall c s b ws, let s' := with_first (begun s) b in
  alike s s' /\ (forall a, destination c s' ws a = destination c s ws a) /\ speed_of s' ws = speed_of s ws /\
  (forall l a, offset_by s' l a ws = offset_by s l a ws) /\ (forall l, millimetres s' l ws = millimetres s l ws) /\
  g_pos s' = g_pos s /\ g_normal s' = g_normal s /\ g_cp2 s' = g_cp2 s.
Proof.
  intros c s b ws s'. split; [eapply alike_trans; [apply alike_begun|repeat split]|].
  unfold s', begun, destination, speed_of, offset_by, millimetres. destruct (g_running s); repeat split.
Qed.

(** ** C61: arcs *)
(** G2 and G3 with any of their words, up to the end of the line or the next word with another letter: the receiver is asked for exactly
    one arc, from the present position around the centre given by the words to the destination; if it agrees the destination is the new
    position, else nothing changes. If the words make no sense an error is reported instead and nothing changes. *)
Theorem C61_arc : forall c s line v ws rest, ~ In NUL rest -> g_do_while s = false ->
  words c s line (("G"%char, v) :: ws) rest -> only arc_letter ws -> ends_at c s arc_letter rest ->
  (int_of c v = 2 \/ int_of c v = 3) ->
  let clockwise := int_of c v =? 2 in
  exists center target, (forall a, target a = destination c s ws a) /\
    match to_centre c s clockwise ws with
    | Some o => (forall a, center a = match a with AX | AY | AZ => f32_add (g_pos s a) (o a) | _ => g_pos s a end) /\
        leads c line s rest (seen [ECommandDone "G" v] (asked c (EArc (speed_of s ws) (g_normal s) clockwise (g_pos s) center target) target (begun s)))
    | None => leads c line s rest (seen [ECommandDone "G" v] (reported (begun s)))
    end.
Proof.
  intros c s line v ws rest Hn Hc W Ho He Hv clockwise. inversion W as [|? ? ? l ? ? Hw W']; subst.
  destruct (same_begun c s false ws) as (A & D & Sp & Of & Mm & P & Nm & _). change (with_first (begun s) false) with (begun s) in *.
  assert (Tc : to_centre c (begun s) clockwise ws = to_centre c s clockwise ws).
  { unfold to_centre. rewrite !Of, Mm, P, Nm. destruct (in_plane (g_normal s)) as [a b]. now rewrite !D. }
  destruct (handle_arc_words c (begun s) l ws rest clockwise Hn) as (center & target & H1 & H2 & n & H).
  { unfold calm. destruct A as (_ & _ & ->). exact Hc. }
  { eapply words_alike; eauto. }
  { exact Ho. }
  { eapply ends_alike; eauto. }
  rewrite Tc, Sp, P, Nm in *. exists center, target. split; [intros a; now rewrite H1, D|].
  assert (R : forall s2, (forall f F pb, (n <= f)%nat -> (n <= F)%nat -> handle_arc c f (parse_pair c F pb) l clockwise (begun s) = Done (Some rest) s2) ->
    leads c line s rest (seen [ECommandDone "G" v] s2)).
  { intros s2 Hs. eapply lead; [exact Hw|exact Hc|]. exists n. intros f F pb Hf HF. unfold run_command, run_G. cbn [Ascii.eqb Bool.eqb]. cbv zeta. specialize (Hs f F pb Hf HF).
    unfold clockwise in Hs. unfold bind at 1. destruct Hv as [Hv|Hv]; rewrite Hv in *; cbn [Z.eqb Pos.eqb] in *; rewrite Hs; reflexivity. }
  destruct (to_centre c s clockwise ws) as [o|].
  - split; [|apply R, H]. intros a. rewrite (H2 o eq_refl). destruct a; reflexivity.
  - apply R, H.
Qed.
Print Assumptions C61_arc.

(** The centre is never absolute: G90.1 only reports an error. The arc that follows is still run, around another centre. *)
Definition arc_centre (s : gst) : option (fl * fl) :=
  match find (fun e => match e with EArc _ _ _ _ _ _ => true | _ => false end) (g_events s) with
  | Some (EArc _ _ _ start center _) => Some (start AX, center AX)
  | _ => None
  end.
Theorem C61_absolute_refuted : exists s, parse_block ex_cfg 60 (txt "G90.1 G0 X10 G2 X20 I15 J0") ex_state = Done tt s /\ g_ijk_abs s = true /\ g_errors s = 1 /\
  arc_centre s = Some (f32_of_Z 10, f32_of_Z 25).
Proof.
  assert (B : match parse_block ex_cfg 60 (txt "G90.1 G0 X10 G2 X20 I15 J0") ex_state with
              | Done _ s => (g_ijk_abs s, g_errors s, arc_centre s) = (true, 1, Some (f32_of_Z 10, f32_of_Z 25)) | _ => False end) by (vm_compute; reflexivity).
  destruct (parse_block _ _ _ _) as [[] s| |]; try contradiction. exists s. injection B as B1 B2 B3. auto.
Qed.
Print Assumptions C61_absolute_refuted.

(** A line with words for an arc *)
Definition ex_arc_line := txt "G3 X20 j10 F60 M3".
Example C61_example : exists v ws, words ex_cfg ex_state ex_arc_line (("G"%char, v) :: ws) (txt "M3") /\ only arc_letter ws /\ ends_at ex_cfg ex_state arc_letter (txt "M3") /\
  int_of ex_cfg v = 3 /\ ~ In NUL (txt "M3") /\ g_do_while ex_state = false /\ to_centre ex_cfg ex_state false ws <> None.
Proof.
  assert (X : exists v ws, words ex_cfg ex_state ex_arc_line (("G"%char, v) :: ws) (txt "M3") /\ int_of ex_cfg v = 3 /\ only arc_letter ws /\
     (if to_centre ex_cfg ex_state false ws then true else false) = true).
  { eexists. eexists. split; [apply (read_words_right _ _ 4); vm_compute; reflexivity|]. split; [vm_compute; reflexivity|]. split; [apply only_right; vm_compute; reflexivity|vm_compute; reflexivity]. }
  destruct X as (v & ws & H1 & H2 & H3 & H4). exists v, ws. split; [exact H1|]. split; [exact H3|]. split; [|split; [exact H2|split; [apply no_NUL; reflexivity|split; [vm_compute; reflexivity|]]]].
  - right. exists "M"%char. eexists. eexists. split; [apply read_word_right; vm_compute; reflexivity|reflexivity].
  - intros E. rewrite E in H4. discriminate.
Qed.

(** ** C62: splines *)
(** G5 and G5.1 in the XY plane, with any of their words and nothing else in the line: the receiver is asked for exactly one spline, whose
    control points are those the words give; the second offset is remembered for a G5 that follows at once. If the words make no sense an
    error is reported instead. *)
Theorem C62_spline : forall c s line v ws rest, ~ In NUL rest -> g_do_while s = false ->
  words c s line (("G"%char, v) :: ws) rest -> only spline_letter ws -> line_end rest ->
  g_normal s = AZ -> is_cubic v || is_quadratic v = true ->
  match (if is_cubic v then cubic_points c s ws else quadratic_points s ws) with
  | Some (p, q) => exists cp1 cp2 target second,
      (forall a, cp1 a = p a /\ cp2 a = q a /\ target a = destination c s ws a) /\
      (forall a, second a = match a with AX => offset_by s "P" AX ws | AY => offset_by s "Q" AY ws | _ => f32_of_Z 0 end) /\
      leads c line s rest (seen [ECommandDone "G" v] (asked c (ESpline (speed_of s ws) (g_pos s) cp1 cp2 target) target
                                                      (if is_cubic v then with_first (with_cp2 (begun s) second) true else with_first (begun s) false)))
  | None => outcome c line s (Done tt (seen [ECommandDone "G" v; EBlockDone] (reported (with_first (begun s) (g_first_spline s)))))
  end.
Proof.
  intros c s line v ws rest Hn Hc W Ho He Nz Hv. inversion W as [|? ? ? l ? ? Hw W']; subst.
  assert (Iv : int_of c v = 5).
  { destruct (is_cubic v) eqn:Ec.
    - apply SFeqb_same in Ec. subst v. reflexivity.
    - cbn [orb] in Hv. apply SFeqb_same in Hv. subst v. reflexivity. }
  set (s0 := with_first (begun s) (g_first_spline s)).
  destruct (same_begun c s (g_first_spline s) ws) as (A & D & Sp & Of & Mm & P & Nm & Cp). fold s0 in A, D, Sp, Of, Mm, P, Nm, Cp.
  destruct (handle_spline_words c s0 l ws rest v Hn) as (cp1 & cp2 & target & second & H1 & H2 & H3 & n & H).
  { unfold calm. destruct A as (_ & _ & ->). exact Hc. }
  { eapply words_alike; eauto. }
  { exact Ho. }
  { exact He. }
  { now rewrite Nm. }
  { exact Hv. }
  assert (Pt : (if is_cubic v then cubic_points c s0 ws else quadratic_points s0 ws) = if is_cubic v then cubic_points c s ws else quadratic_points s ws).
  { destruct (is_cubic v).
    - unfold cubic_points. rewrite !Of, P, Cp, !D. reflexivity.
    - unfold quadratic_points. rewrite !Of, P. reflexivity. }
  rewrite Pt, Sp, P in *.
  assert (Run : forall f F pb, run_command c f (parse_pair c F pb) "G" v l (g_first_spline s) (begun s) =
    match handle_spline c f (parse_pair c F pb) v l s0 with Done x s2 => Done x (seen [ECommandDone "G" v] s2) | Bad => Bad | Out => Out end).
  { intros f F pb. unfold run_command, run_G. cbn [Ascii.eqb Bool.eqb]. cbv zeta. rewrite Iv. cbn [Z.eqb Pos.eqb]. unfold bind at 1 2, upd at 1. cbv beta iota. fold s0.
    destruct (handle_spline c f (parse_pair c F pb) v l s0); reflexivity. }
  destruct (if is_cubic v then cubic_points c s ws else quadratic_points s ws) as [[p q]|] eqn:Ep.
  - exists cp1, cp2, target, second. split; [intros a; destruct (H2 p q eq_refl a); rewrite H1, D; auto|]. split; [intros a; rewrite H3; now rewrite !Of|].
    eapply lead; [exact Hw|exact Hc|]. exists n. intros f F pb Hf HF. rewrite Run, (H f F pb Hf HF). reflexivity.
  - rewrite (seen_app [ECommandDone "G" v] [EBlockDone]). eapply lead_none; [exact Hw|exact Hc|]. exists n. intros f F pb Hf HF. rewrite Run, (H f F pb Hf HF). reflexivity.
Qed.
Print Assumptions C62_spline.

(** With any other word behind it the spline is refused and the rest of the line is dropped. *)
Theorem C62_alone : forall c s line v ws rest letter w r, ~ In NUL rest -> g_do_while s = false ->
  words c s line (("G"%char, v) :: ws) rest -> only spline_letter ws -> word c s rest letter w r -> spline_letter letter = false ->
  int_of c v = 5 ->
  outcome c line s (Done tt (seen [ECommandDone "G" v; EBlockDone] (reported (with_first (begun s) (g_first_spline s))))).
Proof.
  intros c s line v ws rest letter w r Hn Hc W Ho Hr Hl Iv. inversion W as [|? ? ? l ? ? Hw W']; subst.
  set (s0 := with_first (begun s) (g_first_spline s)). destruct (same_begun c s (g_first_spline s) ws) as (A & _). fold s0 in A.
  destruct (handle_spline_more c s0 l ws rest v letter w r Hn) as (n & H).
  { unfold calm. destruct A as (_ & _ & ->). exact Hc. }
  { eapply words_alike; eauto. }
  { exact Ho. }
  { eapply word_alike; eauto. }
  { exact Hl. }
  rewrite (seen_app [ECommandDone "G" v] [EBlockDone]). eapply lead_none; [exact Hw|exact Hc|]. exists n. intros f F pb Hf HF. unfold run_command, run_G. cbn [Ascii.eqb Bool.eqb]. cbv zeta. rewrite Iv.
  cbn [Z.eqb Pos.eqb]. unfold bind at 1 2, upd at 1. cbv beta iota. fold s0. rewrite (H f F pb Hf HF). reflexivity.
Qed.
Print Assumptions C62_alone.

(** The example of the code's own comment: the parabola from X-20 Y40 to X20 Y40 with the vertex in the origin. The spline asked for
    passes through X-2.5 Y-10 instead: the second control point is wrong. *)
Definition spline_points (s : gst) : option (list fl * list fl) :=
  match find (fun e => match e with ESpline _ _ _ _ _ => true | _ => false end) (g_events s) with
  | Some (ESpline _ start cp1 cp2 target) => Some ([start AX; cp1 AX; cp2 AX; target AX], [start AY; cp1 AY; cp2 AY; target AY])
  | _ => None
  end.
Definition halfway (l : list fl) : R := match l with [p0; p1; p2; p3] => bezier (1 / 2) (val p0) (val p1) (val p2) (val p3) | _ => 0%R end.
Theorem C62_parabola_refuted : exists s x y, parse_block ex_cfg 80 (txt "G90 G17 G0 X-20 Y40 G5.1 X20 I20 J-80") ex_state = Done tt s /\
  spline_points s = Some (x, y) /\
  (halfway x < - 2)%R /\ (halfway y < - 9)%R /\
  parabola (1 / 2) (-20) (-20 + 20) 20 = 0%R /\ parabola (1 / 2) 40 (40 + -80) 40 = 0%R.
Proof.
  set (line := txt "G90 G17 G0 X-20 Y40 G5.1 X20 I20 J-80").
  set (px := [f32_of_Z (-20); f32_add (f32_of_Z (-20)) (f32_div (f32_of_Z 40) (f32_of_Z 3)); S754_finite true 8388608 (-44); f32_of_Z 20]).
  set (py := [f32_of_Z 40; f32_add (f32_of_Z 40) (f32_div (f32_of_Z (-160)) (f32_of_Z 3)); f32_of_Z (-40); f32_of_Z 40]).
  assert (B : match parse_block ex_cfg 80 line ex_state with Done _ s => spline_points s | _ => None end = Some (px, py)) by (vm_compute; reflexivity).
  destruct (parse_block ex_cfg 80 line ex_state) as [[] s| |]; try discriminate. exists s, px, py. split; [reflexivity|]. split; [exact B|].
  assert (Vz : forall z, (Z.abs z <= 1000)%Z -> val (f32_of_Z z) = IZR z) by (intros z H; apply f32_of_Z_val; lia).
  unfold px, py, halfway. rewrite !Vz by lia.
  assert (E1 : f32_add (f32_of_Z (-20)) (f32_div (f32_of_Z 40) (f32_of_Z 3)) = S754_finite true 13981014 (-21)) by (vm_compute; reflexivity).
  assert (E2 : f32_add (f32_of_Z 40) (f32_div (f32_of_Z (-160)) (f32_of_Z 3)) = S754_finite true 13981012 (-20)) by (vm_compute; reflexivity).
  rewrite E1, E2. unfold val, SF2R, F2R. cbn [Defs.Fnum Defs.Fexp cond_Zopp]. change (bpow radix2 (-21)) with (/ 2097152)%R. change (bpow radix2 (-20)) with (/ 1048576)%R. change (bpow radix2 (-44)) with (/ 17592186044416)%R.
  unfold bezier, parabola. repeat split. all: rewrite ?opp_IZR; lra.
Qed.
Print Assumptions C62_parabola_refuted.

(** Documented errors that are not found: only one of P and Q, and an axis other than X and Y. *)
Theorem C62_checks_refuted : exists s, parse_block ex_cfg 80 (txt "G5 X10 Z5 I1 J1 P1") ex_state = Done tt s /\ g_errors s = 0 /\ spline_points s <> None /\ g_pos s AZ = f32_of_Z 5.
Proof.
  assert (B : match parse_block ex_cfg 80 (txt "G5 X10 Z5 I1 J1 P1") ex_state with
              | Done _ s => (g_errors s, match spline_points s with Some _ => true | None => false end, g_pos s AZ) = (0, true, f32_of_Z 5) | _ => False end) by (vm_compute; reflexivity).
  destruct (parse_block _ _ _ _) as [[] s| |]; try contradiction. exists s. injection B as B1 B2 B3. split; [reflexivity|]. split; [exact B1|]. split; [|exact B3].
  intros E. rewrite E in B2. discriminate.
Qed.
Print Assumptions C62_checks_refuted.

Example C62_example : exists v ws, words ex_cfg ex_state (txt "G5 I0 J30 P0 Q-30 X10 Y10") (("G"%char, v) :: ws) [] /\ only spline_letter ws /\ is_cubic v = true /\ g_normal ex_state = AZ /\
  cubic_points ex_cfg ex_state ws <> None.
Proof.
  assert (X : exists v ws, words ex_cfg ex_state (txt "G5 I0 J30 P0 Q-30 X10 Y10") (("G"%char, v) :: ws) [] /\ is_cubic v = true /\ only spline_letter ws /\
     (if cubic_points ex_cfg ex_state ws then true else false) = true).
  { eexists. eexists. split; [apply (read_words_right _ _ 7); vm_compute; reflexivity|]. split; [vm_compute; reflexivity|]. split; [apply only_right; vm_compute; reflexivity|vm_compute; reflexivity]. }
  destruct X as (v & ws & H1 & H2 & H3 & H4). exists v, ws. repeat split; auto. intros E. rewrite E in H4. discriminate.
Qed.
