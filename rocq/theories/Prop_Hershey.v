(** C85: text is drawn within its width, without lines between characters. *)
From Coq Require Import Reals Lra SpecFloat.
From Flocq Require Import Core IEEE754.BinarySingleNaN.
From Flocq.Prop Require Import Mult_error.
From Verif Require Import Base Model_Float Spec_Real Proofs_Real Model_Spindle Prop_Stats Prop_MachineRamp Model_Hershey.
Open Scope R_scope.

(** The points of a glyph lie within its width. *)
Definition sound_glyph (g : glyph) : bool :=
  ((0 <=? fst g) && (fst g <=? 30) && forallb (fun '(cx, cy) => ((cx =? -1) && (cy =? -1)) || ((0 <=? cx) && (cx <=? fst g))) (snd g))%Z%bool.
Lemma font_sound : forall c g, glyph_of c = Some g -> sound_glyph g = true.
Proof.
  intros c g E. unfold glyph_of in E. destruct (_ || _)%bool; [discriminate|]. apply nth_error_In in E.
  assert (A : forallb sound_glyph font = true) by (vm_compute; reflexivity). rewrite forallb_forall in A. apply A, E.
Qed.

Lemma opp_f32 : forall x, fin32 x -> fin32 (SFopp x) /\ val (SFopp x) = - val x.
Proof.
  intros x [V F]. destruct x as [b|b| |b m e]; try discriminate F; (split; [split; [exact V|reflexivity]|]); unfold val; cbn [SFopp SF2R]; [lra|].
  rewrite <- F2R_Zopp. f_equal. f_equal. destruct b; reflexivity.
Qed.

Section Width.
Variable s : fl.
Hypothesis Fs : fin32 s. Hypothesis Bs : 0 <= val s <= bpow radix2 20.
Lemma part : forall w, (0 <= w <= 30)%Z -> fin32 (f32_mul s (f32_of_Z w)) /\ val (f32_mul s (f32_of_Z w)) = rnd32 (val s * IZR w) /\ 0 <= rnd32 (val s * IZR w) <= bpow radix2 25.
Proof.
  intros w W. destruct (f32_of_Z_val w ltac:(lia)) as [Fw Vw]. assert (P : 0 <= IZR w <= 32) by (split; apply IZR_le; lia).
  assert (B : 0 <= val s * IZR w <= bpow radix2 25) by (split; [apply Rmult_le_pos; lra|change 25%Z with (20 + 5)%Z; rewrite bpow_plus; change (bpow radix2 5) with 32; apply Rmult_le_compat; lra]).
  assert (A : Rabs (val s * IZR w) <= bpow radix2 25) by (rewrite Rabs_pos_eq; lra).
  destruct (mul_val 24 128 prec24 emax128 _ _ Fs Fw) as [F V]; [rewrite Vw; apply (bound_small _ 25); [lia|exact A]|]. rewrite Vw in V. split; [exact F|]. split; [exact V|].
  split; [rewrite <- rnd32_zero; apply rnd32_le; lra|]. eapply Rle_trans; [apply Rle_abs|apply rnd32_bound; [lia|exact A]].
Qed.
Lemma part_le : forall v w, (v <= w)%Z -> rnd32 (val s * IZR v) <= rnd32 (val s * IZR w).
Proof. intros v w L. apply rnd32_le, Rmult_le_compat_l; [lra|apply IZR_le, L]. Qed.
Lemma multiple : forall n, (0 <= n <= 2 ^ 24)%Z -> rnd32 (IZR n * bpow radix2 25) = IZR n * bpow radix2 25.
Proof.
  intros n N. apply round_generic; [apply valid_rnd_N|]. apply generic_format_FLT with (emin := (-149)%Z) (prec := 24%Z). destruct (Z.eq_dec n (2 ^ 24)) as [->|Nn].
  - apply (FLT_spec _ _ _ _ (Float radix2 1 49)); cbn [Fnum Fexp]; [change (IZR (2 ^ 24)) with (bpow radix2 24); rewrite <- bpow_plus; unfold F2R; cbn [Fnum Fexp]; rewrite Rmult_1_l; reflexivity|reflexivity|lia].
  - apply (FLT_spec _ _ _ _ (Float radix2 n 25)); cbn [Fnum Fexp]; [reflexivity|change (radix2 ^ 24)%Z with (2 ^ 24)%Z; lia|lia].
Qed.
Lemma advance : forall x w n, fin32 x -> 0 <= val x <= IZR n * bpow radix2 25 -> (0 <= n)%Z -> (n + 1 <= 2 ^ 24)%Z -> (0 <= w <= 30)%Z ->
  let x' := f32_add x (f32_mul s (f32_of_Z w)) in fin32 x' /\ val x' = rnd32 (val x + rnd32 (val s * IZR w)) /\ val x <= val x' <= IZR (n + 1) * bpow radix2 25.
Proof.
  intros x w n Fx Bx N0 N W x'. destruct (part w W) as (F & V & P). rewrite plus_IZR. pose proof (bpow_gt_0 radix2 25) as P25.
  assert (U : val x + rnd32 (val s * IZR w) <= IZR (n + 1) * bpow radix2 25) by (rewrite plus_IZR; lra).
  assert (T : IZR (n + 1) * bpow radix2 25 <= bpow radix2 49) by (change 49%Z with (24 + 25)%Z; rewrite bpow_plus; apply Rmult_le_compat_r; [lra|change (bpow radix2 24) with (IZR (2 ^ 24)); apply IZR_le; lia]).
  destruct (add_val 24 128 prec24 emax128 _ _ Fx F) as [Fa Va]; [rewrite V; apply (bound_small _ 49); [lia|rewrite Rabs_pos_eq; lra]|]. rewrite V in Va.
  split; [exact Fa|]. split; [exact Va|]. unfold x', f32_add. rewrite Va. split.
  - rewrite <- (rnd_fin 24 128 x Fx) at 1. apply rnd32_le. lra.
  - rewrite <- plus_IZR, <- multiple by lia. apply rnd32_le, U.
Qed.

Lemma strokes_within : forall ty dx x y n g W, fin32 x -> 0 <= val x <= IZR n * bpow radix2 25 -> (0 <= n)%Z -> (n + 1 <= 2 ^ 24)%Z -> (0 <= g <= 30)%Z ->
  val (f32_add x (f32_mul s (f32_of_Z g))) <= W ->
  forall ops, forallb (fun '(cx, cy) => ((cx =? -1) && (cy =? -1)) || ((0 <=? cx) && (cx <=? g)))%Z%bool ops = true ->
  forall up l px py, In (l, px, py) (glyph_strokes s (f32_of_Z 0) ty dx x y up ops) -> exists p, px = f32_add p dx /\ fin32 p /\ 0 <= val p <= W.
Proof.
  intros ty dx x y n g W Fx Bx N0 N G HW. induction ops as [|[cx cy] ops IH]; intros A up l px py I; [destruct I|]. cbn [forallb] in A. apply andb_true_iff in A. destruct A as [A1 A2]. cbn [glyph_strokes] in I.
  destruct ((cx =? -1) && (cy =? -1))%Z%bool eqn:M; [exact (IH A2 _ _ _ _ I)|]. destruct I as [I|I]; [|exact (IH A2 _ _ _ _ I)]. assert (Px : f32_add (f32_add (f32_add (f32_of_Z 0) x) (f32_mul s (f32_of_Z cx))) dx = px) by congruence. clear I. subst px.
  cbn [orb] in A1. assert (C : (0 <= cx <= g)%Z) by lia. eexists. split; [reflexivity|].
  destruct (f32_of_Z_val 0 ltac:(lia)) as [F0 V0]. assert (R0 : rnd32 (0 + val x) = val x) by (rewrite Rplus_0_l; apply (rnd_fin 24 128); exact Fx).
  destruct (add_val 24 128 prec24 emax128 _ _ F0 Fx) as [Fz Vz]; [rewrite V0, R0; apply (fin_small 24 128); exact Fx|]. rewrite V0, R0 in Vz. change (SFadd 24 128 (f32_of_Z 0) x) with (f32_add (f32_of_Z 0) x) in *.
  destruct (advance (f32_add (f32_of_Z 0) x) cx n Fz) as (Fp & Vp & Lp); try lia; [rewrite Vz; exact Bx|]. rewrite Vz in *. split; [exact Fp|]. split; [lra|]. eapply Rle_trans; [|exact HW].
  destruct (advance x g n Fx Bx N0 N G) as (_ & Vg & _). rewrite Vp, Vg. apply rnd32_le, Rplus_le_compat_l, part_le. lia.
Qed.
Lemma loop_within : forall ty dx str n longest x y, fin32 x -> 0 <= val x <= IZR n * bpow radix2 25 -> (0 <= n)%Z -> (n + Z.of_nat (length str) <= 2 ^ 24)%Z -> fin32 longest ->
  let W := width_loop s str longest x in fin32 W /\ val longest <= val W /\ val x <= val W /\
  (forall l px py, In (l, px, py) (draw_loop s (f32_of_Z 0) ty dx str x y) -> exists p, px = f32_add p dx /\ fin32 p /\ 0 <= val p <= val W).
Proof.
  intros ty dx. induction str as [|c str IH]; intros n longest x y Fx Bx N0 N Fl; cbn [width_loop draw_loop].
  { destruct (max_val _ _ Fl Fx) as [F V]. cbv zeta. rewrite V. pose proof (Rmax_l (val longest) (val x)). pose proof (Rmax_r (val longest) (val x)). split; [exact F|]. split; [assumption|]. split; [assumption|]. intros l px py []. }
  cbn [length] in N. pose proof (bpow_gt_0 radix2 25) as P25. destruct (f32_of_Z_val 0 ltac:(lia)) as [F0 V0]. destruct (Z.eqb_spec c 10) as [->|Nc].
  - change (glyph_of 10) with (@None glyph). destruct (max_val _ _ Fl Fx) as [F V]. pose proof (Rmax_l (val longest) (val x)). pose proof (Rmax_r (val longest) (val x)).
    assert (B0 : 0 <= val (f32_of_Z 0) <= IZR n * bpow radix2 25) by (rewrite V0; lra). assert (N' : (n + Z.of_nat (length str) <= 2 ^ 24)%Z) by lia.
    destruct (IH n (fl_max longest x) (f32_of_Z 0) (f32_sub y (f32_mul (f32_of_Z 30) s)) F0 B0 N0 N' F) as (A & B & C & D). rewrite V in B. cbv zeta in *. split; [exact A|]. split; [lra|]. split; [lra|exact D].
  - destruct (glyph_of c) as [[g ops]|] eqn:E.
    + apply font_sound in E. unfold sound_glyph in E. cbn [fst snd] in E. apply andb_true_iff in E. destruct E as [E1 E2]. assert (G : (0 <= g <= 30)%Z) by lia. assert (N1 : (n + 1 <= 2 ^ 24)%Z) by lia.
      destruct (advance x g n Fx Bx N0 N1 G) as (Fa & Va & La). cbv zeta in *. set (x' := f32_add x (f32_mul s (f32_of_Z g))) in *. assert (B' : 0 <= val x' <= IZR (n + 1) * bpow radix2 25) by lra. assert (N' : (n + 1 + Z.of_nat (length str) <= 2 ^ 24)%Z) by lia. assert (N0' : (0 <= n + 1)%Z) by lia.
      destruct (IH (n + 1)%Z longest x' y Fa B' N0' N' Fl) as (A & B & C & D). split; [exact A|]. split; [exact B|]. split; [lra|]. intros l px py I. apply in_app_iff in I. destruct I as [I|I]; [|exact (D _ _ _ I)].
      eapply (strokes_within ty dx x y n g); try eassumption.
    + assert (N' : (n + Z.of_nat (length str) <= 2 ^ 24)%Z) by lia. exact (IH n longest x y Fx Bx N0 N' Fl).
Qed.
End Width.

(** Text at 0 with at most 16 million characters lies between 0 and its width, or, aligned to the
    right, between minus its width and 0, or, centred, not further than half its width from 0. *)
Theorem C85_within : forall str ty a size, fin32 size -> 0 <= val size <= bpow radix2 20 -> (Z.of_nat (length str) <= 2 ^ 24)%Z ->
  let W := val (text_width str size) in
  fin32 (text_width str size) /\ 0 <= W /\
  (W = 0 \/ bpow radix2 (-100) <= W -> forall l x y, In (l, x, y) (draw_text str (f32_of_Z 0) ty a size) ->
   match a with Left => 0 <= val x <= W | Right => - W <= val x <= 0 | Center => - (W / 2) <= val x <= W / 2 end).
Proof.
  intros str ty a size Fz Bz L W. destruct (f32_of_Z_val 0 ltac:(lia)) as [F0 V0]. destruct (f32_of_Z_val 25 ltac:(lia)) as [F25 V25]. pose proof (bpow_gt_0 radix2 20) as P20.
  assert (D : 0 <= val size / 25 <= bpow radix2 20) by lra. assert (DA : Rabs (val size / 25) <= bpow radix2 20) by (rewrite Rabs_pos_eq; lra).
  destruct (div_val 24 128 prec24 emax128 _ _ Fz F25) as [Fs Vs]; [rewrite V25; lra|rewrite V25; apply (bound_small _ 20); [lia|exact DA]|]. rewrite V25 in Vs.
  assert (Bs : 0 <= val (scale size) <= bpow radix2 20).
  { unfold scale, f32_div. rewrite Vs. split; [rewrite <- rnd32_zero; apply rnd32_le; lra|]. eapply Rle_trans; [apply Rle_abs|apply rnd32_bound; [lia|exact DA]]. }
  assert (B0 : 0 <= val (f32_of_Z 0) <= IZR 0 * bpow radix2 25) by (rewrite V0; lra).
  pose proof (fun dx => loop_within (scale size) Fs Bs ty dx str 0 (f32_of_Z 0) (f32_of_Z 0) (f32_of_Z 0) F0 B0 (Z.le_refl 0) L F0) as A. cbv zeta in A. change (width_loop (scale size) str (f32_of_Z 0) (f32_of_Z 0)) with (text_width str size) in A.
  destruct (A (f32_of_Z 0)) as (FW & W0 & _). rewrite V0 in W0. fold W in W0. split; [exact FW|]. split; [exact W0|]. intros Us l x y I. destruct (opp_f32 _ FW) as [Fo Vo]. fold W in Vo.
  pose proof (fin_small 24 128 _ FW) as SW. unfold Proofs_Real.small in SW. fold W in SW. rewrite Rabs_pos_eq in SW by exact W0. assert (RW : rnd32 W = W) by (apply (rnd_fin 24 128); exact FW).
  assert (RO : rnd32 (- W) = - W) by (rewrite <- Vo; apply (rnd_fin 24 128); exact Fo).
  unfold draw_text in I. destruct a.
  - destruct (A (f32_of_Z 0)) as (_ & _ & _ & K). destruct (K _ _ _ I) as (p & -> & Fp & Bp). fold W in Bp. assert (Rp : rnd32 (val p + 0) = val p) by (rewrite Rplus_0_r; apply (rnd_fin 24 128); exact Fp).
    destruct (add_val 24 128 prec24 emax128 _ _ Fp F0) as [_ V]; [rewrite V0, Rp; apply (fin_small 24 128); exact Fp|]. rewrite V0, Rp in V. unfold f32_add. rewrite V. exact Bp.
  - destruct (f32_of_Z_val 2 ltac:(lia)) as [F2 V2].
    assert (G : rnd32 (W / 2) = W / 2).
    { destruct Us as [->|Us]; [unfold Rdiv; rewrite Rmult_0_l; apply rnd32_zero|]. apply round_generic; [apply valid_rnd_N|]. change (W / 2) with (W * bpow radix2 (-1)). change (SpecFloat.fexp 24 128) with (FLT_exp (-149) 24). apply mult_bpow_exact_FLT.
      - apply (fin_format 24 128). exact FW.
      - assert (mag radix2 W > -100)%Z; [|lia]. apply Z.lt_gt. apply mag_gt_bpow. rewrite Rabs_pos_eq; assumption. }
    assert (GO : rnd32 (- W / 2) = - (W / 2)) by (replace (- W / 2) with (- (W / 2)) by field; unfold rnd; rewrite round_NE_opp; f_equal; exact G).
    destruct (div_val 24 128 prec24 emax128 _ _ Fo F2) as [Fh Vh]; [rewrite V2; lra|rewrite Vo, V2, GO; unfold Proofs_Real.small; rewrite Rabs_Ropp, Rabs_pos_eq; lra|]. rewrite Vo, V2, GO in Vh.
    destruct (A (f32_div (SFopp (text_width str size)) (f32_of_Z 2))) as (_ & _ & _ & K). destruct (K _ _ _ I) as (p & -> & Fp & Bp). fold W in Bp. change (SFdiv 24 128 (SFopp (text_width str size)) (f32_of_Z 2)) with (f32_div (SFopp (text_width str size)) (f32_of_Z 2)) in *. set (h := f32_div _ _) in *.
    assert (Q : - (W / 2) <= rnd32 (val p + val h) <= W / 2).
    { rewrite Vh. split; [rewrite <- GO; apply rnd32_le; lra|rewrite <- G at 2; apply rnd32_le; lra]. }
    destruct (add_val 24 128 prec24 emax128 _ _ Fp Fh) as [_ V]; [unfold Proofs_Real.small; eapply Rle_lt_trans; [apply Rabs_le; exact Q|lra]|]. unfold f32_add. rewrite V. exact Q.
  - destruct (A (SFopp (text_width str size))) as (_ & _ & _ & K). destruct (K _ _ _ I) as (p & -> & Fp & Bp). fold W in Bp.
    assert (Q : - W <= rnd32 (val p + - W) <= 0) by (split; [rewrite <- RO at 1; apply rnd32_le; lra|rewrite <- rnd32_zero; apply rnd32_le; lra]).
    destruct (add_val 24 128 prec24 emax128 _ _ Fp Fo) as [_ V]; [rewrite Vo; unfold Proofs_Real.small; eapply Rle_lt_trans; [apply Rabs_le with (b := W); lra|exact SW]|]. rewrite Vo in V. unfold f32_add. rewrite V. exact Q.
Qed.
Print Assumptions C85_within.
Definition hello : list Z := [72; 105; 10; 33]%Z.
Example C85_within_example : fin32 (f32_of_Z 25) /\ 0 <= val (f32_of_Z 25) <= bpow radix2 20 /\ text_width hello (f32_of_Z 25) = f32_of_Z 30 /\
  map (fun '(l, x, _) => (l, x)) (firstn 3 (draw_text hello (f32_of_Z 0) (f32_of_Z 0) Right (f32_of_Z 25))) = [(false, f32_of_Z (-26)); (true, f32_of_Z (-26)); (false, f32_of_Z (-12))].
Proof.
  destruct (f32_of_Z_val 25 ltac:(lia)) as [F V]. rewrite V. split; [exact F|]. split; [|split; vm_compute; reflexivity]. split; [lra|]. apply Rle_trans with (bpow radix2 5); [change (bpow radix2 5) with 32; lra|apply bpow_le; lia].
Qed.

(** No line is drawn from one character to the next, or to the first one: wherever the text is cut
    in two, what is drawn for the rest begins with a move. *)
Definition begins_with_move (l : list stroke) : Prop := match l with [] => True | (line, _, _) :: _ => line = false end.
Lemma glyph_begins : forall s tx ty dx x y ops, begins_with_move (glyph_strokes s tx ty dx x y true ops).
Proof. intros s tx ty dx x y. induction ops as [|[cx cy] ops IH]; cbn [glyph_strokes]; [exact I|]. destruct (_ && _)%bool; [exact IH|reflexivity]. Qed.
Lemma loop_begins : forall s tx ty dx str x y, begins_with_move (draw_loop s tx ty dx str x y).
Proof.
  intros s tx ty dx. induction str as [|c str IH]; intros x y; cbn [draw_loop]; [exact I|]. destruct (glyph_of c) as [[g ops]|]; [|apply IH].
  match goal with |- begins_with_move (glyph_strokes ?a ?b ?c0 ?d ?e ?f true ops ++ _) => pose proof (glyph_begins a b c0 d e f ops) as B; destruct (glyph_strokes a b c0 d e f true ops) as [|[[l u] v] q] end; [apply IH|exact B].
Qed.
Theorem C85_apart : forall first rest tx ty size, exists after,
  draw_text (first ++ rest) tx ty Left size = draw_text first tx ty Left size ++ after /\ begins_with_move after.
Proof.
  intros first rest tx ty size. unfold draw_text.
  assert (H : forall str x y, exists after, draw_loop (scale size) tx ty (f32_of_Z 0) (str ++ rest) x y = draw_loop (scale size) tx ty (f32_of_Z 0) str x y ++ after /\ begins_with_move after); [|apply H].
  induction str as [|c str IH]; intros x y; cbn [app draw_loop].
  - eexists. split; [reflexivity|apply loop_begins].
  - destruct (glyph_of c) as [[g ops]|]; [|apply IH]. match goal with |- exists _, _ ++ draw_loop _ _ _ _ _ ?x' ?y' = _ /\ _ => destruct (IH x' y') as (after & E & B) end. exists after. split; [rewrite E, app_assoc; reflexivity|exact B].
Qed.
Print Assumptions C85_apart.
Example C85_apart_example : length (draw_text hello (f32_of_Z 0) (f32_of_Z 0) Left (f32_of_Z 25)) = 20%nat /\ length (draw_text [72%Z] (f32_of_Z 0) (f32_of_Z 0) Left (f32_of_Z 25)) = 6%nat.
Proof. split; vm_compute; reflexivity. Qed.

(** Characters that are not ASCII or not printable, apart from the end of a line, change neither the
    width nor what is drawn. *)
Definition shows (c : Z) : bool := ((c =? 10) || ((32 <=? c) && (c <=? 126)))%Z%bool.
Theorem C85_ignored : forall str tx ty a size,
  text_width (filter shows str) size = text_width str size /\ draw_text (filter shows str) tx ty a size = draw_text str tx ty a size.
Proof.
  assert (H : forall c, shows c = false -> (c =? 10)%Z = false /\ glyph_of c = None).
  { intros c S. unfold shows in S. split; [lia|]. unfold glyph_of. destruct ((c <? 32) || (126 <? c))%Z%bool eqn:E; [reflexivity|lia]. }
  assert (Wi : forall s str l w, width_loop s (filter shows str) l w = width_loop s str l w).
  { intros s. induction str as [|c str IH]; intros l w; [reflexivity|]. cbn [filter]. destruct (shows c) eqn:S; cbn [width_loop]; [destruct (glyph_of c) as [[g ops]|]; apply IH|]. destruct (H c S) as [-> ->]. apply IH. }
  assert (Dr : forall s tx ty dx str x y, draw_loop s tx ty dx (filter shows str) x y = draw_loop s tx ty dx str x y).
  { intros s tx ty dx. induction str as [|c str IH]; intros x y; [reflexivity|]. cbn [filter]. destruct (shows c) eqn:S; cbn [draw_loop]; [destruct (glyph_of c) as [[g ops]|]; [f_equal|]; apply IH|]. destruct (H c S) as [-> ->]. apply IH. }
  intros str tx ty a size. assert (E : text_width (filter shows str) size = text_width str size) by apply Wi. split; [exact E|]. unfold draw_text. rewrite E. apply Dr.
Qed.
Print Assumptions C85_ignored.
Example C85_ignored_example : filter shows [195; 164; 65; -61; 9; 10; 66]%Z = [65; 10; 66]%Z.
Proof. reflexivity. Qed.
