(** C84: the colours along a command. *)
From Coq Require Import Reals Lra SpecFloat Sorted.
From Flocq Require Import Core IEEE754.BinarySingleNaN.
From Verif Require Import Base Model_Float Spec_Real Proofs_Real Model_Axis Model_Planner Prop_ViewRange Model_MachineView Spec_MachineView Prop_MachineView Prop_MachineColors Prop_MachineSpeed.
Open Scope R_scope.

Lemma mul_fin_small : forall x y, fin32 x -> fin32 y -> fin32 (f32_mul x y) -> Proofs_Real.small 128%Z (rnd32 (val x * val y)).
Proof.
  intros x y Fx Fy F. destruct (Rlt_or_le (Rabs (rnd32 (val x * val y))) (bpow radix2 128)) as [S|Big]; [exact S|exfalso].
  destruct (fin_b 24 128 _ Fx) as (bx & Ex & Gx & Vx). destruct (fin_b 24 128 _ Fy) as (by_ & Ey & Gy & Vy). unfold f32_mul in F. rewrite <- Ex, <- Ey, (mul_eq 24 128 prec24 emax128) in F.
  pose proof (Bmult_correct 24 128 prec24 emax128 mode_NE bx by_) as C. rewrite Rlt_bool_false in C; [|rewrite Vx, Vy; exact Big]. rewrite C in F. unfold binary_overflow in F. cbn in F. destruct F as [_ F]. discriminate F.
Qed.
Lemma rnd32_bound : forall r e, (-100 <= e <= 120)%Z -> Rabs r <= bpow radix2 e -> Rabs (rnd32 r) <= bpow radix2 e.
Proof. intros r e E H. apply abs_round_le_generic; [apply (fexp_correct 24 128); reflexivity|apply valid_rnd_N| |exact H]. apply generic_format_bpow. unfold SpecFloat.fexp, SpecFloat.emin. lia. Qed.
Lemma bound_small : forall r e, (-100 <= e <= 120)%Z -> Rabs r <= bpow radix2 e -> Proofs_Real.small 128%Z (rnd32 r).
Proof. intros r e E H. unfold Proofs_Real.small. eapply Rle_lt_trans; [apply (rnd32_bound r e E H)|apply bpow_lt; lia]. Qed.
Lemma rnd32_le : forall a b, a <= b -> rnd32 a <= rnd32 b. Proof. intros a b H. apply rnd_le; try reflexivity. exact H. Qed.
Lemma rnd32_zero : rnd32 0 = 0. Proof. apply (rnd_0 24 128). Qed.

Section Along.
Variables (c : mv_config) (k : command) (n : Z).
Notation s := (Model_Planner.c_steps k).
Hypothesis Se : seen k = true.
Hypothesis H : forall x, shown_motor x \/ turns k x -> fin32 (mv_steps c (motor_axis x)) /\ bpow radix2 (-20) <= val (mv_steps c (motor_axis x)) <= bpow radix2 20 /\ (Z.abs (Model_Planner.c_steps k x) <= 2 ^ 24)%Z.
Hypothesis F0 : fin32 (c_v0 k). Hypothesis F1 : fin32 (c_v1 k).
Hypothesis B0 : 0 <= val (c_v0 k) <= bpow radix2 30. Hypothesis B1 : 0 <= val (c_v1 k) <= bpow radix2 30.
Hypothesis Bn : (1 <= n <= 2 ^ 24)%Z.

Lemma dominant_turns : turns k (dominant s).
Proof. unfold turns. pose proof (seen_some k Se). pose proof (dominant_max s M1). pose proof (dominant_max s M2). pose proof (dominant_max s M3). lia. Qed.
Lemma gear : fin32 (spmm c (dominant s)) /\ bpow radix2 (-20) <= val (spmm c (dominant s)) <= bpow radix2 20 /\ (Z.abs (s (dominant s)) <= 2 ^ 24)%Z.
Proof. exact (H _ (or_intror dominant_turns)). Qed.
Lemma ratio_fin : fin32 (speed_ratio c s) /\ 0 <= val (speed_ratio c s).
Proof.
  assert (S : forall x, shown_motor x \/ s x <> 0%Z -> sane c x (s x)) by (intros x X; exact (H x X)). pose proof (seen_some k Se) as N.
  assert (S1 : sane c M1 (s M1)) by (apply S; unfold shown_motor; auto). assert (S2 : sane c M2 (s M2)) by (apply S; unfold shown_motor; auto). assert (S3 : sane c M3 (s M3)) by (apply S; unfold shown_motor; auto).
  pose proof dominant_turns as Nd. unfold turns in Nd. destruct gear as (Fp & Bp & Zd). set (d := dominant s) in *. unfold speed_ratio. fold d.
  pose proof (bpow_gt_0 radix2 (-20)) as P20. assert (Pp : 0 < val (spmm c d)) by lra.
  pose proof (steps_bits _ Zd Nd) as Bd. rewrite <- abs_IZR in Bd. set (q := Z.abs (s d)) in *. assert (Pn : 0 < IZR q) by (apply IZR_lt; unfold q; lia).
  destruct (f32_of_Z_val q ltac:(unfold q; lia)) as [Fn Vn].
  pose proof (near_refl (val (spmm c d)) ltac:(lra)) as N_p. assert (N_n : near 0 (val (f32_of_Z q)) (IZR q)) by (rewrite Vn; apply near_refl; lra).
  assert (BD : within_bits 44 (IZR q / val (spmm c d))) by (apply (bits_mul 24 20); [exact Bd|apply bits_inv; exact Bp]).
  destruct (div_near 0 0 _ _ _ _ ltac:(lia) Fn Fp N_n N_p Pp) as [FD ND]; [apply (bits_usual 44); [lia|now right]|].
  destruct (length_near c s S1 S2 S3) as [FL NL]. pose proof (length_bits c s S1 S2 S3 N) as BL.
  assert (PD : 0 < IZR q / val (spmm c d)) by (apply Rdiv_lt_0_compat; assumption).
  destruct (div_near 6 1 _ _ _ _ ltac:(lia) FL FD NL ND PD) as [FR NR]; [apply (bits_usual 89); [lia|right; apply (bits_mul 45 44); [exact BL|apply bits_inv; exact BD]]|].
  split; [exact FR|apply NR].
Qed.
Definition top : fl := S754_finite false 8388608 17.
Lemma top_val : fin32 top /\ val top = bpow radix2 40.
Proof. split; [split; reflexivity|]. unfold val, top. cbn [SF2R cond_Zopp]. change (Z.pos 8388608) with (2 ^ 23)%Z. unfold F2R. cbn [Fnum Fexp]. change (IZR (2 ^ 23)) with (bpow radix2 23). rewrite <- bpow_plus. reflexivity. Qed.
Lemma quotient : forall v, fin32 v -> Rabs (val v) <= bpow radix2 40 -> fin32 (f32_div v (spmm c (dominant s))) /\ val (f32_div v (spmm c (dominant s))) = rnd32 (val v / val (spmm c (dominant s))).
Proof.
  intros v Fv Bv. destruct gear as (Fp & Bp & _). pose proof (bpow_gt_0 radix2 (-20)) as P.
  apply (div_val 24 128 prec24 emax128); try assumption; [lra|]. apply (bound_small _ 60); [lia|]. unfold Rdiv. rewrite Rabs_mult. change 60%Z with (40 + 20)%Z. rewrite bpow_plus.
  apply Rmult_le_compat; try apply Rabs_pos; [exact Bv|]. rewrite Rabs_pos_eq by (apply Rlt_le, Rinv_0_lt_compat; lra).
  replace (bpow radix2 20) with (/ bpow radix2 (-20)) by (rewrite <- bpow_opp; reflexivity). apply Rinv_le; lra.
Qed.
Lemma speed_fin : forall v, fin32 v -> Rabs (val v) <= bpow radix2 40 ->
  let p := spmm c (dominant s) in let r := speed_ratio c s in
  (fin32 (f32_mul (f32_div v p) r) /\ val (f32_mul (f32_div v p) r) = rnd32 (rnd32 (val v / val p) * val r)) /\
  (fin32 (through_space c k v) /\ val (through_space c k v) = rnd32 (rnd32 (val v / val p) * val r)).
Proof.
  intros v Fv Bv p r. destruct ratio_fin as [Fr Pr]. fold r in Fr, Pr. destruct (quotient v Fv Bv) as [Fq Vq]. fold p in Fq, Vq. destruct top_val as [Ft Vt]. destruct gear as (Fp & Bp & _). fold p in Fp, Bp.
  pose proof (bpow_gt_0 radix2 (-20)) as P. destruct (quotient top Ft) as [Fqt Vqt]; [rewrite Vt, Rabs_pos_eq; [lra|apply bpow_ge_0]|]. fold p in Fqt, Vqt.
  assert (T : fin32 (through_space c k top)).
  { apply (C84_speed c k top (dominant s)); try assumption; [intros x; apply dominant_max|]. right. rewrite Vt. split; [apply bpow_le; lia|lra]. }
  apply mul_fin_small in T; [|assumption..]. fold p r in T. rewrite Vqt, Vt in T.
  assert (S : Proofs_Real.small 128%Z (rnd32 (rnd32 (val v / val p) * val r))).
  { unfold Proofs_Real.small in *. eapply Rle_lt_trans; [|exact T]. rewrite <- !rnd32_abs. rewrite !Rabs_mult, (Rabs_pos_eq (val r)) by exact Pr. rewrite (Rmult_comm (val r)). apply rnd32_le. apply Rmult_le_compat_r; [exact Pr|].
    rewrite <- !rnd32_abs. apply rnd32_le. unfold Rdiv. rewrite !Rabs_mult. apply Rmult_le_compat_r; [apply Rabs_pos|]. rewrite (Rabs_pos_eq (bpow _ _)) by apply bpow_ge_0. exact Bv. }
  split.
  - destruct (mul_val 24 128 prec24 emax128 _ _ Fq Fr) as [F V]; [rewrite Vq; exact S|]. rewrite Vq in V. split; [exact F|exact V].
  - destruct (mul_val 24 128 prec24 emax128 _ _ Fr Fq) as [F V]; [rewrite Vq, Rmult_comm; exact S|]. rewrite Vq, Rmult_comm in V. split; [exact F|exact V].
Qed.

(** The speed of the motor at the beginning of piece [i]. *)
Definition motor_speed (i : Z) : fl := f32_add (c_v0 k) (f32_div (f32_mul (f32_of_Z i) (f32_sub (c_v1 k) (c_v0 k))) (f32_of_Z n)).
Definition rise : R := rnd32 (val (c_v1 k) - val (c_v0 k)).
Lemma rise_bound : Rabs rise <= bpow radix2 30. Proof. apply rnd32_bound; [lia|]. apply Rabs_le. lra. Qed.
Lemma motor_speed_val : forall i, (0 <= i <= n)%Z -> fin32 (motor_speed i) /\ val (motor_speed i) = rnd32 (val (c_v0 k) + rnd32 (rnd32 (IZR i * rise) / IZR n)) /\ Rabs (val (motor_speed i)) <= bpow radix2 40.
Proof.
  intros i I. unfold motor_speed. destruct (f32_of_Z_val i ltac:(lia)) as [Fi Vi]. destruct (f32_of_Z_val n ltac:(lia)) as [Fn Vn].
  destruct (sub_val 24 128 prec24 emax128 _ _ F1 F0) as [Fd Vd]; [apply (bound_small _ 30); [lia|apply Rabs_le; lra]|]. change (val (SFsub 24 128 (c_v1 k) (c_v0 k)) = rise) in Vd. change (SFsub 24 128 (c_v1 k) (c_v0 k)) with (f32_sub (c_v1 k) (c_v0 k)) in *.
  pose proof rise_bound as RB. assert (Pi : 0 <= IZR i) by (apply IZR_le; lia). assert (Pn : 1 <= IZR n) by (apply IZR_le; lia). assert (Un : IZR n <= bpow radix2 24) by (change (bpow radix2 24) with (IZR (2 ^ 24)); apply IZR_le; lia). assert (Li : IZR i <= IZR n) by (apply IZR_le; lia).
  assert (Q : Rabs (IZR i * rise) <= IZR n * bpow radix2 30) by (rewrite Rabs_mult, (Rabs_pos_eq (IZR i)) by exact Pi; apply Rmult_le_compat; try apply Rabs_pos; assumption).
  assert (G : generic_format radix2 (SpecFloat.fexp 24 128) (IZR n * bpow radix2 30)).
  { apply generic_format_FLT with (emin := (-149)%Z) (prec := 24%Z). destruct (Z.eq_dec n (2 ^ 24)) as [->|Nn].
    - apply (FLT_spec _ _ _ _ (Float radix2 1 54)); cbn [Fnum Fexp]; [change (IZR (2 ^ 24)) with (bpow radix2 24); rewrite <- bpow_plus; unfold F2R; cbn [Fnum Fexp]; rewrite Rmult_1_l; reflexivity|reflexivity|lia].
    - apply (FLT_spec _ _ _ _ (Float radix2 n 30)); cbn [Fnum Fexp]; [reflexivity|change (radix2 ^ 24)%Z with (2 ^ 24)%Z; lia|lia]. }
  assert (M : Rabs (rnd32 (IZR i * rise)) <= IZR n * bpow radix2 30) by (apply abs_round_le_generic; [apply (fexp_correct 24 128); reflexivity|apply valid_rnd_N|exact G|exact Q]).
  assert (Top : IZR n * bpow radix2 30 <= bpow radix2 54) by (change 54%Z with (24 + 30)%Z; rewrite bpow_plus; apply Rmult_le_compat_r; [apply bpow_ge_0|exact Un]).
  destruct (mul_val 24 128 prec24 emax128 _ _ Fi Fd) as [Fm Vm]; [rewrite Vi, Vd; apply (bound_small _ 54); [lia|lra]|]. rewrite Vi, Vd in Vm.
  assert (D : Rabs (rnd32 (IZR i * rise) / IZR n) <= bpow radix2 30).
  { unfold Rdiv. rewrite Rabs_mult, (Rabs_pos_eq (/ _)) by (apply Rlt_le, Rinv_0_lt_compat; lra). apply (Rmult_le_reg_r (IZR n)); [lra|]. rewrite Rmult_assoc, Rinv_l by lra. lra. }
  destruct (div_val 24 128 prec24 emax128 _ _ Fm Fn) as [Fq Vq]; [rewrite Vn; lra|rewrite Vm, Vn; apply (bound_small _ 30); [lia|exact D]|]. rewrite Vm, Vn in Vq.
  pose proof (rnd32_bound _ 30 ltac:(lia) D) as DR. assert (T31 : bpow radix2 31 = 2 * bpow radix2 30) by (change 31%Z with (1 + 30)%Z; rewrite bpow_plus; reflexivity).
  assert (A : Rabs (val (c_v0 k) + rnd32 (rnd32 (IZR i * rise) / IZR n)) <= bpow radix2 31) by (apply Rabs_le_inv in DR; apply Rabs_le; lra).
  destruct (add_val 24 128 prec24 emax128 _ _ F0 Fq) as [Fs Vs]; [rewrite Vq; apply (bound_small _ 31); [lia|exact A]|]. rewrite Vq in Vs.
  split; [exact Fs|]. split; [exact Vs|]. unfold f32_add, f32_div, f32_mul in *. rewrite Vs. eapply Rle_trans; [apply (rnd32_bound _ 31); [lia|exact A]|apply bpow_le; lia].
Qed.
Lemma motor_speed_0 : val (motor_speed 0) = val (c_v0 k).
Proof. destruct (motor_speed_val 0 ltac:(lia)) as (_ & V & _). rewrite V. rewrite Rmult_0_l, rnd32_zero. unfold Rdiv. rewrite Rmult_0_l, rnd32_zero, Rplus_0_r. apply (rnd_fin 24 128). exact F0. Qed.
Lemma motor_speed_up : forall i j, val (c_v0 k) <= val (c_v1 k) -> (0 <= i <= j)%Z -> (j <= n)%Z -> val (motor_speed i) <= val (motor_speed j).
Proof.
  intros i j V I J. destruct (motor_speed_val i ltac:(lia)) as (_ & Vi & _). destruct (motor_speed_val j ltac:(lia)) as (_ & Vj & _). rewrite Vi, Vj.
  assert (R : 0 <= rise) by (rewrite <- rnd32_zero; apply rnd32_le; lra). assert (Pn : 0 < IZR n) by (apply IZR_lt; lia).
  apply rnd32_le, Rplus_le_compat_l, rnd32_le. apply Rmult_le_compat_r; [apply Rlt_le, Rinv_0_lt_compat, Pn|]. apply rnd32_le, Rmult_le_compat_r; [exact R|apply IZR_le; lia].
Qed.
Lemma motor_speed_down : forall i j, val (c_v1 k) <= val (c_v0 k) -> (0 <= i <= j)%Z -> (j <= n)%Z -> val (motor_speed j) <= val (motor_speed i).
Proof.
  intros i j V I J. destruct (motor_speed_val i ltac:(lia)) as (_ & Vi & _). destruct (motor_speed_val j ltac:(lia)) as (_ & Vj & _). rewrite Vi, Vj.
  assert (R : rise <= 0) by (rewrite <- rnd32_zero; apply rnd32_le; lra). assert (Pn : 0 < IZR n) by (apply IZR_lt; lia).
  apply rnd32_le, Rplus_le_compat_l, rnd32_le. apply Rmult_le_compat_r; [apply Rlt_le, Rinv_0_lt_compat, Pn|]. apply rnd32_le. rewrite (Rmult_comm (IZR j)), (Rmult_comm (IZR i)). apply Rmult_le_compat_neg_l; [exact R|apply IZR_le; lia].
Qed.
Lemma speed_mono : forall v w, fin32 v -> fin32 w -> Rabs (val v) <= bpow radix2 40 -> Rabs (val w) <= bpow radix2 40 -> val v <= val w ->
  let f x := f32_mul (f32_div x (spmm c (dominant s))) (speed_ratio c s) in val (f v) <= val (f w).
Proof.
  intros v w Fv Fw Bv Bw L f. destruct (speed_fin v Fv Bv) as [[_ V] _]. destruct (speed_fin w Fw Bw) as [[_ W] _]. unfold f. rewrite V, W. destruct ratio_fin as [_ Pr]. destruct gear as (_ & Bp & _). pose proof (bpow_gt_0 radix2 (-20)).
  apply rnd32_le, Rmult_le_compat_r; [exact Pr|]. apply rnd32_le, Rmult_le_compat_r; [apply Rlt_le, Rinv_0_lt_compat; lra|exact L].
Qed.
Lemma piece_fin : forall i, (0 <= i <= n)%Z -> fin32 (piece_speed c k n i).
Proof. intros i I. destruct (motor_speed_val i I) as (F & _ & B). exact (proj1 (proj1 (speed_fin _ F B))). Qed.
Lemma piece_up : forall i j, val (c_v0 k) <= val (c_v1 k) -> (0 <= i <= j)%Z -> (j <= n)%Z -> val (piece_speed c k n i) <= val (piece_speed c k n j).
Proof. intros i j V I J. destruct (motor_speed_val i ltac:(lia)) as (Fi & _ & Bi). destruct (motor_speed_val j ltac:(lia)) as (Fj & _ & Bj). exact (speed_mono _ _ Fi Fj Bi Bj (motor_speed_up i j V I J)). Qed.
Lemma piece_down : forall i j, val (c_v1 k) <= val (c_v0 k) -> (0 <= i <= j)%Z -> (j <= n)%Z -> val (piece_speed c k n j) <= val (piece_speed c k n i).
Proof. intros i j V I J. destruct (motor_speed_val i ltac:(lia)) as (Fi & _ & Bi). destruct (motor_speed_val j ltac:(lia)) as (Fj & _ & Bj). exact (speed_mono _ _ Fj Fi Bj Bi (motor_speed_down i j V I J)). Qed.
Lemma piece_first : fin32 (through_space c k (c_v0 k)) /\ val (piece_speed c k n 0) = val (through_space c k (c_v0 k)).
Proof.
  destruct (motor_speed_val 0 ltac:(lia)) as (F & _ & B). destruct (speed_fin _ F B) as [[_ V] _].
  assert (B' : Rabs (val (c_v0 k)) <= bpow radix2 40) by (rewrite <- motor_speed_0; exact B). destruct (speed_fin _ F0 B') as [_ [G W]]. split; [exact G|]. change (val (piece_speed c k n 0) = rnd32 (rnd32 (val (motor_speed 0) / val (spmm c (dominant s))) * val (speed_ratio c s))) in V. rewrite V, W, motor_speed_0. reflexivity.
Qed.
End Along.

Lemma colours_sorted : forall (Q : Z -> Z -> Prop) c k pos low high n,
  (forall i j a b, (0 <= i <= j)%Z -> (j < n)%Z -> color_index low high (piece_speed c k n i) = Ok a -> color_index low high (piece_speed c k n j) = Ok b -> Q a b) ->
  forall t i cur l ms, (0 <= i)%Z -> (i + Z.of_nat t <= n)%Z -> draw_pieces c k pos low high n t i cur = Ok (l, ms) ->
  l = last (painted cur ms) cur /\ StronglySorted Q (painted cur ms) /\ (forall i0 a, (0 <= i0 <= i)%Z -> color_index low high (piece_speed c k n i0) = Ok a -> Forall (Q a) (painted cur ms)).
Proof.
  intros Q c k pos low high n Mo. induction t as [|t IH]; intros i cur l ms I T D; cbn [draw_pieces] in D; [injection D as <- <-; split; [reflexivity|]; split; [constructor|intros; constructor]|].
  destruct (color_index low high (piece_speed c k n i)) as [idx|] eqn:C; [|discriminate]. cbn [obind] in D. destruct (abs_axis c pos _ n i M1) as [x|]; [|discriminate]. destruct (abs_axis c pos _ n i M2) as [y|]; [|discriminate]. destruct (abs_axis c pos _ n i M3) as [w|]; [|discriminate]. cbn [obind] in D.
  destruct (draw_pieces c k pos low high n t (i + 1) idx) as [[l' ms']|] eqn:D'; [|discriminate]. cbn [obind] in D. injection D as <- <-.
  assert (I1 : (0 <= i + 1)%Z) by lia. assert (T1 : (i + 1 + Z.of_nat t <= n)%Z) by lia. destruct (IH _ _ _ _ I1 T1 D') as (L & S & A).
  assert (E : painted cur ((if (idx =? cur)%Z then [] else [SpeedColor idx]) ++ DrawTo (x, y, w) :: ms') = idx :: painted idx ms') by (destruct (Z.eqb_spec idx cur) as [->|_]; reflexivity). rewrite E.
  split; [rewrite L; clear; generalize (painted idx ms'); intros q; destruct q as [|h q]; [reflexivity|]; change (last (idx :: h :: q) cur) with (last (h :: q) cur); revert h; induction q as [|h' q IHq]; intros h; [reflexivity|exact (IHq h')]|].
  split; [constructor; [exact S|apply (A i); [lia|exact C]]|].
  intros i0 a I0 C0. constructor; [apply (Mo i0 i); (lia || assumption)|apply (A i0); [lia|exact C0]].
Qed.

(** The first line of a command has the colour of its first speed. Along a command that gets faster
    the colours of the lines rise, along one that gets slower they fall. The colour set last is
    known to the next command. *)
Theorem C84_ramp : forall c k z z' ms, mv_speeds c = true -> seen k = true -> geared (mv_steps c) [Move k] ->
  fin32 (mv_length c) -> 0 < val (mv_length c) ->
  (forall x, shown_motor x \/ turns k x -> fin32 (mv_steps c (motor_axis x)) /\ bpow radix2 (-20) <= val (mv_steps c (motor_axis x)) <= bpow radix2 20 /\ (Z.abs (Model_Planner.c_steps k x) <= 2 ^ 24)%Z) ->
  fin32 (c_v0 k) -> fin32 (c_v1 k) -> 0 <= val (c_v0 k) <= bpow radix2 30 -> 0 <= val (c_v1 k) <= bpow radix2 30 ->
  fin32 (mv_low z) -> fin32 (mv_high z) -> val (mv_low z) < val (mv_high z) -> Rabs (val (mv_low z)) <= bpow radix2 100 -> Rabs (val (mv_high z)) <= bpow radix2 100 ->
  second_step c (Move k) z = Ok (z', ms) -> (Z.of_nat (length (drawn None ms)) <= 2 ^ 24)%Z ->
  exists first, color_index (mv_low z) (mv_high z) (through_space c k (c_v0 k)) = Ok first /\
    hd_error (painted (mv_index z) ms) = Some first /\ mv_index z' = last (painted (mv_index z) ms) (mv_index z) /\
    (val (c_v0 k) <= val (c_v1 k) -> StronglySorted Z.le (painted (mv_index z) ms)) /\
    (val (c_v1 k) <= val (c_v0 k) -> StronglySorted Z.ge (painted (mv_index z) ms)).
Proof.
  intros c k z z' ms Sp Se G Fl Pl H F0 F1 B0 B1 Flo Fhi LH Blo Bhi E Ln.
  destruct (C84_pieces c k z z' ms Sp Se G Fl Pl (fun m M => H m (or_introl M)) E) as (_ & N1 & _). cbv zeta in N1. set (m0 := length (drawn None ms)) in *.
  destruct (C84_colours _ _ Flo Fhi LH Blo Bhi) as (Ex & Mono & _).
  cbn [second_step] in E. destruct (nothing_to_do c (Model_Planner.c_steps k)) eqn:Nt; [pose proof (something c k [Move k] G ltac:(now left) Nt); congruence|].
  pose proof Se as Se'. unfold print_segment in E. unfold seen in Se'. apply negb_true_iff in Se'. rewrite Se', Sp in E.
  destruct (SFeqb (length_mm c _) (f32_of_Z 0)); [injection E as <- <-; cbn in m0; unfold m0 in N1; lia|].
  destruct (pieces c k) as [q|] eqn:Pq; [|discriminate]. cbn [obind] in E. destruct (draw_pieces c k (mv_pos z) (mv_low z) (mv_high z) q (Z.to_nat q) 0 (mv_index z)) as [[l ms']|] eqn:D; [|discriminate]. cbn [obind] in E. injection E as <- <-.
  assert (TZ : Z.of_nat (Z.to_nat q) = Z.max q 0) by lia. destruct (Z.to_nat q) as [|t] eqn:Tq; [cbn [draw_pieces] in D; injection D as <- <-; cbn in m0; unfold m0 in N1; lia|].
  assert (Lm : m0 = S t) by (destruct (draw_end _ _ _ _ _ _ _ _ _ _ _ D) as (x & y & w & _ & _ & _ & _ & Le & _); exact (Le None)).
  assert (Bq : (1 <= q <= 2 ^ 24)%Z) by (rewrite Lm in Ln; clear - TZ Ln; lia).
  destruct (piece_first c k q Se H F0 F1 B0 B1 Bq) as [Ft Vt]. pose proof (piece_fin c k q Se H F0 F1 B0 B1 Bq) as PF.
  destruct (Ex _ Ft) as (first & Cf & _). exists first. split; [exact Cf|].
  assert (C0 : color_index (mv_low z) (mv_high z) (piece_speed c k q 0) = Ok first).
  { destruct (Ex _ (PF 0%Z ltac:(lia))) as (j & Cj & _). assert (first <= j)%Z by (eapply (Mono (through_space c k (c_v0 k)) (piece_speed c k q 0)); try eassumption; [apply PF; lia|lra]). assert (j <= first)%Z by (eapply (Mono (piece_speed c k q 0) (through_space c k (c_v0 k))); try eassumption; [apply PF; lia|lra]). replace first with j by lia. exact Cj. }
  split.
  { pose proof D as D'. cbn [draw_pieces] in D'. rewrite C0 in D'. cbn [obind] in D'. destruct (abs_axis c (mv_pos z) _ q 0 M1); [|discriminate]. destruct (abs_axis c (mv_pos z) _ q 0 M2); [|discriminate]. destruct (abs_axis c (mv_pos z) _ q 0 M3); [|discriminate]. cbn [obind] in D'.
    destruct (draw_pieces c k (mv_pos z) (mv_low z) (mv_high z) q t (0 + 1) first) as [[l' ms'']|]; [|discriminate]. cbn [obind] in D'. injection D' as _ <-. destruct (Z.eqb_spec first (mv_index z)) as [->|_]; reflexivity. }
  assert (T0 : (0 + Z.of_nat (S t) <= q)%Z) by lia.
  split; [exact (proj1 (colours_sorted (fun _ _ => True) c k _ _ _ q (fun _ _ _ _ _ _ _ _ => I) _ _ _ _ _ (Z.le_refl 0) T0 D))|].
  split; intros V.
  - refine (proj1 (proj2 (colours_sorted Z.le c k _ _ _ q _ _ _ _ _ _ (Z.le_refl 0) T0 D))).
    intros i j a b Ii J Ca Cb. eapply (Mono (piece_speed c k q i) (piece_speed c k q j)); try eassumption; try (apply PF; lia). apply piece_up; (assumption || lia).
  - refine (proj1 (proj2 (colours_sorted Z.ge c k _ _ _ q _ _ _ _ _ _ (Z.le_refl 0) T0 D))).
    intros i j a b Ii J Ca Cb. apply Z.le_ge. eapply (Mono (piece_speed c k q j) (piece_speed c k q i)); try eassumption; try (apply PF; lia). apply piece_down; (assumption || lia).
Qed.
Print Assumptions C84_ramp.
Lemma tens_geared : geared (mv_steps (tens true)) [ramp].
Proof. intros k m _ _. reflexivity. Qed.
Lemma ten_usual : fin32 (f32_of_Z 10) /\ bpow radix2 (-20) <= val (f32_of_Z 10) <= bpow radix2 20.
Proof.
  destruct (f32_of_Z_val 10 ltac:(lia)) as [F V]. split; [exact F|]. rewrite V. change (bpow radix2 20) with 1048576. split; [|lra].
  apply Rle_trans with (bpow radix2 0); [apply bpow_le; lia|change (bpow radix2 0) with 1; lra].
Qed.
Example C84_ramp_example : match ramp with Move k =>
    geared (mv_steps (tens true)) [Move k] /\
    (forall x, fin32 (mv_steps (tens true) (motor_axis x)) /\ bpow radix2 (-20) <= val (mv_steps (tens true) (motor_axis x)) <= bpow radix2 20 /\ (Z.abs (Model_Planner.c_steps k x) <= 2 ^ 24)%Z) /\
    val (c_v0 k) = 100 /\ val (c_v1 k) = 200 | _ => False end /\
  mv_low before = f32_div (f32_of_Z 55) (f32_of_Z 4) /\ mv_high before = f32_div (f32_of_Z 95) (f32_of_Z 4) /\
  match second_step (tens true) ramp before with Ok (_, ms) => painted (mv_index before) ms = [0; 32; 96; 159; 223]%Z | Undefined => False end /\
  match second_step (tens true) (to 30 40 200 100) before with Ok (_, ms) => painted (mv_index before) ms = [255; 223; 159; 96; 32]%Z | Undefined => False end.
Proof.
  split; [|vm_compute; repeat (split; [reflexivity|]); reflexivity]. cbn [ramp to]. split; [exact tens_geared|]. split.
  - intros x. cbn [tens mv_steps]. destruct ten_usual as [F B]. split; [exact F|]. split; [exact B|]. destruct x; vm_compute; discriminate.
  - cbn [c_v0 c_v1]. destruct (f32_of_Z_val 100 ltac:(lia)) as [_ V1]. destruct (f32_of_Z_val 200 ltac:(lia)) as [_ V2]. split; assumption.
Qed.
