(** An arc turns to its target, in pieces of a tenth of a millimetre. *)
From Coq Require Import Reals Lra SpecFloat.
From Flocq Require Import Core IEEE754.BinarySingleNaN.
From Verif Require Import Base Model_Float Model_Axis Model_Gcode Model_Arc Spec_Real Proofs_Real Spec_Arc Proofs_Circle Proofs_Arc.
Open Scope Z_scope.
Open Scope R_scope.

Definition u : R := / 16777216.
Definition t0 : R := / 10000000000000000000000000000000000000000.
Lemma u_val : 0 < u <= 6 / 100000000. Proof. unfold u. lra. Qed.
Lemma t0_val : 0 < t0 <= / 1000000000000000000000. Proof. unfold t0. lra. Qed.
Lemma rnd_near : forall r, Rabs (rnd32 r - r) <= u * Rabs r + t0.
Proof.
  intros r. pose proof (rnd_error 24 128 _ r) as E. change (bpow radix2 (- (24))) with u in E.
  assert (T : bpow radix2 (SpecFloat.emin 24 128) <= bpow radix2 (-133)) by (apply bpow_le; unfold SpecFloat.emin; lia).
  replace (bpow radix2 (-133)) with (/ 10889035741470030830827987437816582766592) in T by reflexivity. unfold t0. lra.
Qed.

(** ** Sums of products *)
Lemma prod_val : forall x y, fin32 x -> fin32 y -> Rabs (val x) <= 4096 -> Rabs (val y) <= 4096 ->
  fin32 (f32_mul x y) /\ Rabs (val (f32_mul x y) - val x * val y) <= u * Rabs (val x * val y) + t0 /\ Rabs (val x * val y) <= 16777216.
Proof.
  intros x y Fx Fy Bx By. pose proof (mul_abs _ _ _ _ Bx By) as M. destruct (small_rnd (val x * val y) ltac:(lra)) as (_ & S).
  destruct (mul_val 24 128 _ _ x y Fx Fy S) as (F & V). split; [exact F|]. unfold f32_mul. rewrite V. split; [apply rnd_near|lra].
Qed.
Lemma sum_val : forall x y, fin32 x -> fin32 y -> Rabs (val x) <= 20000000 -> Rabs (val y) <= 20000000 ->
  fin32 (f32_add x y) /\ Rabs (val (f32_add x y) - (val x + val y)) <= u * Rabs (val x + val y) + t0.
Proof.
  intros x y Fx Fy Bx By. assert (M : Rabs (val x + val y) <= 40000000) by (eapply Rle_trans; [apply Rabs_triang|lra]). destruct (small_rnd (val x + val y) ltac:(lra)) as (_ & S).
  destruct (add_val 24 128 _ _ x y Fx Fy S) as (F & V). split; [exact F|]. unfold f32_add. rewrite V. apply rnd_near.
Qed.
Lemma diff_val : forall x y, fin32 x -> fin32 y -> Rabs (val x) <= 20000000 -> Rabs (val y) <= 20000000 ->
  fin32 (f32_sub x y) /\ Rabs (val (f32_sub x y) - (val x - val y)) <= u * Rabs (val x - val y) + t0.
Proof.
  intros x y Fx Fy Bx By. assert (M : Rabs (val x - val y) <= 40000000) by (unfold Rminus; eapply Rle_trans; [apply Rabs_triang|rewrite Rabs_Ropp; lra]). destruct (small_rnd (val x - val y) ltac:(lra)) as (_ & S).
  destruct (sub_val 24 128 _ _ x y Fx Fy S) as (F & V). split; [exact F|]. unfold f32_sub. rewrite V. apply rnd_near.
Qed.
Lemma two_terms : forall p q X Y s, Rabs (p - X) <= u * Rabs X + t0 -> Rabs (q - Y) <= u * Rabs Y + t0 ->
  Rabs (s - (p + q)) <= u * Rabs (p + q) + t0 -> Rabs (s - (X + Y)) <= 201 / 100 * u * (Rabs X + Rabs Y) + 4 * t0.
Proof.
  intros p q X Y s P Q S. pose proof u_val as U. pose proof t0_val as T.
  assert (B : Rabs (p + q) <= (1 + u) * (Rabs X + Rabs Y) + 2 * t0).
  { replace (p + q) with ((p - X) + (q - Y) + (X + Y)) by ring. eapply Rle_trans; [apply Rabs_triang|]. pose proof (Rabs_triang (p - X) (q - Y)). pose proof (Rabs_triang X Y). lra. }
  replace (s - (X + Y)) with ((s - (p + q)) + ((p - X) + (q - Y))) by ring. eapply Rle_trans; [apply Rabs_triang|]. pose proof (Rabs_triang (p - X) (q - Y)) as T1.
  pose proof (Rabs_pos X) as PX. pose proof (Rabs_pos Y) as PY. set (Z := Rabs X + Rabs Y) in *.
  assert (C : u * Rabs (p + q) <= u * ((1 + u) * Z + 2 * t0)) by (apply Rmult_le_compat_l; lra).
  assert (D : u * u * Z <= / 100 * u * Z) by (apply Rmult_le_compat_r; [unfold Z; lra|]; apply Rmult_le_compat_r; lra).
  assert (E : u * t0 <= / 100 * t0) by (apply Rmult_le_compat_r; lra).
  unfold Z in *. lra.
Qed.
Definition vec_ok (x : fl) : Prop := fin32 x /\ Rabs (val x) <= 4096.
Lemma dot_near : forall a b c d, vec_ok a -> vec_ok b -> vec_ok c -> vec_ok d ->
  fin32 (f32_add (f32_mul a b) (f32_mul c d)) /\
  Rabs (val (f32_add (f32_mul a b) (f32_mul c d)) - (val a * val b + val c * val d)) <= 201 / 100 * u * (nrm (val a) (val c) * nrm (val b) (val d)) + 4 * t0.
Proof.
  intros a b c d (Fa & Ba) (Fb & Bb) (Fc & Bc) (Fd & Bd). destruct (prod_val a b Fa Fb Ba Bb) as (F1 & E1 & M1). destruct (prod_val c d Fc Fd Bc Bd) as (F2 & E2 & M2).
  pose proof u_val as U. pose proof t0_val as T.
  assert (L : forall X x, Rabs (x - X) <= u * Rabs X + t0 -> Rabs X <= 16777216 -> Rabs x <= 20000000).
  { intros X x H B. replace x with (X + (x - X)) by ring. eapply Rle_trans; [apply Rabs_triang|]. assert (u * Rabs X <= 1 * 16777216 / 100) by (unfold u in *; lra). lra. }
  destruct (sum_val _ _ F1 F2 (L _ _ E1 M1) (L _ _ E2 M2)) as (F & E). split; [exact F|].
  eapply Rle_trans; [apply (two_terms _ _ _ _ _ E1 E2 E)|]. pose proof (nrm_cross (val a) (val c) (val d) (val b)) as C. rewrite (nrm_swap (val d)) in C.
  apply Rplus_le_compat_r. apply Rmult_le_compat_l; lra.
Qed.
Lemma cross_near : forall a b c d, vec_ok a -> vec_ok b -> vec_ok c -> vec_ok d ->
  fin32 (f32_sub (f32_mul a b) (f32_mul c d)) /\
  Rabs (val (f32_sub (f32_mul a b) (f32_mul c d)) - (val a * val b - val c * val d)) <= 201 / 100 * u * (nrm (val a) (val c) * nrm (val b) (val d)) + 4 * t0.
Proof.
  intros a b c d (Fa & Ba) (Fb & Bb) (Fc & Bc) (Fd & Bd). destruct (prod_val a b Fa Fb Ba Bb) as (F1 & E1 & M1). destruct (prod_val c d Fc Fd Bc Bd) as (F2 & E2 & M2).
  pose proof u_val as U. pose proof t0_val as T.
  assert (L : forall X x, Rabs (x - X) <= u * Rabs X + t0 -> Rabs X <= 16777216 -> Rabs x <= 20000000).
  { intros X x H B. replace x with (X + (x - X)) by ring. eapply Rle_trans; [apply Rabs_triang|]. assert (u * Rabs X <= 1 * 16777216 / 100) by (unfold u in *; lra). lra. }
  destruct (diff_val _ _ F1 F2 (L _ _ E1 M1) (L _ _ E2 M2)) as (F & E). split; [exact F|].
  assert (E2' : Rabs (- val (f32_mul c d) - - (val c * val d)) <= u * Rabs (- (val c * val d)) + t0).
  { rewrite Rabs_Ropp. replace (- val (f32_mul c d) - - (val c * val d)) with (- (val (f32_mul c d) - val c * val d)) by ring. rewrite Rabs_Ropp. exact E2. }
  pose proof (two_terms _ _ _ _ _ E1 E2' E) as H. rewrite Rabs_Ropp in H. eapply Rle_trans; [exact H|]. pose proof (nrm_cross (val a) (val c) (val d) (val b)) as C. rewrite (nrm_swap (val d)) in C.
  apply Rplus_le_compat_r. apply Rmult_le_compat_l; lra.
Qed.

(** ** The angle *)
Lemma two_pi_near : Rabs (val two_pi64 - 2 * PI) <= 2 / 10000000.
Proof.
  assert (E : two_pi64 = S754_finite false 7074237752028440 (-50)) by (vm_compute; reflexivity). rewrite E. unfold val, SF2R, F2R. cbn [Fnum Fexp cond_Zopp].
  replace (bpow radix2 (-50)) with (/ 1125899906842624) by reflexivity. pose proof pi_bounds. apply Rabs_le. lra.
Qed.
Lemma angle_close : forall m cw r0 r1 rt0 rt1, good_trig m -> vec_ok r0 -> vec_ok r1 -> vec_ok rt0 -> vec_ok rt1 ->
  let wc := val (f32_sub (f32_mul r0 rt1) (f32_mul r1 rt0)) in
  let wd := val (f32_add (f32_mul r0 rt0) (f32_mul r1 rt1)) in
  exists a, wd = nrm wd wc * cos a /\ wc = nrm wd wc * sin a /\ Rabs (val (angular_travel m cw r0 r1 rt0 rt1) - a) <= 19 / 10000000.
Proof.
  intros m cw r0 r1 rt0 rt1 G V0 V1 W0 W1 wc wd.
  destruct (cross_near r0 rt1 r1 rt0 V0 W1 V1 W0) as (F1 & _). destruct (dot_near r0 rt0 r1 rt1 V0 W0 V1 W1) as (F2 & _).
  pose proof G as (_ & Ga & _). destruct (Ga _ _ F1 F2) as (FA & a & Ba & Ec & Es & N). fold wc wd in Ec, Es. change (len wd wc) with (nrm wd wc) in Ec, Es.
  destruct (atan_range m _ _ G F1 F2) as (_ & R). unfold angular_travel. set (x := m_atan2 m _ _) in *. unfold near in N. apply Rabs_le_inv in N.
  destruct (f64_of_f32_val x FA) as (Fx & Vx). destruct two_pi_val as (Fp & Bp). destruct f0_val as (F0 & Vf0). pose proof two_pi_near as P. apply Rabs_le_inv in P.
  assert (Plain : exists b, wd = nrm wd wc * cos b /\ wc = nrm wd wc * sin b /\ Rabs (val x - b) <= 19 / 10000000) by (exists a; split; [exact Ec|]; split; [exact Es|]; apply Rabs_le; lra).
  destruct cw.
  - destruct (SFleb f0 x); [|exact Plain]. exists (a - 2 * PI).
    replace (cos (a - 2 * PI)) with (cos a) by (rewrite <- (cos_period (a - 2 * PI) 1); f_equal; cbn [INR]; ring).
    replace (sin (a - 2 * PI)) with (sin a) by (rewrite <- (sin_period (a - 2 * PI) 1); f_equal; cbn [INR]; ring). split; [exact Ec|]. split; [exact Es|].
    destruct (small_rnd64 (val (f64_of_f32 x) - val two_pi64)) as (E & S); [rewrite Vx; apply Rabs_le; lra|].
    destruct (sub_val 53 1024 _ _ _ _ Fx Fp S) as (F & V). fold f64_sub in F, V. apply Rabs_le_inv in E. rewrite <- V, Vx in E.
    destruct (small_rnd (val (f64_sub (f64_of_f32 x) two_pi64))) as (E' & S'); [apply Rabs_le; lra|].
    destruct (f32_of_f64_val _ F S') as (F' & V'). rewrite V'. assert (Rabs (val (f64_sub (f64_of_f32 x) two_pi64)) <= 95 / 10) by (apply Rabs_le; lra). apply Rabs_le_inv in E'. apply Rabs_le. lra.
  - destruct (SFleb x f0); [|exact Plain]. exists (a + 2 * PI).
    replace (cos (a + 2 * PI)) with (cos a) by (rewrite <- (cos_period a 1); f_equal; cbn [INR]; ring).
    replace (sin (a + 2 * PI)) with (sin a) by (rewrite <- (sin_period a 1); f_equal; cbn [INR]; ring). split; [exact Ec|]. split; [exact Es|].
    destruct (small_rnd64 (val (f64_of_f32 x) + val two_pi64)) as (E & S); [rewrite Vx; apply Rabs_le; lra|].
    destruct (add_val 53 1024 _ _ _ _ Fx Fp S) as (F & V). fold f64_add in F, V. apply Rabs_le_inv in E. rewrite <- V, Vx in E.
    destruct (small_rnd (val (f64_add (f64_of_f32 x) two_pi64))) as (E' & S'); [apply Rabs_le; lra|].
    destruct (f32_of_f64_val _ F S') as (F' & V'). rewrite V'. assert (Rabs (val (f64_add (f64_of_f32 x) two_pi64)) <= 95 / 10) by (apply Rabs_le; lra). apply Rabs_le_inv in E'. apply Rabs_le. lra.
Qed.

(** ** To the target *)
Lemma turns_to_target : forall m cw s0 s1 c0 c1 g0 g1, good_trig m -> metre s0 -> metre s1 -> metre c0 -> metre c1 -> metre g0 -> metre g1 ->
  let o0 := f32_sub c0 s0 in let o1 := f32_sub c1 s1 in
  let ang := angular_travel m cw (SFopp o0) (SFopp o1) (f32_sub g0 (f32_add s0 o0)) (f32_sub g1 (f32_add s1 o1)) in
  turned (/ 50 + Rabs (nrm (val s0 - val c0) (val s1 - val c1) - nrm (val g0 - val c0) (val g1 - val c1))) (val c0) (val c1) (val s0) (val s1) (val ang) (val g0) (val g1).
Proof.
  intros m cw s0 s1 c0 c1 g0 g1 G (Fs0 & Bs0) (Fs1 & Bs1) (Fc0 & Bc0) (Fc1 & Bc1) (Fg0 & Bg0) (Fg1 & Bg1) o0 o1 ang.
  pose proof (approx_exact _ _ Fs0 Bs0) as As0. pose proof (approx_exact _ _ Fs1 Bs1) as As1. pose proof (approx_exact _ _ Fc0 Bc0) as Ac0. pose proof (approx_exact _ _ Fc1 Bc1) as Ac1.
  pose proof (approx_exact _ _ Fg0 Bg0) as Ag0. pose proof (approx_exact _ _ Fg1 Bg1) as Ag1.
  assert (D : forall a b, Rabs a <= 1024 -> Rabs b <= 1024 -> Rabs (a - b) <= 2048) by (intros a b Ha Hb; apply Rabs_le_inv in Ha, Hb; apply Rabs_le; lra).
  assert (O0 : approx o0 (val c0 - val s0) 2048 (13 / 100000)) by (eapply approx_sub; [exact Ac0|exact As0|auto|lra|lra]).
  assert (O1 : approx o1 (val c1 - val s1) 2048 (13 / 100000)) by (eapply approx_sub; [exact Ac1|exact As1|auto|lra|lra]).
  assert (K0 : approx (f32_add s0 o0) (val c0) 1024 (2 / 10000)) by (replace (val c0) with (val s0 + (val c0 - val s0)) by lra; eapply approx_add; [exact As0|exact O0| |lra|lra]; replace (val s0 + (val c0 - val s0)) with (val c0) by lra; exact Bc0).
  assert (K1 : approx (f32_add s1 o1) (val c1) 1024 (2 / 10000)) by (replace (val c1) with (val s1 + (val c1 - val s1)) by lra; eapply approx_add; [exact As1|exact O1| |lra|lra]; replace (val s1 + (val c1 - val s1)) with (val c1) by lra; exact Bc1).
  assert (R0 : approx (f32_sub g0 (f32_add s0 o0)) (val g0 - val c0) 2048 (4 / 10000)) by (eapply approx_sub; [exact Ag0|exact K0|auto|lra|lra]).
  assert (R1 : approx (f32_sub g1 (f32_add s1 o1)) (val g1 - val c1) 2048 (4 / 10000)) by (eapply approx_sub; [exact Ag1|exact K1|auto|lra|lra]).
  pose proof (approx_opp _ _ _ _ O0) as A0. pose proof (approx_opp _ _ _ _ O1) as A1.
  assert (Vec : forall x X e, approx x X 2048 e -> e <= 1 -> vec_ok x /\ Rabs (val x) <= 2049) by (intros x X e A He; pose proof (approx_bounds _ _ _ _ A); split; [split; [apply A|apply Rabs_le; lra]|apply Rabs_le; lra]).
  destruct (Vec _ _ _ A0 ltac:(lra)) as (V0 & X0). destruct (Vec _ _ _ A1 ltac:(lra)) as (V1 & X1). destruct (Vec _ _ _ R0 ltac:(lra)) as (W0 & Y0). destruct (Vec _ _ _ R1 ltac:(lra)) as (W1 & Y1). clear Vec.
  destruct (angle_close m cw _ _ _ _ G V0 V1 W0 W1) as (a & Ed & Ec & Na). fold ang in Na.
  destruct (dot_near _ _ _ _ V0 W0 V1 W1) as (_ & Nd). destruct (cross_near _ _ _ _ V0 W1 V1 W0) as (_ & Nc). rewrite (nrm_swap (val (f32_sub g1 (f32_add s1 o1)))) in Nc.
  set (wd := val (f32_add _ _)) in *. set (wc := val (f32_sub (f32_mul _ _) _)) in *.
  destruct A0 as (_ & _ & A0). destruct A1 as (_ & _ & A1). destruct R0 as (_ & _ & R0). destruct R1 as (_ & _ & R1). unfold near in A0, A1, R0, R1.
  set (a0 := val (SFopp o0)) in *. set (a1 := val (SFopp o1)) in *. set (b0 := val (f32_sub g0 (f32_add s0 o0))) in *. set (b1 := val (f32_sub g1 (f32_add s1 o1))) in *.
  set (t := val ang) in *. clearbody wd wc a0 a1 b0 b1 t.
  pose proof (nrm_le _ _ _ A0 A1) as DA. pose proof (nrm_le _ _ _ R0 R1) as DB. pose proof (nrm_le _ _ _ Y0 Y1) as NB.
  replace (- (val c0 - val s0)) with (val s0 - val c0) in * by ring. replace (- (val c1 - val s1)) with (val s1 - val c1) in * by ring.
  set (p0 := val s0 - val c0) in *. set (p1 := val s1 - val c1) in *. set (q0 := val g0 - val c0) in *. set (q1 := val g1 - val c1) in *.
  assert (K : nrm (a0 * cos t - a1 * sin t - b0) (a0 * sin t + a1 * cos t - b1) <= Rabs (nrm a0 a1 - nrm b0 b1) + 11 / 1000).
  { destruct (Rle_lt_dec (nrm a0 a1) (/ 1000)) as [Small|Big]; [eapply Rle_trans; [apply turn_small|]; lra|].
    eapply Rle_trans; [apply (turn_to a0 a1 b0 b1 wd wc (201 / 100 * u * (nrm a0 a1 * nrm b0 b1) + 4 * t0) (19 / 10000000) a t)|]; auto; [lra|].
    pose proof u_val as U. pose proof t0_val as T. pose proof (nrm_pos b0 b1) as PB.
    assert (E : 3 * (201 / 100 * u * (nrm a0 a1 * nrm b0 b1) + 4 * t0) / nrm a0 a1 = 603 / 100 * u * nrm b0 b1 + 12 * t0 / nrm a0 a1) by (field; lra). rewrite E.
    assert (E1 : 12 * t0 / nrm a0 a1 <= / 1000000).
    { apply Rmult_le_reg_r with (nrm a0 a1); [lra|]. unfold Rdiv. rewrite Rmult_assoc, Rinv_l by lra. assert (/ 1000000 * / 1000 <= / 1000000 * nrm a0 a1) by (apply Rmult_le_compat_l; lra). unfold t0 in *. lra. }
    assert (E2 : 603 / 100 * u * nrm b0 b1 <= 603 / 100 * u * 3074) by (apply Rmult_le_compat_l; lra). unfold u in *. lra. }
  pose proof (nrm_tri_inv a0 a1 p0 p1) as I1. pose proof (nrm_tri_inv b0 b1 q0 q1) as I2.
  assert (I3 : Rabs (nrm a0 a1 - nrm b0 b1) <= Rabs (nrm p0 p1 - nrm q0 q1) + nrm (a0 - p0) (a1 - p1) + nrm (b0 - q0) (b1 - q1)).
  { replace (nrm a0 a1 - nrm b0 b1) with ((nrm p0 p1 - nrm q0 q1) + ((nrm a0 a1 - nrm p0 p1) + - (nrm b0 b1 - nrm q0 q1))) by ring. eapply Rle_trans; [apply Rabs_triang|].
    pose proof (Rabs_triang (nrm a0 a1 - nrm p0 p1) (- (nrm b0 b1 - nrm q0 q1))) as Q. rewrite Rabs_Ropp in Q. lra. }
  assert (F : nrm (p0 * cos t - p1 * sin t - q0) (p0 * sin t + p1 * cos t - q1) <= / 50 + Rabs (nrm p0 p1 - nrm q0 q1)).
  { replace (p0 * cos t - p1 * sin t - q0) with ((cos t * - (a0 - p0) - sin t * - (a1 - p1)) + ((a0 * cos t - a1 * sin t - b0) + (b0 - q0))) by ring.
    replace (p0 * sin t + p1 * cos t - q1) with ((cos t * - (a1 - p1) + sin t * - (a0 - p0)) + ((a0 * sin t + a1 * cos t - b1) + (b1 - q1))) by ring.
    eapply Rle_trans; [apply nrm_tri|]. rewrite nrm_mult, nrm_unit, nrm_opp.
    pose proof (nrm_tri (a0 * cos t - a1 * sin t - b0) (a0 * sin t + a1 * cos t - b1) (b0 - q0) (b1 - q1)). lra. }
  split; unfold near; fold p0 p1.
  - replace (val g0 - (val c0 + p0 * cos t - p1 * sin t)) with (- (p0 * cos t - p1 * sin t - q0)) by (unfold q0; ring). rewrite Rabs_Ropp. eapply Rle_trans; [apply nrm_x|exact F].
  - replace (val g1 - (val c1 + p0 * sin t + p1 * cos t)) with (- (p0 * sin t + p1 * cos t - q1)) by (unfold q1; ring). rewrite Rabs_Ropp. eapply Rle_trans; [apply nrm_y|exact F].
Qed.

(** ** The length *)
Lemma sqrt_val32 : forall x, fin32 x -> 0 <= val x -> fin32 (f32_sqrt x) /\ val (f32_sqrt x) = rnd32 (sqrt (val x)).
Proof.
  intros x Hx P. assert (P24 : Prec_gt_0 24) by reflexivity. assert (L24 : Prec_lt_emax 24 128) by reflexivity.
  destruct (fin_b 24 128 x Hx) as (b & <- & Fb & Vb).
  assert (E : f32_sqrt (B2SF b) = B2SF (Bsqrt mode_NE b)).
  { destruct b as [s|s| |s m e B]; try (destruct s; reflexivity); [reflexivity|]. destruct s; [reflexivity|]. cbn. rewrite B2SF_SF2B.
    destruct (SFsqrt_core_binary 24 128 (Z.pos m) e) as [[mz ez] lz]. apply round_aux_mode. }
  rewrite E. destruct (Bsqrt_correct 24 128 P24 L24 mode_NE b) as (C1 & C2 & _).
  assert (F : is_finite (Bsqrt mode_NE b) = true).
  { rewrite C2. destruct b as [s|s| |s m e B]; try discriminate Fb; [reflexivity|]. destruct s; [|reflexivity]. exfalso. rewrite <- Vb in P.
    assert (X : F2R (Float radix2 (Z.neg m) e) < 0) by (apply F2R_lt_0; reflexivity). exact (Rlt_not_le _ _ X P). }
  split; [apply b_fin; exact F|]. unfold val at 1. rewrite SF2R_B2SF, C1. rewrite <- Vb. reflexivity.
Qed.
Lemma abs_val32 : forall x, fin32 x -> fin32 (SFabs x) /\ val (SFabs x) = Rabs (val x).
Proof.
  intros [s|s| |s m e] [V F]; try discriminate F.
  - split; [split; reflexivity|]. unfold val. cbn. now rewrite Rabs_R0.
  - split; [split; [exact V|reflexivity]|]. unfold val. cbn [SFabs SF2R]. rewrite <- F2R_Zabs. f_equal. f_equal. now destruct s.
Qed.
Lemma mul_self_nonneg : forall x, fin32 x -> Rabs (val x) <= 4096 -> 0 <= val (f32_mul x x).
Proof.
  intros x F B. pose proof (mul_abs _ _ _ _ B B) as M. destruct (small_rnd (val x * val x) ltac:(lra)) as (_ & S). destruct (mul_val 24 128 _ _ x x F F S) as (_ & V). unfold f32_mul. rewrite V.
  rewrite <- (rnd_0 24 128). apply rnd_le; auto with typeclass_instances. pose proof (Rle_0_sqr (val x)) as Q. unfold Rsqr in Q. exact Q.
Qed.
Lemma add_nonneg : forall x y, fin32 x -> fin32 y -> Rabs (val x) <= 20000000 -> Rabs (val y) <= 20000000 -> 0 <= val x -> 0 <= val y -> 0 <= val (f32_add x y).
Proof.
  intros x y Fx Fy Bx By Px Py. assert (M : Rabs (val x + val y) <= 40000000) by (eapply Rle_trans; [apply Rabs_triang|lra]). destruct (small_rnd (val x + val y) ltac:(lra)) as (_ & S).
  destruct (add_val 24 128 _ _ x y Fx Fy S) as (F & V). unfold f32_add. rewrite V. rewrite <- (rnd_0 24 128). apply rnd_le; auto with typeclass_instances. lra.
Qed.
Lemma radius_near : forall o0 o1, vec_ok o0 -> vec_ok o1 ->
  let r := f32_sqrt (f32_add (f32_mul o0 o0) (f32_mul o1 o1)) in
  fin32 r /\ Rabs (val r - nrm (val o0) (val o1)) <= 6 * u * nrm (val o0) (val o1) + 3 / 1000000000000.
Proof.
  intros o0 o1 V0 V1 r. destruct (dot_near o0 o0 o1 o1 V0 V0 V1 V1) as (FS & ES). pose proof u_val as U. pose proof t0_val as T.
  destruct V0 as (F0 & B0), V1 as (F1 & B1). destruct (prod_val o0 o0 F0 F0 B0 B0) as (P0 & Q0 & M0). destruct (prod_val o1 o1 F1 F1 B1 B1) as (P1 & Q1 & M1).
  assert (L : forall X x, Rabs (x - X) <= u * Rabs X + t0 -> Rabs X <= 16777216 -> Rabs x <= 20000000).
  { intros X x H B. replace x with (X + (x - X)) by ring. eapply Rle_trans; [apply Rabs_triang|]. assert (u * Rabs X <= 1 * 16777216 / 100) by (unfold u in *; lra). lra. }
  assert (PS := add_nonneg _ _ P0 P1 (L _ _ Q0 M0) (L _ _ Q1 M1) (mul_self_nonneg o0 F0 B0) (mul_self_nonneg o1 F1 B1)).
  destruct (sqrt_val32 _ FS PS) as (Fr & Vr). fold r in Fr, Vr. split; [exact Fr|]. rewrite Vr. clear Vr Fr r L.
  set (S := val (f32_add _ _)) in *. set (N := nrm (val o0) (val o1)) in *. assert (PN : 0 <= N) by apply nrm_pos. rewrite <- (nrm_sq (val o0) (val o1)) in ES. fold N in ES. clearbody S N.
  assert (K : Rabs (sqrt S - N) <= 2 * u * N + 2 / 1000000000000).
  { apply Rabs_le_inv in ES. destruct (Rle_lt_dec N (/ 1000000000000)) as [Small|Big].
    - assert (Q : sqrt S <= 2 / 1000000000000).
      { rewrite <- (sqrt_Rsqr (2 / 1000000000000)) by lra. apply sqrt_le_1_alt. unfold Rsqr. assert (N * N <= / 1000000000000 * / 1000000000000) by (apply Rmult_le_compat; lra).
        assert (201 / 100 * u * (N * N) <= / 10 * (/ 1000000000000 * / 1000000000000)) by (apply Rmult_le_compat; try lra; apply Rmult_le_pos; lra). unfold t0 in *. lra. }
      pose proof (sqrt_pos S). assert (0 <= u * N) by (apply Rmult_le_pos; lra). apply Rabs_le. lra.
    - assert (NN : / 1000000000000 * / 1000000000000 <= N * N) by (apply Rmult_le_compat; lra).
      assert (TT : 4 * t0 <= / 1000 * u * (N * N)) by (assert (/ 1000 * u * (/ 1000000000000 * / 1000000000000) <= / 1000 * u * (N * N)) by (apply Rmult_le_compat_l; lra); unfold t0, u in *; lra).
      assert (NN0 : 0 < N * N) by lra. assert (UN : 0 <= u * N) by (apply Rmult_le_pos; lra).
      assert (Up : sqrt S <= N * (1 + 2 * u)).
      { rewrite <- (sqrt_Rsqr (N * (1 + 2 * u))) by (apply Rmult_le_pos; lra). apply sqrt_le_1_alt. unfold Rsqr.
        replace (N * (1 + 2 * u) * (N * (1 + 2 * u))) with (N * N + 4 * (u * (N * N)) + 4 * (u * u * (N * N))) by ring.
        assert (0 <= u * u * (N * N)) by (apply Rmult_le_pos; [apply Rmult_le_pos|]; lra). assert (0 <= u * (N * N)) by (apply Rmult_le_pos; lra). lra. }
      assert (Lo : N * (1 - 2 * u) <= sqrt S).
      { rewrite <- (sqrt_Rsqr (N * (1 - 2 * u))) by (apply Rmult_le_pos; lra). apply sqrt_le_1_alt. unfold Rsqr.
        replace (N * (1 - 2 * u) * (N * (1 - 2 * u))) with (N * N - 4 * (u * (N * N)) + 4 * (u * (u * (N * N)))) by ring.
        assert (0 <= u * (N * N)) by (apply Rmult_le_pos; lra). assert (u * (u * (N * N)) <= / 100 * (u * (N * N))) by (apply Rmult_le_compat_r; lra). lra. }
      apply Rabs_le. lra. }
  pose proof (rnd_near (sqrt S)) as R. rewrite (Rabs_pos_eq (sqrt S)) in R by apply sqrt_pos.
  replace (rnd32 (sqrt S) - N) with ((rnd32 (sqrt S) - sqrt S) + (sqrt S - N)) by ring. eapply Rle_trans; [apply Rabs_triang|]. apply Rabs_le_inv in K.
  assert (UN : 0 <= u * N) by (apply Rmult_le_pos; lra). assert (u * sqrt S <= u * (2 * N + 2 / 1000000000000)).
  { apply Rmult_le_compat_l; [lra|]. assert (2 * u * N <= 1 * N) by (apply Rmult_le_compat_r; lra). lra. }
  assert (Rabs (sqrt S - N) <= 2 * u * N + 2 / 1000000000000) by (apply Rabs_le; lra). unfold t0, u in *. lra.
Qed.

(** The distance between two coordinates: exact up to rounding *)
Lemma offset_near : forall s c, metre s -> metre c -> vec_ok (f32_sub c s) /\ Rabs (val (f32_sub c s) - (val c - val s)) <= u * Rabs (val c - val s) + t0 /\ Rabs (val c - val s) <= 2048.
Proof.
  intros s c (Fs & Bs) (Fc & Bc). destruct (diff_val c s Fc Fs ltac:(lra) ltac:(lra)) as (F & E). assert (D : Rabs (val c - val s) <= 2048) by (apply Rabs_le_inv in Bs, Bc; apply Rabs_le; lra).
  split; [split; [exact F|]|auto]. replace (val (f32_sub c s)) with ((val (f32_sub c s) - (val c - val s)) + (val c - val s)) by ring. eapply Rle_trans; [apply Rabs_triang|].
  pose proof t0_val. unfold u in *. lra.
Qed.

Lemma travel_near : forall m ang s0 s1 c0 c1 s2 g2, good_trig m -> fin32 ang -> Rabs (val ang) <= 63 / 10 ->
  metre s0 -> metre s1 -> metre c0 -> metre c1 -> metre s2 -> metre g2 ->
  let o0 := f32_sub c0 s0 in let o1 := f32_sub c1 s1 in
  let mm := m_hypot m (f32_mul ang (f32_sqrt (f32_add (f32_mul o0 o0) (f32_mul o1 o1)))) (SFabs (f32_sub g2 s2)) in
  let L := nrm (val ang * nrm (val s0 - val c0) (val s1 - val c1)) (val g2 - val s2) in
  fin32 mm /\ Rabs (val mm - L) <= 21 / 10000000 * L + 11 / 10000000 /\ 0 <= L <= 22000.
Proof.
  intros m ang s0 s1 c0 c1 s2 g2 (_ & _ & G) Fa Ba Ms0 Ms1 Mc0 Mc1 Ms2 Mg2 o0 o1 mm L. pose proof u_val as U. pose proof t0_val as T.
  destruct (offset_near _ _ Ms0 Mc0) as (V0 & E0 & D0). destruct (offset_near _ _ Ms1 Mc1) as (V1 & E1 & D1). destruct (offset_near _ _ Ms2 Mg2) as ((F2 & B2) & E2 & D2).
  fold o0 in V0, E0. fold o1 in V1, E1. destruct (radius_near o0 o1 V0 V1) as (Fr & Er). set (r := f32_sqrt _) in *.
  set (N := nrm (val o0) (val o1)) in *. set (rho := nrm (val s0 - val c0) (val s1 - val c1)) in *.
  assert (Rho : rho = nrm (val c0 - val s0) (val c1 - val s1)) by (unfold rho; rewrite <- nrm_opp; f_equal; ring).
  assert (R0 : 0 <= rho <= 3072) by (split; [apply nrm_pos|]; rewrite Rho; eapply Rle_trans; [apply (nrm_le _ _ 2048)|]; auto; lra).
  assert (EN : Rabs (N - rho) <= 2 * u * rho + 2 * t0).
  { rewrite Rho. eapply Rle_trans; [apply nrm_tri_inv|]. rewrite <- Rho. eapply Rle_trans; [apply (nrm_le _ _ (u * rho + t0))|].
    - eapply Rle_trans; [exact E0|]. apply Rplus_le_compat_r. apply Rmult_le_compat_l; [lra|]. rewrite Rho. apply nrm_x.
    - eapply Rle_trans; [exact E1|]. apply Rplus_le_compat_r. apply Rmult_le_compat_l; [lra|]. rewrite Rho. apply nrm_y.
    - assert (0 <= u * rho) by (apply Rmult_le_pos; lra). lra. }
  clearbody N. clear Rho.
  assert (Err : Rabs (val r - rho) <= 9 * u * rho + 4 / 1000000000000).
  { apply Rabs_le_inv in EN. apply Rabs_le_inv in Er. assert (UR : 0 <= u * rho) by (apply Rmult_le_pos; lra).
    assert (u * N <= u * (rho + (2 * u * rho + 2 * t0))) by (apply Rmult_le_compat_l; lra). assert (u * (u * rho) <= / 100 * (u * rho)) by (apply Rmult_le_compat_r; lra).
    assert (u * t0 <= 1 * t0) by (apply Rmult_le_compat_r; lra). unfold t0 in *. apply Rabs_le. lra. }
  clearbody r. clear Er EN N V0 V1.
  assert (Br : Rabs (val r) <= 3073). { replace (val r) with ((val r - rho) + rho) by ring. eapply Rle_trans; [apply Rabs_triang|]. rewrite (Rabs_pos_eq rho) by lra. assert (u * rho <= u * 3072) by (apply Rmult_le_compat_l; lra). unfold u in *. lra. }
  destruct (prod_val ang r Fa Fr ltac:(lra) ltac:(lra)) as (Fx & Ex & _). set (x := f32_mul ang r) in *.
  destruct (abs_val32 _ F2) as (Fy & Vy). set (y := SFabs _) in *. clearbody x y.
  set (X := val ang * rho) in *. set (Y := val g2 - val s2) in *.
  assert (PX : Rabs X = Rabs (val ang) * rho) by (unfold X; rewrite Rabs_mult, (Rabs_pos_eq rho) by lra; reflexivity).
  assert (DX : Rabs (val x - X) <= 11 * u * Rabs X + / 10000000000).
  { replace (val x - X) with ((val x - val ang * val r) + val ang * (val r - rho)) by (unfold X; ring). eapply Rle_trans; [apply Rabs_triang|].
    assert (A1 : Rabs (val ang * (val r - rho)) <= 9 * u * Rabs X + 63 / 10 * (4 / 1000000000000)).
    { rewrite Rabs_mult. eapply Rle_trans; [apply Rmult_le_compat_l; [apply Rabs_pos|exact Err]|]. rewrite PX. replace (Rabs (val ang) * (9 * u * rho + 4 / 1000000000000)) with (9 * u * (Rabs (val ang) * rho) + Rabs (val ang) * (4 / 1000000000000)) by ring. apply Rplus_le_compat_l. apply Rmult_le_compat_r; lra. }
    assert (A2 : Rabs (val ang * val r) <= Rabs X + (9 * u * Rabs X + 63 / 10 * (4 / 1000000000000))).
    { replace (val ang * val r) with (X + val ang * (val r - rho)) by (unfold X; ring). eapply Rle_trans; [apply Rabs_triang|]. lra. }
    assert (A3 : u * Rabs (val ang * val r) <= u * (Rabs X + (9 * u * Rabs X + 63 / 10 * (4 / 1000000000000)))) by (apply Rmult_le_compat_l; lra).
    assert (UX : 0 <= u * Rabs X) by (apply Rmult_le_pos; [lra|apply Rabs_pos]). assert (u * (u * Rabs X) <= / 100 * (u * Rabs X)) by (apply Rmult_le_compat_r; lra). unfold t0 in *. lra. }
  assert (DY : Rabs (val y - Rabs Y) <= u * Rabs Y + t0). { rewrite Vy. eapply Rle_trans; [apply Rabs_triang_inv2|]. exact E2. }
  assert (PXb : Rabs X <= 63 / 10 * 3072) by (rewrite PX; apply Rmult_le_compat; try apply Rabs_pos; lra).
  destruct (G x y Fx Fy) as (Fm & Nm).
  { replace (val x) with ((val x - X) + X) by ring. eapply Rle_trans; [apply Rabs_triang|]. assert (u * Rabs X <= 1 * Rabs X) by (apply Rmult_le_compat_r; [apply Rabs_pos|lra]). lra. }
  { replace (val y) with ((val y - Rabs Y) + Rabs Y) by ring. eapply Rle_trans; [apply Rabs_triang|]. rewrite Rabs_Rabsolu. assert (u * Rabs Y <= 1 * Rabs Y) by (apply Rmult_le_compat_r; [apply Rabs_pos|lra]). lra. }
  split; [exact Fm|]. change (len (val x) (val y)) with (nrm (val x) (val y)) in Nm. unfold near in Nm. fold mm in Nm.
  assert (EL : L = nrm X (Rabs Y)) by (unfold L, nrm; f_equal; f_equal; unfold Rabs; destruct (Rcase_abs Y); ring).
  assert (LX : Rabs X <= L) by apply nrm_x. assert (LY : Rabs Y <= L) by apply nrm_y.
  assert (PL : 0 <= L) by apply nrm_pos.
  assert (DL : Rabs (nrm (val x) (val y) - L) <= 17 * u * L + 2 / 10000000000).
  { rewrite EL. eapply Rle_trans; [apply nrm_tri_inv|]. eapply Rle_trans; [apply (nrm_le _ _ (11 * u * L + / 10000000000))|].
    - eapply Rle_trans; [exact DX|]. apply Rplus_le_compat_r. apply Rmult_le_compat_l; lra.
    - assert (u * Rabs Y <= u * L) by (apply Rmult_le_compat_l; lra). assert (0 <= u * L) by (apply Rmult_le_pos; lra). unfold t0 in *. lra.
    - rewrite <- EL. assert (0 <= u * L) by (apply Rmult_le_pos; lra). lra. }
  assert (BL : L <= 22000).
  { rewrite EL. replace X with (X + 0) by ring. replace (Rabs Y) with (0 + Rabs Y) by ring. eapply Rle_trans; [apply nrm_tri|].
    replace (nrm X 0) with (Rabs X) by (unfold nrm; rewrite <- sqrt_Rsqr_abs; f_equal; unfold Rsqr; ring). replace (nrm 0 (Rabs Y)) with (Rabs (Rabs Y)) by (unfold nrm; rewrite <- (sqrt_Rsqr_abs (Rabs Y)); f_equal; unfold Rsqr; ring). rewrite Rabs_Rabsolu. lra. }
  split; [|lra]. set (h := nrm (val x) (val y)) in *. apply Rabs_le_inv in DL. apply Rabs_le_inv in Nm. assert (UL : 17 * u * L <= 17 * u * 22000 /\ 17 * u * L <= 17 * (6 / 100000000) * L) by (split; [apply Rmult_le_compat_l; lra|apply Rmult_le_compat_r; lra]). 
  apply Rabs_le. unfold u in *. lra.
Qed.

Lemma floor_val : forall x, fin32 x -> fl_floor x = Some (Zfloor (val x)).
Proof.
  intros [s|s| |s m e] [V F]; cbn [is_finite_SF] in F; try discriminate; cbn [fl_floor].
  - unfold val; cbn [SF2R]. now rewrite Zfloor_IZR.
  - f_equal. unfold val. cbn [SF2R]. replace (if s then Z.neg m else Z.pos m) with (cond_Zopp s (Z.pos m)) by now destruct s. set (z := cond_Zopp s (Z.pos m)). clearbody z.
    destruct (0 <=? e)%Z eqn:E.
    + apply Z.leb_le in E. rewrite <- (Zfloor_IZR (z * 2 ^ e)). f_equal. unfold F2R; cbn [Fnum Fexp]. rewrite mult_IZR. f_equal. rewrite <- IZR_Zpower by assumption. reflexivity.
    + apply Z.leb_gt in E. unfold F2R; cbn [Fnum Fexp]. replace (bpow radix2 e) with (/ IZR (2 ^ (- e))).
      * change (IZR z * / IZR (2 ^ (- e))) with (IZR z / IZR (2 ^ (- e))). symmetry. apply Zfloor_div. pose proof (Z.pow_pos_nonneg 2 (- e)). lia.
      * replace e with (- - e)%Z at 2 by lia. rewrite bpow_opp. f_equal. rewrite <- IZR_Zpower by lia. reflexivity.
Qed.
Lemma tenth_val : fin64 (decimal64 1 10) /\ Rabs (val (decimal64 1 10) - / 10) <= / 100000000000000.
Proof.
  assert (E : decimal64 1 10 = S754_finite false 7205759403792794 (-56)) by (vm_compute; reflexivity). rewrite E. split; [split; reflexivity|].
  unfold val, SF2R, F2R. cbn [Fnum Fexp cond_Zopp]. replace (bpow radix2 (-56)) with (/ 72057594037927936) by reflexivity. apply Rabs_le. lra.
Qed.
Lemma hundred_thousandth_val : fin64 (decimal64 1 100000) /\ / 200000 <= val (decimal64 1 100000) <= 11 / 1000000.
Proof.
  assert (E : decimal64 1 100000 = S754_finite false 5902958103587057 (-69)) by (vm_compute; reflexivity). rewrite E. split; [split; reflexivity|].
  unfold val, SF2R, F2R. cbn [Fnum Fexp cond_Zopp]. replace (bpow radix2 (-69)) with (/ 590295810358705651712) by reflexivity. lra.
Qed.
Lemma segments_near : forall m mm, fin32 mm -> -1 <= val mm <= 23000 -> 10 * val mm - 103 / 100 <= IZR (segments_of m mm) <= 10 * val mm + 3 / 100.
Proof.
  intros m mm F B. destruct (f64_of_f32_val mm F) as (Fm & Vm). destruct tenth_val as (Ft & Bt). apply Rabs_le_inv in Bt.
  set (q := val mm / val (decimal64 1 10)).
  assert (Q : Rabs (q - 10 * val mm) <= / 1000000).
  { unfold q. replace (val mm / val (decimal64 1 10) - 10 * val mm) with (val mm * (1 - 10 * val (decimal64 1 10)) / val (decimal64 1 10)) by (field; lra).
    unfold Rdiv. rewrite !Rabs_mult. assert (H1 : Rabs (val mm) <= 23000) by (apply Rabs_le; lra). assert (H2 : Rabs (1 - 10 * val (decimal64 1 10)) <= / 10000000000000) by (apply Rabs_le; lra).
    assert (H3 : Rabs (/ val (decimal64 1 10)) <= 20).
    { rewrite Rabs_inv. rewrite (Rabs_pos_eq (val (decimal64 1 10))) by lra. replace 20 with (/ / 20) by (field; lra). apply Rinv_le; lra. }
    eapply Rle_trans; [apply Rmult_le_compat; [apply Rmult_le_pos; apply Rabs_pos|apply Rabs_pos|apply Rmult_le_compat; try apply Rabs_pos; eassumption|exact H3]|]. lra. }
  apply Rabs_le_inv in Q. pose proof (rnd64_error q) as E64. assert (Aq : Rabs q <= 230001) by (apply Rabs_le; lra).
  assert (S64 : small 1024 (rnd64 (val (f64_of_f32 mm) / val (decimal64 1 10)))).
  { rewrite Vm. fold q. apply (small_of_bound 1024 _ 20); [lia| |lia]. change (2 ^ 20)%Z with 1048576%Z. apply Rabs_le_inv in E64. apply Rabs_le_inv in Aq. assert (Rabs q <= 230001) by (apply Rabs_le; lra). apply Rabs_le. lra. }
  destruct (div_val 53 1024 _ _ _ _ Fm Ft ltac:(lra) S64) as (Fd & Vd). rewrite Vm in Vd. fold q in Vd.
  set (d := f64_div (f64_of_f32 mm) (decimal64 1 10)) in *. change (SFdiv 53 1024 (f64_of_f32 mm) (decimal64 1 10)) with d in Fd, Vd. rewrite <- Vd in E64. apply Rabs_le_inv in E64.
  assert (Ad : Rabs (val d) <= 230002) by (apply Rabs_le; apply Rabs_le_inv in Aq; assert (Rabs q <= 230001) by (apply Rabs_le; lra); lra).
  destruct (small_rnd (val d) ltac:(lra)) as (E32 & S32). destruct (f32_of_f64_val d Fd S32) as (Fx & Vx). rewrite <- Vx in E32. apply Rabs_le_inv in E32.
  unfold segments_of. fold d. rewrite (floor_val _ Fx). set (x := f32_of_f64 d) in *.
  pose proof (Zfloor_lb (val x)) as L1. pose proof (Zfloor_ub (val x)) as L2.
  assert (Bx : 10 * val mm - 2 / 100 <= val x <= 10 * val mm + 2 / 100) by (apply Rabs_le_inv in Aq; apply Rabs_le_inv in Ad; assert (Rabs q <= 230001) by (apply Rabs_le; lra); assert (Rabs (val d) <= 230002) by (apply Rabs_le; lra); lra).
  assert (Z1 : (-12 <= Zfloor (val x) <= 230001)%Z) by (split; apply le_IZR; [|lra]; apply Rlt_le; replace (IZR (-12)) with (-11 - 1) by lra; lra).
  unfold to_int. replace ((- 2 ^ 31 <=? Zfloor (val x)) && (Zfloor (val x) <=? 2 ^ 31 - 1))%bool%Z with true by (symmetry; apply andb_true_intro; split; lia). lra.
Qed.
