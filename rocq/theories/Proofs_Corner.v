(** The planner joins two targets at a sharp corner with the speed 0. *)
From Coq Require Import SpecFloat Reals Lra Lia.
From Flocq Require Import Core IEEE754.BinarySingleNaN.
From Verif Require Import Base Model_Float Model_Axis Model_Planner Spec_Planner Spec_Speeds Proofs_Planner Proofs_Real Proofs_Ramp Proofs_Profile Proofs_Speeds Proofs_Joints Proofs_Limits.
Open Scope Z_scope.
Open Scope R_scope.

Definition eps : R := / 1000000000.
Lemma rnd_tau : forall r, Rabs (rnd64 r - r) <= eps / 16 * Rabs r + bpow radix2 (-200).
Proof.
  intros r. pose proof (rnd_error 53 1024 eq_refl r) as E. eapply Rle_trans; [exact E|]. apply Rplus_le_compat.
  - apply Rmult_le_compat_r; [apply Rabs_pos|]. change (bpow radix2 (- (53))) with (/ 9007199254740992). unfold eps. lra.
  - change (/ 2) with (bpow radix2 (-1)). rewrite <- bpow_plus. apply bpow_le. unfold SpecFloat.emin. lia.
Qed.
Lemma rnd_near : forall r, r = 0 \/ bpow radix2 (-100) <= Rabs r -> Rabs (rnd64 r - r) <= eps / 8 * Rabs r.
Proof.
  intros r [->|H]; [rewrite rnd_0, Rminus_0_r, Rabs_R0; lra|]. pose proof (rnd_tau r) as E.
  assert (T : bpow radix2 (-200) <= eps / 16 * Rabs r).
  { apply Rle_trans with (bpow radix2 (-40) * bpow radix2 (-100)); [rewrite <- bpow_plus; apply bpow_le; lia|]. apply Rmult_le_compat; [apply bpow_ge_0|apply bpow_ge_0| |exact H]. change (bpow radix2 (-40)) with (/ 1099511627776). unfold eps. lra. }
  lra.
Qed.
Lemma rnd_within : forall r S, Rabs r <= 8 * S -> bpow radix2 (-100) <= S -> Rabs (rnd64 r - r) <= eps * S.
Proof.
  intros r S H L. pose proof (rnd_tau r) as E.
  assert (T : bpow radix2 (-200) <= eps / 16 * S).
  { apply Rle_trans with (bpow radix2 (-40) * bpow radix2 (-100)); [rewrite <- bpow_plus; apply bpow_le; lia|]. apply Rmult_le_compat; [apply bpow_ge_0|apply bpow_ge_0| |exact L]. change (bpow radix2 (-40)) with (/ 1099511627776). unfold eps. lra. }
  assert (eps / 16 * Rabs r <= eps / 16 * (8 * S)) by (apply Rmult_le_compat_l; [unfold eps; lra|exact H]). pose proof (bpow_ge_0 radix2 (-100)). unfold eps in *. lra.
Qed.
(** A rounded number that is not negative is not much smaller. *)
Lemma rnd_least : forall r, 0 <= r -> r = 0 \/ bpow radix2 (-100) <= r -> (1 - eps) * r <= rnd64 r.
Proof.
  intros r P H. pose proof (rnd_near r) as E. rewrite (Rabs_pos_eq r P) in E. specialize (E H). apply Rabs_le_inv in E. unfold eps in *. lra.
Qed.

Section Corner.
Variable c : pcfg.
Variable A : R.
Hypothesis Dv : drivable c A.

Section Leg.
Variable l : leg.
Hypothesis Gl : good_leg c l.
Lemma leg_few : forall a, (Z.abs (l_steps l a) <= 2 ^ 31)%Z.
Proof. intros a. destruct Gl as [F _]. specialize (F a). lia. Qed.
Lemma leg_drv : forall a, l_steps l a <> 0%Z -> driven c a.
Proof. apply Gl. Qed.
Notation mm a := (val (delta_mm c (l_steps l) a)).
Lemma way_bounds : forall a, way c l a = 0 \/ bpow radix2 (-14) <= Rabs (way c l a) <= bpow radix2 35.
Proof.
  intros a. unfold way. destruct (Z.eq_dec (l_steps l a) 0) as [E|E]; [left; rewrite E; unfold Rdiv; apply Rmult_0_l|right].
  destruct (dr_spm _ _ (leg_drv a E)) as [_ B]. unfold Rdiv. rewrite Rabs_mult, Rabs_inv, <- abs_IZR. rewrite (Rabs_pos_eq (val _)) by lra. pose proof (leg_few a) as F.
  set (s := val (p_steps_per_mm c a)) in *. assert (I1 : 1 <= IZR (Z.abs (l_steps l a)) <= bpow radix2 31) by (change (bpow radix2 31) with (IZR (2 ^ 31)); split; apply IZR_le; lia).
  assert (I2 : bpow radix2 (-14) <= / s <= bpow radix2 4).
  { split; [change (bpow radix2 (-14)) with (/ 16384)|change (bpow radix2 4) with 16; replace 16 with (/ / 16) by lra]; apply Rinv_le; lra. }
  pose proof (bpow_gt_0 radix2 (-14)). split.
  - rewrite <- (Rmult_1_l (bpow radix2 (-14))). apply Rmult_le_compat; lra.
  - change 35%Z with (31 + 4)%Z. rewrite bpow_plus. apply Rmult_le_compat; lra.
Qed.
Lemma mm_near : forall a, Rabs (mm a - way c l a) <= eps * Rabs (way c l a).
Proof.
  intros a. destruct (delta_mm_mag c A Dv (l_steps l) leg_few leg_drv a) as (_ & _ & _ & [[Z V]|[N V]]).
  - destruct (Z.eq_dec (l_steps l a) 0) as [E|E].
    + unfold way. rewrite V, E. unfold Rdiv. rewrite Rmult_0_l, Rminus_0_r, Rabs_R0. lra.
    + exfalso. destruct (dr_spm _ _ (leg_drv a E)) as [_ B]. unfold spm in Z. lra.
  - rewrite V. change (IZR (l_steps l a) / val (spm c a)) with (way c l a). pose proof (Rabs_pos (way c l a)). eapply Rle_trans; [apply rnd_near|unfold eps; lra].
    destruct (way_bounds a) as [->|[B _]]; [now left|right]. eapply Rle_trans; [|exact B]. apply bpow_le. lia.
Qed.
Lemma square_least : forall a, (1 - 4 * eps) * (way c l a * way c l a) <= val (f64_mul (delta_mm c (l_steps l) a) (delta_mm c (l_steps l) a)).
Proof.
  intros a. destruct (delta_mm_mag c A Dv (l_steps l) leg_few leg_drv a) as (F & _). pose proof (mm_bound c A Dv (l_steps l) leg_few leg_drv a) as B. unfold Proofs_Limits.mm in B.
  destruct (mul_le 53 1024 _ _ 35 35 _ _ F F B B ltac:(exps)) as (_ & V & _). unfold f64_mul. rewrite V. pose proof (mm_near a) as N. set (w := way c l a) in *. set (x := mm a) in *.
  assert (X : (1 - 2 * eps) * (w * w) <= x * x).
  { assert (Ra : (1 - eps) * Rabs w <= Rabs x). { pose proof (Rabs_triang_inv w x) as T. rewrite (Rabs_minus_sym w x) in T. lra. }
    assert (P : 0 <= (1 - eps) * Rabs w) by (apply mul_pos; [unfold eps; lra|apply Rabs_pos]).
    assert (Q : (1 - eps) * Rabs w * ((1 - eps) * Rabs w) <= Rabs x * Rabs x) by (apply Rmult_le_compat; lra).
    assert (E1 : Rabs x * Rabs x = x * x) by (rewrite <- Rabs_mult; apply Rabs_pos_eq, Rle_0_sqr). assert (E2 : Rabs w * Rabs w = w * w) by (rewrite <- Rabs_mult; apply Rabs_pos_eq, Rle_0_sqr).
    rewrite E1 in Q. eapply Rle_trans; [|exact Q]. replace ((1 - eps) * Rabs w * ((1 - eps) * Rabs w)) with ((1 - eps) * (1 - eps) * (w * w)) by (rewrite <- E2; ring).
    apply Rmult_le_compat_r; [apply Rle_0_sqr|]. unfold eps. lra. }
  assert (Px : 0 <= x * x) by apply Rle_0_sqr. assert (Pw : 0 <= w * w) by apply Rle_0_sqr.
  assert (L : (1 - eps) * (x * x) <= rnd64 (x * x)).
  { apply rnd_least; [exact Px|]. pose proof (way_bounds a) as WB. fold w in WB. destruct WB as [Z|[W _]].
    - left. rewrite Z in N. rewrite Rabs_R0, Rmult_0_r, Rminus_0_r in N. assert (x = 0) by (pose proof (Rabs_pos x); destruct (Req_dec x 0) as [E|E]; [exact E|pose proof (Rabs_pos_lt x E); lra]). subst x. rewrite H. ring.
    - right. assert (W2 : bpow radix2 (-28) <= w * w).
      { rewrite <- (Rabs_pos_eq (w * w)) by exact Pw. rewrite Rabs_mult. change (-28)%Z with (-14 + -14)%Z. rewrite bpow_plus. apply Rmult_le_compat; try apply bpow_ge_0; exact W. }
      apply Rle_trans with (bpow radix2 (-29)); [apply bpow_le; lia|]. change (bpow radix2 (-29)) with (/ 536870912). change (bpow radix2 (-28)) with (/ 268435456) in W2. unfold eps in X. lra. }
  unfold eps in *. lra.
Qed.
Lemma inner_pos : 0 <= inner c l l.
Proof. unfold inner. pose proof (Rle_0_sqr (way c l AX)). pose proof (Rle_0_sqr (way c l AY)). pose proof (Rle_0_sqr (way c l AZ)). unfold Rsqr in *. lra. Qed.
Lemma length_least : (1 - 16 * eps) * distance c l <= val (length_mm c (l_steps l)).
Proof.
  destruct (square_mag c A Dv (l_steps l) leg_few leg_drv AX) as (F1 & B1 & Z1). destruct (square_mag c A Dv (l_steps l) leg_few leg_drv AY) as (F2 & B2 & Z2). destruct (square_mag c A Dv (l_steps l) leg_few leg_drv AZ) as (F3 & B3 & Z3).
  pose proof (square_least AX) as S1. pose proof (square_least AY) as S2. pose proof (square_least AZ) as S3. unfold length_mm, euclid.
  set (x := f64_mul (delta_mm c (l_steps l) AX) _) in *. set (y := f64_mul (delta_mm c (l_steps l) AY) _) in *. set (z := f64_mul (delta_mm c (l_steps l) AZ) _) in *. clearbody x y z.
  assert (L2 : bpow radix2 70 <= bpow radix2 71) by (apply bpow_le; lia).
  destruct (add_le 53 1024 _ _ 70 x y F1 F2 ltac:(rewrite Rabs_pos_eq; lra) ltac:(rewrite Rabs_pos_eq; lra) ltac:(exps)) as (F4 & V4 & B4).
  assert (Lw : (1 - eps) * (val x + val y) <= val (f64_add x y)).
  { unfold f64_add. rewrite V4. apply rnd_least; [lra|]. assert (bpow radix2 (-100) <= bpow radix2 (-28)) by (apply bpow_le; lia). destruct Z1, Z2; lra. }
  assert (Pw : 0 <= val (f64_add x y)) by (unfold f64_add; rewrite V4; apply rnd_pos; auto with typeclass_instances; lra).
  destruct (add_le 53 1024 _ _ 71 (f64_add x y) z F4 F3 B4 ltac:(rewrite Rabs_pos_eq by lra; lra) ltac:(exps)) as (F5 & V5 & B5).
  assert (Zw : val (f64_add x y) = 0 \/ bpow radix2 (-30) <= val (f64_add x y)).
  { destruct Z1 as [Z1|Z1], Z2 as [Z2|Z2]; [left|right|right|right]; [unfold f64_add; rewrite V4, Z1, Z2, Rplus_0_r; apply rnd_0| | |];
    (change (bpow radix2 (-30)) with (/ 1073741824); change (bpow radix2 (-28)) with (/ 268435456) in *; unfold eps in Lw; lra). }
  assert (Lv : (1 - eps) * (val (f64_add x y) + val z) <= val (f64_add (f64_add x y) z)).
  { unfold f64_add at 2. rewrite V5. apply rnd_least; [lra|]. assert (bpow radix2 (-100) <= bpow radix2 (-30)) by (apply bpow_le; lia). assert (bpow radix2 (-100) <= bpow radix2 (-28)) by (apply bpow_le; lia). destruct Zw, Z3; lra. }
  assert (Zv : val (f64_add (f64_add x y) z) = 0 \/ bpow radix2 (-32) <= val (f64_add (f64_add x y) z)).
  { destruct Zw as [Zw|Zw], Z3 as [Z3|Z3]; [left|right|right|right]; [unfold f64_add at 1; rewrite V5, Zw, Z3, Rplus_0_r; apply rnd_0| | |];
    (change (bpow radix2 (-32)) with (/ 4294967296); change (bpow radix2 (-30)) with (/ 1073741824) in *; change (bpow radix2 (-28)) with (/ 268435456) in *; unfold eps in Lv; lra). }
  set (v := f64_add (f64_add x y) z) in *. assert (I : (1 - 8 * eps) * inner c l l <= val v).
  { unfold inner. set (a := way c l AX * way c l AX) in *. set (b := way c l AY * way c l AY) in *. set (d := way c l AZ * way c l AZ) in *. pose proof inner_pos. unfold eps in *. lra. }
  pose proof inner_pos as P. assert (Pv : 0 <= val v) by (eapply Rle_trans; [|exact I]; apply mul_pos; [unfold eps; lra|exact P]).
  destruct (sqrt_val64 v F5 Pv) as [_ V6]. rewrite V6.
  assert (S : (1 - 8 * eps) * distance c l <= sqrt (val v)).
  { unfold distance. rewrite <- (sqrt_square (1 - 8 * eps)) at 1 by (unfold eps; lra). rewrite <- sqrt_mult by (exact P || apply Rle_0_sqr). apply sqrt_le_1_alt. eapply Rle_trans; [|exact I].
    apply Rmult_le_compat_r; [exact P|]. unfold eps. lra. }
  pose proof (sqrt_pos (val v)) as S0. assert (D0 : 0 <= distance c l) by apply sqrt_pos.
  assert (L : (1 - eps) * sqrt (val v) <= rnd64 (sqrt (val v))).
  { apply rnd_least; [exact S0|]. destruct Zv as [Z|N]; [left; rewrite Z; apply sqrt_0|right].
    apply Rle_trans with (bpow radix2 (-16)); [apply bpow_le; lia|]. rewrite <- (sqrt_square (bpow radix2 (-16))) by apply bpow_ge_0. apply sqrt_le_1_alt. rewrite <- bpow_plus. exact N. }
  unfold eps in *. lra.
Qed.
Lemma way_le : forall a, In a [AX; AY; AZ] -> Rabs (way c l a) <= distance c l.
Proof.
  intros a Ia. unfold distance. rewrite <- sqrt_Rsqr_abs. apply sqrt_le_1_alt. unfold inner, Rsqr.
  pose proof (Rle_0_sqr (way c l AX)). pose proof (Rle_0_sqr (way c l AY)). pose proof (Rle_0_sqr (way c l AZ)). unfold Rsqr in *. destruct Ia as [<-|[<-|[<-|[]]]]; lra.
Qed.
Lemma distance_bounds : distance c l = 0 \/ bpow radix2 (-14) <= distance c l.
Proof.
  destruct (way_bounds AX) as [X|X], (way_bounds AY) as [Y|Y], (way_bounds AZ) as [Z|Z];
    try (right; eapply Rle_trans; [apply X|]; apply way_le; cbn; auto; fail); try (right; eapply Rle_trans; [apply Y|]; apply way_le; cbn; auto; fail); try (right; eapply Rle_trans; [apply Z|]; apply way_le; cbn; auto; fail).
  left. unfold distance, inner. rewrite X, Y, Z. rewrite !Rmult_0_r, !Rplus_0_r. apply sqrt_0.
Qed.
End Leg.

(** What a target knows of its leg. *)
Definition drawn (t : target) (l : leg) : Prop :=
  t_dx t = delta_mm c (l_steps l) AX /\ t_dy t = delta_mm c (l_steps l) AY /\ t_dz t = delta_mm c (l_steps l) AZ /\ t_len t = length_mm c (l_steps l).

Lemma product_near : forall p l a, good_leg c p -> good_leg c l -> In a [AX; AY; AZ] -> bpow radix2 (-100) <= distance c p * distance c l ->
  Rabs (val (f64_mul (delta_mm c (l_steps p) a) (delta_mm c (l_steps l) a)) - way c p a * way c l a) <= 5 * eps * (distance c p * distance c l) /\ Rabs (way c p a * way c l a) <= distance c p * distance c l.
Proof.
  intros p l a Gp Gl Ia L. pose proof (mm_near p Gp a) as Np. pose proof (mm_near l Gl a) as Nl. pose proof (way_le p a Ia) as Wp. pose proof (way_le l a Ia) as Wl.
  destruct (delta_mm_mag c A Dv (l_steps p) (leg_few p Gp) (leg_drv p Gp) a) as (Fp & _). pose proof (mm_bound c A Dv (l_steps p) (leg_few p Gp) (leg_drv p Gp) a) as Bp.
  destruct (delta_mm_mag c A Dv (l_steps l) (leg_few l Gl) (leg_drv l Gl) a) as (Fl & _). pose proof (mm_bound c A Dv (l_steps l) (leg_few l Gl) (leg_drv l Gl) a) as Bl. unfold Proofs_Limits.mm in *.
  destruct (mul_le 53 1024 _ _ 35 35 _ _ Fp Fl Bp Bl ltac:(exps)) as (_ & V & _). unfold f64_mul. rewrite V.
  set (x := val (delta_mm c (l_steps p) a)) in *. set (y := val (delta_mm c (l_steps l) a)) in *. set (u := way c p a) in *. set (v := way c l a) in *. set (N := distance c p) in *. set (M := distance c l) in *.
  assert (U : Rabs (u * v) <= N * M) by (rewrite Rabs_mult; apply Rmult_le_compat; try apply Rabs_pos; assumption). split; [|exact U].
  assert (Pu := Rabs_pos u). assert (Pv := Rabs_pos v).
  assert (UV : Rabs u * Rabs v <= N * M) by (now rewrite <- Rabs_mult).
  assert (X : Rabs (x * y - u * v) <= 3 * eps * (N * M)).
  { replace (x * y - u * v) with ((x - u) * v + u * (y - v) + (x - u) * (y - v)) by ring. eapply Rle_trans; [apply Rabs_triang|]. eapply Rle_trans; [apply Rplus_le_compat_r, Rabs_triang|]. rewrite !Rabs_mult.
    assert (T1 : Rabs (x - u) * Rabs v <= eps * Rabs u * Rabs v) by (apply Rmult_le_compat_r; assumption).
    assert (T2 : Rabs u * Rabs (y - v) <= Rabs u * (eps * Rabs v)) by (apply Rmult_le_compat_l; assumption).
    assert (T3 : Rabs (x - u) * Rabs (y - v) <= eps * Rabs u * (eps * Rabs v)) by (apply Rmult_le_compat; try apply Rabs_pos; assumption).
    replace (eps * Rabs u * Rabs v) with (eps * (Rabs u * Rabs v)) in T1 by ring. replace (Rabs u * (eps * Rabs v)) with (eps * (Rabs u * Rabs v)) in T2 by ring. replace (eps * Rabs u * (eps * Rabs v)) with (eps * eps * (Rabs u * Rabs v)) in T3 by ring.
    assert (0 <= Rabs u * Rabs v) by (now apply mul_pos). unfold eps in *. lra. }
  assert (P100 := bpow_ge_0 radix2 (-100)).
  assert (Xy : Rabs (x * y) <= 2 * (N * M)). { replace (x * y) with (x * y - u * v + u * v) by ring. eapply Rle_trans; [apply Rabs_triang|]. unfold eps in X. lra. }
  pose proof (rnd_within (x * y) (N * M) ltac:(lra) L) as R. replace (rnd64 (x * y) - u * v) with (rnd64 (x * y) - x * y + (x * y - u * v)) by ring. eapply Rle_trans; [apply Rabs_triang|]. unfold eps in *. lra.
Qed.
Lemma dot_near : forall from to p l, good_leg c p -> good_leg c l -> drawn from p -> drawn to l -> bpow radix2 (-100) <= distance c p * distance c l ->
  Rabs (val (dot from to) - inner c p l) <= 20 * eps * (distance c p * distance c l).
Proof.
  intros from to p l Gp Gl (X1 & Y1 & Z1 & _) (X2 & Y2 & Z2 & _) L. unfold dot. rewrite X1, Y1, Z1, X2, Y2, Z2.
  destruct (product_near p l AX Gp Gl ltac:(cbn; auto) L) as [Nx Ux]. destruct (product_near p l AY Gp Gl ltac:(cbn; auto) L) as [Ny Uy]. destruct (product_near p l AZ Gp Gl ltac:(cbn; auto) L) as [Nz Uz].
  assert (Pr : forall a, fin64 (f64_mul (delta_mm c (l_steps p) a) (delta_mm c (l_steps l) a)) /\ Rabs (val (f64_mul (delta_mm c (l_steps p) a) (delta_mm c (l_steps l) a))) <= bpow radix2 70).
  { intros a. destruct (delta_mm_mag c A Dv (l_steps p) (leg_few p Gp) (leg_drv p Gp) a) as (Fp & _). pose proof (mm_bound c A Dv (l_steps p) (leg_few p Gp) (leg_drv p Gp) a) as Bp.
    destruct (delta_mm_mag c A Dv (l_steps l) (leg_few l Gl) (leg_drv l Gl) a) as (Fl & _). pose proof (mm_bound c A Dv (l_steps l) (leg_few l Gl) (leg_drv l Gl) a) as Bl. unfold Proofs_Limits.mm in *.
    destruct (mul_le 53 1024 _ _ 35 35 _ _ Fp Fl Bp Bl ltac:(exps)) as (F & _ & B). split; [exact F|exact B]. }
  destruct (Pr AX) as [Fx Bx]. destruct (Pr AY) as [Fy By]. destruct (Pr AZ) as [Fz Bz].
  set (x := f64_mul (delta_mm c (l_steps p) AX) _) in *. set (y := f64_mul (delta_mm c (l_steps p) AY) _) in *. set (z := f64_mul (delta_mm c (l_steps p) AZ) _) in *. clearbody x y z.
  assert (L2 : bpow radix2 70 <= bpow radix2 71) by (apply bpow_le; lia).
  destruct (add_le 53 1024 _ _ 70 x y Fx Fy Bx By ltac:(exps)) as (F4 & V4 & B4). destruct (add_le 53 1024 _ _ 71 (f64_add x y) z F4 Fz B4 ltac:(lra) ltac:(exps)) as (_ & V5 & _).
  unfold f64_add at 1. rewrite V5. unfold inner. set (S := distance c p * distance c l) in *. set (u := way c p AX * way c l AX) in *. set (v := way c p AY * way c l AY) in *. set (w := way c p AZ * way c l AZ) in *.
  assert (P100 := bpow_ge_0 radix2 (-100)). apply Rabs_le_inv in Nx, Ny, Nz, Ux, Uy, Uz.
  assert (R4 : Rabs (rnd64 (val x + val y) - (val x + val y)) <= eps * S) by (apply rnd_within; [apply Rabs_le; unfold eps in *; lra|exact L]).
  rewrite <- V4 in R4. change (SFadd 53 1024 x y) with (f64_add x y) in R4. apply Rabs_le_inv in R4.
  assert (R5 : Rabs (rnd64 (val (f64_add x y) + val z) - (val (f64_add x y) + val z)) <= eps * S) by (apply rnd_within; [apply Rabs_le; unfold eps in *; lra|exact L]).
  apply Rabs_le_inv in R5. apply Rabs_le. unfold eps in *. lra.
Qed.

Lemma rad_const : 572957 / 10000 <= val (f64_div (f64_of_Z 180) M_PI) <= 58.
Proof.
  set (x := f64_div (f64_of_Z 180) M_PI). vm_compute in x. unfold x, val, SF2R, F2R. cbn [Fnum Fexp cond_Zopp]. match goal with |- context [bpow radix2 ?e] => let b := eval compute in (Z.opp e) in change (bpow radix2 e) with (/ IZR (2 ^ b)) end.
  change (2 ^ 47)%Z with 140737488355328%Z. lra.
Qed.
Lemma small_const : fin64 Model_Planner.small /\ 0 <= val Model_Planner.small <= 2 / 100000.
Proof.
  set (x := Model_Planner.small). vm_compute in x. split; [split; reflexivity|]. unfold x, val, SF2R, F2R. cbn [Fnum Fexp cond_Zopp]. match goal with |- context [bpow radix2 ?e] => let b := eval compute in (Z.opp e) in change (bpow radix2 e) with (/ IZR (2 ^ b)) end.
  match goal with |- context [IZR (2 ^ ?b)] => let v := eval compute in (2 ^ b)%Z in change (2 ^ b)%Z with v end. lra.
Qed.

Lemma rnd_few : forall r, 0 <= r <= 128 -> r - / 500000 <= rnd64 r <= r + / 500000.
Proof.
  intros r H. pose proof (rnd_tau r) as E. rewrite (Rabs_pos_eq r) in E by lra. apply Rabs_le_inv in E. assert (T : bpow radix2 (-200) <= bpow radix2 (-20)) by (apply bpow_le; lia). change (bpow radix2 (-20)) with (/ 1048576) in T. unfold eps in *. lra.
Qed.
(** A cosine of at most 0.7071 counts as a corner of 45 degrees or more. *)
Lemma cosine_stops : forall from to dm, fin64 dm -> 0 <= val dm <= 7071 / 10000 ->
  (if within d1 dm Model_Planner.small then t_speed to
   else
      let angle := f64_abs (f64_mul (p_acos c dm) (f64_div (f64_of_Z 180) M_PI)) in
      if SFleb (f64_of_Z 45) angle then d0
      else if SFleb angle (f64_of_f32 (p_threshold c)) then
        if SFltb (dot from to) d1 then f64_mul (t_speed to) (p_cos c (f64_mul (f64_add angle (f64_of_f32 (p_tune c))) (f64_div M_PI (f64_of_Z 180)))) else t_speed to
      else join_axes from to true (t_speed from) all_axes) = d0.
Proof.
  intros from to dm F B. destruct small_const as [Fs Bs]. assert (F1 : fin64 d1 /\ val d1 = 1) by (destruct (f64_of_Z_val 1 ltac:(lia)) as [F3 V3]; fold d1 in F3, V3; auto). destruct F1 as [F1 V1].
  assert (W : within d1 dm Model_Planner.small = false).
  { unfold within. apply Bool.andb_false_iff. right. apply Bool.negb_false_iff.
    assert (O : forall r, 0 <= r <= 1 -> Rabs r <= bpow radix2 0) by (intros r H; rewrite Rabs_pos_eq by lra; change (bpow radix2 0) with 1; lra).
    destruct (mul_le 53 1024 _ _ 0 0 _ _ Fs F ltac:(apply O; lra) ltac:(apply O; lra) ltac:(exps)) as (Fm & Vm & Bm). change (SFmul 53 1024) with f64_mul in *.
    assert (Pm : 0 <= val (f64_mul Model_Planner.small dm) <= 1 / 1000).
    { rewrite Vm. assert (P : 0 <= val Model_Planner.small * val dm <= 2 / 100000) by (split; [apply mul_pos; lra|]; rewrite <- (Rmult_1_r (2 / 100000)); apply Rmult_le_compat; lra).
      pose proof (rnd_few (val Model_Planner.small * val dm) ltac:(lra)) as E. split; [apply rnd_pos; auto with typeclass_instances; lra|]. lra. }
    destruct (add_le 53 1024 _ _ 0 _ _ F Fm ltac:(apply O; lra) ltac:(apply O; lra) ltac:(exps)) as (Fa & Va & _). change (SFadd 53 1024) with f64_add in *.
    rewrite (ltb_val 53 1024) by auto. apply Rlt_bool_true. rewrite Va, V1. pose proof (rnd_few (val dm + val (f64_mul Model_Planner.small dm)) ltac:(lra)) as E. lra. }
  rewrite W. cbv zeta. destruct (dv_eighth _ _ Dv dm F B) as [Fa Ba]. destruct deg_const as (Fr & _). pose proof rad_const as Br.
  assert (B2 : Rabs (val (p_acos c dm)) <= bpow radix2 1) by (rewrite Rabs_pos_eq by lra; change (bpow radix2 1) with 2; lra). assert (B6 : Rabs (val (f64_div (f64_of_Z 180) M_PI)) <= bpow radix2 6) by (rewrite Rabs_pos_eq by lra; change (bpow radix2 6) with 64; lra).
  destruct (mul_le 53 1024 _ _ 1 6 _ _ Fa Fr B2 B6 ltac:(exps)) as (Fm & Vm & _). change (SFmul 53 1024) with f64_mul in *.
  destruct (abs_val 53 1024 _ Fm) as [Fn Vn]. destruct (f64_of_Z_val 45 ltac:(lia)) as [F45 V45].
  assert (L : SFleb (f64_of_Z 45) (f64_abs (f64_mul (p_acos c dm) (f64_div (f64_of_Z 180) M_PI))) = true).
  { rewrite (leb_val 53 1024) by auto. apply Rle_bool_true. rewrite V45, Vn. eapply Rle_trans; [|apply Rle_abs]. rewrite Vm.
    set (r := val (p_acos c dm) * val (f64_div (f64_of_Z 180) M_PI)). assert (R1 : 785405 / 1000000 * (572957 / 10000) <= r <= 2 * 58) by (split; apply Rmult_le_compat; lra).
    pose proof (rnd_few r ltac:(lra)) as E. lra. }
  now rewrite L.
Qed.

Lemma sharp_zero : forall from to p l, apt from -> apt to -> good_leg c p -> good_leg c l -> drawn from p -> drawn to l -> sharp c p l ->
  val (joining_speed c from to (f64_of_f32 (p_threshold c)) (f64_of_f32 (p_tune c))) = 0.
Proof.
  intros from to p l Hf Ht Gp Gl Df Dt Sh. destruct (joining_ok c A Dv from to Hf Ht) as (_ & _ & Z0). cbv zeta in Z0. destruct (Rle_dec (val (dot from to)) 0) as [Le|Gt]; [auto|]. apply Rnot_le_lt in Gt. clear Z0.
  destruct (dot_ok from to Hf Ht) as [Fd _].
  destruct (length_ok c A Dv (l_steps p) (leg_few p Gp) (leg_drv p Gp)) as (F1 & B1 & Z1). destruct (length_ok c A Dv (l_steps l) (leg_few l Gl) (leg_drv l Gl)) as (F2 & B2 & Z2).
  pose proof (length_least p Gp) as L1. pose proof (length_least l Gl) as L2. unfold sharp in Sh.
  assert (D1 : 0 <= distance c p) by apply sqrt_pos. assert (D2 : 0 <= distance c l) by apply sqrt_pos.
  assert (NZ : bpow radix2 (-100) <= distance c p * distance c l).
  { assert (Pz : forall q, good_leg c q -> distance c q = 0 -> forall a, In a [AX; AY; AZ] -> val (delta_mm c (l_steps q) a) = 0).
    { intros q Gq E a Ia. pose proof (mm_near q Gq a) as N. pose proof (way_le q a Ia) as W. rewrite E in W. pose proof (Rabs_pos (way c q a)). assert (Wz : Rabs (way c q a) = 0) by lra. rewrite Wz, Rmult_0_r in N.
      destruct (Req_dec (way c q a) 0) as [E0|E0]; [|pose proof (Rabs_pos_lt _ E0); lra]. rewrite E0, Rminus_0_r in N. destruct (Req_dec (val (delta_mm c (l_steps q) a)) 0) as [E1|E1]; [exact E1|]. pose proof (Rabs_pos_lt _ E1). lra. }
    destruct Df as (X1 & Y1 & W1 & _). destruct Dt as (X2 & Y2 & W2 & _). destruct (dot_ok from to Hf Ht) as [_ Dn]. rewrite X1, Y1, W1, X2, Y2, W2 in Dn.
    destruct (distance_bounds p Gp) as [E|E]; [exfalso; apply (Rlt_not_le _ _ Gt); apply Dn; rewrite (Pz p Gp E) by (cbn; auto); lra|].
    destruct (distance_bounds l Gl) as [E'|E']; [exfalso; apply (Rlt_not_le _ _ Gt); apply Dn; rewrite (Pz l Gl E') by (cbn; auto); lra|].
    apply Rle_trans with (bpow radix2 (-14) * bpow radix2 (-14)); [rewrite <- bpow_plus; apply bpow_le; lia|]. apply Rmult_le_compat; try apply bpow_ge_0; assumption. }
  pose proof (dot_near from to p l Gp Gl Df Dt NZ) as Nd. apply Rabs_le_inv in Nd. set (S := distance c p * distance c l) in *. assert (P100 := bpow_gt_0 radix2 (-100)).
  destruct Df as (_ & _ & _ & T1). destruct Dt as (_ & _ & _ & T2).
  assert (L12 : (1 - 40 * eps) * S <= val (length_mm c (l_steps p)) * val (length_mm c (l_steps l))).
  { apply Rle_trans with ((1 - 16 * eps) * distance c p * ((1 - 16 * eps) * distance c l)); [|apply Rmult_le_compat; try assumption; apply mul_pos; try assumption; unfold eps; lra].
    replace ((1 - 16 * eps) * distance c p * ((1 - 16 * eps) * distance c l)) with ((1 - 16 * eps) * (1 - 16 * eps) * S) by (unfold S; ring). apply Rmult_le_compat_r; [lra|]. unfold eps. lra. }
  assert (B3 : Rabs (val (length_mm c (l_steps p))) <= bpow radix2 36) by (rewrite Rabs_pos_eq; lra). assert (B4 : Rabs (val (length_mm c (l_steps l))) <= bpow radix2 36) by (rewrite Rabs_pos_eq; lra).
  destruct (mul_le 53 1024 _ _ 36 36 _ _ F1 F2 B3 B4 ltac:(exps)) as (Fm & Vm & _). change (SFmul 53 1024) with f64_mul in *. rewrite <- T1, <- T2 in Fm, Vm, L12.
  assert (Lm : (1 - 50 * eps) * S <= val (f64_mul (t_len from) (t_len to))).
  { rewrite Vm. assert (P : 0 <= val (t_len from) * val (t_len to)) by (rewrite T1, T2; apply mul_pos; lra). eapply Rle_trans; [|apply rnd_least; [exact P|right]]; [|apply Rle_trans with (bpow radix2 (-29)); [apply bpow_le; lia|]].
    - unfold eps in *. lra.
    - assert (S28 : bpow radix2 (-28) <= S).
      { unfold S. change (-28)%Z with (-14 + -14)%Z. rewrite bpow_plus. destruct (distance_bounds p Gp) as [E|E]; [unfold S in NZ; rewrite E, Rmult_0_l in NZ; lra|]. destruct (distance_bounds l Gl) as [E'|E']; [unfold S in NZ; rewrite E', Rmult_0_r in NZ; lra|]. apply Rmult_le_compat; try apply bpow_ge_0; assumption. }
      change (bpow radix2 (-29)) with (/ 536870912). change (bpow radix2 (-28)) with (/ 268435456) in S28. unfold eps in L12. lra. }
  set (mg := f64_mul (t_len from) (t_len to)) in *. assert (Pm : 0 < val mg) by (unfold eps in Lm; lra).
  assert (Q : 0 <= val (dot from to) / val mg <= 70701 / 100000).
  { split; [apply div_pos; lra|]. apply Rmult_le_reg_r with (val mg); [exact Pm|]. replace (val (dot from to) / val mg * val mg) with (val (dot from to)) by (field; lra). unfold eps in *. lra. }
  destruct (div_val 53 1024 _ _ (dot from to) mg Fd Fm ltac:(lra)) as [Fq Vq].
  { apply (small_of 53 1024 _ 0); [exps|]. rewrite Rabs_pos_eq by lra. change (bpow radix2 0) with 1. lra. }
  assert (Bq : 0 <= val (f64_div (dot from to) mg) <= 7071 / 10000).
  { unfold f64_div. rewrite Vq. split; [apply rnd_pos; auto with typeclass_instances; lra|]. pose proof (rnd_few (val (dot from to) / val mg) ltac:(lra)) as E. lra. }
  unfold joining_speed. fold (dot from to) mg. rewrite (eqb_val 53 1024), (ltb_val 53 1024) by (auto; split; reflexivity). change (val d0) with 0.
  rewrite Req_bool_false by lra. rewrite Rlt_bool_false by lra. pose proof (cosine_stops from to (f64_div (dot from to) mg) Fq Bq) as CS. cbv zeta in *. rewrite CS. reflexivity.
Qed.
End Corner.
