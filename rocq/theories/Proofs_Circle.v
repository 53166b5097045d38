(** Lemmas about directions in the plane, and pi. *)
From Coq Require Import Reals Lra Machin.
From Flocq Require Import Core.
From Verif Require Import Base.
Open Scope R_scope.

Definition nrm (x y : R) : R := sqrt (x * x + y * y).
Lemma nrm_dist : forall x y, nrm x y = dist_euc x y 0 0.
Proof. intros. unfold nrm, dist_euc, Rsqr. f_equal. ring. Qed.
Lemma nrm_pos : forall x y, 0 <= nrm x y.
Proof. intros. apply sqrt_pos. Qed.
Lemma nrm_tri : forall x y u v, nrm (x + u) (y + v) <= nrm x y + nrm u v.
Proof.
  intros. pose proof (triangle x y (- u) (- v) 0 0) as T. rewrite <- nrm_dist in T.
  replace (dist_euc x y (- u) (- v)) with (nrm (x + u) (y + v)) in T by (unfold nrm, dist_euc, Rsqr; f_equal; ring).
  replace (dist_euc 0 0 (- u) (- v)) with (nrm u v) in T by (unfold nrm, dist_euc, Rsqr; f_equal; ring). exact T.
Qed.
Lemma nrm_opp : forall x y, nrm (- x) (- y) = nrm x y.
Proof. intros. unfold nrm. f_equal. ring. Qed.
Lemma nrm_tri_inv : forall x y u v, Rabs (nrm x y - nrm u v) <= nrm (x - u) (y - v).
Proof.
  intros. pose proof (nrm_tri (x - u) (y - v) u v) as A. pose proof (nrm_tri (u - x) (v - y) x y) as B.
  replace (x - u + u) with x in A by ring. replace (y - v + v) with y in A by ring. replace (u - x + x) with u in B by ring. replace (v - y + y) with v in B by ring.
  replace (u - x) with (- (x - u)) in B by ring. replace (v - y) with (- (y - v)) in B by ring. rewrite nrm_opp in B. apply Rabs_le. lra.
Qed.
Lemma nrm_scale : forall k x y, nrm (k * x) (k * y) = Rabs k * nrm x y.
Proof.
  intros. unfold nrm. rewrite <- sqrt_Rsqr_abs. rewrite <- sqrt_mult; [f_equal; unfold Rsqr; ring|apply Rle_0_sqr|].
  pose proof (Rle_0_sqr x). pose proof (Rle_0_sqr y). unfold Rsqr in *. lra.
Qed.
Lemma nrm_sq : forall x y, nrm x y * nrm x y = x * x + y * y.
Proof. intros. apply sqrt_sqrt. pose proof (Rle_0_sqr x). pose proof (Rle_0_sqr y). unfold Rsqr in *. lra. Qed.
Lemma nrm_mult : forall x y u v, nrm (x * u - y * v) (x * v + y * u) = nrm x y * nrm u v.
Proof.
  intros. unfold nrm. rewrite <- sqrt_mult.
  - f_equal. ring.
  - pose proof (Rle_0_sqr x). pose proof (Rle_0_sqr y). unfold Rsqr in *. lra.
  - pose proof (Rle_0_sqr u). pose proof (Rle_0_sqr v). unfold Rsqr in *. lra.
Qed.
Lemma nrm_unit : forall a, nrm (cos a) (sin a) = 1.
Proof. intros. unfold nrm. pose proof (sin2_cos2 a) as Q. unfold Rsqr in Q. replace (cos a * cos a + sin a * sin a) with 1 by lra. apply sqrt_1. Qed.
Lemma nrm_x : forall x y, Rabs x <= nrm x y.
Proof. intros. rewrite <- sqrt_Rsqr_abs. unfold nrm. apply sqrt_le_1_alt. pose proof (Rle_0_sqr y). unfold Rsqr in *. lra. Qed.
Lemma nrm_swap : forall x y, nrm x y = nrm y x.
Proof. intros. unfold nrm. f_equal. ring. Qed.
Lemma nrm_y : forall x y, Rabs y <= nrm x y.
Proof. intros. rewrite nrm_swap. apply nrm_x. Qed.
Lemma nrm_le : forall x y e, Rabs x <= e -> Rabs y <= e -> nrm x y <= 3 / 2 * e.
Proof.
  intros x y e X Y. assert (E : 0 <= e) by (pose proof (Rabs_pos x); lra). apply Rabs_le_inv in X. apply Rabs_le_inv in Y.
  rewrite <- (sqrt_Rsqr (3 / 2 * e)) by lra. apply sqrt_le_1_alt. unfold Rsqr. nra.
Qed.
Lemma nrm_cross : forall x y u v, Rabs (x * v) + Rabs (y * u) <= nrm x y * nrm u v.
Proof.
  intros. rewrite !Rabs_mult. replace (nrm x y) with (nrm (Rabs x) (Rabs y)) by (unfold nrm; f_equal; unfold Rabs; destruct (Rcase_abs x), (Rcase_abs y); ring).
  replace (nrm u v) with (nrm (Rabs v) (Rabs u)) by (rewrite nrm_swap; unfold nrm; f_equal; unfold Rabs; destruct (Rcase_abs u), (Rcase_abs v); ring).
  pose proof (nrm_mult (Rabs x) (- Rabs y) (Rabs v) (Rabs u)) as M. rewrite <- (nrm_opp (Rabs x) (- Rabs y)) in M.
  replace (nrm (- Rabs x) (- - Rabs y)) with (nrm (Rabs x) (Rabs y)) in M by (unfold nrm; f_equal; ring). rewrite <- M.
  eapply Rle_trans; [|apply nrm_x]. eapply Rle_trans; [|apply Rle_abs]. lra.
Qed.

(** [W] (cos a, sin a) is nearly the product of (b0, b1) and the conjugate of (a0, a1): then a is nearly the angle between them. *)
Lemma angle_between : forall a0 a1 b0 b1 wd wc e a, 0 < nrm a0 a1 -> 
  Rabs (wd - (a0 * b0 + a1 * b1)) <= e -> Rabs (wc - (a0 * b1 - a1 * b0)) <= e ->
  wd = nrm wd wc * cos a -> wc = nrm wd wc * sin a ->
  nrm (nrm b0 b1 * (a0 * cos a - a1 * sin a) - nrm a0 a1 * b0) (nrm b0 b1 * (a0 * sin a + a1 * cos a) - nrm a0 a1 * b1) <= 3 * e.
Proof.
  intros a0 a1 b0 b1 wd wc e a PA Ed Ec Wd Wc. set (ud := a0 * b0 + a1 * b1) in *. set (uc := a0 * b1 - a1 * b0) in *. set (W := nrm wd wc) in *.
  pose proof (nrm_le _ _ _ Ed Ec) as D.
  assert (U : nrm ud uc = nrm a0 a1 * nrm b0 b1).
  { pose proof (nrm_mult a0 (- a1) b0 b1) as M. replace (nrm a0 (- a1)) with (nrm a0 a1) in M by (unfold nrm; f_equal; ring). rewrite <- M. unfold ud, uc, nrm. f_equal. ring. }
  pose proof (nrm_tri_inv wd wc ud uc) as T. fold W in T. set (P := nrm ud uc) in *.
  assert (V : nrm (P * cos a - ud) (P * sin a - uc) <= 3 * e).
  { replace (P * cos a - ud) with ((P - W) * cos a + (wd - ud)) by lra. replace (P * sin a - uc) with ((P - W) * sin a + (wc - uc)) by lra.
    eapply Rle_trans; [apply nrm_tri|]. rewrite nrm_scale, nrm_unit. rewrite (Rabs_minus_sym P W). lra. }
  pose proof (nrm_mult (P * cos a - ud) (P * sin a - uc) a0 a1) as M.
  replace ((P * cos a - ud) * a0 - (P * sin a - uc) * a1) with (nrm a0 a1 * (nrm b0 b1 * (a0 * cos a - a1 * sin a) - nrm a0 a1 * b0)) in M.
  2:{ rewrite U. unfold ud, uc. replace (nrm a0 a1 * (nrm b0 b1 * (a0 * cos a - a1 * sin a) - nrm a0 a1 * b0)) with (nrm a0 a1 * nrm b0 b1 * (a0 * cos a - a1 * sin a) - nrm a0 a1 * nrm a0 a1 * b0) by ring. rewrite nrm_sq. ring. }
  replace ((P * cos a - ud) * a1 + (P * sin a - uc) * a0) with (nrm a0 a1 * (nrm b0 b1 * (a0 * sin a + a1 * cos a) - nrm a0 a1 * b1)) in M.
  2:{ rewrite U. unfold ud, uc. replace (nrm a0 a1 * (nrm b0 b1 * (a0 * sin a + a1 * cos a) - nrm a0 a1 * b1)) with (nrm a0 a1 * nrm b0 b1 * (a0 * sin a + a1 * cos a) - nrm a0 a1 * nrm a0 a1 * b1) by ring. rewrite nrm_sq. ring. }
  rewrite nrm_scale, (Rabs_pos_eq (nrm a0 a1)) in M by lra. apply Rmult_le_reg_l with (nrm a0 a1); [exact PA|]. rewrite M. rewrite Rmult_comm. apply Rmult_le_compat_l; lra.
Qed.

Lemma cos_lip : forall a b, Rabs (cos a - cos b) <= Rabs (a - b).
Proof.
  intros a b. destruct (MVT_abs cos (fun x => - sin x) b a) as (c & E & _); [intros; apply derivable_pt_lim_cos|]. rewrite E.
  assert (Rabs (- sin c) <= 1) by (apply Rabs_le; pose proof (SIN_bound c); lra). pose proof (Rabs_pos (a - b)). nra.
Qed.
Lemma sin_lip : forall a b, Rabs (sin a - sin b) <= Rabs (a - b).
Proof.
  intros a b. destruct (MVT_abs sin cos b a) as (c & E & _); [intros; apply derivable_pt_lim_sin|]. rewrite E.
  assert (Rabs (cos c) <= 1) by (apply Rabs_le; pose proof (COS_bound c); lra). pose proof (Rabs_pos (a - b)). nra.
Qed.

(** The point (a0, a1) turned by an angle near [a] is near (b0, b1), but for the difference of the radii. *)
Lemma turn_to : forall a0 a1 b0 b1 wd wc e d a t, 0 < nrm a0 a1 ->
  Rabs (wd - (a0 * b0 + a1 * b1)) <= e -> Rabs (wc - (a0 * b1 - a1 * b0)) <= e ->
  wd = nrm wd wc * cos a -> wc = nrm wd wc * sin a -> Rabs (t - a) <= d ->
  nrm (a0 * cos t - a1 * sin t - b0) (a0 * sin t + a1 * cos t - b1) <= Rabs (nrm a0 a1 - nrm b0 b1) + 3 * e / nrm a0 a1 + 3 / 2 * d * nrm b0 b1.
Proof.
  intros a0 a1 b0 b1 wd wc e d a t PA Ed Ec Wd Wc T.
  pose proof (angle_between a0 a1 b0 b1 wd wc e a PA Ed Ec Wd Wc) as H. set (A := nrm a0 a1) in *. set (B := nrm b0 b1) in *.
  assert (PB : 0 <= B) by apply nrm_pos.
  pose proof (nrm_le (cos t - cos a) (sin t - sin a) d ltac:(eapply Rle_trans; [apply cos_lip|exact T]) ltac:(eapply Rle_trans; [apply sin_lip|exact T])) as C.
  assert (K : nrm (B * (a0 * cos t - a1 * sin t) - A * b0) (B * (a0 * sin t + a1 * cos t) - A * b1) <= 3 * e + 3 / 2 * d * A * B).
  { replace (B * (a0 * cos t - a1 * sin t) - A * b0) with ((B * (a0 * cos a - a1 * sin a) - A * b0) + B * ((cos t - cos a) * a0 - (sin t - sin a) * a1)) by ring.
    replace (B * (a0 * sin t + a1 * cos t) - A * b1) with ((B * (a0 * sin a + a1 * cos a) - A * b1) + B * ((cos t - cos a) * a1 + (sin t - sin a) * a0)) by ring.
    eapply Rle_trans; [apply nrm_tri|]. apply Rplus_le_compat; [exact H|]. rewrite nrm_scale, nrm_mult. fold A. rewrite (Rabs_pos_eq B) by exact PB.
    replace (3 / 2 * d * A * B) with (B * (3 / 2 * d * A)) by ring. apply Rmult_le_compat_l; [exact PB|]. apply Rmult_le_compat_r; [lra|exact C]. }
  apply Rmult_le_reg_l with A; [exact PA|]. rewrite <- (Rabs_pos_eq A) at 1 by lra. rewrite <- nrm_scale.
  replace (A * (a0 * cos t - a1 * sin t - b0)) with ((A - B) * (cos t * a0 - sin t * a1) + (B * (a0 * cos t - a1 * sin t) - A * b0)) by ring.
  replace (A * (a0 * sin t + a1 * cos t - b1)) with ((A - B) * (cos t * a1 + sin t * a0) + (B * (a0 * sin t + a1 * cos t) - A * b1)) by ring.
  eapply Rle_trans; [apply nrm_tri|]. rewrite nrm_scale, nrm_mult, nrm_unit. fold A.
  replace (A * (Rabs (A - B) + 3 * e / A + 3 / 2 * d * B)) with (Rabs (A - B) * (1 * A) + (3 * e + 3 / 2 * d * A * B)) by (field; lra).
  apply Rplus_le_compat_l. exact K.
Qed.
(** The same without any knowledge of the angle *)
Lemma turn_small : forall a0 a1 b0 b1 t, nrm (a0 * cos t - a1 * sin t - b0) (a0 * sin t + a1 * cos t - b1) <= Rabs (nrm a0 a1 - nrm b0 b1) + 2 * nrm a0 a1.
Proof.
  intros. replace (a0 * cos t - a1 * sin t - b0) with ((cos t * a0 - sin t * a1) + - b0) by ring. replace (a0 * sin t + a1 * cos t - b1) with ((cos t * a1 + sin t * a0) + - b1) by ring.
  eapply Rle_trans; [apply nrm_tri|]. rewrite nrm_mult, nrm_unit, nrm_opp. pose proof (Rle_abs (- (nrm a0 a1 - nrm b0 b1))) as Q. rewrite Rabs_Ropp in Q. lra.
Qed.

(** ** pi *)
Lemma pi_bounds : 31415926 / 10000000 <= PI <= 31415927 / 10000000.
Proof.
  pose proof (PI_2_3_7_ineq 4) as (L & U). unfold sum_f_R0, tg_alt, PI_2_3_7_tg, Ratan_seq in *. cbn [Nat.mul Nat.add pow INR] in L, U. split; lra.
Qed.
