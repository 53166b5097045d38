(** The formulas of the planner for ramps (planner.cc:175-201) as real numbers. *)
From Coq Require Import SpecFloat Reals Lra.
From Flocq Require Import Core Mult_error IEEE754.BinarySingleNaN.
From Verif Require Import Base Model_Float Model_Planner Proofs_Real.
Open Scope Z_scope.
Open Scope R_scope.

(** ** Doubles *)
Lemma sqrt_val64 : forall x, fin64 x -> 0 <= val x -> fin64 (f64_sqrt x) /\ val (f64_sqrt x) = rnd64 (sqrt (val x)).
Proof.
  intros x Hx P. assert (P53 : Prec_gt_0 53) by reflexivity. assert (L53 : Prec_lt_emax 53 1024) by reflexivity.
  destruct (fin_b 53 1024 x Hx) as (b & <- & Fb & Vb).
  assert (E : f64_sqrt (B2SF b) = B2SF (Bsqrt mode_NE b)).
  { destruct b as [s|s| |s m e B]; try (destruct s; reflexivity); [reflexivity|]. destruct s; [reflexivity|]. cbn. rewrite B2SF_SF2B.
    destruct (SFsqrt_core_binary 53 1024 (Z.pos m) e) as [[mz ez] lz]. apply round_aux_mode. }
  rewrite E. destruct (Bsqrt_correct 53 1024 P53 L53 mode_NE b) as (C1 & C2 & _).
  assert (F : is_finite (Bsqrt mode_NE b) = true).
  { rewrite C2. destruct b as [s|s| |s m e B]; try discriminate Fb; [reflexivity|]. destruct s; [|reflexivity]. exfalso. rewrite <- Vb in P.
    assert (X : F2R (Float radix2 (Z.neg m) e) < 0) by (apply F2R_lt_0; reflexivity). exact (Rlt_not_le _ _ X P). }
  split; [apply b_fin; exact F|]. unfold val at 1. rewrite SF2R_B2SF, C1. rewrite <- Vb. reflexivity.
Qed.

Lemma small64 : forall r, Rabs r <= bpow radix2 1000 -> small 1024 (rnd64 r).
Proof.
  intros r H. assert (P53 : Prec_gt_0 53) by reflexivity. unfold small. pose proof (rnd_error 53 1024 P53 r) as E.
  assert (B : Rabs (rnd64 r) <= 2 * bpow radix2 1000).
  { pose proof (bpow_gt_0 radix2 1000). assert (bpow radix2 (- (53)) <= / 4) by (change (/4) with (bpow radix2 (-2)); apply bpow_le; lia).
    assert (X : bpow radix2 (SpecFloat.emin 53 1024) <= bpow radix2 1000) by (apply bpow_le; unfold SpecFloat.emin; lia).
    assert (Y : bpow radix2 (- (53)) * Rabs r <= / 4 * bpow radix2 1000).
    { apply Rmult_le_compat; auto; [apply bpow_ge_0|apply Rabs_pos]. }
    replace (rnd64 r) with (rnd64 r - r + r) by ring. eapply Rle_trans; [apply Rabs_triang|]. lra. }
  eapply Rle_lt_trans; [exact B|]. change 2 with (bpow radix2 1). rewrite <- bpow_plus. apply bpow_lt. lia.
Qed.

Lemma twice_val : forall a, fin64 a -> Rabs (val a) <= bpow radix2 900 -> fin64 (f64_mul (f64_of_Z 2) a) /\ val (f64_mul (f64_of_Z 2) a) = 2 * val a.
Proof.
  intros a F B. assert (P53 : Prec_gt_0 53) by reflexivity. assert (L53 : Prec_lt_emax 53 1024) by reflexivity.
  destruct (f64_of_Z_val 2 ltac:(lia)) as [F2 V2].
  assert (G : rnd64 (val (f64_of_Z 2) * val a) = 2 * val a).
  { rewrite V2. unfold rnd. apply round_generic; auto with typeclass_instances.
    pose proof (fin_format 53 1024 a F) as X. rewrite Rmult_comm. change 2 with (bpow radix2 1).
    apply (mult_bpow_pos_exact_FLT radix2 (SpecFloat.emin 53 1024) 53 (val a) 1 X ltac:(lia)). }
  destruct (mul_val 53 1024 P53 L53 (f64_of_Z 2) a F2 F) as [X Y].
  - apply small64. rewrite V2, Rabs_mult, (Rabs_pos_eq 2) by lra. eapply Rle_trans; [apply Rmult_le_compat_l; [lra|exact B]|].
    change 2 with (bpow radix2 1). rewrite <- bpow_plus. apply bpow_le. lia.
  - split; [exact X|]. unfold f64_mul. now rewrite Y, G.
Qed.

Definition q (x : fl) : R := val x * val x.
Lemma q_pos : forall x, 0 <= q x.
Proof. intros x. unfold q. apply Rle_0_sqr. Qed.
Lemma q_le : forall x y, 0 <= val x -> val x <= val y -> q x <= q y.
Proof. intros x y A B. unfold q. apply Rmult_le_compat; lra. Qed.
Lemma q_inv : forall x y, 0 <= val y -> q x <= q y -> val x <= val y.
Proof. intros x y A B. unfold q in B. destruct (Rle_lt_dec (val x) (val y)) as [X|X]; [exact X|]. exfalso. assert (val y * val y < val x * val x) by (apply Rmult_le_0_lt_compat; lra). lra. Qed.

Section Scale.
(** The square of a speed; errors are relative to it. *)
Variable W : R.
Hypothesis Wmin : bpow radix2 (-200) <= W.
Hypothesis Wmax : W <= bpow radix2 200.
Definition h : R := W * bpow radix2 (-48).

Lemma W_pos : 0 < W.
Proof. eapply Rlt_le_trans; [apply (bpow_gt_0 radix2 (-200))|exact Wmin]. Qed.
Lemma h_pos : 0 < h.
Proof. unfold h. apply Rmult_lt_0_compat; [apply W_pos|apply bpow_gt_0]. Qed.
Lemma h_W : h * 1048576 <= W.
Proof.
  unfold h. pose proof W_pos. rewrite Rmult_assoc. rewrite <- (Rmult_1_r W) at 2. apply Rmult_le_compat_l; [lra|].
  change 1048576 with (bpow radix2 20). rewrite <- bpow_plus. change 1 with (bpow radix2 0). apply bpow_le. lia.
Qed.

Lemma err : forall k r, 0 <= k <= bpow radix2 300 -> k * Rabs r <= 12 * W -> k * Rabs (rnd64 r - r) <= h / 2.
Proof.
  intros k r [K1 K2] B. assert (P53 : Prec_gt_0 53) by reflexivity. pose proof (rnd_error 53 1024 P53 r) as E. pose proof W_pos.
  eapply Rle_trans; [apply Rmult_le_compat_l; [exact K1|exact E]|].
  replace (k * (bpow radix2 (- (53)) * Rabs r + / 2 * bpow radix2 (SpecFloat.emin 53 1024))) with (bpow radix2 (-53) * (k * Rabs r) + k * (/ 2 * bpow radix2 (-1074))) by (unfold SpecFloat.emin; simpl; ring).
  assert (X : bpow radix2 (-53) * (k * Rabs r) <= bpow radix2 (-53) * (12 * W)) by (apply Rmult_le_compat_l; [apply bpow_ge_0|exact B]).
  assert (Y : k * (/ 2 * bpow radix2 (-1074)) <= bpow radix2 (-60) * W).
  { apply Rle_trans with (bpow radix2 300 * bpow radix2 (-1074)).
    - apply Rmult_le_compat; try lra; pose proof (bpow_gt_0 radix2 (-1074)); lra.
    - rewrite <- bpow_plus. apply Rle_trans with (bpow radix2 (-60) * bpow radix2 (-200)); [rewrite <- bpow_plus; apply bpow_le; lia|]. apply Rmult_le_compat_l; [apply bpow_ge_0|exact Wmin]. }
  unfold h. assert (Z1 : bpow radix2 (-53) = bpow radix2 (-48) * / 32) by (change (/32) with (bpow radix2 (-5)); now rewrite <- bpow_plus).
  assert (Z2 : bpow radix2 (-60) = bpow radix2 (-48) * / 4096) by (change (/4096) with (bpow radix2 (-12)); now rewrite <- bpow_plus).
  rewrite Z1 in X. rewrite Z2 in Y. set (p := bpow radix2 (-48)) in *. assert (0 < W * p) by (apply Rmult_lt_0_compat; [lra|apply bpow_gt_0]). rewrite Z1. nra.
Qed.
Lemma err1 : forall r, Rabs r <= 12 * W -> Rabs (rnd64 r - r) <= h / 2.
Proof. intros r B. pose proof (err 1 r) as E. rewrite !Rmult_1_l in E. apply E; [|exact B]. split; [lra|]. change 1 with (bpow radix2 0). apply bpow_le. lia. Qed.
Lemma fits : forall r, Rabs r <= 12 * W -> small 1024 (rnd64 r).
Proof.
  intros r B. apply small64. eapply Rle_trans; [exact B|]. apply Rle_trans with (bpow radix2 4 * bpow radix2 200); [apply Rmult_le_compat; [lra|pose proof W_pos; lra|simpl; lra|exact Wmax]|].
  rewrite <- bpow_plus. apply bpow_le. lia.
Qed.
Instance P53' : Prec_gt_0 53 := eq_refl.
Instance L53' : Prec_lt_emax 53 1024 := eq_refl.

Lemma q_val : forall x, fin64 x -> q x <= 5 * W -> fin64 (f64_mul x x) /\ val (f64_mul x x) = rnd64 (q x) /\ Rabs (rnd64 (q x) - q x) <= h / 2 /\ 0 <= rnd64 (q x).
Proof.
  intros x F B. pose proof (q_pos x) as P. pose proof W_pos. assert (A : Rabs (q x) <= 12 * W) by (rewrite Rabs_pos_eq; lra).
  destruct (mul_val 53 1024 _ _ x x F F (fits _ A)) as [X Y]. split; [exact X|]. split; [exact Y|]. split; [apply err1; exact A|].
  rewrite <- (rnd_0 53 1024). apply rnd_le; auto with typeclass_instances.
Qed.

(** ** uniformly_accelerated_ramp_distance *)
Lemma distance_val : forall v0 v1 a, fin64 v0 -> fin64 v1 -> fin64 a -> 0 <= val v0 -> val v0 <= val v1 -> q v1 <= 5 * W -> bpow radix2 (-200) <= val a <= bpow radix2 200 ->
  fin64 (ramp_distance v0 v1 a) /\ 0 <= val (ramp_distance v0 v1 a) /\ Rabs (2 * val a * val (ramp_distance v0 v1 a) - (q v1 - q v0)) <= 2 * h.
Proof.
  intros v0 v1 a F0 F1 Fa P0 L B [A1 A2]. pose proof (q_le _ _ P0 L) as Q. pose proof (q_pos v0) as Q0. pose proof W_pos as Wp. pose proof h_pos as Hp. pose proof h_W as Hw.
  assert (Ap : 0 < val a) by (eapply Rlt_le_trans; [apply bpow_gt_0|exact A1]).
  destruct (q_val v1 F1 B) as (G1 & V1 & E1 & _). destruct (q_val v0 F0 ltac:(lra)) as (G0 & V0 & E0 & _).
  unfold ramp_distance. set (m1 := f64_mul v1 v1) in *. set (m0 := f64_mul v0 v0) in *.
  assert (M : 0 <= val m1 - val m0) by (rewrite V1, V0; apply Rle_0_minus, rnd_le; auto with typeclass_instances).
  apply Rabs_le_inv in E1, E0.
  assert (S : Rabs (val m1 - val m0) <= 12 * W) by (rewrite Rabs_pos_eq by exact M; lra).
  destruct (sub_val 53 1024 _ _ m1 m0 G1 G0 (fits _ S)) as [Gs Vs]. pose proof (err1 _ S) as Es. apply Rabs_le_inv in Es. fold f64_sub in Gs, Vs. set (s := f64_sub m1 m0) in *.
  assert (Sp : 0 <= val s) by (rewrite Vs, <- (rnd_0 53 1024); apply rnd_le; auto with typeclass_instances).
  destruct (twice_val a Fa) as [Ga Va]. { rewrite Rabs_pos_eq by lra. eapply Rle_trans; [exact A2|]. apply bpow_le. lia. }
  set (d := f64_mul (f64_of_Z 2) a) in *.
  assert (Sb : val s <= 6 * W) by lra.
  assert (Dp : 0 <= val s / val d) by (apply Rmult_le_pos; [exact Sp|]; left; apply Rinv_0_lt_compat; lra).
  assert (D : val d * (val s / val d) = val s) by (field; lra).
  destruct (div_val 53 1024 _ _ s d Gs Ga) as [Gd Vd]; [lra| |].
  { apply small64. rewrite Rabs_pos_eq by exact Dp. apply Rle_trans with (val s * bpow radix2 200).
    - apply Rmult_le_compat_l; [exact Sp|]. rewrite Va. apply Rle_trans with (/ bpow radix2 (-200)); [apply Rinv_le; [apply bpow_gt_0|lra]|]. rewrite <- bpow_opp. apply bpow_le. lia.
    - apply Rle_trans with (bpow radix2 3 * bpow radix2 200 * bpow radix2 200).
      + apply Rmult_le_compat_r; [apply bpow_ge_0|]. eapply Rle_trans; [exact Sb|]. apply Rmult_le_compat; [lra|lra|simpl; lra|exact Wmax].
      + rewrite <- !bpow_plus. apply bpow_le. lia. }
  fold f64_div in Gd, Vd. split; [exact Gd|]. rewrite Vd. split; [rewrite <- (rnd_0 53 1024); apply rnd_le; auto with typeclass_instances|].
  assert (K : val d * Rabs (rnd64 (val s / val d) - val s / val d) <= h / 2).
  { apply err; [split; [lra|]|rewrite Rabs_pos_eq by exact Dp; rewrite D; lra]. rewrite Va. apply Rle_trans with (bpow radix2 1 * bpow radix2 200); [simpl (bpow radix2 1); lra|]. rewrite <- bpow_plus. apply bpow_le. lia. }
  rewrite <- (Rabs_pos_eq (val d)) in K at 1 by lra. rewrite <- Rabs_mult, Rmult_minus_distr_l, D in K. apply Rabs_le_inv in K. rewrite <- Va. apply Rabs_le. lra.
Qed.

(** ** uniformly_accelerated_ramp_speed *)
Lemma speed_val : forall n v0 a, fin64 v0 -> fin64 a -> 0 <= val v0 -> (0 <= n <= 2 ^ 53)%Z -> bpow radix2 (-200) <= val a <= bpow radix2 200 ->
  2 * val a * IZR n + q v0 <= 5 * W ->
  fin64 (ramp_speed (f64_of_Z n) v0 a) /\ 0 <= val (ramp_speed (f64_of_Z n) v0 a) /\ Rabs (q (ramp_speed (f64_of_Z n) v0 a) - (2 * val a * IZR n + q v0)) <= 3 * h.
Proof.
  intros n v0 a F0 Fa P0 N [A1 A2] B. pose proof (q_pos v0) as Q0. pose proof W_pos as Wp. pose proof h_pos as Hp. pose proof h_W as Hw.
  assert (Ap : 0 < val a) by (eapply Rlt_le_trans; [apply bpow_gt_0|exact A1]).
  assert (Np : 0 <= IZR n) by (apply IZR_le; lia).
  assert (AN : 0 <= 2 * val a * IZR n) by (apply Rmult_le_pos; lra).
  destruct (q_val v0 F0 ltac:(lra)) as (G0 & V0 & E0 & Z0). destruct (f64_of_Z_val n ltac:(lia)) as [Gn Vn].
  destruct (twice_val a Fa) as [Ga Va]. { rewrite Rabs_pos_eq by lra. eapply Rle_trans; [exact A2|]. apply bpow_le. lia. }
  unfold ramp_speed. set (d := f64_mul (f64_of_Z 2) a) in *. set (m0 := f64_mul v0 v0) in *.
  assert (S1 : Rabs (val d * val (f64_of_Z n)) <= 12 * W) by (rewrite Va, Vn, Rabs_pos_eq by lra; lra).
  destruct (mul_val 53 1024 _ _ d (f64_of_Z n) Ga Gn (fits _ S1)) as [Gm Vm]. pose proof (err1 _ S1) as Em. fold f64_mul in Gm, Vm. rewrite Va, Vn in *. set (m := f64_mul d (f64_of_Z n)) in *.
  assert (Zm : 0 <= val m) by (rewrite Vm, <- (rnd_0 53 1024); apply rnd_le; auto with typeclass_instances).
  apply Rabs_le_inv in E0, Em. rewrite <- Vm in Em. rewrite <- V0 in E0, Z0.
  assert (S2 : Rabs (val m + val m0) <= 12 * W) by (rewrite Rabs_pos_eq by lra; lra).
  destruct (add_val 53 1024 _ _ m m0 Gm G0 (fits _ S2)) as [Gs Vs]. pose proof (err1 _ S2) as Es. fold f64_add in Gs, Vs. set (s := f64_add m m0) in *.
  assert (Zs : 0 <= val s) by (rewrite Vs, <- (rnd_0 53 1024); apply rnd_le; [auto with typeclass_instances|lra]).
  apply Rabs_le_inv in Es. rewrite <- Vs in Es.
  destruct (sqrt_val64 s Gs Zs) as [Gr Vr]. split; [exact Gr|]. pose proof (sqrt_pos (val s)) as Rp. pose proof (sqrt_sqrt (val s) Zs) as Rr. set (r := sqrt (val s)) in *.
  split; [rewrite Vr, <- (rnd_0 53 1024); apply rnd_le; auto with typeclass_instances|].
  unfold q at 1. rewrite Vr.
  assert (Rb : r <= bpow radix2 200).
  { apply Rsqr_incr_0_var; [|apply bpow_ge_0]. unfold Rsqr. rewrite Rr. apply Rle_trans with (bpow radix2 3 * bpow radix2 200); [|rewrite <- !bpow_plus; apply bpow_le; lia].
    apply Rle_trans with (8 * W); [lra|]. apply Rmult_le_compat; [lra|lra|simpl; lra|exact Wmax]. }
  assert (K : r * Rabs (rnd64 r - r) <= h / 2).
  { apply err; [split; [exact Rp|]|rewrite Rabs_pos_eq by exact Rp; rewrite Rr; lra]. eapply Rle_trans; [exact Rb|]. apply bpow_le. lia. }
  assert (Rs : Rabs (rnd64 r - r) <= r).
  { pose proof (rnd_le 53 1024 _ 0 r Rp) as X. rewrite rnd_0 in X by auto with typeclass_instances.
    destruct (Req_dec r 0) as [->|N0]; [rewrite rnd_0 by auto with typeclass_instances; rewrite Rminus_0_r, Rabs_R0; lra|].
    destruct (Rle_lt_dec (Rabs (rnd64 r - r)) r) as [Y|Y]; [exact Y|]. exfalso.
    assert (X3 : r * r < h / 2) by (eapply Rlt_le_trans; [|exact K]; apply Rmult_lt_compat_l; lra).
    pose proof (rnd_error 53 1024 _ r) as Er. rewrite (Rabs_pos_eq r Rp) in Er.
    assert (Z3 : bpow radix2 (- (53)) * r <= / 4 * r) by (apply Rmult_le_compat_r; [exact Rp|]; change (/ 4) with (bpow radix2 (-2)); apply bpow_le; lia).
    assert (r < bpow radix2 (-1074)).
    { change (SpecFloat.emin 53 1024) with (-1074)%Z in Er. pose proof (bpow_gt_0 radix2 (-1074)). lra. }
    (* a nonzero double is at least the smallest one, and so is its root *)
    assert (Z4 : bpow radix2 (-1074) <= val s).
    { pose proof (fin_format 53 1024 s Gs) as Fs. apply (generic_format_ge_bpow radix2 (SpecFloat.fexp 53 1024) (-1074)); [|assert (0 < r) by lra; nra|exact Fs].
      intros e. unfold SpecFloat.fexp, SpecFloat.emin. lia. }
    assert (r * r < bpow radix2 (-1074)); [|lra].
    apply Rlt_le_trans with (1 * r); [|rewrite Rmult_1_l; lra]. apply Rmult_lt_compat_r; [lra|]. eapply Rlt_trans; [eassumption|]. change 1 with (bpow radix2 0). apply bpow_lt. lia. }
  set (e := rnd64 r - r) in *. replace (rnd64 r) with (r + e) by (unfold e; ring). replace ((r + e) * (r + e)) with (r * r + (2 * r + e) * e) by ring. rewrite Rr.
  assert (T : Rabs ((2 * r + e) * e) <= 3 * (h / 2)).
  { rewrite Rabs_mult. eapply Rle_trans; [|apply Rmult_le_compat_l; [lra|exact K]]. rewrite <- Rmult_assoc. apply Rmult_le_compat_r; [apply Rabs_pos|].
    eapply Rle_trans; [apply Rabs_triang|]. rewrite (Rabs_pos_eq (2 * r)) by lra. lra. }
  apply Rabs_le_inv in T. apply Rabs_le. lra.
Qed.

(** ** find_uniformly_accelerated_ramps_intersection *)
Lemma half_val : forall x k, fin64 x -> 0 <= k <= bpow radix2 300 -> k * Rabs (val x) <= 12 * W -> Rabs (val x) <= bpow radix2 900 ->
  fin64 (f64_div x (f64_of_Z 2)) /\ k * Rabs (val (f64_div x (f64_of_Z 2)) - val x / 2) <= h / 2.
Proof.
  intros x k F K B M. destruct (f64_of_Z_val 2 ltac:(lia)) as [F2 V2].
  assert (X : Rabs (val x / 2) <= Rabs (val x)).
  { unfold Rdiv. rewrite Rabs_mult, (Rabs_pos_eq (/ 2)) by lra. pose proof (Rabs_pos (val x)). lra. }
  destruct (div_val 53 1024 _ _ x (f64_of_Z 2) F F2) as [G V]; [lra| |].
  - rewrite V2. apply small64. eapply Rle_trans; [exact X|]. eapply Rle_trans; [exact M|]. apply bpow_le. lia.
  - split; [exact G|]. fold f64_div in V. rewrite V, V2. apply err; [exact K|]. eapply Rle_trans; [apply Rmult_le_compat_l; [lra|exact X]|exact B].
Qed.

Lemma crossing_val : forall v0 v1 a n, fin64 v0 -> fin64 v1 -> fin64 a -> 0 <= val v0 -> 0 <= val v1 -> q v0 <= 5 * W -> q v1 <= 5 * W -> bpow radix2 (-200) <= val a <= bpow radix2 200 ->
  (0 <= n <= 2 ^ 53)%Z -> 2 * val a * IZR n <= 5 * W ->
  fin64 (intersection v0 v1 a (f64_of_Z n)) /\ Rabs (2 * val a * val (intersection v0 v1 a (f64_of_Z n)) - (2 * val a * IZR n + q v1 - q v0) / 2) <= 4 * h.
Proof.
  intros v0 v1 a n F0 F1 Fa P0 P1 Q0 Q1 A N B. pose proof W_pos as Wp. pose proof h_pos as Hp. pose proof h_W as Hw.
  assert (Ap : 0 < val a) by (eapply Rlt_le_trans; [apply bpow_gt_0|apply A]).
  assert (Np : 0 <= IZR n) by (apply IZR_le; lia).
  assert (AN : 0 <= 2 * val a * IZR n) by (apply Rmult_le_pos; lra).
  assert (K2 : 0 <= 2 * val a <= bpow radix2 300).
  { split; [lra|]. apply Rle_trans with (bpow radix2 1 * bpow radix2 200); [simpl (bpow radix2 1); lra|]. rewrite <- bpow_plus. apply bpow_le. lia. }
  destruct (f64_of_Z_val n ltac:(lia)) as [Gn Vn].
  (* a number whose product with 2a is bounded is not too large *)
  assert (Big : forall x, 2 * val a * Rabs x <= 12 * W -> Rabs x <= bpow radix2 500).
  { intros x X. assert (Y : bpow radix2 (-200) * Rabs x <= 12 * W) by (eapply Rle_trans; [|exact X]; apply Rmult_le_compat_r; [apply Rabs_pos|lra]).
    apply Rmult_le_reg_l with (bpow radix2 (-200)); [apply bpow_gt_0|]. eapply Rle_trans; [exact Y|].
    apply Rle_trans with (bpow radix2 4 * bpow radix2 200); [apply Rmult_le_compat; [lra|lra|simpl; lra|exact Wmax]|]. rewrite <- !bpow_plus. apply bpow_le. lia. }
  unfold intersection. set (lo := if SFleb v0 v1 then v0 else v1). set (hi := if SFleb v0 v1 then v1 else v0).
  assert (X : fin64 lo /\ fin64 hi /\ 0 <= val lo /\ val lo <= val hi /\ q hi <= 5 * W /\ (if SFltb v0 v1 then q hi - q lo = q v1 - q v0 else q hi - q lo = q v0 - q v1)).
  { unfold lo, hi. rewrite (leb_val 53 1024) by assumption. rewrite (ltb_val 53 1024) by assumption.
    destruct (Rle_bool_spec (val v0) (val v1)); destruct (Rlt_bool_spec (val v0) (val v1)); (split; [assumption|]); (split; [assumption|]); (split; [lra|]); (split; [lra|]); (split; [lra|]); try lra.
    assert (E : val v0 = val v1) by lra. unfold q. rewrite E. ring. }
  destruct X as (Fl & Fh & Pl & L & Qh & D). destruct (distance_val lo hi a Fl Fh Fa Pl L Qh A) as (Gr & Pr & Er). set (reach := ramp_distance lo hi a) in *.
  apply Rabs_le_inv in Er. pose proof (q_pos lo) as Ql. pose proof (q_le _ _ Pl L) as Qlh.
  assert (S1 : 2 * val a * Rabs (IZR n - val reach) <= 12 * W).
  { rewrite <- (Rabs_pos_eq (2 * val a)) by lra. rewrite <- Rabs_mult. apply Rabs_le. rewrite Rmult_minus_distr_l. lra. }
  destruct (sub_val 53 1024 _ _ (f64_of_Z n) reach Gn Gr) as [Gs Vs]. { rewrite Vn. apply small64. eapply Rle_trans; [apply Big; exact S1|]. apply bpow_le. lia. }
  fold f64_sub in Gs, Vs. rewrite Vn in Vs. set (s := f64_sub (f64_of_Z n) reach) in *. pose proof (err _ _ K2 S1) as Es. rewrite <- Vs in Es.
  rewrite <- (Rabs_pos_eq (2 * val a)) in Es at 1 by lra. rewrite <- Rabs_mult, !Rmult_minus_distr_l in Es. apply Rabs_le_inv in Es.
  assert (S2 : 2 * val a * Rabs (val s) <= 12 * W).
  { rewrite <- (Rabs_pos_eq (2 * val a)) by lra. rewrite <- Rabs_mult. apply Rabs_le. lra. }
  destruct (half_val s (2 * val a) Gs K2 S2) as [Gh Eh]. { eapply Rle_trans; [apply Big; exact S2|]. apply bpow_le. lia. }
  set (hf := f64_div s (f64_of_Z 2)) in *.
  rewrite <- (Rabs_pos_eq (2 * val a)) in Eh at 1 by lra. rewrite <- Rabs_mult, !Rmult_minus_distr_l in Eh. apply Rabs_le_inv in Eh.
  set (one := f64_of_Z (if SFltb v0 v1 then 1 else 0)).
  assert (O1 : fin64 one /\ val one = if SFltb v0 v1 then 1 else 0).
  { unfold one. destruct (SFltb v0 v1); apply f64_of_Z_val; lia. }
  destruct O1 as [Fo Vo].
  assert (M1 : fin64 (f64_mul reach one) /\ val (f64_mul reach one) = if SFltb v0 v1 then val reach else 0).
  { assert (Y : rnd64 (val reach * val one) = if SFltb v0 v1 then val reach else 0).
    { rewrite Vo. destruct (SFltb v0 v1); [rewrite Rmult_1_r; now apply rnd_fin|rewrite Rmult_0_r; now apply rnd_0]. }
    destruct (mul_val 53 1024 _ _ reach one Gr Fo) as [U V].
    - rewrite Y. destruct (SFltb v0 v1); [apply (fin_small 53 1024); exact Gr|]. unfold small. rewrite Rabs_R0. apply bpow_gt_0.
    - split; [exact U|]. unfold f64_mul. now rewrite V. }
  destruct M1 as [Gm Vm]. set (m := f64_mul reach one) in *.
  assert (S3 : 2 * val a * Rabs (val m + val hf) <= 12 * W).
  { rewrite <- (Rabs_pos_eq (2 * val a)) by lra. rewrite <- Rabs_mult. apply Rabs_le. rewrite Vm. destruct (SFltb v0 v1); lra. }
  destruct (add_val 53 1024 _ _ m hf Gm Gh) as [Gi Vi]. { apply small64. eapply Rle_trans; [apply Big; exact S3|]. apply bpow_le. lia. }
  fold f64_add in Gi, Vi. split; [exact Gi|]. pose proof (err _ _ K2 S3) as Ei. rewrite <- Vi in Ei.
  rewrite <- (Rabs_pos_eq (2 * val a)) in Ei at 1 by lra. rewrite <- Rabs_mult, !Rmult_minus_distr_l in Ei. apply Rabs_le_inv in Ei. rewrite Vm in Ei.
  apply Rabs_le. destruct (SFltb v0 v1); lra.
Qed.
End Scale.
