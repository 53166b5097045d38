(** The centre of an arc that is given by its radius. *)
From Coq Require Import Reals Lra SpecFloat.
From Flocq Require Import Core Plus_error Relative IEEE754.BinarySingleNaN.
From Verif Require Import Base Model_Float Model_Axis Model_Gcode Model_Arc Spec_Real Proofs_Real Spec_Arc Proofs_Circle Proofs_Arc Proofs_Turn.
Open Scope Z_scope.
Open Scope R_scope.

Lemma diff_rel : forall x y, metre x -> metre y -> fin32 (f32_sub x y) /\ Rabs (val (f32_sub x y) - (val x - val y)) <= u * Rabs (val x - val y).
Proof.
  intros x y (Fx & Bx) (Fy & By). assert (M : Rabs (val x - val y) <= 2048) by (apply Rabs_le_inv in Bx, By; apply Rabs_le; lra). destruct (small_rnd (val x - val y) ltac:(lra)) as (_ & S).
  destruct (sub_val 24 128 _ _ x y Fx Fy S) as (F & V). split; [exact F|]. unfold f32_sub. rewrite V.
  assert (P24 : Prec_gt_0 24) by reflexivity. pose proof (fin_format 24 128 x Fx) as GX. pose proof (fin_format 24 128 y Fy) as GY.
  destruct (FLT_plus_error_N_ex radix2 (SpecFloat.emin 24 128) 24 (fun z => negb (Z.even z)) (val x) (- val y)) as (eps & B & E); [exact GX|apply generic_format_opp; exact GY|].
  assert (E' : rnd32 (val x - val y) = (val x + - val y) * (1 + eps)) by (rewrite <- E; reflexivity). rewrite E'.
  replace ((val x + - val y) * (1 + eps) - (val x - val y)) with (eps * (val x - val y)) by ring. rewrite Rabs_mult. apply Rmult_le_compat_r; [apply Rabs_pos|].
  eapply Rle_trans; [exact B|]. unfold u_ro. change (bpow radix2 (- (24) + 1)) with (/ 8388608). unfold u. apply Rmult_le_reg_r with (1 + / 2 * / 8388608); [lra|]. unfold Rdiv. rewrite Rmult_assoc, Rinv_l by lra. lra.
Qed.
Lemma halve_near : forall x X B e, approx x X B e -> B + e <= 67108864 -> approx (f32_div x (f32_of_Z 2)) (X / 2) (B / 2) (e / 2 + / 16777216 * (B / 2 + e / 2 + / 2)).
Proof.
  intros x X B e A L. pose proof (approx_bounds _ _ _ _ A) as Bx. destruct A as (F & BX & N). destruct (f32_of_Z_val 2 ltac:(lia)) as (F2 & V2).
  assert (M : Rabs (val x / val (f32_of_Z 2)) <= B / 2 + e / 2) by (rewrite V2; apply Rabs_le; lra). destruct (small_rnd (val x / val (f32_of_Z 2)) ltac:(lra)) as (E & S).
  destruct (div_val 24 128 _ _ x _ F F2 ltac:(rewrite V2; lra) S) as (Fd & Vd). apply approx_intro; [exact Fd|lra|]. unfold f32_div. rewrite Vd. rewrite V2 in *. apply Rabs_le_inv in E. lra.
Qed.

(** 1 + 1e-6, 1 - 1e-6, pi / 2 *)
Lemma above_val : fin64 (f64_add (f64_of_Z 1) (decimal64 1 1000000)) /\ Rabs (val (f64_add (f64_of_Z 1) (decimal64 1 1000000)) - (1 + / 1000000)) <= / 1000000000000.
Proof.
  assert (E : f64_add (f64_of_Z 1) (decimal64 1 1000000) = S754_finite false 4503604130970123 (-52)) by (vm_compute; reflexivity). rewrite E. split; [split; reflexivity|].
  unfold val, SF2R, F2R. cbn [Fnum Fexp cond_Zopp]. replace (bpow radix2 (-52)) with (/ 4503599627370496) by reflexivity. apply Rabs_le. lra.
Qed.
Lemma below_val : fin64 (f64_sub (f64_of_Z 1) (decimal64 1 1000000)) /\ Rabs (val (f64_sub (f64_of_Z 1) (decimal64 1 1000000)) - (1 - / 1000000)) <= / 1000000000000.
Proof.
  assert (E : f64_sub (f64_of_Z 1) (decimal64 1 1000000) = S754_finite false 9007190247541737 (-53)) by (vm_compute; reflexivity). rewrite E. split; [split; reflexivity|].
  unfold val, SF2R, F2R. cbn [Fnum Fexp cond_Zopp]. replace (bpow radix2 (-53)) with (/ 9007199254740992) by reflexivity. apply Rabs_le. lra.
Qed.
Lemma quarter_val : fin64 (f64_div pi64 (f64_of_Z 2)) /\ Rabs (val (f64_div pi64 (f64_of_Z 2)) - PI / 2) <= 6 / 100000000.
Proof.
  assert (E : f64_div pi64 (f64_of_Z 2) = S754_finite false 7074237752028440 (-52)) by (vm_compute; reflexivity). rewrite E. split; [split; reflexivity|].
  unfold val, SF2R, F2R. cbn [Fnum Fexp cond_Zopp]. replace (bpow radix2 (-52)) with (/ 4503599627370496) by reflexivity. pose proof pi_bounds. apply Rabs_le. lra.
Qed.

(** ** Geometry *)
Lemma centre_distance : forall d1 d2 a s o r i j e1 e2 e3, s = 1 \/ s = -1 ->
  let h := nrm d1 d2 / 2 in
  nrm (h * cos a - d1 / 2) (h * sin a - d2 / 2) <= e1 -> Rabs (nrm h o - r) <= e2 ->
  Rabs (i - (d1 / 2 - s * o * sin a)) <= e3 -> Rabs (j - (d2 / 2 + s * o * cos a)) <= e3 ->
  Rabs (nrm i j - r) <= e1 + e2 + 3 / 2 * e3 /\ Rabs (nrm (i - d1) (j - d2) - r) <= e1 + e2 + 3 / 2 * e3.
Proof.
  intros d1 d2 a s o r i j e1 e2 e3 Hs h E1 E2 E3 E4. pose proof (nrm_le _ _ _ E3 E4) as E5.
  assert (S : s * s = 1) by (destruct Hs as [-> | ->]; lra).
  assert (Ho : forall k, nrm h (k * o) = nrm h o \/ k * k <> 1) by (intros k; destruct (Req_dec (k * k) 1) as [K|]; [left; unfold nrm; f_equal; replace (k * o * (k * o)) with (k * k * (o * o)) by ring; rewrite K; ring|now right]).
  assert (Hr : forall x y X Y b, nrm (x - X) (y - Y) <= b -> nrm X Y = nrm h o -> Rabs (nrm x y - r) <= b + e2).
  { intros x y X Y b B N. pose proof (nrm_tri_inv x y X Y) as Q. replace (nrm x y - r) with ((nrm x y - nrm X Y) + (nrm h o - r)) by (rewrite N; ring). eapply Rle_trans; [apply Rabs_triang|]. lra. }
  split.
  - replace (e1 + e2 + 3 / 2 * e3) with (e1 + 3 / 2 * e3 + e2) by ring. apply (Hr _ _ (h * cos a - s * o * sin a) (h * sin a + s * o * cos a)).
    + replace (i - (h * cos a - s * o * sin a)) with (- (h * cos a - d1 / 2) + (i - (d1 / 2 - s * o * sin a))) by ring.
      replace (j - (h * sin a + s * o * cos a)) with (- (h * sin a - d2 / 2) + (j - (d2 / 2 + s * o * cos a))) by ring. eapply Rle_trans; [apply nrm_tri|]. rewrite nrm_opp. lra.
    + rewrite nrm_mult, nrm_unit. destruct (Ho s) as [H|H]; [rewrite H; ring|contradiction].
  - replace (e1 + e2 + 3 / 2 * e3) with (e1 + 3 / 2 * e3 + e2) by ring. apply (Hr _ _ (- (h * cos a) - s * o * sin a) (- (h * sin a) + s * o * cos a)).
    + replace (i - d1 - (- (h * cos a) - s * o * sin a)) with ((h * cos a - d1 / 2) + (i - (d1 / 2 - s * o * sin a))) by field.
      replace (j - d2 - (- (h * sin a) + s * o * cos a)) with ((h * sin a - d2 / 2) + (j - (d2 / 2 + s * o * cos a))) by field. eapply Rle_trans; [apply nrm_tri|]. lra.
    + replace (- (h * cos a) - s * o * sin a) with (- (h * cos a - (- s * o) * sin a)) by ring. replace (- (h * sin a) + s * o * cos a) with (- (h * sin a + (- s * o) * cos a)) by ring.
      rewrite nrm_opp, nrm_mult, nrm_unit. destruct (Ho (- s)) as [H|H]; [rewrite H; ring|]. exfalso. apply H. lra.
Qed.
Lemma centre_side : forall d1 d2 a s o i j e1 e3 e4, s = 1 \/ s = -1 ->
  let h := nrm d1 d2 / 2 in
  nrm (h * cos a - d1 / 2) (h * sin a - d2 / 2) <= e1 * h -> 0 <= e1 <= 1 -> - e4 <= o -> 0 <= e4 ->
  Rabs (i - (d1 / 2 - s * o * sin a)) <= e3 -> Rabs (j - (d2 / 2 + s * o * cos a)) <= e3 ->
  - (e4 + 3 / 2 * e3) * nrm d1 d2 <= s * (d1 * j - d2 * i).
Proof.
  intros d1 d2 a s o i j e1 e3 e4 Hs h E1 B1 Ho P4 E3 E4. pose proof (nrm_le _ _ _ E3 E4) as E5. set (D := nrm d1 d2) in *. assert (PD : 0 <= D) by apply nrm_pos.
  assert (S : s * s = 1) by (destruct Hs as [-> | ->]; lra).
  set (x := i - (d1 / 2 - s * o * sin a)) in *. set (y := j - (d2 / 2 + s * o * cos a)) in *.
  replace (s * (d1 * j - d2 * i)) with (s * s * o * (d1 * cos a + d2 * sin a) + s * (d1 * y - d2 * x)) by (unfold x, y; field). rewrite S.
  assert (C1 : Rabs (d1 * y - d2 * x) <= D * (3 / 2 * e3)).
  { eapply Rle_trans; [|apply Rmult_le_compat_l; [exact PD|exact E5]]. pose proof (nrm_cross d1 d2 x y) as Q. fold D in Q. eapply Rle_trans; [|exact Q]. unfold Rminus. eapply Rle_trans; [apply Rabs_triang|]. rewrite Rabs_Ropp. lra. }
  assert (C2 : Rabs (s * (d1 * y - d2 * x)) <= D * (3 / 2 * e3)) by (rewrite Rabs_mult; replace (Rabs s) with 1 by (destruct Hs as [-> | ->]; [rewrite Rabs_R1|rewrite Rabs_left by lra]; lra); lra).
  assert (C3 : Rabs (d1 * cos a + d2 * sin a) <= D).
  { pose proof (nrm_cross d1 d2 (sin a) (cos a)) as Q. rewrite (nrm_swap (sin a)), nrm_unit in Q. fold D in Q. eapply Rle_trans; [apply Rabs_triang|]. lra. }
  assert (C4 : 0 <= d1 * cos a + d2 * sin a).
  { set (X := h * cos a - d1 / 2) in *. set (Y := h * sin a - d2 / 2) in *. pose proof (sin2_cos2 a) as U. unfold Rsqr in U.
    replace (d1 * cos a + d2 * sin a) with (2 * h * (sin a * sin a + cos a * cos a) - 2 * (X * cos a + Y * sin a)) by (unfold X, Y; field). rewrite U.
    pose proof (nrm_cross X Y (sin a) (cos a)) as Q. rewrite (nrm_swap (sin a)), nrm_unit in Q. pose proof (Rle_abs (X * cos a)). pose proof (Rle_abs (Y * sin a)).
    assert (e1 * h <= 1 * h) by (apply Rmult_le_compat_r; unfold h; lra). lra. }
  apply Rabs_le_inv in C2. apply Rabs_le_inv in C3. assert (0 <= (o + e4) * (d1 * cos a + d2 * sin a)) by (apply Rmult_le_pos; lra).
  assert (e4 * (d1 * cos a + d2 * sin a) <= e4 * D) by (apply Rmult_le_compat_l; lra). lra.
Qed.

(** ** The computation *)
Lemma half_near : forall m s1 s2 e1 e2, good_trig m -> metre s1 -> metre s2 -> metre e1 -> metre e2 ->
  let mid1 := f32_div (f32_add e1 s1) (f32_of_Z 2) in let mid2 := f32_div (f32_add e2 s2) (f32_of_Z 2) in
  let half := m_hypot m (f32_sub mid1 e1) (f32_sub mid2 e2) in
  approx mid1 ((val e1 + val s1) / 2) 1024 (13 / 100000) /\ approx mid2 ((val e2 + val s2) / 2) 1024 (13 / 100000) /\
  fin32 half /\ Rabs (val half - nrm (val e1 - val s1) (val e2 - val s2) / 2) <= 19 / 10000 /\ nrm (val e1 - val s1) (val e2 - val s2) / 2 <= 1536 /\ - / 100000 <= val half.
Proof.
  intros m s1 s2 e1 e2 (_ & _ & G) Ms1 Ms2 Me1 Me2 mid1 mid2 half.
  assert (Mid : forall s e, metre s -> metre e -> approx (f32_div (f32_add e s) (f32_of_Z 2)) ((val e + val s) / 2) 1024 (13 / 100000)).
  { intros s e (Fs & Bs) (Fe & Be). eapply approx_weak; [apply (halve_near _ _ 2048 (125 / 1000000))|lra|lra]; [|lra]. eapply approx_add; [apply approx_exact; eassumption|apply approx_exact; eassumption| |lra|lra].
    apply Rabs_le_inv in Bs, Be. apply Rabs_le. lra. }
  assert (Leg : forall s e, metre s -> metre e -> approx (f32_sub (f32_div (f32_add e s) (f32_of_Z 2)) e) ((val e + val s) / 2 - val e) 1024 (2 / 10000)).
  { intros s e Ms Me. pose proof (Mid s e Ms Me) as A. destruct Ms as (Fs & Bs), Me as (Fe & Be). eapply approx_sub; [exact A|apply approx_exact; eassumption| |lra|lra]. apply Rabs_le_inv in Bs, Be. apply Rabs_le. lra. }
  pose proof (Leg s1 e1 Ms1 Me1) as L1. pose proof (Leg s2 e2 Ms2 Me2) as L2. fold mid1 in L1. fold mid2 in L2. split; [apply Mid; auto|]. split; [apply Mid; auto|].
  pose proof (approx_bounds _ _ _ _ L1) as B1. pose proof (approx_bounds _ _ _ _ L2) as B2. destruct L1 as (F1 & M1 & N1), L2 as (F2 & M2 & N2). unfold near in N1, N2.
  destruct (G _ _ F1 F2) as (F & N); [apply Rabs_le; lra|apply Rabs_le; lra|]. fold half in F, N. split; [exact F|]. change len with nrm in N. unfold near in N.
  set (h := nrm (val e1 - val s1) (val e2 - val s2) / 2).
  assert (H : h = nrm ((val e1 + val s1) / 2 - val e1) ((val e2 + val s2) / 2 - val e2)).
  { unfold h. replace ((val e1 + val s1) / 2 - val e1) with (- / 2 * (val e1 - val s1)) by field. replace ((val e2 + val s2) / 2 - val e2) with (- / 2 * (val e2 - val s2)) by field. rewrite nrm_scale, Rabs_left by lra. field. }
  pose proof (nrm_tri_inv (val (f32_sub mid1 e1)) (val (f32_sub mid2 e2)) ((val e1 + val s1) / 2 - val e1) ((val e2 + val s2) / 2 - val e2)) as T. rewrite <- H in T.
  pose proof (nrm_le _ _ _ N1 N2) as T2. pose proof (nrm_le _ _ _ M1 M2) as T3. rewrite <- H in T3. apply Rabs_le_inv in T. apply Rabs_le_inv in N. split; [apply Rabs_le; lra|]. split; [lra|]. pose proof (nrm_pos (val (f32_sub mid1 e1)) (val (f32_sub mid2 e2))). lra.
Qed.

Lemma theta_near : forall m (right : bool) x a, good_trig m -> fin32 x -> - PI <= a <= PI -> near (/ 1000000) (val x) a ->
  let theta := f32_of_f64 (if right then f64_sub (f64_of_f32 x) (f64_div pi64 (f64_of_Z 2)) else f64_add (f64_of_f32 x) (f64_div pi64 (f64_of_Z 2))) in
  let s := if right then -1 else 1 in
  approx (m_cos m theta) (- s * sin a) 1 (3 / 1000000) /\ approx (m_sin m theta) (s * cos a) 1 (3 / 1000000).
Proof.
  intros m right x a (G & _) F B N theta s. pose proof pi_bounds as P. unfold near in N. apply Rabs_le_inv in N. destruct (f64_of_f32_val x F) as (Fx & Vx). destruct quarter_val as (Fq & Bq). apply Rabs_le_inv in Bq.
  assert (T : fin32 theta /\ Rabs (val theta - (a + s * (PI / 2))) <= 16 / 10000000).
  { unfold theta, s. destruct right.
    - destruct (small_rnd64 (val (f64_of_f32 x) - val (f64_div pi64 (f64_of_Z 2)))) as (E & S); [rewrite Vx; apply Rabs_le; lra|].
      destruct (sub_val 53 1024 _ _ _ _ Fx Fq S) as (Fd & V). fold f64_sub in Fd, V. apply Rabs_le_inv in E. rewrite <- V, Vx in E.
      set (d := f64_sub _ _) in *. assert (Bd : Rabs (val d) <= 48 / 10) by (apply Rabs_le; lra). destruct (small_rnd (val d) ltac:(lra)) as (E' & S').
      destruct (f32_of_f64_val _ Fd S') as (F' & V'). split; [exact F'|]. rewrite V'. apply Rabs_le_inv in E'. apply Rabs_le. lra.
    - destruct (small_rnd64 (val (f64_of_f32 x) + val (f64_div pi64 (f64_of_Z 2)))) as (E & S); [rewrite Vx; apply Rabs_le; lra|].
      destruct (add_val 53 1024 _ _ _ _ Fx Fq S) as (Fd & V). fold f64_add in Fd, V. apply Rabs_le_inv in E. rewrite <- V, Vx in E.
      set (d := f64_add _ _) in *. assert (Bd : Rabs (val d) <= 48 / 10) by (apply Rabs_le; lra). destruct (small_rnd (val d) ltac:(lra)) as (E' & S').
      destruct (f32_of_f64_val _ Fd S') as (F' & V'). split; [exact F'|]. rewrite V'. apply Rabs_le_inv in E'. apply Rabs_le. lra. }
  destruct T as (Ft & Nt). clearbody theta. assert (Bt : Rabs (val theta) <= 7) by (apply Rabs_le_inv in Nt; apply Rabs_le; unfold s in *; destruct right; lra).
  destruct (G theta Ft Bt) as (Fc & Nc & Fs & Ns). unfold near in *.
  assert (C : cos (a + s * (PI / 2)) = - s * sin a /\ sin (a + s * (PI / 2)) = s * cos a).
  { unfold s. destruct right.
    - replace (a + -1 * (PI / 2)) with (- (PI / 2 - a)) by field. rewrite cos_neg, sin_neg, cos_shift, sin_shift. lra.
    - replace (a + 1 * (PI / 2)) with (PI / 2 + a) by field. rewrite cos_plus, sin_plus, cos_PI2, sin_PI2. lra. }
  destruct C as (C1 & C2). pose proof (cos_lip (val theta) (a + s * (PI / 2))) as L1. pose proof (sin_lip (val theta) (a + s * (PI / 2))) as L2. rewrite C1 in L1. rewrite C2 in L2.
  split; (split; [assumption|]; split).
  - rewrite <- C1. apply Rabs_le. pose proof (COS_bound (a + s * (PI / 2))). lra.
  - unfold near. apply Rabs_le_inv in Nc. apply Rabs_le. assert (L : Rabs (cos (val theta) - - s * sin a) <= 16 / 10000000) by lra. apply Rabs_le_inv in L. lra.
  - rewrite <- C2. apply Rabs_le. pose proof (SIN_bound (a + s * (PI / 2))). lra.
  - unfold near. apply Rabs_le_inv in Ns. apply Rabs_le. assert (L : Rabs (sin (val theta) - s * cos a) <= 16 / 10000000) by lra. apply Rabs_le_inv in L. lra.
Qed.

(** asin, cos: the distance of the centre from the chord *)
Lemma ratio_near : forall half r, fin32 half -> fin32 r -> / 1000 <= val r <= 1024 -> - / 100000 <= val half <= 2000 ->
  let x := f32_div half r in
  fin32 x /\ -1 <= val x /\ (val x <= 2 -> Rabs (val x * val r - val half) <= / 1000) /\ (1 <= val x -> val r <= val half + / 1000).
Proof.
  intros half r Fh Fr Br Bh x. assert (PI0 : 0 < / val r) by (apply Rinv_0_lt_compat; lra). assert (PI1 : / val r <= 1000) by (replace 1000 with (/ / 1000) by (field; lra); apply Rinv_le; lra).
  assert (Q : Rabs (val half / val r) <= 2000000).
  { unfold Rdiv. rewrite Rabs_mult, Rabs_inv, (Rabs_pos_eq (val r)) by lra. assert (Rabs (val half) <= 2000) by (apply Rabs_le; lra). replace 2000000 with (2000 * 1000) by lra. apply Rmult_le_compat; try lra. apply Rabs_pos. }
  destruct (small_rnd (val half / val r) ltac:(lra)) as (_ & S). destruct (div_val 24 128 _ _ half r Fh Fr ltac:(lra) S) as (Fx & Vx).
  change (SFdiv 24 128 half r) with x in Fx, Vx. pose proof (rnd_near (val half / val r)) as E. rewrite <- Vx in E. pose proof t0_val as T. pose proof u_val as U.
  set (q := val half / val r) in *. assert (Hq : val half = q * val r) by (unfold q; field; lra). assert (Lq : - / 100 <= q).
  { unfold q, Rdiv. assert (- / 100000 * / val r <= val half * / val r) by (apply Rmult_le_compat_r; lra). lra. }
  clearbody q. apply Rabs_le_inv in E. assert (A : q - / 10000000 * (Rabs q + / 2) <= val x <= q + / 10000000 * (Rabs q + / 2)) by (assert (u * Rabs q <= / 10000000 * Rabs q) by (apply Rmult_le_compat_r; [apply Rabs_pos|unfold u; lra]); lra).
  assert (Cq : Rabs q <= q + / 50) by (unfold Rabs; destruct (Rcase_abs q); lra). split; [exact Fx|]. split; [lra|]. rewrite Hq. split.
  - intros L. replace (val x * val r - q * val r) with ((val x - q) * val r) by ring. rewrite Rabs_mult, (Rabs_pos_eq (val r)) by lra. assert (q <= 21 / 10) by lra.
    assert (Rabs (val x - q) <= 3 / 10000000) by (apply Rabs_le; lra). assert (Rabs (val x - q) * val r <= 3 / 10000000 * 1024) by (apply Rmult_le_compat; try lra; apply Rabs_pos). lra.
  - intros L. assert (1 - 2 / 10000000 <= q) by lra. assert ((1 - 2 / 10000000) * val r <= q * val r) by (apply Rmult_le_compat_r; lra). lra.
Qed.
Lemma ratio_one : forall r, fin32 r -> 0 < val r -> val (f32_div r r) = 1.
Proof.
  intros r Fr P. assert (Q : val r / val r = 1) by (field; lra). destruct (small_rnd (val r / val r)) as (_ & S); [rewrite Q, Rabs_R1; lra|]. destruct (div_val 24 128 _ _ r r Fr Fr ltac:(lra) S) as (_ & V). unfold f32_div. rewrite V, Q.
  destruct (f32_of_Z_val 1 ltac:(lia)) as (F1 & V1). pose proof (fin_format 24 128 _ F1) as G. rewrite V1 in G. unfold rnd32; apply round_generic; [apply valid_rnd_N|exact G].
Qed.
Lemma depth_near : forall m half r, good_trig m -> good_asin m -> fin32 half -> fin32 r -> / 1000 <= val r <= 1024 -> - / 100000 <= val half <= 2000 ->
  val (f32_div half r) <= 1 -> exists o, approx (f32_mul r (m_cos m (m_asin m (f32_div half r)))) o 1024 (25 / 10000) /\ 0 <= o /\ forall h, Rabs (nrm h o - val r) <= Rabs (h - val half) + / 1000.
Proof.
  intros m half r (G & _) Ga Fh Fr Br Bh. destruct (ratio_near half r Fh Fr Br Bh) as (Fx & Lx & Xr & _). set (x := f32_div half r) in *. intros Ux. specialize (Xr ltac:(lra)).
  destruct (Ga x Fx ltac:(lra)) as (Fp & p & Bp & Sp & Np).
  set (phi := m_asin m x) in *. pose proof pi_bounds as P. unfold near in Np. apply Rabs_le_inv in Np. destruct (G phi Fp) as (Fc & Nc & _ & _); [apply Rabs_le; lra|].
  exists (val r * cos p). split; [|split].
  - eapply (approx_mul _ _ _ _ 1024 1 0 (2 / 1000000)); [apply (approx_exact r 1024 Fr); apply Rabs_le; lra|split; [exact Fc|split; [apply (Rabs_le (cos p) 1); pose proof (COS_bound p); lra|]]| | |].
    + unfold near in *. pose proof (cos_lip (val phi) p) as L. assert (Rabs (val phi - p) <= / 1000000) by (apply Rabs_le; lra). assert (L' : Rabs (cos (val phi) - cos p) <= / 1000000) by lra. apply Rabs_le_inv in L'. apply Rabs_le_inv in Nc. apply Rabs_le. lra.
    + lra.
    + lra.
    + lra.
  - assert (0 <= cos p) by (apply cos_ge_0; lra). apply Rmult_le_pos; lra.
  - intros h. assert (E : nrm (val r * sin p) (val r * cos p) = val r) by (rewrite nrm_scale, nrm_swap, nrm_unit, Rabs_pos_eq by lra; ring). rewrite <- E at 2.
    eapply Rle_trans; [apply nrm_tri_inv|]. replace (val r * cos p - val r * cos p) with 0 by ring. replace (nrm (h - val r * sin p) 0) with (Rabs (h - val r * sin p)) by (unfold nrm; rewrite <- sqrt_Rsqr_abs; f_equal; unfold Rsqr; ring).
    rewrite Sp. replace (h - val r * val x) with ((h - val half) + - (val x * val r - val half)) by ring. eapply Rle_trans; [apply Rabs_triang|]. rewrite Rabs_Ropp. lra.
Qed.

Lemma direction_near : forall m s1 s2 e1 e2, good_trig m -> metre s1 -> metre s2 -> metre e1 -> metre e2 ->
  let d1 := val e1 - val s1 in let d2 := val e2 - val s2 in let h := nrm d1 d2 / 2 in let t := m_atan2 m (f32_sub e2 s2) (f32_sub e1 s1) in
  fin32 t /\ exists a, - PI <= a <= PI /\ near (/ 1000000) (val t) a /\ nrm (h * cos a - d1 / 2) (h * sin a - d2 / 2) <= 3 * u * h.
Proof.
  intros m s1 s2 e1 e2 (_ & G & _) Ms1 Ms2 Me1 Me2 d1 d2 h t. destruct (diff_rel e1 s1 Me1 Ms1) as (F1 & E1). destruct (diff_rel e2 s2 Me2 Ms2) as (F2 & E2). fold d1 in E1. fold d2 in E2.
  destruct (G _ _ F2 F1) as (Ft & a & Ba & Ca & Sa & Na). fold t in Ft, Na. split; [exact Ft|]. exists a. split; [exact Ba|]. split; [exact Na|]. change len with nrm in *.
  set (x := val (f32_sub e1 s1)) in *. set (y := val (f32_sub e2 s2)) in *. set (L := nrm x y) in *. pose proof u_val as U.
  assert (D : nrm (x - d1) (y - d2) <= 3 / 2 * (u * nrm d1 d2)).
  { apply nrm_le; (eapply Rle_trans; [eassumption|apply Rmult_le_compat_l; [lra|]]); [apply nrm_x|apply nrm_y]. }
  assert (N : Rabs (2 * h - L) <= nrm (x - d1) (y - d2)) by (replace (2 * h) with (nrm d1 d2) by (unfold h; field); rewrite Rabs_minus_sym; apply nrm_tri_inv).
  replace (h * cos a - d1 / 2) with ((2 * h - L) / 2 * cos a + / 2 * (x - d1)) by (rewrite Ca at 1; field). replace (h * sin a - d2 / 2) with ((2 * h - L) / 2 * sin a + / 2 * (y - d2)) by (rewrite Sa at 1; field).
  eapply Rle_trans; [apply nrm_tri|]. rewrite !nrm_scale, nrm_unit, (Rabs_pos_eq (/ 2)) by lra. unfold Rdiv at 1. rewrite Rabs_mult, (Rabs_pos_eq (/ 2)) by lra.
  replace (3 * u * h) with (3 / 2 * (u * nrm d1 d2)) by (unfold h; field). lra.
Qed.

Lemma radius_centre : forall m s1 s2 e1 e2 radius cw, good_trig m -> good_asin m -> metre s1 -> metre s2 -> metre e1 -> metre e2 -> metre radius -> / 1000 <= Rabs (val radius) ->
  let d1 := val e1 - val s1 in let d2 := val e2 - val s2 in
  match arc_radius_to_center m s1 s2 e1 e2 radius cw with
  | None => (val e1 = val s1 /\ val e2 = val s2) \/ 2 * Rabs (val radius) <= nrm d1 d2 + / 50
  | Some (i, j) => fin32 i /\ fin32 j /\ ~ (val e1 = val s1 /\ val e2 = val s2) /\ nrm d1 d2 <= 2 * Rabs (val radius) + / 50 /\ Rabs (nrm (val i) (val j) - Rabs (val radius)) <= / 50 /\ Rabs (nrm (val i - d1) (val j - d2) - Rabs (val radius)) <= / 50 /\
      - / 50 * nrm d1 d2 <= (if (cw && SFltb f0 radius) || (negb cw && SFltb radius f0) then -1 else 1) * (d1 * val j - d2 * val i)
  end.
Proof.
  intros m s1 s2 e1 e2 radius cw G Ga Ms1 Ms2 Me1 Me2 (Fr & Br) Lr d1 d2. unfold arc_radius_to_center. destruct f0_val as (F0 & V0).
  assert (Fs1 := proj1 Ms1). assert (Fs2 := proj1 Ms2). assert (Fe1 := proj1 Me1). assert (Fe2 := proj1 Me2).
  assert (Same : SFeqb e1 s1 && SFeqb e2 s2 = true <-> val e1 = val s1 /\ val e2 = val s2) by (rewrite andb_true_iff; rewrite (eqb_eq_val 24 128 _ _ Fe1 Fs1), (eqb_eq_val 24 128 _ _ Fe2 Fs2); reflexivity).
  destruct (SFeqb e1 s1 && SFeqb e2 s2); [left; apply Same; reflexivity|]. assert (NS : ~ (val e1 = val s1 /\ val e2 = val s2)) by (intros E; apply Same in E; discriminate E). clear Same. cbv zeta.
  destruct (abs_val32 radius Fr) as (FR & VR). set (R := SFabs radius) in *. rewrite <- VR in *. set (right := (cw && SFltb f0 radius) || (negb cw && SFltb radius f0)). clearbody right. clearbody R.
  destruct (half_near m s1 s2 e1 e2 G Ms1 Ms2 Me1 Me2) as (A1 & A2 & Fh & Eh & Bh & Ph).
  set (mid1 := f32_div (f32_add e1 s1) (f32_of_Z 2)) in *. set (mid2 := f32_div (f32_add e2 s2) (f32_of_Z 2)) in *. set (half := m_hypot m (f32_sub mid1 e1) (f32_sub mid2 e2)) in *. fold d1 d2 in Eh, Bh.
  destruct (direction_near m s1 s2 e1 e2 G Ms1 Ms2 Me1 Me2) as (Ft & a & Ba & Na & Ea). fold d1 d2 in Ea. set (t := m_atan2 m (f32_sub e2 s2) (f32_sub e1 s1)) in *.
  clearbody t half. set (h := nrm d1 d2 / 2) in *. apply Rabs_le_inv in Eh.
  destruct (ratio_near half R Fh FR ltac:(lra) ltac:(lra)) as (Fx & Lx & Xr & Xo). destruct (f64_of_f32_val _ Fx) as (Fx' & Vx'). destruct above_val as (Fa & Va). destruct below_val as (Fb & Vb). apply Rabs_le_inv in Va, Vb.
  set (above := f64_add (f64_of_Z 1) (decimal64 1 1000000)) in *. set (below := f64_sub (f64_of_Z 1) (decimal64 1 1000000)) in *. clearbody above below.
  set (x := f32_div half R) in *. set (x' := f64_of_f32 x) in *.
  pose proof (ltb_lt 53 1024 _ _ Fa Fx') as La. pose proof (ltb_lt 53 1024 _ _ Fb Fx') as Lb. rewrite Vx' in La, Lb.
  destruct (SFltb above x'); [right; assert (1 <= val x) by (assert (val above < val x) by (apply La; reflexivity); lra); specialize (Xo ltac:(assumption)); unfold h in *; lra|].
  assert (Ux : val x <= val above) by (destruct (Rlt_le_dec (val above) (val x)) as [C|C]; [apply La in C; discriminate C|exact C]). clear La.
  assert (Hf : exists hf, (if SFltb below x' then R else half) = hf /\ fin32 hf /\ - / 100000 <= val hf <= 2000 /\ val (f32_div hf R) <= 1 /\ Rabs (h - val hf) <= 45 / 10000).
  { specialize (Xr ltac:(lra)). apply Rabs_le_inv in Xr. destruct (SFltb below x').
    - exists R. split; [reflexivity|]. split; [exact FR|]. split; [lra|]. split; [rewrite ratio_one by (assumption || lra); lra|]. assert (val below < val x) by (apply Lb; reflexivity).
      assert ((1 - 11 / 10000000) * val R <= val x * val R) by (apply Rmult_le_compat_r; lra). assert (val x * val R <= (1 + 11 / 10000000) * val R) by (apply Rmult_le_compat_r; lra). apply Rabs_le. lra.
    - exists half. split; [reflexivity|]. split; [exact Fh|]. split; [lra|]. split; [|apply Rabs_le; lra]. fold x. destruct (Rlt_le_dec (val below) (val x)) as [C|C]; [apply Lb in C; discriminate C|lra]. }
  destruct Hf as (hf & -> & Ff & Bf & Uf & Ef). destruct (depth_near m hf R G Ga Ff FR ltac:(lra) Bf Uf) as (o & Ao & Po & No).
  destruct (theta_near m right t a G Ft Ba Na) as (Ac & As). set (theta := f32_of_f64 _) in *. set (off := f32_mul R (m_cos m (m_asin m (f32_div hf R)))) in *.
  set (s := if right then -1 else 1) in *. assert (Hs : s = 1 \/ s = -1) by (unfold s; destruct right; auto).
  assert (Point : forall mid sx ex c C, metre sx -> metre ex -> approx mid ((val ex + val sx) / 2) 1024 (13 / 100000) -> approx c C 1 (3 / 1000000) ->
    fin32 (f32_sub (f32_add mid (f32_mul off c)) sx) /\ Rabs (val (f32_sub (f32_add mid (f32_mul off c)) sx) - ((val ex - val sx) / 2 + o * C)) <= 7 / 1000).
  { intros mid sx ex c C (Fsx & Bsx) (Fex & Bex) Am Ac'. assert (P1 : approx (f32_mul off c) (o * C) 1024 (57 / 10000)) by (eapply approx_mul; [exact Ao|exact Ac'|lra|lra|lra]).
    assert (P2 : approx (f32_add mid (f32_mul off c)) ((val ex + val sx) / 2 + o * C) 2048 (61 / 10000)).
    { eapply approx_add; [exact Am|exact P1| |lra|lra]. destruct Am as (_ & Bm & _), P1 as (_ & Bp & _). eapply Rle_trans; [apply Rabs_triang|]. lra. }
    assert (P3 : approx (f32_sub (f32_add mid (f32_mul off c)) sx) ((val ex + val sx) / 2 + o * C - val sx) 3072 (7 / 1000)).
    { eapply approx_sub; [exact P2|apply approx_exact; [exact Fsx|exact Bsx]| |lra|lra]. destruct P2 as (_ & Bp & _). apply Rabs_le_inv in Bp, Bsx. apply Rabs_le. lra. }
    destruct P3 as (F3 & _ & N3). split; [exact F3|]. unfold near in N3. replace ((val ex - val sx) / 2 + o * C) with ((val ex + val sx) / 2 + o * C - val sx) by field. exact N3. }
  destruct (Point mid1 s1 e1 _ _ Ms1 Me1 A1 Ac) as (Fi & Ei). destruct (Point mid2 s2 e2 _ _ Ms2 Me2 A2 As) as (Fj & Ej). fold d1 in Ei. fold d2 in Ej.
  set (i := f32_sub _ s1) in *. set (j := f32_sub _ s2) in *. clearbody i j.
  replace (d1 / 2 + o * (- s * sin a)) with (d1 / 2 - s * o * sin a) in Ei by ring. replace (d2 / 2 + o * (s * cos a)) with (d2 / 2 + s * o * cos a) in Ej by ring.
  pose proof u_val as U. assert (PH : 0 <= h) by (unfold h; pose proof (nrm_pos d1 d2); lra).
  assert (Ea' : nrm (h * cos a - d1 / 2) (h * sin a - d2 / 2) <= 3 / 10000) by (eapply Rle_trans; [exact Ea|]; assert (u * h <= 6 / 100000000 * 1536) by (apply Rmult_le_compat; lra); lra).
  pose proof (No h) as Nh. assert (Nh' : Rabs (nrm h o - val R) <= 55 / 10000) by lra.
  destruct (centre_distance d1 d2 a s o (val R) (val i) (val j) (3 / 10000) (55 / 10000) (7 / 1000) Hs Ea' Nh' Ei Ej) as (D1 & D2).
  pose proof (centre_side d1 d2 a s o (val i) (val j) (3 * u) (7 / 1000) 0 Hs Ea ltac:(lra) ltac:(lra) ltac:(lra) Ei Ej) as D3.
  split; [exact Fi|]. split; [exact Fj|]. split; [exact NS|]. split; [|split; [lra|split; [lra|]]].
  - pose proof (nrm_x h o) as X. rewrite (Rabs_pos_eq h PH) in X. apply Rabs_le_inv in Nh'. unfold h in *. lra.
  - pose proof (nrm_pos d1 d2) as PD. assert (- / 50 * nrm d1 d2 <= - (0 + 3 / 2 * (7 / 1000)) * nrm d1 d2) by (apply Rmult_le_compat_r; lra). lra.
Qed.
