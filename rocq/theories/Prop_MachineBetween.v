(** C84: the colours along a command stay between those of its first and last speed. *)
From Coq Require Import Reals Lra SpecFloat.
From Flocq Require Import Core IEEE754.BinarySingleNaN.
From Verif Require Import Base Model_Float Spec_Real Proofs_Real Model_Axis Model_Planner Prop_ViewRange Model_MachineView Spec_MachineView Prop_MachineView Prop_MachineColors Prop_MachineSpeed Prop_MachineRamp.
Open Scope R_scope.

Lemma rnd32_up : forall r, bpow radix2 (-111) <= r <= bpow radix2 111 -> r / 2 <= rnd32 r <= r * (1 + / 10000000).
Proof.
  intros r B. pose proof (bpow_gt_0 radix2 (-111)) as P. destruct (rnd_near r (or_intror B)) as [_ (_ & _ & A & C)]. cbn [pow] in *. rewrite Rmult_1_r in *. unfold t in *. lra.
Qed.
Lemma step_bound : forall k n i, 0 <= val (c_v0 k) <= bpow radix2 30 -> 0 <= val (c_v1 k) <= bpow radix2 30 ->
  (0 <= i < n)%Z -> (n <= 2 ^ 20)%Z -> val (c_v0 k) = val (c_v1 k) \/ bpow radix2 (-80) <= Rabs (val (c_v1 k) - val (c_v0 k)) ->
  Rabs (rnd32 (rnd32 (IZR i * rise k) / IZR n)) <= Rabs (val (c_v1 k) - val (c_v0 k)).
Proof.
  intros k n i B0 B1 I Bn Df. assert (Pn : 1 <= IZR n) by (apply IZR_le; lia).
  destruct Df as [Df|Df]; [unfold rise; rewrite Df, Rminus_diag_eq, rnd32_zero, Rmult_0_r, rnd32_zero by reflexivity; unfold Rdiv; rewrite Rmult_0_l, rnd32_zero; lra|].
  destruct (Z.eq_dec i 0) as [->|Ni]; [rewrite Rmult_0_l, rnd32_zero; unfold Rdiv; rewrite Rmult_0_l, rnd32_zero, Rabs_R0; apply Rabs_pos|].
  assert (Pi : 1 <= IZR i) by (apply IZR_le; lia). assert (Li : IZR i <= IZR n - 1) by (rewrite <- minus_IZR; apply IZR_le; lia). assert (Un : IZR n <= 1048576) by (apply IZR_le; lia).
  assert (Iv : 0 < / IZR n <= 1) by (split; [apply Rinv_0_lt_compat; lra|rewrite <- Rinv_1; apply Rinv_le; lra]).
  assert (Il : / 1048576 <= / IZR n) by (apply Rinv_le; lra).
  rewrite <- rnd32_abs. unfold Rdiv. rewrite Rabs_mult, (Rabs_pos_eq (/ _)) by lra. rewrite <- rnd32_abs, Rabs_mult, (Rabs_pos_eq (IZR i)) by lra. unfold rise. rewrite <- rnd32_abs.
  set (D := Rabs (val (c_v1 k) - val (c_v0 k))) in *. assert (UD : D <= bpow radix2 30) by (apply Rabs_le; lra).
  pose proof (bpow_gt_0 radix2 (-80)) as P80. assert (W0 : bpow radix2 (-110) = / 1073741824 * bpow radix2 (-80)) by (change (-110)%Z with (-30 + -80)%Z; rewrite bpow_plus; reflexivity).
  assert (W1 : bpow radix2 (-111) <= bpow radix2 (-110)) by (apply bpow_le; lia). assert (W2 : 4194304 * bpow radix2 30 <= bpow radix2 111) by (change 4194304 with (bpow radix2 22); rewrite <- bpow_plus; apply bpow_le; lia).
  pose proof (bpow_gt_0 radix2 30) as P30.
  destruct (rnd32_up D ltac:(lra)) as [E1 E2]. set (e := rnd32 D) in *.
  assert (X1 : 1 * e <= IZR i * e) by (apply Rmult_le_compat_r; lra). assert (X2 : IZR i * e <= 1048576 * e) by (apply Rmult_le_compat_r; lra).
  destruct (rnd32_up (IZR i * e) ltac:(lra)) as [Y1 Y2]. set (y := rnd32 (IZR i * e)) in *.
  assert (Z1 : y * / 1048576 <= y * / IZR n) by (apply Rmult_le_compat_l; lra). assert (Z2 : y * / IZR n <= y * 1) by (apply Rmult_le_compat_l; lra).
  destruct (rnd32_up (y * / IZR n) ltac:(lra)) as [_ V]. eapply Rle_trans; [exact V|].
  assert (Q : y * / IZR n <= IZR i * / IZR n * e * (1 + / 10000000)) by (replace (IZR i * / IZR n * e * (1 + / 10000000)) with (IZR i * e * (1 + / 10000000) * / IZR n) by ring; apply Rmult_le_compat_r; lra).
  assert (G : IZR i * / IZR n <= 1 - / 1048576) by (apply Rle_trans with ((IZR n - 1) * / IZR n); [apply Rmult_le_compat_r; lra|rewrite Rmult_minus_distr_r, Rinv_r by lra; lra]).
  assert (G' : IZR i * / IZR n * e <= (1 - / 1048576) * e) by (apply Rmult_le_compat_r; lra). lra.
Qed.

Lemma colours_between : forall (Q : Z -> Prop) c k pos low high n,
  (forall i a, (0 <= i < n)%Z -> color_index low high (piece_speed c k n i) = Ok a -> Q a) ->
  forall t i cur l ms, (0 <= i)%Z -> (i + Z.of_nat t <= n)%Z -> draw_pieces c k pos low high n t i cur = Ok (l, ms) -> Forall Q (painted cur ms).
Proof.
  intros Q c k pos low high n Al. induction t as [|t IH]; intros i cur l ms I T D; cbn [draw_pieces] in D; [injection D as <- <-; constructor|].
  destruct (color_index low high (piece_speed c k n i)) as [idx|] eqn:C; [|discriminate]. cbn [obind] in D. destruct (abs_axis c pos _ n i M1) as [x|]; [|discriminate]. destruct (abs_axis c pos _ n i M2) as [y|]; [|discriminate]. destruct (abs_axis c pos _ n i M3) as [w|]; [|discriminate]. cbn [obind] in D.
  destruct (draw_pieces c k pos low high n t (i + 1) idx) as [[l' ms']|] eqn:D'; [|discriminate]. cbn [obind] in D. injection D as <- <-.
  assert (I1 : (0 <= i + 1)%Z) by lia. assert (T1 : (i + 1 + Z.of_nat t <= n)%Z) by lia. pose proof (IH _ _ _ _ I1 T1 D') as A.
  assert (E : painted cur ((if (idx =? cur)%Z then [] else [SpeedColor idx]) ++ DrawTo (x, y, w) :: ms') = idx :: painted idx ms') by (destruct (Z.eqb_spec idx cur) as [->|_]; reflexivity). rewrite E.
  constructor; [apply (Al i); [lia|exact C]|exact A].
Qed.

(** No line of a command has a colour beyond those of its first and last speed (up to a million
    pieces). *)
Theorem C84_between : forall c k z z' ms, mv_speeds c = true -> seen k = true -> geared (mv_steps c) [Move k] ->
  fin32 (mv_length c) -> 0 < val (mv_length c) ->
  (forall x, shown_motor x \/ turns k x -> fin32 (mv_steps c (motor_axis x)) /\ bpow radix2 (-20) <= val (mv_steps c (motor_axis x)) <= bpow radix2 20 /\ (Z.abs (Model_Planner.c_steps k x) <= 2 ^ 24)%Z) ->
  fin32 (c_v0 k) -> fin32 (c_v1 k) -> 0 <= val (c_v0 k) <= bpow radix2 30 -> 0 <= val (c_v1 k) <= bpow radix2 30 ->
  val (c_v0 k) = val (c_v1 k) \/ bpow radix2 (-80) <= Rabs (val (c_v1 k) - val (c_v0 k)) ->
  fin32 (mv_low z) -> fin32 (mv_high z) -> val (mv_low z) < val (mv_high z) -> Rabs (val (mv_low z)) <= bpow radix2 100 -> Rabs (val (mv_high z)) <= bpow radix2 100 ->
  second_step c (Move k) z = Ok (z', ms) -> (Z.of_nat (length (drawn None ms)) <= 2 ^ 20)%Z ->
  exists a b, color_index (mv_low z) (mv_high z) (through_space c k (c_v0 k)) = Ok a /\ color_index (mv_low z) (mv_high z) (through_space c k (c_v1 k)) = Ok b /\
    forall j, In j (painted (mv_index z) ms) -> (Z.min a b <= j <= Z.max a b)%Z.
Proof.
  intros c k z z' ms Sp Se G Fl Pl H F0 F1 B0 B1 Df Flo Fhi LH Blo Bhi E Ln.
  destruct (C84_pieces c k z z' ms Sp Se G Fl Pl (fun m M => H m (or_introl M)) E) as (_ & N1 & _). cbv zeta in N1. set (m0 := length (drawn None ms)) in *.
  destruct (C84_colours _ _ Flo Fhi LH Blo Bhi) as (Ex & Mono & _).
  cbn [second_step] in E. destruct (nothing_to_do c (Model_Planner.c_steps k)) eqn:Nt; [pose proof (something c k [Move k] G ltac:(now left) Nt); congruence|].
  pose proof Se as Se'. unfold print_segment in E. unfold seen in Se'. apply negb_true_iff in Se'. rewrite Se', Sp in E.
  destruct (SFeqb (length_mm c _) (f32_of_Z 0)); [injection E as <- <-; cbn in m0; unfold m0 in N1; lia|].
  destruct (pieces c k) as [q|] eqn:Pq; [|discriminate]. cbn [obind] in E. destruct (draw_pieces c k (mv_pos z) (mv_low z) (mv_high z) q (Z.to_nat q) 0 (mv_index z)) as [[l ms']|] eqn:D; [|discriminate]. cbn [obind] in E. injection E as <- <-.
  assert (TZ : Z.of_nat (Z.to_nat q) = Z.max q 0) by lia. destruct (Z.to_nat q) as [|t] eqn:Tq; [cbn [draw_pieces] in D; injection D as <- <-; cbn in m0; unfold m0 in N1; lia|].
  assert (Lm : m0 = S t) by (destruct (draw_end _ _ _ _ _ _ _ _ _ _ _ D) as (x & y & w & _ & _ & _ & _ & Le & _); exact (Le None)).
  assert (Bq : (1 <= q <= 2 ^ 20)%Z) by (rewrite Lm in Ln; clear - TZ Ln; lia). assert (Bq' : (1 <= q <= 2 ^ 24)%Z) by lia.
  destruct (piece_first c k q Se H F0 F1 B0 B1 Bq') as [Ft Vt]. pose proof (piece_fin c k q Se H F0 F1 B0 B1 Bq') as PF.
  assert (T40 : bpow radix2 30 <= bpow radix2 40) by (apply bpow_le; lia).
  assert (A1 : Rabs (val (c_v1 k)) <= bpow radix2 40) by (rewrite Rabs_pos_eq; lra).
  destruct (speed_fin c k) with (v := c_v1 k) as [[_ V1] [Ft1 Vt1]]; try assumption.
  destruct (Ex _ Ft) as (a & Ca & _). destruct (Ex _ Ft1) as (b & Cb & _). exists a, b. split; [exact Ca|]. split; [exact Cb|].
  assert (T0 : (0 + Z.of_nat (S t) <= q)%Z) by lia.
  apply Forall_forall. refine (colours_between _ c k _ _ _ q _ _ _ _ _ _ (Z.le_refl 0) T0 D). intros i j I Cj.
  destruct (motor_speed_val k q) with (i := i) as (Fi & Vi & Bi); try assumption; try lia. pose proof (step_bound k q i B0 B1 I (proj2 Bq) Df) as SB. apply Rabs_le_inv in SB.
  assert (R1 : rnd32 (val (c_v1 k)) = val (c_v1 k)) by (apply (rnd_fin 24 128); exact F1).
  pose proof (PF i ltac:(lia)) as Fp.
  destruct (Rle_or_lt (val (c_v0 k)) (val (c_v1 k))) as [U|U].
  - pose proof (piece_up c k q Se H F0 F1 B0 B1 Bq' 0 i U ltac:(lia) ltac:(lia)) as L1.
    assert (L2 : val (motor_speed k q i) <= val (c_v1 k)) by (rewrite Vi; rewrite (Rabs_pos_eq (_ - _)) in SB by lra; eapply Rle_trans; [apply (rnd32_le _ (val (c_v1 k))); lra|right; exact R1]).
    assert (L3 : val (f32_mul (f32_div (motor_speed k q i) (spmm c (dominant (Model_Planner.c_steps k)))) (speed_ratio c (Model_Planner.c_steps k))) <= val (f32_mul (f32_div (c_v1 k) (spmm c (dominant (Model_Planner.c_steps k)))) (speed_ratio c (Model_Planner.c_steps k)))) by (apply speed_mono; assumption). rewrite V1, <- Vt1 in L3. change (val (piece_speed c k q i) <= val (through_space c k (c_v1 k))) in L3.
    assert (a <= j)%Z by (apply (Mono (through_space c k (c_v0 k)) (piece_speed c k q i)); try assumption; lra). assert (j <= b)%Z by (apply (Mono (piece_speed c k q i) (through_space c k (c_v1 k))); assumption). lia.
  - pose proof (piece_down c k q Se H F0 F1 B0 B1 Bq' 0 i ltac:(lra) ltac:(lia) ltac:(lia)) as L1.
    assert (L2 : val (c_v1 k) <= val (motor_speed k q i)) by (rewrite Vi; rewrite (Rabs_left (val (c_v1 k) - _)) in SB by lra; eapply Rle_trans; [right; symmetry; exact R1|apply rnd32_le; lra]).
    assert (L3 : val (f32_mul (f32_div (c_v1 k) (spmm c (dominant (Model_Planner.c_steps k)))) (speed_ratio c (Model_Planner.c_steps k))) <= val (f32_mul (f32_div (motor_speed k q i) (spmm c (dominant (Model_Planner.c_steps k)))) (speed_ratio c (Model_Planner.c_steps k)))) by (apply speed_mono; assumption). rewrite V1, <- Vt1 in L3. change (val (through_space c k (c_v1 k)) <= val (piece_speed c k q i)) in L3.
    assert (j <= a)%Z by (apply (Mono (piece_speed c k q i) (through_space c k (c_v0 k))); try assumption; lra). assert (b <= j)%Z by (apply (Mono (through_space c k (c_v1 k)) (piece_speed c k q i)); assumption). lia.
Qed.
Print Assumptions C84_between.
(** The commands of [C84_ramp_example]: 12.5 and 25 mm/s have the colours 0 and 255. *)
Example C84_between_example : match ramp with Move k =>
    map (fun v => color_index (mv_low before) (mv_high before) (through_space (tens true) k v)) [c_v0 k; c_v1 k] = [Ok 0%Z; Ok 255%Z] /\
    (bpow radix2 (-80) <= Rabs (val (c_v1 k) - val (c_v0 k))) | _ => False end.
Proof.
  cbn [ramp to]. split; [vm_compute; reflexivity|]. cbn [c_v0 c_v1]. destruct (f32_of_Z_val 100 ltac:(lia)) as [_ V1]. destruct (f32_of_Z_val 200 ltac:(lia)) as [_ V2]. rewrite V1, V2, Rabs_pos_eq by lra.
  apply Rle_trans with (bpow radix2 0); [apply bpow_le; lia|change (bpow radix2 0) with 1; lra].
Qed.
