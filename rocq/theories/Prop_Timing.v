(** C70: the times between the steps are those of the speeds asked for. *)
From Coq Require Import Reals Lra.
From Flocq Require Import Core.
From Verif Require Import Base Model_Float Model_MotorOps Model_Speed Model_Pru Spec_Real Spec_Motion Spec_Timing
  Proofs_Real Proofs_MotorOps Proofs_Pru Proofs_Timing Proofs_Delay Proofs_Ticks Proofs_Pace Prop_Motion.
Open Scope R_scope.

(** At constant speed every pass takes half a tick more or less than it should, and a
    millionth part of it; no more than 1 million steps per second are made. *)
Theorem C70_constant_speed : forall flip (p : linear_segment ieee_speed) D v,
  asks p v v -> (1 <= D <= 32767)%Z -> / 10 <= v ->
  exists seg l, make_segment flip p D = Ok seg /\ ticks seg = Some l /\ Z.of_nat (length l) = (2 * D)%Z /\
    forall t, In t l -> let exact := clock / (2 * Rmin v 1000000) in Rabs (IZR t - exact) <= / 2 + exact / 4000000.
Proof.
  intros flip p D v Ha HD Hv. destruct (segment_travel flip p D v Ha HD Hv) as (seg & k & E & T & _ & B).
  exists seg, (repeat k (Z.to_nat (2 * D))). rewrite repeat_length. repeat split; auto; [lia|].
  intros t Ht. apply repeat_spec in Ht. now subst t.
Qed.
Print Assumptions C70_constant_speed.

Lemma nth_map : forall l j t, nth_error (map (fun g => (g / 32)%Z) l) j = Some t -> t = (nth j l 0 / 32)%Z /\ (j < length l)%nat.
Proof.
  intros l j t H. assert (J : (j < length (map (fun g => (g / 32)%Z) l))%nat) by (apply nth_error_Some; congruence). rewrite map_length in J.
  split; [|exact J]. apply (nth_error_nth _ _ (0 / 32)%Z) in H. rewrite <- H. exact (map_nth (fun g => (g / 32)%Z) l 0%Z j).
Qed.

(** Speeding up. [j] counts the passes, that is, half steps. Pass [j] is at least as fast as
    the plan a half step before, less 3 %; and not faster than the plan two half steps later
    and 3 % more, but for what rounding the start of the ramp to a whole half step makes:
    at worst as if the square of the speed at the start were [accel] less. *)
Theorem C70_speeding_up : forall flip (p : linear_segment ieee_speed) D v0 v1,
  asks p v0 v1 -> v0 < v1 -> ramp_request v0 v1 D -> 2 * accel_of v0 v1 D <= v0 * v0 ->
  exists seg l, make_segment flip p D = Ok seg /\ ticks seg = Some l /\ Z.of_nat (length l) = (2 * D)%Z /\
    forall j t, nth_error l j = Some t ->
      (97 / 100) ^ 2 * planned_sq v0 v1 D (INR j - 1) <= speed_of (IZR t) ^ 2 /\
      speed_of (IZR t + 1) ^ 2 <= (103 / 100) ^ 2 * planned_sq v0 v1 D (INR j + 2) * (v0 ^ 2 / (v0 ^ 2 - accel_of v0 v1 D)).
Proof.
  intros flip p D v0 v1 Ha Hv Hr H2. destruct (segment_up flip p D v0 v1 Ha Hv Hr) as (seg & n & h & a & s & E & R & T & _).
  eexists seg, _. split; [exact E|]. split; [exact T|]. rewrite map_length, up_passes_length. destruct Hr as [HD H0 H1 HA HB]. split; [lia|].
  assert (D1 : 1 <= IZR D <= 32767) by (split; apply IZR_le; lia).
  assert (Ap : 0 < accel_of v0 v1 D) by (unfold accel_of; apply Rmult_lt_0_compat; [nra|apply Rinv_0_lt_compat; lra]).
  rewrite Rabs_pos_eq in HA by lra. set (A := accel_of v0 v1 D) in *.
  assert (Top : v0 * v0 + A * (2 * IZR D) <= 90000000000). { replace (v0 * v0 + A * (2 * IZR D)) with (v1 * v1) by (unfold A, accel_of; field; lra). nra. }
  intros j t Ht. apply nth_map in Ht. rewrite up_passes_length in Ht. destruct Ht as [-> Hj].
  destruct (up_all _ _ _ _ _ _ _ R ltac:(lia) HA Top) as [_ G]. specialize (G (Z.of_nat j) ltac:(lia)). rewrite Nat2Z.id, <- INR_IZR_INZ in G.
  set (g := nth j (up_passes n h (Z.to_nat (2 * D))) 0%Z) in *. destruct G as (Gb & _ & Gf & Gs).
  pose proof (ro_index _ _ _ _ _ _ _ R) as Ix. apply Rabs_le_inv in Ix. pose proof (ro_range _ _ _ _ _ _ _ R) as Ra.
  assert (EA : 99 / 100 * A <= a <= 101 / 100 * A).
  { pose proof (ro_err _ _ _ _ _ _ _ R) as Er. assert (Q : Rabs (a - A) * 2 <= 2 / 100 * A) by (eapply Rle_trans; [|exact Er]; apply Rmult_le_compat_l; [apply Rabs_pos|lra]).
    assert (Q2 : Rabs (a - A) <= / 100 * A) by lra. apply Rabs_le_inv in Q2. lra. }
  assert (N2 : (2 <= n)%Z). { apply Z.nlt_ge. intros N. assert (N1 : IZR n <= 1) by (apply IZR_le; lia). assert (IZR n * a <= 1 * a) by (apply Rmult_le_compat_r; lra). lra. }
  assert (In : 2 <= IZR n) by (apply IZR_le; lia).
  unfold planned_sq. fold A. assert (J0 : 0 <= INR j) by apply pos_INR. split.
  - replace ((97 / 100) ^ 2) with (9409 / 10000) by field. apply slow_speed; [exact Gb|lra|exact Gs].
  - specialize (Gf ltac:(lia)). set (N := IZR n) in *. set (P := v0 * v0 + A * (INR j + 12 / 10)) in *.
    assert (Gp : 0 < IZR g <= IZR g + 1) by (assert (2304 <= IZR g) by (apply IZR_le; lia); lra).
    destruct (fast_speed g (IZR g) P (966 / 1000 * ((4 * N - 2) / (4 * N + 2))) Gb Gp) as [PP F].
    + apply Rmult_lt_0_compat; [lra|]. apply Rmult_lt_0_compat; [lra|apply Rinv_0_lt_compat; lra].
    + apply Rmult_le_reg_r with (4 * N + 2); [lra|]. replace (966 / 1000 * ((4 * N - 2) / (4 * N + 2)) * (K * K) * (4 * N + 2)) with (966 / 1000 * (K * K) * (4 * N - 2)) by (field; lra). exact Gf.
    + set (S := speed_of (IZR (g / 32) + 1) ^ 2) in *. assert (S0 : 0 <= S) by (unfold S; apply pow2_ge_0).
      replace (v0 ^ 2) with (v0 * v0) by ring. set (q := v0 * v0) in *. set (P2 := q + A * (INR j + 2)).
      assert (PP2 : P <= P2) by (unfold P, P2; nra).
      assert (F1 : 966 / 1000 * (4 * N - 2) * S <= P2 * (4 * N + 2)).
      { apply Rle_trans with (P * (4 * N + 2)); [|apply Rmult_le_compat_r; lra]. apply (Rmult_le_compat_r (4 * N + 2)) in F; [|lra].
        replace (966 / 1000 * ((4 * N - 2) / (4 * N + 2)) * S * (4 * N + 2)) with (966 / 1000 * (4 * N - 2) * S) in F by (field; lra). exact F. }
      assert (QA : 0 < q - A) by lra. apply Rmult_le_reg_r with (q - A); [exact QA|].
      replace ((103 / 100) ^ 2 * P2 * (q / (q - A)) * (q - A)) with (10609 / 10000 * P2 * q) by (field; lra).
      assert (W : (4 * N + 2) * (q - A) <= 10609 / 10000 * (966 / 1000) * (4 * N - 2) * q).
      { assert (L1 : q <= 101 / 100 * A * N + 5353 / 10000 * A) by nra. destruct (Rle_lt_dec q (25 / 10 * A)) as [C|C].
        - assert (0 <= (q - 2 * A) * (N - 2)) by (apply Rmult_le_pos; lra). assert (0 <= (25 / 10 * A - q) * (N - 2)) by (apply Rmult_le_pos; lra). nra.
        - assert (0 <= (101 / 100 * A * N + 5353 / 10000 * A - q) * (q - 25 / 10 * A)) by (apply Rmult_le_pos; lra). apply Rmult_le_reg_l with A; [lra|]. nra. }
      apply Rmult_le_reg_l with (966 / 1000 * (4 * N - 2)); [lra|].
      apply Rle_trans with (P2 * (4 * N + 2) * (q - A)); [rewrite <- Rmult_assoc; apply Rmult_le_compat_r; lra|].
      assert (0 <= P2) by lra. replace (P2 * (4 * N + 2) * (q - A)) with (P2 * ((4 * N + 2) * (q - A))) by ring.
      replace (966 / 1000 * (4 * N - 2) * (10609 / 10000 * P2 * q)) with (P2 * (10609 / 10000 * (966 / 1000) * (4 * N - 2) * q)) by ring. now apply Rmult_le_compat_l.
Qed.
Print Assumptions C70_speeding_up.

(** Speeding up from (nearly) standstill: without that exception. *)
Theorem C70_from_rest : forall flip (p : linear_segment ieee_speed) D v0 v1,
  asks p v0 v1 -> v0 < v1 -> ramp_request v0 v1 D -> v0 * v0 <= 4 / 10 * accel_of v0 v1 D ->
  exists seg l, make_segment flip p D = Ok seg /\ ticks seg = Some l /\ Z.of_nat (length l) = (2 * D)%Z /\
    forall j t, nth_error l j = Some t ->
      (97 / 100) ^ 2 * planned_sq v0 v1 D (INR j - 1) <= speed_of (IZR t) ^ 2 /\
      speed_of (IZR t + 1) ^ 2 <= (103 / 100) ^ 2 * planned_sq v0 v1 D (INR j + 2).
Proof.
  intros flip p D v0 v1 Ha Hv Hr H2. destruct (segment_up flip p D v0 v1 Ha Hv Hr) as (seg & n & h & a & s & E & R & T & _).
  eexists seg, _. split; [exact E|]. split; [exact T|]. rewrite map_length, up_passes_length. destruct Hr as [HD H0 H1 HA HB]. split; [lia|].
  assert (D1 : 1 <= IZR D <= 32767) by (split; apply IZR_le; lia).
  assert (Ap : 0 < accel_of v0 v1 D) by (unfold accel_of; apply Rmult_lt_0_compat; [nra|apply Rinv_0_lt_compat; lra]).
  rewrite Rabs_pos_eq in HA by lra. set (A := accel_of v0 v1 D) in *.
  assert (Top : v0 * v0 + A * (2 * IZR D) <= 90000000000). { replace (v0 * v0 + A * (2 * IZR D)) with (v1 * v1) by (unfold A, accel_of; field; lra). nra. }
  intros j t Ht. apply nth_map in Ht. rewrite up_passes_length in Ht. destruct Ht as [-> Hj].
  destruct (up_all _ _ _ _ _ _ _ R ltac:(lia) HA Top) as [_ G]. specialize (G (Z.of_nat j) ltac:(lia)). rewrite Nat2Z.id, <- INR_IZR_INZ in G.
  set (g := nth j (up_passes n h (Z.to_nat (2 * D))) 0%Z) in *. destruct G as (Gb & Gf & _ & Gs).
  pose proof (ro_index _ _ _ _ _ _ _ R) as Ix. apply Rabs_le_inv in Ix. pose proof (ro_range _ _ _ _ _ _ _ R) as Ra.
  assert (EA : 99 / 100 * A <= a).
  { pose proof (ro_err _ _ _ _ _ _ _ R) as Er. assert (Q : Rabs (a - A) * 2 <= 2 / 100 * A) by (eapply Rle_trans; [|exact Er]; apply Rmult_le_compat_l; [apply Rabs_pos|lra]).
    assert (Q2 : Rabs (a - A) <= / 100 * A) by lra. apply Rabs_le_inv in Q2. lra. }
  assert (N0 : n = 0%Z). { pose proof (ro_n _ _ _ _ _ _ _ R) as Hn. apply Z.le_antisymm; [|lia]. apply Z.nlt_ge. intros N. assert (N1 : 1 <= IZR n) by (apply IZR_le; lia). assert (1 * a <= IZR n * a) by (apply Rmult_le_compat_r; lra). lra. }
  unfold planned_sq. fold A. assert (J0 : 0 <= INR j) by apply pos_INR. split.
  - replace ((97 / 100) ^ 2) with (9409 / 10000) by field. apply slow_speed; [exact Gb|lra|exact Gs].
  - assert (Gp : 0 < IZR g <= IZR g + 1) by (assert (2304 <= IZR g) by (apply IZR_le; lia); lra).
    destruct (fast_speed g (IZR g) (v0 * v0 + A * (INR j + 12 / 10)) (966 / 1000) Gb Gp ltac:(lra) (Gf N0)) as [PP F]. nra.
Qed.
Print Assumptions C70_from_rest.

(** From whatever speed: never slower than that, and never faster than the square root of 3
    times that. *)
Theorem C70_any_start : forall flip (p : linear_segment ieee_speed) D v0 v1,
  asks p v0 v1 -> v0 < v1 -> ramp_request v0 v1 D ->
  exists seg l, make_segment flip p D = Ok seg /\ ticks seg = Some l /\ Z.of_nat (length l) = (2 * D)%Z /\
    forall j t, nth_error l j = Some t ->
      (97 / 100) ^ 2 * planned_sq v0 v1 D (INR j - 1) <= speed_of (IZR t) ^ 2 /\
      speed_of (IZR t + 1) ^ 2 <= 3 * (103 / 100) ^ 2 * planned_sq v0 v1 D (INR j + 2).
Proof.
  intros flip p D v0 v1 Ha Hv Hr. destruct (segment_up flip p D v0 v1 Ha Hv Hr) as (seg & n & h & a & s & E & R & T & _).
  eexists seg, _. split; [exact E|]. split; [exact T|]. rewrite map_length, up_passes_length. destruct Hr as [HD H0 H1 HA HB]. split; [lia|].
  assert (D1 : 1 <= IZR D <= 32767) by (split; apply IZR_le; lia).
  assert (Ap : 0 < accel_of v0 v1 D) by (unfold accel_of; apply Rmult_lt_0_compat; [nra|apply Rinv_0_lt_compat; lra]).
  rewrite Rabs_pos_eq in HA by lra. set (A := accel_of v0 v1 D) in *.
  assert (Top : v0 * v0 + A * (2 * IZR D) <= 90000000000). { replace (v0 * v0 + A * (2 * IZR D)) with (v1 * v1) by (unfold A, accel_of; field; lra). nra. }
  intros j t Ht. apply nth_map in Ht. rewrite up_passes_length in Ht. destruct Ht as [-> Hj].
  destruct (up_all _ _ _ _ _ _ _ R ltac:(lia) HA Top) as [_ G]. specialize (G (Z.of_nat j) ltac:(lia)). rewrite Nat2Z.id, <- INR_IZR_INZ in G.
  set (g := nth j (up_passes n h (Z.to_nat (2 * D))) 0%Z) in *. destruct G as (Gb & Gf0 & Gf & Gs).
  pose proof (ro_n _ _ _ _ _ _ _ R) as Hn. assert (J0 : 0 <= INR j) by apply pos_INR.
  assert (Gp : 0 < IZR g <= IZR g + 1) by (assert (2304 <= IZR g) by (apply IZR_le; lia); lra).
  unfold planned_sq. fold A. split; [replace ((97 / 100) ^ 2) with (9409 / 10000) by field; apply slow_speed; [exact Gb|lra|exact Gs]|]. destruct (Z.eq_dec n 0) as [N0|N0].
  - destruct (fast_speed g (IZR g) (v0 * v0 + A * (INR j + 12 / 10)) (966 / 1000) Gb Gp ltac:(lra) (Gf0 N0)) as [PP F]. nra.
  - specialize (Gf ltac:(lia)). assert (In : 1 <= IZR n) by (apply IZR_le; lia). set (N := IZR n) in *. set (P := v0 * v0 + A * (INR j + 12 / 10)) in *.
    destruct (fast_speed g (IZR g) P (322 / 1000) Gb Gp ltac:(lra)) as [PP F]; [|unfold P in *; nra].
    apply Rmult_le_reg_r with (4 * N + 2); [lra|]. eapply Rle_trans; [|exact Gf]. assert (0 <= K * K) by apply sq_pos. nra.
Qed.
Print Assumptions C70_any_start.

(** Slowing down. *)
Theorem C70_slowing_down : forall flip (p : linear_segment ieee_speed) D v0 v1,
  asks p v0 v1 -> v1 < v0 -> ramp_request v0 v1 D ->
  exists seg l, make_segment flip p D = Ok seg /\ ticks seg = Some l /\ Z.of_nat (length l) = (2 * D)%Z /\
    forall j t, nth_error l j = Some t ->
      (97 / 100) ^ 2 * planned_sq v0 v1 D (INR j + 2) <= speed_of (IZR t) ^ 2 /\
      speed_of (IZR t + 1) ^ 2 <= (103 / 100) ^ 2 * planned_sq v0 v1 D (INR j - 1).
Proof.
  intros flip p D v0 v1 Ha Hv Hr. destruct (segment_down flip p D v0 v1 Ha Hv Hr) as (seg & n & h & a & s & E & R & Hn & T & _).
  eexists seg, _. split; [exact E|]. split; [exact T|]. rewrite map_length. unfold down_passes at 1. rewrite along_length. destruct Hr as [HD H0 H1 HA HB]. split; [lia|].
  assert (D1 : 1 <= IZR D <= 32767) by (split; apply IZR_le; lia).
  assert (Ap : accel_of v0 v1 D < 0). { replace (accel_of v0 v1 D) with (- ((v0 * v0 - v1 * v1) * / (2 * IZR D))) by (unfold accel_of; field; lra). apply Ropp_lt_gt_0_contravar, Rmult_lt_0_compat; [nra|apply Rinv_0_lt_compat; lra]. }
  rewrite Rabs_left in HA by lra. set (A := accel_of v0 v1 D) in *.
  intros j t Ht. apply nth_map in Ht. unfold down_passes in Ht at 2. rewrite along_length in Ht. destruct Ht as [-> Hj].
  destruct (down_all _ _ _ _ _ _ _ R ltac:(lia) HA ltac:(nra) Hn) as [_ G]. specialize (G (Z.of_nat j) ltac:(lia)). rewrite Nat2Z.id, <- INR_IZR_INZ in G.
  set (g := nth j (down_passes n h (Z.to_nat (2 * D))) 0%Z) in *. destruct G as (Gb & Gf & Gs).
  unfold planned_sq. fold A. assert (J0 : 0 <= INR j) by apply pos_INR. split.
  - replace ((97 / 100) ^ 2) with (9409 / 10000) by field. apply slow_speed; [lia|lra|]. replace (v0 * v0 + A * (INR j + 2)) with (v0 * v0 - - A * (INR j + 2)) by ring. exact Gs.
  - assert (Gp : 0 < IZR g + 1 <= IZR g + 1) by (assert (2304 <= IZR g) by (apply IZR_le; lia); lra).
    destruct (fast_speed g (IZR g + 1) (v0 * v0 - - A * (INR j - 2 / 10)) (966 / 1000) ltac:(lia) Gp ltac:(lra) Gf) as [PP F]. nra.
Qed.
Print Assumptions C70_slowing_down.

(** Such segments make exactly the steps asked for: the delay that would end them early
    (C32, [no_stop]) does not come up. *)
Theorem C70_steps_exact : forall mirrored (p : linear_segment ieee_speed) D v0 v1,
  D = get_defining_axis_steps (ls_steps p) -> asks p v0 v1 ->
  (v0 <> v1 /\ ramp_request v0 v1 D \/ v0 = v1 /\ / 10 <= v0 /\ (1 <= D <= 32767)%Z) ->
  exists seg, make_segment mirrored p D = Ok seg /\
    forall m level_before, pru_signed_steps level_before seg m = Some (if mirrored m then (- ls_steps p m)%Z else ls_steps p m).
Proof.
  intros mirrored p D v0 v1 HD Ha H.
  assert (Q : exists seg, make_segment mirrored p D = Ok seg /\ no_stop seg /\ (1 <= D <= 32767)%Z).
  { destruct H as [[N Hr]|(<- & Hv & HB)].
    - pose proof (rr_steps _ _ _ Hr). destruct (Rle_lt_dec v0 v1) as [L|L].
      + destruct (segment_up mirrored p D v0 v1 Ha ltac:(lra) Hr) as (seg & n & h & a & s & E & _ & _ & S). eauto.
      + destruct (segment_down mirrored p D v0 v1 Ha L Hr) as (seg & n & h & a & s & E & _ & _ & _ & S). eauto.
    - destruct (segment_travel mirrored p D v0 Ha HB Hv) as (seg & k & E & _ & S & _). eauto. }
  destruct Q as (seg & E & S & HB). exists seg. split; [exact E|]. intros m level. exact (C32_pulses_exact _ mirrored p D seg HD HB E S m level).
Qed.
Print Assumptions C70_steps_exact.

(** ** Concrete requests *)
Lemma ex_asks : forall a b c v0 v1, (v0 = 0 \/ v0 = 300 \/ v0 = 1000 \/ v0 = 2000 \/ v0 = 100000)%Z -> (v1 = 0 \/ v1 = 1000 \/ v1 = 2000 \/ v1 = 100001)%Z ->
  asks (ex_move v0 v1 a b c) (IZR v0) (IZR v1).
Proof.
  intros a b c v0 v1 H0 H1. unfold asks, ex_move. cbn [ls_v0 ls_v1].
  assert (Q : forall v, (v = 0 \/ v = 300 \/ v = 1000 \/ v = 2000 \/ v = 100000 \/ v = 100001)%Z -> fin32 (f32_of_f64 (f32_of_Z v)) /\ val (f32_of_f64 (f32_of_Z v)) = IZR v).
  { intros v Hv. destruct (f32_of_Z_val v ltac:(lia)) as [F V]. assert (E : f32_of_f64 (f32_of_Z v) = f32_of_Z v) by (repeat destruct Hv as [->|Hv]; [..|subst v]; vm_compute; reflexivity). rewrite E. auto. }
  destruct (Q v0 ltac:(lia)) as [F0 V0]. destruct (Q v1 ltac:(lia)) as [F1 V1]. auto.
Qed.

Ltac accel := unfold accel_of; match goal with |- context [Rabs ?x] => let y := fresh in set (y := x); assert (y <= -10 \/ 10 <= y) by (unfold y; lra); unfold Rabs; destruct (Rcase_abs y); unfold y in *; lra end.

Example C70_example_request : ramp_request 1000 2000 20 /\ 2 * accel_of 1000 2000 20 <= 1000 * 1000 /\ ramp_request 2000 1000 20 /\ ramp_request 2000 0 20 /\
  ramp_request 0 2000 20 /\ 0 * 0 <= 4 / 10 * accel_of 0 2000 20.
Proof. repeat split; try lia; try lra; try accel; unfold accel_of; lra. Qed.

(** In ticks, every fifth pass. The plan from 1000 to 2000 steps per second would begin at 50000 and end at 25000. *)
Definition ex_ticks (v0 v1 d : Z) : list Z :=
  match ticks (ex_segment v0 v1 d 0 0) with Some l => map (fun i => nth i l 0%Z) [0; 10; 20; 30; 39]%nat | None => [] end.
Example C70_example_ticks :
  (ex_ticks 1000 2000 20, ex_ticks 2000 1000 20, ex_ticks 0 2000 20, ex_ticks 2000 0 20) =
  ([47823; 36249; 30361; 26643; 24252], [25197; 28005; 32025; 38489; 49686], [213785; 48793; 34923; 28632; 25160], [25158; 29111; 35805; 51291; 213769])%Z.
Proof. vm_compute. reflexivity. Qed.
Example C70_example_constant : ticks (ex_segment 2000 2000 3 0 0) = Some [25000; 25000; 25000; 25000; 25000; 25000]%Z.
Proof. vm_compute. reflexivity. Qed.

(** ** What goes wrong *)

(** From 300 to 2000 steps per second in 20 steps: the index of the start is rounded to 1,
    and all the ramp is as if it had started faster. The end is 60 % too fast. *)
Theorem C70_overshoot_refuted : exists (p : linear_segment ieee_speed) seg l t,
  asks p 300 2000 /\ ramp_request 300 2000 20 /\ make_segment ex_flip p 20 = Ok seg /\ ticks seg = Some l /\
  nth_error l 39 = Some t /\ speed_of (IZR t) > 16 / 10 * 2000.
Proof.
  assert (E : exists l, ticks (ex_segment 300 2000 20 0 0) = Some l /\ nth_error l 39 = Some 15398%Z) by (eexists; split; vm_compute; reflexivity).
  destruct E as (l & E & N).
  exists (ex_move 300 2000 20 0 0), (ex_segment 300 2000 20 0 0), l, 15398%Z.
  split; [apply ex_asks; lia|]. split; [constructor; try lia; try lra; try accel|]. split; [apply (ex_segment_ok 300 2000 20 0 0); vm_compute; reflexivity|].
  split; [exact E|]. split; [exact N|]. unfold speed_of, clock. lra.
Qed.
Print Assumptions C70_overshoot_refuted.

Lemma first_pass : forall k fr ms t c d, t_ok t -> t_loops t = Z.of_nat k -> (0 < t_loops t)%Z -> fst (calculate_delay t) = d -> (2 < d < 2 ^ 32)%Z ->
  exists first rest, step_gen (S k) fr ms t c = Some (first :: rest) /\ pl_delay first = (d - 2)%Z.
Proof.
  intros k fr ms t c d T L P E B. cbn [step_gen]. destruct (calculate_delay_step t T P) as [T1 L1].
  destruct (calculate_delay t) as [d' t']. cbn [fst snd] in *. subst d'. replace (d =? 0)%Z with false by lia.
  destruct k as [|k]; [lia|]. destruct (step_gen_total fr k (fun m => u32 (ms m + fr m)) t' (c - 1)%Z T1 ltac:(lia)) as (ls & El & _). rewrite El.
  do 2 eexists. split; [reflexivity|]. cbn [pl_delay]. change (4 / 2)%Z with 2%Z. assert (U : u32 (d - 2) = (d - 2)%Z) by (unfold u32; apply Z.mod_small; lia). rewrite U. replace (d - 2 =? 0)%Z with false by lia. reflexivity.
Qed.

(** From 100000 to 100001 steps per second in 1000 steps, a slow change that [rr_before]
    excludes: the difference of two square roots is 0 in floats, so is the delay, and
    taking off what the pass needs makes it 43 seconds. *)
Theorem C70_stall_refuted : exists (p : linear_segment ieee_speed) seg first rest,
  asks p 100000 100001 /\ make_segment ex_flip p 1000 = Ok seg /\ pru_execute seg = Some (first :: rest) /\ IZR (pl_delay first) > 42 * clock.
Proof.
  exists (ex_move 100000 100001 1000 0 0), (ex_segment 100000 100001 1000 0 0).
  set (seg := ex_segment 100000 100001 1000 0 0).
  assert (M : make_segment ex_flip (ex_move 100000 100001 1000 0 0) 1000 = Ok seg) by (apply (ex_segment_ok 100000 100001 1000 0 0); vm_compute; reflexivity).
  assert (B : total_loops seg = 2000%Z) by (vm_compute; reflexivity).
  assert (T : t_ok (travel_of seg) /\ t_loops (travel_of seg) = 2000%Z) by (unfold t_ok; vm_compute; repeat split; congruence).
  assert (C : fst (calculate_delay (travel_of seg)) = 4294967227%Z) by (vm_compute; reflexivity).
  destruct (first_pass (Z.to_nat 2000) (ms_fractions seg) (fun _ => 0%Z) (travel_of seg) 2000 4294967227 (proj1 T) (eq_trans (proj2 T) (eq_sym (Z2Nat.id 2000 ltac:(lia)))) ltac:(lia) C ltac:(lia)) as (first & rest & E & F).
  exists first, rest. split; [apply ex_asks; lia|]. split; [exact M|]. split; [|rewrite F; change (4294967227 - 2)%Z with 4294967225%Z; unfold clock; lra].
  unfold pru_execute. rewrite B. replace (Z.to_nat (2000 + 1)) with (S (Z.to_nat 2000)) by lia. exact E.
Qed.
Print Assumptions C70_stall_refuted.
