(** From the request to the times of the passes. *)
From Coq Require Import Reals Lra.
From Flocq Require Import Core.
From Verif Require Import Base Model_Float Model_MotorOps Model_Speed Model_Pru Spec_Real Proofs_Real Spec_Motion Proofs_MotorOps Proofs_Pru Proofs_Law Proofs_Timing Proofs_Delay Proofs_Ticks Spec_Timing.
Open Scope Z_scope.

(** ** The passes as integers *)
Definition up_passes (n h : Z) (k : nat) : list Z :=
  match k with O => [] | S k' => if n =? 0 then h :: along up_next k' (1, h, 0) else along up_next k (n, h, 0) end.
Definition down_passes (n h : Z) (k : nat) : list Z := along down_next k (n, h, 0).

Lemma up_passes_length : forall n h k, length (up_passes n h k) = k.
Proof. intros n h [|k]; [reflexivity|]. cbn [up_passes]. destruct (n =? 0); [|apply along_length]. cbn [length]. now rewrite along_length. Qed.

Lemma iter_bounds : forall i n h r, 1 <= n -> 0 <= h -> 0 <= r < ux n -> 0 <= hires_of (Nat.iter i up_next (n, h, r)) <= h.
Proof.
  induction i as [|i IH]; intros n h r Hn Hh Hr; [unfold hires_of; cbn; lia|].
  rewrite <- iter_r. pose proof (up_next_bounds n h r Hn Hh Hr) as B. pose proof (up_eq n h r Hn) as E.
  destruct (up_next (n, h, r)) as [[n' h'] r']. unfold hires_of in B. cbn [fst snd] in B. destruct E as (_ & R & ->).
  specialize (IH (n + 1) h' r' ltac:(lia) ltac:(lia) R). lia.
Qed.

Lemma up_passes_high : forall n h k, 0 <= n -> 0 <= h -> Forall (fun g => g <= h) (up_passes n h k).
Proof.
  intros n h k Hn Hh. apply Forall_forall. intros g Hg. destruct (In_nth _ _ 0 Hg) as (i & Hi & <-). rewrite up_passes_length in Hi.
  destruct k as [|k]; [lia|]. cbn [up_passes]. destruct (Z.eqb_spec n 0) as [E|E].
  - destruct i as [|i]; cbn [nth]; [lia|]. rewrite along_nth by lia. apply iter_bounds; unfold ux; lia.
  - rewrite along_nth by lia. apply iter_bounds; unfold ux; lia.
Qed.

Lemma delays_ramp_up : forall k t, t_ok t -> t_accel t = Z.of_nat k -> t_travel t = 0 -> t_decel t = 0 ->
  0 <= t_series t -> t_series t + Z.of_nat k < 2 ^ 29 -> 0 <= t_hires t < 2 ^ 30 -> t_rem t = 0 ->
  delays k t = map (fun h => u32 (h / 32 - 69)) (up_passes (t_series t) (t_hires t) k).
Proof.
  intros [|k] t Ht Ha Htr Hd Hn Hn2 Hh Hr; [reflexivity|]. cbn [up_passes]. destruct (Z.eqb_spec (t_series t) 0) as [E|E].
  - destruct (calculate_delay_step t Ht ltac:(unfold t_loops; lia)) as [Ht' Hl'].
    assert (Q : calculate_delay t = (u32 (t_hires t / 32 - 69),
      {| t_accel := Z.of_nat k; t_travel := 0; t_decel := 0; t_series := 1; t_hires := t_hires t; t_travel_delay := t_travel_delay t; t_rem := 0 |})).
    { unfold calculate_delay. rewrite Ha, Htr, Hd, E, Hr. replace (Z.of_nat (S k) =? 0) with false by lia. cbn [negb Z.eqb].
      assert (U7 : u16 (Z.of_nat (S k) - 1) = Z.of_nat k) by (rewrite u16_pred; [lia|unfold t_ok in Ht; lia]). rewrite U7. reflexivity. }
    cbn [delays map]. rewrite Q in *. cbn [fst snd] in *. f_equal.
    rewrite delays_up; cbn [t_accel t_travel t_decel t_series t_hires t_rem]; try assumption; try (unfold ux; lia). reflexivity.
  - rewrite delays_up; try assumption; try lia; [now rewrite Hr|]. rewrite Hr. unfold ux. lia.
Qed.

Lemma map_removelast : forall (A B : Type) (f : A -> B) l, map f (removelast l) = removelast (map f l).
Proof. intros A B f. induction l as [|a [|b l] IH]; [reflexivity|reflexivity|]. change (removelast (a :: b :: l)) with (a :: removelast (b :: l)). cbn [map]. rewrite IH. reflexivity. Qed.

Lemma ticks_of : forall s ds, t_ok (travel_of s) -> delays (Z.to_nat (total_loops s)) (travel_of s) = ds -> Forall (fun d => 2 < d < 2 ^ 32) ds ->
  ticks s = Some (map (fun d => d - 2 + overhead s) ds) /\ no_stop s.
Proof.
  intros s ds Ht E F. subst ds. assert (L : 0 <= total_loops s) by (unfold t_ok, travel_of, total_loops in *; cbn in *; lia). split.
  - unfold ticks, pru_execute.
    destruct (step_gen_delays (Z.to_nat (total_loops s)) (ms_fractions s) (fun _ => 0) (travel_of s) (total_loops s) Ht) as (ls & E & M).
    + unfold t_loops, total_loops, travel_of in *. cbn in *. lia.
    + exact F.
    + replace (Z.to_nat (total_loops s + 1)) with (S (Z.to_nat (total_loops s))) by lia. rewrite E. f_equal.
      rewrite <- (map_map pl_delay (fun d => d + overhead s)), map_removelast, M, removelast_last, map_map. reflexivity.
  - unfold no_stop. change (seg_loops s) with (total_loops s). intros I. rewrite Forall_forall in F. specialize (F 0 I). lia.
Qed.

Lemma ticks_up : forall s D n h, 1 <= D <= 32767 -> ms_loops_accel s = 2 * D -> ms_loops_travel s = 0 -> ms_loops_decel s = 0 ->
  ms_accel_series_index s = n -> ms_hires_accel_cycles s = h -> 0 <= n <= 66000 -> 0 <= h < 2 ^ 30 ->
  Forall (fun g => 2304 <= g) (up_passes n h (Z.to_nat (2 * D))) ->
  ticks s = Some (map (fun g => g / 32) (up_passes n h (Z.to_nat (2 * D)))) /\ no_stop s.
Proof.
  intros s D n h HD La Lt Ld En Eh Hn Hh F.
  assert (T : t_ok (travel_of s)) by (unfold t_ok, travel_of; cbn; lia).
  assert (L : total_loops s = 2 * D) by (unfold total_loops; lia).
  pose proof (up_passes_high n h (Z.to_nat (2 * D)) ltac:(lia) ltac:(lia)) as F2.
  assert (G : forall g, In g (up_passes n h (Z.to_nat (2 * D))) -> u32 (g / 32 - 69) = g / 32 - 69 /\ 72 <= g / 32 < 2 ^ 30).
  { intros g Hg. rewrite Forall_forall in F, F2. specialize (F g Hg). specialize (F2 g Hg). cbn beta in *.
    assert (72 <= g / 32) by (apply Z.div_le_lower_bound; lia). assert (g / 32 < 2 ^ 30) by (apply Z.div_lt_upper_bound; lia). split; [unfold u32; apply Z.mod_small|]; lia. }
  destruct (ticks_of s (map (fun h => u32 (h / 32 - 69)) (up_passes n h (Z.to_nat (2 * D)))) T) as [Q N].
  - rewrite L, delays_ramp_up; cbn [travel_of t_accel t_travel t_decel t_series t_hires t_rem]; try assumption; try lia. now rewrite En, Eh.
  - apply Forall_map, Forall_forall. intros g Hg. destruct (G g Hg) as [-> ?]. lia.
  - split; [|exact N]. rewrite Q, map_map. f_equal. apply map_ext_in. intros g Hg. destruct (G g Hg) as [-> ?].
    unfold overhead. rewrite La. replace (0 <? 2 * D) with true by lia. change ((129 + 9) / 2) with 69. lia.
Qed.

Lemma ticks_down : forall s D n h, 1 <= D <= 32767 -> ms_loops_accel s = 0 -> ms_loops_travel s = 0 -> ms_loops_decel s = 2 * D ->
  ms_accel_series_index s = n -> ms_hires_accel_cycles s = h -> 2 * D <= n <= 66000 -> 0 <= h < 2 ^ 30 ->
  Forall (fun g => 2336 <= g < 2 ^ 30) (down_passes n h (Z.to_nat (2 * D))) ->
  ticks s = Some (map (fun g => g / 32) (down_passes n h (Z.to_nat (2 * D)))) /\ no_stop s.
Proof.
  intros s D n h HD La Lt Ld En Eh Hn Hh F.
  assert (T : t_ok (travel_of s)) by (unfold t_ok, travel_of; cbn; lia).
  assert (L : total_loops s = 2 * D) by (unfold total_loops; lia).
  assert (G : forall g, In g (down_passes n h (Z.to_nat (2 * D))) -> u32 (g / 32 - 70) = g / 32 - 70 /\ 73 <= g / 32 < 2 ^ 30).
  { intros g Hg. rewrite Forall_forall in F. specialize (F g Hg). cbn beta in *.
    assert (73 <= g / 32) by (apply Z.div_le_lower_bound; lia). assert (g / 32 < 2 ^ 30) by (apply Z.div_lt_upper_bound; lia). split; [unfold u32; apply Z.mod_small|]; lia. }
  destruct (ticks_of s (map (fun h => u32 (h / 32 - 70)) (down_passes n h (Z.to_nat (2 * D)))) T) as [Q N].
  - rewrite L, delays_down; cbn [travel_of t_accel t_travel t_decel t_series t_hires t_rem]; try assumption; try lia.
    + now rewrite En, Eh.
    + unfold dx. lia.
    + rewrite En, Eh. eapply Forall_impl; [|exact F]. cbn. lia.
  - apply Forall_map, Forall_forall. intros g Hg. destruct (G g Hg) as [-> ?]. lia.
  - split; [|exact N]. rewrite Q, map_map. f_equal. apply map_ext_in. intros g Hg. destruct (G g Hg) as [-> ?].
    unfold overhead. rewrite La, Lt. cbn [Z.ltb Z.compare]. change ((129 + 11) / 2) with 70. lia.
Qed.

Lemma delays_on_way : forall k t, t_ok t -> t_accel t = 0 -> t_decel t = 0 -> t_travel t = Z.of_nat k ->
  delays k t = repeat (u32 (t_travel_delay t - 2)) k.
Proof.
  induction k as [|k IH]; intros t Ht Ha Hd Hl; [reflexivity|]. cbn [delays repeat].
  destruct (calculate_delay_step t Ht ltac:(unfold t_loops; lia)) as [Ht' Hl'].
  assert (E : calculate_delay t = (u32 (t_travel_delay t - 2), {| t_accel := 0; t_travel := Z.of_nat k; t_decel := 0; t_series := t_series t; t_hires := t_hires t; t_travel_delay := t_travel_delay t; t_rem := t_rem t |})).
  { unfold calculate_delay. rewrite Ha, Hd, Hl. replace (Z.of_nat (S k) =? 0) with false by lia. cbn [negb Z.eqb].
    assert (U7 : u16 (Z.of_nat (S k) - 1) = Z.of_nat k) by (rewrite u16_pred; [lia|unfold t_ok in Ht; lia]). rewrite U7. reflexivity. }
  rewrite E in *. cbn [fst snd] in *. f_equal. rewrite IH; cbn; auto.
Qed.

Lemma ticks_on_way : forall s D c, 1 <= D <= 32767 -> ms_loops_accel s = 0 -> ms_loops_travel s = 2 * D -> ms_loops_decel s = 0 ->
  ms_travel_delay_cycles s = c -> 4 < c < 2 ^ 32 -> ticks s = Some (repeat c (Z.to_nat (2 * D))) /\ no_stop s.
Proof.
  intros s D c HD La Lt Ld Ec Hc. assert (T : t_ok (travel_of s)) by (unfold t_ok, travel_of; cbn; lia).
  assert (L : total_loops s = 2 * D) by (unfold total_loops; lia).
  assert (U : u32 (c - 2) = c - 2) by (unfold u32; apply Z.mod_small; lia).
  destruct (ticks_of s (repeat (c - 2) (Z.to_nat (2 * D))) T) as [Q N].
  - rewrite L, delays_on_way; cbn [travel_of t_accel t_travel t_decel t_travel_delay]; try assumption; try lia. now rewrite Ec, U.
  - apply Forall_forall. intros d Hd. apply repeat_spec in Hd. lia.
  - split; [|exact N]. rewrite Q. f_equal. unfold overhead. rewrite La, Lt. cbn [Z.ltb Z.compare]. replace (0 <? 2 * D) with true by lia. change (4 / 2) with 2.
    generalize (Z.to_nat (2 * D)) as k. induction k as [|k IH]; [reflexivity|]. cbn [repeat map]. rewrite IH. f_equal. lia.
Qed.

(** ** The passes against the plan *)
Open Scope R_scope.

Lemma start_big : forall X A D n h a s, ramp_ok X A D n h a s -> (1 <= n)%Z -> X * X <= 90000000000 -> (2336 <= h < 2 ^ 30)%Z.
Proof.
  intros X A D n h a s R Hn HX. destruct (start_sq _ _ _ _ _ _ _ R Hn) as [S _]. pose proof (ro_index _ _ _ _ _ _ _ R) as Ix. apply Rabs_le_inv in Ix.
  pose proof (ro_range _ _ _ _ _ _ _ R) as Ra. assert (Ph : 0 <= IZR h) by (apply IZR_le; apply (ro_h _ _ _ _ _ _ _ R)).
  assert (In : 1 <= IZR n) by (apply IZR_le; lia).
  split.
  - apply le_IZR. unfold K in S. assert (B : a * (4 * IZR n + 2) <= 600000000000) by lra.
    assert (Q : IZR h * IZR h * (a * (4 * IZR n + 2)) <= IZR h * IZR h * 600000000000) by (apply Rmult_le_compat_l; nra). rewrite Rmult_assoc in S. nra.
  - apply lt_IZR. change (IZR (2 ^ 30)) with 1073741824. destruct (ro_more _ _ _ _ _ _ _ R Hn) as [_ U]. pose proof (ro_s _ _ _ _ _ _ _ R) as Ps. pose proof (ro_a _ _ _ _ _ _ _ R) as Ea.
    assert (S3 : 3 <= s) by nra.
    assert (T : 2 <= sqrt (IZR (n + 1)) + sqrt (IZR n)).
    { assert (1 <= sqrt (IZR n)) by (rewrite <- sqrt_1; apply sqrt_le_1_alt; lra). assert (1 <= sqrt (IZR (n + 1))) by (rewrite <- sqrt_1; apply sqrt_le_1_alt; rewrite plus_IZR; lra). lra. }
    set (t := sqrt (IZR (n + 1)) + sqrt (IZR n)) in *. assert (IZR h * 6 <= IZR h * s * t) by (rewrite Rmult_assoc; apply Rmult_le_compat_l; nra). unfold K in U. lra.
Qed.

Section UpAll.
Variables (X A a s : R) (D n h : Z).
Hypothesis R : ramp_ok X A D n h a s.
Hypothesis HD : (1 <= D)%Z.
Hypothesis HA : 10 <= A.
Hypothesis Top : X * X + A * (2 * IZR D) <= 90000000000.
Let X2 : 0 <= X * X. Proof. nra. Qed.
Let D1 : 1 <= IZR D. Proof. apply IZR_le; lia. Qed.

Lemma top_low : X * X <= 90000000000.
Proof. pose proof X2. pose proof D1. nra. Qed.
Lemma top_next : forall j, (0 <= j < 2 * D)%Z -> 4 * (X * X + A * (IZR j + 12 / 10)) <= 396000000000.
Proof. intros j Hj. pose proof (idx_j D j Hj) as Ij. pose proof X2. pose proof D1. assert (A * 2 <= A * (2 * IZR D)) by (apply Rmult_le_compat_l; lra). assert (A * (IZR j + 12 / 10) <= A * (2 * IZR D + 2 / 10)) by (apply Rmult_le_compat_l; lra). lra. Qed.

Lemma up_more : (1 <= n)%Z -> forall j, (0 <= j < 2 * D)%Z -> let g := hires_of (Nat.iter (S (Z.to_nat j)) up_next (n, h, 0%Z)) in
  (2304 <= g)%Z /\
  966 / 1000 * (K * K) * (4 * IZR n - 2) <= 4 * (IZR g * IZR g) * (X * X + A * (IZR j + 12 / 10)) * (4 * IZR n + 2) /\
  ((2 <= n)%Z -> 4 * (IZR g * IZR g) * (X * X + A * (IZR j - 1)) * (9409 / 10000) <= K * K).
Proof.
  intros Hn j Hj g. pose proof (start_big _ _ _ _ _ _ _ R Hn top_low) as Hb.
  destruct (up_run n h 0 (Z.to_nat (2 * D)) Hn ltac:(unfold ux; lia) ltac:(lia)) with (i := S (Z.to_nat j)) as (O & E & B).
  - intros i Hi. rewrite Z.sub_0_r. assert (Hi2 : (0 <= i - 1 < 2 * D)%Z) by lia. pose proof (top_next _ Hi2) as Tn.
    apply le_IZR.
    destruct (start_sq _ _ _ _ _ _ _ R Hn) as [S _]. pose proof (ro_index _ _ _ _ _ _ _ R) as Ix. apply Rabs_le_inv in Ix.
    pose proof (ro_range _ _ _ _ _ _ _ R) as Ra. pose proof (idx_j D _ Hi2) as Ij. assert (In : 1 <= IZR n) by (apply IZR_le; lia).
    assert (Dr : Rabs (a * (IZR (i - 1) + 1) - A * (IZR (i - 1) + 1)) <= 4 / 100 * A) by (apply (drift _ _ _ _ _ _ _ _ R HD HA); lra). apply Rabs_le_inv in Dr.
    assert (EA : a <= 104 / 100 * A). { assert (Q : Rabs (a * 1 - A * 1) <= 4 / 100 * A) by (apply (drift _ _ _ _ _ _ _ _ R HD HA); pose proof D1; lra). apply Rabs_le_inv in Q. lra. }
    assert (Xv : IZR (ux (n + i)) = 4 * IZR n + 4 * IZR (i - 1) + 1) by (unfold ux; repeat (rewrite ?minus_IZR, ?mult_IZR, ?plus_IZR); ring).
    assert (X0v : IZR (ux n) = 4 * IZR n - 3) by (unfold ux; repeat (rewrite ?minus_IZR, ?mult_IZR); reflexivity).
    repeat (rewrite ?mult_IZR, ?plus_IZR, ?minus_IZR). rewrite Xv, X0v. set (N := IZR n) in *. set (J := IZR (i - 1)) in *. set (H := IZR h) in *. set (xx := 4 * N + 4 * J + 1) in *.
    assert (X5 : 5 <= xx) by (unfold xx; lra). assert (Xq : xx * xx <= (xx + 5 / 4) * (xx - 1)) by nra.
    assert (B : a * (xx + 5 / 4) <= 396000000000) by (eapply Rle_trans; [|exact Tn]; unfold xx; lra).
    replace (4 * N - 3 + 1) with (4 * N - 2) by ring. assert (HH : 0 <= H * H) by nra.
    assert (S2 : 322 / 1000 * (K * K) <= H * H * a * (4 * N - 2)). { assert (H * H * a * (4 * N + 2) <= H * H * a * (3 * (4 * N - 2))) by (apply Rmult_le_compat_l; nra). lra. }
    assert (M : 5308416 * (xx + 5 / 4) <= H * H * (4 * N - 2)).
    { apply Rmult_le_reg_l with a; [lra|]. replace (a * (H * H * (4 * N - 2))) with (H * H * a * (4 * N - 2)) by ring. eapply Rle_trans; [|exact S2]. unfold K. lra. }
    apply Rle_trans with (H * H * (4 * N - 2) * (xx - 1) * ((4 * N - 3) * (4 * N - 3))).
    + apply Rmult_le_compat_r; [nra|]. change (IZR 2304 * IZR 2304) with (2304 * 2304). replace (2304 * 2304) with 5308416 by lra.
      apply Rle_trans with (5308416 * ((xx + 5 / 4) * (xx - 1))); [apply Rmult_le_compat_l; lra|]. rewrite <- Rmult_assoc. apply Rmult_le_compat_r; lra.
    + change (IZR 1) with 1. assert (0 <= (4 * N - 3) * H * ((4 * N - 3) * H)) by nra. replace (H * H * (4 * N - 2) * (xx - 1) * ((4 * N - 3) * (4 * N - 3))) with ((4 * N - 3) * H * ((4 * N - 3) * H) * ((xx - 1) * (4 * N - 2))) by ring. apply Rmult_le_compat_l; lra.
  - lia.
  - fold g in B. split; [exact B|]. rewrite Z.sub_0_r in O. replace (n + Z.of_nat (S (Z.to_nat j)))%Z with (n + (j + 1))%Z in E by lia. split.
    + apply (up_fast _ _ _ _ _ _ _ R HD HA j g Hj Hn ltac:(lia)). exact (up_low _ _ _ _ _ O ltac:(unfold ux; lia) E).
    + intros H2. apply (up_slow _ _ _ _ _ _ _ R HD HA j g Hj H2 B). apply (up_high _ _ _ _ _ O ltac:(unfold ux; lia) E). fold g. lia.
Qed.
End UpAll.

Section ZeroAll.
Variables (X A a s : R) (D h : Z).
Hypothesis R : ramp_ok X A D 0 h a s.
Hypothesis HD : (1 <= D)%Z.
Hypothesis HA : 10 <= A.
Hypothesis Top : X * X + A * (2 * IZR D) <= 90000000000.

Lemma zero_all : forall j, (0 <= j < 2 * D)%Z -> let g := hires_of (Nat.iter (Z.to_nat j) up_next (1, h, 0))%Z in
  (2304 <= g)%Z /\ 966 / 1000 * (K * K) <= 4 * (IZR g * IZR g) * (X * X + A * (IZR j + 12 / 10)) /\ 4 * (IZR g * IZR g) * (X * X + A * (IZR j - 1)) * (9409 / 10000) <= K * K.
Proof.
  intros j Hj g. pose proof (zero_h _ _ _ _ _ _ R) as Hh.
  assert (Y : up_next (1, h, 0)%Z = (2, h - (2 * h + 0) / 5, (2 * h + 0) mod 5)%Z) by reflexivity.
  assert (H5 : (3 * h <= 5 * (h - (2 * h + 0) / 5) <= 3 * h + 4)%Z) by (rewrite Z.add_0_r; pose proof (Z.div_mod (2 * h) 5 ltac:(lia)); pose proof (Z.mod_pos_bound (2 * h) 5 ltac:(lia)); lia).
  assert (M5 : (5 * (h - (2 * h + 0) / 5) - (2 * h + 0) mod 5 = 3 * h)%Z) by (rewrite Z.add_0_r; pose proof (Z.div_mod (2 * h) 5 ltac:(lia)); lia).
  pose proof (Z.mod_pos_bound (2 * h + 0) 5 ltac:(lia)) as R5.
  set (h1 := (h - (2 * h + 0) / 5)%Z) in *. set (r1 := ((2 * h + 0) mod 5)%Z) in *. clearbody h1 r1.
  destruct (Z.eq_dec j 0) as [J0|J0]; [|destruct (Z.eq_dec j 1) as [J1|J1]].
  - assert (Eg : g = h) by (unfold g; rewrite J0; reflexivity). split; [lia|]. apply (zero_first _ _ _ _ _ _ R HD HA); assumption.
  - assert (Eg : g = h1) by (unfold g; rewrite J1; change (Z.to_nat 1) with 1%nat; cbn [Nat.iter nat_rect]; rewrite Y; reflexivity).
    split; [lia|]. apply (zero_second _ _ _ _ _ _ R HD HA); try assumption; lia.
  - assert (J2 : (2 <= j)%Z) by lia.
    pose proof (up_eq 2 h1 r1 ltac:(lia)) as Q. destruct (up_next (2, h1, r1)%Z) as [[n2 h2] r2] eqn:Y2. destruct Q as (Q1 & Q2 & Q3). subst n2. change (2 + 1)%Z with 3%Z in *. change (ux 2) with 5%Z in Q1. change (ux 3) with 9%Z in Q1, Q2.
    set (g0 := (9 * h2 - r2)%Z) in *. assert (G0 : (g0 = 3 * h + 2 * h1)%Z) by lia.
    assert (Ei : forall i, Nat.iter (S (S i)) up_next (1, h, 0)%Z = Nat.iter i up_next (3, h2, r2)%Z). { intros i. rewrite <- !iter_r, Y, Y2. reflexivity. }
    assert (Eg : g = hires_of (Nat.iter (Z.to_nat (j - 2)) up_next (3, h2, r2)%Z)) by (unfold g; replace (Z.to_nat j) with (S (S (Z.to_nat (j - 2)))) by lia; now rewrite Ei).
    destruct (up_run 3 h2 r2 (Z.to_nat (j - 2))) with (i := Z.to_nat (j - 2)) as (O & E & B); change (ux 3) with 9%Z in *.
    + lia.
    + exact Q2.
    + lia.
    + intros i Hi. fold g0. apply le_IZR. assert (Hi2 : (0 <= i + 2 < 2 * D)%Z) by lia. pose proof (top_next _ _ _ HD HA Top _ Hi2) as Tn.
      destruct (zero_sq _ _ _ _ _ _ R) as [S _]. destruct (zero_X _ _ _ _ _ _ R) as [X1 X2]. destruct (zero_a _ _ _ _ _ _ R HD HA) as [A1 A2].
      pose proof (ro_range _ _ _ _ _ _ _ R) as Ra. pose proof (idx_j D _ Hi2) as Ij.
      assert (Dr : Rabs (a * IZR (i + 2) - A * IZR (i + 2)) <= 4 / 100 * A) by (apply (drift _ _ _ _ _ _ _ _ R HD HA); lra). apply Rabs_le_inv in Dr.
      assert (Xv : IZR (ux (3 + i)) = 4 * IZR (i + 2) + 1) by (unfold ux; repeat (rewrite ?minus_IZR, ?mult_IZR, ?plus_IZR); ring).
      assert (I2 : 2 <= IZR (i + 2)) by (apply IZR_le; lia).
      assert (G1 : 42 / 10 * IZR h <= IZR g0). { assert (Q : IZR (21 * h) <= IZR (5 * g0)) by (apply IZR_le; lia). rewrite !mult_IZR in Q. lra. }
      assert (Ih : 9600 <= IZR h) by (apply IZR_le; lia).
      repeat (rewrite ?mult_IZR, ?plus_IZR, ?minus_IZR). rewrite !Xv. set (J := IZR (i + 2)) in *. set (H := IZR h) in *. set (xx := 4 * J + 1) in *. set (G0' := IZR g0) in *.
      assert (X9 : 9 <= xx) by (unfold xx; lra). assert (Xq : xx * xx <= (xx + 9 / 8) * (xx - 1)) by nra.
      assert (B : a * (xx + 9 / 8) <= 396000000000) by (eapply Rle_trans; [|exact Tn]; unfold xx; lra).
      assert (GG : 1764 / 100 * (H * H) <= G0' * G0') by nra.
      assert (M : 5308416 * 81 * (xx + 9 / 8) <= 10 * (G0' * G0')).
      { apply Rmult_le_reg_l with a; [lra|]. apply Rle_trans with (a * (10 * (1764 / 100 * (H * H)))); [|apply Rmult_le_compat_l; lra].
        replace (a * (10 * (1764 / 100 * (H * H)))) with (1764 / 10 * (H * H * a)) by field. unfold K in S. lra. }
      apply Rle_trans with (10 * (G0' * G0') * (xx - 1)).
      * apply Rle_trans with (5308416 * 81 * ((xx + 9 / 8) * (xx - 1))); [|rewrite <- Rmult_assoc; apply Rmult_le_compat_r; lra].
        replace (2304 * 2304 * (xx * xx) * (9 * 9)) with (5308416 * 81 * (xx * xx)) by ring. apply Rmult_le_compat_l; lra.
      * assert (0 <= G0' * G0') by nra. nra.
    + lia.
    + fold g0 in O. rewrite <- Eg in B. split; [exact B|].
      replace (3 + Z.of_nat (Z.to_nat (j - 2)))%Z with (3 + (j - 2))%Z in E by lia.
      apply (zero_later _ _ _ _ _ _ R HD HA j g Hj g0 J2 B); [lia| |].
      * pose proof (up_low _ _ _ _ _ O ltac:(lia) E) as L. rewrite <- Eg in L. exact L.
      * pose proof (up_high _ _ _ _ _ O ltac:(lia) E) as L. rewrite <- Eg in L. apply L. lia.
Qed.
End ZeroAll.

Lemma sq_nonneg : forall x : R, 0 <= x * x.
Proof. intros. nra. Qed.

(** The index 1: the first pass leads to index 2, and from there on. *)
Lemma one_slow : forall X A D h a s, ramp_ok X A D 1 h a s -> (1 <= D)%Z -> 10 <= A -> X * X + A * (2 * IZR D) <= 90000000000 ->
  forall j, (0 <= j < 2 * D)%Z -> let g := hires_of (Nat.iter (S (Z.to_nat j)) up_next (1, h, 0)%Z) in
  (2304 <= g)%Z -> 4 * (IZR g * IZR g) * (X * X + A * (IZR j - 1)) * (9409 / 10000) <= K * K.
Proof.
  intros X A D h a s R HD HA Top j Hj g Hg.
  assert (D1 : 1 <= IZR D) by (apply IZR_le; lia).
  pose proof (start_big _ _ _ _ _ _ _ R ltac:(lia) ltac:(nra)) as Hb.
  assert (Y : up_next (1, h, 0)%Z = (2, h - (2 * h + 0) / 5, (2 * h + 0) mod 5)%Z) by reflexivity.
  assert (H5 : (3 * h <= 5 * (h - (2 * h + 0) / 5) <= 3 * h + 4)%Z) by (rewrite Z.add_0_r; pose proof (Z.div_mod (2 * h) 5 ltac:(lia)); pose proof (Z.mod_pos_bound (2 * h) 5 ltac:(lia)); lia).
  assert (M5 : (5 * (h - (2 * h + 0) / 5) - (2 * h + 0) mod 5 = 3 * h)%Z) by (rewrite Z.add_0_r; pose proof (Z.div_mod (2 * h) 5 ltac:(lia)); lia).
  pose proof (Z.mod_pos_bound (2 * h + 0) 5 ltac:(lia)) as R5.
  set (h1 := (h - (2 * h + 0) / 5)%Z) in *. set (r1 := ((2 * h + 0) mod 5)%Z) in *. clearbody h1 r1.
  assert (Ei : forall i, Nat.iter (S i) up_next (1, h, 0)%Z = Nat.iter i up_next (2, h1, r1)%Z) by (intros i; now rewrite <- iter_r, Y).
  (* the invariant holds while the delays are not tiny, which they were not *)
  assert (O : forall i, (i <= Z.to_nat j)%nat -> up_ok 5 (3 * h) (Nat.iter i up_next (2, h1, r1)%Z) /\ fst (fst (Nat.iter i up_next (2, h1, r1)%Z)) = (2 + Z.of_nat i)%Z).
  { induction i as [|i IH]; intros Hi.
    - cbn [Nat.iter nat_rect]. split; [|cbn; lia]. pose proof (up_first 2 h1 r1 ltac:(lia) ltac:(unfold ux; lia)) as Q. change (ux 2) with 5%Z in Q. rewrite M5 in Q. apply Q. lia.
    - destruct (IH ltac:(lia)) as [O E]. destruct (up_more _ _ _ _ _ _ _ R HD HA Top ltac:(lia) (Z.of_nat i) ltac:(lia)) as (B & _ & _). rewrite Nat2Z.id, Ei in B.
      change (Nat.iter (S i) up_next (2, h1, r1)%Z) with (up_next (Nat.iter i up_next (2, h1, r1)%Z)).
      destruct (Nat.iter i up_next (2, h1, r1)%Z) as [[m gg] r]. unfold hires_of in B. cbn [fst snd] in B, E. subst m.
      split; [apply up_step; [lia|lia|lia|exact O]|]. unfold up_next. cbn [fst]. lia. }
  destruct (O (Z.to_nat j) ltac:(lia)) as [Oj Ej]. clear O. rewrite Z2Nat.id in Ej by lia.
  pose proof (up_high 5 (3 * h) 2 j _ Oj ltac:(lia) Ej) as L. unfold g in *. rewrite Ei in *. set (g' := hires_of (Nat.iter (Z.to_nat j) up_next (2, h1, r1)%Z)) in *.
  specialize (L ltac:(lia)). clear Oj Ej.
  assert (Xv : IZR (ux (2 + j)) = 4 * IZR j + 5) by (unfold ux; repeat (rewrite ?minus_IZR, ?mult_IZR, ?plus_IZR); ring).
  apply IZR_le in L. change (5 - 1)%Z with 4%Z in L. repeat (rewrite ?mult_IZR, ?minus_IZR in L). rewrite !Xv in L. change (IZR 4) with 4 in L. change (IZR 3) with 3 in L. change (IZR 2) with 2 in L. change (IZR 1) with 1 in L.
  pose proof (ro_index _ _ _ _ _ _ _ R) as Ix. apply Rabs_le_inv in Ix. pose proof (ro_range _ _ _ _ _ _ _ R) as Ra. pose proof (idx_j D j Hj) as Ij.
  assert (Dr : Rabs (a * IZR j - A * IZR j) <= 4 / 100 * A) by (apply (drift _ _ _ _ _ _ _ _ R HD HA); lra). apply Rabs_le_inv in Dr.
  assert (EA : Rabs (a * 1 - A * 1) <= 4 / 100 * A) by (apply (drift _ _ _ _ _ _ _ _ R HD HA); lra). apply Rabs_le_inv in EA.
  assert (Hh : IZR h * IZR h * a <= 26 / 100 * (K * K)).
  { destruct (ro_more _ _ _ _ _ _ _ R ltac:(lia)) as [_ U]. pose proof (ro_s _ _ _ _ _ _ _ R) as Ps. pose proof (ro_a _ _ _ _ _ _ _ R) as Ea.
    assert (T : 2 <= sqrt (IZR (1 + 1)) + sqrt (IZR 1)).
    { assert (1 <= sqrt (IZR 1)) by (rewrite sqrt_1; lra). assert (1 <= sqrt (IZR (1 + 1))) by (rewrite <- sqrt_1; apply sqrt_le_1_alt; rewrite plus_IZR; lra). lra. }
    set (t := sqrt (IZR (1 + 1)) + sqrt (IZR 1)) in *. assert (Ph : 0 <= IZR h) by (apply IZR_le; lia).
    assert (Y2 : IZR h * s * 2 <= (1 + 17 / 1000) * K) by (eapply Rle_trans; [|exact U]; apply Rmult_le_compat_l; nra).
    assert (Y0 : 0 <= IZR h * s) by nra. replace (IZR h * IZR h * a) with (IZR h * s * (IZR h * s)) by (rewrite <- Ea; ring). unfold K in *. nra. }
  assert (Ig : 2304 <= IZR g') by (apply IZR_le; lia).
  set (G := IZR g') in *. set (J := IZR j) in *. set (H := IZR h) in *. set (xx := 4 * J + 5) in *. assert (X5 : 5 <= xx) by (unfold xx; lra).
  set (g2 := (G - 2) * (G - 2)) in *. assert (G2 : 0 <= g2) by (unfold g2; nra). assert (Gq : 998 / 1000 * (G * G) <= g2) by (unfold g2; nra).
  assert (M : g2 * (xx + 1) * 4 <= 9 * (H * H)).
  { apply Rmult_le_reg_r with (xx - 1); [lra|]. eapply Rle_trans; [|replace (9 * (H * H) * (xx - 1)) with (3 * H * (3 * H) * (xx - 1)) by ring; exact L].
    replace (g2 * (xx + 1) * 4 * (xx - 1)) with (g2 * 4 * (xx * xx - 1)) by ring. replace (g2 * (xx * xx) * 4) with (g2 * 4 * (xx * xx)) by ring. apply Rmult_le_compat_l; lra. }
  assert (B : 4 * (X * X + A * (J - 1)) <= a * (xx + 1)) by (unfold xx; lra).
  assert (M2 : g2 * (a * (xx + 1)) * 4 <= 9 * (H * H * a)).
  { replace (g2 * (a * (xx + 1)) * 4) with (a * (g2 * (xx + 1) * 4)) by ring. replace (9 * (H * H * a)) with (a * (9 * (H * H))) by ring. apply Rmult_le_compat_l; lra. }
  assert (B0 : 0 <= a * (xx + 1)) by nra.
  assert (M3 : 998 / 1000 * (G * G) * (a * (xx + 1)) <= g2 * (a * (xx + 1))) by (apply Rmult_le_compat_r; lra).
  assert (0 <= G * G) by nra. assert (M4 : G * G * (4 * (X * X + A * (J - 1))) <= G * G * (a * (xx + 1))) by (apply Rmult_le_compat_l; lra).
  assert (0 <= K * K) by apply sq_nonneg. lra.
Qed.

(** All passes of an acceleration. *)
Lemma up_all : forall X A D n h a s, ramp_ok X A D n h a s -> (1 <= D)%Z -> 10 <= A -> X * X + A * (2 * IZR D) <= 90000000000 ->
  (0 <= h < 2 ^ 30)%Z /\
  forall j, (0 <= j < 2 * D)%Z -> let g := nth (Z.to_nat j) (up_passes n h (Z.to_nat (2 * D))) 0%Z in
    (2304 <= g)%Z /\
    (n = 0%Z -> 966 / 1000 * (K * K) <= 4 * (IZR g * IZR g) * (X * X + A * (IZR j + 12 / 10))) /\
    ((1 <= n)%Z -> 966 / 1000 * (K * K) * (4 * IZR n - 2) <= 4 * (IZR g * IZR g) * (X * X + A * (IZR j + 12 / 10)) * (4 * IZR n + 2)) /\
    4 * (IZR g * IZR g) * (X * X + A * (IZR j - 1)) * (9409 / 10000) <= K * K.
Proof.
  intros X A D n h a s R HD HA Top. pose proof (ro_n _ _ _ _ _ _ _ R) as Hn. destruct (Z.eq_dec n 0) as [N0|N0].
  - subst n. split; [pose proof (zero_h _ _ _ _ _ _ R); pose proof (zero_h_high _ _ _ _ _ _ R); lia|].
    intros j Hj g. destruct (zero_all _ _ _ _ _ _ R HD HA Top j Hj) as (P1 & P2 & P3).
    assert (E : g = hires_of (Nat.iter (Z.to_nat j) up_next (1, h, 0)%Z)).
    { unfold g. destruct (Z.to_nat (2 * D)) as [|k] eqn:Ek; [lia|]. cbn [up_passes Z.eqb]. destruct (Z.to_nat j) as [|i] eqn:Ei; [reflexivity|]. cbn [nth]. rewrite along_nth by lia. reflexivity. }
    rewrite <- E in *. repeat split; auto; lia.
  - assert (N1 : (1 <= n)%Z) by lia. pose proof (start_big _ _ _ _ _ _ _ R N1 ltac:(assert (1 <= IZR D) by (apply IZR_le; lia); nra)) as Hb. split; [lia|].
    intros j Hj g. destruct (up_more _ _ _ _ _ _ _ R HD HA Top N1 j Hj) as (P1 & P2 & P3).
    assert (E : g = hires_of (Nat.iter (S (Z.to_nat j)) up_next (n, h, 0)%Z)).
    { unfold g. destruct (Z.to_nat (2 * D)) as [|k] eqn:Ek; [lia|]. cbn [up_passes]. replace (n =? 0)%Z with false by lia. apply along_nth. lia. }
    rewrite <- E in *. repeat split; auto; try lia. destruct (Z.eq_dec n 1) as [N|N]; [|apply P3; lia].
    rewrite E in *. subst n. apply (one_slow _ _ _ _ _ _ R HD HA Top j Hj). exact P1.
Qed.

(** All passes of a deceleration. *)
Lemma down_all : forall X A D n h a s, ramp_ok X A D n h a s -> (1 <= D)%Z -> 10 <= A -> X * X <= 90000000000 -> (2 * D <= n)%Z ->
  (0 <= h < 2 ^ 30)%Z /\
  forall j, (0 <= j < 2 * D)%Z -> let g := nth (Z.to_nat j) (down_passes n h (Z.to_nat (2 * D))) 0%Z in
    (2336 <= g < 2 ^ 30)%Z /\
    966 / 1000 * (K * K) <= 4 * ((IZR g + 1) * (IZR g + 1)) * (X * X - A * (IZR j - 2 / 10)) /\
    4 * (IZR g * IZR g) * (X * X - A * (IZR j + 2)) * (9409 / 10000) <= K * K.
Proof.
  intros X A D n h a s R HD HA Top Hn. pose proof (start_big _ _ _ _ _ _ _ R ltac:(lia) Top) as Hb. split; [lia|].
  intros j Hj g. destruct (down_run n h (Z.to_nat (2 * D)) ltac:(lia) ltac:(lia)) with (i := S (Z.to_nat j)) as (O & E & B); [lia|].
  assert (Eg : g = hires_of (Nat.iter (S (Z.to_nat j)) down_next (n, h, 0)%Z)) by (unfold g, down_passes; apply along_nth; lia).
  rewrite <- Eg in B. replace (n - Z.of_nat (S (Z.to_nat j)))%Z with (n - (j + 1))%Z in E by lia.
  pose proof (down_low _ _ _ _ O ltac:(lia) E ltac:(lia)) as L. pose proof (down_high _ _ _ _ O E ltac:(lia)) as U. rewrite <- Eg in L, U.
  destruct (down_slow _ _ _ _ _ _ _ R HD HA Hn j g Hj ltac:(lia) U) as [S1 S2].
  split; [lia|]. split; [|exact S1]. apply (down_fast _ _ _ _ _ _ _ R HD HA Hn j g Hj ltac:(lia) L).
Qed.

(** ** Ticks as speeds *)
Lemma sq_pos : forall x : R, 0 <= x * x.
Proof. intros. nra. Qed.
Lemma tick_bounds : forall g, (2304 <= g)%Z -> 72 <= IZR (g / 32) /\ 32 * IZR (g / 32) <= IZR g /\ IZR g + 1 <= 32 * (IZR (g / 32) + 1).
Proof.
  intros g Hg. pose proof (Z.div_mod g 32 ltac:(lia)) as E. pose proof (Z.mod_pos_bound g 32 ltac:(lia)) as B.
  split; [apply IZR_le; apply Z.div_le_lower_bound; lia|]. change 32 with (IZR 32). change 1 with (IZR 1). rewrite <- !plus_IZR, <- !mult_IZR. split; apply IZR_le; lia.
Qed.

Lemma slow_speed : forall g P q, (2304 <= g)%Z -> 0 <= q -> 4 * (IZR g * IZR g) * P * q <= K * K -> q * P <= speed_of (IZR (g / 32)) ^ 2.
Proof.
  intros g P q Hg Hq H. destruct (tick_bounds g Hg) as (T0 & T1 & _). set (t := IZR (g / 32)) in *. set (G := IZR g) in *.
  unfold speed_of. replace ((clock / (2 * t)) ^ 2) with (K * K / (4 * (32 * t * (32 * t)))) by (unfold K, clock; field; lra).
  assert (Tp : 0 < 4 * (32 * t * (32 * t))) by nra. apply Rmult_le_reg_r with (4 * (32 * t * (32 * t))); [exact Tp|].
  replace (K * K / (4 * (32 * t * (32 * t))) * (4 * (32 * t * (32 * t)))) with (K * K) by (field; lra).
  destruct (Rle_lt_dec 0 P) as [HP|HP].
  - eapply Rle_trans; [|exact H]. assert (32 * t * (32 * t) <= G * G) by (apply Rmult_le_compat; lra).
    replace (4 * (G * G) * P * q) with (q * P * (4 * (G * G))) by ring. apply Rmult_le_compat_l; nra.
  - assert (q * P <= 0) by nra. assert (0 <= K * K) by apply sq_pos. nra.
Qed.

Lemma fast_speed : forall g G P c, (2304 <= g)%Z -> 0 < G <= IZR g + 1 -> 0 < c -> c * (K * K) <= 4 * (G * G) * P -> 0 <= P /\ c * speed_of (IZR (g / 32) + 1) ^ 2 <= P.
Proof.
  intros g G P c Hg HG Hc H. destruct (tick_bounds g Hg) as (T0 & _ & T1). set (t := IZR (g / 32) + 1) in *.
  assert (KK : 0 < K * K) by (unfold K; lra). assert (GG : 0 < 4 * (G * G)) by nra.
  assert (PP : 0 <= P). { destruct (Rle_lt_dec 0 P) as [|N]; [assumption|]. assert (4 * (G * G) * P < 0) by nra. assert (0 < c * (K * K)) by (apply Rmult_lt_0_compat; assumption). lra. }
  split; [exact PP|].
  unfold speed_of. replace ((clock / (2 * t)) ^ 2) with (K * K / (4 * (32 * t * (32 * t)))) by (unfold K, clock, t; field; lra).
  assert (T73 : 73 <= t) by (unfold t; lra). assert (Tp : 0 < 4 * (32 * t * (32 * t))) by nra. apply Rmult_le_reg_r with (4 * (32 * t * (32 * t))); [exact Tp|].
  replace (c * (K * K / (4 * (32 * t * (32 * t)))) * (4 * (32 * t * (32 * t)))) with (c * (K * K)) by (field; lra).
  eapply Rle_trans; [exact H|]. rewrite (Rmult_comm P). apply Rmult_le_compat_r; [exact PP|].
  assert (G * G <= 32 * t * (32 * t)) by (apply Rmult_le_compat; lra). lra.
Qed.

(** ** Segments *)
Lemma small_loops : forall D, (1 <= D <= 32767)%Z -> u16 (LOOPS_PER_STEP * D) = (2 * D)%Z.
Proof. intros D HD. unfold u16, LOOPS_PER_STEP. apply Z.mod_small. lia. Qed.

Lemma segment_up : forall flip (p : linear_segment ieee_speed) D v0 v1, asks p v0 v1 -> v0 < v1 -> ramp_request v0 v1 D ->
  exists seg n h a s, make_segment flip p D = Ok seg /\ ramp_ok v0 (accel_of v0 v1 D) D n h a s /\
    ticks seg = Some (map (fun g => (g / 32)%Z) (up_passes n h (Z.to_nat (2 * D)))) /\ no_stop seg.
Proof.
  intros flip p D v0 v1 (F0 & F1 & E0 & E1) Hv [HD H0 H1 HA HB].
  assert (D1 : 1 <= IZR D <= 32767) by (split; apply IZR_le; lia).
  assert (Ap : 0 < accel_of v0 v1 D) by (unfold accel_of; apply Rmult_lt_0_compat; [nra|apply Rinv_0_lt_compat; lra]).
  rewrite Rabs_pos_eq in HA, HB by lra.
  destruct (ramp_params (f32_of_f64 (ls_v0 p)) (f32_of_f64 (ls_v1 p)) (f32_of_f64 (ls_v0 p)) D F0 F1 F0) as (n & h & a & s & P & R & _); rewrite ?E0, ?E1 in *; auto; try lra.
  fold (accel_of v0 v1 D) in R.
  assert (Top : v0 * v0 + accel_of v0 v1 D * (2 * IZR D) <= 90000000000).
  { replace (v0 * v0 + accel_of v0 v1 D * (2 * IZR D)) with (v1 * v1) by (unfold accel_of; field; lra). nra. }
  destruct (up_all _ _ _ _ _ _ _ R ltac:(lia) HA Top) as [Hh G].
  pose proof (ro_n _ _ _ _ _ _ _ R) as Hn.
  unfold make_segment. replace (D =? 0)%Z with false by lia. cbn [ieee_speed spd_eqb spd_ltb accel_params].
  assert (Q1 : SFeqb (f32_of_f64 (ls_v0 p)) (f32_of_f64 (ls_v1 p)) = false).
  { destruct (SFeqb _ _) eqn:E; [|reflexivity]. apply (eqb_eq_val 24 128) in E; auto. lra. }
  assert (Q2 : SFltb (f32_of_f64 (ls_v0 p)) (f32_of_f64 (ls_v1 p)) = true) by (apply (ltb_lt 24 128); auto; lra).
  rewrite Q1, Q2, P. eexists _, n, h, a, s. split; [reflexivity|]. split; [exact R|].
  apply ticks_up; cbn [ms_loops_accel ms_loops_travel ms_loops_decel ms_accel_series_index ms_hires_accel_cycles]; try assumption; try reflexivity.
  - now apply small_loops.
  - unfold u32. apply Z.mod_small. lia.
  - unfold u32. apply Z.mod_small. lia.
  - apply Forall_forall. intros g Hg. destruct (In_nth _ _ 0%Z Hg) as (i & Hi & <-). rewrite up_passes_length in Hi.
    destruct (G (Z.of_nat i) ltac:(lia)) as [B _]. now rewrite Nat2Z.id in B.
Qed.

Lemma segment_down : forall flip (p : linear_segment ieee_speed) D v0 v1, asks p v0 v1 -> v1 < v0 -> ramp_request v0 v1 D ->
  exists seg n h a s, make_segment flip p D = Ok seg /\ ramp_ok v0 (- accel_of v0 v1 D) D n h a s /\ (2 * D <= n)%Z /\
    ticks seg = Some (map (fun g => (g / 32)%Z) (down_passes n h (Z.to_nat (2 * D)))) /\ no_stop seg.
Proof.
  intros flip p D v0 v1 (F0 & F1 & E0 & E1) Hv [HD H0 H1 HA HB].
  assert (D1 : 1 <= IZR D <= 32767) by (split; apply IZR_le; lia).
  assert (Ap : 0 < - accel_of v0 v1 D). { replace (- accel_of v0 v1 D) with ((v0 * v0 - v1 * v1) / (2 * IZR D)) by (unfold accel_of; field; lra). apply Rmult_lt_0_compat; [nra|apply Rinv_0_lt_compat; lra]. }
  rewrite Rabs_left in HA, HB by lra.
  assert (Ea : (v0 * v0 - v1 * v1) / (2 * IZR D) = - accel_of v0 v1 D) by (unfold accel_of; field; lra).
  destruct (ramp_params (f32_of_f64 (ls_v0 p)) (f32_of_f64 (ls_v0 p)) (f32_of_f64 (ls_v1 p)) D F0 F0 F1) as (n & h & a & s & P & R & N2); rewrite ?E0, ?E1, ?Ea in *; auto; try lra.
  specialize (N2 eq_refl).
  assert (Top : v0 * v0 <= 90000000000) by nra.
  destruct (down_all _ _ _ _ _ _ _ R ltac:(lia) HA Top N2) as [Hh G].
  pose proof (ro_n _ _ _ _ _ _ _ R) as Hn.
  unfold make_segment. replace (D =? 0)%Z with false by lia. cbn [ieee_speed spd_eqb spd_ltb decel_params].
  assert (Q1 : SFeqb (f32_of_f64 (ls_v0 p)) (f32_of_f64 (ls_v1 p)) = false).
  { destruct (SFeqb _ _) eqn:E; [|reflexivity]. apply (eqb_eq_val 24 128) in E; auto. lra. }
  assert (Q2 : SFltb (f32_of_f64 (ls_v0 p)) (f32_of_f64 (ls_v1 p)) = false).
  { destruct (SFltb _ _) eqn:E; [|reflexivity]. apply (ltb_lt 24 128) in E; auto. lra. }
  rewrite Q1, Q2, P. eexists _, n, h, a, s. split; [reflexivity|]. split; [exact R|]. split; [exact N2|].
  apply ticks_down; cbn [ms_loops_accel ms_loops_travel ms_loops_decel ms_accel_series_index ms_hires_accel_cycles]; try assumption; try reflexivity.
  - now apply small_loops.
  - unfold u32. apply Z.mod_small. lia.
  - unfold u32. apply Z.mod_small. lia.
  - lia.
  - apply Forall_forall. intros g Hg. destruct (In_nth _ _ 0%Z Hg) as (i & Hi & <-). unfold down_passes in Hi. rewrite along_length in Hi.
    destruct (G (Z.of_nat i) ltac:(lia)) as [B _]. now rewrite Nat2Z.id in B.
Qed.

(** Constant speed: the delay. *)
Lemma travel_value : forall v, fin32 (f32_of_f64 v) -> / 10 <= val (f32_of_f64 v) ->
  let c := clock / (2 * Rmin (val (f32_of_f64 v)) 1000000) in
  exists k, ieee_travel_cycles v = Some k /\ (40 <= k < 2 ^ 30)%Z /\ Rabs (IZR k - c) <= / 2 + c / 4000000.
Proof.
  intros v F L c. unfold ieee_travel_cycles. change LOOPS_PER_STEP with 2%Z.
  set (V := val (f32_of_f64 v)) in *. set (M := Rmin V 1000000) in *.
  assert (C : fin32 (clip_hardware_frequency_limit (f32_of_f64 v)) /\ val (clip_hardware_frequency_limit (f32_of_f64 v)) = M).
  { unfold clip_hardware_frequency_limit. destruct (f32_of_Z_val 1000000 ltac:(lia)) as [F6 V6].
    destruct (SFltb (f32_of_f64 v) (f32_of_Z 1000000)) eqn:E.
    - apply (ltb_lt 24 128) in E; auto. split; [exact F|]. fold V. rewrite V6 in E. fold V in E. unfold M. rewrite Rmin_left; [reflexivity|lra].
    - split; [exact F6|]. rewrite V6. unfold M. rewrite Rmin_right; [reflexivity|]. apply Rnot_lt_le. intros N. rewrite <- V6 in N. apply (ltb_lt 24 128) in N; auto. congruence. }
  destruct C as [Fc Vc]. set (x := clip_hardware_frequency_limit (f32_of_f64 v)) in *.
  assert (BM : / 10 <= M <= 1000000) by (unfold M; split; [apply Rmin_glb; lra|apply Rmin_r]).
  destruct (f32_of_Z_val 2 ltac:(lia)) as [F2 V2].
  destruct (mul32 _ x (2 * M) F2 Fc ltac:(rewrite V2, Vc; reflexivity) ltac:(unfold big; lra)) as (Fm & Pm & Em).
  set (m := f32_mul (f32_of_Z 2) x) in *.
  assert (Nm : near (101 / 100 * u) (val m) (2 * M)) by (apply near_of; eapply Rle_trans; [exact Em|]; unfold u, w; lra).
  destruct (f64_of_f32_val m Fm) as [Fd Vd]. destruct timer as [Ft Vt].
  assert (Bm : / 10 <= val m <= 3000000) by (destruct Nm as [N1 N2]; unfold u in *; lra).
  assert (Hc : c * (2 * M) = 100000000) by (unfold c, clock; field; lra).
  assert (Bc : 50 <= c <= 500000000) by (split; nra).
  set (q := 100000000 / val m). assert (Hq : q * val m = 100000000) by (unfold q; field; lra).
  assert (Nq : near (102 / 100 * u) q c).
  { destruct Nm as [N1 N2]. assert (Pq : 0 < q) by (unfold q; apply Rmult_lt_0_compat; [lra|apply Rinv_0_lt_compat; lra]). unfold u in *. split.
    - apply Rmult_le_reg_r with (val m); [lra|]. rewrite Hq. apply Rle_trans with ((1 - 102 / 100 * / 16777216) * c * ((1 + 101 / 100 * / 16777216) * (2 * M))).
      + apply Rmult_le_compat_l; [lra|exact N2].
      + replace ((1 - 102 / 100 * / 16777216) * c * ((1 + 101 / 100 * / 16777216) * (2 * M))) with ((1 - 102 / 100 * / 16777216) * (1 + 101 / 100 * / 16777216) * (c * (2 * M))) by ring. rewrite Hc. lra.
    - apply Rmult_le_reg_r with (val m); [lra|]. rewrite Hq. apply Rle_trans with ((1 + 102 / 100 * / 16777216) * c * ((1 - 101 / 100 * / 16777216) * (2 * M))).
      + replace ((1 + 102 / 100 * / 16777216) * c * ((1 - 101 / 100 * / 16777216) * (2 * M))) with ((1 + 102 / 100 * / 16777216) * (1 - 101 / 100 * / 16777216) * (c * (2 * M))) by ring. rewrite Hc. lra.
      + apply Rmult_le_compat_l; [lra|exact N1]. }
  assert (Bq : 49 <= q <= 600000000) by (destruct Nq as [N1 N2]; unfold u in *; lra).
  destruct (r64 q ltac:(unfold big; lra)) as (S1 & P1 & E1).
  destruct (div_val 53 1024 p53 l53 TIMER_FREQUENCY (f64_of_f32 m) Ft Fd ltac:(rewrite Vd; lra)) as [Fx Vx]; [rewrite Vt, Vd; exact S1|]. rewrite Vt, Vd in Vx. fold q in Vx.
  set (y := SFdiv 53 1024 TIMER_FREQUENCY (f64_of_f32 m)) in *. rewrite <- Vx in *.
  assert (Ny : near (204 / 100 * u) (val y) c).
  { eapply near_weak; [apply (near_step (102 / 100 * u) u _ _ _ (near64 _ q ltac:(lra) E1) Nq)| |]; unfold u; lra. }
  assert (By : 48 <= val y <= 700000000) by (destruct Ny as [N1 N2]; unfold u in *; lra).
  destruct (r32 (val y) ltac:(unfold big; lra)) as (S3 & P3 & E3). destruct (f32_of_f64_val y Fx S3) as [Fz Vz]. change (f64_div TIMER_FREQUENCY (f64_of_f32 m)) with y.
  assert (N3 : near (11 / 10 * u) (val (f32_of_f64 y)) (val y)) by (rewrite Vz; apply near_of; unfold u, w in *; lra).
  assert (Nz : near (32 / 10 * u) (val (f32_of_f64 y)) c).
  { eapply near_weak; [apply (near_step (204 / 100 * u) (11 / 10 * u) _ _ _ N3 Ny)| |]; unfold u; lra. }
  destruct (round32 (f32_of_f64 y) Fz) as (k & Ek & Rk & Pk); [destruct Nz as [N1 N2]; unfold u in *; lra|].
  exists k. split; [exact Ek|]. apply Rabs_le_inv in Rk. destruct Nz as [N1 N2]. unfold u in N1, N2. split.
  - assert (40 <= IZR k <= 1000000000) by lra. destruct H as [H1 H2]. apply le_IZR in H1, H2. lia.
  - apply Rabs_le. lra.
Qed.

Lemma segment_travel : forall flip (p : linear_segment ieee_speed) D v, asks p v v -> (1 <= D <= 32767)%Z -> / 10 <= v ->
  exists seg k, make_segment flip p D = Ok seg /\ ticks seg = Some (repeat k (Z.to_nat (2 * D))) /\ no_stop seg /\
    Rabs (IZR k - clock / (2 * Rmin v 1000000)) <= / 2 + clock / (2 * Rmin v 1000000) / 4000000.
Proof.
  intros flip p D v (F0 & F1 & E0 & E1) HD Hv.
  destruct (travel_value (ls_v0 p) F0 ltac:(rewrite E0; exact Hv)) as (k & Ek & Bk & Rk). rewrite E0 in Rk.
  unfold make_segment. replace (D =? 0)%Z with false by lia. cbn [ieee_speed spd_eqb travel_cycles].
  assert (Q1 : SFeqb (f32_of_f64 (ls_v0 p)) (f32_of_f64 (ls_v1 p)) = true) by (apply (eqb_eq_val 24 128); auto; congruence).
  rewrite Q1, Ek. eexists _, k. split; [reflexivity|]. apply and_assoc. split; [|exact Rk].
  apply ticks_on_way; cbn [ms_loops_accel ms_loops_travel ms_loops_decel ms_travel_delay_cycles]; try assumption; try reflexivity.
  - now apply small_loops.
  - unfold u32. apply Z.mod_small. lia.
  - lia.
Qed.
