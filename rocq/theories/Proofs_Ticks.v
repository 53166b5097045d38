(** The delays of a ramp against the speeds they stand for. *)
From Coq Require Import Reals Lra.
From Flocq Require Import Core.
From Verif Require Import Base Proofs_Law Proofs_Timing Proofs_Delay.
Open Scope Z_scope.

(** ** Runs of the recurrence *)
Lemma up_run : forall n h r k, 1 <= n -> 0 <= r < ux n -> 2304 <= h ->
  (forall i, 1 <= i <= Z.of_nat k -> 2304 * 2304 * (ux (n + i) * ux (n + i)) * (ux n * ux n) <= (ux n * h - r) * (ux n * h - r) * ((ux (n + i) - 1) * (ux n + 1) + 1)) ->
  forall i, (i <= k)%nat -> let s := Nat.iter i up_next (n, h, r) in
    up_ok (ux n) (ux n * h - r) s /\ fst (fst s) = n + Z.of_nat i /\ 2304 <= hires_of s.
Proof.
  intros n h r0 k Hn Hr0 Hh Hk. assert (X1 : 1 <= ux n) by (unfold ux; lia).
  induction i as [|i IH]; intros Hi s.
  - cbn. split; [|split; [lia|exact Hh]]. apply up_first; [exact Hn|lia|]. nia.
  - destruct (IH ltac:(lia)) as (O & E & B). change s with (up_next (Nat.iter i up_next (n, h, r0))). clear s.
    destruct (Nat.iter i up_next (n, h, r0)) as [[m g] r] eqn:Em. cbn [fst snd hires_of] in *. unfold hires_of in B. cbn [fst snd] in B. subst m.
    set (g0 := ux n * h - r0) in *.
    pose proof (up_step (ux n) g0 (n + Z.of_nat i) g r ltac:(lia) X1 ltac:(lia) O) as O'.
    pose proof (up_eq (n + Z.of_nat i) g r ltac:(lia)) as Q.
    destruct (up_next (n + Z.of_nat i, g, r)) as [[m' g'] r']. destruct Q as (_ & R & ->).
    split; [exact O'|]. unfold hires_of. cbn [fst snd]. split; [lia|].
    destruct O' as [H1 H2 H3 H4 _]. cbn [fst snd] in *. replace (n + Z.of_nat i + 1) with (n + Z.of_nat (S i)) in * by lia.
    specialize (Hk (Z.of_nat (S i)) ltac:(lia)). set (x := ux (n + Z.of_nat (S i))) in *. set (x0 := ux n) in *. set (G := x * g' - r') in *.
    assert (A : 2304 * x <= G).
    { apply sq_le_inv; [lia|]. apply Z.mul_le_mono_pos_r with (p := x0 * x0); [nia|].
      eapply Z.le_trans; [|exact H4]. replace (2304 * x * (2304 * x) * (x0 * x0)) with (2304 * 2304 * (x * x) * (x0 * x0)) by ring. exact Hk. }
    unfold G in A. nia.
Qed.

Lemma down_run : forall n h k, 0 <= h -> Z.of_nat k <= n ->
  forall i, (i <= k)%nat -> let s := Nat.iter i down_next (n, h, 0) in
    down_ok (dx n) (dx n * h) s /\ fst (fst s) = n - Z.of_nat i /\ h <= hires_of s.
Proof.
  intros n h k Hh Hk. induction i as [|i IH]; intros Hi s.
  - cbn. split; [|split; [lia|unfold hires_of; cbn; lia]]. replace (dx n * h) with (dx n * h + 0) by ring. apply down_first; unfold dx; lia.
  - destruct (IH ltac:(lia)) as (O & E & B). change s with (down_next (Nat.iter i down_next (n, h, 0))). clear s.
    destruct (Nat.iter i down_next (n, h, 0)) as [[m g] r] eqn:Em. cbn [fst snd] in *. unfold hires_of in *. cbn [fst snd] in *. subst m.
    pose proof (down_step (dx n) (dx n * h) (n - Z.of_nat i) g r ltac:(lia) ltac:(unfold dx; nia) O) as O'.
    destruct O as [_ O2 _ _ _]. cbn [fst snd] in O2.
    split; [exact O'|]. unfold down_next. cbn [fst snd]. split; [lia|].
    pose proof (Z.div_pos (2 * g + r) (4 * (n - Z.of_nat i) - 1) ltac:(lia) ltac:(lia)). lia.
Qed.

(** ** In squares *)
Lemma up_low : forall x0 g0 n i s, up_ok x0 g0 s -> 1 <= x0 -> fst (fst s) = n + i ->
  g0 * g0 * ((ux (n + i) - 1) * (x0 + 1)) <= hires_of s * hires_of s * (ux (n + i) * ux (n + i)) * (x0 * x0).
Proof.
  intros x0 g0 n i [[m g] r] [H1 H2 H3 H4 _] X1 E. cbn [fst snd hires_of] in *. unfold hires_of. cbn [fst snd]. subst m.
  set (x := ux (n + i)) in *. set (G := x * g - r) in *.
  assert (B : G * G <= (g * x) * (g * x)) by (apply sq_le; unfold G in *; lia).
  apply Z.le_trans with (G * G * (x0 * x0)); [|replace (g * g * (x * x)) with (g * x * (g * x)) by ring; apply Z.mul_le_mono_nonneg_r; [nia|exact B]].
  eapply Z.le_trans; [|exact H4]. apply Z.mul_le_mono_nonneg_l; [nia|lia].
Qed.

Lemma up_high : forall x0 g0 n i s, up_ok x0 g0 s -> 1 <= x0 -> fst (fst s) = n + i -> 2 <= hires_of s ->
  (hires_of s - 2) * (hires_of s - 2) * (ux (n + i) * ux (n + i)) * (x0 - 1) <= g0 * g0 * (ux (n + i) - 1).
Proof.
  intros x0 g0 n i [[m g] r] [H1 H2 H3 _ H5] X1 E Hg. cbn [fst snd] in *. unfold hires_of in *. cbn [fst snd] in *. subst m.
  set (x := ux (n + i)) in *. set (G := x * g - r) in *.
  assert (B : ((g - 2) * x) * ((g - 2) * x) <= (G - x) * (G - x)) by (apply sq_le; unfold G in *; nia).
  apply Z.le_trans with ((G - x) * (G - x) * (x0 - 1)); [replace ((g - 2) * (g - 2) * (x * x)) with ((g - 2) * x * ((g - 2) * x)) by ring; apply Z.mul_le_mono_nonneg_r; [lia|exact B]|].
  eapply Z.le_trans; [exact H5|]. apply Z.mul_le_mono_nonneg_r; [lia|]. apply sq_le; lia.
Qed.

Lemma down_low : forall n h i s, down_ok (dx n) (dx n * h) s -> 0 <= n -> fst (fst s) = n - i -> 0 <= h ->
  h * h * (dx n * dx n) * (dx (n - i) + 1) <= (hires_of s + 1) * (hires_of s + 1) * (dx (n - i) * dx (n - i)) * (dx n + 1).
Proof.
  intros n h i [[m g] r] [H1 H2 H3 H4 _] Hn E Hh. cbn [fst snd] in *. unfold hires_of. cbn [fst snd]. subst m.
  set (z := dx (n - i)) in *. set (z0 := dx n) in *. set (G := z * g + r) in *.
  assert (B : G * G <= ((g + 1) * z) * ((g + 1) * z)) by (apply sq_le; unfold G; nia).
  replace (h * h * (z0 * z0)) with (z0 * h * (z0 * h)) by ring. eapply Z.le_trans; [exact H4|].
  replace ((g + 1) * (g + 1) * (z * z)) with ((g + 1) * z * ((g + 1) * z)) by ring. apply Z.mul_le_mono_nonneg_r; [lia|exact B].
Qed.

Lemma down_high : forall n h i s, down_ok (dx n) (dx n * h) s -> fst (fst s) = n - i -> 0 <= h ->
  (hires_of s + 1) * (hires_of s + 1) * (dx (n - i) * dx (n - i)) * (6 * dx n + 7) <= (h + 1) * (h + 1) * (dx n * dx n) * (6 * dx (n - i) + 7).
Proof.
  intros n h i [[m g] r] [H1 H2 H3 _ H5] E Hh. cbn [fst snd] in *. unfold hires_of. cbn [fst snd]. subst m.
  set (z := dx (n - i)) in *. set (z0 := dx n) in *. set (G := z * g + r) in *.
  assert (B : ((g + 1) * z) * ((g + 1) * z) <= (G + z) * (G + z)) by (apply sq_le; unfold G; nia).
  replace ((h + 1) * (h + 1) * (z0 * z0)) with ((z0 * h + z0) * (z0 * h + z0)) by ring. eapply Z.le_trans; [|exact H5].
  replace ((g + 1) * (g + 1) * (z * z)) with ((g + 1) * z * ((g + 1) * z)) by ring. apply Z.mul_le_mono_nonneg_r; [lia|exact B].
Qed.

(** ** As real numbers *)
Open Scope R_scope.

Lemma roots : forall n, (1 <= n)%Z -> let t := sqrt (IZR (n + 1)) + sqrt (IZR n) in
  0 < t /\ t * t <= 4 * IZR n + 2 /\ ((2 <= n)%Z -> 98 / 100 * (4 * IZR n + 2) <= t * t).
Proof.
  intros n Hn t. assert (In : 1 <= IZR n) by (apply IZR_le; lia). unfold t. rewrite plus_IZR. change (IZR 1) with 1.
  assert (Sp : sqrt (IZR n + 1) * sqrt (IZR n + 1) = IZR n + 1) by (apply sqrt_sqrt; lra).
  assert (Sq : sqrt (IZR n) * sqrt (IZR n) = IZR n) by (apply sqrt_sqrt; lra).
  assert (Pp : 0 < sqrt (IZR n + 1)) by (apply sqrt_lt_R0; lra). assert (Pq : 0 < sqrt (IZR n)) by (apply sqrt_lt_R0; lra).
  set (p := sqrt (IZR n + 1)) in *. set (q := sqrt (IZR n)) in *. clearbody p q.
  split; [lra|]. split; [nra|]. intros H2. assert (I2 : 2 <= IZR n) by (apply IZR_le; lia).
  set (N := IZR n) in *. clearbody N.
  assert (PQ : (p * q) * (p * q) = N * N + N) by (replace (p * q * (p * q)) with (p * p * (q * q)) by ring; rewrite Sp, Sq; ring).
  assert (L : 96 / 100 * (N + / 2) <= p * q) by (assert (0 < p * q) by nra; nra).
  nra.
Qed.

Lemma start_sq : forall X A D n h a s, ramp_ok X A D n h a s -> (1 <= n)%Z ->
  966 / 1000 * (K * K) <= IZR h * IZR h * a * (4 * IZR n + 2) /\
  ((2 <= n)%Z -> IZR h * IZR h * a * (98 / 100 * (4 * IZR n + 2)) <= 10343 / 10000 * (K * K)).
Proof.
  intros X A D n h a s R Hn. destruct (ro_more _ _ _ _ _ _ _ R Hn) as [L U]. destruct (roots n Hn) as (T0 & T1 & T2).
  pose proof (ro_s _ _ _ _ _ _ _ R) as Ps. pose proof (ro_a _ _ _ _ _ _ _ R) as Ea. pose proof (ro_range _ _ _ _ _ _ _ R) as Ra.
  assert (Ph : 0 <= IZR h) by (apply IZR_le; apply (ro_h _ _ _ _ _ _ _ R)).
  set (t := sqrt (IZR (n + 1)) + sqrt (IZR n)) in *. set (y := IZR h * s * t) in *.
  assert (Y : y * y = IZR h * IZR h * a * (t * t)) by (unfold y; rewrite <- Ea; ring).
  assert (K0 : 0 < K) by (unfold K; lra). assert (Q : 0 <= IZR h * IZR h * a) by (apply Rmult_le_pos; nra).
  assert (Y1 : 966 / 1000 * (K * K) <= y * y) by (clear - L K0; nra).
  assert (Y2 : y * y <= 10343 / 10000 * (K * K)). { assert (0 <= y) by (clear - L K0; nra). clear - U H K0. nra. }
  split.
  - eapply Rle_trans; [exact Y1|]. rewrite Y. now apply Rmult_le_compat_l.
  - intros H2. eapply Rle_trans; [|exact Y2]. rewrite Y. apply Rmult_le_compat_l; auto.
Qed.

(** The acceleration in the firmware against the one asked for, over the whole ramp. *)
Lemma drift : forall X A D n h a s j, ramp_ok X A D n h a s -> (1 <= D)%Z -> 10 <= A -> -1 <= j <= 2 * IZR D + 1 -> Rabs (a * j - A * j) <= 4 / 100 * A.
Proof.
  intros X A D n h a s j R HD HA Hj. pose proof (ro_err _ _ _ _ _ _ _ R) as E. assert (D1 : 1 <= IZR D) by (apply IZR_le; lia).
  replace (a * j - A * j) with ((a - A) * j) by ring. rewrite Rabs_mult. assert (J : Rabs j <= 2 * (2 * IZR D)) by (apply Rabs_le; lra).
  pose proof (Rabs_pos (a - A)). apply Rle_trans with (Rabs (a - A) * (2 * (2 * IZR D))); [now apply Rmult_le_compat_l|]. lra.
Qed.

Lemma idx_j : forall D j, (0 <= j < 2 * D)%Z -> 0 <= IZR j <= 2 * IZR D - 1.
Proof. intros D j Hj. split; [apply IZR_le; lia|]. rewrite <- mult_IZR, <- minus_IZR. apply IZR_le. lia. Qed.

Section Up.
Variables (X A a s : R) (D n h : Z).
Hypothesis R : ramp_ok X A D n h a s.
Hypothesis HD : (1 <= D)%Z.
Hypothesis HA : 10 <= A.
Variables (j g : Z).
Hypothesis Hj : (0 <= j < 2 * D)%Z.
Let x := ux (n + (j + 1)).
Let x0 := ux n.

Lemma x_val : IZR x = 4 * IZR n + 4 * IZR j + 1.
Proof. unfold x, ux. rewrite minus_IZR, mult_IZR, !plus_IZR. change (IZR 4) with 4. change (IZR 3) with 3. change (IZR 1) with 1. ring. Qed.
Lemma x0_val : IZR x0 = 4 * IZR n - 3.
Proof. unfold x0, ux. rewrite minus_IZR, mult_IZR. reflexivity. Qed.

Lemma up_fast : (1 <= n)%Z -> (0 <= g)%Z -> (x0 * h * (x0 * h) * ((x - 1) * (x0 + 1)) <= g * g * (x * x) * (x0 * x0))%Z ->
  966 / 1000 * (K * K) * (4 * IZR n - 2) <= 4 * (IZR g * IZR g) * (X * X + A * (IZR j + 12 / 10)) * (4 * IZR n + 2).
Proof.
  intros Hn Hg L0. assert (L : (h * h * ((x - 1) * (x0 + 1)) <= g * g * (x * x))%Z).
  { assert (X1 : (1 <= x0)%Z) by (unfold x0, ux; lia). apply Z.mul_le_mono_pos_r with (p := (x0 * x0)%Z); [nia|]. replace (h * h * ((x - 1) * (x0 + 1)) * (x0 * x0))%Z with (x0 * h * (x0 * h) * ((x - 1) * (x0 + 1)))%Z by ring. exact L0. }
  clear L0. destruct (start_sq _ _ _ _ _ _ _ R Hn) as [S _]. pose proof (ro_index _ _ _ _ _ _ _ R) as Ix. apply Rabs_le_inv in Ix.
  pose proof (ro_range _ _ _ _ _ _ _ R) as Ra. pose proof (idx_j D j Hj) as Ij. assert (In : 1 <= IZR n) by (apply IZR_le; lia).
  assert (Dr : Rabs (a * (IZR j + 1) - A * (IZR j + 1)) <= 4 / 100 * A) by (apply (drift _ _ _ _ _ _ _ _ R HD HA); lra). apply Rabs_le_inv in Dr.
  assert (EA : a <= 104 / 100 * A). { assert (Rabs (a * 1 - A * 1) <= 4 / 100 * A) by (apply (drift _ _ _ _ _ _ _ _ R HD HA); lra). apply Rabs_le_inv in H. lra. }
  apply IZR_le in L. rewrite !mult_IZR, plus_IZR, minus_IZR, x_val, x0_val in L. change (IZR 1) with 1 in L.
  set (N := IZR n) in *. set (J := IZR j) in *. set (G := IZR g) in *. set (HH := IZR h * IZR h) in *. set (xx := 4 * N + 4 * J + 1) in *.
  replace (4 * N - 3 + 1) with (4 * N - 2) in L by ring.
  assert (X5 : 5 <= xx) by (unfold xx; lra). assert (GG : 0 <= G * G) by nra.
  assert (Xq : xx * xx <= (xx + 5 / 4) * (xx - 1)) by nra.
  (* divide by xx - 1 *)
  assert (L2 : HH * (4 * N - 2) <= G * G * (xx + 5 / 4)).
  { apply Rmult_le_reg_r with (xx - 1); [lra|]. replace (HH * (4 * N - 2) * (xx - 1)) with (HH * ((xx - 1) * (4 * N - 2))) by ring.
    eapply Rle_trans; [exact L|]. replace (G * G * (xx + 5 / 4) * (xx - 1)) with (G * G * ((xx + 5 / 4) * (xx - 1))) by ring. now apply Rmult_le_compat_l. }
  assert (B : a * (xx + 5 / 4) <= 4 * (X * X + A * (J + 12 / 10))) by (unfold xx; lra).
  apply Rle_trans with (HH * a * (4 * N + 2) * (4 * N - 2)); [apply Rmult_le_compat_r; [lra|exact S]|].
  replace (HH * a * (4 * N + 2) * (4 * N - 2)) with (a * (4 * N + 2) * (HH * (4 * N - 2))) by ring.
  apply Rle_trans with (a * (4 * N + 2) * (G * G * (xx + 5 / 4))); [apply Rmult_le_compat_l; [nra|exact L2]|].
  replace (a * (4 * N + 2) * (G * G * (xx + 5 / 4))) with (G * G * (4 * N + 2) * (a * (xx + 5 / 4))) by ring.
  replace (4 * (G * G) * (X * X + A * (J + 12 / 10)) * (4 * N + 2)) with (G * G * (4 * N + 2) * (4 * (X * X + A * (J + 12 / 10)))) by ring.
  apply Rmult_le_compat_l; [nra|exact B].
Qed.

Lemma up_slow : (2 <= n)%Z -> (2304 <= g)%Z -> ((g - 2) * (g - 2) * (x * x) * (x0 - 1) <= x0 * h * (x0 * h) * (x - 1))%Z ->
  4 * (IZR g * IZR g) * (X * X + A * (IZR j - 1)) * (9409 / 10000) <= K * K.
Proof.
  intros Hn Hg L. destruct (start_sq _ _ _ _ _ _ _ R ltac:(lia)) as [_ S]. specialize (S Hn). pose proof (ro_index _ _ _ _ _ _ _ R) as Ix. apply Rabs_le_inv in Ix.
  pose proof (ro_range _ _ _ _ _ _ _ R) as Ra. pose proof (idx_j D j Hj) as Ij. assert (In : 2 <= IZR n) by (apply IZR_le; lia). assert (Ig : 2304 <= IZR g) by (apply IZR_le; lia).
  assert (Dr : Rabs (a * IZR j - A * IZR j) <= 4 / 100 * A) by (apply (drift _ _ _ _ _ _ _ _ R HD HA); lra). apply Rabs_le_inv in Dr.
  assert (EA : a <= 104 / 100 * A). { assert (Rabs (a * 1 - A * 1) <= 4 / 100 * A) by (apply (drift _ _ _ _ _ _ _ _ R HD HA); lra). apply Rabs_le_inv in H. lra. }
  apply IZR_le in L. rewrite !mult_IZR, !minus_IZR, x_val, x0_val in L. change (IZR 1) with 1 in L. change (IZR 2) with 2 in L.
  set (N := IZR n) in *. set (J := IZR j) in *. set (G := IZR g) in *. set (H := IZR h) in *. set (xx := 4 * N + 4 * J + 1) in *. set (y := 4 * N - 3) in *.
  assert (X5 : 5 <= xx) by (unfold xx; lra). assert (Y5 : 5 <= y) by (unfold y; lra).
  set (g2 := (G - 2) * (G - 2)) in *. assert (G2 : 0 <= g2) by (unfold g2; nra).
  (* divide by xx - 1 *)
  assert (L2 : g2 * (xx + 1) * (y - 1) <= y * y * (H * H)).
  { apply Rmult_le_reg_r with (xx - 1); [lra|]. replace (y * y * (H * H) * (xx - 1)) with (y * H * (y * H) * (xx - 1)) by ring. eapply Rle_trans; [|exact L].
    replace (g2 * (xx + 1) * (y - 1) * (xx - 1)) with (g2 * (y - 1) * (xx * xx - 1)) by ring. replace (g2 * (xx * xx) * (y - 1)) with (g2 * (y - 1) * (xx * xx)) by ring.
    apply Rmult_le_compat_l; [nra|lra]. }
  assert (B : 4 * (X * X + A * (J - 1)) <= a * (xx + 1)) by (unfold xx; lra).
  (* y^2 <= (y + 5) (y - 1) *)
  assert (S2 : H * H * a * (98 / 100 * (y + 5)) <= 10343 / 10000 * (K * K)) by (replace (y + 5) with (4 * N + 2) by (unfold y; ring); exact S).
  assert (HH : 0 <= H * H) by nra.
  assert (L3 : g2 * (xx + 1) * a * (98 / 100) <= 10343 / 10000 * (K * K)).
  { apply Rmult_le_reg_r with (y - 1); [lra|].
    apply Rle_trans with (a * (98 / 100) * (y * y * (H * H))); [replace (g2 * (xx + 1) * a * (98 / 100) * (y - 1)) with (a * (98 / 100) * (g2 * (xx + 1) * (y - 1))) by ring; apply Rmult_le_compat_l; [lra|exact L2]|].
    apply Rle_trans with (H * H * a * (98 / 100 * (y + 5)) * (y - 1)); [|apply Rmult_le_compat_r; [lra|exact S2]].
    replace (H * H * a * (98 / 100 * (y + 5)) * (y - 1)) with (a * (98 / 100) * (H * H) * ((y + 5) * (y - 1))) by ring.
    replace (a * (98 / 100) * (y * y * (H * H))) with (a * (98 / 100) * (H * H) * (y * y)) by ring. apply Rmult_le_compat_l; [nra|nra]. }
  assert (Gq : 998 / 1000 * (G * G) <= g2) by (unfold g2; nra).
  assert (XA : 0 <= a * (xx + 1)) by nra.
  apply Rmult_le_reg_r with (10343 / 10000); [lra|]. rewrite (Rmult_comm (K * K)). eapply Rle_trans; [|exact L3].
  replace (g2 * (xx + 1) * a * (98 / 100)) with (98 / 100 * g2 * (a * (xx + 1))) by ring.
  apply Rle_trans with (9732 / 10000 * (G * G) * (a * (xx + 1))).
  - assert (0 <= G * G) by nra. replace (4 * (G * G) * (X * X + A * (J - 1)) * (9409 / 10000) * (10343 / 10000)) with (9409 / 10000 * (10343 / 10000) * (G * G) * (4 * (X * X + A * (J - 1)))) by ring.
    apply Rle_trans with (9409 / 10000 * (10343 / 10000) * (G * G) * (a * (xx + 1))); [apply Rmult_le_compat_l; [nra|exact B]|]. apply Rmult_le_compat_r; [exact XA|]. nra.
  - apply Rmult_le_compat_r; [exact XA|]. lra.
Qed.
End Up.

Section Down.
Variables (X A a s : R) (D n h : Z).
Hypothesis R : ramp_ok X A D n h a s.
Hypothesis HD : (1 <= D)%Z.
Hypothesis HA : 10 <= A.
Hypothesis Hn : (2 * D <= n)%Z.
Variables (j g : Z).
Hypothesis Hj : (0 <= j < 2 * D)%Z.
Let z := dx (n - (j + 1)).
Let z0 := dx n.

Lemma z_val : IZR z = 4 * IZR n - 4 * IZR j - 1.
Proof. unfold z, dx. rewrite plus_IZR, mult_IZR, minus_IZR, plus_IZR. change (IZR 4) with 4. change (IZR 3) with 3. change (IZR 1) with 1. ring. Qed.
Lemma z0_val : IZR z0 = 4 * IZR n + 3.
Proof. unfold z0, dx. rewrite plus_IZR, mult_IZR. reflexivity. Qed.
Lemma z_low : 3 <= 4 * IZR n - 4 * IZR j - 1.
Proof. assert (IZR j + 1 <= IZR n) by (rewrite <- plus_IZR; apply IZR_le; lia). lra. Qed.

Lemma down_fast : (0 <= g)%Z -> (h * h * (z0 * z0) * (z + 1) <= (g + 1) * (g + 1) * (z * z) * (z0 + 1))%Z ->
  966 / 1000 * (K * K) <= 4 * ((IZR g + 1) * (IZR g + 1)) * (X * X - A * (IZR j - 2 / 10)).
Proof.
  intros Hg L. destruct (start_sq _ _ _ _ _ _ _ R ltac:(lia)) as [S _]. pose proof (ro_index _ _ _ _ _ _ _ R) as Ix. apply Rabs_le_inv in Ix.
  pose proof (ro_range _ _ _ _ _ _ _ R) as Ra. pose proof (idx_j D j Hj) as Ij. assert (In : 1 <= IZR n) by (apply IZR_le; lia). pose proof z_low as Zl.
  assert (Dr : Rabs (a * IZR j - A * IZR j) <= 4 / 100 * A) by (apply (drift _ _ _ _ _ _ _ _ R HD HA); lra). apply Rabs_le_inv in Dr.
  assert (EA : a <= 104 / 100 * A). { assert (Rabs (a * 1 - A * 1) <= 4 / 100 * A) by (apply (drift _ _ _ _ _ _ _ _ R HD HA); lra). apply Rabs_le_inv in H. lra. }
  apply IZR_le in L. rewrite !mult_IZR, !plus_IZR, z_val, z0_val in L. change (IZR 1) with 1 in L.
  set (N := IZR n) in *. set (J := IZR j) in *. set (G := IZR g + 1) in *. set (HH := IZR h * IZR h) in *. set (zz := 4 * N - 4 * J - 1) in *. set (y := 4 * N + 3) in *.
  assert (Y7 : 7 <= y) by (unfold y; lra). assert (GG : 0 <= G * G) by nra.
  replace (4 * N + 2) with (y - 1) in S by (unfold y; ring).
  assert (L2 : 966 / 1000 * (K * K) * (zz + 1) <= a * (G * G) * (zz * zz)).
  { apply Rmult_le_reg_r with (y * y); [nra|].
    apply Rle_trans with (a * (y - 1) * (HH * (y * y) * (zz + 1))).
    { replace (a * (y - 1) * (HH * (y * y) * (zz + 1))) with (HH * a * (y - 1) * ((zz + 1) * (y * y))) by ring.
      replace (966 / 1000 * (K * K) * (zz + 1) * (y * y)) with (966 / 1000 * (K * K) * ((zz + 1) * (y * y))) by ring. apply Rmult_le_compat_r; [nra|exact S]. }
    apply Rle_trans with (a * (y - 1) * (G * G * (zz * zz) * (y + 1))); [apply Rmult_le_compat_l; [nra|exact L]|].
    replace (a * (y - 1) * (G * G * (zz * zz) * (y + 1))) with (a * (G * G) * (zz * zz) * (y * y - 1)) by ring.
    apply Rmult_le_compat_l; [|lra]. apply Rmult_le_pos; nra. }
  assert (Zq : zz * zz <= (zz - 3 / 4) * (zz + 1)) by nra.
  assert (B : a * (zz - 3 / 4) <= 4 * (X * X - A * (J - 2 / 10))) by (unfold zz; lra).
  apply Rmult_le_reg_r with (zz + 1); [lra|]. eapply Rle_trans; [exact L2|].
  apply Rle_trans with (a * (G * G) * ((zz - 3 / 4) * (zz + 1))); [apply Rmult_le_compat_l; [nra|exact Zq]|].
  replace (a * (G * G) * ((zz - 3 / 4) * (zz + 1))) with (G * G * (zz + 1) * (a * (zz - 3 / 4))) by ring.
  replace (4 * (G * G) * (X * X - A * (J - 2 / 10)) * (zz + 1)) with (G * G * (zz + 1) * (4 * (X * X - A * (J - 2 / 10)))) by ring.
  apply Rmult_le_compat_l; [nra|exact B].
Qed.

Lemma down_slow : (2304 <= h <= g)%Z -> ((g + 1) * (g + 1) * (z * z) * (6 * z0 + 7) <= (h + 1) * (h + 1) * (z0 * z0) * (6 * z + 7))%Z ->
  4 * (IZR g * IZR g) * (X * X - A * (IZR j + 2)) * (9409 / 10000) <= K * K /\ (g < 2 ^ 30)%Z.
Proof.
  intros Hg L. destruct (start_sq _ _ _ _ _ _ _ R ltac:(lia)) as [_ S]. specialize (S ltac:(lia)). pose proof (ro_index _ _ _ _ _ _ _ R) as Ix. apply Rabs_le_inv in Ix.
  pose proof (ro_range _ _ _ _ _ _ _ R) as Ra. pose proof (idx_j D j Hj) as Ij. assert (In : 2 <= IZR n) by (apply IZR_le; lia). pose proof z_low as Zl.
  assert (Ih : 2304 <= IZR h) by (apply IZR_le; lia). assert (Ig : 2304 <= IZR g) by (apply IZR_le; lia).
  assert (Dr : Rabs (a * IZR j - A * IZR j) <= 4 / 100 * A) by (apply (drift _ _ _ _ _ _ _ _ R HD HA); lra). apply Rabs_le_inv in Dr.
  assert (EA : a <= 104 / 100 * A). { assert (Rabs (a * 1 - A * 1) <= 4 / 100 * A) by (apply (drift _ _ _ _ _ _ _ _ R HD HA); lra). apply Rabs_le_inv in H. lra. }
  apply IZR_le in L. rewrite !mult_IZR, !plus_IZR, !mult_IZR, z_val, z0_val in L. change (IZR 1) with 1 in L. change (IZR 6) with 6 in L. change (IZR 7) with 7 in L.
  set (N := IZR n) in *. set (J := IZR j) in *. set (G := IZR g) in *. set (H := IZR h) in *. set (zz := 4 * N - 4 * J - 1) in *. set (y := 4 * N + 3) in *.
  assert (Y7 : 11 <= y) by (unfold y; lra).
  replace (4 * N + 2) with (y - 1) in S by (unfold y; ring).
  assert (Hq : (H + 1) * (H + 1) <= 1001 / 1000 * (H * H)) by nra.
  assert (Gq : G * G <= (G + 1) * (G + 1)) by nra.
  assert (L2 : G * G * (zz * zz) * (6 * y + 7) <= 1001 / 1000 * (H * H) * (y * y) * (6 * zz + 7)).
  { apply Rle_trans with ((G + 1) * (G + 1) * (zz * zz) * (6 * y + 7)).
    - apply Rmult_le_compat_r; [lra|]. apply Rmult_le_compat_r; [nra|exact Gq].
    - eapply Rle_trans; [exact L|]. apply Rmult_le_compat_r; [lra|]. apply Rmult_le_compat_r; [nra|exact Hq]. }
  assert (HH : 0 <= H * H) by nra. assert (GG : 0 <= G * G) by nra.
  assert (L3 : 98 / 100 * a * (G * G) * (6 * (zz * zz)) <= 1036 / 1000 * (K * K) * (6 * zz + 7)).
  { apply Rmult_le_reg_r with (y * y); [nra|].
    apply Rle_trans with (98 / 100 * a * (y - 1) * (G * G * (zz * zz) * (6 * y + 7))).
    { replace (98 / 100 * a * (y - 1) * (G * G * (zz * zz) * (6 * y + 7))) with (98 / 100 * a * (G * G) * (zz * zz) * ((y - 1) * (6 * y + 7))) by ring.
      replace (98 / 100 * a * (G * G) * (6 * (zz * zz)) * (y * y)) with (98 / 100 * a * (G * G) * (zz * zz) * (6 * (y * y))) by ring.
      apply Rmult_le_compat_l; [|nra]. apply Rmult_le_pos; nra. }
    apply Rle_trans with (98 / 100 * a * (y - 1) * (1001 / 1000 * (H * H) * (y * y) * (6 * zz + 7))); [apply Rmult_le_compat_l; [nra|exact L2]|].
    replace (98 / 100 * a * (y - 1) * (1001 / 1000 * (H * H) * (y * y) * (6 * zz + 7))) with (H * H * a * (98 / 100 * (y - 1)) * (1001 / 1000 * ((y * y) * (6 * zz + 7)))) by ring.
    apply Rle_trans with (10343 / 10000 * (K * K) * (1001 / 1000 * ((y * y) * (6 * zz + 7)))); [apply Rmult_le_compat_r; [nra|exact S]|].
    replace (1036 / 1000 * (K * K) * (6 * zz + 7) * (y * y)) with (1036 / 1000 * (K * K) * (y * y * (6 * zz + 7))) by ring.
    assert (0 <= K * K * (y * y * (6 * zz + 7))) by (apply Rmult_le_pos; [unfold K; lra|nra]). nra. }
  assert (L4 : 98 / 100 * (G * G) * (a * (zz - 7 / 6)) <= 1036 / 1000 * (K * K)).
  { apply Rmult_le_reg_r with (6 * zz + 7); [lra|]. eapply Rle_trans; [|exact L3].
    replace (98 / 100 * (G * G) * (a * (zz - 7 / 6)) * (6 * zz + 7)) with (98 / 100 * a * (G * G) * (6 * (zz * zz) - 49 / 6)) by field.
    apply Rmult_le_compat_l; [nra|lra]. }
  assert (B : 4 * (X * X - A * (J + 2)) <= a * (zz - 7 / 6)) by (unfold zz; lra).
  split.
  - apply Rmult_le_reg_r with (1036 / 1000); [lra|]. rewrite (Rmult_comm (K * K)). eapply Rle_trans; [|exact L4].
    replace (4 * (G * G) * (X * X - A * (J + 2)) * (9409 / 10000) * (1036 / 1000)) with (9409 / 10000 * (1036 / 1000) * (G * G) * (4 * (X * X - A * (J + 2)))) by ring.
    apply Rle_trans with (9409 / 10000 * (1036 / 1000) * (G * G) * (a * (zz - 7 / 6))); [apply Rmult_le_compat_l; [nra|exact B]|].
    apply Rmult_le_compat_r; [nra|]. lra.
  - apply lt_IZR. fold G. change (IZR (2 ^ 30)) with 1073741824.
    assert (16 <= a * (zz - 7 / 6)) by nra. assert (G * G * 16 <= G * G * (a * (zz - 7 / 6))) by (apply Rmult_le_compat_l; lra).
    unfold K in *. nra.
Qed.
End Down.

(** From (nearly) standstill: the index is 0. *)
Section Zero.
Variables (X A a s : R) (D h : Z).
Hypothesis R : ramp_ok X A D 0 h a s.
Hypothesis HD : (1 <= D)%Z.
Hypothesis HA : 10 <= A.
Variables (j g : Z).
Hypothesis Hj : (0 <= j < 2 * D)%Z.

Lemma zero_sq : 4556 / 10000 * (K * K) <= IZR h * IZR h * a <= 4585 / 10000 * (K * K).
Proof.
  pose proof (ro_zero _ _ _ _ _ _ _ R eq_refl) as Z. apply Rabs_le_inv in Z. pose proof (ro_s _ _ _ _ _ _ _ R) as Ps. pose proof (ro_a _ _ _ _ _ _ _ R) as Ea.
  replace (IZR h * IZR h * a) with (IZR h * s * (IZR h * s)) by (rewrite <- Ea; ring). set (y := IZR h * s) in *. unfold K in *. split; nra.
Qed.
Lemma zero_X : 0 <= X * X <= 53 / 100 * a.
Proof. pose proof (ro_index _ _ _ _ _ _ _ R) as Ix. apply Rabs_le_inv in Ix. rewrite Rmult_0_l in Ix. split; [nra|lra]. Qed.
Lemma zero_a : a <= 104 / 100 * A /\ 96 / 100 * A <= a.
Proof. assert (E : Rabs (a * 1 - A * 1) <= 4 / 100 * A) by (apply (drift _ _ _ _ _ _ _ _ R HD HA); assert (1 <= IZR D) by (apply IZR_le; lia); lra). apply Rabs_le_inv in E. lra. Qed.
Lemma zero_h : (9600 <= h)%Z.
Proof.
  destruct zero_sq as [L _]. pose proof (ro_range _ _ _ _ _ _ _ R) as Ra. assert (Ph : 0 <= IZR h) by (apply IZR_le; apply (ro_h _ _ _ _ _ _ _ R)).
  apply le_IZR. unfold K in L. assert (Q : IZR h * IZR h * a <= IZR h * IZR h * 50000000000) by (apply Rmult_le_compat_l; nra). nra.
Qed.
Lemma zero_h_high : (h < 2 ^ 30)%Z.
Proof.
  destruct zero_sq as [_ U]. pose proof (ro_range _ _ _ _ _ _ _ R) as Ra. apply lt_IZR. change (IZR (2 ^ 30)) with 1073741824.
  unfold K in U. assert (Q : IZR h * IZR h * 9 <= IZR h * IZR h * a) by (apply Rmult_le_compat_l; nra). nra.
Qed.

Let fast := 966 / 1000 * (K * K) <= 4 * (IZR g * IZR g) * (X * X + A * (IZR j + 12 / 10)).
Let slow := 4 * (IZR g * IZR g) * (X * X + A * (IZR j - 1)) * (9409 / 10000) <= K * K.

Lemma zero_first : j = 0%Z -> g = h -> fast /\ slow.
Proof.
  intros -> ->. destruct zero_sq as [L U]. destruct zero_X as [X1 X2]. destruct zero_a as [A1 A2]. unfold fast, slow. set (HH := IZR h * IZR h) in *.
  assert (H0 : 0 <= HH) by (unfold HH; nra). assert (KK : 0 <= K * K) by (unfold K; lra). change (IZR 0) with 0. split.
  - assert (HH * (4 / 104 * 100 * (12 / 10) * a) <= HH * (4 * (X * X + A * (0 + 12 / 10)))) by (apply Rmult_le_compat_l; lra). nra.
  - assert (X * X + A * (0 - 1) <= 0) by lra. assert (HH * (X * X + A * (0 - 1)) <= 0) by nra. nra.
Qed.

Lemma zero_second : j = 1%Z -> (3 * h <= 5 * g <= 3 * h + 4)%Z -> fast /\ slow.
Proof.
  intros -> [L1 L2]. apply IZR_le in L1, L2. repeat (rewrite ?plus_IZR, ?mult_IZR in L1). repeat (rewrite ?plus_IZR, ?mult_IZR in L2). change (IZR 5) with 5 in *. change (IZR 3) with 3 in *. change (IZR 4) with 4 in *. change (IZR 1) with 1 in *.
  destruct zero_sq as [L U]. destruct zero_X as [X1 X2]. destruct zero_a as [A1 A2]. unfold fast, slow. change (IZR 1) with 1. pose proof (IZR_le _ _ zero_h) as Bh. change (IZR 9600) with 9600 in Bh.
  set (G := IZR g) in *. set (H := IZR h) in *. assert (KK : 0 <= K * K) by (unfold K; lra).
  assert (G1 : 36 / 100 * (H * H) <= G * G) by nra. assert (G2 : G * G <= 3602 / 10000 * (H * H)) by nra.
  pose proof (ro_range _ _ _ _ _ _ _ R) as Ra. assert (H0 : 0 <= H * H) by nra.
  assert (Ga : 36 / 100 * (H * H * a) <= G * G * a <= 3602 / 10000 * (H * H * a)) by (split; nra). assert (G0 : 0 <= G * G) by nra. split.
  - assert (G * G * (6 * a) <= G * G * (4 * (X * X + A * (1 + 12 / 10)))) by (apply Rmult_le_compat_l; lra). lra.
  - assert (G * G * (X * X + A * (1 - 1)) <= G * G * (53 / 100 * a)) by (apply Rmult_le_compat_l; lra). lra.
Qed.

(** From the third pass on: the recurrence anchored at index 3. *)
Let x := ux (3 + (j - 2)).
Lemma zero_x : IZR x = 4 * IZR j + 1.
Proof. unfold x, ux. rewrite minus_IZR, mult_IZR, plus_IZR, minus_IZR. change (IZR 4) with 4. change (IZR 3) with 3. change (IZR 2) with 2. ring. Qed.

Lemma zero_later : forall g0, (2 <= j)%Z -> (2304 <= g)%Z -> (21 * h <= 5 * g0 <= 21 * h + 8)%Z ->
  (g0 * g0 * ((x - 1) * (9 + 1)) <= g * g * (x * x) * (9 * 9))%Z -> ((g - 2) * (g - 2) * (x * x) * (9 - 1) <= g0 * g0 * (x - 1))%Z -> fast /\ slow.
Proof.
  intros g0 J2 Hg [L1 L2] Lo Hi. apply IZR_le in L1, L2, Lo, Hi.
  repeat (rewrite ?plus_IZR, ?mult_IZR in L1). repeat (rewrite ?plus_IZR, ?mult_IZR in L2). change (9 + 1)%Z with 10%Z in Lo. change (9 * 9)%Z with 81%Z in Lo. change (9 - 1)%Z with 8%Z in Hi.
  repeat (rewrite ?mult_IZR, ?minus_IZR, ?zero_x in Lo). repeat (rewrite ?mult_IZR, ?minus_IZR, ?zero_x in Hi). change (IZR 10) with 10 in Lo. change (IZR 81) with 81 in Lo. change (IZR 9) with 9 in *. change (IZR 5) with 5 in *. change (IZR 21) with 21 in *. change (IZR 8) with 8 in *. change (IZR 2) with 2 in *. change (IZR 1) with 1 in *.
  destruct zero_sq as [L U]. destruct zero_X as [X1 X2]. destruct zero_a as [A1 A2]. unfold fast, slow. pose proof (IZR_le _ _ zero_h) as Bh. change (IZR 9600) with 9600 in Bh.
  assert (Ij : 2 <= IZR j) by (apply IZR_le; lia). assert (Ig : 2304 <= IZR g) by (apply IZR_le; lia). pose proof (idx_j D j Hj) as Id.
  assert (Dr : Rabs (a * IZR j - A * IZR j) <= 4 / 100 * A) by (apply (drift _ _ _ _ _ _ _ _ R HD HA); lra). apply Rabs_le_inv in Dr.
  set (G := IZR g) in *. set (H := IZR h) in *. set (G0 := IZR g0) in *. set (J := IZR j) in *. assert (KK : 0 <= K * K) by (unfold K; lra).
  assert (Q1 : 1764 / 100 * (H * H) <= G0 * G0). { assert (21 * H * (21 * H) <= 5 * G0 * (5 * G0)) by (apply Rmult_le_compat; lra). lra. }
  assert (Q2 : G0 * G0 <= 1766 / 100 * (H * H)). { assert (5 * G0 * (5 * G0) <= 21001 / 1000 * H * (21001 / 1000 * H)) by (apply Rmult_le_compat; lra). nra. }
  pose proof (ro_range _ _ _ _ _ _ _ R) as Ra. assert (H0 : 0 <= H * H) by nra. assert (GG : 0 <= G * G) by nra.
  set (xx := 4 * J + 1) in *. assert (X9 : 9 <= xx) by (unfold xx; lra). split.
  - assert (Xq : xx * xx <= (xx + 9 / 8) * (xx - 1)) by nra.
    assert (M : 10 * (G0 * G0) <= 81 * (G * G) * (xx + 9 / 8)).
    { apply Rmult_le_reg_r with (xx - 1); [lra|]. replace (10 * (G0 * G0) * (xx - 1)) with (G0 * G0 * ((xx - 1) * 10)) by ring. eapply Rle_trans; [exact Lo|].
      replace (G * G * (xx * xx) * 81) with (81 * (G * G) * (xx * xx)) by ring. replace (81 * (G * G) * (xx + 9 / 8) * (xx - 1)) with (81 * (G * G) * ((xx + 9 / 8) * (xx - 1))) by ring. apply Rmult_le_compat_l; lra. }
    assert (B : a * (xx + 9 / 8) <= 4 * (X * X + A * (J + 12 / 10))) by (unfold xx; lra).
    assert (M2 : 1764 / 10 * (H * H * a) <= 81 * (G * G) * (a * (xx + 9 / 8))).
    { replace (81 * (G * G) * (a * (xx + 9 / 8))) with (a * (81 * (G * G) * (xx + 9 / 8))) by ring. replace (1764 / 10 * (H * H * a)) with (a * (10 * (1764 / 100 * (H * H)))) by field. apply Rmult_le_compat_l; lra. }
    assert (M3 : 81 * (G * G) * (a * (xx + 9 / 8)) <= 81 * (G * G) * (4 * (X * X + A * (J + 12 / 10)))) by (apply Rmult_le_compat_l; lra). lra.
  - set (g2 := (G - 2) * (G - 2)) in *. assert (G2 : 0 <= g2) by (unfold g2; nra). assert (Gq : 998 / 1000 * (G * G) <= g2) by (unfold g2; nra).
    assert (M : g2 * (xx + 1) * 8 <= G0 * G0).
    { apply Rmult_le_reg_r with (xx - 1); [lra|]. eapply Rle_trans; [|exact Hi]. replace (g2 * (xx + 1) * 8 * (xx - 1)) with (g2 * 8 * (xx * xx - 1)) by ring. replace (g2 * (xx * xx) * 8) with (g2 * 8 * (xx * xx)) by ring. apply Rmult_le_compat_l; lra. }
    assert (B : 4 * (X * X + A * (J - 1)) <= a * (xx + 1)) by (unfold xx; lra). assert (B0 : 0 <= a * (xx + 1)) by nra.
    assert (M2 : g2 * (a * (xx + 1)) * 8 <= 1766 / 100 * (H * H * a)).
    { replace (g2 * (a * (xx + 1)) * 8) with (a * (g2 * (xx + 1) * 8)) by ring. replace (1766 / 100 * (H * H * a)) with (a * (1766 / 100 * (H * H))) by ring. apply Rmult_le_compat_l; lra. }
    assert (M3 : 998 / 1000 * (G * G) * (a * (xx + 1)) <= g2 * (a * (xx + 1))) by (apply Rmult_le_compat_r; lra).
    assert (M4 : G * G * (4 * (X * X + A * (J - 1))) <= G * G * (a * (xx + 1))) by (apply Rmult_le_compat_l; lra). lra.
Qed.
End Zero.
