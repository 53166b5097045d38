(** What the firmware does with the delays of a ramp: every pass is one step of the recurrence. *)
From Verif Require Import Base Model_MotorOps Model_Pru Spec_Motion Proofs_Pru Proofs_Law.
Open Scope Z_scope.

Definition hires_of (s : Z * Z * Z) : Z := snd (fst s).

(** The delays behind the first [k] steps. *)
Fixpoint along (next : Z * Z * Z -> Z * Z * Z) (k : nat) (s : Z * Z * Z) : list Z :=
  match k with O => [] | S k' => hires_of (next s) :: along next k' (next s) end.

Lemma iter_r : forall (A : Type) (f : A -> A) n x, Nat.iter n f (f x) = Nat.iter (S n) f x.
Proof. intros A f n x. induction n as [|n IH]; [reflexivity|]. change (f (Nat.iter n f (f x)) = f (Nat.iter (S n) f x)). now rewrite IH. Qed.

Lemma along_length : forall next k s, length (along next k s) = k.
Proof. induction k as [|k IH]; intros s; [reflexivity|]. cbn [along length]. now rewrite IH. Qed.

Lemma along_nth : forall next k s i, (i < k)%nat -> nth i (along next k s) 0 = hires_of (Nat.iter (S i) next s).
Proof.
  induction k as [|k IH]; intros s i Hi; [lia|]. destruct i as [|i]; [reflexivity|].
  cbn [along nth]. rewrite IH by lia. now rewrite iter_r.
Qed.

Lemma up_next_bounds : forall n h r, 1 <= n -> 0 <= h -> 0 <= r < ux n -> 0 <= hires_of (up_next (n, h, r)) <= h.
Proof.
  intros n h r Hn Hh Hr. unfold up_next, hires_of, ux in *. cbn [fst snd].
  pose proof (Z.div_pos (2 * h + r) (4 * n + 1) ltac:(lia) ltac:(lia)).
  assert ((2 * h + r) / (4 * n + 1) <= h).
  { apply Z.lt_succ_r. apply Z.div_lt_upper_bound; [lia|]. nia. }
  lia.
Qed.

Lemma delays_up : forall k t, t_ok t -> t_accel t = Z.of_nat k -> t_travel t = 0 -> t_decel t = 0 ->
  1 <= t_series t -> t_series t + Z.of_nat k < 2 ^ 29 -> 0 <= t_hires t < 2 ^ 30 -> 0 <= t_rem t < ux (t_series t) ->
  delays k t = map (fun h => u32 (h / 32 - 69)) (along up_next k (t_series t, t_hires t, t_rem t)).
Proof.
  induction k as [|k IH]; intros t Ht Ha Htr Hd Hn Hn2 Hh Hr; [reflexivity|].
  pose proof (up_next_bounds (t_series t) (t_hires t) (t_rem t) Hn ltac:(lia) Hr) as Hb.
  pose proof (up_eq (t_series t) (t_hires t) (t_rem t) Hn) as He.
  destruct (calculate_delay_step t Ht ltac:(unfold t_loops; lia)) as [Ht' Hl'].
  assert (E : calculate_delay t = (u32 (hires_of (up_next (t_series t, t_hires t, t_rem t)) / 32 - 69),
    {| t_accel := Z.of_nat k; t_travel := 0; t_decel := 0; t_series := t_series t + 1;
       t_hires := hires_of (up_next (t_series t, t_hires t, t_rem t)); t_travel_delay := t_travel_delay t;
       t_rem := snd (up_next (t_series t, t_hires t, t_rem t)) |})).
  { unfold calculate_delay. rewrite Ha, Htr, Hd. replace (Z.of_nat (S k) =? 0) with false by lia. cbn [negb].
    replace (t_series t =? 0) with false by lia. unfold ux in *.
    assert (U1 : u32 (2 * t_hires t) = 2 * t_hires t) by (unfold u32; apply Z.mod_small; lia).
    assert (U2 : u32 (4 * t_series t) = 4 * t_series t) by (unfold u32; apply Z.mod_small; lia).
    rewrite U1, U2.
    assert (U3 : u32 (2 * t_hires t + t_rem t) = 2 * t_hires t + t_rem t) by (unfold u32; apply Z.mod_small; lia).
    assert (U4 : u32 (4 * t_series t + 1) = 4 * t_series t + 1) by (unfold u32; apply Z.mod_small; lia).
    rewrite U3, U4, idiv_correct by lia.
    unfold up_next, hires_of in *. cbn [fst snd] in *.
    assert (U5 : u32 (t_hires t - (2 * t_hires t + t_rem t) / (4 * t_series t + 1)) = t_hires t - (2 * t_hires t + t_rem t) / (4 * t_series t + 1)) by (unfold u32; apply Z.mod_small; lia).
    assert (U6 : u32 (t_series t + 1) = t_series t + 1) by (unfold u32; apply Z.mod_small; lia).
    assert (U7 : u16 (Z.of_nat (S k) - 1) = Z.of_nat k) by (rewrite u16_pred; [lia|unfold t_ok in Ht; lia]).
    rewrite U5, U6, U7. reflexivity. }
  cbn [delays along map]. rewrite E in *. cbn [fst snd] in *. f_equal.
  destruct (up_next (t_series t, t_hires t, t_rem t)) as [[n' h'] r'] eqn:En. unfold hires_of in *. cbn [fst snd] in *.
  destruct He as (_ & Hr' & ->).
  rewrite IH; cbn [t_accel t_travel t_decel t_series t_hires t_rem]; try assumption; try lia. reflexivity.
Qed.

Lemma delays_down : forall k t, t_ok t -> t_decel t = Z.of_nat k -> t_travel t = 0 -> t_accel t = 0 ->
  Z.of_nat k <= t_series t -> t_series t < 2 ^ 29 -> 0 <= t_hires t < 2 ^ 30 -> 0 <= t_rem t < dx (t_series t) ->
  Forall (fun h => h < 2 ^ 30) (along down_next k (t_series t, t_hires t, t_rem t)) ->
  delays k t = map (fun h => u32 (h / 32 - 70)) (along down_next k (t_series t, t_hires t, t_rem t)).
Proof.
  induction k as [|k IH]; intros t Ht Hd Htr Ha Hn Hn2 Hh Hr Hf; [reflexivity|].
  cbn [along] in Hf. apply Forall_cons_iff in Hf. destruct Hf as [Hf1 Hf2].
  assert (Hn1 : 1 <= t_series t) by lia.
  pose proof (down_eq (t_series t) (t_hires t) (t_rem t) Hn1) as He.
  destruct (calculate_delay_step t Ht ltac:(unfold t_loops; lia)) as [Ht' Hl'].
  pose proof (Z.div_pos (2 * t_hires t + t_rem t) (4 * t_series t - 1) ltac:(lia) ltac:(lia)) as Hq.
  assert (E : calculate_delay t = (u32 (hires_of (down_next (t_series t, t_hires t, t_rem t)) / 32 - 70),
    {| t_accel := 0; t_travel := 0; t_decel := Z.of_nat k; t_series := t_series t - 1;
       t_hires := hires_of (down_next (t_series t, t_hires t, t_rem t)); t_travel_delay := t_travel_delay t;
       t_rem := snd (down_next (t_series t, t_hires t, t_rem t)) |})).
  { unfold calculate_delay. rewrite Ha, Htr, Hd. cbn [Z.eqb negb]. replace (Z.of_nat (S k) =? 0) with false by lia. unfold dx in *.
    assert (U1 : u32 (2 * t_hires t) = 2 * t_hires t) by (unfold u32; apply Z.mod_small; lia).
    assert (U2 : u32 (4 * t_series t) = 4 * t_series t) by (unfold u32; apply Z.mod_small; lia).
    rewrite U1, U2.
    assert (U3 : u32 (2 * t_hires t + t_rem t) = 2 * t_hires t + t_rem t) by (unfold u32; apply Z.mod_small; lia).
    assert (U4 : u32 (4 * t_series t - 1) = 4 * t_series t - 1) by (unfold u32; apply Z.mod_small; lia).
    rewrite U3, U4, idiv_correct by lia.
    unfold down_next, hires_of in *. cbn [fst snd] in *.
    assert (U5 : u32 (t_hires t + (2 * t_hires t + t_rem t) / (4 * t_series t - 1)) = t_hires t + (2 * t_hires t + t_rem t) / (4 * t_series t - 1)) by (unfold u32; apply Z.mod_small; lia).
    assert (U6 : u32 (t_series t - 1) = t_series t - 1) by (unfold u32; apply Z.mod_small; lia).
    assert (U7 : u16 (Z.of_nat (S k) - 1) = Z.of_nat k) by (rewrite u16_pred; [lia|unfold t_ok in Ht; lia]).
    rewrite U5, U6, U7. reflexivity. }
  cbn [delays along map]. rewrite E in *. cbn [fst snd] in *. f_equal.
  assert (Hhp : 0 <= hires_of (down_next (t_series t, t_hires t, t_rem t))) by (unfold down_next, hires_of; cbn [fst snd]; lia).
  destruct (down_next (t_series t, t_hires t, t_rem t)) as [[n' h'] r'] eqn:En. unfold hires_of in *. cbn [fst snd] in *.
  destruct He as (_ & Hr' & ->).
  rewrite IH; cbn [t_accel t_travel t_decel t_series t_hires t_rem]; try assumption; try lia. reflexivity.
Qed.

(** The busy loops of the passes. *)
Lemma step_gen_delays : forall n fr ms t c, t_ok t -> t_loops t = Z.of_nat n -> Forall (fun d => 2 < d < 2 ^ 32) (delays n t) ->
  exists ls, step_gen (S n) fr ms t c = Some ls /\ map pl_delay ls = map (fun d => d - 2) (delays n t) ++ [0].
Proof.
  induction n as [|n IH]; intros fr ms t c Ht Hl Hf.
  - cbn [step_gen]. rewrite (calculate_delay_end t Ht Hl). cbn [Z.eqb]. eexists. split; reflexivity.
  - destruct (calculate_delay_step t Ht ltac:(lia)) as [Ht' Hl']. cbn [delays] in Hf. apply Forall_cons_iff in Hf. destruct Hf as [H1 H2].
    remember (S n) as n1. cbn [step_gen]. subst n1. cbn [delays].
    destruct (calculate_delay t) as [dl t'] eqn:Ec. cbn [fst snd] in *.
    replace (dl =? 0) with false by lia.
    destruct (IH fr (fun m => u32 (ms m + fr m)) t' (c - 1) Ht' ltac:(lia) H2) as (ls & Hls & Hd). rewrite Hls.
    eexists. split; [reflexivity|]. cbn [map pl_delay app]. rewrite Hd. f_equal.
    change (4 / 2) with 2. assert (U : u32 (dl - 2) = dl - 2) by (unfold u32; apply Z.mod_small; lia). rewrite U. replace (dl - 2 =? 0) with false by lia. reflexivity.
Qed.
