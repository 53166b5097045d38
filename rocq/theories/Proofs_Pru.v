From Verif Require Import Base Model_MotorOps Model_Pru Model_Sim Spec_Motion Proofs_MotorOps.

(** *** Division *)

Definition idiv_inv (N d : Z) (k : nat) (hl : Z * Z) : Prop :=
  (k <= 32)%nat /\
  let p := N / 2 ^ (32 - Z.of_nat k) in
  fst hl = p mod d /\
  snd hl = (N mod 2 ^ (32 - Z.of_nat k)) * 2 ^ Z.of_nat k + p / d.

Lemma idiv_step_inv N d k hl : 0 <= N < 2 ^ 32 -> 1 <= d -> (k < 32)%nat ->
  idiv_inv N d k hl -> idiv_inv N d (S k) (idiv_step d hl).
Proof.
  intros HN Hd Hk [Hk32 HI]. destruct hl as [hi lo]. cbn [fst snd] in HI.
  set (j := 31 - Z.of_nat k).
  assert (Hj : 0 <= j <= 31) by lia.
  replace (32 - Z.of_nat k) with (j + 1) in HI by lia.
  destruct HI as [Hhi Hlo].
  unfold idiv_inv. split; [lia|].
  replace (32 - Z.of_nat (S k)) with j by lia.
  rewrite Nat2Z.inj_succ, Z.pow_succ_r by lia.
  rewrite Z.pow_add_r in Hhi, Hlo by lia. change (2 ^ 1) with 2 in *.
  set (J := 2 ^ j) in *.
  assert (HJ : 0 < J) by (apply Z.pow_pos_nonneg; lia).
  assert (HJK : J * 2 * 2 ^ Z.of_nat k = 2 ^ 32).
  { unfold J. rewrite <- Z.mul_assoc, <- Z.pow_succ_r, <- Z.pow_add_r by lia. f_equal. lia. }
  set (K := 2 ^ Z.of_nat k) in *.
  assert (HK : 0 < K) by (apply Z.pow_pos_nonneg; lia).
  (* decompose N = P*2J + b*J + r *)
  set (P := N / (J * 2)) in *. set (R := N mod (J * 2)) in *.
  assert (EN : N = (J * 2) * P + R) by (apply Z.div_mod; lia).
  assert (BR : 0 <= R < J * 2) by (apply Z.mod_pos_bound; lia).
  set (b := R / J). set (r := R mod J).
  assert (ER : R = J * b + r) by (apply Z.div_mod; lia).
  assert (Br : 0 <= r < J) by (apply Z.mod_pos_bound; lia).
  assert (Bb : 0 <= b <= 1) by nia.
  assert (HP0 : 0 <= P) by (apply Z.div_pos; lia).
  assert (EP : N / J = 2 * P + b).
  { symmetry. apply Z.div_unique with (r := r); [left; lia|]. nia. }
  assert (Er : N mod J = r).
  { symmetry. apply Z.mod_unique with (q := 2 * P + b); [left; lia|]. nia. }
  rewrite EP, Er.
  set (Q := P / d) in *. set (M := P mod d) in *.
  assert (EPd : P = d * Q + M) by (apply Z.div_mod; lia).
  assert (BM : 0 <= M < d) by (apply Z.mod_pos_bound; lia).
  assert (HQ0 : 0 <= Q) by (apply Z.div_pos; lia).
  assert (HPK : P < K) by nia.
  assert (HQP : Q <= P) by nia.
  assert (HMP : M <= P) by nia.
  assert (HPB : 2 * P + b < 2 ^ 32) by nia.
  (* carry and shifted lo *)
  assert (Hlo2 : lo + lo = b * 2 ^ 32 + (r * (2 * K) + 2 * Q)) by (rewrite Hlo, ER; nia).
  assert (Hsm : 0 <= r * (2 * K) + 2 * Q < 2 ^ 32) by nia.
  assert (Hcarry : (lo + lo) / 2 ^ 32 = b).
  { rewrite Hlo2. symmetry. apply Z.div_unique with (r := r * (2 * K) + 2 * Q); [left; lia|lia]. }
  assert (Hlo1 : u32 (lo + lo) = r * (2 * K) + 2 * Q).
  { unfold u32. rewrite Hlo2. symmetry. apply Z.mod_unique with (q := b); [left; lia|lia]. }
  unfold idiv_step. rewrite Hcarry, Hlo1.
  assert (Hhi1 : u32 (hi + hi + b) = 2 * M + b).
  { unfold u32. rewrite Hhi. rewrite Z.mod_small; lia. }
  rewrite Hhi1.
  destruct (2 * M + b <? d) eqn:Ec; cbn [fst snd].
  - assert (ED : (2 * P + b) / d = 2 * Q).
    { symmetry. apply Z.div_unique with (r := 2 * M + b); [left; lia|nia]. }
    assert (EM : (2 * P + b) mod d = 2 * M + b).
    { symmetry. apply Z.mod_unique with (q := 2 * Q); [left; lia|nia]. }
    rewrite ED, EM. split; lia.
  - assert (ED : (2 * P + b) / d = 2 * Q + 1).
    { symmetry. apply Z.div_unique with (r := 2 * M + b - d); [left; lia|nia]. }
    assert (EM : (2 * P + b) mod d = 2 * M + b - d).
    { symmetry. apply Z.mod_unique with (q := 2 * Q + 1); [left; lia|nia]. }
    rewrite ED, EM. split.
    + unfold u32. rewrite Z.mod_small; lia.
    + replace (r * (2 * K) + 2 * Q) with (2 * (r * K + Q)) by ring.
      rewrite Z.lor_comm.
      assert (Hlor : forall x, Z.lor 1 (2 * x) = 2 * x + 1).
      { intros x. destruct x as [|p|p]; try reflexivity.
        destruct p; reflexivity. }
      rewrite Hlor. lia.
Qed.

Lemma idiv_correct N d : 0 <= N < 2 ^ 32 -> 1 <= d -> idiv N d = (N mod d, N / d).
Proof.
  intros HN Hd.
  assert (H : forall k, (k <= 32)%nat -> idiv_inv N d k (Nat.iter k (idiv_step d) (0, N))).
  { induction k as [|k IH]; intros Hk.
    - unfold idiv_inv. split; [lia|]. cbn [Nat.iter nat_rect fst snd].
      change (32 - Z.of_nat 0) with 32. change (2 ^ Z.of_nat 0) with 1.
      rewrite (Z.div_small N) by lia. rewrite Z.mod_small by lia.
      rewrite (Z.mod_small N) by lia. rewrite Z.div_0_l by lia. split; lia.
    - cbn [Nat.iter nat_rect]. apply idiv_step_inv; try lia. apply IH. lia. }
  specialize (H 32%nat ltac:(lia)). destruct H as [_ [H1 H2]].
  unfold idiv. change (32 - Z.of_nat 32) with 0 in *. change (2 ^ 0) with 1 in *.
  rewrite Z.div_1_r in *. rewrite Z.mod_1_r in H2.
  destruct (Nat.iter 32 (idiv_step d) (0, N)) as [h l]. cbn [fst snd] in *. f_equal; lia.
Qed.

(** *** Delay calculation *)

Definition t_loops (t : travel) : Z := t_accel t + t_travel t + t_decel t.
Definition t_ok (t : travel) : Prop :=
  0 <= t_accel t < 2 ^ 16 /\ 0 <= t_travel t < 2 ^ 16 /\ 0 <= t_decel t < 2 ^ 16.

Lemma calculate_delay_end t : t_ok t -> t_loops t = 0 -> calculate_delay t = (0, t).
Proof.
  unfold t_ok, t_loops, calculate_delay. intros (?&?&?) ?.
  destruct (t_accel t =? 0) eqn:?; [|lia]. destruct (t_travel t =? 0) eqn:?; [|lia].
  destruct (t_decel t =? 0) eqn:?; [|lia]. reflexivity.
Qed.

Lemma u16_pred x : 0 < x < 2 ^ 16 -> u16 (x - 1) = x - 1.
Proof. intros. unfold u16. apply Z.mod_small. lia. Qed.

Lemma calculate_delay_step t : t_ok t -> 0 < t_loops t ->
  t_ok (snd (calculate_delay t)) /\ t_loops (snd (calculate_delay t)) = t_loops t - 1.
Proof.
  unfold t_ok, t_loops, calculate_delay. intros (?&?&?) ?.
  destruct (t_accel t =? 0) eqn:?; cbn [negb].
  - destruct (t_travel t =? 0) eqn:?; cbn [negb].
    + destruct (t_decel t =? 0) eqn:?; [lia|].
      destruct (idiv _ _). cbn. rewrite u16_pred by lia. lia.
    + cbn. rewrite u16_pred by lia. lia.
  - destruct (t_series t =? 0).
    + cbn. rewrite u16_pred by lia. lia.
    + destruct (idiv _ _). cbn. rewrite u16_pred by lia. lia.
Qed.

(** The delay register values of the first [n] passes. *)
Fixpoint delays (n : nat) (t : travel) : list Z :=
  match n with
  | O => []
  | S n' => fst (calculate_delay t) :: delays n' (snd (calculate_delay t))
  end.

Lemma u32_add_l a b : u32 (u32 a + b) = u32 (a + b).
Proof. unfold u32. apply Z.add_mod_idemp_l. lia. Qed.

Definition pin (k f : Z) : bool := Z.testbit (u32 (k * f)) 31.

Fixpoint pins_from (k f : Z) (n : nat) : list bool :=
  match n with O => [] | S n' => pin k f :: pins_from (k + 1) f n' end.

Lemma pin_next ms k f : ms = u32 (k * f) -> Z.testbit (u32 (ms + f)) 31 = pin (k + 1) f.
Proof. intros ->. rewrite u32_add_l. unfold pin. replace ((k + 1) * f) with (k * f + f) by ring. reflexivity. Qed.

Lemma step_gen_spec fr n : forall k ms t c,
  (forall m, ms m = u32 (k * fr m)) -> t_ok t -> t_loops t = Z.of_nat n ->
  ~ In 0 (delays n t) ->
  exists ls, step_gen (S n) fr ms t c = Some ls /\ length ls = S n /\
    (forall m, map (fun l => pl_pins l m) ls = pins_from (k + 1) (fr m) (S n)).
Proof.
  induction n as [|n IH]; intros k ms t c Hms Ht Hl Hd.
  - cbn [step_gen]. rewrite (calculate_delay_end t Ht Hl). cbn [Z.eqb].
    eexists. split; [reflexivity|]. split; [reflexivity|]. intros m. cbn [map pl_pins pins_from]. f_equal.
    apply pin_next, Hms.
  - destruct (calculate_delay_step t Ht ltac:(lia)) as [Ht' Hl'].
    cbn [delays] in Hd. cbn [In] in Hd.
    remember (S n) as n1. cbn [step_gen].
    destruct (calculate_delay t) as [dl t'] eqn:Ec. cbn [fst snd] in *.
    destruct (dl =? 0) eqn:E0; [exfalso; apply Hd; left; lia|].
    subst n1.
    destruct (IH (k + 1) (fun m => u32 (ms m + fr m)) t' (c - 1)) as (ls & Hls & Hlen & Hp).
    + intros m. rewrite Hms, u32_add_l. f_equal. ring.
    + exact Ht'.
    + lia.
    + intros Hin. apply Hd. now right.
    + rewrite Hls. eexists. split; [reflexivity|]. split; [cbn; lia|].
      intros m. cbn [map pl_pins]. rewrite Hp.
      change (pins_from (k + 1) (fr m) (S (S n))) with (pin (k+1) (fr m) :: pins_from (k + 1 + 1) (fr m) (S n)).
      f_equal. apply pin_next, Hms.
Qed.

(** Termination: the loop always ends within the loop count. *)
Lemma step_gen_total fr n : forall ms t c, t_ok t -> t_loops t = Z.of_nat n ->
  exists ls, step_gen (S n) fr ms t c = Some ls /\ (1 <= length ls <= S n)%nat.
Proof.
  induction n as [|n IH]; intros ms t c Ht Hl.
  - cbn [step_gen]. rewrite (calculate_delay_end t Ht Hl). cbn. eexists. split; [reflexivity|]. cbn; lia.
  - destruct (calculate_delay_step t Ht ltac:(lia)) as [Ht' Hl'].
    remember (S n) as n1. cbn [step_gen].
    destruct (calculate_delay t) as [dl t'] eqn:Ec. cbn [fst snd] in *.
    destruct (dl =? 0) eqn:E0.
    + eexists. split; [reflexivity|]. cbn; lia.
    + subst n1. destruct (IH (fun m => u32 (ms m + fr m)) t' (c - 1) Ht' ltac:(lia)) as (ls & Hls & Hlen).
      rewrite Hls. eexists. split; [reflexivity|]. cbn. lia.
Qed.

(** *** Counting edges *)

Lemma pin_odd k f : pin k f = Z.odd (k * f / 2 ^ 31).
Proof.
  unfold pin, u32. rewrite Z.mod_pow2_bits_low by lia.
  rewrite Z.testbit_odd, Z.shiftr_div_pow2 by lia. reflexivity.
Qed.

Lemma half_step a : Z.odd a = false -> (a + 1 + 1) / 2 = (a + 1) / 2 + 1.
Proof.
  intros H. rewrite <- Z.negb_even in H. apply negb_false_iff in H.
  apply Z.even_spec in H. destruct H as [q ->].
  replace (2 * q + 1 + 1) with ((q + 1) * 2) by ring. rewrite Z.div_mul by lia.
  replace (2 * q + 1) with (1 + q * 2) by ring. rewrite Z.div_add by lia. change (1 / 2) with 0. lia.
Qed.
Lemma half_stay a : Z.odd a = true -> (a + 1 + 1) / 2 = (a + 1) / 2.
Proof.
  intros H. apply Z.odd_spec in H. destruct H as [q ->].
  replace (2 * q + 1 + 1 + 1) with (1 + (q + 1) * 2) by ring. rewrite Z.div_add by lia. change (1 / 2) with 0.
  replace (2 * q + 1 + 1) with ((q + 1) * 2) by ring. rewrite Z.div_mul by lia. lia.
Qed.

Lemma edges_from f : 0 <= f < 2 ^ 31 -> forall n k, 0 <= k ->
  rising_edges (pin k f) (pins_from (k + 1) f n) =
  ((k + Z.of_nat n) * f / 2 ^ 31 + 1) / 2 - (k * f / 2 ^ 31 + 1) / 2.
Proof.
  intros Hf. induction n as [|n IH]; intros k Hk.
  - cbn [pins_from rising_edges]. rewrite Z.add_0_r. lia.
  - cbn [pins_from rising_edges]. rewrite IH by lia.
    replace (k + 1 + Z.of_nat n) with (k + Z.of_nat (S n)) by lia.
    set (X := ((k + Z.of_nat (S n)) * f / 2 ^ 31 + 1) / 2).
    rewrite !pin_odd.
    assert (Hn : (k + 1) * f / 2 ^ 31 = k * f / 2 ^ 31 \/ (k + 1) * f / 2 ^ 31 = k * f / 2 ^ 31 + 1).
    { pose proof (Z.div_mod (k * f) (2 ^ 31) ltac:(lia)) as E1.
      pose proof (Z.mod_pos_bound (k * f) (2 ^ 31) ltac:(lia)) as B1.
      set (a := k * f / 2 ^ 31) in *. set (r := (k * f) mod 2 ^ 31) in *.
      destruct (Z_lt_ge_dec (r + f) (2 ^ 31)).
      - left. symmetry. apply Z.div_unique with (r := r + f); [left; lia|]. lia.
      - right. symmetry. apply Z.div_unique with (r := r + f - 2 ^ 31); [left; lia|]. lia. }
    set (a := k * f / 2 ^ 31) in *.
    destruct Hn as [-> | ->].
    + destruct (Z.odd a); cbn; lia.
    + destruct (Z.odd a) eqn:Eo.
      * rewrite (half_stay a Eo). cbn. lia.
      * rewrite (half_step a Eo). rewrite Z.odd_add, Eo. cbn. lia.
Qed.

Lemma pin_first f : 0 <= f < 2 ^ 31 -> pin 1 f = false.
Proof. intros. rewrite pin_odd, Z.mul_1_l, Z.div_small by lia. reflexivity. Qed.

Lemma edges_total f n level : 0 <= f < 2 ^ 31 ->
  rising_edges level (pins_from 1 f (S n)) = (Z.of_nat (S n) * f / 2 ^ 31 + 1) / 2.
Proof.
  intros Hf. cbn [pins_from rising_edges]. rewrite pin_first by lia.
  rewrite andb_false_r.
  rewrite <- (pin_first f Hf) at 1. rewrite edges_from by lia.
  rewrite Z.mul_1_l, (Z.div_small f) by lia. change ((0 + 1) / 2) with 0.
  replace (1 + Z.of_nat n) with (Z.of_nat (S n)) by lia. lia.
Qed.

(** The fixed-point argument: D steps of the fastest motor, s of this one. *)
Lemma pulses_exact s D : 0 <= s <= D -> 1 <= D <= 32767 ->
  ((2 * D + 1) * (s * (2 ^ 31 - 1) / D) / 2 ^ 31 + 1) / 2 = s.
Proof.
  intros Hs HD.
  pose proof (Z.div_mod (s * (2 ^ 31 - 1)) D ltac:(lia)) as E.
  pose proof (Z.mod_pos_bound (s * (2 ^ 31 - 1)) D ltac:(lia)) as B.
  set (f := s * (2 ^ 31 - 1) / D) in *. set (r := (s * (2 ^ 31 - 1)) mod D) in *.
  assert (Hf : 0 <= f <= 2 ^ 31 - 1).
  { unfold f. split; [apply Z.div_pos; lia|]. apply Z.div_le_upper_bound; nia. }
  set (a := (2 * D + 1) * f / 2 ^ 31).
  assert (Ha : 2 * s - 1 <= a <= 2 * s).
  { split.
    - unfold a. apply Z.div_le_lower_bound; [lia|]. nia.
    - enough (a < 2 * s + 1) by lia. unfold a. apply Z.div_lt_upper_bound; [lia|]. nia. }
  symmetry. apply Z.div_unique with (r := a + 1 - 2 * s); [left; lia|lia].
Qed.

(** *** Executing a segment *)

Lemma segment_fits_t_ok s : segment_fits s -> t_ok (travel_of s) /\ t_loops (travel_of s) = seg_loops s /\ 0 <= seg_loops s.
Proof.
  intros ((n & Hn & Hc) & _). unfold t_ok, t_loops, seg_loops, travel_of; cbn. lia.
Qed.

Definition no_stop (s : motion_segment) : Prop :=
  ~ In 0 (delays (Z.to_nat (seg_loops s)) (travel_of s)).

Lemma total_loops_seg s : total_loops s = seg_loops s.
Proof. reflexivity. Qed.

Lemma pru_execute_pins s : t_ok (travel_of s) -> no_stop s ->
  exists ls, pru_execute s = Some ls /\
    Z.of_nat (length ls) = seg_loops s + 1 /\
    forall m, map (fun l => pl_pins l m) ls = pins_from 1 (ms_fractions s m) (S (Z.to_nat (seg_loops s))).
Proof.
  intros Ht Hs.
  assert (HL : 0 <= seg_loops s) by (unfold t_ok, seg_loops, travel_of in *; cbn in *; lia).
  unfold pru_execute. rewrite total_loops_seg.
  replace (Z.to_nat (seg_loops s + 1)) with (S (Z.to_nat (seg_loops s))) by lia.
  destruct (step_gen_spec (ms_fractions s) (Z.to_nat (seg_loops s)) 0 (fun _ => 0) (travel_of s) (seg_loops s))
    as (ls & E & Hlen & Hp).
  - intros m. reflexivity.
  - exact Ht.
  - unfold t_loops, seg_loops, travel_of in *; cbn in *; lia.
  - exact Hs.
  - exists ls. split; [exact E|]. split; [lia|exact Hp].
Qed.

Lemma pru_steps_describes flip seg steps level m :
  seg_describes flip seg steps -> no_stop seg ->
  pru_signed_steps level seg m = Some (if flip m then - steps m else steps m).
Proof.
  intros (Hfit & Hmot & D & HD & Hl & Hm) Hns.
  destruct (segment_fits_t_ok seg Hfit) as (Ht & _ & _).
  destruct (pru_execute_pins seg Ht Hns) as (ls & E & _ & Hp).
  unfold pru_signed_steps. rewrite E, Hp.
  destruct (Hm m) as (Habs & Hf & Hdir).
  assert (HM : INT_MAX = 2147483647) by reflexivity.
  destruct (fraction_exact (steps m) D Habs ltac:(lia)) as [Ef Bf].
  rewrite edges_total by (rewrite Hf; lia).
  replace (Z.of_nat (S (Z.to_nat (seg_loops seg)))) with (2 * D + 1) by lia.
  rewrite Hf, Ef, pulses_exact by lia.
  unfold dir_pin. rewrite Hdir. unfold dir_bit.
  destruct (steps m <? 0) eqn:En; destruct (flip m); cbn [negb]; f_equal; lia.
Qed.

(** *** Stop value cannot occur in travel *)

Lemma delays_travel n t : t_ok t -> t_accel t = 0 -> t_decel t = 0 -> t_loops t = Z.of_nat n ->
  u32 (t_travel_delay t - 2) <> 0 -> ~ In 0 (delays n t).
Proof.
  revert t. induction n as [|n IH]; intros t Ht Ha Hd Hl Hu; [easy|].
  assert (E : exists d t', calculate_delay t = (d, t') /\ d = u32 (t_travel_delay t - 2) /\
     t_accel t' = 0 /\ t_decel t' = 0 /\ t_travel_delay t' = t_travel_delay t).
  { unfold calculate_delay, t_loops in *. rewrite Ha. cbn [Z.eqb negb].
    destruct (t_travel t =? 0) eqn:E; [lia|]. cbn [negb].
    do 2 eexists. split; [reflexivity|]. cbn. auto. }
  destruct E as (d & t' & E & -> & Ha' & Hd' & Htd).
  destruct (calculate_delay_step t Ht ltac:(lia)) as [Ht' Hl'].
  cbn [delays In]. rewrite E in *. cbn [fst snd] in *. intros [H|H]; [congruence|].
  apply (IH t'); try assumption; try lia. now rewrite Htd.
Qed.

Lemma no_stop_travel s : segment_fits s -> ms_loops_accel s = 0 -> ms_loops_decel s = 0 ->
  ms_travel_delay_cycles s <> 2 -> no_stop s.
Proof.
  intros Hf Ha Hd Hn. destruct (segment_fits_t_ok s Hf) as (Ht & Hl & H0).
  destruct Hf as (_ & _ & _ & _ & _ & Htd & _).
  apply delays_travel; try assumption.
  - lia.
  - cbn. unfold u32. intros H. apply Z.mod_divide in H; [|lia]. destruct H as [q Hq]. lia.
Qed.

(** *** Simulator *)

Lemma odd_divisor_pos1 x : 1 <= u32 (u32 (4 * x) + 1).
Proof.
  unfold u32. rewrite Z.add_mod_idemp_l by lia.
  pose proof (Z.mod_pos_bound (4 * x + 1) (2 ^ 32) ltac:(lia)).
  destruct (Z.eq_dec ((4 * x + 1) mod 2 ^ 32) 0) as [E|]; [|lia].
  apply Z.mod_divide in E; [|lia]. destruct E as [q Hq]. lia.
Qed.
Lemma odd_divisor_pos2 x : 1 <= u32 (u32 (4 * x) - 1).
Proof.
  unfold u32. rewrite Zminus_mod_idemp_l.
  pose proof (Z.mod_pos_bound (4 * x - 1) (2 ^ 32) ltac:(lia)).
  destruct (Z.eq_dec ((4 * x - 1) mod 2 ^ 32) 0) as [E|]; [|lia].
  apply Z.mod_divide in E; [|lia]. destruct E as [q Hq]. lia.
Qed.

Lemma sim_advance_pru t : t_ok t ->
  sim_advance t = if t_loops t =? 0 then None
                  else Some (match sim_advance t with Some (d, _) => d | None => 0 end, snd (calculate_delay t)).
Proof.
  unfold t_ok, t_loops. intros (Ha & Hb & Hc).
  unfold sim_advance, calculate_delay.
  destruct (0 <? t_accel t) eqn:E1; destruct (t_accel t =? 0) eqn:E2; try lia; cbn [negb].
  - destruct (t_accel t + t_travel t + t_decel t =? 0) eqn:E3; [lia|].
    destruct (t_series t =? 0); [reflexivity|].
    rewrite idiv_correct by (apply u32_range || apply odd_divisor_pos1).
    rewrite !Z.shiftl_mul_pow2 by lia. change (2 ^ 1) with 2. change (2 ^ 2) with 4.
    rewrite (Z.mul_comm (t_hires t) 2), (Z.mul_comm (t_series t) 4). reflexivity.
  - destruct (0 <? t_travel t) eqn:E4; destruct (t_travel t =? 0) eqn:E5; try lia; cbn [negb].
    + destruct (t_accel t + t_travel t + t_decel t =? 0) eqn:E3; [lia|]. reflexivity.
    + destruct (0 <? t_decel t) eqn:E6; destruct (t_decel t =? 0) eqn:E7; try lia.
      * destruct (t_accel t + t_travel t + t_decel t =? 0) eqn:E3; [lia|].
        rewrite idiv_correct by (apply u32_range || apply odd_divisor_pos2).
        rewrite !Z.shiftl_mul_pow2 by lia. change (2 ^ 1) with 2. change (2 ^ 2) with 4.
        rewrite (Z.mul_comm (t_hires t) 2), (Z.mul_comm (t_series t) 4). reflexivity.
      * destruct (t_accel t + t_travel t + t_decel t =? 0) eqn:E3; [|lia]. reflexivity.
Qed.

Lemma land_bit31 x : negb (Z.land x 2147483648 =? 0) = Z.testbit x 31.
Proof.
  change 2147483648 with (2 ^ 31).
  destruct (Z.testbit x 31) eqn:E.
  - destruct (Z.land x (2 ^ 31) =? 0) eqn:E0; [|reflexivity].
    apply Z.eqb_eq in E0. apply (f_equal (fun y => Z.testbit y 31)) in E0.
    rewrite Z.land_spec, Z.pow2_bits_true, E, Z.testbit_0_l in E0 by lia. discriminate.
  - enough (Z.land x (2 ^ 31) = 0) as -> by reflexivity.
    apply Z.bits_inj'. intros n Hn. rewrite Z.land_spec, Z.testbit_0_l.
    destruct (Z.eq_dec n 31) as [->|Hne]; [now rewrite E|].
    rewrite Z.pow2_bits_false by lia. apply andb_false_r.
Qed.

Lemma land_dir i d : negb (Z.land (Z.shiftl 1 (motor_ix i)) d =? 0) = Z.testbit d (motor_ix i).
Proof.
  assert (Hi : 0 <= motor_ix i) by (destruct i; cbn; lia).
  set (n := motor_ix i) in *. rewrite Z.shiftl_mul_pow2, Z.mul_1_l by lia.
  destruct (Z.testbit d n) eqn:E.
  - destruct (Z.land (2 ^ n) d =? 0) eqn:E0; [|reflexivity].
    apply Z.eqb_eq in E0. apply (f_equal (fun y => Z.testbit y n)) in E0.
    rewrite Z.land_spec, Z.pow2_bits_true, E, Z.testbit_0_l in E0 by lia. discriminate.
  - enough (Z.land (2 ^ n) d = 0) as -> by reflexivity.
    apply Z.bits_inj'. intros k Hk. rewrite Z.land_spec, Z.testbit_0_l.
    destruct (Z.eq_dec k n) as [->|Hne]; [now rewrite E, andb_false_r|].
    rewrite Z.pow2_bits_false by lia. reflexivity.
Qed.

Lemma sim_loop_spec s n : forall k st steps t,
  (forall m, st m = u32 (k * ms_fractions s m)) -> t_ok t -> t_loops t = Z.of_nat n ->
  exists r, sim_loop (S n) s st steps t = Some r /\
    forall m, r m = steps m + (if dir_pin s m then -1 else 1) *
       rising_edges (pin k (ms_fractions s m)) (pins_from (k + 1) (ms_fractions s m) (S n)).
Proof.
  induction n as [|n IH]; intros k st steps t Hst Ht Hl.
  - cbn [sim_loop]. rewrite (sim_advance_pru t Ht). rewrite Hl. cbn [Z.of_nat Z.eqb].
    eexists. split; [reflexivity|]. intros m.
    cbv beta zeta. rewrite !land_bit31, land_dir. cbn [pins_from rising_edges].
    unfold pin, dir_pin. rewrite Hst, u32_add_l.
    replace (k * ms_fractions s m + ms_fractions s m) with ((k + 1) * ms_fractions s m) by ring.
    destruct (Z.testbit (u32 (k * ms_fractions s m)) 31), (Z.testbit (u32 ((k+1) * ms_fractions s m)) 31),
      (Z.testbit (ms_direction_bits s) (motor_ix m)); cbn; lia.
  - destruct (calculate_delay_step t Ht ltac:(lia)) as [Ht' Hl'].
    remember (S n) as n1. cbn [sim_loop]. rewrite (sim_advance_pru t Ht).
    destruct (t_loops t =? 0) eqn:E0; [lia|]. subst n1.
    match goal with |- exists r, sim_loop _ _ ?st' ?sp' _ = _ /\ _ =>
      destruct (IH (k + 1) st' sp' (snd (calculate_delay t))) as (r & E & Hr) end.
    + intros m. rewrite Hst, u32_add_l. f_equal. ring.
    + exact Ht'.
    + lia.
    + exists r. split; [exact E|]. intros m. rewrite Hr.
      change (pins_from (k + 1) (ms_fractions s m) (S (S n)))
        with (pin (k + 1) (ms_fractions s m) :: pins_from (k + 1 + 1) (ms_fractions s m) (S n)).
      cbn [rising_edges]. cbv beta zeta. rewrite !land_bit31, land_dir. rewrite Hst, u32_add_l.
      replace (k * ms_fractions s m + ms_fractions s m) with ((k + 1) * ms_fractions s m) by ring.
      change (Z.testbit (u32 (k * ms_fractions s m)) 31) with (pin k (ms_fractions s m)).
      change (Z.testbit (u32 ((k + 1) * ms_fractions s m)) 31) with (pin (k + 1) (ms_fractions s m)).
      fold (dir_pin s m). set (E' := rising_edges _ _).
      destruct (pin k (ms_fractions s m)), (pin (k + 1) (ms_fractions s m)), (dir_pin s m); cbn; lia.
Qed.

Lemma sim_steps_eq s steps : t_ok (travel_of s) -> ms_state s <> STATE_EXIT -> no_stop s ->
  (forall m, 0 <= ms_fractions s m < 2 ^ 31) ->
  exists r, sim_enqueue s steps = Some r /\
    forall m level, exists n, pru_signed_steps level s m = Some n /\ r m = steps m + n.
Proof.
  intros Ht Hst Hns Hfr.
  assert (HL : 0 <= seg_loops s) by (unfold t_ok, seg_loops, travel_of in *; cbn in *; lia).
  unfold sim_enqueue. destruct (ms_state s =? STATE_EXIT) eqn:E0; [apply Z.eqb_eq in E0; contradiction|].
  rewrite total_loops_seg. replace (Z.to_nat (seg_loops s + 1)) with (S (Z.to_nat (seg_loops s))) by lia.
  destruct (sim_loop_spec s (Z.to_nat (seg_loops s)) 0 (fun _ => 0) steps (travel_of s)) as (r & E & Hr).
  - intros m. reflexivity.
  - exact Ht.
  - unfold t_loops, seg_loops, travel_of in *; cbn in *; lia.
  - exists r. split; [exact E|]. intros m level.
    destruct (pru_execute_pins s Ht Hns) as (ls & El & _ & Hp).
    unfold pru_signed_steps. rewrite El, Hp. eexists. split; [reflexivity|]. rewrite Hr.
    change (0 + 1) with 1. rewrite !edges_total by apply Hfr.
    destruct (dir_pin s m); lia.
Qed.
