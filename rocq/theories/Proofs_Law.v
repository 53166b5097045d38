(** The recurrence by which the firmware computes the delays of a ramp, on integers. *)
From Verif Require Import Base.
Open Scope Z_scope.

(** Index, delay and remainder. *)
Definition up_next (s : Z * Z * Z) : Z * Z * Z :=
  let '(n, h, r) := s in (n + 1, h - (2 * h + r) / (4 * n + 1), (2 * h + r) mod (4 * n + 1)).
Definition down_next (s : Z * Z * Z) : Z * Z * Z :=
  let '(n, h, r) := s in (n - 1, h + (2 * h + r) / (4 * n - 1), (2 * h + r) mod (4 * n - 1)).

Lemma sq_le : forall a b, 0 <= a -> a <= b -> a * a <= b * b.
Proof. intros. nia. Qed.
Lemma sq_le_inv : forall a b, 0 <= b -> a * a <= b * b -> a <= b.
Proof. intros. nia. Qed.

(** ** Acceleration *)
Definition ux (n : Z) : Z := 4 * n - 3.
Record up_ok (x0 g0 : Z) (s : Z * Z * Z) : Prop := {
  uo_n : x0 <= ux (fst (fst s));
  uo_r : 0 <= snd s < ux (fst (fst s));
  uo_v : 0 <= g0 - x0 <= ux (fst (fst s)) * snd (fst s) - snd s - ux (fst (fst s));
  uo_low : g0 * g0 * ((ux (fst (fst s)) - 1) * (x0 + 1) + 1) <=
           (ux (fst (fst s)) * snd (fst s) - snd s) * (ux (fst (fst s)) * snd (fst s) - snd s) * (x0 * x0);
  uo_high : (ux (fst (fst s)) * snd (fst s) - snd s - ux (fst (fst s))) * (ux (fst (fst s)) * snd (fst s) - snd s - ux (fst (fst s))) * (x0 - 1) <=
            (g0 - x0) * (g0 - x0) * (ux (fst (fst s)) - 1) }.

Lemma up_first : forall n h r, 1 <= n -> 0 <= r < ux n -> 0 <= ux n * h - r - ux n -> up_ok (ux n) (ux n * h - r) (n, h, r).
Proof.
  intros n h r Hn Hr Hh. constructor; cbn [fst snd]; try (unfold ux in *; lia).
Qed.

Lemma up_eq : forall n h r, 1 <= n -> let '(n', h', r') := up_next (n, h, r) in ux n' * h' - r' = ux n * h - r + 2 * h /\ 0 <= r' < ux n' /\ n' = n + 1.
Proof.
  intros n h r Hn. unfold up_next, ux. pose proof (Z.div_mod (2 * h + r) (4 * n + 1) ltac:(lia)) as E. pose proof (Z.mod_pos_bound (2 * h + r) (4 * n + 1) ltac:(lia)) as B.
  split; [|split]; [|lia|reflexivity]. replace (4 * (n + 1) - 3) with (4 * n + 1) by ring. nia.
Qed.

Lemma up_step : forall x0 g0 n h r, 1 <= n -> 1 <= x0 -> 2 <= h -> up_ok x0 g0 (n, h, r) -> up_ok x0 g0 (up_next (n, h, r)).
Proof.
  intros x0 g0 n h r Hn Hx Hh [H1 H2 H3 H4 H5]. cbn [fst snd] in *. pose proof (up_eq n h r Hn) as E.
  destruct (up_next (n, h, r)) as [[n' h'] r']. destruct E as (E & Hr' & ->).
  assert (X : ux (n + 1) = ux n + 4) by (unfold ux; lia).
  constructor; cbn [fst snd]; rewrite ?E; rewrite X in *; try lia.
  - clear E H5. set (x := ux n) in *. set (g := x * h - r) in *. assert (Hg : 0 <= g) by lia.
    assert (A : g * (x + 2) <= x * (g + 2 * h)) by (unfold g; nia).
    assert (B : (g * (x + 2)) * (g * (x + 2)) <= (x * (g + 2 * h)) * (x * (g + 2 * h))) by (apply sq_le; nia).
    assert (C : x * x * ((x + 4 - 1) * (x0 + 1) + 1) <= (x + 2) * (x + 2) * ((x - 1) * (x0 + 1) + 1)) by nia.
    apply Z.mul_le_mono_pos_l with (p := x * x); [nia|].
    apply Z.le_trans with (g0 * g0 * ((x + 2) * (x + 2) * ((x - 1) * (x0 + 1) + 1))).
    { replace (x * x * (g0 * g0 * ((x + 4 - 1) * (x0 + 1) + 1))) with (g0 * g0 * (x * x * ((x + 4 - 1) * (x0 + 1) + 1))) by ring.
      apply Z.mul_le_mono_nonneg_l; [nia|exact C]. }
    replace (g0 * g0 * ((x + 2) * (x + 2) * ((x - 1) * (x0 + 1) + 1))) with ((x + 2) * (x + 2) * (g0 * g0 * ((x - 1) * (x0 + 1) + 1))) by ring.
    apply Z.le_trans with ((x + 2) * (x + 2) * (g * g * (x0 * x0))); [apply Z.mul_le_mono_nonneg_l; [nia|exact H4]|].
    replace ((x + 2) * (x + 2) * (g * g * (x0 * x0))) with ((g * (x + 2)) * (g * (x + 2)) * (x0 * x0)) by ring.
    replace (x * x * ((g + 2 * h) * (g + 2 * h) * (x0 * x0))) with ((x * (g + 2 * h)) * (x * (g + 2 * h)) * (x0 * x0)) by ring.
    apply Z.mul_le_mono_nonneg_r; [nia|exact B].
  - clear E H4. set (x := ux n) in *. set (g := x * h - r) in *. set (v := g - x) in *. set (v0 := g0 - x0) in *.
    replace (g + 2 * h - (x + 4)) with (v + 2 * h - 4) by (unfold v; ring).
    assert (A : x * (v + 2 * h - 4) <= v * (x + 2)) by (unfold v, g; nia).
    assert (Hv : 0 <= v + 2 * h - 4) by lia.
    assert (B : (x * (v + 2 * h - 4)) * (x * (v + 2 * h - 4)) <= (v * (x + 2)) * (v * (x + 2))) by (apply sq_le; nia).
    apply Z.mul_le_mono_pos_l with (p := x * x); [nia|].
    replace (x * x * ((v + 2 * h - 4) * (v + 2 * h - 4) * (x0 - 1))) with ((x * (v + 2 * h - 4)) * (x * (v + 2 * h - 4)) * (x0 - 1)) by ring.
    apply Z.le_trans with ((v * (x + 2)) * (v * (x + 2)) * (x0 - 1)); [apply Z.mul_le_mono_nonneg_r; [lia|exact B]|].
    replace ((v * (x + 2)) * (v * (x + 2)) * (x0 - 1)) with ((x + 2) * (x + 2) * (v * v * (x0 - 1))) by ring.
    apply Z.le_trans with ((x + 2) * (x + 2) * (v0 * v0 * (x - 1))); [apply Z.mul_le_mono_nonneg_l; [nia|exact H5]|].
    replace ((x + 2) * (x + 2) * (v0 * v0 * (x - 1))) with (v0 * v0 * ((x + 2) * (x + 2) * (x - 1))) by ring.
    replace (x * x * (v0 * v0 * (x + 4 - 1))) with (v0 * v0 * (x * x * (x + 3))) by ring.
    apply Z.mul_le_mono_nonneg_l; [nia|]. nia.
Qed.

(** ** Deceleration *)
Definition dx (n : Z) : Z := 4 * n + 3.
Lemma down_eq : forall n h r, 1 <= n -> let '(n', h', r') := down_next (n, h, r) in dx n' * h' + r' = dx n * h + r - 2 * h /\ 0 <= r' < dx n' /\ n' = n - 1.
Proof.
  intros n h r Hn. unfold down_next, dx. pose proof (Z.div_mod (2 * h + r) (4 * n - 1) ltac:(lia)) as E. pose proof (Z.mod_pos_bound (2 * h + r) (4 * n - 1) ltac:(lia)) as B.
  split; [|split]; [|lia|reflexivity]. replace (4 * (n - 1) + 3) with (4 * n - 1) by ring. nia.
Qed.

Record down_ok (z0 g0 : Z) (s : Z * Z * Z) : Prop := {
  do_n : 3 <= dx (fst (fst s)) <= z0;
  do_r : 0 <= snd s < dx (fst (fst s));
  do_h : 0 <= snd (fst s);
  do_low : g0 * g0 * (dx (fst (fst s)) + 1) <=
           (dx (fst (fst s)) * snd (fst s) + snd s) * (dx (fst (fst s)) * snd (fst s) + snd s) * (z0 + 1);
  do_high : (dx (fst (fst s)) * snd (fst s) + snd s + dx (fst (fst s))) * (dx (fst (fst s)) * snd (fst s) + snd s + dx (fst (fst s))) * (6 * z0 + 7) <=
            (g0 + z0) * (g0 + z0) * (6 * dx (fst (fst s)) + 7) }.

Lemma down_first : forall n h r, 0 <= n -> 0 <= h -> 0 <= r < dx n -> down_ok (dx n) (dx n * h + r) (n, h, r).
Proof. intros n h r Hn Hh Hr. constructor; cbn [fst snd]; unfold dx in *; lia. Qed.

Lemma down_step : forall z0 g0 n h r, 1 <= n -> 0 <= g0 -> down_ok z0 g0 (n, h, r) -> down_ok z0 g0 (down_next (n, h, r)).
Proof.
  intros z0 g0 n h r Hn Hg0 [H1 H2 H3 H4 H5]. cbn [fst snd] in *. pose proof (down_eq n h r Hn) as E.
  assert (Hh' : h <= snd (fst (down_next (n, h, r)))).
  { unfold down_next. cbn [fst snd]. pose proof (Z.div_pos (2 * h + r) (4 * n - 1) ltac:(lia) ltac:(lia)). lia. }
  destruct (down_next (n, h, r)) as [[n' h'] r']. cbn [fst snd] in Hh'. destruct E as (E & Hr' & ->).
  assert (X : dx (n - 1) = dx n - 4) by (unfold dx; lia). assert (Z7 : 7 <= dx n) by (unfold dx; lia).
  constructor; cbn [fst snd]; rewrite ?E; rewrite X in *; try lia.
  - clear E H5. set (z := dx n) in *. set (g := z * h + r) in *. assert (Hg : 0 <= g) by (unfold g; nia).
    assert (A : g * (z - 2) <= z * (g - 2 * h)) by (unfold g; nia).
    assert (B : (g * (z - 2)) * (g * (z - 2)) <= (z * (g - 2 * h)) * (z * (g - 2 * h))) by (apply sq_le; nia).
    assert (C : z * z * (z - 4 + 1) <= (z - 2) * (z - 2) * (z + 1)) by nia.
    apply Z.mul_le_mono_pos_l with (p := z * z); [nia|].
    apply Z.le_trans with (g0 * g0 * ((z - 2) * (z - 2) * (z + 1))).
    { replace (z * z * (g0 * g0 * (z - 4 + 1))) with (g0 * g0 * (z * z * (z - 4 + 1))) by ring. apply Z.mul_le_mono_nonneg_l; [nia|exact C]. }
    replace (g0 * g0 * ((z - 2) * (z - 2) * (z + 1))) with ((z - 2) * (z - 2) * (g0 * g0 * (z + 1))) by ring.
    apply Z.le_trans with ((z - 2) * (z - 2) * (g * g * (z0 + 1))); [apply Z.mul_le_mono_nonneg_l; [nia|exact H4]|].
    replace ((z - 2) * (z - 2) * (g * g * (z0 + 1))) with ((g * (z - 2)) * (g * (z - 2)) * (z0 + 1)) by ring.
    replace (z * z * ((g - 2 * h) * (g - 2 * h) * (z0 + 1))) with ((z * (g - 2 * h)) * (z * (g - 2 * h)) * (z0 + 1)) by ring.
    apply Z.mul_le_mono_nonneg_r; [lia|exact B].
  - clear E H4. set (z := dx n) in *. set (g := z * h + r) in *. set (v := g + z) in *. set (v0 := g0 + z0) in *.
    replace (g - 2 * h + (z - 4)) with (v - 2 * h - 4) by (unfold v; ring).
    assert (Hhz : 2 * h <= z * h) by nia.
    assert (A : z * (v - 2 * h - 4) <= v * (z - 2)) by (unfold v, g; nia).
    assert (Hv : 0 <= v - 2 * h - 4) by (unfold v, g; lia).
    assert (B : (z * (v - 2 * h - 4)) * (z * (v - 2 * h - 4)) <= (v * (z - 2)) * (v * (z - 2))) by (apply sq_le; nia).
    apply Z.mul_le_mono_pos_l with (p := z * z); [nia|].
    replace (z * z * ((v - 2 * h - 4) * (v - 2 * h - 4) * (6 * z0 + 7))) with ((z * (v - 2 * h - 4)) * (z * (v - 2 * h - 4)) * (6 * z0 + 7)) by ring.
    apply Z.le_trans with ((v * (z - 2)) * (v * (z - 2)) * (6 * z0 + 7)); [apply Z.mul_le_mono_nonneg_r; [lia|exact B]|].
    replace ((v * (z - 2)) * (v * (z - 2)) * (6 * z0 + 7)) with ((z - 2) * (z - 2) * (v * v * (6 * z0 + 7))) by ring.
    apply Z.le_trans with ((z - 2) * (z - 2) * (v0 * v0 * (6 * z + 7))); [apply Z.mul_le_mono_nonneg_l; [nia|exact H5]|].
    replace ((z - 2) * (z - 2) * (v0 * v0 * (6 * z + 7))) with (v0 * v0 * ((z - 2) * (z - 2) * (6 * z + 7))) by ring.
    replace (z * z * (v0 * v0 * (6 * (z - 4) + 7))) with (v0 * v0 * (z * z * (6 * z - 17))) by ring.
    apply Z.mul_le_mono_nonneg_l; [nia|]. nia.
Qed.
