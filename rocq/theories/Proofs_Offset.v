(** Proofs about the arithmetic of offsets: how far going to a renamed coordinate is from
    where it was given that name. *)
From Coq Require Import Reals Lra Lia SpecFloat.
From Flocq Require Import Core IEEE754.BinarySingleNaN.
From Verif Require Import Base Model_Float Spec_Real Proofs_Real Spec_Coords.

Open Scope R_scope.

Lemma bpow_100 : bpow radix2 100 = IZR (2 ^ 100).
Proof. rewrite <- IZR_Zpower by lia. reflexivity. Qed.
Lemma near : forall r b, 1 <= b <= bpow radix2 100 -> Rabs r <= 4 * b ->
  Rabs (rnd32 r - r) <= 5 * b / 16777216 /\ small 128 (rnd32 r).
Proof.
  intros r b Hb Hr. pose proof (rnd32_error r) as E.
  assert (A : Rabs (rnd32 r - r) <= 5 * b / 16777216) by lra. split; [exact A|].
  assert (B : Rabs (rnd32 r) <= 8 * b).
  { replace (rnd32 r) with ((rnd32 r - r) + r) by ring. eapply Rle_trans; [apply Rabs_triang|]. lra. }
  unfold small. eapply Rle_lt_trans; [exact B|].
  apply Rle_lt_trans with (8 * bpow radix2 100); [lra|]. change 8 with (bpow radix2 3). rewrite <- bpow_plus. apply bpow_lt. lia.
Qed.
Lemma near_le : forall r b k, 1 <= b <= bpow radix2 100 -> 1 <= k <= 4 -> Rabs r <= k * b ->
  Rabs (rnd32 r - r) <= (k + 1/2) * b / 16777216 /\ small 128 (rnd32 r).
Proof.
  intros r b k Hb Hk Hr. split.
  - pose proof (rnd32_error r). nra.
  - apply (near r b Hb). nra.
Qed.

(** Add the origin and the length to the offset: near to the position it was made from. *)
Lemma renamed_near : forall p o x one b, fin32 p -> fin32 o -> fin32 x -> fin32 one -> val one = 1 -> 1 <= b <= bpow radix2 100 ->
  Rabs (val p) <= b -> Rabs (val o) <= b -> Rabs (val x) <= b ->
  let g := f32_add (f32_add o (f32_sub (f32_sub p x) o)) (f32_mul x one) in
  fin32 g /\ Rabs (val g - val p) <= 12 * b / 16777216.
Proof.
  intros p o x one b Fp Fo Fx F1 V1 Hb Hp Ho Hx g.
  assert (P24 : Prec_gt_0 24) by reflexivity. assert (PL : Prec_lt_emax 24 128) by reflexivity.
  destruct (near_le (val p - val x) b 2 Hb) as (A1 & S1); [lra| |].
  { apply Rabs_le. apply Rabs_le_inv in Hp, Hx. lra. }
  destruct (sub_val 24 128 P24 PL p x Fp Fx S1) as (F2 & V2).
  set (d := SFsub 24 128 p x) in *.
  apply Rabs_le_inv in Hp, Ho, Hx. apply Rabs_le_inv in A1.
  destruct (near_le (val d - val o) b (7/2) Hb) as (A2 & S2); [lra| |].
  { rewrite V2. apply Rabs_le. lra. }
  destruct (sub_val 24 128 P24 PL d o F2 Fo S2) as (F3 & V3). set (off := SFsub 24 128 d o) in *.
  apply Rabs_le_inv in A2.
  destruct (near_le (val o + val off) b (5/2) Hb) as (A3 & S3); [lra| |].
  { rewrite V3. apply Rabs_le. rewrite V2 in *. lra. }
  destruct (add_val 24 128 P24 PL o off Fo F3 S3) as (F4 & V4). set (q := SFadd 24 128 o off) in *. apply Rabs_le_inv in A3.
  assert (S5 : small 128 (rnd32 (val x * val one))).
  { rewrite V1, Rmult_1_r, (rnd_fin 24 128) by assumption. now apply (fin_small 24 128). }
  destruct (mul_val 24 128 P24 PL x one Fx F1 S5) as (F5 & V5). rewrite V1, Rmult_1_r, (rnd_fin 24 128) in V5 by assumption.
  set (y := SFmul 24 128 x one) in *.
  destruct (near_le (val q + val y) b (3/2) Hb) as (A6 & S6); [lra| |].
  { rewrite V5, V4. apply Rabs_le. rewrite V3, V2 in *. lra. }
  destruct (add_val 24 128 P24 PL q y F4 F5 S6) as (F6 & V6). apply Rabs_le_inv in A6.
  change g with (SFadd 24 128 q y). split; [exact F6|]. apply Rabs_le. rewrite V6. rewrite V5, V4, V3, V2 in *. lra.
Qed.

Lemma grid_exact : forall e m r, (-149 <= e <= 103)%Z -> (Z.abs m <= 2 ^ 24)%Z -> r = IZR m * bpow radix2 e -> rnd32 r = r /\ small 128 r.
Proof.
  intros e m r He Hm ->. split.
  - apply round_generic; [apply valid_rnd_N|]. destruct (Z.eq_dec (Z.abs m) (2 ^ 24)) as [Ea|Ea].
    + assert (G : generic_format radix2 (SpecFloat.fexp 24 128) (bpow radix2 (24 + e))).
      { apply generic_format_bpow. unfold SpecFloat.fexp, SpecFloat.emin. lia. }
      assert (E24 : IZR (2 ^ 24) = bpow radix2 24) by (rewrite <- IZR_Zpower by lia; reflexivity).
      rewrite bpow_plus in G. destruct (Z.abs_eq_or_opp m) as [|].
      * replace m with (2 ^ 24)%Z by lia. now rewrite E24.
      * replace m with (- 2 ^ 24)%Z by lia. rewrite opp_IZR, E24, Ropp_mult_distr_l_reverse. now apply generic_format_opp.
    + apply generic_format_FLT. exists (Float radix2 m e); cbn [Fnum Fexp]; [reflexivity| |unfold SpecFloat.emin; lia].
      change (Z.pow (radix_val radix2) 24) with (2 ^ 24)%Z. lia.
  - unfold small. rewrite Rabs_mult, <- abs_IZR, (Rabs_pos_eq (bpow _ _)) by apply bpow_ge_0.
    apply Rle_lt_trans with (bpow radix2 24 * bpow radix2 e).
    + apply Rmult_le_compat_r; [apply bpow_ge_0|]. rewrite <- IZR_Zpower by lia. apply IZR_le. exact Hm.
    + rewrite <- bpow_plus. apply bpow_lt. lia.
Qed.
Lemma renamed_exact : forall e p o x one, (-149 <= e <= 103)%Z -> on_grid e p -> on_grid e o -> on_grid e x -> fin32 one -> val one = 1 ->
  let g := f32_add (f32_add o (f32_sub (f32_sub p x) o)) (f32_mul x one) in fin32 g /\ val g = val p.
Proof.
  intros e p o x one He (Fp & mp & Mp & Vp) (Fo & mo & Mo & Vo) (Fx & mx & Mx & Vx) F1 V1 g.
  assert (P24 : Prec_gt_0 24) by reflexivity. assert (PL : Prec_lt_emax 24 128) by reflexivity.
  destruct (grid_exact e (mp - mx) (val p - val x) He) as (E1 & S1); [lia|rewrite Vp, Vx, minus_IZR; ring|].
  destruct (sub_val 24 128 P24 PL p x Fp Fx) as (F2 & V2); [now rewrite E1|]. rewrite E1 in V2. set (d := SFsub 24 128 p x) in *.
  destruct (grid_exact e (mp - mx - mo) (val d - val o) He) as (E2 & S2); [lia|rewrite V2, Vp, Vx, Vo, !minus_IZR; ring|].
  destruct (sub_val 24 128 P24 PL d o F2 Fo) as (F3 & V3); [now rewrite E2|]. rewrite E2 in V3. set (off := SFsub 24 128 d o) in *.
  destruct (grid_exact e (mp - mx) (val o + val off) He) as (E3 & S3); [lia|rewrite V3, V2, Vp, Vx, Vo, !minus_IZR; ring|].
  destruct (add_val 24 128 P24 PL o off Fo F3) as (F4 & V4); [now rewrite E3|]. rewrite E3 in V4. set (q := SFadd 24 128 o off) in *.
  assert (S5 : small 128 (rnd32 (val x * val one))).
  { rewrite V1, Rmult_1_r, (rnd_fin 24 128) by assumption. now apply (fin_small 24 128). }
  destruct (mul_val 24 128 P24 PL x one Fx F1 S5) as (F5 & V5). rewrite V1, Rmult_1_r, (rnd_fin 24 128) in V5 by assumption.
  set (y := SFmul 24 128 x one) in *.
  destruct (grid_exact e mp (val q + val y) He) as (E6 & S6); [lia|rewrite V5, V4, V3, V2, Vp, Vx, Vo; ring|].
  destruct (add_val 24 128 P24 PL q y F4 F5) as (F6 & V6); [now rewrite E6|]. rewrite E6 in V6.
  change g with (SFadd 24 128 q y). split; [exact F6|]. rewrite V6, V5, V4, V3, V2. ring.
Qed.
