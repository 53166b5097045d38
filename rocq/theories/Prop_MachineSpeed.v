(** C84: the speed through space, and the pieces of a line. *)
From Coq Require Import Reals Lra SpecFloat.
From Flocq Require Import Core IEEE754.BinarySingleNaN.
From Flocq.Prop Require Import Relative.
From Verif Require Import Base Model_Float Spec_Real Proofs_Real Proofs_Turn Model_Axis Model_Planner Prop_ViewRange Model_MachineView Spec_MachineView Prop_MachineView Prop_MachineColors.
Open Scope R_scope.

(** ** Numbers up to a factor *)
Definition t : R := 16777216 / 16777215.
Lemma t_bounds : 1 <= t <= 1 + / 16000000.
Proof. unfold t. lra. Qed.
Lemma t_pow : forall k, 1 <= t ^ k.
Proof. intros k. apply pow_R1_Rle. apply t_bounds. Qed.
Lemma t_mono : forall j k, (j <= k)%nat -> t ^ j <= t ^ k.
Proof. intros j k H. apply Rle_pow; [apply t_bounds|exact H]. Qed.
Lemma t16 : t ^ 16 <= 1 + / 900000.
Proof.
  assert (SQ : forall a b c, 0 <= a -> a <= b -> b * b <= c -> a * a <= c) by (intros a b c0 P L C; apply Rle_trans with (b * b); [apply Rmult_le_compat; lra|exact C]).
  pose proof t_bounds as B. assert (P0 : 0 <= t) by lra.
  assert (T2 : t * t <= 1 + / 7900000) by (apply SQ with (1 + / 16000000); lra).
  assert (T4 : (t * t) * (t * t) <= 1 + / 3900000) by (apply SQ with (1 + / 7900000); [apply Rmult_le_pos; lra|exact T2|lra]).
  assert (T8 : ((t * t) * (t * t)) * ((t * t) * (t * t)) <= 1 + / 1900000) by (apply SQ with (1 + / 3900000); [repeat apply Rmult_le_pos; lra|exact T4|lra]).
  replace (t ^ 16) with ((((t * t) * (t * t)) * ((t * t) * (t * t))) * (((t * t) * (t * t)) * ((t * t) * (t * t)))) by ring.
  apply SQ with (1 + / 1900000); [repeat apply Rmult_le_pos; lra|exact T8|lra].
Qed.
Lemma t_two : forall k, (k <= 16)%nat -> t ^ k <= 2.
Proof. intros k H. apply t_mono in H. pose proof t16. lra. Qed.
Definition near (k : nat) (x r : R) : Prop := 0 <= x /\ 0 <= r /\ r <= x * t ^ k /\ x <= r * t ^ k.
Lemma near_refl : forall x, 0 <= x -> near 0 x x.
Proof. intros x P. unfold near. cbn [pow]. lra. Qed.
Lemma near_weak : forall j k x r, (j <= k)%nat -> near j x r -> near k x r.
Proof.
  intros j k x r H (X & R & A & B). pose proof (t_mono j k H) as M. split; [exact X|]. split; [exact R|].
  split; [apply Rle_trans with (x * t ^ j); [exact A|]|apply Rle_trans with (r * t ^ j); [exact B|]]; apply Rmult_le_compat_l; assumption.
Qed.
Lemma near_trans : forall j k x y r, near j x y -> near k y r -> near (j + k) x r.
Proof.
  intros j k x y r (X & Y & A & B) (_ & R & C & D). split; [exact X|]. split; [exact R|]. rewrite pow_add. pose proof (t_pow j). pose proof (t_pow k). split.
  - apply Rle_trans with (y * t ^ k); [exact C|]. rewrite <- Rmult_assoc. apply Rmult_le_compat_r; lra.
  - apply Rle_trans with (y * t ^ j); [exact B|]. rewrite (Rmult_comm (t ^ j)), <- Rmult_assoc. apply Rmult_le_compat_r; lra.
Qed.
Lemma near_mul : forall j k x y r s, near j x r -> near k y s -> near (j + k) (x * y) (r * s).
Proof.
  intros j k x y r s (X & R & A & B) (Y & S & C & D). split; [apply Rmult_le_pos; assumption|]. split; [apply Rmult_le_pos; assumption|]. rewrite pow_add. pose proof (t_pow j). pose proof (t_pow k). split.
  - replace (x * y * (t ^ j * t ^ k)) with ((x * t ^ j) * (y * t ^ k)) by ring. apply Rmult_le_compat; assumption.
  - replace (r * s * (t ^ j * t ^ k)) with ((r * t ^ j) * (s * t ^ k)) by ring. apply Rmult_le_compat; assumption.
Qed.
Lemma near_inv : forall k y s, 0 < y -> 0 < s -> near k y s -> near k (/ y) (/ s).
Proof.
  intros k y s Y S (_ & _ & C & D). pose proof (t_pow k) as T. split; [apply Rlt_le, Rinv_0_lt_compat, Y|]. split; [apply Rlt_le, Rinv_0_lt_compat, S|].
  split; [apply (Rmult_le_reg_r s); [exact S|]; rewrite Rinv_l by lra; apply (Rmult_le_reg_l y); [exact Y|]; replace (y * (/ y * t ^ k * s)) with (s * t ^ k) by (field; lra); lra|].
  apply (Rmult_le_reg_r y); [exact Y|]. rewrite Rinv_l by lra. apply (Rmult_le_reg_l s); [exact S|]. replace (s * (/ s * t ^ k * y)) with (y * t ^ k) by (field; lra). lra.
Qed.
Lemma near_add : forall k x y r s, near k x r -> near k y s -> near k (x + y) (r + s).
Proof. intros k x y r s (X & R & A & B) (Y & S & C & D). unfold near. rewrite !Rmult_plus_distr_r. lra. Qed.
Lemma near_sqrt : forall k x r, near k x r -> near k (sqrt x) (sqrt r).
Proof.
  intros k x r (X & R & A & B). pose proof (t_pow k) as T. split; [apply sqrt_pos|]. split; [apply sqrt_pos|].
  assert (U : sqrt (t ^ k) <= t ^ k) by (rewrite <- (sqrt_square (t ^ k)) at 2 by lra; apply sqrt_le_1_alt; replace (t ^ k) with (1 * t ^ k) at 1 by ring; apply Rmult_le_compat_r; lra).
  split.
  - apply Rle_trans with (sqrt (x * t ^ k)); [apply sqrt_le_1_alt, A|]. rewrite sqrt_mult by lra. apply Rmult_le_compat_l; [apply sqrt_pos|exact U].
  - apply Rle_trans with (sqrt (r * t ^ k)); [apply sqrt_le_1_alt, B|]. rewrite sqrt_mult by lra. apply Rmult_le_compat_l; [apply sqrt_pos|exact U].
Qed.

(** ** Floats *)
Definition usual (r : R) : Prop := r = 0 \/ bpow radix2 (-110) <= r <= bpow radix2 110.
Lemma usual_near : forall k x r, (k <= 16)%nat -> near k x r -> usual r -> x = 0 \/ bpow radix2 (-111) <= x <= bpow radix2 111.
Proof.
  intros k x r K (X & R & A & B) [->|[L H]]; [left; lra|right]. pose proof (t_two k K) as T2. pose proof (t_pow k) as T1.
  change (-111)%Z with (-110 + -1)%Z. change 111%Z with (110 + 1)%Z. rewrite !bpow_plus. change (bpow radix2 1) with 2. change (bpow radix2 (-1)) with (/ 2).
  assert (r <= x * 2) by (apply Rle_trans with (x * t ^ k); [exact A|apply Rmult_le_compat_l; assumption]).
  assert (x <= r * 2) by (apply Rle_trans with (r * t ^ k); [exact B|apply Rmult_le_compat_l; assumption]). lra.
Qed.
Lemma rnd_near : forall x, x = 0 \/ bpow radix2 (-111) <= x <= bpow radix2 111 -> Proofs_Real.small 128%Z (rnd32 x) /\ near 1 (rnd32 x) x.
Proof.
  intros x [->|[L H]]; [rewrite rnd_0; split; [unfold Proofs_Real.small; rewrite Rabs_R0; apply bpow_gt_0|unfold near; cbn [pow]; lra]|].
  pose proof (bpow_gt_0 radix2 (-111)) as P. split.
  { unfold Proofs_Real.small. apply Rle_lt_trans with (bpow radix2 111); [|apply bpow_lt; lia]. apply abs_round_le_generic; [apply (fexp_correct 24 128); reflexivity|apply valid_rnd_N| |rewrite Rabs_pos_eq; lra]. apply generic_format_bpow. vm_compute. discriminate. }
  pose proof (relative_error_N_FLT radix2 (-149) 24 eq_refl (fun z => negb (Z.even z)) x) as E. change (FLT_exp (-149) 24) with (SpecFloat.fexp 24 128) in E.
  assert (N : bpow radix2 (-149 + 24 - 1) <= Rabs x) by (rewrite Rabs_pos_eq by lra; apply Rle_trans with (bpow radix2 (-111)); [apply bpow_le; lia|exact L]).
  specialize (E N). change (round radix2 (SpecFloat.fexp 24 128) (Znearest (fun z => negb (Z.even z))) x) with (rnd32 x) in E. rewrite (Rabs_pos_eq x) in E by lra.
  change (bpow radix2 (- (24) + 1)) with (/ 8388608) in E. apply Rabs_le_inv in E. unfold near. cbn [pow]. rewrite !Rmult_1_r. unfold t. lra.
Qed.
Section Ops.
Variables (j k : nat) (x y : fl) (r s : R).
Hypothesis JK : (j + k <= 15)%nat.
Hypothesis Fx : fin32 x. Hypothesis Fy : fin32 y.
Hypothesis Nx : near j (val x) r. Hypothesis Ny : near k (val y) s.
Lemma mul_near : usual (r * s) -> fin32 (f32_mul x y) /\ near (j + k + 1) (val (f32_mul x y)) (r * s).
Proof.
  intros U. pose proof (near_mul _ _ _ _ _ _ Nx Ny) as M. destruct (rnd_near _ (usual_near (j + k) _ _ ltac:(lia) M U)) as [S N].
  destruct (mul_val 24 128 prec24 emax128 x y Fx Fy S) as [F V]. split; [exact F|]. unfold f32_mul. rewrite V. rewrite Nat.add_comm. eapply near_trans; [exact N|exact M].
Qed.
Lemma div_near : 0 < s -> usual (r / s) -> fin32 (f32_div x y) /\ near (j + k + 1) (val (f32_div x y)) (r / s).
Proof.
  intros P U. assert (Y : 0 < val y). { destruct Ny as (Y & _ & A & _). pose proof (t_pow k). destruct Y as [Y|Y]; [exact Y|]. rewrite <- Y in A. lra. }
  pose proof (near_mul _ _ _ _ _ _ Nx (near_inv _ _ _ Y P Ny)) as M. destruct (rnd_near _ (usual_near (j + k) _ _ ltac:(lia) M U)) as [S N].
  destruct (div_val 24 128 prec24 emax128 x y Fx Fy ltac:(lra) S) as [F V]. split; [exact F|]. unfold f32_div. rewrite V. rewrite Nat.add_comm. eapply near_trans; [exact N|exact M].
Qed.
End Ops.
Lemma add_near : forall k x y r s, (k <= 15)%nat -> fin32 x -> fin32 y -> near k (val x) r -> near k (val y) s -> usual (r + s) ->
  fin32 (f32_add x y) /\ near (k + 1) (val (f32_add x y)) (r + s).
Proof.
  intros k x y r s K Fx Fy Nx Ny U. pose proof (near_add _ _ _ _ _ Nx Ny) as M. destruct (rnd_near _ (usual_near k _ _ ltac:(lia) M U)) as [S N].
  destruct (add_val 24 128 prec24 emax128 x y Fx Fy S) as [F V]. split; [exact F|]. unfold f32_add. rewrite V. rewrite Nat.add_comm. eapply near_trans; [exact N|exact M].
Qed.
Lemma sqrt_near : forall k x r, (k <= 15)%nat -> fin32 x -> near k (val x) r -> usual (sqrt r) -> fin32 (f32_sqrt x) /\ near (k + 1) (val (f32_sqrt x)) (sqrt r).
Proof.
  intros k x r K Fx Nx U. pose proof (near_sqrt _ _ _ Nx) as M. destruct (rnd_near _ (usual_near k _ _ ltac:(lia) M U)) as [S N].
  destruct (sqrt_val32 x Fx (proj1 Nx)) as [F V]. split; [exact F|]. rewrite V. rewrite Nat.add_comm. eapply near_trans; [exact N|exact M].
Qed.
Lemma rnd32_abs : forall x, rnd32 (Rabs x) = Rabs (rnd32 x).
Proof. intros x. unfold rnd. apply round_NE_abs. apply (fexp_correct 24 128); reflexivity. Qed.
Lemma square_near : forall j q r, (j + j <= 15)%nat -> fin32 q -> near j (Rabs (val q)) r -> usual (r * r) -> fin32 (f32_mul q q) /\ near (j + j + 1) (val (f32_mul q q)) (r * r).
Proof.
  intros j q r J F N U. pose proof (near_mul _ _ _ _ _ _ N N) as M. replace (Rabs (val q) * Rabs (val q)) with (val q * val q) in M by (rewrite <- Rabs_mult, Rabs_pos_eq; [reflexivity|apply Rle_0_sqr]).
  destruct (rnd_near _ (usual_near (j + j) _ _ ltac:(lia) M U)) as [S N1].
  destruct (mul_val 24 128 prec24 emax128 q q F F S) as [G V]. split; [exact G|]. unfold f32_mul. rewrite V. rewrite Nat.add_comm. eapply near_trans; [exact N1|exact M].
Qed.

(** ** The length of a command *)
Definition sane (c : mv_config) (m : motor) (steps : Z) : Prop :=
  fin32 (spmm c m) /\ bpow radix2 (-20) <= val (spmm c m) <= bpow radix2 20 /\ (Z.abs steps <= 2 ^ 24)%Z.
Definition within_bits (b : Z) (r : R) : Prop := bpow radix2 (- b) <= r <= bpow radix2 b.
Lemma bits_mul : forall a b r s, within_bits a r -> within_bits b s -> within_bits (a + b) (r * s).
Proof.
  intros a b r s [A B] [C D]. unfold within_bits. rewrite Z.opp_add_distr, !bpow_plus. pose proof (bpow_gt_0 radix2 (- a)). pose proof (bpow_gt_0 radix2 (- b)). split; apply Rmult_le_compat; lra.
Qed.
Lemma bits_inv : forall a r, within_bits a r -> within_bits a (/ r).
Proof.
  intros a r [A B]. pose proof (bpow_gt_0 radix2 (- a)). unfold within_bits. rewrite bpow_opp in *. split.
  - apply Rinv_le; lra.
  - rewrite <- (Rinv_inv (bpow radix2 a)). apply Rinv_le; lra.
Qed.
Lemma bits_weak : forall a b r, (a <= b)%Z -> within_bits a r -> within_bits b r.
Proof. intros a b r L [A B]. split; [eapply Rle_trans; [|exact A]|eapply Rle_trans; [exact B|]]; apply bpow_le; lia. Qed.
Lemma bits_usual : forall a r, (a <= 110)%Z -> r = 0 \/ within_bits a r -> usual r.
Proof. intros a r L [->|W]; [now left|right]. apply (bits_weak a 110) in W; [exact W|exact L]. Qed.
Lemma steps_bits : forall z, (Z.abs z <= 2 ^ 24)%Z -> z <> 0%Z -> within_bits 24 (Rabs (IZR z)).
Proof.
  intros z B N. rewrite <- abs_IZR. split.
  - apply Rle_trans with 1; [change 1 with (bpow radix2 0); apply bpow_le; lia|]. apply IZR_le. lia.
  - change (bpow radix2 24) with (IZR (2 ^ 24)). apply IZR_le. exact B.
Qed.
Lemma dist_bits : forall c m z, sane c m z -> z <> 0%Z -> within_bits 44 (dist c m z).
Proof. intros c m z (F & B & S) N. apply (bits_mul 24 20); [apply steps_bits; assumption|apply bits_inv; exact B]. Qed.
Lemma dist_zero : forall c m, dist c m 0 = 0.
Proof. intros c m. unfold dist. rewrite Rabs_R0. unfold Rdiv. ring. Qed.
Lemma dist_pos : forall c m z, sane c m z -> 0 <= dist c m z.
Proof. intros c m z S. destruct (Z.eq_dec z 0) as [->|N]; [rewrite dist_zero; lra|]. destruct (dist_bits c m z S N) as [A _]. pose proof (bpow_gt_0 radix2 (-44)). change (- (44))%Z with (-44)%Z in A. lra. Qed.
Lemma mm_near : forall c m z, sane c m z -> fin32 (mm c m z) /\ near 1 (Rabs (val (mm c m z))) (dist c m z).
Proof.
  intros c m z S. pose proof S as (F & B & Z). destruct (f32_of_Z_val z Z) as [Fz Vz]. pose proof (bpow_gt_0 radix2 (-20)) as P.
  assert (U : usual (dist c m z)) by (apply (bits_usual 44); [lia|]; destruct (Z.eq_dec z 0) as [->|N]; [left; apply dist_zero|right; apply dist_bits; assumption]).
  assert (E : Rabs (val (f32_of_Z z) / val (spmm c m)) = dist c m z) by (rewrite Vz; unfold dist, Rdiv; rewrite Rabs_mult, (Rabs_pos_eq (/ _)); [reflexivity|apply Rlt_le, Rinv_0_lt_compat; lra]).
  pose proof (near_refl _ (dist_pos c m z S)) as N0. destruct (rnd_near _ (usual_near 0 _ _ ltac:(lia) N0 U)) as [Sm N]. rewrite <- E, rnd32_abs in Sm, N.
  destruct (div_val 24 128 prec24 emax128 _ _ Fz F) as [G V]; [lra|unfold Proofs_Real.small in *; rewrite Rabs_Rabsolu in Sm; exact Sm|]. split; [exact G|]. unfold mm, f32_div. rewrite V. rewrite <- E. exact N.
Qed.
Lemma square_bits : forall c m z, sane c m z -> dist c m z * dist c m z = 0 \/ within_bits 88 (dist c m z * dist c m z).
Proof. intros c m z S. destruct (Z.eq_dec z 0) as [->|N]; [left; rewrite dist_zero; ring|right]. apply (bits_mul 44 44); apply dist_bits; assumption. Qed.
Lemma add_bits : forall a r s, r = 0 \/ within_bits a r -> s = 0 \/ within_bits a s -> r + s = 0 \/ within_bits (a + 1) (r + s).
Proof.
  intros a r s R S. pose proof (bpow_gt_0 radix2 (- a)) as P. pose proof (bpow_gt_0 radix2 a) as P2.
  assert (H : bpow radix2 (- (a + 1)) <= bpow radix2 (- a)) by (apply bpow_le; lia). assert (T : bpow radix2 (a + 1) = bpow radix2 a * 2) by (rewrite bpow_plus; reflexivity).
  destruct R as [->|[R1 R2]], S as [->|[S1 S2]]; [left; ring|right; unfold within_bits; rewrite T; lra..].
Qed.
Lemma length_near : forall c s, sane c M1 (s M1) -> sane c M2 (s M2) -> sane c M3 (s M3) -> fin32 (length_mm c s) /\ near 6 (val (length_mm c s)) (way_length c s).
Proof.
  intros c s S1 S2 S3. destruct (mm_near _ _ _ S1) as [F1 N1]. destruct (mm_near _ _ _ S2) as [F2 N2]. destruct (mm_near _ _ _ S3) as [F3 N3].
  pose proof (square_bits _ _ _ S1) as B1. pose proof (square_bits _ _ _ S2) as B2. pose proof (square_bits _ _ _ S3) as B3.
  destruct (square_near 1 _ _ ltac:(lia) F1 N1) as [G1 Q1]; [apply (bits_usual 88); [lia|exact B1]|].
  destruct (square_near 1 _ _ ltac:(lia) F2 N2) as [G2 Q2]; [apply (bits_usual 88); [lia|exact B2]|].
  destruct (square_near 1 _ _ ltac:(lia) F3 N3) as [G3 Q3]; [apply (bits_usual 88); [lia|exact B3]|].
  pose proof (add_bits _ _ _ B1 B2) as B12. destruct (add_near 3 _ _ _ _ ltac:(lia) G1 G2 Q1 Q2) as [G12 Q12]; [apply (bits_usual 89); [lia|exact B12]|].
  assert (B3' : dist c M3 (s M3) * dist c M3 (s M3) = 0 \/ within_bits 89 (dist c M3 (s M3) * dist c M3 (s M3))) by (destruct B3 as [B3|B3]; [now left|right; revert B3; apply bits_weak; lia]).
  pose proof (add_bits _ _ _ B12 B3') as B. apply (near_weak 3 4) in Q3; [|lia]. destruct (add_near 4 _ _ _ _ ltac:(lia) G12 G3 Q12 Q3) as [G Q]; [apply (bits_usual 90); [lia|exact B]|].
  apply (sqrt_near 5); [lia|exact G|exact Q|]. set (r := _ + _ + _) in *. apply (bits_usual 45); [lia|]. destruct B as [->|[L H]]; [left; apply sqrt_0|right]. change (- (88 + 1 + 1))%Z with (-90)%Z in L. change (88 + 1 + 1)%Z with 90%Z in H. split.
  - rewrite <- (sqrt_square (bpow radix2 (- (45)))) by apply bpow_ge_0. apply sqrt_le_1_alt. rewrite <- bpow_plus. exact L.
  - rewrite <- (sqrt_square (bpow radix2 45)) by apply bpow_ge_0. apply sqrt_le_1_alt. rewrite <- bpow_plus. exact H.
Qed.
Lemma length_bits : forall c s, sane c M1 (s M1) -> sane c M2 (s M2) -> sane c M3 (s M3) -> (s M1 <> 0 \/ s M2 <> 0 \/ s M3 <> 0)%Z -> within_bits 45 (way_length c s).
Proof.
  intros c s S1 S2 S3 N. pose proof (square_bits _ _ _ S1) as B1. pose proof (square_bits _ _ _ S2) as B2. pose proof (square_bits _ _ _ S3) as B3.
  pose proof (Rle_0_sqr (dist c M1 (s M1))) as P1. pose proof (Rle_0_sqr (dist c M2 (s M2))) as P2. pose proof (Rle_0_sqr (dist c M3 (s M3))) as P3. unfold Rsqr in *.
  assert (L : bpow radix2 (-88) <= dist c M1 (s M1) * dist c M1 (s M1) + dist c M2 (s M2) * dist c M2 (s M2) + dist c M3 (s M3) * dist c M3 (s M3)).
  { assert (K : forall m, sane c m (s m) -> s m <> 0%Z -> bpow radix2 (-88) <= dist c m (s m) * dist c m (s m)) by (intros m S H; exact (proj1 (bits_mul 44 44 _ _ (dist_bits _ _ _ S H) (dist_bits _ _ _ S H)))).
    destruct N as [N|[N|N]]; [pose proof (K M1 S1 N)|pose proof (K M2 S2 N)|pose proof (K M3 S3 N)]; lra. }
  assert (H : dist c M1 (s M1) * dist c M1 (s M1) + dist c M2 (s M2) * dist c M2 (s M2) + dist c M3 (s M3) * dist c M3 (s M3) <= bpow radix2 90).
  { assert (K : forall r, r = 0 \/ within_bits 88 r -> r <= bpow radix2 88) by (intros r [->|[_ Q]]; [apply bpow_ge_0|exact Q]). apply K in B1, B2, B3. change 90%Z with (88 + 2)%Z. rewrite bpow_plus. change (bpow radix2 2) with 4. lra. }
  unfold way_length. split.
  - rewrite <- (sqrt_square (bpow radix2 (- (45)))) by apply bpow_ge_0. apply sqrt_le_1_alt. rewrite <- bpow_plus. eapply Rle_trans; [|exact L]. apply bpow_le. lia.
  - rewrite <- (sqrt_square (bpow radix2 45)) by apply bpow_ge_0. apply sqrt_le_1_alt. rewrite <- bpow_plus. exact H.
Qed.
Lemma seen_some : forall k, seen k = true -> (Model_Planner.c_steps k M1 <> 0 \/ Model_Planner.c_steps k M2 <> 0 \/ Model_Planner.c_steps k M3 <> 0)%Z.
Proof. intros k S. unfold seen in S. apply negb_true_iff in S. lia. Qed.

(** The speed of a command is what follows from the length of its way and the time in which the
    motor with most steps, at [v] steps/s, makes them, up to 1/100000. *)
Theorem C84_speed : forall c k v m, seen k = true -> (forall x, (Z.abs (Model_Planner.c_steps k x) <= Z.abs (Model_Planner.c_steps k m))%Z) ->
  (forall x, shown_motor x \/ turns k x -> fin32 (mv_steps c (motor_axis x)) /\ bpow radix2 (-20) <= val (mv_steps c (motor_axis x)) <= bpow radix2 20 /\ (Z.abs (Model_Planner.c_steps k x) <= 2 ^ 24)%Z) ->
  fin32 v -> val v = 0 \/ bpow radix2 (-20) <= val v <= bpow radix2 40 ->
  let speed := way_length c (Model_Planner.c_steps k) / (IZR (Z.abs (Model_Planner.c_steps k m)) / val v) in
  fin32 (through_space c k v) /\ (val v = 0 -> val (through_space c k v) = 0) /\
  (val v <> 0 -> Rabs (val (through_space c k v) - speed) <= speed / 100000).
Proof.
  intros c k v m Se Mo H Fv Bv speed. set (s := Model_Planner.c_steps k) in *. pose proof (seen_some k Se) as N. fold s in N.
  assert (S : forall x, shown_motor x \/ s x <> 0%Z -> sane c x (s x)) by (intros x X; exact (H x X)).
  assert (S1 : sane c M1 (s M1)) by (apply S; unfold shown_motor; auto). assert (S2 : sane c M2 (s M2)) by (apply S; unfold shown_motor; auto). assert (S3 : sane c M3 (s M3)) by (apply S; unfold shown_motor; auto).
  assert (Ed : Z.abs (s (dominant s)) = Z.abs (s m)) by (pose proof (Mo (dominant s)); pose proof (dominant_max s m); lia).
  assert (Nd : s (dominant s) <> 0%Z) by (pose proof (dominant_max s M1); pose proof (dominant_max s M2); pose proof (dominant_max s M3); lia).
  destruct (S _ (or_intror Nd)) as (Fp & Bp & Zd). set (d := dominant s) in *. unfold through_space, speed_ratio. change (Model_Planner.c_steps k) with s. change (dominant s) with d.
  pose proof (bpow_gt_0 radix2 (-20)) as P20. assert (Pp : 0 < val (spmm c d)) by lra.
  pose proof (steps_bits _ Zd Nd) as Bd. rewrite <- abs_IZR in Bd. set (n := Z.abs (s d)) in *. assert (Pn : 0 < IZR n) by (apply IZR_lt; unfold n; lia).
  destruct (f32_of_Z_val n ltac:(unfold n; lia)) as [Fn Vn].
  pose proof (near_refl (val (spmm c d)) ltac:(lra)) as N_p. assert (N_n : near 0 (val (f32_of_Z n)) (IZR n)) by (rewrite Vn; apply near_refl; lra).
  assert (BD : within_bits 44 (IZR n / val (spmm c d))) by (apply (bits_mul 24 20); [exact Bd|apply bits_inv; exact Bp]).
  destruct (div_near 0 0 _ _ _ _ ltac:(lia) Fn Fp N_n N_p Pp) as [FD ND]; [apply (bits_usual 44); [lia|now right]|].
  destruct (length_near c s S1 S2 S3) as [FL NL]. pose proof (length_bits c s S1 S2 S3 N) as BL.
  assert (PD : 0 < IZR n / val (spmm c d)) by (apply Rdiv_lt_0_compat; assumption).
  destruct (div_near 6 1 _ _ _ _ ltac:(lia) FL FD NL ND PD) as [FR NR]; [apply (bits_usual 89); [lia|right; apply (bits_mul 45 44); [exact BL|apply bits_inv; exact BD]]|].
  assert (Pv : 0 <= val v) by (destruct Bv as [->|Bv]; lra).
  assert (BV : val v = 0 \/ within_bits 40 (val v)).
  { destruct Bv as [Bv|[L U]]; [now left|right]. split; [eapply Rle_trans; [|exact L]; apply bpow_le; lia|exact U]. }
  destruct (div_near 0 0 _ _ _ _ ltac:(lia) Fv Fp (near_refl _ Pv) N_p Pp) as [FQ NQ].
  { apply (bits_usual 60); [lia|]. destruct BV as [->|BV]; [left; unfold Rdiv; ring|right]. apply (bits_mul 40 20); [exact BV|apply bits_inv; exact Bp]. }
  assert (Eq : way_length c s / (IZR n / val (spmm c d)) * (val v / val (spmm c d)) = way_length c s * val v * / IZR n) by (field; lra).
  destruct (mul_near 8 1 _ _ _ _ ltac:(lia) FR FQ NR NQ) as [F Q].
  { rewrite Eq. apply (bits_usual 109); [lia|]. destruct BV as [->|BV]; [left; ring|right]. apply (bits_mul 85 24); [apply (bits_mul 45 40); [exact BL|exact BV]|apply bits_inv; exact Bd]. }
  split; [exact F|]. rewrite Eq in Q. apply (near_weak 10 16) in Q; [|lia]. destruct Q as (Q0 & Q1 & Q2 & Q3). split.
  - intros E. rewrite E in Q3. rewrite Rmult_0_r, Rmult_0_l, Rmult_0_l in Q3. lra.
  - intros Nv. assert (Es : speed = way_length c s * val v * / IZR n) by (unfold speed; rewrite <- Ed; fold n; field; split; first [exact Nv|lra]). rewrite <- Es in *. pose proof t16 as T. pose proof (t_pow 16) as T1.
    set (x := val (f32_mul _ _)) in *. assert (X1 : speed <= x * (1 + / 900000)) by (eapply Rle_trans; [exact Q2|apply Rmult_le_compat_l; lra]). assert (X2 : x <= speed * (1 + / 900000)) by (eapply Rle_trans; [exact Q3|apply Rmult_le_compat_l; lra]).
    apply Rabs_le. lra.
Qed.
Print Assumptions C84_speed.
Example C84_speed_example : match ramp with Move k => seen k = true /\ (forall x, (Z.abs (Model_Planner.c_steps k x) <= Z.abs (Model_Planner.c_steps k M2))%Z) /\
    way_length (tens true) (Model_Planner.c_steps k) = 5 /\ through_space (tens true) k (c_v0 k) = f32_div (f32_of_Z 25) (f32_of_Z 2) | _ => False end.
Proof.
  cbn [ramp to]. split; [reflexivity|]. split; [intros []; vm_compute; discriminate|]. split; [|vm_compute; reflexivity].
  unfold way_length, dist, spmm. cbn [Model_Planner.c_steps tens mv_steps]. destruct (f32_of_Z_val 10 ltac:(lia)) as [_ V]. rewrite V. rewrite !Rabs_pos_eq by lra.
  replace (_ + _ + _) with (5 * 5) by field. apply sqrt_square. lra.
Qed.

(** A command is drawn in one or more lines, in colours between 0 and 255, the last of which ends
    where the motors stand (up to 16 million steps, counted for all pieces). *)
Theorem C84_pieces : forall c k z z' ms, mv_speeds c = true -> seen k = true -> geared (mv_steps c) [Move k] ->
  fin32 (mv_length c) -> 0 < val (mv_length c) ->
  (forall m, shown_motor m -> fin32 (mv_steps c (motor_axis m)) /\ bpow radix2 (-20) <= val (mv_steps c (motor_axis m)) <= bpow radix2 20 /\ (Z.abs (Model_Planner.c_steps k m) <= 2 ^ 24)%Z) ->
  second_step c (Move k) z = Ok (z', ms) ->
  let n := length (drawn None ms) in
  (forall m, shown_motor m -> mv_pos z' m = after_call (mv_pos z) (Move k) m) /\ (1 <= n)%nat /\ (forall j, In (SpeedColor j) ms -> (0 <= j <= 255)%Z) /\
  ((forall m, shown_motor m -> (Z.abs (mv_pos z m) <= 2 ^ 24 /\ Z.abs (mv_pos z' m) <= 2 ^ 24 /\ Z.of_nat n * Z.abs (Model_Planner.c_steps k m) <= 2 ^ 24)%Z) ->
   exists p, the_end ms = Some p /\ map val (corners p) = map val (corners (at_mm (mv_steps c) (mv_pos z')))).
Proof.
  intros c k z z' ms Sp Se G Fl Pl H E n. pose proof (seen_some k Se) as N. set (s := Model_Planner.c_steps k) in *.
  assert (S1 : sane c M1 (s M1)) by (apply H; unfold shown_motor; auto). assert (S2 : sane c M2 (s M2)) by (apply H; unfold shown_motor; auto). assert (S3 : sane c M3 (s M3)) by (apply H; unfold shown_motor; auto).
  destruct (length_near c s S1 S2 S3) as [FL NL]. pose proof (length_bits c s S1 S2 S3 N) as [BL _]. pose proof (bpow_gt_0 radix2 (- (45))) as PB.
  assert (PL : 0 < val (length_mm c s)). { destruct NL as (X & _ & A & _). destruct X as [X|X]; [exact X|]. rewrite <- X in A. lra. }
  assert (L : SFeqb (length_mm c s) (f32_of_Z 0) = false).
  { destruct (SFeqb _ _) eqn:Q; [|reflexivity]. destruct (f32_of_Z_val 0 ltac:(lia)) as [F0 V0]. apply (eqb_eq_val 24 128) in Q; try assumption. lra. }
  assert (P : exists n, pieces c k = Ok n /\ (1 <= n)%Z).
  { destruct (pieces c k) as [q|] eqn:Q.
    - exists q. split; [reflexivity|]. unfold pieces in Q. destruct (SFeqb (c_v0 k) (c_v1 k)); [injection Q as <-; lia|]. fold s in Q.
      destruct (to_int (fl_trunc (f32_div (length_mm c s) (mv_length c)))) as [i|] eqn:T; [|discriminate]. injection Q as <-.
      assert (I : (0 <= i)%Z). { assert (K : exists z0, fl_trunc (f32_div (length_mm c s) (mv_length c)) = Some z0 /\ i = z0) by (unfold to_int in T; destruct (fl_trunc _) as [z0|]; [|discriminate]; destruct (_ && _)%bool; [|discriminate]; injection T as <-; eauto).
        destruct K as (z0 & K & ->). clear T. destruct (length_mm c s) as [b|b| |b lm le] eqn:EL; try (destruct FL as [_ X]; discriminate X); [unfold val in PL; cbn in PL; lra|].
        destruct (mv_length c) as [b2|b2| |b2 qm qe] eqn:EQ; try (destruct Fl as [_ X]; discriminate X); [unfold val in Pl; cbn in Pl; lra|].
        destruct b; [exfalso; unfold val in PL; cbn [SF2R] in PL; assert (F2R (Float radix2 (cond_Zopp true (Z.pos lm)) le) < 0) by (apply F2R_lt_0; reflexivity); lra|].
        destruct b2; [exfalso; unfold val in Pl; cbn [SF2R] in Pl; assert (F2R (Float radix2 (cond_Zopp true (Z.pos qm)) qe) < 0) by (apply F2R_lt_0; reflexivity); lra|].
        destruct (Rlt_or_le (Rabs (rnd32 (val (S754_finite false lm le) / val (S754_finite false qm qe)))) (bpow radix2 128)) as [Sm|Big].
        - destruct (div_val 24 128 prec24 emax128 _ _ FL Fl ltac:(lra) Sm) as [FD VD]. rewrite (trunc_val 24 128) in K by exact FD. injection K as <-.
          assert (0 <= val (f32_div (S754_finite false lm le) (S754_finite false qm qe))). { unfold f32_div. rewrite VD. rewrite <- (rnd_0 24 128). apply rnd_le; try reflexivity. apply Rlt_le, Rdiv_lt_0_compat; assumption. }
          apply Ztrunc_le in H0. rewrite Ztrunc_IZR in H0. exact H0.
        - exfalso. destruct (fin_b 24 128 _ FL) as (ba & Ea & Fa & Va). destruct (fin_b 24 128 _ Fl) as (bb & Eb & Fb & Vb). unfold f32_div in K. rewrite <- Ea, <- Eb, (div_eq 24 128 prec24 emax128) in K.
          pose proof (Bdiv_correct 24 128 prec24 emax128 mode_NE ba bb) as C. rewrite Vb in C. specialize (C ltac:(lra)). rewrite Rlt_bool_false in C; [|rewrite Va; exact Big]. rewrite C in K. unfold binary_overflow in K. cbn in K. discriminate K. }
      destruct (Z.eqb_spec i 0); lia.
    - exfalso. cbn [second_step] in E. fold s in E. destruct (nothing_to_do c s) eqn:Nt; [pose proof (something c k [Move k] G ltac:(now left) Nt); congruence|].
      unfold print_segment in E. fold s in E. unfold seen in Se. apply negb_true_iff in Se. fold s in Se. rewrite Se, Sp, L, Q in E. discriminate. }
  destruct P as (q & Q & Pq). 
  cbn [second_step] in E. fold s in E. destruct (nothing_to_do c s) eqn:Nt; [pose proof (something c k [Move k] G ltac:(now left) Nt); congruence|].
  pose proof Se as Se'. unfold print_segment in E. fold s in E. unfold seen in Se. apply negb_true_iff in Se. fold s in Se. rewrite Se, Sp, L, Q in E. cbn [obind] in E.
  destruct (Z.to_nat q) as [|tq] eqn:Tn; [lia|]. destruct (draw_pieces c k (mv_pos z) (mv_low z) (mv_high z) q (S tq) 0 (mv_index z)) as [[l ms']|] eqn:D; [|discriminate]. cbn [obind] in E. injection E as <- <-.
  destruct (draw_end _ _ _ _ _ _ _ _ _ _ _ D) as (x & y & w & X & Y & W & En & Le & Co). fold s in X, Y, W.
  assert (Nq : Z.of_nat n = q) by (unfold n; rewrite Le; lia). replace (0 + Z.of_nat tq)%Z with (q - 1)%Z in X, Y, W by lia.
  assert (A : forall m, shown_motor m -> mv_pos (with_pos z (add_xyz (mv_pos z) s) l (mv_colored z)) m = (mv_pos z m + s m)%Z) by (intros m [-> | [-> | -> ]]; reflexivity).
  split; [intros m M; rewrite (A m M); reflexivity|]. split; [lia|]. split; [exact Co|]. intros B. exists (x, y, w). split; [apply En|]. unfold at_mm. rewrite !A by (unfold shown_motor; auto). cbn [corners map].
  assert (Bq : (q <= 2 ^ 24)%Z).
  { assert (K : forall m, shown_motor m -> s m <> 0%Z -> (q <= 2 ^ 24)%Z) by (intros m M Z; destruct (B m M) as (_ & _ & B3); rewrite Nq in B3; fold s in B3; nia). destruct N as [N|[N|N]]; [apply (K M1)|apply (K M2)|apply (K M3)]; try exact N; unfold shown_motor; auto. }
  assert (LA : forall m v, shown_motor m -> abs_axis c (mv_pos z) s q (q - 1) m = Ok v -> sane c m (s m) -> val v = val (mm c m (mv_pos z m + s m))).
  { intros m v M V (F & Bp & _). destruct (B m M) as (B1 & B2 & B3). rewrite (A m M) in B2. rewrite Nq in B3. fold s in B3. pose proof (bpow_gt_0 radix2 (-20)). unfold spmm in *. eapply last_axis; [exact V|lia|exact F|lra|exact B1|exact B2|rewrite Z.abs_mul; lia]. }
  rewrite (LA M1 x), (LA M2 y), (LA M3 w) by (assumption || (unfold shown_motor; auto)). reflexivity.
Qed.
Print Assumptions C84_pieces.
