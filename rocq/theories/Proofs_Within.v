(** The speeds of the commands against the limits of the axes and the feedrate. *)
From Coq Require Import SpecFloat Reals Lra.
From Flocq Require Import Core IEEE754.BinarySingleNaN.
From Verif Require Import Base Model_Float Model_Axis Model_Planner Spec_Real Spec_Planner Spec_Speeds Spec_Limits Proofs_Planner Proofs_Real Proofs_Ramp Proofs_Profile Proofs_Speeds Proofs_Joints Proofs_Limits Proofs_Corner Proofs_Path.
Open Scope Z_scope.
Open Scope R_scope.

(** ** At most [n] roundings above *)
Definition K : R := 1 + / 1048576.
Definition up (n : nat) (x y : R) : Prop := x <= K ^ n * y.
Lemma K_ge : forall n, 1 <= K ^ n.
Proof. intros n. apply pow_R1_Rle. unfold K. lra. Qed.
Lemma up_trans : forall m n x y z, up m x y -> up n y z -> up (m + n) x z.
Proof. unfold up. intros m n x y z H1 H2. rewrite pow_add. eapply Rle_trans; [exact H1|]. rewrite Rmult_assoc. apply Rmult_le_compat_l; [pose proof (K_ge m); lra|exact H2]. Qed.
Lemma up_mul : forall m n x y z w, 0 <= x -> 0 <= z -> up m x y -> up n z w -> up (m + n) (x * z) (y * w).
Proof. unfold up. intros m n x y z w P1 P2 H1 H2. rewrite pow_add. replace (K ^ m * K ^ n * (y * w)) with (K ^ m * y * (K ^ n * w)) by ring. now apply Rmult_le_compat. Qed.
Lemma up_inv : forall n x y, 0 < x -> 0 < y -> up n x y -> up n (/ y) (/ x).
Proof.
  unfold up. intros n x y P1 P2 H. apply Rmult_le_reg_r with y; [exact P2|]. rewrite Rinv_l by lra. apply Rmult_le_reg_l with x; [exact P1|]. replace (x * (K ^ n * / x * y)) with (K ^ n * y) by (field; lra). lra.
Qed.
Lemma up_div : forall m n x y z w, 0 <= x -> 0 < z -> 0 < w -> up m x y -> up n w z -> up (m + n) (x / z) (y / w).
Proof. intros m n x y z w P1 P2 P3 H1 H2. unfold Rdiv. apply up_mul; auto; [left; now apply Rinv_0_lt_compat|now apply up_inv]. Qed.
Lemma up_more : forall m n x y, (m <= n)%nat -> 0 <= y -> up m x y -> up n x y.
Proof. unfold up. intros m n x y L P H. eapply Rle_trans; [exact H|]. apply Rmult_le_compat_r; [exact P|]. apply Rle_pow; [unfold K; lra|exact L]. Qed.
Lemma up_refl : forall x, up 0 x x.
Proof. unfold up. intros. cbn. lra. Qed.
Lemma up_add : forall n x y z w, up n x y -> up n z w -> up n (x + z) (y + w).
Proof. unfold up. intros. lra. Qed.
Lemma up_sqrt : forall n x y, 0 <= x -> 0 <= y -> up (n + n) x y -> up n (sqrt x) (sqrt y).
Proof.
  unfold up. intros n x y P1 P2 H. rewrite <- (sqrt_square (K ^ n)) by (pose proof (K_ge n); lra). rewrite <- sqrt_mult by (auto; pose proof (K_ge n); apply mul_pos; lra). apply sqrt_le_1_alt. rewrite pow_add in H. exact H.
Qed.
Lemma up_about : forall n x y, (n <= 500)%nat -> 0 <= y -> up n x y -> x <= about * y.
Proof.
  intros n x y L P H. apply (up_more n 500 x y L P) in H. unfold up in H. eapply Rle_trans; [exact H|]. apply Rmult_le_compat_r; [exact P|]. unfold about, K.
  assert (G : forall k, (1 + / 1048576) ^ k * (1 - INR k * / 1048576) <= 1).
  { induction k as [|k IH]; [cbn; lra|]. rewrite S_INR. cbn [pow]. apply Rle_trans with ((1 + / 1048576) ^ k * (1 - INR k * / 1048576)); [|exact IH].
    replace ((1 + / 1048576) * (1 + / 1048576) ^ k * (1 - (INR k + 1) * / 1048576)) with ((1 + / 1048576) ^ k * ((1 + / 1048576) * (1 - (INR k + 1) * / 1048576))) by ring. apply Rmult_le_compat_l; [apply pow_le; lra|]. pose proof (pos_INR k). lra. }
  specialize (G 500%nat). replace (INR 500) with 500 in G by (cbn; lra). lra.
Qed.

Lemma up_rnd : forall prec emax r, Prec_gt_0 prec -> (24 <= prec)%Z -> (128 <= emax)%Z -> bpow radix2 (-100) <= Rabs r -> up 1 (Rabs (rnd prec emax r)) (Rabs r) /\ up 1 (Rabs r) (Rabs (rnd prec emax r)).
Proof.
  intros prec emax r Pp P E B. pose proof (rnd_error prec emax Pp r) as Er. pose proof (bpow_gt_0 radix2 (-100)) as B0.
  assert (E1 : bpow radix2 (- prec) <= / 16777216) by (change (/ 16777216) with (bpow radix2 (-24)); apply bpow_le; lia).
  assert (E2 : bpow radix2 (SpecFloat.emin prec emax) <= / 16777216 * Rabs r).
  { apply Rle_trans with (/ 16777216 * bpow radix2 (-100)); [|lra]. change (/ 16777216) with (bpow radix2 (-24)). rewrite <- bpow_plus. apply bpow_le. unfold SpecFloat.emin. lia. }
  assert (E3 : bpow radix2 (- prec) * Rabs r <= / 16777216 * Rabs r) by (apply Rmult_le_compat_r; lra).
  assert (T1 : Rabs (rnd prec emax r) <= Rabs r + Rabs (rnd prec emax r - r)). { replace (rnd prec emax r) with (r + (rnd prec emax r - r)) at 1 by ring. apply Rabs_triang. }
  assert (T2 : Rabs r <= Rabs (rnd prec emax r) + Rabs (rnd prec emax r - r)). { replace r with (rnd prec emax r + (r - rnd prec emax r)) at 1 by ring. eapply Rle_trans; [apply Rabs_triang|]. rewrite (Rabs_minus_sym r). lra. }
  unfold up, K. cbn [pow]. split; lra.
Qed.
Lemma up_rnd32 : forall r, bpow radix2 (-100) <= Rabs r -> up 1 (Rabs (rnd32 r)) (Rabs r) /\ up 1 (Rabs r) (Rabs (rnd32 r)).
Proof. intros r. apply up_rnd; [reflexivity|lia|lia]. Qed.
Lemma up_rnd64 : forall r, bpow radix2 (-100) <= Rabs r -> up 1 (Rabs (rnd64 r)) (Rabs r) /\ up 1 (Rabs r) (Rabs (rnd64 r)).
Proof. intros r. apply up_rnd; [reflexivity|lia|lia]. Qed.
Lemma mag100 : forall lo hi r, mag lo hi r -> (-100 <= lo)%Z -> bpow radix2 (-100) <= Rabs r.
Proof. intros lo hi r M L. eapply Rle_trans; [|apply M]. now apply bpow_le. Qed.

Section Target.
Variable c : pcfg.
Variable A : R.
Hypothesis Dv : drivable c A.
Section Delta.
Variable delta : axis -> Z.
Hypothesis Few : forall a, (Z.abs (delta a) <= 2 ^ 31)%Z.
Hypothesis Dr : forall a, delta a <> 0%Z -> driven c a.
Variable d : axis.
Hypothesis Dd : delta d <> 0%Z.
Notation s a := (val (spm c a)).
Notation n a := (IZR (Z.abs (delta a))).

Lemma s_pos : forall a, delta a <> 0%Z -> 0 < s a.
Proof. intros a N. apply (spm_mag c a (Dr a N)). Qed.
Lemma n_pos : forall a, delta a <> 0%Z -> 0 < n a.
Proof. intros a N. apply (IZR_lt 0). lia. Qed.

Lemma ratio_up : forall i, delta i <> 0%Z -> up 6 (n i * s d / (n d * s i)) (val (ratio c delta d i)).
Proof.
  intros i Di. destruct (spm_mag c d (Dr d Dd)) as (Fs & Ms & Ps). destruct (spm_mag c i (Dr i Di)) as (Fi & Mi & Pi). pose proof (n_pos i Di) as Ni. pose proof (n_pos d Dd) as Nd.
  pose proof (Few i). pose proof (Few d).
  destruct (f64_of_Z_mag (delta i) ltac:(lia)) as (F1 & V1 & M1). destruct (f32_of_Z_mag (delta d) ltac:(lia)) as (F2 & M2).
  destruct (of_Z_rnd 24 128 _ _ (delta d) 31 ltac:(lia) ltac:(lia) ltac:(exps)) as [_ V2].
  destruct (f64_of_Z_mag 1 ltac:(lia)) as (F3 & V3 & _). assert (M3 : mag 0 0 (val d1)) by (unfold d1; rewrite V3; apply pos_mag; cbn; lra).
  destruct (mul_mag 53 1024 _ _ _ _ _ _ d1 _ F3 F1 M3 M1) as (F4 & V4 & M4); try exps.
  destruct (f64_of_f32_val _ Fs) as [F5 V5]. assert (Ms' := Ms). rewrite <- V5 in Ms.
  destruct (mul_mag 53 1024 _ _ _ _ _ _ _ _ F4 F5 M4 Ms) as (F6 & V6 & M6); try exps.
  destruct (mul_mag 24 128 _ _ _ _ _ _ _ _ F2 Fi M2 Mi) as (F7 & V7 & M7); try exps.
  destruct (f64_of_f32_val _ F7) as [F8 V8]. assert (M7' := M7). rewrite <- V8 in M7.
  destruct (div_mag 53 1024 _ _ _ _ _ _ _ _ F6 F8 M6 M7) as (F9 & V9 & M9); try exps.
  destruct (abs_val 53 1024 _ F9) as [F10 V10].
  assert (M10 : mag (-49) 49 (val (f64_abs (SFdiv 53 1024 (SFmul 53 1024 (SFmul 53 1024 d1 (f64_of_Z (delta i))) (f64_of_f32 (spm c d))) (f64_of_f32 (SFmul 24 128 (f32_of_Z (delta d)) (spm c i))))))).
  { rewrite V10. unfold mag. rewrite Rabs_Rabsolu. exact M9. }
  destruct (f32_of_f64_val _ F10) as [F V]; [apply (small_of 24 128 _ 49); [exps|apply M10]|].
  assert (Vr : val (ratio c delta d i) = Rabs (rnd32 (val (f64_abs (SFdiv 53 1024 (SFmul 53 1024 (SFmul 53 1024 d1 (f64_of_Z (delta i))) (f64_of_f32 (spm c d))) (f64_of_f32 (SFmul 24 128 (f32_of_Z (delta d)) (spm c i)))))))).
  { unfold ratio. unfold f64_mul, f64_div, f32_mul. rewrite V. symmetry. apply Rabs_pos_eq. apply rnd_pos; auto with typeclass_instances. rewrite V10. apply Rabs_pos. }
  rewrite Vr. clear Vr F V F10.
  (* the numerator *)
  assert (U4 : up 1 (n i) (Rabs (val (SFmul 53 1024 d1 (f64_of_Z (delta i)))))).
  { rewrite V4, V1. unfold d1. rewrite V3, Rmult_1_l. rewrite <- Rabs_Zabs. apply up_rnd64. apply (mag100 0 31); [rewrite <- V1; exact M1|lia]. }
  set (x4 := val (SFmul 53 1024 d1 (f64_of_Z (delta i)))) in *.
  assert (U6 : up 2 (n i * s d) (Rabs (val (SFmul 53 1024 (SFmul 53 1024 d1 (f64_of_Z (delta i))) (f64_of_f32 (spm c d)))))).
  { rewrite V6. change 2%nat with (1 + 1)%nat. apply up_trans with (Rabs (x4 * val (f64_of_f32 (spm c d)))).
    - rewrite Rabs_mult, V5. rewrite (Rabs_pos_eq (s d)) by lra. change 1%nat with (1 + 0)%nat. apply up_mul; [lra|lra|exact U4|apply up_refl].
    - apply up_rnd64. apply (mag100 (0 + 0 + -4) (0 + 31 + 14)); [apply mag_mul; [exact M4|rewrite V5; exact Ms']|lia]. }
  set (x6 := val (SFmul 53 1024 (SFmul 53 1024 d1 (f64_of_Z (delta i))) (f64_of_f32 (spm c d)))) in *.
  (* the denominator *)
  assert (U2 : up 1 (Rabs (val (f32_of_Z (delta d)))) (n d)).
  { unfold f32_of_Z. rewrite V2. rewrite <- Rabs_Zabs. apply up_rnd32. apply (mag100 0 31); [apply mag_Z; lia|lia]. }
  assert (U7 : up 2 (Rabs (val (f64_of_f32 (SFmul 24 128 (f32_of_Z (delta d)) (spm c i))))) (n d * s i)).
  { rewrite V8, V7. change 2%nat with (1 + 1)%nat. apply up_trans with (Rabs (val (f32_of_Z (delta d)) * s i)).
    - apply up_rnd32. apply (mag100 (0 + -4) (31 + 14)); [now apply mag_mul|lia].
    - rewrite Rabs_mult. rewrite (Rabs_pos_eq (s i)) by lra. change 1%nat with (1 + 0)%nat. apply up_mul; [apply Rabs_pos|lra|exact U2|apply up_refl]. }
  set (x8 := val (f64_of_f32 (SFmul 24 128 (f32_of_Z (delta d)) (spm c i)))) in *.
  assert (P6 : 0 < Rabs x6) by (apply Rabs_pos_lt; now apply (mag_nz _ _ _ M6)). assert (P8 : 0 < Rabs x8) by (apply Rabs_pos_lt; now apply (mag_nz _ _ _ M7)).
  change 6%nat with (2 + 2 + (1 + 1))%nat. apply up_trans with (Rabs x6 / Rabs x8).
  - apply up_div; auto; [apply mul_pos; lra|apply Rmult_lt_0_compat; lra].
  - apply up_trans with (val (f64_abs (SFdiv 53 1024 (SFmul 53 1024 (SFmul 53 1024 d1 (f64_of_Z (delta i))) (f64_of_f32 (spm c d))) (f64_of_f32 (SFmul 24 128 (f32_of_Z (delta d)) (spm c i)))))).
    + rewrite V10, V9. fold x6 x8. assert (Ed : Rabs x6 / Rabs x8 = Rabs (x6 / x8)) by (unfold Rdiv; rewrite Rabs_mult, Rabs_inv; reflexivity). rewrite Ed. apply up_rnd64.
      apply (mag100 (0 + 0 + -4 - (31 + 14)) (0 + 31 + 14 - (0 + -4))); [apply mag_div; assumption|lia].
    + assert (G : forall y, y = Rabs y -> mag (-49) 49 y -> up 1 y (Rabs (rnd32 y))) by (intros y Py My; rewrite Py at 1; apply up_rnd32; apply (mag100 (-49) 49); [exact My|lia]).
      apply G; [rewrite V10, Rabs_Rabsolu; reflexivity|exact M10].
Qed.

Section Clamp.
Variable limits : axis -> fl.
Variable lo hi : Z.
Hypothesis Lo : (-20 <= lo)%Z.
Hypothesis Hi : (0 <= hi <= 40)%Z.
Hypothesis Lim : forall a, driven c a -> fin32 (limits a) /\ bpow radix2 lo <= val (limits a) <= bpow radix2 hi.

Lemma clamp_up : forall i, delta i <> 0%Z -> up 8 (val (clamp_limit c delta limits d) * n i) (val (limits i) * s i * n d).
Proof.
  intros i Di. pose proof (s_pos i Di) as Si. pose proof (s_pos d Dd) as Sd. pose proof (n_pos i Di) as Ni. pose proof (n_pos d Dd) as Nd.
  destruct (limit_ok c delta Few Dr d Dd limits lo hi Lo Hi Lim) as (_ & Bl & Ul & _). destruct (clamp_ok c delta Few Dr d Dd limits lo hi Lo Hi Lim) as (_ & Vc & Bc & Bp).
  destruct (quotient c delta Few Dr d Dd limits lo hi Lo Hi Lim i Di) as (_ & _ & _ & Bq). destruct (ratio_mag c delta Few Dr d Dd i Di) as [_ Br]. destruct (Lim i (Dr i Di)) as [_ Bi].
  pose proof (ratio_up i Di) as Ur. set (rt := val (ratio c delta d i)) in *. set (L := val (limit c delta d limits)) in *. set (li := val (limits i)) in *.
  assert (Prt : 0 < rt) by (eapply Rlt_le_trans; [apply bpow_gt_0|apply Br]). assert (Pli : 0 < li) by (eapply Rlt_le_trans; [apply bpow_gt_0|apply Bi]). assert (PL : 0 < L) by (eapply Rlt_le_trans; [apply bpow_gt_0|apply Bl]).
  assert (U1 : up 7 L (li / (n i * s d / (n d * s i)))).
  { change 7%nat with (1 + (0 + 6))%nat. apply up_trans with (li / rt).
    - specialize (Ul i Di). fold rt li in Ul. destruct (up_rnd32 (li / rt)) as [U _]; [rewrite Rabs_pos_eq by (apply div_pos; lra); eapply Rle_trans; [|exact Bq]; apply bpow_le; lia|].
      unfold up in *. rewrite (Rabs_pos_eq (li / rt)) in U by (apply div_pos; lra). eapply Rle_trans; [exact Ul|]. eapply Rle_trans; [apply Rle_abs|exact U].
    - apply up_div; [lra|lra| |apply up_refl|exact Ur]. apply Rdiv_lt_0_compat; apply Rmult_lt_0_compat; lra. }
  rewrite Vc. change 8%nat with (1 + 7)%nat. apply up_trans with (L * s d * n i).
  - destruct (up_rnd32 (L * s d)) as [U _]; [rewrite Rabs_pos_eq by (apply mul_pos; lra); eapply Rle_trans; [|exact Bp]; apply bpow_le; lia|].
    change 1%nat with (1 + 0)%nat. apply up_mul; [apply rnd_pos; auto with typeclass_instances; apply mul_pos; lra|lra| |apply up_refl].
    unfold up in *. rewrite (Rabs_pos_eq (L * s d)) in U by (apply mul_pos; lra). eapply Rle_trans; [apply Rle_abs|exact U].
  - unfold up in *. replace (K ^ 7 * (li * s i * n d)) with (K ^ 7 * (li / (n i * s d / (n d * s i))) * (s d * n i)) by (field; lra). rewrite Rmult_assoc. apply Rmult_le_compat_r; [apply mul_pos; lra|exact U1].
Qed.
End Clamp.

(** ** The feedrate *)
Definition both (k : nat) (x y : R) : Prop := up k x y /\ up k y x.
Lemma both_trans : forall j k x y z, both j x y -> both k y z -> both (j + k) x z.
Proof. intros j k x y z [H1 H2] [H3 H4]. split; [eapply up_trans; eauto|rewrite Nat.add_comm; eapply up_trans; eauto]. Qed.
Lemma both_mul : forall j k x y z w, 0 <= x -> 0 <= y -> 0 <= z -> 0 <= w -> both j x y -> both k z w -> both (j + k) (x * z) (y * w).
Proof. intros j k x y z w P1 P2 P3 P4 [H1 H2] [H3 H4]. split; now apply up_mul. Qed.
Lemma both_more : forall j k x y, (j <= k)%nat -> 0 <= x -> 0 <= y -> both j x y -> both k x y.
Proof. intros j k x y L P1 P2 [H1 H2]. split; now apply (up_more j). Qed.
Lemma both_add : forall k x y z w, both k x y -> both k z w -> both k (x + z) (y + w).
Proof. intros k x y z w [H1 H2] [H3 H4]. split; now apply up_add. Qed.
Lemma both_sqrt : forall k x y, 0 <= x -> 0 <= y -> both (k + k) x y -> both k (sqrt x) (sqrt y).
Proof. intros k x y P1 P2 [H1 H2]. split; now apply up_sqrt. Qed.
Lemma both_rnd64 : forall r, 0 <= r -> (r = 0 \/ bpow radix2 (-100) <= r) -> both 1 r (rnd64 r).
Proof.
  intros r P [->|B]; [rewrite rnd_0; split; unfold up; lra|]. assert (P' : 0 <= rnd64 r) by (apply rnd_pos; auto with typeclass_instances).
  destruct (up_rnd64 r) as [U1 U2]; [now rewrite Rabs_pos_eq|]. rewrite !Rabs_pos_eq in U1, U2 by assumption. split; assumption.
Qed.
Lemma both_zero : forall k x, both k x 0 -> x <= 0.
Proof. intros k x [H _]. unfold up in H. lra. Qed.

Definition walk (a : axis) : R := IZR (delta a) / s a.
Lemma walk_mm : forall a, both 1 (Rabs (walk a)) (Rabs (mm c delta a)) /\ (mm c delta a = 0 \/ mag (-14) 35 (mm c delta a)).
Proof.
  intros a. destruct (delta_mm_mag c A Dv delta Few Dr a) as (_ & M & Mn & Vv). fold (mm c delta a) in *. split; [|exact M]. destruct (Z.eq_dec (delta a) 0) as [Z0|N].
  - assert (E : mm c delta a = 0). { destruct Vv as [[_ V]|[_ V]]; [exact V|]. rewrite V, Z0. unfold Rdiv. rewrite Rmult_0_l. apply rnd_0. }
    unfold walk. rewrite E, Z0. unfold Rdiv. rewrite Rmult_0_l, Rabs_R0. split; unfold up; lra.
  - specialize (Mn N). pose proof (s_pos a N) as Sp. destruct Vv as [[V _]|[_ V]]; [lra|]. unfold walk. rewrite V.
    assert (B : bpow radix2 (-100) <= Rabs (IZR (delta a) / s a)).
    { apply (mag100 (0 - 14) (31 - -4)); [|lia]. apply mag_div; [apply mag_Z; pose proof (Few a); lia|]. apply (spm_mag c a (Dr a N)). }
    destruct (up_rnd64 _ B). split; assumption.
Qed.
Lemma square_both : forall a, both 3 (walk a * walk a) (val (f64_mul (delta_mm c delta a) (delta_mm c delta a))) .
Proof.
  intros a. destruct (walk_mm a) as [Bw Mw]. destruct (delta_mm_mag c A Dv delta Few Dr a) as (F & _). pose proof (mm_bound c A Dv delta Few Dr a) as B. unfold f64_mul.
  destruct (mul_le 53 1024 _ _ 35 35 _ _ F F B B) as (F1 & V1 & _); [exps|]. rewrite V1. fold (mm c delta a).
  assert (Sq : forall x, x * x = Rabs x * Rabs x) by (intros x; rewrite <- Rabs_mult; symmetry; apply Rabs_pos_eq; apply Rle_0_sqr).
  change 3%nat with (1 + 1 + 1)%nat. apply both_trans with (mm c delta a * mm c delta a).
  - rewrite (Sq (walk a)), (Sq (mm c delta a)). apply both_mul; auto using Rabs_pos.
  - apply both_rnd64; [apply Rle_0_sqr|]. destruct Mw as [->|M]; [left; ring|right]. rewrite (Sq (mm c delta a)), <- Rabs_mult. apply (mag100 (-14 + -14) (35 + 35)); [now apply mag_mul|lia].
Qed.
Lemma sum_both : forall k x y X Y l, fin64 X -> fin64 Y -> 0 <= x -> 0 <= y -> 0 <= val X <= bpow radix2 l -> 0 <= val Y <= bpow radix2 l -> (0 <= l <= 500)%Z ->
  (val X = 0 \/ bpow radix2 (-28) <= val X) -> (val Y = 0 \/ bpow radix2 (-28) <= val Y) -> both k x (val X) -> both k y (val Y) -> both (k + 1) (x + y) (val (f64_add X Y)).
Proof.
  intros k x y X Y l FX FY Px Py BX BY L ZX ZY Hx Hy. unfold f64_add. destruct (add_le 53 1024 _ _ l X Y FX FY) as (F & V & _); [rewrite Rabs_pos_eq; lra|rewrite Rabs_pos_eq; lra|exps|].
  rewrite V. apply both_trans with (val X + val Y); [now apply both_add|]. apply both_rnd64; [lra|].
  assert (T : bpow radix2 (-100) <= bpow radix2 (-28)) by (apply bpow_le; lia). destruct ZX, ZY; [left; lra|right; lra|right; lra|right; lra].
Qed.
Lemma length_both : both 4 (sqrt (walk AX * walk AX + walk AY * walk AY + walk AZ * walk AZ)) (val (length_mm c delta)).
Proof.
  unfold length_mm, euclid. destruct (square_mag c A Dv delta Few Dr AX) as (F1 & B1 & Z1). destruct (square_mag c A Dv delta Few Dr AY) as (F2 & B2 & Z2). destruct (square_mag c A Dv delta Few Dr AZ) as (F3 & B3 & Z3).
  pose proof (square_both AX) as U1. pose proof (square_both AY) as U2. pose proof (square_both AZ) as U3.
  set (x := f64_mul (delta_mm c delta AX) _) in *. set (y := f64_mul (delta_mm c delta AY) _) in *. set (z := f64_mul (delta_mm c delta AZ) _) in *. clearbody x y z.
  set (wx := walk AX * walk AX) in *. set (wy := walk AY * walk AY) in *. set (wz := walk AZ * walk AZ) in *.
  assert (Px : 0 <= wx) by apply Rle_0_sqr. assert (Py : 0 <= wy) by apply Rle_0_sqr. assert (Pz : 0 <= wz) by apply Rle_0_sqr.
  pose proof (sum_both 3 _ _ x y 70 F1 F2 Px Py B1 B2 ltac:(lia) Z1 Z2 U1 U2) as U4.
  destruct (sum_more x y 70 F1 F2 B1 B2 ltac:(lia)) as (F4 & L1 & L2 & T4 & N4). cbn [Z.add Pos.add] in T4. set (w := f64_add x y) in *. clearbody w.
  assert (B3' : 0 <= val z <= bpow radix2 71). { split; [lra|]. eapply Rle_trans; [apply B3|]. apply bpow_le. lia. }
  assert (Z4 : val w = 0 \/ bpow radix2 (-28) <= val w) by (destruct Z1, Z2; [left; auto|right; lra|right; lra|right; lra]).
  pose proof (sum_both 4 (wx + wy) wz w z 71 F4 F3 ltac:(lra) Pz ltac:(split; [lra|exact T4]) B3' ltac:(lia) Z4 Z3 U4 ltac:(apply (both_more 3); [lia|lra|lra|exact U3])) as U5.
  destruct (sum_more w z 71 F4 F3 ltac:(split; [lra|exact T4]) B3' ltac:(lia)) as (F5 & L3 & L4 & T5 & N5). cbn [Z.add Pos.add] in T5. set (v := f64_add w z) in *. clearbody v.
  destruct (sqrt_val64 v F5 ltac:(lra)) as [F6 V6]. rewrite V6. pose proof (sqrt_pos (val v)) as S0.
  change 4%nat with (3 + 1)%nat. apply both_trans with (sqrt (val v)); [apply both_sqrt; [lra|lra|apply (both_more 5); [lia|lra|lra|exact U5]]|].
  apply both_rnd64; [exact S0|]. destruct (Rle_dec (bpow radix2 (-28)) (val v)) as [G|G].
  - right. apply Rle_trans with (bpow radix2 (-14)); [apply bpow_le; lia|]. rewrite <- (sqrt_square (bpow radix2 (-14))) by apply bpow_ge_0. apply sqrt_le_1_alt. rewrite <- bpow_plus. exact G.
  - left. assert (E : val v = 0) by (apply N5; [destruct Z4; lra|destruct Z3; lra]). rewrite E. apply sqrt_0.
Qed.
Notation len := (sqrt (walk AX * walk AX + walk AY * walk AY + walk AZ * walk AZ)).
Lemma speed0_up : forall f, good_feed f -> up 8 (val (speed0 c delta d f) * len) (val f * n d) /\ (len = 0 -> up 2 (val (speed0 c delta d f)) (val f * s d)).
Proof.
  intros f [Ff Bf]. destruct (spm_mag c d (Dr d Dd)) as (Fs & Ms & Ps). pose proof (n_pos d Dd) as Nd. assert (Mf : mag (-10) 20 (val f)) by (apply pos_mag; change (bpow radix2 (-10)) with (/ 1024); change (bpow radix2 20) with 1048576; auto).
  destruct (mul_mag 24 128 _ _ _ _ _ _ _ _ Ff Fs Mf Ms) as (F1 & V1 & M1); try exps. destruct (f64_of_f32_val _ F1) as [F2 V2]. rewrite <- V2 in M1.
  assert (P2 : 0 <= val (f64_of_f32 (SFmul 24 128 f (spm c d)))) by (rewrite V2, V1; apply rnd_pos; auto with typeclass_instances; apply mul_pos; lra).
  assert (U2 : up 1 (val (f64_of_f32 (SFmul 24 128 f (spm c d)))) (val f * s d)).
  { destruct (up_rnd32 (val f * s d)) as [U _]; [apply (mag100 (-10 + -4) (20 + 14)); [now apply mag_mul|lia]|]. rewrite <- V1, <- V2, Rabs_pos_eq in U by exact P2. rewrite Rabs_pos_eq in U by (apply mul_pos; lra). exact U. }
  destruct length_both as [Lu Ld]. assert (Pl : 0 <= len) by apply sqrt_pos. destruct (length_ok c A Dv delta Few Dr) as (Fl & Bl & Zl). set (x2 := f64_of_f32 (SFmul 24 128 f (spm c d))) in *.
  unfold speed0, f32_mul. fold x2. destruct (SFltb d0 (length_mm c delta)) eqn:Q.
  - apply (ltb_lt 53 1024) in Q; [|split; reflexivity|exact Fl]. change (val d0) with 0 in Q. destruct (delta_mm_mag c A Dv delta Few Dr d) as (Fd & _ & Md & Vd). specialize (Md Dd). destruct (abs_val 53 1024 _ Fd) as [Fa Va].
    split.
    + assert (Ma : mag (-14) 35 (val (f64_abs (delta_mm c delta d)))) by (rewrite Va; unfold mag; rewrite Rabs_Rabsolu; exact Md).
      assert (Ml : mag (-14) 36 (val (length_mm c delta))) by (apply pos_mag; lra).
      destruct (div_mag 53 1024 _ _ _ _ _ _ _ _ Fa Fl Ma Ml) as (F3 & V3 & M3); try exps.
      destruct (mul_mag 53 1024 _ _ _ _ _ _ _ _ F2 F3 M1 M3) as (F4 & V4 & M4); try exps.
      unfold f64_mul, f64_div. set (k := SFdiv 53 1024 (f64_abs (delta_mm c delta d)) (length_mm c delta)) in *.
      assert (P3 : 0 <= val k) by (rewrite V3; apply rnd_pos; auto with typeclass_instances; apply div_pos; [rewrite Va; apply Rabs_pos|exact Q]).
      assert (P4 : 0 <= val (SFmul 53 1024 x2 k)) by (rewrite V4; apply rnd_pos; auto with typeclass_instances; now apply mul_pos).
      assert (U3 : up 1 (val k) (Rabs (mm c delta d) / val (length_mm c delta))).
      { destruct (up_rnd64 (val (f64_abs (delta_mm c delta d)) / val (length_mm c delta))) as [U _]; [apply (mag100 (-14 - 36) (35 - -14)); [now apply mag_div|lia]|].
        rewrite <- V3, (Rabs_pos_eq (val k)) in U by exact P3. rewrite Rabs_pos_eq in U by (apply div_pos; [rewrite Va; apply Rabs_pos|exact Q]). rewrite Va in U. exact U. }
      assert (U4 : up 1 (val (SFmul 53 1024 x2 k)) (val x2 * val k)).
      { destruct (up_rnd64 (val x2 * val k)) as [U _]; [apply (mag100 (-10 + -4 + (-14 - 36)) (20 + 14 + (35 - -14))); [now apply mag_mul|lia]|]. rewrite <- V4, (Rabs_pos_eq (val (SFmul 53 1024 x2 k))) in U by exact P4. rewrite Rabs_pos_eq in U by (now apply mul_pos). exact U. }
      destruct (walk_mm d) as [[_ Wd] _].
      change 8%nat with (1 + (1 + (1 + 1)) + 4)%nat.
      assert (U5 : up (1 + (1 + (1 + 1))) (val (SFmul 53 1024 x2 k)) (val f * s d * (Rabs (walk d) / val (length_mm c delta)))).
      { eapply up_trans; [exact U4|]. apply up_mul; auto. eapply up_trans; [exact U3|]. change 1%nat with (1 + 0)%nat. apply up_div; auto using Rabs_pos, up_refl. }
      pose proof (up_mul _ _ _ _ _ _ P4 Pl U5 Lu) as U6. eapply Rle_trans; [exact U6|]. apply Req_le. f_equal. unfold walk, Rdiv. rewrite Rabs_mult, Rabs_inv, Rabs_Zabs, (Rabs_pos_eq (s d)) by lra. field. split; lra.
    + intros E. exfalso. unfold up in Ld. rewrite E in Ld. lra.
  - assert (E0 : val (length_mm c delta) = 0).
    { destruct (Req_dec (val (length_mm c delta)) 0) as [E|E]; [exact E|]. exfalso. apply Bool.not_true_iff_false in Q. apply Q. apply (ltb_lt 53 1024); [split; reflexivity|exact Fl|]. change (val d0) with 0. lra. }
    assert (L0 : len = 0). { unfold up in Lu. rewrite E0 in Lu. apply Rle_antisym; [lra|exact Pl]. }
    rewrite L0. split; [unfold up; rewrite Rmult_0_r; apply mul_pos; [pose proof (K_ge 8); lra|apply mul_pos; lra]|]. intros _.
    destruct (f64_of_Z_val 1 ltac:(lia)) as [F3 V3]. fold d1 in F3, V3. assert (M3 : mag 0 0 (val d1)) by (rewrite V3; apply pos_mag; cbn; lra).
    destruct (mul_mag 53 1024 _ _ _ _ _ _ _ _ F2 F3 M1 M3) as (F4 & V4 & M4); try exps. unfold f64_mul. rewrite V4, V3, Rmult_1_r. change 2%nat with (1 + 1)%nat. eapply up_trans; [|exact U2].
    assert (B2 : val x2 = 0 \/ bpow radix2 (-100) <= val x2) by (right; rewrite <- (Rabs_pos_eq (val x2)) by exact P2; apply (mag100 (-10 + -4) (20 + 14)); [exact M1|lia]). apply (both_rnd64 _ P2 B2).
Qed.
End Delta.
End Target.

(** ** The commands of a segment *)
Lemma part_exact : forall c k total delta, (0 <= k <= total)%Z -> (0 < total < 2 ^ 31)%Z -> Z.abs delta = total ->
  Z.abs (lround c (f64_mul (f64_div (f64_of_Z k) (f64_of_Z total)) (f64_of_Z delta))) = k.
Proof.
  intros c k total delta Hk Ht Hd. destruct (f64_of_Z_val k ltac:(lia)) as [F1 V1]. destruct (f64_of_Z_mag total ltac:(lia)) as (F2 & V2 & M2). destruct (f64_of_Z_mag delta ltac:(lia)) as (F3 & V3 & M3).
  assert (Tp : 0 < IZR total) by (apply (IZR_lt 0); lia). assert (Tm : IZR total < 2147483648) by (apply (IZR_lt total 2147483648); lia). assert (Kp : 0 <= IZR k) by (apply (IZR_le 0); lia). assert (Km : IZR k <= IZR total) by (apply IZR_le; lia).
  assert (Q1 : 0 <= IZR k / IZR total <= 1).
  { split; [now apply div_pos|]. apply Rmult_le_reg_r with (IZR total); [exact Tp|]. unfold Rdiv. rewrite Rmult_assoc, Rinv_l by lra. lra. }
  assert (Ab : Rabs (IZR k / IZR total) <= bpow radix2 0) by (rewrite Rabs_pos_eq by lra; cbn; lra).
  destruct (div_val 53 1024 _ _ _ _ F1 F2) as [F4 V4]; [rewrite V2; lra|rewrite V1, V2; apply (small_of 53 1024 _ 0); [exps|exact Ab]|]. rewrite V1, V2 in V4.
  assert (B4 : Rabs (val (SFdiv 53 1024 (f64_of_Z k) (f64_of_Z total))) <= bpow radix2 0) by (rewrite V4; apply rnd_abs_le; [auto with typeclass_instances|exps|exact Ab]).
  destruct (mul_le 53 1024 _ _ 0 31 _ _ F4 F3 B4 (mag_le _ _ _ M3) ltac:(exps)) as (F5 & V5 & _).
  pose proof (rnd_error 53 1024 prec53 (IZR k / IZR total)) as E4. rewrite <- V4 in E4. set (x := val (SFdiv 53 1024 (f64_of_Z k) (f64_of_Z total))) in *.
  pose proof (rnd_error 53 1024 prec53 (x * IZR delta)) as E5. rewrite <- V3, <- V5 in E5. rewrite V3 in E5. unfold f64_mul, f64_div. set (y := SFmul 53 1024 (SFdiv 53 1024 (f64_of_Z k) (f64_of_Z total)) (f64_of_Z delta)) in *.
  change (bpow radix2 (- (53))) with (/ 9007199254740992) in E4, E5.
  assert (Tiny : 0 < bpow radix2 (SpecFloat.emin 53 1024) <= / 9007199254740992) by (split; [apply bpow_gt_0|]; change (/ 9007199254740992) with (bpow radix2 (-53)); apply bpow_le; exps).
  set (tiny := bpow radix2 (SpecFloat.emin 53 1024)) in *. change (bpow radix2 0) with 1 in *.
  assert (Da : Rabs (IZR delta) = IZR total) by (rewrite Rabs_Zabs, Hd; reflexivity).
  assert (E6 : Rabs (x * IZR delta - IZR k / IZR total * IZR delta) <= / 1048576).
  { rewrite <- Rmult_minus_distr_r, Rabs_mult, Da. apply Rle_trans with (/ 4503599627370496 * 2147483648); [|lra]. apply Rmult_le_compat; [apply Rabs_pos|lra|lra|lra]. }
  assert (E7 : Rabs (val y - x * IZR delta) <= / 1048576).
  { eapply Rle_trans; [exact E5|]. rewrite Rabs_mult, Da. assert (Rabs x * IZR total <= 1 * 2147483648) by (apply Rmult_le_compat; [apply Rabs_pos|lra|lra|lra]). lra. }
  destruct (round_val 53 1024 y F5) as (z & Ez & Bz). unfold lround. rewrite Ez.
  assert (Cz : exists w, Z.abs w = k /\ IZR k / IZR total * IZR delta = IZR w).
  { destruct (Z_le_gt_dec 0 delta) as [S|S].
    - exists k. split; [lia|]. replace delta with total by lia. field. lra.
    - exists (- k)%Z. split; [lia|]. replace delta with (- total)%Z by lia. rewrite !opp_IZR. field. lra. }
  destruct Cz as (w & Aw & Ew). rewrite Ew in E6. apply Rabs_le_inv in E6, E7, Bz.
  assert (Zw : z = w). { assert (H1 : IZR (z - w) < 1) by (rewrite minus_IZR; lra). assert (H2 : -1 < IZR (z - w)) by (rewrite minus_IZR; lra). apply lt_IZR in H1. apply (lt_IZR (-1)) in H2. lia. }
  subst z. cbn [to_int]. replace ((- 2 ^ 31 <=? w) && (w <=? 2 ^ 31 - 1))%Z%bool with true by lia. exact Aw.
Qed.

Section Seg.
Variable A : R.
Variable c : pcfg.
Variable t : target.
Variable p : profile.
Hypothesis Hb : able A t.
Hypothesis Pl : planned t p.
Hypothesis Few : (reach t < 2 ^ 31)%Z.
Let V := val (t_speed t).
Let a := val (t_accel t).

Lemma speed_root : forall v k, 0 <= val v -> 0 <= k -> q v <= V * V * (1 + k) -> val v <= V * (1 + k).
Proof.
  intros v k P Pk H. pose proof (V_pos A t Hb) as Vp. fold V in Vp. destruct (Rle_dec (val v) (V * (1 + k))) as [L|L]; [exact L|]. exfalso.
  assert (G : V * (1 + k) * (V * (1 + k)) < val v * val v) by (apply Rmult_le_0_lt_compat; try lra; apply mul_pos; lra). unfold q in H.
  assert (0 <= V * V * ((1 + k) * k)) by (repeat apply mul_pos; lra). replace (V * (1 + k) * (V * (1 + k))) with (V * V * (1 + k) + V * V * ((1 + k) * k)) in G by ring. lra.
Qed.
Lemma sent_up : forall v, fin64 v -> 0 <= val v -> q v <= q (t_speed t) + 16 * slack t -> up 3 (val (f32_of_f64 v)) V.
Proof.
  intros v F P Q. pose proof (V_pos A t Hb) as Vp. fold V in Vp. destruct (sent_speed A t v Hb F P Q) as (F3 & P3 & _).
  assert (Hv : val v <= V * (1 + / 4194304)).
  { apply speed_root; [exact P|lra|]. unfold q at 1 in Q. unfold slack, h, q in Q. fold V in Q. change (bpow radix2 (-48)) with (/ 281474976710656) in Q. assert (0 <= V * V) by (apply mul_pos; lra). unfold q. lra. }
  assert (R : val (f32_of_f64 v) <= V * (1 + / 4194304) * (1 + / 4194304)).
  { assert (Sm : small 128 (rnd32 (val v))).
    { apply (small_of 24 128 _ 81); [exps|]. rewrite Rabs_pos_eq by exact P. replace 81%Z with (80 + 1)%Z by reflexivity. rewrite bpow_plus. change (bpow radix2 1) with 2. pose proof (b_fast _ _ Hb). fold V in H. lra. }
    destruct (f32_of_f64_val v F Sm) as [_ Vr]. rewrite Vr.
    apply Rle_trans with (rnd32 (V * (1 + / 4194304))); [apply rnd_le; auto with typeclass_instances|].
    pose proof (rnd_error 24 128 prec24 (V * (1 + / 4194304))) as E. rewrite (Rabs_pos_eq (V * (1 + / 4194304))) in E by (apply mul_pos; lra). change (bpow radix2 (- (24))) with (/ 16777216) in E. apply Rabs_le_inv in E.
    assert (T : bpow radix2 (SpecFloat.emin 24 128) <= / 16777216 * V).
    { pose proof (b_slow _ _ Hb) as B. fold V in B. apply Rle_trans with (/ 16777216 * bpow radix2 (-80)); [|lra]. change (/ 16777216) with (bpow radix2 (-24)). rewrite <- bpow_plus. apply bpow_le. exps. }
    lra. }
  unfold up, K. eapply Rle_trans; [exact R|]. cbn [pow]. lra.
Qed.
Lemma ends_up : forall x v, In x (group c (mk_pseg t p)) -> v = c_v0 x \/ v = c_v1 x -> 0 <= val v /\ up 3 (val v) V.
Proof.
  destruct Pl as [F0 F1 F2 P0 P1 P2 Wa Wt Wd Ws Top In1 In2 Out1 Out2]. destruct (able_small A t Hb) as (S1 & _).
  assert (G : forall u, fin64 u -> 0 <= val u -> q u <= q (t_speed t) + 16 * slack t -> 0 <= val (f32_of_f64 u) /\ up 3 (val (f32_of_f64 u)) V).
  { intros u Fu Pu Qu. split; [apply (sent_speed A t u Hb Fu Pu Qu)|now apply sent_up]. }
  pose proof (G _ F0 P0 ltac:(lra)) as G0. pose proof (G _ F1 P1 ltac:(lra)) as G1. pose proof (G _ F2 P2 ltac:(lra)) as G2.
  intros x v I E. unfold group, commands in I. cbn [s_target s_plan] in I.
  set (m1 := subtract_steps (assign_all c (t_delta t)) _) in *. destruct m1 as [m1 b1]. set (m2 := subtract_steps m1 _) in *. destruct m2 as [m2 has].
  repeat rewrite in_app_iff in I. destruct (Z.eqb_spec (f_accel p) 0) as [ZA|ZA]; destruct (Z.eqb_spec (f_decel p) 0) as [ZD|ZD]; destruct has; cbn [In] in I;
    repeat match goal with H : _ \/ _ |- _ => destruct H | H : False |- _ => destruct H end; subst; cbn [c_v0 c_v1] in *; auto.
Qed.
Lemma accel_up : forall x m, In x (group c (mk_pseg t p)) -> turns_for c m (t_axis t) ->
  Rabs (val (c_v1 x) * val (c_v1 x) - val (c_v0 x) * val (c_v0 x)) <= 2 * a * (IZR (Z.abs (c_steps x m)) + 3 / 2).
Proof.
  destruct Pl as [F0 F1 F2 P0 P1 P2 Wa Wt Wd Ws Top In1 In2 Out1 Out2]. 
  assert (Hb' : able a t) by (destruct Hb; constructor; auto; unfold a; lra). pose proof (a_pos A t Hb) as Ap. fold a in Ap.
  destruct (able_small a t Hb') as (S1 & S2 & _). unfold g in S2. pose proof (b_reach _ _ Hb) as Rc.
  destruct (sent_speed a t (f_v0 p) Hb' F0 P0 ltac:(lra)) as (_ & _ & E0). destruct (sent_speed a t (f_v1 p) Hb' F1 P1 ltac:(lra)) as (_ & _ & E1). destruct (sent_speed a t (f_v2 p) Hb' F2 P2 ltac:(lra)) as (_ & _ & E2).
  unfold q at 1 in E0. unfold q at 1 in E1. unfold q at 1 in E2. apply Rabs_le_inv in E0, E1, E2.
  intros x m I Tm.
  assert (N : forall k, (0 <= k <= reach t)%Z -> Z.abs (assign_all c (fun b => lround c (f64_mul (f64_div (f64_of_Z k) (f64_of_Z (total_steps p))) (f64_of_Z (t_delta t b)))) m) = k).
  { intros k Hk. rewrite (assign_turns c _ m (t_axis t) Tm). replace (total_steps p) with (reach t); [apply part_exact; auto; lia|]. unfold total_steps. rewrite Ws. unfold u32. symmetry. apply Z.mod_small. lia. }
  unfold group, commands in I. cbn [s_target s_plan] in I. 
  set (m1 := subtract_steps (assign_all c (t_delta t)) _) in *. destruct m1 as [m1 b1]. set (m2 := subtract_steps m1 _) in *. destruct m2 as [m2 has].
  pose proof (N (f_accel p) ltac:(lia)) as N1. pose proof (N (f_decel p) ltac:(lia)) as N2. cbv beta zeta in I.
  assert (Ma : 0 <= a * IZR (Z.abs (c_steps x m))) by (apply mul_pos; [lra|apply (IZR_le 0); lia]).
  fold a in In2, Out2.
  assert (Pa : 0 <= a * IZR (f_accel p)) by (apply mul_pos; [lra|apply (IZR_le 0); lia]). assert (Pd : 0 <= a * IZR (f_decel p)) by (apply mul_pos; [lra|apply (IZR_le 0); lia]).
  repeat rewrite in_app_iff in I. destruct (Z.eqb_spec (f_accel p) 0) as [ZA|ZA]; destruct (Z.eqb_spec (f_decel p) 0) as [ZD|ZD]; destruct has; cbn [In] in I;
    repeat match goal with H : _ \/ _ |- _ => destruct H | H : False |- _ => destruct H end; subst; cbn [c_v0 c_v1 c_steps] in *;
    try (rewrite Rminus_diag_eq by reflexivity; rewrite Rabs_R0; lra); rewrite ?N1, ?N2 in *; apply Rabs_le; lra.
Qed.
End Seg.

(** ** A leg *)
(** The target of a leg asked for with a feedrate. *)
Definition stems (c : pcfg) (t : target) (o : leg * option fl) : Prop :=
  exists prev np f aux, apt prev /\ good_leg c (mk_leg (fun a => np a - t_pos prev a)%Z aux) /\ good_feed f /\ t = new_target c prev np f aux /\ o = (mk_leg (fun a => np a - t_pos prev a)%Z aux, Some f).
Lemma longest_is : forall l, longest l = Z.abs (l_steps l (snd (defining (l_steps l)))).
Proof.
  intros l. pose proof (defining_most (l_steps l)) as M. set (d := snd (defining (l_steps l))) in *. clearbody d. unfold longest. apply Z.le_antisymm.
  - generalize all_axes. induction l0 as [|a r IH]; cbn [fold_right]; [lia|]. pose proof (M a). lia.
  - pose proof (all_axes_in d) as I. revert I. generalize all_axes. induction l0 as [|a r IH]; intros [].
    + subst. cbn [fold_right]. lia.
    + cbn [fold_right]. specialize (IH H). lia.
Qed.
Section Leg.
Variable c : pcfg.
Variable A : R.
Hypothesis Dv : drivable c A.
Let A1 := 1001 / 1000 * A.
Variable s : pseg.
Variable o : leg * option fl.
Hypothesis St : stems c (s_target s) o.
Hypothesis Gs : good A1 s.

Lemma leg_within : in_speed c (group c s) o /\ in_accel c (group c s) o.
Proof.
  destruct St as (prev & np & f & aux & Ap & Gl & Gf & Et & El). destruct s as [t p]. cbn [s_target] in *. destruct Gs as [Hb Pl]. cbn [s_target s_plan] in *. subst o. unfold in_speed, in_accel. cbn [fst snd].
  set (delta := fun a => (np a - t_pos prev a)%Z) in *.
  assert (Few : forall a, (Z.abs (delta a) <= 2 ^ 31)%Z) by (intros a; pose proof (proj1 Gl a) as X; cbn [l_steps] in X; lia). assert (Dr : forall a, delta a <> 0%Z -> driven c a) by apply Gl.
  set (d := snd (defining delta)).
  assert (Dd : delta d <> 0%Z) by (destruct Gl as (_ & _ & m & a & _ & N); cbn [l_steps] in N; pose proof (defining_most delta a) as M; fold d in M; lia).
  assert (Ed : t_delta t = delta) by (rewrite Et; reflexivity). assert (Ex : t_axis t = d) by (rewrite Et; reflexivity). assert (Ea : t_aux t = aux) by (rewrite Et; reflexivity).
  assert (Es : t_speed t = fmin (top c delta d) (speed0 c delta d f)) by (rewrite Et; reflexivity). assert (Ec : t_accel t = acc c delta d) by (rewrite Et; reflexivity).
  destruct (limits_ok c A Dv delta Few Dr d Dd) as (Ft & Fa & _). destruct (speed0_ok c A Dv delta Few Dr d Dd f Gf) as [F0 _]. destruct (min_val 53 1024 _ _ Ft F0) as [_ Vm].
  assert (Vt : val (t_speed t) <= val (top c delta d)) by (rewrite Es, Vm; apply Rmin_l). assert (Vs : val (t_speed t) <= val (speed0 c delta d f)) by (rewrite Es, Vm; apply Rmin_r).
  assert (Lg : longest (mk_leg delta aux) = Z.abs (delta d)) by apply longest_is.
  assert (Nd : 0 < IZR (Z.abs (delta d))) by (apply (IZR_lt 0); lia).
  assert (Rch : (reach t < 2 ^ 31)%Z) by (unfold reach; rewrite Ex, Ed; apply (proj1 Gl)).
  assert (TopV : val (top c delta d) = val (clamp_limit c delta (p_max_feedrate c) d)).
  { unfold top. apply f64_of_f32_val. apply (clamp_ok c delta Few Dr d Dd _ (-10) 20 ltac:(lia) ltac:(lia) (feed_limits c)). }
  assert (AccV : val (acc c delta d) = val (clamp_limit c delta (p_acceleration c) d)).
  { unfold acc. apply f64_of_f32_val. apply (clamp_ok c delta Few Dr d Dd _ (-10) 30 ltac:(lia) ltac:(lia) (acc_limits c)). }
  enough (G : Forall (within_speed c (mk_leg delta aux)) (group c (mk_pseg t p)) /\ Forall (within_feed c (mk_leg delta aux) f) (group c (mk_pseg t p)) /\ Forall (within_accel c (mk_leg delta aux)) (group c (mk_pseg t p)) /\ carries_out c (group c (mk_pseg t p)) (mk_leg delta aux)) by tauto.
  split; [|split; [|split]].
  - apply Forall_forall. intros x I a v Na E. cbn [l_steps] in Na. destruct (ends_up A1 c t p Hb Pl x v I E) as [Pv Uv]. split; [exact Pv|]. unfold share, max_speed. rewrite Lg. cbn [l_steps].
    pose proof (clamp_up c delta Few Dr d Dd (p_max_feedrate c) (-10) 20 ltac:(lia) ltac:(lia) (feed_limits c) a Na) as U. rewrite <- TopV in U.
    destruct (dr_feed _ _ (Dr a Na)) as [_ Bf]. destruct (dr_spm _ _ (Dr a Na)) as [_ Bs]. assert (Na' : 0 <= IZR (Z.abs (delta a))) by (apply (IZR_le 0); lia).
    assert (U2 : up 11 (val v * IZR (Z.abs (delta a))) (val (p_max_feedrate c a) * val (p_steps_per_mm c a) * IZR (Z.abs (delta d)))).
    { change 11%nat with (3 + 8)%nat. eapply up_trans; [|exact U]. change 3%nat with (3 + 0)%nat. apply up_mul; auto using up_refl. unfold up in *. eapply Rle_trans; [exact Uv|]. apply Rmult_le_compat_l; [pose proof (K_ge 3); lra|exact Vt]. }
    apply up_about in U2; [|lia|repeat apply mul_pos; lra].
    apply Rmult_le_reg_r with (IZR (Z.abs (delta d))); [exact Nd|]. replace (val v * (IZR (Z.abs (delta a)) / IZR (Z.abs (delta d))) * IZR (Z.abs (delta d))) with (val v * IZR (Z.abs (delta a))) by (field; lra). lra.
  - apply Forall_forall. intros x I v E. destruct (ends_up A1 c t p Hb Pl x v I E) as [Pv Uv]. destruct (speed0_up c A Dv delta Few Dr d Dd f Gf) as [U1 U2]. destruct Gf as [_ Bf]. destruct (dr_spm _ _ (Dr d Dd)) as [_ Bs].
    change (length_of c (mk_leg delta aux)) with (sqrt (walk c delta AX * walk c delta AX + walk c delta AY * walk c delta AY + walk c delta AZ * walk c delta AZ)). set (len := sqrt _) in *. assert (Pl' : 0 <= len) by apply sqrt_pos.
    assert (Uv' : up 3 (val v) (val (speed0 c delta d f))) by (unfold up in *; eapply Rle_trans; [exact Uv|]; apply Rmult_le_compat_l; [pose proof (K_ge 3); lra|exact Vs]).
    split.
    + rewrite Lg. rewrite Rmult_assoc. apply (up_about 11); [lia|apply mul_pos; lra|]. change 11%nat with (3 + 8)%nat. eapply up_trans; [|exact U1]. change 3%nat with (3 + 0)%nat. apply up_mul; auto using up_refl.
    + intros Z0 a La. apply leads_defining in La. cbn [l_steps] in La. fold d in La. subst a. rewrite Rmult_assoc. apply (up_about 5); [lia|apply mul_pos; lra|]. change 5%nat with (3 + 2)%nat. eapply up_trans; [exact Uv'|]. now apply U2.
  - apply Forall_forall. intros x I a e m Na Le Tm. cbn [l_steps] in Na. apply leads_defining in Le. cbn [l_steps] in Le. fold d in Le. subst e. unfold share, max_accel. rewrite Lg. cbn [l_steps].
    rewrite <- Ex in Tm. pose proof (accel_up A1 c t p Hb Pl Rch x m I Tm) as U. rewrite Ec, AccV in U.
    pose proof (clamp_up c delta Few Dr d Dd (p_acceleration c) (-10) 30 ltac:(lia) ltac:(lia) (acc_limits c) a Na) as Uc.
    destruct (dr_acc _ _ (Dr a Na)) as [_ Bf]. destruct (dr_spm _ _ (Dr a Na)) as [_ Bs]. assert (Na' : 0 <= IZR (Z.abs (delta a))) by (apply (IZR_le 0); lia).
    apply up_about in Uc; [|lia|repeat apply mul_pos; fold (spm c a) in Bs; lra].
    set (D := Rabs _) in *. set (k := IZR (Z.abs (c_steps x m)) + 3 / 2) in *. assert (Pk : 0 <= k) by (unfold k; assert (0 <= IZR (Z.abs (c_steps x m))) by (apply (IZR_le 0); lia); lra).
    set (cl := val (clamp_limit c delta (p_acceleration c) d)) in *. set (M := val (p_acceleration c a) * val (p_steps_per_mm c a)) in *. change (val (p_acceleration c a) * val (spm c a)) with M in Uc.
    apply Rmult_le_reg_r with (IZR (Z.abs (delta d))); [exact Nd|]. replace (D * (IZR (Z.abs (delta a)) / IZR (Z.abs (delta d))) * IZR (Z.abs (delta d))) with (D * IZR (Z.abs (delta a))) by (field; lra).
    apply Rle_trans with (2 * cl * k * IZR (Z.abs (delta a))); [apply Rmult_le_compat_r; assumption|].
    replace (2 * cl * k * IZR (Z.abs (delta a))) with (2 * k * (cl * IZR (Z.abs (delta a)))) by ring. replace (2 * (about * M) * k * IZR (Z.abs (delta d))) with (2 * k * (about * (M * IZR (Z.abs (delta d))))) by ring.
    apply Rmult_le_compat_l; [lra|exact Uc].
  - assert (El : mk_leg delta aux = leg_of (mk_pseg t p)) by (unfold leg_of; cbn [s_target]; rewrite Ed, Ea; reflexivity). rewrite El. apply group_carries.
Qed.
End Leg.
