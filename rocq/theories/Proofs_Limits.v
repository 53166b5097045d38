(** Targets of the planner for a sane configuration: the numbers are in range. *)
From Coq Require Import SpecFloat Reals Lra FunctionalExtensionality.
From Flocq Require Import Core IEEE754.BinarySingleNaN.
From Verif Require Import Base Model_Float Model_Axis Model_Planner Spec_Planner Spec_Speeds Proofs_Planner Proofs_Real Proofs_Ramp Proofs_Profile Proofs_Speeds Proofs_Joints.
Open Scope Z_scope.
Open Scope R_scope.

(** ** Magnitudes *)
Definition mag (lo hi : Z) (r : R) : Prop := bpow radix2 lo <= Rabs r <= bpow radix2 hi.
Section Mag.
Variable prec emax : Z.
Context (prec_gt_0_ : Prec_gt_0 prec) (prec_lt_emax_ : Prec_lt_emax prec emax).
Notation fin := (fin prec emax).
Notation rnd := (rnd prec emax).
Notation emin := (SpecFloat.emin prec emax).

Lemma pow_format : forall e, (emin <= e)%Z -> generic_format radix2 (SpecFloat.fexp prec emax) (bpow radix2 e).
Proof. intros e H. pose proof prec_gt_0_ as P. red in P. apply generic_format_bpow. unfold SpecFloat.fexp. lia. Qed.
Lemma fexp_ok : Valid_exp (SpecFloat.fexp prec emax).
Proof. apply fexp_correct. exact prec_gt_0_. Qed.
Lemma rnd_mag : forall lo hi r, (emin <= lo)%Z -> (emin <= hi)%Z -> mag lo hi r -> mag lo hi (rnd r).
Proof.
  intros lo hi r Hl Hh [A B]. pose proof fexp_ok. split; [apply abs_round_ge_generic|apply abs_round_le_generic]; auto using pow_format with typeclass_instances.
Qed.
Lemma rnd_abs_le : forall hi r, (emin <= hi)%Z -> Rabs r <= bpow radix2 hi -> Rabs (rnd r) <= bpow radix2 hi.
Proof. intros hi r Hh B. pose proof fexp_ok. apply abs_round_le_generic; auto using pow_format with typeclass_instances. Qed.
Lemma small_of : forall hi r, (emin <= hi < emax)%Z -> Rabs r <= bpow radix2 hi -> small emax (rnd r).
Proof. intros hi r Hh B. unfold small. eapply Rle_lt_trans; [apply rnd_abs_le; [|exact B]; lia|]. apply bpow_lt. lia. Qed.
Lemma rnd_pos : forall r, 0 <= r -> 0 <= rnd r.
Proof. intros r H. rewrite <- (rnd_0 prec emax). apply rnd_le; auto with typeclass_instances. Qed.
Lemma rnd_neg : forall r, r <= 0 -> rnd r <= 0.
Proof. intros r H. rewrite <- (rnd_0 prec emax). apply rnd_le; auto with typeclass_instances. Qed.

Lemma mag_mul : forall l1 h1 l2 h2 x y, mag l1 h1 x -> mag l2 h2 y -> mag (l1 + l2) (h1 + h2) (x * y).
Proof. intros l1 h1 l2 h2 x y [A B] [C D]. unfold mag. rewrite Rabs_mult, !bpow_plus. split; apply Rmult_le_compat; auto using bpow_ge_0, Rabs_pos. Qed.
Lemma mag_nz : forall l h x, mag l h x -> x <> 0.
Proof. intros l h x [A _] ->. rewrite Rabs_R0 in A. pose proof (bpow_gt_0 radix2 l). lra. Qed.
Lemma mag_inv : forall l h x, mag l h x -> mag (- h) (- l) (/ x).
Proof.
  intros l h x M. pose proof (mag_nz _ _ _ M) as N. destruct M as [A B]. unfold mag. rewrite Rabs_inv, !bpow_opp. split; apply Rinv_le; auto; [|apply bpow_gt_0].
  now apply Rabs_pos_lt.
Qed.
Lemma mag_div : forall l1 h1 l2 h2 x y, mag l1 h1 x -> mag l2 h2 y -> mag (l1 - h2) (h1 - l2) (x / y).
Proof. intros. unfold Rdiv, Z.sub. apply mag_mul; auto. now apply mag_inv. Qed.
Lemma mag_le : forall l h x, mag l h x -> Rabs x <= bpow radix2 h.
Proof. intros l h x M. apply M. Qed.
Lemma mag_widen : forall l h l' h' x, mag l h x -> (l' <= l)%Z -> (h <= h')%Z -> mag l' h' x.
Proof. intros l h l' h' x [A B] C D. split; [eapply Rle_trans; [|exact A]; now apply bpow_le|eapply Rle_trans; [exact B|]; now apply bpow_le]. Qed.

Lemma mul_mag : forall l1 h1 l2 h2 x y, fin x -> fin y -> mag l1 h1 (val x) -> mag l2 h2 (val y) -> (emin <= l1 + l2)%Z -> (emin <= h1 + h2 < emax)%Z ->
  fin (SFmul prec emax x y) /\ val (SFmul prec emax x y) = rnd (val x * val y) /\ mag (l1 + l2) (h1 + h2) (val (SFmul prec emax x y)).
Proof.
  intros l1 h1 l2 h2 x y Fx Fy Mx My L H. pose proof (mag_mul _ _ _ _ _ _ Mx My) as M. destruct (mul_val prec emax _ _ x y Fx Fy) as [G V]; [apply (small_of (h1 + h2)); [lia|apply M]|].
  split; [exact G|]. split; [exact V|]. rewrite V. apply rnd_mag; auto. lia.
Qed.
Lemma div_mag : forall l1 h1 l2 h2 x y, fin x -> fin y -> mag l1 h1 (val x) -> mag l2 h2 (val y) -> (emin <= l1 - h2)%Z -> (emin <= h1 - l2 < emax)%Z ->
  fin (SFdiv prec emax x y) /\ val (SFdiv prec emax x y) = rnd (val x / val y) /\ mag (l1 - h2) (h1 - l2) (val (SFdiv prec emax x y)).
Proof.
  intros l1 h1 l2 h2 x y Fx Fy Mx My L H. pose proof (mag_div _ _ _ _ _ _ Mx My) as M. destruct (div_val prec emax _ _ x y Fx Fy) as [G V]; [now apply mag_nz in My|apply (small_of (h1 - l2)); [lia|apply M]|].
  split; [exact G|]. split; [exact V|]. rewrite V. apply rnd_mag; auto. lia.
Qed.
(** Bounds from above only. *)
Lemma mul_le : forall h1 h2 x y, fin x -> fin y -> Rabs (val x) <= bpow radix2 h1 -> Rabs (val y) <= bpow radix2 h2 -> (emin <= h1 + h2 < emax)%Z ->
  fin (SFmul prec emax x y) /\ val (SFmul prec emax x y) = rnd (val x * val y) /\ Rabs (val (SFmul prec emax x y)) <= bpow radix2 (h1 + h2).
Proof.
  intros h1 h2 x y Fx Fy Bx By H. assert (B : Rabs (val x * val y) <= bpow radix2 (h1 + h2)) by (rewrite Rabs_mult, bpow_plus; apply Rmult_le_compat; auto using Rabs_pos).
  destruct (mul_val prec emax _ _ x y Fx Fy) as [G V]; [apply (small_of (h1 + h2)); auto|]. split; [exact G|]. split; [exact V|]. rewrite V. apply rnd_abs_le; auto. lia.
Qed.
Lemma add_le : forall h x y, fin x -> fin y -> Rabs (val x) <= bpow radix2 h -> Rabs (val y) <= bpow radix2 h -> (emin <= h + 1 < emax)%Z ->
  fin (SFadd prec emax x y) /\ val (SFadd prec emax x y) = rnd (val x + val y) /\ Rabs (val (SFadd prec emax x y)) <= bpow radix2 (h + 1).
Proof.
  intros h x y Fx Fy Bx By H. assert (B : Rabs (val x + val y) <= bpow radix2 (h + 1)).
  { rewrite bpow_plus. change (bpow radix2 1) with 2. eapply Rle_trans; [apply Rabs_triang|]. lra. }
  destruct (add_val prec emax _ _ x y Fx Fy) as [G V]; [apply (small_of (h + 1)); auto|]. split; [exact G|]. split; [exact V|]. rewrite V. apply rnd_abs_le; auto. lia.
Qed.
Lemma of_Z_rnd : forall z h, (Z.abs z <= 2 ^ h)%Z -> (0 <= h)%Z -> (emin <= h < emax)%Z -> fin (SpecFloat.binary_normalize prec emax z 0 false) /\ val (SpecFloat.binary_normalize prec emax z 0 false) = rnd (IZR z).
Proof.
  intros z h H Hh E. assert (F : F2R (Float radix2 z 0) = IZR z) by (unfold F2R; cbn; ring).
  destruct (normalize_val prec emax _ _ z 0 false) as [G V]; [rewrite F; apply (small_of h); auto|].
  - rewrite <- abs_IZR. change (radix_val radix2) with 2%Z. replace (bpow radix2 h) with (IZR (2 ^ h)) by (rewrite <- IZR_Zpower by lia; reflexivity). now apply IZR_le.
  - now rewrite F in V.
Qed.
Lemma min_val : forall x y, fin x -> fin y -> fin (fmin x y) /\ val (fmin x y) = Rmin (val x) (val y).
Proof.
  intros x y Fx Fy. unfold fmin. rewrite (ltb_val prec emax) by assumption. unfold Rmin. destruct (Rlt_bool_spec (val y) (val x)), (Rle_dec (val x) (val y)); split; auto; lra.
Qed.
Lemma abs_val : forall x, fin x -> fin (f64_abs x) /\ val (f64_abs x) = Rabs (val x).
Proof.
  intros [s|s| |s m e] [V F]; try discriminate F.
  - split; [split; reflexivity|]. unfold val. cbn. now rewrite Rabs_R0.
  - split; [split; [exact V|reflexivity]|]. unfold val. cbn [f64_abs SFabs SF2R]. rewrite <- F2R_Zabs. f_equal. f_equal. now destruct s.
Qed.
End Mag.

Lemma mag_Z : forall z h, (1 <= Z.abs z <= 2 ^ h)%Z -> (0 <= h)%Z -> mag 0 h (IZR z).
Proof.
  intros z h H Hh. unfold mag. rewrite <- abs_IZR. replace (bpow radix2 h) with (IZR (2 ^ h)) by (rewrite <- IZR_Zpower by lia; reflexivity). change (bpow radix2 0) with 1. split; apply IZR_le; lia.
Qed.
(** Relative errors. *)
Lemma rel32 : forall r, bpow radix2 (-100) <= r -> 999 / 1000 * r <= rnd32 r <= 1001 / 1000 * r.
Proof.
  intros r H. assert (P24 : Prec_gt_0 24) by reflexivity. pose proof (bpow_gt_0 radix2 (-100)). pose proof (rnd_error 24 128 P24 r) as E. rewrite (Rabs_pos_eq r) in E by lra.
  change (bpow radix2 (- (24))) with (/ 16777216) in E.
  assert (T : bpow radix2 (SpecFloat.emin 24 128) <= / 16777216 * r).
  { apply Rle_trans with (/ 16777216 * bpow radix2 (-100)); [|lra]. change (/ 16777216) with (bpow radix2 (-24)). rewrite <- bpow_plus. apply bpow_le. unfold SpecFloat.emin. lia. }
  apply Rabs_le_inv in E. lra.
Qed.

#[export] Instance P24l : Prec_gt_0 24 := eq_refl.
#[export] Instance L24l : Prec_lt_emax 24 128 := eq_refl.
Ltac exps := unfold SpecFloat.emin; lia.

Lemma f64_of_Z_mag : forall z, (1 <= Z.abs z <= 2 ^ 31)%Z -> fin64 (f64_of_Z z) /\ val (f64_of_Z z) = IZR z /\ mag 0 31 (val (f64_of_Z z)).
Proof. intros z H. destruct (f64_of_Z_val z ltac:(lia)) as [F V]. split; [exact F|]. split; [exact V|]. rewrite V. apply mag_Z; lia. Qed.
Lemma f32_of_Z_mag : forall z, (1 <= Z.abs z <= 2 ^ 31)%Z -> fin32 (f32_of_Z z) /\ mag 0 31 (val (f32_of_Z z)).
Proof.
  intros z H. destruct (of_Z_rnd 24 128 _ _ z 31 ltac:(lia) ltac:(lia) ltac:(exps)) as [F V]. split; [exact F|].
  unfold f32_of_Z. rewrite V. apply rnd_mag; try exps; auto with typeclass_instances. apply mag_Z; lia.
Qed.
Lemma pos_mag : forall lo hi r, bpow radix2 lo <= r <= bpow radix2 hi -> mag lo hi r.
Proof. intros lo hi r H. unfold mag. pose proof (bpow_gt_0 radix2 lo). rewrite Rabs_pos_eq by lra. exact H. Qed.
Lemma mag_pos : forall lo hi r, mag lo hi r -> 0 <= r -> bpow radix2 lo <= r <= bpow radix2 hi.
Proof. intros lo hi r M P. unfold mag in M. rewrite Rabs_pos_eq in M by lra. exact M. Qed.
Lemma mul_pos : forall x y, 0 <= x -> 0 <= y -> 0 <= x * y.
Proof. intros. now apply Rmult_le_pos. Qed.
Lemma div_pos : forall x y, 0 <= x -> 0 < y -> 0 <= x / y.
Proof. intros. apply Rmult_le_pos; auto. left. now apply Rinv_0_lt_compat. Qed.

Section Target.
Variable c : pcfg.
Variable A : R.
Hypothesis Dv : drivable c A.

Lemma spm_mag : forall a, driven c a -> fin32 (spm c a) /\ mag (-4) 14 (val (spm c a)) /\ 0 < val (spm c a).
Proof. intros a D. destruct (dr_spm _ _ D) as [F [L H]]. split; [exact F|]. split; [|unfold spm; lra]. apply pos_mag. change (bpow radix2 (-4)) with (/ 16). change (bpow radix2 14) with 16384. auto. Qed.

Section Delta.
Variable delta : axis -> Z.
Hypothesis Few : forall a, (Z.abs (delta a) <= 2 ^ 31)%Z.
Hypothesis Dr : forall a, delta a <> 0%Z -> driven c a.
Variable d : axis.
Hypothesis Dd : delta d <> 0%Z.

Definition ratio (i : axis) : fl :=
  f32_of_f64 (f64_abs (f64_div (f64_mul (f64_mul d1 (f64_of_Z (delta i))) (f64_of_f32 (spm c d))) (f64_of_f32 (f32_mul (f32_of_Z (delta d)) (spm c i))))).
Lemma ratio_mag : forall i, delta i <> 0%Z -> fin32 (ratio i) /\ bpow radix2 (-49) <= val (ratio i) <= bpow radix2 49.
Proof.
  intros i Di. destruct (spm_mag d (Dr d Dd)) as (Fs & Ms & _). destruct (spm_mag i (Dr i Di)) as (Fi & Mi & _).
  pose proof (Few i). pose proof (Few d).
  destruct (f64_of_Z_mag (delta i) ltac:(lia)) as (F1 & V1 & M1). destruct (f32_of_Z_mag (delta d) ltac:(lia)) as (F2 & M2).
  destruct (f64_of_Z_mag 1 ltac:(lia)) as (F3 & V3 & _). assert (M3 : mag 0 0 (val d1)) by (unfold d1; rewrite V3; apply pos_mag; cbn; lra).
  destruct (mul_mag 53 1024 _ _ _ _ _ _ d1 _ F3 F1 M3 M1) as (F4 & _ & M4); try exps.
  destruct (f64_of_f32_val _ Fs) as [F5 V5]. rewrite <- V5 in Ms.
  destruct (mul_mag 53 1024 _ _ _ _ _ _ _ _ F4 F5 M4 Ms) as (F6 & _ & M6); try exps.
  destruct (mul_mag 24 128 _ _ _ _ _ _ _ _ F2 Fi M2 Mi) as (F7 & _ & M7); try exps.
  destruct (f64_of_f32_val _ F7) as [F8 V8]. rewrite <- V8 in M7.
  destruct (div_mag 53 1024 _ _ _ _ _ _ _ _ F6 F8 M6 M7) as (F9 & _ & M9); try exps.
  destruct (abs_val 53 1024 _ F9) as [F10 V10]. cbn in M9.
  assert (M10 : mag (-49) 49 (val (f64_abs (SFdiv 53 1024 (SFmul 53 1024 (SFmul 53 1024 d1 (f64_of_Z (delta i))) (f64_of_f32 (spm c d))) (f64_of_f32 (SFmul 24 128 (f32_of_Z (delta d)) (spm c i))))))).
  { rewrite V10. unfold mag. rewrite Rabs_Rabsolu. apply M9. }
  destruct (f32_of_f64_val _ F10) as [F V]; [apply (small_of 24 128 _ 49); [exps|apply M10]|]. split; [exact F|]. unfold ratio. unfold f64_mul, f64_div, f32_mul. rewrite V. apply mag_pos.
  - apply rnd_mag; try exps; auto with typeclass_instances.
  - apply rnd_pos; auto with typeclass_instances. rewrite V10. apply Rabs_pos.
Qed.

Section Clamp.
Variable limits : axis -> fl.
Variable lo hi : Z.
Hypothesis Lo : (-20 <= lo)%Z.
Hypothesis Hi : (0 <= hi <= 40)%Z.
Hypothesis Lim : forall a, driven c a -> fin32 (limits a) /\ bpow radix2 lo <= val (limits a) <= bpow radix2 hi.

Lemma quotient : forall i, delta i <> 0%Z -> fin32 (f32_div (limits i) (ratio i)) /\ val (f32_div (limits i) (ratio i)) = rnd32 (val (limits i) / val (ratio i)) /\
  bpow radix2 (lo - 49) <= val (f32_div (limits i) (ratio i)) /\
  bpow radix2 (lo - 49) <= val (limits i) / val (ratio i).
Proof.
  intros i Di. unfold f32_div. destruct (ratio_mag i Di) as [Fr Br]. destruct (Lim i (Dr i Di)) as [Fl Bl]. pose proof (pos_mag _ _ _ Br) as Mr. pose proof (pos_mag _ _ _ Bl) as Ml.
  destruct (div_mag 24 128 _ _ _ _ _ _ _ _ Fl Fr Ml Mr) as (F & V & M); try exps. split; [exact F|]. split; [exact V|].
  assert (P : 0 <= val (limits i) / val (ratio i)) by (apply div_pos; [pose proof (bpow_gt_0 radix2 lo)|pose proof (bpow_gt_0 radix2 (-49))]; lra).
  split; [apply (mag_pos _ (hi - -49)); auto; rewrite V; apply rnd_pos; auto with typeclass_instances|].
  apply (mag_pos _ (hi - -49)); auto. apply mag_div; auto.
Qed.

(** The limit before it is made steps. *)
Definition limit : fl :=
  fold_left (fun acc i => if (delta i =? 0)%Z then acc else fmin acc (f32_div (limits i) (ratio i))) all_axes (limits d).
Lemma clamp_is : clamp_limit c delta limits d = f32_mul limit (spm c d).
Proof. reflexivity. Qed.
Lemma limit_fold : forall l x0, fin32 x0 -> bpow radix2 (lo - 49) <= val x0 ->
  let x := fold_left (fun acc i => if (delta i =? 0)%Z then acc else fmin acc (f32_div (limits i) (ratio i))) l x0 in
  fin32 x /\ bpow radix2 (lo - 49) <= val x <= val x0 /\
  (forall i, In i l -> delta i <> 0%Z -> val x <= rnd32 (val (limits i) / val (ratio i))) /\
  (val x = val x0 \/ exists i, In i l /\ delta i <> 0%Z /\ val x = rnd32 (val (limits i) / val (ratio i))).
Proof.
  induction l as [|a l IH]; intros x0 F0 B0 x; [split; [exact F0|]; split; [unfold x; cbn; lra|]; split; [intros i []|now left]|].
  unfold x. cbn [fold_left]. destruct (Z.eqb_spec (delta a) 0) as [E|E].
  - destruct (IH x0 F0 B0) as (F & B & U & K). cbv zeta in *. split; [exact F|]. split; [exact B|]. split.
    + intros i [->|I]; [congruence|]. now apply U.
    + destruct K as [K|(i & I & K)]; [now left|]. right. exists i. split; [now right|exact K].
  - destruct (quotient a E) as (Fq & Vq & Bq & _). destruct (min_val 24 128 _ _ F0 Fq) as [Fm Vm].
    destruct (IH (fmin x0 (f32_div (limits a) (ratio a))) Fm) as (F & B & U & K); [rewrite Vm; now apply Rmin_glb|]. cbv zeta in *.
    pose proof (Rmin_l (val x0) (val (f32_div (limits a) (ratio a)))) as R1. pose proof (Rmin_r (val x0) (val (f32_div (limits a) (ratio a)))) as R2.
    split; [exact F|]. split; [lra|]. split.
    + intros i [<-|I] Di; [|now apply U]. rewrite <- Vq. lra.
    + destruct K as [K|(i & I & K)]; [|right; exists i; split; [now right|exact K]].
      rewrite K, Vm. unfold Rmin. destruct (Rle_dec _ _); [now left|]. right. exists a. split; [now left|]. auto.
Qed.
Lemma limit_ok : fin32 limit /\ bpow radix2 (lo - 49) <= val limit <= val (limits d) /\
  (forall i, delta i <> 0%Z -> val limit <= rnd32 (val (limits i) / val (ratio i))) /\
  (val limit = val (limits d) \/ exists i, delta i <> 0%Z /\ val limit = rnd32 (val (limits i) / val (ratio i))).
Proof.
  destruct (Lim d (Dr d Dd)) as [Fl Bl]. destruct (limit_fold all_axes (limits d) Fl) as (F & B & U & K).
  { eapply Rle_trans; [|apply Bl]. apply bpow_le. lia. }
  split; [exact F|]. split; [exact B|]. split; [intros i Di; apply U; auto using all_axes_in|]. destruct K as [K|(i & I & K)]; [now left|]. right. eauto.
Qed.
Lemma clamp_ok : fin32 (clamp_limit c delta limits d) /\ val (clamp_limit c delta limits d) = rnd32 (val limit * val (spm c d)) /\
  bpow radix2 (lo - 53) <= val (clamp_limit c delta limits d) /\ bpow radix2 (lo - 53) <= val limit * val (spm c d).
Proof.
  rewrite clamp_is. unfold f32_mul. destruct limit_ok as (F & B & _). destruct (spm_mag d (Dr d Dd)) as (Fs & Ms & Ps). destruct (Lim d (Dr d Dd)) as [_ Bl].
  assert (Ml : mag (lo - 49) hi (val limit)) by (apply pos_mag; lra).
  destruct (mul_mag 24 128 _ _ _ _ _ _ _ _ F Fs Ml Ms) as (F1 & V1 & M1); try exps. split; [exact F1|]. split; [exact V1|].
  assert (P : 0 <= val limit * val (spm c d)) by (apply mul_pos; [pose proof (bpow_gt_0 radix2 (lo - 49))|]; lra).
  replace (lo - 53)%Z with (lo - 49 + -4)%Z by lia.
  split; [apply (mag_pos _ (hi + 14)); [exact M1|rewrite V1; apply rnd_pos; auto with typeclass_instances]|]. apply (mag_pos _ (hi + 14)); [|exact P]. now apply mag_mul.
Qed.
End Clamp.

(** ** Lengths *)
Lemma delta_mm_mag : forall a, fin64 (delta_mm c delta a) /\ (val (delta_mm c delta a) = 0 \/ mag (-14) 35 (val (delta_mm c delta a))) /\ (delta a <> 0%Z -> mag (-14) 35 (val (delta_mm c delta a))) /\
  (val (spm c a) = 0 /\ val (delta_mm c delta a) = 0 \/ val (spm c a) <> 0 /\ val (delta_mm c delta a) = rnd64 (IZR (delta a) / val (spm c a))).
Proof.
  intros a. pose proof (dv_spm _ _ Dv a) as Fs. assert (Z0 : fin 24 128 d0) by (split; reflexivity). unfold delta_mm. destruct (Z.eq_dec (delta a) 0) as [E|E].
  - destruct (SFeqb (spm c a) d0) eqn:Q.
    + split; [split; reflexivity|]. split; [now left|]. split; [congruence|]. left. split; [|reflexivity]. now apply (eqb_eq_val 24 128) in Q.
    + destruct (f64_of_f32_val _ Fs) as [Fd Vd]. destruct (f64_of_Z_val (delta a) ltac:(lia)) as [F1 V1].
      assert (N : val (spm c a) <> 0). { intros X. apply Bool.not_true_iff_false in Q. apply Q. now apply (eqb_eq_val 24 128). }
      destruct (div_val 53 1024 _ _ _ _ F1 Fd) as [F V]; [unfold spm in *; congruence| |].
      * rewrite V1, E. unfold Rdiv. rewrite Rmult_0_l, rnd_0. unfold Proofs_Real.small. rewrite Rabs_R0. apply bpow_gt_0.
      * split; [exact F|]. rewrite V1, Vd in V. unfold f64_div, spm in *. rewrite V, E. unfold Rdiv. rewrite Rmult_0_l, rnd_0. split; [now left|]. split; [congruence|]. right. split; [exact N|reflexivity].
  - destruct (spm_mag a (Dr a E)) as (_ & Ms & Ps). pose proof (Few a).
    assert (Q : SFeqb (spm c a) d0 = false). { apply Bool.not_true_iff_false. intros X. apply (eqb_eq_val 24 128) in X; auto. change (val d0) with 0 in X. lra. }
    rewrite Q. destruct (f64_of_f32_val _ Fs) as [Fd Vd]. destruct (f64_of_Z_mag (delta a) ltac:(lia)) as (F1 & V1 & M1).
    assert (Md : mag (-4) 14 (val (f64_of_f32 (spm c a)))) by (unfold spm in *; rewrite Vd; exact Ms).
    destruct (div_mag 53 1024 _ _ _ _ _ _ _ _ F1 Fd M1 Md) as (F & V & M); try exps. split; [exact F|]. cbn in M. split; [now right|]. split; [auto|]. right. split; [lra|]. unfold f64_div, spm in *. rewrite V, V1, Vd. reflexivity.
Qed.
Definition mm (a : axis) : R := val (delta_mm c delta a).
Lemma mm_bound : forall a, Rabs (mm a) <= bpow radix2 35.
Proof. intros a. destruct (delta_mm_mag a) as (_ & [Z|M] & _); unfold mm; [rewrite Z, Rabs_R0; apply bpow_ge_0|apply M]. Qed.
Lemma square_mag : forall a, fin64 (f64_mul (delta_mm c delta a) (delta_mm c delta a)) /\ 0 <= val (f64_mul (delta_mm c delta a) (delta_mm c delta a)) <= bpow radix2 70 /\
  (val (f64_mul (delta_mm c delta a) (delta_mm c delta a)) = 0 \/ bpow radix2 (-28) <= val (f64_mul (delta_mm c delta a) (delta_mm c delta a))).
Proof.
  intros a. destruct (delta_mm_mag a) as (F & Z & _). pose proof (mm_bound a) as B. unfold mm in B. unfold f64_mul.
  destruct (mul_le 53 1024 _ _ 35 35 _ _ F F B B) as (F1 & V1 & B1); [exps|]. cbn in B1. split; [exact F1|].
  assert (P : 0 <= val (SFmul 53 1024 (delta_mm c delta a) (delta_mm c delta a))) by (rewrite V1; apply rnd_pos; auto with typeclass_instances; apply Rle_0_sqr).
  rewrite Rabs_pos_eq in B1 by exact P. split; [auto|]. destruct Z as [Z|M].
  - left. rewrite V1, Z, Rmult_0_l. apply rnd_0.
  - right. destruct (mul_mag 53 1024 _ _ _ _ _ _ _ _ F F M M) as (_ & _ & M2); try exps. cbn in M2. apply (mag_pos _ _ _ M2 P).
Qed.
Lemma sum_more : forall x y l, fin64 x -> fin64 y -> 0 <= val x <= bpow radix2 l -> 0 <= val y <= bpow radix2 l -> (0 <= l <= 500)%Z ->
  fin64 (f64_add x y) /\ val x <= val (f64_add x y) /\ val y <= val (f64_add x y) /\ val (f64_add x y) <= bpow radix2 (l + 1) /\ (val x = 0 -> val y = 0 -> val (f64_add x y) = 0).
Proof.
  intros x y l Fx Fy Bx By L. unfold f64_add. destruct (add_le 53 1024 _ _ l x y Fx Fy) as (F & V & B); [rewrite Rabs_pos_eq; lra|rewrite Rabs_pos_eq; lra|exps|].
  split; [exact F|]. rewrite V in *.
  split; [rewrite <- (rnd_fin 53 1024 x Fx) at 1; apply rnd_le; auto with typeclass_instances; lra|]. split; [rewrite <- (rnd_fin 53 1024 y Fy) at 1; apply rnd_le; auto with typeclass_instances; lra|]. split.
  - apply Rabs_le_inv in B. lra.
  - intros Ex Ey. rewrite Ex, Ey, Rplus_0_r. apply rnd_0.
Qed.
Definition length_mm : fl := euclid (delta_mm c delta AX) (delta_mm c delta AY) (delta_mm c delta AZ).
Lemma length_ok : fin64 length_mm /\ 0 <= val length_mm <= bpow radix2 36 /\ (val length_mm = 0 \/ bpow radix2 (-14) <= val length_mm).
Proof.
  unfold length_mm, euclid. destruct (square_mag AX) as (F1 & B1 & Z1). destruct (square_mag AY) as (F2 & B2 & Z2). destruct (square_mag AZ) as (F3 & B3 & Z3).
  set (x := f64_mul (delta_mm c delta AX) _) in *. set (y := f64_mul (delta_mm c delta AY) _) in *. set (z := f64_mul (delta_mm c delta AZ) _) in *. clearbody x y z.
  destruct (sum_more x y 70 F1 F2 B1 B2 ltac:(lia)) as (F4 & L1 & L2 & U4 & N4). cbn [Z.add Pos.add] in U4. set (w := f64_add x y) in *. clearbody w.
  assert (B3' : 0 <= val z <= bpow radix2 71). { split; [lra|]. eapply Rle_trans; [apply B3|]. apply bpow_le. lia. }
  destruct (sum_more w z 71 F4 F3 ltac:(split; [lra|exact U4]) B3' ltac:(lia)) as (F5 & L3 & L4 & U5 & N5). cbn [Z.add Pos.add] in U5. set (v := f64_add w z) in *. clearbody v.
  destruct (sqrt_val64 v F5 ltac:(lra)) as [F6 V6]. split; [exact F6|].
  assert (Up : sqrt (val v) <= bpow radix2 36). { rewrite <- (sqrt_square (bpow radix2 36)) by apply bpow_ge_0. apply sqrt_le_1_alt. rewrite <- bpow_plus. exact U5. }
  pose proof (sqrt_pos (val v)) as S0. rewrite V6. split.
  - split; [apply rnd_pos; auto with typeclass_instances|]. eapply Rle_trans; [apply Rle_abs|]. apply rnd_abs_le; [auto with typeclass_instances|exps|]. now rewrite Rabs_pos_eq.
  - destruct (Rle_dec (bpow radix2 (-28)) (val v)) as [G|G].
    + right. assert (Dn : bpow radix2 (-14) <= sqrt (val v)). { rewrite <- (sqrt_square (bpow radix2 (-14))) by apply bpow_ge_0. apply sqrt_le_1_alt. rewrite <- bpow_plus. exact G. }
      eapply mag_pos; [apply (rnd_mag 53 1024 _ (-14) 36); [exps|exps|apply pos_mag; auto]|apply rnd_pos; auto with typeclass_instances].
    + left. assert (E : val v = 0). { apply N5; [apply N4|]; [destruct Z1|destruct Z2|destruct Z3]; lra. } rewrite E, sqrt_0. apply rnd_0.
Qed.
Definition speed0 (f : fl) : fl :=
  f64_mul (f64_of_f32 (f32_mul f (spm c d))) (if SFltb d0 length_mm then f64_div (f64_abs (delta_mm c delta d)) length_mm else d1).
Lemma speed0_ok : forall f, good_feed f -> fin64 (speed0 f) /\ bpow radix2 (-65) <= val (speed0 f) <= bpow radix2 83.
Proof.
  intros f [Ff Bf]. destruct (spm_mag d (Dr d Dd)) as (Fs & Ms & Ps). assert (Mf : mag (-10) 20 (val f)) by (apply pos_mag; change (bpow radix2 (-10)) with (/ 1024); change (bpow radix2 20) with 1048576; auto).
  destruct (mul_mag 24 128 _ _ _ _ _ _ _ _ Ff Fs Mf Ms) as (F1 & V1 & M1); try exps. cbn in M1. destruct (f64_of_f32_val _ F1) as [F2 V2]. rewrite <- V2 in M1.
  assert (P2 : 0 <= val (f64_of_f32 (SFmul 24 128 f (spm c d)))) by (rewrite V2, V1; apply rnd_pos; auto with typeclass_instances; apply mul_pos; lra).
  assert (K : let k := if SFltb d0 length_mm then f64_div (f64_abs (delta_mm c delta d)) length_mm else d1 in fin64 k /\ mag (-51) 49 (val k) /\ 0 <= val k).
  { cbv zeta. destruct length_ok as (Fl & Bl & Zl). destruct (SFltb d0 length_mm) eqn:Q.
    - apply (ltb_lt 53 1024) in Q; [|split; reflexivity|exact Fl]. change (val d0) with 0 in Q. destruct (delta_mm_mag d) as (Fd & _ & Md & _). specialize (Md Dd). destruct (abs_val 53 1024 _ Fd) as [Fa Va].
      assert (Ma : mag (-14) 35 (val (f64_abs (delta_mm c delta d)))) by (rewrite Va; unfold mag; rewrite Rabs_Rabsolu; exact Md).
      assert (Ml : mag (-14) 36 (val length_mm)) by (apply pos_mag; lra).
      destruct (div_mag 53 1024 _ _ _ _ _ _ _ _ Fa Fl Ma Ml) as (F3 & V3 & M3); try exps. cbn in M3. split; [exact F3|]. split; [eapply mag_widen; [exact M3|lia|lia]|]. unfold f64_div. rewrite V3. apply rnd_pos; auto with typeclass_instances.
      apply div_pos; [rewrite Va; apply Rabs_pos|exact Q].
    - destruct (f64_of_Z_val 1 ltac:(lia)) as [F3 V3]. fold d1 in F3, V3. split; [exact F3|]. rewrite V3. split; [|lra]. apply pos_mag. change 1 with (bpow radix2 0). split; apply bpow_le; lia. }
  cbv zeta in K. unfold speed0. set (k := if SFltb d0 length_mm then _ else _) in *. clearbody k. destruct K as (Fk & Mk & Pk).
  destruct (mul_mag 53 1024 _ _ _ _ _ _ _ _ F2 Fk M1 Mk) as (F4 & V4 & M4); try exps. cbn in M4. split; [exact F4|]. unfold f64_mul, f32_mul. apply (mag_pos _ _ _ M4). rewrite V4. apply rnd_pos; auto with typeclass_instances. now apply mul_pos.
Qed.
Lemma feed_limits : forall a, driven c a -> fin32 (p_max_feedrate c a) /\ bpow radix2 (-10) <= val (p_max_feedrate c a) <= bpow radix2 20.
Proof. intros a D. destruct (dr_feed _ _ D) as [F B]. split; [exact F|]. change (bpow radix2 (-10)) with (/ 1024). change (bpow radix2 20) with 1048576. exact B. Qed.
Lemma acc_limits : forall a, driven c a -> fin32 (p_acceleration c a) /\ bpow radix2 (-10) <= val (p_acceleration c a) <= bpow radix2 30.
Proof. intros a D. destruct (dr_acc _ _ D) as [F B]. split; [exact F|]. change (bpow radix2 (-10)) with (/ 1024). change (bpow radix2 30) with 1073741824. exact B. Qed.

Definition top : fl := f64_of_f32 (clamp_limit c delta (p_max_feedrate c) d).
Definition acc : fl := f64_of_f32 (clamp_limit c delta (p_acceleration c) d).
Lemma le100 : forall e r, (-100 <= e)%Z -> bpow radix2 e <= r -> bpow radix2 (-100) <= r.
Proof. intros e r E H. eapply Rle_trans; [|exact H]. now apply bpow_le. Qed.
Lemma limits_ok : fin64 top /\ fin64 acc /\ bpow radix2 (-63) <= val top <= bpow radix2 35 /\ val acc <= 1001 / 1000 * A /\ val top * val top <= 2097152 * val acc.
Proof.
  unfold top, acc.
  destruct (clamp_ok (p_max_feedrate c) (-10) 20 ltac:(lia) ltac:(lia) feed_limits) as (F1 & V1 & B1 & W1). destruct (limit_ok (p_max_feedrate c) (-10) 20 ltac:(lia) ltac:(lia) feed_limits) as (F2 & B2 & U2 & _).
  destruct (clamp_ok (p_acceleration c) (-10) 30 ltac:(lia) ltac:(lia) acc_limits) as (F3 & V3 & B3 & W3). destruct (limit_ok (p_acceleration c) (-10) 30 ltac:(lia) ltac:(lia) acc_limits) as (F4 & B4 & _ & K4).
  destruct (f64_of_f32_val _ F1) as [G1 X1]. destruct (f64_of_f32_val _ F3) as [G3 X3]. rewrite X1, X3.
  destruct (spm_mag d (Dr d Dd)) as (Fs & Ms & Ps). destruct (dr_spm _ _ (Dr d Dd)) as [_ Bs]. fold (spm c d) in Bs.
  pose proof (rel32 _ (le100 (-10 - 53) _ ltac:(lia) W1)) as R1. pose proof (rel32 _ (le100 (-10 - 53) _ ltac:(lia) W3)) as R3. rewrite <- V1 in R1. rewrite <- V3 in R3.
  set (LF := val (limit (p_max_feedrate c))) in *. set (LA := val (limit (p_acceleration c))) in *. set (s := val (spm c d)) in *.
  set (tp := val (clamp_limit c delta (p_max_feedrate c) d)) in *. set (ac := val (clamp_limit c delta (p_acceleration c) d)) in *.
  destruct (dr_feed _ _ (Dr d Dd)) as [_ Bf]. destruct (dr_acc _ _ (Dr d Dd)) as [_ Ba].
  assert (LF0 : 0 < LF) by (eapply Rlt_le_trans; [apply bpow_gt_0|apply B2]). assert (LA0 : 0 < LA) by (eapply Rlt_le_trans; [apply bpow_gt_0|apply B4]).
  split; [exact G1|]. split; [exact G3|]. split; [|split].
  - split; [exact B1|]. change (bpow radix2 35) with 34359738368. apply Rle_trans with (1001 / 1000 * (1048576 * 16384)); [|lra]. eapply Rle_trans; [apply R1|]. apply Rmult_le_compat_l; [lra|]. apply Rmult_le_compat; lra.
  - eapply Rle_trans; [apply R3|]. apply Rmult_le_compat_l; [lra|]. pose proof (dv_acc _ _ Dv d (Dr d Dd)) as Q. fold (spm c d) s in Q. eapply Rle_trans; [|exact Q]. apply Rmult_le_compat_r; lra.
  - assert (T : tp * tp <= 101 / 100 * (LF * LF * s * s)).
    { apply Rle_trans with ((1001 / 1000 * (LF * s)) * (1001 / 1000 * (LF * s))).
      - assert (0 <= tp) by (eapply Rle_trans; [apply bpow_ge_0|exact B1]). apply Rmult_le_compat; lra.
      - assert (0 <= LF * LF * s * s) by (repeat apply mul_pos; lra). nra. }
    assert (AC : 999 / 1000 * (LA * s) <= ac) by lra. set (fd := val (p_max_feedrate c d)) in *.
    destruct K4 as [K4|(i & Di & K4)].
    + pose proof (dv_ramp _ _ Dv d d (Dr d Dd) (Dr d Dd)) as Rm. fold (spm c d) fd s in Rm. fold LA in K4. rewrite <- K4 in Rm.
      assert (Q : LF * LF * s * s <= 1048576 * (LA * s)).
      { replace (LF * LF * s * s) with ((LF * LF * s) * s) by ring. replace (1048576 * (LA * s)) with ((1048576 * LA) * s) by ring. apply Rmult_le_compat_r; [lra|]. eapply Rle_trans; [|exact Rm]. apply Rmult_le_compat_r; [lra|]. apply Rmult_le_compat; lra. }
      assert (0 < LA * s) by (now apply Rmult_lt_0_compat). lra.
    + pose proof (dv_ramp _ _ Dv i d (Dr i Di) (Dr d Dd)) as Rm. fold (spm c d) fd s in Rm. fold LA in K4.
      destruct (quotient (p_max_feedrate c) (-10) 20 ltac:(lia) ltac:(lia) feed_limits i Di) as (_ & _ & _ & Q1). destruct (quotient (p_acceleration c) (-10) 30 ltac:(lia) ltac:(lia) acc_limits i Di) as (_ & _ & _ & Q2).
      pose proof (rel32 _ (le100 (-10 - 49) _ ltac:(lia) Q1)) as E1. pose proof (rel32 _ (le100 (-10 - 49) _ ltac:(lia) Q2)) as E2. rewrite <- K4 in E2. pose proof (U2 i Di) as U. fold LF in U.
      destruct (ratio_mag i Di) as [_ Br]. set (r := val (ratio i)) in *. assert (R0 : 0 < r) by (eapply Rlt_le_trans; [apply bpow_gt_0|apply Br]).
      set (fi := val (p_max_feedrate c i)) in *. set (ai := val (p_acceleration c i)) in *.
      assert (H1 : LF * r <= 1001 / 1000 * fi). { apply Rmult_le_reg_r with (/ r); [now apply Rinv_0_lt_compat|]. replace (LF * r * / r) with LF by (field; lra). unfold Rdiv in *. lra. }
      assert (H2 : 999 / 1000 * ai <= LA * r). { apply Rmult_le_reg_r with (/ r); [now apply Rinv_0_lt_compat|]. replace (LA * r * / r) with LA by (field; lra). unfold Rdiv in *. lra. }
      assert (H3 : LF * LF * s * r <= 1001 / 1000 * (fi * fd * s)).
      { replace (LF * LF * s * r) with ((LF * r) * (LF * s)) by ring. replace (1001 / 1000 * (fi * fd * s)) with ((1001 / 1000 * fi) * (fd * s)) by ring. apply Rmult_le_compat; try apply mul_pos; try lra. apply Rmult_le_compat_r; lra. }
      assert (H0 : 0 <= LA * r) by (apply mul_pos; lra). assert (H4 : LF * LF * s * r <= 1053000 * (LA * r)) by lra.
      assert (H5 : LF * LF * s <= 1053000 * LA) by (apply Rmult_le_reg_r with r; lra).
      assert (H6 : LF * LF * s * s <= 1053000 * (LA * s)). { replace (1053000 * (LA * s)) with ((1053000 * LA) * s) by ring. apply Rmult_le_compat_r; lra. }
      assert (0 < LA * s) by (now apply Rmult_lt_0_compat). lra.
Qed.
End Delta.
End Target.

(** ** Joining *)
Record apt (t : target) : Prop := mk_apt {
  q_few : forall a, (Z.abs (t_delta t a) <= 2 ^ 31)%Z;
  q_dx : fin64 (t_dx t) /\ Rabs (val (t_dx t)) <= bpow radix2 35; q_dy : fin64 (t_dy t) /\ Rabs (val (t_dy t)) <= bpow radix2 35; q_dz : fin64 (t_dz t) /\ Rabs (val (t_dz t)) <= bpow radix2 35;
  q_len : valid_binary 53 1024 (t_len t) = true;
  q_top : fin64 (t_speed t) /\ 0 <= val (t_speed t) <= bpow radix2 83
}.
Lemma no_target_apt : forall pos, apt (no_target pos).
Proof.
  intros pos. assert (Z : forall e, Rabs (val d0) <= bpow radix2 e) by (intros e; change (val d0) with 0; rewrite Rabs_R0; apply bpow_ge_0).
  constructor; cbn [t_delta t_dx t_dy t_dz t_len t_speed no_target]; try (split; [split; reflexivity|apply Z]); [intros _; lia|reflexivity|]. split; [split; reflexivity|]. change (val d0) with 0. split; [lra|apply bpow_ge_0].
Qed.
Lemma zero_fin : fin64 d0 /\ 0 <= val d0.
Proof. split; [split; reflexivity|]. change (val d0) with 0. lra. Qed.

Lemma small_quotient : forall x y, (Z.abs x <= 2 ^ 31)%Z -> (1 <= Z.abs y <= 2 ^ 31)%Z ->
  fin64 (f64_div (f64_mul d1 (f64_of_Z x)) (f64_of_Z y)) /\ Rabs (val (f64_div (f64_mul d1 (f64_of_Z x)) (f64_of_Z y))) <= bpow radix2 31.
Proof.
  intros x y Hx Hy. destruct (quotient_fin x y ltac:(lia) ltac:(lia)) as [F V]. split; [exact F|]. rewrite V. apply rnd_abs_le; [auto with typeclass_instances|exps|].
  unfold Rdiv. rewrite Rabs_mult, Rabs_inv, <- !abs_IZR. change (bpow radix2 31) with (IZR (2 ^ 31)). apply Rle_trans with (IZR (2 ^ 31) * 1); [|lra].
  apply Rmult_le_compat; [apply IZR_le; lia|left; apply Rinv_0_lt_compat, IZR_lt; lia|apply IZR_le; lia|]. rewrite <- Rinv_1. apply Rinv_le; [lra|apply IZR_le; lia].
Qed.
Lemma factor_fin : forall t a, apt t -> fin64 (speed_factor t a) /\ Rabs (val (speed_factor t a)) <= bpow radix2 31.
Proof.
  intros t a H. unfold speed_factor. destruct (Z.eqb_spec (t_delta t (t_axis t)) 0) as [E|E].
  - split; [apply zero_fin|]. change (val d0) with 0. rewrite Rabs_R0. apply bpow_ge_0.
  - destruct (axis_eqb a (t_axis t)).
    + destruct (f64_of_Z_val 1 ltac:(lia)) as [F V]. fold d1 in F, V. split; [exact F|]. rewrite V, Rabs_R1. change 1 with (bpow radix2 0). apply bpow_le. lia.
    + pose proof (q_few _ H a). pose proof (q_few _ H (t_axis t)). destruct (small_quotient (t_delta t a) (t_delta t (t_axis t)) ltac:(lia) ltac:(lia)) as [F V]. destruct (abs_val 53 1024 _ F) as [F1 V1]. split; [exact F1|]. rewrite V1, Rabs_Rabsolu. exact V.
Qed.
Lemma join_axes_ok : forall from to, apt from -> apt to -> forall l first speed, fin64 speed -> 0 <= val speed ->
  fin64 (join_axes from to first speed l) /\ 0 <= val (join_axes from to first speed l).
Proof.
  intros from to Hf Ht. induction l as [|a l IH]; intros first speed F P; [cbn; auto|]. cbn [join_axes].
  destruct ((t_delta from a =? 0)%Z && (t_delta to a =? 0)%Z); [now apply IH|]. destruct (Z.eqb_spec (t_delta from a) 0) as [E|E]; [apply zero_fin|]. cbn [orb].
  destruct (t_delta to a =? 0)%Z; [apply zero_fin|]. destruct (_ || _)%bool; [apply zero_fin|].
  pose proof (q_few _ Hf a). pose proof (q_few _ Hf (t_axis from)). destruct (small_quotient (t_delta from (t_axis from)) (t_delta from a) ltac:(lia) ltac:(lia)) as [F1 B1].
  destruct (factor_fin to a Ht) as [F2 B2]. destruct (q_top _ Ht) as [F3 [P3 B3]].
  destruct (mul_le 53 1024 _ _ 83 31 _ _ F3 F2 ltac:(now rewrite Rabs_pos_eq) B2 ltac:(exps)) as (F4 & _ & B4).
  destruct (mul_le 53 1024 _ _ _ 31 _ _ F4 F1 B4 B1 ltac:(exps)) as (F5 & _ & _).
  change (fin64 (f64_mul (speed_for to a) (f64_div (f64_mul d1 (f64_of_Z (t_delta from (t_axis from)))) (f64_of_Z (t_delta from a))))) in F5.
  set (goal := f64_mul (speed_for to a) _) in *. clearbody goal. destruct (SFltb goal d0) eqn:Q; [apply zero_fin|].
  assert (Pg : 0 <= val goal). { rewrite (ltb_val 53 1024) in Q by (auto; apply zero_fin). change (val d0) with 0 in Q. destruct (Rlt_bool_spec (val goal) 0); [discriminate|auto]. }
  destruct (first || within goal speed Model_Planner.small)%bool; [|apply zero_fin]. destruct (min_val 53 1024 _ _ F5 F) as [F6 V6]. apply IH; [exact F6|]. rewrite V6. now apply Rmin_glb.
Qed.

Lemma mul_valid : forall x y, valid_binary 53 1024 x = true -> valid_binary 53 1024 y = true -> valid_binary 53 1024 (f64_mul x y) = true.
Proof.
  intros x y Vx Vy. unfold f64_mul. rewrite <- (B2SF_SF2B 53 1024 x Vx), <- (B2SF_SF2B 53 1024 y Vy), (mul_eq 53 1024 eq_refl eq_refl). apply valid_binary_B2SF.
Qed.
Lemma div_valid : forall x y, valid_binary 53 1024 x = true -> valid_binary 53 1024 y = true -> valid_binary 53 1024 (f64_div x y) = true.
Proof.
  intros x y Vx Vy. unfold f64_div. rewrite <- (B2SF_SF2B 53 1024 x Vx), <- (B2SF_SF2B 53 1024 y Vy), (div_eq 53 1024 eq_refl eq_refl). apply valid_binary_B2SF.
Qed.
Lemma abs_valid : forall x, valid_binary 53 1024 x = true -> valid_binary 53 1024 (f64_abs x) = true.
Proof. intros [s|s| |s m e] V; auto. Qed.
Lemma abs_leb_fin : forall x y, valid_binary 53 1024 x = true -> fin64 y -> SFleb (f64_abs x) y = true -> fin64 (f64_abs x) /\ 0 <= val (f64_abs x) <= val y.
Proof.
  intros x y Vx Fy Q. assert (F : fin64 (f64_abs x)).
  { split; [now apply abs_valid|]. destruct x as [s|s| |s m e]; try reflexivity; exfalso; destruct Fy as [_ Fy]; destruct y as [s'|s'| |s' m' e']; try discriminate Fy; cbn in Q; try discriminate Q; destruct s'; discriminate Q. }
  split; [exact F|]. split; [|now apply (leb_le 53 1024)]. destruct x as [s|s| |s m e]; try (destruct F as [_ F]; discriminate F); unfold val, f64_abs; cbn; [lra|]. apply F2R_ge_0. cbn. lia.
Qed.

Section Join.
Variable c : pcfg.
Variable A : R.
Hypothesis Dv : drivable c A.

Definition dot (from to : target) : fl :=
  f64_add (f64_add (f64_mul (t_dx from) (t_dx to)) (f64_mul (t_dy from) (t_dy to))) (f64_mul (t_dz from) (t_dz to)).
Lemma dot_ok : forall from to, apt from -> apt to -> fin64 (dot from to) /\
  (val (t_dx from) * val (t_dx to) <= 0 -> val (t_dy from) * val (t_dy to) <= 0 -> val (t_dz from) * val (t_dz to) <= 0 -> val (dot from to) <= 0).
Proof.
  intros from to Hf Ht. destruct (q_dx _ Hf) as [F1 B1]. destruct (q_dx _ Ht) as [F2 B2]. destruct (q_dy _ Hf) as [F3 B3]. destruct (q_dy _ Ht) as [F4 B4]. destruct (q_dz _ Hf) as [F5 B5]. destruct (q_dz _ Ht) as [F6 B6].
  destruct (mul_le 53 1024 _ _ _ _ _ _ F1 F2 B1 B2 ltac:(exps)) as (Fx & Vx & Bx). destruct (mul_le 53 1024 _ _ _ _ _ _ F3 F4 B3 B4 ltac:(exps)) as (Fy & Vy & By). destruct (mul_le 53 1024 _ _ _ _ _ _ F5 F6 B5 B6 ltac:(exps)) as (Fz & Vz & Bz).
  cbn in Bx, By, Bz. destruct (add_le 53 1024 _ _ 70 _ _ Fx Fy Bx By ltac:(exps)) as (Fs & Vs & Bs).
  assert (Bz' : Rabs (val (SFmul 53 1024 (t_dz from) (t_dz to))) <= bpow radix2 (70 + 1)) by (eapply Rle_trans; [exact Bz|]; apply bpow_le; lia).
  destruct (add_le 53 1024 _ _ (70 + 1) _ _ Fs Fz Bs Bz' ltac:(exps)) as (Fd & Vd & _). split; [exact Fd|]. intros Nx Ny Nz. unfold dot, f64_add, f64_mul. rewrite Vd.
  assert (0 >= rnd64 (val (t_dx from) * val (t_dx to))) by (apply Rle_ge, rnd_neg; auto with typeclass_instances). assert (0 >= rnd64 (val (t_dy from) * val (t_dy to))) by (apply Rle_ge, rnd_neg; auto with typeclass_instances).
  assert (0 >= rnd64 (val (t_dz from) * val (t_dz to))) by (apply Rle_ge, rnd_neg; auto with typeclass_instances). rewrite Vz.
  apply rnd_neg; auto with typeclass_instances. assert (val (SFadd 53 1024 (SFmul 53 1024 (t_dx from) (t_dx to)) (SFmul 53 1024 (t_dy from) (t_dy to))) <= 0); [|lra].
  rewrite Vs. apply rnd_neg; auto with typeclass_instances. rewrite Vx, Vy. lra.
Qed.
Lemma deg_const : fin64 (f64_div (f64_of_Z 180) M_PI) /\ fin64 (f64_div M_PI (f64_of_Z 180)) /\ 0 <= val (f64_div M_PI (f64_of_Z 180)) <= 17454 / 1000000.
Proof.
  split; [split; vm_compute; reflexivity|]. split; [split; vm_compute; reflexivity|].
  set (x := f64_div M_PI (f64_of_Z 180)). vm_compute in x. unfold x, val, SF2R, F2R. cbn [Fnum Fexp cond_Zopp]. change (bpow radix2 (-58)) with (/ 288230376151711744). lra.
Qed.
Lemma cos_arg : forall angle, fin64 angle -> 0 <= val angle <= val (f64_of_f32 (p_threshold c)) ->
  let x := f64_mul (f64_add angle (f64_of_f32 (p_tune c))) (f64_div M_PI (f64_of_Z 180)) in fin64 x /\ 0 <= val x <= 3 / 2.
Proof.
  intros an Fa Ba x. destruct (dv_angle _ _ Dv) as (Ft & Fu & Bu & S). destruct (f64_of_f32_val _ Ft) as [Gt Vt]. destruct (f64_of_f32_val _ Fu) as [Gu Vu]. rewrite Vt in Ba.
  assert (S1 : 0 <= val an + val (f64_of_f32 (p_tune c)) <= 85) by (rewrite Vu; lra).
  assert (R85 : forall r, 0 <= r <= 85 -> 0 <= rnd64 r <= 85 + 1 / 10 /\ Rabs (rnd64 r) <= bpow radix2 7).
  { intros r Hr. assert (0 <= rnd64 r) by (apply rnd_pos; auto with typeclass_instances; lra). pose proof (rnd64_error r) as E. rewrite (Rabs_pos_eq r) in E by lra. apply Rabs_le_inv in E. rewrite Rabs_pos_eq by auto. change (bpow radix2 7) with 128. lra. }
  destruct (R85 _ S1) as [R1 R2]. destruct (add_val 53 1024 _ _ _ _ Fa Gu) as [F1 V1].
  { eapply Rle_lt_trans; [exact R2|]. apply bpow_lt. lia. }
  destruct deg_const as (_ & Fd & Bd). assert (S2 : 0 <= val (SFadd 53 1024 an (f64_of_f32 (p_tune c))) * val (f64_div M_PI (f64_of_Z 180)) <= 1486 / 1000).
  { rewrite V1. split; [apply mul_pos; lra|]. apply Rle_trans with ((85 + 1 / 10) * (17454 / 1000000)); [apply Rmult_le_compat; lra|lra]. }
  assert (R3 : 0 <= rnd64 (val (SFadd 53 1024 an (f64_of_f32 (p_tune c))) * val (f64_div M_PI (f64_of_Z 180))) <= 3 / 2).
  { split; [apply rnd_pos; auto with typeclass_instances; lra|]. pose proof (rnd64_error (val (SFadd 53 1024 an (f64_of_f32 (p_tune c))) * val (f64_div M_PI (f64_of_Z 180)))) as E. rewrite (Rabs_pos_eq (val _ * _)) in E by lra. apply Rabs_le_inv in E. lra. }
  destruct (mul_val 53 1024 _ _ _ _ F1 Fd) as [F2 V2].
  { unfold Proofs_Real.small. rewrite Rabs_pos_eq by lra. apply Rle_lt_trans with 2; [lra|]. change 2 with (bpow radix2 1). apply bpow_lt. lia. }
  split; [exact F2|]. unfold x, f64_mul, f64_add. rewrite V2. exact R3.
Qed.
Lemma joining_ok : forall from to, apt from -> apt to ->
  let v := joining_speed c from to (f64_of_f32 (p_threshold c)) (f64_of_f32 (p_tune c)) in
  fin64 v /\ 0 <= val v /\ (val (dot from to) <= 0 -> val v = 0).
Proof.
  intros from to Hf Ht v. destruct (dot_ok from to Hf Ht) as [Fd _]. unfold v, joining_speed. fold (dot from to). rewrite (eqb_val 53 1024), (ltb_val 53 1024) by (auto; split; reflexivity). change (val d0) with 0.
  destruct (Req_bool_spec (val (dot from to)) 0) as [E|E]; [split; [apply zero_fin|split; [apply zero_fin|reflexivity]]|].
  destruct (Rlt_bool_spec (val (dot from to)) 0) as [N|N]; [split; [apply zero_fin|split; [apply zero_fin|reflexivity]]|].
  assert (X : forall w, fin64 w /\ 0 <= val w -> fin64 w /\ 0 <= val w /\ (val (dot from to) <= 0 -> val w = 0)) by (intros w [W1 W2]; split; [exact W1|]; split; [exact W2|]; intros; exfalso; lra).
  apply X. clear X. destruct (q_top _ Ht) as [Fv Bv]. destruct (within d1 _ Model_Planner.small); [split; [exact Fv|lra]|]. destruct (SFleb (f64_of_Z 45) _); [apply zero_fin|].
  set (raw := f64_mul (p_acos c _) _). destruct (SFleb (f64_abs raw) (f64_of_f32 (p_threshold c))) eqn:Q.
  - destruct (SFltb (dot from to) d1); [|split; [exact Fv|lra]]. destruct (f64_of_f32_val _ (proj1 (dv_angle _ _ Dv))) as [Gt _].
    assert (Vr : valid_binary 53 1024 raw = true) by (apply mul_valid; [apply (dv_acos _ _ Dv); apply div_valid; [apply Fd|apply mul_valid; [apply (q_len _ Hf)|apply (q_len _ Ht)]]|apply deg_const]).
    destruct (abs_leb_fin _ _ Vr Gt Q) as [Fa Ba]. destruct (cos_arg _ Fa Ba) as [Fx Bx]. destruct (dv_cos _ _ Dv _ Fx Bx) as [Fc Bc].
    destruct (mul_le 53 1024 _ _ 83 0 _ _ Fv Fc ltac:(rewrite Rabs_pos_eq; lra) ltac:(rewrite Rabs_pos_eq by lra; exact (proj2 Bc)) ltac:(exps)) as (Fm & Vm & _). split; [exact Fm|].
    unfold f64_mul at 1. rewrite Vm. apply rnd_pos; auto with typeclass_instances. apply mul_pos; lra.
  - apply join_axes_ok; auto; try apply (q_top _ Hf). 
Qed.

(** ** The target of a move *)
Lemma defining_fold : forall (delta : axis -> Z) (l : list axis) (m : Z) (x : axis), let r := fold_left (fun '(m, d) a => if (m <? Z.abs (delta a))%Z then (Z.abs (delta a), a) else (m, d)) l (m, x) in
  (fst r = m /\ snd r = x /\ (forall b, In b l -> Z.abs (delta b) <= m)%Z) \/
  (exists u w, l = u ++ snd r :: w /\ fst r = Z.abs (delta (snd r)) /\ (m < fst r)%Z /\ (forall b, In b u -> Z.abs (delta b) < fst r)%Z /\ (forall b, In b w -> Z.abs (delta b) <= fst r)%Z).
Proof.
  intros delta. induction l as [|a l IH]; intros m x r; [left; unfold r; cbn; intuition|]. unfold r. cbn [fold_left]. destruct (Z.ltb_spec m (Z.abs (delta a))) as [L|L].
  - right. destruct (IH (Z.abs (delta a)) a) as [(E1 & E2 & B)|(u & w & El & Ef & Lt & Bu & Bw)]; cbv zeta in *.
    + exists [], l. rewrite E1, E2. cbn. repeat split; auto. intros b [].
    + exists (a :: u), w. rewrite El at 1. split; [reflexivity|]. split; [exact Ef|]. split; [lia|]. split; [|exact Bw]. intros b [<-|I]; [lia|auto].
  - destruct (IH m x) as [(E1 & E2 & B)|(u & w & El & Ef & Lt & Bu & Bw)]; cbv zeta in *.
    + left. split; [exact E1|]. split; [exact E2|]. intros b [<-|I]; [lia|auto].
    + right. exists (a :: u), w. rewrite El at 1. split; [reflexivity|]. split; [exact Ef|]. split; [lia|]. split; [|exact Bw]. intros b [<-|I]; [lia|auto].
Qed.
Lemma defining_leads : forall delta, exists u w, all_axes = u ++ snd (defining delta) :: w /\ (forall b, In b u -> Z.abs (delta b) < Z.abs (delta (snd (defining delta))))%Z /\ (forall b, In b w -> Z.abs (delta b) <= Z.abs (delta (snd (defining delta))))%Z.
Proof.
  intros delta. unfold defining. destruct (defining_fold delta all_axes (-1) AX) as [(_ & _ & B)|(u & w & El & Ef & _ & Bu & Bw)]; cbv zeta in *.
  - specialize (B AX (all_axes_in AX)). lia.
  - exists u, w. rewrite Ef in Bu, Bw. split; [exact El|]. auto.
Qed.
Lemma defining_most : forall delta a, (Z.abs (delta a) <= Z.abs (delta (snd (defining delta))))%Z.
Proof.
  intros delta a. destruct (defining_leads delta) as (u & w & E & Bu & Bw). pose proof (all_axes_in a) as I. rewrite E in I. apply in_app_or in I. destruct I as [I|[I|I]]; [apply Bu in I; lia|subst; lia|auto].
Qed.
Lemma leads_defining : forall l a, leads l a -> snd (defining (l_steps l)) = a.
Proof.
  intros l a (u & w & E & Bu & Bw). destruct (defining_leads (l_steps l)) as (u' & w' & E' & Bu' & Bw'). set (d := snd (defining (l_steps l))) in *. clearbody d.
  assert (G : u ++ a :: w = u' ++ d :: w') by congruence. clear E E'. revert u' G Bu'. induction u as [|x u IH]; intros [|y u'] G Bu'; cbn in G.
  - congruence.
  - injection G as -> G. specialize (Bu' y (or_introl eq_refl)). assert (I : In d w) by (rewrite G; apply in_elt). specialize (Bw d I). lia.
  - injection G as -> G. specialize (Bu d (or_introl eq_refl)). assert (I : In a w') by (rewrite <- G; apply in_elt). specialize (Bw' a I). lia.
  - injection G as -> G. apply (IH ltac:(intros b I; apply Bu; now right) u' G). intros b I. apply Bu'. now right.
Qed.
End Join.
