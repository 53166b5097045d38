(** The floating point operations of the model as operations on real numbers
    followed by rounding, from Flocq. *)
From Coq Require Import Reals Lra SpecFloat.
From Flocq Require Import Core Relative IEEE754.BinarySingleNaN.
From Verif Require Import Base Model_Float.
From Verif Require Export Spec_Real.

Section Fmt.
Variables prec emax : Z.
Context (prec_gt_0_ : Prec_gt_0 prec).
Context (prec_lt_emax_ : Prec_lt_emax prec emax).

Notation fexp := (SpecFloat.fexp prec emax).
Notation emin := (SpecFloat.emin prec emax).

Notation fin := (fin prec emax).
Notation rnd := (rnd prec emax).
Definition small (r : R) : Prop := (Rabs r < bpow radix2 emax)%R.

Lemma fin_b : forall x, fin x -> exists b : binary_float prec emax, B2SF b = x /\ is_finite b = true /\ B2R b = val x.
Proof.
  intros x [V F]. exists (SF2B x V). split; [apply B2SF_SF2B|]. split; [now rewrite is_finite_SF2B|apply B2R_SF2B].
Qed.

Lemma b_fin : forall b : binary_float prec emax, is_finite b = true -> fin (B2SF b).
Proof. intros b F. split; [apply valid_binary_B2SF|]. now rewrite is_finite_SF_B2SF. Qed.

Lemma nearest_even_mode : forall s m l, round_nearest_even m l = choice_mode mode_NE s m l.
Proof. intros s m [|[]]; try reflexivity. cbn. unfold Round.cond_incr. now destruct (Z.even m). Qed.

Lemma round_aux_mode : forall s m e l,
  SpecFloat.binary_round_aux prec emax s m e l = BinarySingleNaN.binary_round_aux prec emax mode_NE s m e l.
Proof.
  intros. unfold SpecFloat.binary_round_aux, BinarySingleNaN.binary_round_aux.
  destruct (shr_fexp prec emax m e l) as [mrs e']. cbn. now rewrite (nearest_even_mode s).
Qed.

Lemma round_mode_eq : forall s m e,
  SpecFloat.binary_round prec emax s m e = BinarySingleNaN.binary_round prec emax mode_NE s m e.
Proof.
  intros. unfold SpecFloat.binary_round, BinarySingleNaN.binary_round, BinarySingleNaN.shl_align_fexp.
  destruct (shl_align m e (fexp (Z.pos (digits2_pos m) + e))). apply round_aux_mode.
Qed.

Lemma normalize_eq : forall m e sz,
  SpecFloat.binary_normalize prec emax m e sz
  = B2SF (BinarySingleNaN.binary_normalize prec emax prec_gt_0_ prec_lt_emax_ mode_NE m e sz).
Proof.
  intros [|p|p] e sz; cbn; auto; rewrite B2SF_SF2B; apply round_mode_eq.
Qed.

Lemma mul_eq : forall a b : binary_float prec emax, SFmul prec emax (B2SF a) (B2SF b) = B2SF (Bmult mode_NE a b).
Proof.
  intros [?|?| |sx mx ex Bx] [?|?| |sy my ey By]; try reflexivity. cbn. rewrite B2SF_SF2B. apply round_aux_mode.
Qed.

Lemma add_eq : forall a b : binary_float prec emax, SFadd prec emax (B2SF a) (B2SF b) = B2SF (Bplus mode_NE a b).
Proof.
  intros [?|?| |sx mx ex Bx] [?|?| |sy my ey By]; try reflexivity; try (cbn; destruct (Bool.eqb _ _); reflexivity).
  apply normalize_eq.
Qed.

Lemma sub_eq : forall a b : binary_float prec emax, SFsub prec emax (B2SF a) (B2SF b) = B2SF (Bminus mode_NE a b).
Proof.
  intros [?|?| |sx mx ex Bx] [?|?| |sy my ey By]; try reflexivity; try (cbn; destruct (Bool.eqb _ _); reflexivity).
  cbn. unfold Z.sub. rewrite <- cond_Zopp_negb. apply normalize_eq.
Qed.

Lemma div_eq : forall a b : binary_float prec emax, SFdiv prec emax (B2SF a) (B2SF b) = B2SF (Bdiv mode_NE a b).
Proof.
  intros [?|?| |sx mx ex Bx] [?|?| |sy my ey By]; try reflexivity. cbn. rewrite B2SF_SF2B.
  destruct (SFdiv_core_binary prec emax (Z.pos mx) ex (Z.pos my) ey) as [[mz ez] lz]. apply round_aux_mode.
Qed.

Lemma small_bool : forall r, small r -> Rlt_bool (Rabs r) (bpow radix2 emax) = true.
Proof. intros. now apply Rlt_bool_true. Qed.

Lemma mul_val : forall x y, fin x -> fin y -> small (rnd (val x * val y)) ->
  fin (SFmul prec emax x y) /\ val (SFmul prec emax x y) = rnd (val x * val y).
Proof.
  intros x y Hx Hy S. destruct (fin_b x Hx) as (a & <- & Fa & Va). destruct (fin_b y Hy) as (b & <- & Fb & Vb).
  rewrite mul_eq. pose proof (Bmult_correct prec emax _ _ mode_NE a b) as C. cbn [round_mode] in C.
  rewrite Va, Vb in C. unfold Spec_Real.rnd in S |- *. rewrite (small_bool _ S) in C. destruct C as (C1 & C2 & _).
  split; [apply b_fin; now rewrite C2, Fa, Fb|]. unfold val at 1. now rewrite SF2R_B2SF.
Qed.

Lemma add_val : forall x y, fin x -> fin y -> small (rnd (val x + val y)) ->
  fin (SFadd prec emax x y) /\ val (SFadd prec emax x y) = rnd (val x + val y).
Proof.
  intros x y Hx Hy S. destruct (fin_b x Hx) as (a & <- & Fa & Va). destruct (fin_b y Hy) as (b & <- & Fb & Vb).
  rewrite add_eq. pose proof (Bplus_correct prec emax _ _ mode_NE a b Fa Fb) as C. cbn [round_mode] in C.
  rewrite Va, Vb in C. unfold Spec_Real.rnd in S |- *. rewrite (small_bool _ S) in C. destruct C as (C1 & C2 & _).
  split; [now apply b_fin|]. unfold val at 1. now rewrite SF2R_B2SF.
Qed.

Lemma sub_val : forall x y, fin x -> fin y -> small (rnd (val x - val y)) ->
  fin (SFsub prec emax x y) /\ val (SFsub prec emax x y) = rnd (val x - val y).
Proof.
  intros x y Hx Hy S. destruct (fin_b x Hx) as (a & <- & Fa & Va). destruct (fin_b y Hy) as (b & <- & Fb & Vb).
  rewrite sub_eq. pose proof (Bminus_correct prec emax _ _ mode_NE a b Fa Fb) as C. cbn [round_mode] in C.
  rewrite Va, Vb in C. unfold Spec_Real.rnd in S |- *. rewrite (small_bool _ S) in C. destruct C as (C1 & C2 & _).
  split; [now apply b_fin|]. unfold val at 1. now rewrite SF2R_B2SF.
Qed.

Lemma div_val : forall x y, fin x -> fin y -> val y <> 0%R -> small (rnd (val x / val y)) ->
  fin (SFdiv prec emax x y) /\ val (SFdiv prec emax x y) = rnd (val x / val y).
Proof.
  intros x y Hx Hy Z S. destruct (fin_b x Hx) as (a & <- & Fa & Va). destruct (fin_b y Hy) as (b & <- & Fb & Vb).
  rewrite div_eq. pose proof (Bdiv_correct prec emax _ _ mode_NE a b) as C. cbn [round_mode] in C.
  rewrite Va, Vb in C. specialize (C Z). unfold Spec_Real.rnd in S |- *. rewrite (small_bool _ S) in C. destruct C as (C1 & C2 & _).
  split; [apply b_fin; now rewrite C2|]. unfold val at 1. now rewrite SF2R_B2SF.
Qed.

Lemma normalize_val : forall m e sz, small (rnd (F2R (Float radix2 m e))) ->
  fin (SpecFloat.binary_normalize prec emax m e sz) /\
  val (SpecFloat.binary_normalize prec emax m e sz) = rnd (F2R (Float radix2 m e)).
Proof.
  intros m e sz S. rewrite normalize_eq.
  pose proof (binary_normalize_correct prec emax _ _ mode_NE m e sz) as C. cbn zeta in C. cbn [round_mode] in C.
  unfold Spec_Real.rnd in S |- *. rewrite (small_bool _ S) in C. destruct C as (C1 & C2 & _).
  split; [now apply b_fin|]. unfold val at 1. now rewrite SF2R_B2SF.
Qed.

Lemma ltb_val : forall x y, fin x -> fin y -> SFltb x y = Rlt_bool (val x) (val y).
Proof.
  intros x y Hx Hy. destruct (fin_b x Hx) as (a & <- & Fa & Va). destruct (fin_b y Hy) as (b & <- & Fb & Vb).
  rewrite <- Va, <- Vb. now apply Bltb_correct.
Qed.
Lemma leb_val : forall x y, fin x -> fin y -> SFleb x y = Rle_bool (val x) (val y).
Proof.
  intros x y Hx Hy. destruct (fin_b x Hx) as (a & <- & Fa & Va). destruct (fin_b y Hy) as (b & <- & Fb & Vb).
  rewrite <- Va, <- Vb. now apply Bleb_correct.
Qed.
Lemma eqb_val : forall x y, fin x -> fin y -> SFeqb x y = Req_bool (val x) (val y).
Proof.
  intros x y Hx Hy. destruct (fin_b x Hx) as (a & <- & Fa & Va). destruct (fin_b y Hy) as (b & <- & Fb & Vb).
  rewrite <- Va, <- Vb. now apply Beqb_correct.
Qed.

Lemma ltb_lt : forall x y, fin x -> fin y -> (SFltb x y = true <-> (val x < val y)%R).
Proof. intros. rewrite ltb_val by assumption. destruct (Rlt_bool_spec (val x) (val y)); split; auto; try discriminate; lra. Qed.
Lemma leb_le : forall x y, fin x -> fin y -> (SFleb x y = true <-> (val x <= val y)%R).
Proof. intros. rewrite leb_val by assumption. destruct (Rle_bool_spec (val x) (val y)); split; auto; try discriminate; lra. Qed.
Lemma eqb_eq_val : forall x y, fin x -> fin y -> (SFeqb x y = true <-> val x = val y).
Proof. intros. rewrite eqb_val by assumption. destruct (Req_bool_spec (val x) (val y)); split; auto; try discriminate; lra. Qed.

(** Rounding. *)
Local Instance fexp_valid : Valid_exp fexp := FLT_exp_valid emin prec.
Local Instance fexp_mono : Monotone_exp fexp := FLT_exp_monotone emin prec.

Lemma rnd_le : forall a b, (a <= b)%R -> (rnd a <= rnd b)%R.
Proof. intros. apply round_le; auto with typeclass_instances. Qed.

Lemma rnd_0 : rnd 0 = 0%R.
Proof. apply round_0; auto with typeclass_instances. Qed.

Lemma fin_format : forall x, fin x -> generic_format radix2 fexp (val x).
Proof. intros x Hx. destruct (fin_b x Hx) as (a & <- & Fa & Va). rewrite <- Va. apply generic_format_B2R. Qed.

Lemma rnd_fin : forall x, fin x -> rnd (val x) = val x.
Proof. intros x Hx. apply round_generic; auto with typeclass_instances. now apply fin_format. Qed.

Lemma fin_small : forall x, fin x -> small (val x).
Proof. intros x Hx. destruct (fin_b x Hx) as (a & <- & Fa & Va). unfold small. rewrite <- Va. apply abs_B2R_lt_emax. Qed.

Lemma rnd_between : forall x y r, fin x -> fin y -> (val x <= r <= val y)%R -> (val x <= rnd r <= val y)%R /\ small (rnd r).
Proof.
  intros x y r Hx Hy [A B]. apply rnd_le in A. apply rnd_le in B. rewrite rnd_fin in A, B by assumption.
  split; auto. apply fin_small in Hx. apply fin_small in Hy. unfold small in *.
  apply Rabs_lt. apply Rabs_lt_inv in Hx. apply Rabs_lt_inv in Hy. lra.
Qed.

(** Relative error of rounding: at most half a unit of the last of [prec] places,
    plus half the smallest positive number. *)
Lemma rnd_error : forall r, (Rabs (rnd r - r) <= bpow radix2 (- prec) * Rabs r + / 2 * bpow radix2 emin)%R.
Proof.
  intro r. destruct (error_N_FLT radix2 emin prec prec_gt_0_ (fun x => negb (Z.even x)) r) as (eps & eta & E1 & E2 & _ & E).
  unfold Spec_Real.rnd. fold (FLT_exp emin prec) in *.
  change (round radix2 (FLT_exp emin prec) ZnearestE r = (r * (1 + eps) + eta)%R) in E.
  change (SpecFloat.fexp prec emax) with (FLT_exp emin prec). rewrite E.
  replace (r * (1 + eps) + eta - r)%R with (eps * r + eta)%R by ring.
  eapply Rle_trans; [apply Rabs_triang|]. rewrite Rabs_mult.
  assert (/ 2 * bpow radix2 (- prec + 1) = bpow radix2 (- prec))%R as P.
  { replace (- prec + 1) with (1 + - prec) by lia. rewrite bpow_plus. change (bpow radix2 1) with 2%R. field. }
  rewrite P in E1. apply Rplus_le_compat; auto. apply Rmult_le_compat_r; auto. apply Rabs_pos.
Qed.

(** Truncation. *)
Lemma trunc_val : forall x, fin x -> fl_trunc x = Some (Ztrunc (val x)).
Proof.
  intros [s|s| |s m e] [V F]; cbn [is_finite_SF] in F; try discriminate; cbn [fl_trunc].
  - unfold val; cbn [SF2R]. now rewrite Ztrunc_IZR.
  - f_equal. unfold val. cbn [SF2R].
    assert (forall p, Ztrunc (F2R (Float radix2 (Zpos p) e)) = if 0 <=? e then Z.pos p * 2 ^ e else Z.pos p / 2 ^ (- e)) as P.
    { intro p. destruct (0 <=? e) eqn:E.
      - apply Z.leb_le in E. rewrite <- (Ztrunc_IZR (Z.pos p * 2 ^ e)). f_equal. unfold F2R; cbn.
        rewrite mult_IZR. f_equal. rewrite <- IZR_Zpower by assumption. reflexivity.
      - apply Z.leb_gt in E. rewrite Ztrunc_floor.
        + unfold F2R; cbn. replace (bpow radix2 e) with (/ IZR (2 ^ (- e)))%R.
          * change (IZR (Z.pos p) * / IZR (2 ^ (- e)))%R with (IZR (Z.pos p) / IZR (2 ^ (- e)))%R.
            apply Zfloor_div. pose proof (Z.pow_pos_nonneg 2 (- e)). lia.
          * replace e with (- - e) at 2 by lia. rewrite bpow_opp. f_equal. rewrite <- IZR_Zpower by lia. reflexivity.
        + apply F2R_ge_0. cbn. lia. }
    destruct s; cbn [cond_Zopp]; [|now rewrite P].
    rewrite F2R_Zopp.
    rewrite Ztrunc_opp, P. reflexivity.
Qed.
(** lround: a nearest integer. *)
Lemma round_val : forall x, fin x -> exists z, fl_round x = Some z /\ (Rabs (IZR z - val x) <= / 2)%R.
Proof.
  intros [s|s| |s m e] [V F]; cbn [is_finite_SF] in F; try discriminate; cbn [fl_round]; (eexists; split; [reflexivity|]).
  - unfold val. cbn [SF2R]. rewrite Rminus_0_r, Rabs_R0. lra.
  - unfold val. cbn [SF2R].
    set (a := if 0 <=? e then _ else _).
    assert (P : (Rabs (IZR a - F2R (Float radix2 (Zpos m) e)) <= / 2)%R).
    { unfold a, F2R. cbn [Fnum Fexp]. destruct (0 <=? e) eqn:E.
      - apply Z.leb_le in E. rewrite mult_IZR. rewrite <- (IZR_Zpower radix2) by exact E. change (Zpower radix2 e) with (2 ^ e). rewrite Rminus_diag_eq by reflexivity. rewrite Rabs_R0. lra.
      - apply Z.leb_gt in E. replace (bpow radix2 e) with (/ IZR (2 ^ (- e)))%R
          by (replace e with (- - e) at 2 by lia; rewrite bpow_opp; f_equal; rewrite <- IZR_Zpower by lia; reflexivity).
        pose proof (Z.pow_pos_nonneg 2 (- e) ltac:(lia) ltac:(lia)) as Q. set (q := 2 ^ (- e)) in *.
        pose proof (Z.div_mod (2 * Z.pos m + q) (2 * q) ltac:(lia)) as D. pose proof (Z.mod_pos_bound (2 * Z.pos m + q) (2 * q) ltac:(lia)) as M.
        set (d := (2 * Z.pos m + q) / (2 * q)) in *. set (r := (2 * Z.pos m + q) mod (2 * q)) in *.
        assert (Qr : (0 < IZR q)%R) by now apply IZR_lt.
        apply (Rmult_le_reg_r (IZR (2 * q))); [apply IZR_lt; lia|].
        rewrite <- (Rabs_right (IZR (2 * q))) at 1 by (apply Rle_ge, IZR_le; lia). rewrite <- Rabs_mult.
        replace ((IZR d - IZR (Z.pos m) * / IZR q) * IZR (2 * q))%R with (IZR (q - r)).
        + rewrite <- abs_IZR, mult_IZR. replace (/ 2 * (2 * IZR q))%R with (IZR q) by lra. apply IZR_le. lia.
        + rewrite mult_IZR. replace (q - r) with (d * (2 * q) - 2 * Z.pos m) by lia. rewrite minus_IZR, !mult_IZR. field. lra. }
    destruct s; cbn [cond_Zopp]; [|exact P]. rewrite F2R_Zopp, opp_IZR. rewrite <- Rabs_Ropp. replace (- (- IZR a - - F2R (Float radix2 (Z.pos m) e)))%R with (IZR a - F2R (Float radix2 (Z.pos m) e))%R by lra. exact P.
Qed.
End Fmt.

(** ** The two formats *)
Global Instance prec24 : Prec_gt_0 24 := eq_refl.
Global Instance emax128 : Prec_lt_emax 24 128 := eq_refl.
Global Instance prec53 : Prec_gt_0 53 := eq_refl.
Global Instance emax1024 : Prec_lt_emax 53 1024 := eq_refl.

Lemma small_of_bound : forall emax r b, 0 <= b <= emax -> (Rabs r <= IZR (2 ^ b))%R -> (b < emax) -> small emax r.
Proof.
  intros emax r b Hb H L. unfold small. eapply Rle_lt_trans; [exact H|].
  change 2 with (radix_val radix2). rewrite IZR_Zpower by lia. now apply bpow_lt.
Qed.

Lemma bpow_m24 : bpow radix2 (-24) = (/ 16777216)%R.
Proof. reflexivity. Qed.
Lemma bpow_m53 : bpow radix2 (-53) = (/ 9007199254740992)%R.
Proof. reflexivity. Qed.
Lemma tiny32 : (0 < bpow radix2 (SpecFloat.emin 24 128) <= / 16777216)%R.
Proof. split; [apply bpow_gt_0|]. rewrite <- bpow_m24. apply bpow_le. unfold SpecFloat.emin. lia. Qed.
Lemma tiny64 : (0 < bpow radix2 (SpecFloat.emin 53 1024) <= / 9007199254740992)%R.
Proof. split; [apply bpow_gt_0|]. rewrite <- bpow_m53. apply bpow_le. unfold SpecFloat.emin. lia. Qed.

Lemma rnd32_error : forall r, (Rabs (rnd32 r - r) <= / 16777216 * Rabs r + / 2 * / 16777216)%R.
Proof.
  intro r. eapply Rle_trans; [apply rnd_error; auto with typeclass_instances|].
  change (bpow radix2 (- (24))) with (/ 16777216)%R. pose proof tiny32 as T. apply Rplus_le_compat_l. apply Rmult_le_compat_l; [lra|apply T].
Qed.
Lemma rnd64_error : forall r, (Rabs (rnd64 r - r) <= / 9007199254740992 * Rabs r + / 2 * / 9007199254740992)%R.
Proof.
  intro r. eapply Rle_trans; [apply rnd_error; auto with typeclass_instances|].
  change (bpow radix2 (- (53))) with (/ 9007199254740992)%R. pose proof tiny64 as T. apply Rplus_le_compat_l. apply Rmult_le_compat_l; [lra|apply T].
Qed.

(** Small integers are exact. *)
Lemma IZR_format : forall prec emax z, Prec_gt_0 prec -> Prec_lt_emax prec emax -> 1 <= prec -> 3 <= emax -> Z.abs z <= 2 ^ prec ->
  generic_format radix2 (SpecFloat.fexp prec emax) (IZR z).
Proof.
  intros prec emax z P L P1 E1 H. destruct (Z.eq_dec (Z.abs z) (2 ^ prec)) as [E|N].
  - assert (generic_format radix2 (SpecFloat.fexp prec emax) (IZR (2 ^ prec))) as G.
    { change (2 ^ prec) with (Z.pow (radix_val radix2) prec). rewrite IZR_Zpower by lia. apply generic_format_bpow.
      unfold SpecFloat.fexp, SpecFloat.emin. red in L. lia. }
    destruct (Z.abs_spec z) as [[_ A]|[_ A]].
    + rewrite A in E. now rewrite E.
    + replace z with (- (2 ^ prec)) by lia. rewrite opp_IZR. now apply generic_format_opp.
  - apply generic_format_FLT. exists (Float radix2 z 0).
    + unfold F2R; cbn. lra.
    + cbn. lia.
    + cbn. unfold SpecFloat.emin. red in L. lia.
Qed.

Lemma of_Z_val : forall prec emax (P : Prec_gt_0 prec) (L : Prec_lt_emax prec emax) z sz, 1 <= prec -> 3 <= emax -> Z.abs z <= 2 ^ prec ->
  fin prec emax (SpecFloat.binary_normalize prec emax z 0 sz) /\ val (SpecFloat.binary_normalize prec emax z 0 sz) = IZR z.
Proof.
  intros prec emax P L z sz P1 E1 H.
  assert (F2R (Float radix2 z 0) = IZR z) as F by (unfold F2R; cbn; lra).
  assert (rnd prec emax (IZR z) = IZR z) as R.
  { apply round_generic; [auto with typeclass_instances|]. apply IZR_format; auto. }
  rewrite <- R, <- F. apply normalize_val; auto.
  rewrite F, R. apply (small_of_bound emax (IZR z) prec); [red in L; lia| |red in L; lia].
  rewrite <- abs_IZR. now apply IZR_le.
Qed.

Lemma f32_of_Z_val : forall z, Z.abs z <= 2 ^ 24 -> fin32 (f32_of_Z z) /\ val (f32_of_Z z) = IZR z.
Proof. intros. apply of_Z_val; auto with typeclass_instances; lia. Qed.
Lemma f64_of_Z_val : forall z, Z.abs z <= 2 ^ 53 -> fin64 (f64_of_Z z) /\ val (f64_of_Z z) = IZR z.
Proof. intros. apply of_Z_val; auto with typeclass_instances; lia. Qed.

(** A float is a double. *)
Lemma f64_of_f32_val : forall x, fin32 x -> fin64 (f64_of_f32 x) /\ val (f64_of_f32 x) = val x.
Proof.
  intros x Hx. pose proof (fin_format _ _ x Hx) as G. pose proof (fin_small _ _ x Hx) as S.
  destruct x as [s|s| |s m e]; destruct Hx as [V F]; try discriminate F; cbn [f64_of_f32].
  - split; [split; reflexivity|reflexivity].
  - assert (val (S754_finite s m e) = F2R (Float radix2 (if s then Z.neg m else Z.pos m) e)) as E by (unfold val; cbn; destruct s; reflexivity).
    assert (rnd64 (val (S754_finite s m e)) = val (S754_finite s m e)) as R.
    { apply round_generic; [auto with typeclass_instances|].
      revert G. apply generic_inclusion_mag. intros _. unfold SpecFloat.fexp, SpecFloat.emin. lia. }
    rewrite <- R at 1. rewrite E. apply normalize_val; auto with typeclass_instances.
    rewrite <- E, R. unfold small in *. eapply Rlt_trans; [exact S|]. now apply bpow_lt.
Qed.

(** Narrowing rounds. *)
Lemma f32_of_f64_val : forall x, fin64 x -> small 128 (rnd32 (val x)) -> fin32 (f32_of_f64 x) /\ val (f32_of_f64 x) = rnd32 (val x).
Proof.
  intros x Hx S. destruct x as [s|s| |s m e]; destruct Hx as [V F]; try discriminate F; cbn [f32_of_f64].
  - split; [split; reflexivity|]. unfold val; cbn. now rewrite rnd_0 by auto with typeclass_instances.
  - assert (val (S754_finite s m e) = F2R (Float radix2 (if s then Z.neg m else Z.pos m) e)) as E by (unfold val; cbn; destruct s; reflexivity).
    rewrite E in *. apply normalize_val; auto with typeclass_instances.
Qed.

Lemma opp_val : forall prec emax x, fin prec emax x -> fin prec emax (SFopp x) /\ val (SFopp x) = (- val x)%R.
Proof.
  intros prec emax [s|s| |s m e] [V F]; try discriminate F.
  - split; [split; reflexivity|]. unfold val; cbn; lra.
  - split; [split; auto|]. unfold val; cbn. rewrite <- F2R_Zopp. f_equal. f_equal. now destruct s.
Qed.
