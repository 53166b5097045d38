From Coq Require Import Reals Lra SpecFloat.
From Flocq Require Import Core IEEE754.BinarySingleNaN.
From Verif Require Import Base Model_Float Spec_Real Proofs_Real Model_Spindle Proofs_Spindle.

(** The product in pwm_timer_set_duty is within 0..resolution. *)
Lemma duty_product : forall res d, 0 <= res < 2 ^ 32 -> fin32 d -> (0 <= val d <= 1)%R ->
  exists off, fl_trunc (f64_mul (f64_of_Z res) (f64_sub (f64_of_Z 1) (f64_of_f32 d))) = Some off /\
  0 <= off <= res /\ (Rabs (IZR off - IZR res * (1 - val d)) <= 1 + 1 / 1000)%R.
Proof.
  intros res d Hr Fd Bd.
  destruct (f64_of_Z_val res) as [Fr Vr]; [lia|]. destruct (f64_of_Z_val 1) as [F1 V1]; [lia|].
  destruct (f64_of_Z_val 0) as [F0 V0]; [lia|]. destruct (f64_of_f32_val d Fd) as [Fd' Vd'].
  destruct (rnd_between 53 1024 _ (f64_of_Z 0) (f64_of_Z 1) (1 - val d) F0 F1) as [B S]; [rewrite V0, V1; lra|].
  destruct (sub_val 53 1024 _ _ (f64_of_Z 1) (f64_of_f32 d) F1 Fd') as [Fs Vs]; [rewrite V1, Vd'; exact S|].
  rewrite V1, Vd' in Vs. fold f64_sub in *. rewrite V0, V1 in B.
  set (x := f64_sub (f64_of_Z 1) (f64_of_f32 d)) in *.
  assert (val x = rnd64 (1 - val d)) as Vx by exact Vs. rewrite <- Vx in B.
  assert (0 <= IZR res)%R as R0 by (apply IZR_le; lia).
  destruct (rnd_between 53 1024 _ (f64_of_Z 0) (f64_of_Z res) (IZR res * val x) F0 Fr) as [B2 S2]; [rewrite V0, Vr; nra|].
  destruct (mul_val 53 1024 _ _ (f64_of_Z res) x Fr Fs) as [Fm Vm]; [rewrite Vr; exact S2|].
  rewrite Vr in Vm. fold f64_mul in *. rewrite V0, Vr in B2.
  assert (val (f64_mul (f64_of_Z res) x) = rnd64 (IZR res * val x)) as Vm' by exact Vm. rewrite <- Vm' in B2.
  rewrite (trunc_val 53 1024 _ Fm). exists (Ztrunc (val (f64_mul (f64_of_Z res) x))). split; [reflexivity|].
  rewrite Ztrunc_floor by lra.
  assert (0 <= Zfloor (val (f64_mul (f64_of_Z res) x)) <= res) as Bo.
  { split.
    - replace 0 with (Zfloor (IZR 0)) by apply Zfloor_IZR. apply Zfloor_le. lra.
    - replace res with (Zfloor (IZR res)) at 2 by apply Zfloor_IZR. apply Zfloor_le. lra. }
  split; auto.
  pose proof (Zfloor_lb (val (f64_mul (f64_of_Z res) x))) as L1.
  pose proof (Zfloor_ub (val (f64_mul (f64_of_Z res) x))) as L2.
  pose proof (rnd64_error (1 - val d)) as E1. rewrite <- Vx in E1.
  pose proof (rnd64_error (IZR res * val x)) as E2. rewrite <- Vm' in E2.
  assert (IZR res <= 4294967296)%R as RU by (change 4294967296%R with (IZR (2 ^ 32)); apply IZR_le; lia).
  rewrite (Rabs_pos_eq (1 - val d)) in E1 by lra. rewrite (Rabs_pos_eq (IZR res * val x)) in E2 by nra.
  assert (Rabs (val x - (1 - val d)) <= 2 * / 9007199254740992)%R as E1' by (eapply Rle_trans; [exact E1|]; lra).
  assert (IZR res * val x <= 4294967296)%R as PU by nra.
  assert (Rabs (IZR res * val x - IZR res * (1 - val d)) <= 4294967296 * (2 * / 9007199254740992))%R as E3.
  { replace (IZR res * val x - IZR res * (1 - val d))%R with (IZR res * (val x - (1 - val d)))%R by ring.
    rewrite Rabs_mult, (Rabs_pos_eq (IZR res)) by lra. apply Rmult_le_compat; auto using Rabs_pos. }
  split_abs; lra.
Qed.

(** The registers. *)
Lemma pwm_values_ok : forall res d, 0 <= res <= 2 ^ 31 -> fin32 d -> (0 < val d <= 1)%R ->
  exists start dc, pwm_values res d = Ok (start, dc) /\ 0 <= start /\ start + 2 <= dc /\ dc <= TIMER_OVERFLOW - 2 /\
  Z.abs ((TIMER_OVERFLOW - start) - res) <= 4 /\
  (Rabs (IZR (TIMER_OVERFLOW - dc) - IZR res * (1 - val d)) <= 4)%R.
Proof.
  intros res d Hr Fd Bd. destruct (duty_product res d) as (off & E & Bo & Er); [lia|auto|lra|].
  unfold pwm_values. rewrite E. replace ((off <? 0) || (2 ^ 32 <=? off)) with false by lia.
  set (start0 := u32 (TIMER_OVERFLOW - res)). set (dc0 := u32 (TIMER_OVERFLOW - off)).
  assert (start0 = TIMER_OVERFLOW - res) as Es. { unfold start0, u32, TIMER_OVERFLOW. apply Z.mod_small. lia. }
  assert (dc0 = TIMER_OVERFLOW - off) as Ed. { unfold dc0, u32, TIMER_OVERFLOW. apply Z.mod_small. lia. }
  clearbody start0 dc0. cbn zeta.
  assert (forall z, 0 <= z < 2 ^ 32 -> u32 z = z) as U by (intros; unfold u32; apply Z.mod_small; lia).
  rewrite (U (TIMER_OVERFLOW - start0)), (U (TIMER_OVERFLOW - dc0)) by (subst; unfold TIMER_OVERFLOW in *; lia).
  set (start1 := if TIMER_OVERFLOW - start0 <=? 2 then TIMER_OVERFLOW - 2 else start0).
  set (dc1 := if TIMER_OVERFLOW - dc0 <=? 2 then TIMER_OVERFLOW - 2 else dc0).
  assert (0 <= start1 <= dc1 /\ dc1 <= TIMER_OVERFLOW - 2 /\ Z.abs (start1 - start0) <= 2 /\ Z.abs (dc1 - dc0) <= 2) as (B1 & B2 & B3 & B4).
  { unfold start1, dc1.
    destruct (TIMER_OVERFLOW - start0 <=? 2) eqn:Q1; destruct (TIMER_OVERFLOW - dc0 <=? 2) eqn:Q2; unfold TIMER_OVERFLOW in *; lia. }
  assert (start1 <= TIMER_OVERFLOW - 2) as B5 by lia.
  clearbody start1 dc1. rewrite (U (dc1 - start1)) by (unfold TIMER_OVERFLOW in *; lia).
  assert ((Rabs (IZR (TIMER_OVERFLOW - dc1) - IZR res * (1 - val d)) <= 4)%R) as Er'.
  { assert (Rabs (IZR (TIMER_OVERFLOW - dc1) - IZR off) <= 2)%R as X.
    { rewrite <- minus_IZR, <- abs_IZR. apply (IZR_le _ 2). lia. }
    split_abs; lra. }
  destruct (dc1 - start1 <=? 2) eqn:Q.
  - exists (u32 (dc1 - 2)), dc1. rewrite U by (unfold TIMER_OVERFLOW in *; lia). split; [reflexivity|].
    unfold TIMER_OVERFLOW in *. split; [lia|]. split; [lia|]. split; [lia|]. split; [lia|exact Er'].
  - exists start1, dc1. split; [reflexivity|]. unfold TIMER_OVERFLOW in *. split; [lia|]. split; [lia|]. split; [lia|]. split; [lia|exact Er'].
Qed.

(** ** The frequency *)
Definition near (k a' a : R) : Prop := (a * (1 - k) <= a' <= a * (1 + k))%R.

Lemma rnd32_near : forall x, (/ 1000000000000 <= x)%R -> near (/ 16000000) (rnd32 x) x.
Proof.
  intros x H. pose proof (rnd_error 24 128 _ x) as E. change (bpow radix2 (- (24))) with (/ 16777216)%R in E.
  assert (bpow radix2 (SpecFloat.emin 24 128) <= / 1267650600228229401496703205376)%R as T.
  { change (/ 1267650600228229401496703205376)%R with (bpow radix2 (-100)). apply bpow_le. unfold SpecFloat.emin. lia. }
  rewrite (Rabs_pos_eq x) in E by lra. unfold near. split_abs; lra.
Qed.

Lemma rnd64_near : forall x, (/ 1000000000 <= x)%R -> near (/ 1000000000) (rnd64 x) x.
Proof.
  intros x H. pose proof (rnd_error 53 1024 _ x) as E. change (bpow radix2 (- (53))) with (/ 9007199254740992)%R in E.
  assert (bpow radix2 (SpecFloat.emin 53 1024) <= / 1267650600228229401496703205376)%R as T.
  { change (/ 1267650600228229401496703205376)%R with (bpow radix2 (-100)). apply bpow_le. unfold SpecFloat.emin. lia. }
  rewrite (Rabs_pos_eq x) in E by lra. unfold near. split_abs; lra.
Qed.

Definition clk : fl := f32_of_f64 (f64_mul (f64_div (f64_of_Z 1) (f64_of_Z TIMER_BASE_CLOCK)) (f64_of_Z (2 ^ 0))).

Lemma clk_val : fin32 clk /\ near (/ 16000000) (val clk) (/ 24000000).
Proof.
  assert (clk = S754_finite false 11728124 (-48)) as E by (vm_compute; reflexivity).
  rewrite E. split; [split; reflexivity|]. unfold near, val, SF2R, F2R. cbn [Fnum Fexp cond_Zopp].
  change (bpow radix2 (-48)) with (/ 281474976710656)%R. lra.
Qed.

Lemma near_trans : forall k j a b c, (0 <= k)%R -> (0 <= j)%R -> (0 <= c)%R -> near k a b -> near j b c -> (k < 1)%R -> (j < 1)%R ->
  (c * (1 - k - j) <= a <= c * (1 + k + j + k * j))%R.
Proof.
  intros k j a b c Hk Hj Hc [A1 A2] [B1 B2] K J. split.
  - eapply Rle_trans; [|exact A1]. eapply Rle_trans; [|apply Rmult_le_compat_r; [lra|exact B1]].
    rewrite Rmult_assoc. apply Rmult_le_compat_l; auto. nra.
  - eapply Rle_trans; [exact A2|]. eapply Rle_trans; [apply Rmult_le_compat_r; [lra|exact B2]|].
    rewrite Rmult_assoc. apply Rmult_le_compat_l; auto. nra.
Qed.

Lemma pwm_ratio_ok : forall f, 1 <= f <= 12000000 ->
  exists z, pwm_ratio 9 (f32_of_f64 (f64_div (f64_of_Z 1) (f64_of_Z f))) 0 0 = Ok (0, z) /\ 1 <= z < 2 ^ 25 /\ (Rabs (IZR z - 24000000 / IZR f) <= 1 + 24000000 / IZR f * (1 / 4000000))%R.
Proof.
  intros f Hf.
  destruct (f64_of_Z_val f) as [Ff Vf]; [lia|]. destruct (f64_of_Z_val 1) as [F1 V1]; [lia|].
  assert (1 <= IZR f <= 12000000)%R as Bf by (split; [apply (IZR_le 1)|apply (IZR_le _ 12000000)]; lia).
  set (x := (1 / IZR f)%R).
  assert (/ 12000000 <= x <= 1)%R as Bx.
  { unfold x, Rdiv. rewrite Rmult_1_l. split; [apply Rinv_le; lra|].
    rewrite <- Rinv_1. apply Rinv_le; lra. }
  pose proof (rnd64_near x) as N1. assert (/ 1000000000 <= x)%R as Hx by lra. specialize (N1 Hx).
  destruct (div_val 53 1024 _ _ (f64_of_Z 1) (f64_of_Z f) F1 Ff) as [Fd Vd].
  { rewrite Vf. lra. }
  { rewrite V1, Vf. fold x. apply (small_of_bound 1024 _ 1); try lia. change (IZR (2 ^ 1)) with 2%R.
    unfold near in N1. split_abs; lra. }
  rewrite V1, Vf in Vd. fold x in Vd. fold f64_div in *.
  assert (val (f64_div (f64_of_Z 1) (f64_of_Z f)) = rnd64 x) as Vd' by exact Vd. clear Vd.
  assert (fin64 (f64_div (f64_of_Z 1) (f64_of_Z f))) as Fd' by exact Fd.
  set (p1 := f64_div (f64_of_Z 1) (f64_of_Z f)) in *.
  assert (/ 1000000000000 <= val p1)%R as H1 by (rewrite Vd'; unfold near in N1; lra).
  pose proof (rnd32_near _ H1) as N2.
  destruct (f32_of_f64_val p1 Fd') as [Fp Vp].
  { apply (small_of_bound 128 _ 1); try lia. change (IZR (2 ^ 1)) with 2%R. unfold near in *. rewrite Vd' in *. split_abs; lra. }
  set (p := f32_of_f64 p1) in *. rewrite <- Vp in N2. rewrite <- Vd' in N1.
  destruct (near_trans (/ 16000000) (/ 1000000000) (val p) (val p1) x) as [P1 P2]; try assumption; try lra.
  destruct clk_val as [Fc Nc].
  assert (near (/ 7900000) (val p / val clk) (24000000 * x)) as N3.
  { unfold near in Nc |- *. assert (0 < val clk)%R by lra. split.
    - apply (Rmult_le_reg_r (val clk)); [lra|]. replace (val p / val clk * val clk)%R with (val p) by (field; lra). nra.
    - apply (Rmult_le_reg_r (val clk)); [lra|]. replace (val p / val clk * val clk)%R with (val p) by (field; lra). nra. }
  assert (/ 1000000000000 <= val p / val clk)%R as H3 by (unfold near in N3; lra).
  pose proof (rnd32_near _ H3) as N4.
  destruct (near_trans (/ 16000000) (/ 7900000) (rnd32 (val p / val clk)) (val p / val clk) (24000000 * x)) as [Q1 Q2]; try assumption; try lra.
  destruct (div_val 24 128 _ _ p clk Fp Fc) as [Fq Vq].
  { unfold near in Nc. lra. }
  { apply (small_of_bound 128 _ 25); try lia. change (IZR (2 ^ 25)) with 33554432%R. split_abs; lra. }
  fold f32_div in *.
  assert (val (f32_div p clk) = rnd32 (val p / val clk)) as Vq' by exact Vq.
  assert (fin32 (f32_div p clk)) as Fq' by exact Fq.
  set (q := f32_div p clk) in *. rewrite <- Vq' in Q1, Q2.
  assert (fl_trunc q = Some (Zfloor (val q))) as T.
  { rewrite (trunc_val 24 128 q Fq'). f_equal. apply Ztrunc_floor. lra. }
  pose proof (Zfloor_lb (val q)) as L1. pose proof (Zfloor_ub (val q)) as L2.
  assert (1 <= Zfloor (val q) < 2 ^ 25) as Bz.
  { split.
    - replace 1 with (Zfloor (IZR 1)) by apply Zfloor_IZR. apply Zfloor_le. lra.
    - apply lt_IZR. change (IZR (2 ^ 25)) with 33554432%R. lra. }
  exists (Zfloor (val q)). split; [|split; auto].
  - cbn [pwm_ratio]. fold clk. fold q. rewrite T.
    replace ((Zfloor (val q) <? 0) || (2 ^ 64 <=? Zfloor (val q))) with false by lia.
    replace (Zfloor (val q) <? TIMER_OVERFLOW) with true by (unfold TIMER_OVERFLOW; lia). reflexivity.
  - replace (24000000 / IZR f)%R with (24000000 * x)%R by (unfold x; field; lra). split_abs; lra.
Qed.

(** ** Histories *)
Definition regs_legal (t : pwm) : Prop :=
  match p_tldr t, p_tmar t with
  | Some start, Some dc => 0 <= start /\ start + 2 <= dc /\ dc <= TIMER_OVERFLOW - 2
  | None, None => True
  | _, _ => False
  end.

Definition pwm_inv (t : pwm) : Prop :=
  0 <= p_resolution t <= 2 ^ 31 /\ regs_legal t /\
  fin32 (p_duty t) /\ (0 <= val (p_duty t) <= 1)%R /\
  (p_tldr t = None -> val (p_duty t) = 0%R) /\
  (p_running t = true -> p_tldr t <> None) /\ (p_running t = false -> p_tclr t = 0).

Lemma pwm_start_inv : forall t b, pwm_inv t -> pwm_inv (pwm_start t b).
Proof.
  intros t b (I1 & I2 & I3 & I4 & I5 & I6 & I7). unfold pwm_start.
  destruct zero_val as [F0 V0].
  destruct (negb b || (p_freq t =? 0) || SFeqb (p_duty t) (f32_of_Z 0)) eqn:E.
  - unfold pwm_inv, regs_legal in *; cbn. repeat split; auto; try apply I3; try tauto; discriminate.
  - unfold pwm_inv, regs_legal in *; cbn. apply orb_false_iff in E. destruct E as [_ E].
    apply not_true_iff_false in E. rewrite (eqb_eq_val 24 128) in E by assumption. rewrite V0 in E.
    repeat split; auto; try apply I3; try tauto; try discriminate. 
Qed.

Lemma pwm_duty_inv : forall t d, pwm_inv t -> fin32 d -> exists t', pwm_set_duty t d = Ok t' /\ pwm_inv t'.
Proof.
  intros t d I Fd. destruct zero_val as [F0 V0]. destruct one_val as [F1 V1]. unfold pwm_set_duty.
  destruct ((p_freq t =? 0) || SFltb d (f32_of_Z 0) || SFltb (f32_of_Z 1) d) eqn:G; [eauto|].
  apply orb_false_iff in G. destruct G as [G G1]. apply orb_false_iff in G. destruct G as [_ G0].
  apply not_true_iff_false in G0. apply not_true_iff_false in G1. rewrite (ltb_lt 24 128) in G0, G1 by assumption.
  destruct (SFeqb d (f32_of_Z 0)) eqn:Z.
  - apply (eqb_eq_val 24 128) in Z; auto. eexists. split; [reflexivity|].
    destruct (pwm_start_inv t false I) as (I1 & I2 & I3 & I4 & I5 & I6 & I7).
    unfold pwm_inv, regs_legal in *; cbn in *. repeat split; auto; try apply Fd; try tauto; try lra; try discriminate.
  - apply not_true_iff_false in Z. rewrite (eqb_eq_val 24 128) in Z by assumption.
    destruct I as (I1 & I2 & I3 & I4 & I5 & I6 & I7).
    destruct (pwm_values_ok (p_resolution t) d I1 Fd) as (start & dc & E & B1 & B2 & B3 & _); [lra|].
    rewrite E. cbn [obind]. eexists. split; [reflexivity|].
    unfold pwm_inv, regs_legal; cbn. repeat split; auto; try apply Fd; try lia; try lra; try discriminate.
Qed.

Lemma set_pwm_output_inv : forall t v, pwm_inv t -> fin32 v -> exists t', set_pwm_output t v = Ok t' /\ pwm_inv t'.
Proof.
  intros t v I F. unfold set_pwm_output. destruct (SFleb v (f32_of_Z 0)).
  - eexists. split; [reflexivity|]. now apply pwm_start_inv.
  - destruct (pwm_duty_inv t v I F) as (t' & E & I'). rewrite E. cbn [obind]. eexists. split; [reflexivity|]. now apply pwm_start_inv.
Qed.

Lemma pwm_outputs_inv : forall vs t, pwm_inv t -> Forall fin32 vs -> exists t', pwm_outputs t vs = Ok t' /\ pwm_inv t'.
Proof.
  induction vs as [|v vs IH]; intros t I F; cbn [pwm_outputs]; [eauto|].
  inversion F; subst. destruct (set_pwm_output_inv t v I) as (t1 & E & I1); auto. rewrite E. cbn [obind]. auto.
Qed.

Lemma pwm_setup_inv : forall f, 0 <= f <= 12000000 -> exists t, pwm_setup f = Ok t /\ pwm_inv t /\
  (p_freq t = if f =? 0 then TIMER_DEFAULT_FREQ else f) /\ p_pre t = false /\ p_ptv t = 0 /\ p_tclr t = 0 /\
  (Rabs (IZR (p_resolution t) - 24000000 / IZR (p_freq t)) <= 1 + 24000000 / IZR (p_freq t) * (1 / 4000000))%R.
Proof.
  intros f Hf. unfold pwm_setup, pwm_set_freq. set (g := if f =? 0 then TIMER_DEFAULT_FREQ else f).
  assert (1 <= g <= 12000000) as Hg. { unfold g, TIMER_DEFAULT_FREQ. destruct (f =? 0) eqn:E; lia. }
  replace (TIMER_BASE_CLOCK / 2 <? g) with false by (change (TIMER_BASE_CLOCK / 2) with 12000000; lia).
  unfold pwm_calc_resolution. destruct (pwm_ratio_ok g Hg) as (z & E & B & A). rewrite E. cbn [obind].
  replace ((1 <=? 0) && (0 <=? 8)) with false by reflexivity.
  assert (u32 z = z) as U by (unfold u32; apply Z.mod_small; lia).
  eexists. split; [reflexivity|]. cbn. rewrite U. repeat split; cbn; auto; try lia; try (unfold val; cbn; lra); try discriminate.
Qed.
