(** C74: the time of a file. *)
From Coq Require Import Reals Lra SpecFloat.
From Flocq Require Import Core IEEE754.BinarySingleNaN.
From Verif Require Import Base Model_Float Model_Axis Model_Hardware Model_Planner Model_MotorOps Spec_Real Spec_Planner Spec_Speeds Model_Times Spec_Times
  Proofs_Real Proofs_Limits Prop_Planner Prop_Speeds.
Open Scope R_scope.

Definition K : R := 1 + / 8388608.
Lemma K_ge : forall n, 1 <= K ^ n.
Proof. intros n. apply pow_R1_Rle. unfold K. lra. Qed.
Lemma near_refl : forall n x, 0 <= x -> roundings n x x.
Proof. intros n x P. unfold roundings. fold K. pose proof (K_ge n). split; nra. Qed.
Lemma near_sym : forall n x y, roundings n x y -> roundings n y x.
Proof. unfold roundings. tauto. Qed.
Lemma near_trans : forall m n x y z, roundings m x y -> roundings n y z -> roundings (m + n) x z.
Proof.
  unfold roundings. fold K. intros m n x y z [A1 A2] [B1 B2]. rewrite pow_add. pose proof (K_ge m). pose proof (K_ge n). split.
  - eapply Rle_trans; [exact A1|]. rewrite Rmult_assoc. apply Rmult_le_compat_l; lra.
  - eapply Rle_trans; [exact B2|]. rewrite (Rmult_comm (K ^ m)), Rmult_assoc. apply Rmult_le_compat_l; lra.
Qed.
Lemma near_more : forall m n x y, (m <= n)%nat -> 0 <= x -> 0 <= y -> roundings m x y -> roundings n x y.
Proof.
  unfold roundings. fold K. intros m n x y L Px Py [A1 A2]. assert (Q : K ^ m <= K ^ n) by (apply Rle_pow; [unfold K; lra|exact L]).
  split; (eapply Rle_trans; [eassumption|]); apply Rmult_le_compat_r; assumption.
Qed.
Lemma near_add : forall n a b x y, roundings n a x -> roundings n b y -> roundings n (a + b) (x + y).
Proof. unfold roundings. intros n a b x y [A1 A2] [B1 B2]. rewrite !Rmult_plus_distr_l. split; lra. Qed.
Lemma near_div : forall m n a b x y, 0 <= a -> 0 <= x -> 0 < b -> 0 < y -> roundings m a x -> roundings n b y -> roundings (m + n) (a / b) (x / y).
Proof.
  assert (G : forall m n a b x y, 0 <= a -> 0 < b -> 0 < y -> a <= K ^ m * x -> y <= K ^ n * b -> a / b <= K ^ (m + n) * (x / y)).
  { intros m n a b x y Pa Pb Py H1 H2. rewrite pow_add. apply Rmult_le_reg_r with b; [exact Pb|]. unfold Rdiv at 1. rewrite Rmult_assoc, Rinv_l, Rmult_1_r by lra.
    eapply Rle_trans; [exact H1|]. replace (K ^ m * K ^ n * (x / y) * b) with (K ^ m * x * (K ^ n * b / y)) by (field; lra).
    rewrite <- (Rmult_1_r (K ^ m * x)) at 1. apply Rmult_le_compat_l; [lra|]. apply Rmult_le_reg_r with y; [exact Py|]. unfold Rdiv. rewrite Rmult_assoc, Rinv_l by lra. lra. }
  unfold roundings. fold K. intros m n a b x y Pa Px Pb Py [A1 A2] [B1 B2]. split; apply G; assumption.
Qed.
(** One rounding. *)
Lemma near_rnd : forall r, r = 0 \/ bpow radix2 (-100) <= r -> roundings 1 (rnd32 r) r /\ 0 <= rnd32 r.
Proof.
  intros r [->|L]; [change (rnd32 0) with (rnd 24 128 0); rewrite (rnd_0 24 128); split; [apply near_refl; lra|lra]|].
  assert (P24 : Prec_gt_0 24) by reflexivity. pose proof (rnd_error 24 128 _ r) as E. change (bpow radix2 (- (24))) with (/ 16777216) in E.
  assert (B : bpow radix2 (SpecFloat.emin 24 128) <= / 16777216 * / 1048576 * bpow radix2 (-100)).
  { change (/ 16777216) with (bpow radix2 (-24)). change (/ 1048576) with (bpow radix2 (-20)). rewrite <- !bpow_plus. apply bpow_le. change (SpecFloat.emin 24 128) with (-149)%Z. lia. }
  pose proof (bpow_gt_0 radix2 (-100)) as P. rewrite (Rabs_pos_eq r) in E by lra. apply Rabs_le_inv in E. unfold roundings. cbn [pow]. split; [split; lra|lra].
Qed.

Lemma most_max : forall s, max_steps s = most s.
Proof.
  intros s. unfold max_steps, most. rewrite <- fold_left_rev_right.
  assert (G : forall l, (0 <= fold_right (fun m n => Z.max (Z.abs (s m)) n) 0 l /\ (forall m, In m l -> Z.abs (s m) <= fold_right (fun m n => Z.max (Z.abs (s m)) n) 0 l) /\
    forall b, 0 <= b -> (forall m, In m l -> Z.abs (s m) <= b) -> fold_right (fun m n => Z.max (Z.abs (s m)) n) 0 l <= b)%Z).
  { induction l as [|k l (I0 & I1 & I2)]; cbn [fold_right In]; [repeat split; try lia; intros ? []|]. split; [lia|]. split.
    - intros m [->|I]; [lia|specialize (I1 m I); lia].
    - intros b Pb H. specialize (I2 b Pb ltac:(auto)). pose proof (H k ltac:(auto)). lia. }
  destruct (G (rev all_motors)) as (A0 & A1 & A2). destruct (G all_motors) as (B0 & B1 & B2). apply Z.le_antisymm.
  - apply A2; [exact B0|]. intros m I. apply B1. now apply in_rev.
  - apply B2; [exact A0|]. intros m I. apply A1. now apply in_rev in I.
Qed.

(** ** One pause or motion *)
Lemma lasts_is : forall v0 v1 D, 0 < v0 + v1 -> (1 <= D)%Z -> lasts v0 v1 D (2 * IZR D / (v0 + v1)).
Proof.
  intros v0 v1 D P HD. apply IZR_le in HD. exists ((v1 - v0) * (v0 + v1) / (2 * IZR D)). split; field; lra.
Qed.
Lemma lasts_only : forall v0 v1 D T, 0 < v0 + v1 -> lasts v0 v1 D T -> T = 2 * IZR D / (v0 + v1).
Proof.
  intros v0 v1 D T P (a & H1 & H2). apply Rmult_eq_reg_r with (v0 + v1); [|lra]. unfold Rdiv. rewrite Rmult_assoc, Rinv_l, Rmult_1_r by lra.
  rewrite <- H2. rewrite <- H1. field.
Qed.
Definition seconds (e : timed) : R :=
  match e with Pause ms => val ms / 1000 | Run x => 2 * IZR (most (c_steps x)) / (val (c_v0 x) + val (c_v1 x)) end.
Lemma seconds_time : forall e, sane e -> time_of e (seconds e).
Proof. intros [ms|x] H; [reflexivity|]. destruct H as (HD & _ & _ & Hv). apply lasts_is; [lra|lia]. Qed.

Definition quotient (e : timed) : fl :=
  match e with Pause ms => f32_div ms (f32_of_Z 1000) | Run x => f32_div (f32_of_Z (2 * max_steps (c_steps x))) (f32_add (c_v0 x) (c_v1 x)) end.
Lemma small100 : forall r, 0 <= r <= bpow radix2 100 -> small 128 (rnd32 r).
Proof.
  intros r [P B]. assert (Q : 0 <= rnd32 r <= bpow radix2 100).
  { split; [apply (rnd_pos 24 128); [reflexivity|exact P]|]. replace (bpow radix2 100) with (rnd32 (bpow radix2 100)); [apply (rnd_le 24 128); [reflexivity|exact B]|].
    apply round_generic; [apply valid_rnd_N|]. apply generic_format_bpow. vm_compute. discriminate. }
  unfold small. rewrite Rabs_pos_eq by apply Q. eapply Rle_lt_trans; [apply Q|]. apply bpow_lt. lia.
Qed.
Lemma tiny_le : forall r, / 1152921504606846976 <= r -> bpow radix2 (-100) <= r.
Proof. intros r H. eapply Rle_trans; [|exact H]. change (/ 1152921504606846976) with (bpow radix2 (-60)). apply bpow_le. lia. Qed.
Lemma big_ge : forall r, r <= 1152921504606846976 -> r <= bpow radix2 100.
Proof. intros r H. eapply Rle_trans; [exact H|]. change 1152921504606846976 with (bpow radix2 60). apply bpow_le. lia. Qed.

Lemma quotient_near : forall e, sane e -> fin32 (quotient e) /\ 0 <= val (quotient e) /\ roundings 3 (val (quotient e)) (seconds e) /\ 0 <= seconds e /\ (val (quotient e) = 0 \/ / 1152921504606846976 <= val (quotient e)).
Proof.
  assert (P24 : Prec_gt_0 24) by reflexivity. assert (L24 : Prec_lt_emax 24 128) by reflexivity.
  intros [ms|x] H; cbn [quotient seconds].
  - destruct H as [F B]. destruct (f32_of_Z_val 1000 ltac:(lia)) as [F1 V1]. assert (Q : 0 <= val ms / 1000 <= bpow radix2 100) by (split; [lra|apply big_ge; lra]).
    assert (Qz : val ms / 1000 = 0 \/ / 1125899906842624 <= val ms / 1000) by (destruct B as [B|B]; [left; rewrite B; lra|right; lra]).
    destruct (div_val 24 128 _ _ ms _ F F1) as [Fd Vd]; [rewrite V1; lra|rewrite V1; now apply small100|]. unfold f32_div. rewrite Vd, V1 in *.
    destruct (near_rnd (val ms / 1000)) as [N P]; [destruct Qz; [left; assumption|right; apply tiny_le; lra]|].
    split; [exact Fd|]. split; [exact P|]. split; [apply (near_more 1); auto; lra|]. split; [lra|]. destruct Qz as [Qz|Qz]; [left; rewrite Qz; apply (rnd_0 24 128)|right].
    destruct N as [N1 N2]. cbn [pow] in N1, N2. lra.
  - destruct H as (HD & (F0 & B0) & (F1 & B1) & Hv). rewrite most_max. set (D := most (c_steps x)) in *.
    destruct (of_Z_rnd 24 128 _ _ (2 * D) 31 ltac:(lia) ltac:(lia) ltac:(exps)) as [Fn Vn]. fold (f32_of_Z (2 * D)) in Fn, Vn. unfold f32_of_Z in Fn.
    assert (DR : 1 <= IZR D <= 536870912) by (split; apply IZR_le; lia).
    assert (D2 : IZR (2 * D) = 2 * IZR D) by (now rewrite mult_IZR). rewrite D2 in Vn.
    destruct (near_rnd (2 * IZR D)) as [Nn Pn]; [right; apply tiny_le; lra|]. rewrite <- Vn in Nn, Pn.
    set (s := val (c_v0 x) + val (c_v1 x)) in *.
    destruct (add_val 24 128 _ _ _ _ F0 F1) as [Fs Vs]; [apply small100; fold s; split; [lra|apply big_ge; unfold s; lra]|]. fold s in Vs.
    destruct (near_rnd s) as [Ns Ps]; [right; apply tiny_le; lra|]. rewrite <- Vs in Ns, Ps. unfold f32_add. set (S := SFadd 24 128 (c_v0 x) (c_v1 x)) in *.
    set (N := f32_of_Z (2 * D)) in *.
    assert (KK : (1 + / 8388608) ^ 1 = 1 + / 8388608) by ring. unfold roundings in Nn, Ns. rewrite KK in Nn, Ns.
    assert (Bs : / 2048 <= val S <= 4294967296) by (unfold s in *; lra). assert (Bn : 1 <= val N <= 2147483648) by lra.
    assert (Q : / 4503599627370496 <= val N / val S <= 17592186044416).
    { split; apply Rmult_le_reg_r with (val S); try lra; unfold Rdiv; rewrite Rmult_assoc, Rinv_l, Rmult_1_r by lra; lra. }
    destruct (div_val 24 128 _ _ N S Fn Fs) as [Fd Vd]; [lra|apply small100; split; [lra|apply big_ge; lra]|].
    destruct (near_rnd (val N / val S)) as [Nd Pd]; [right; apply tiny_le; lra|]. unfold f32_div. rewrite Vd.
    split; [exact Fd|]. split; [exact Pd|]. split.
    + change 3%nat with (1 + (1 + 1))%nat. apply near_trans with (val N / val S); [exact Nd|]. apply near_div; try lra; unfold roundings; rewrite KK; tauto.
    + split; [apply Rmult_le_pos; [lra|left; apply Rinv_0_lt_compat; lra]|]. right. destruct Nd as [N1 N2]. cbn [pow] in N1, N2. lra.
Qed.

(** ** The sum *)
Lemma sum_nonneg : forall es, Forall sane es -> 0 <= sum (map seconds es).
Proof.
  induction es as [|e es IH]; intros H; cbn [map sum fold_right]; [lra|]. inversion H as [|? ? He Hes]; subst. specialize (IH Hes). fold (sum (map seconds es)).
  destruct (quotient_near e He) as (_ & _ & _ & Z0 & _). lra.
Qed.
Lemma time_from : forall es n t acc, Forall sane es -> fin32 t -> roundings n (val t) acc -> val t = 0 \/ / 1152921504606846976 <= val t -> 0 <= acc -> (3 <= n)%nat ->
  K ^ (n + length es) * (acc + sum (map seconds es)) <= bpow radix2 100 ->
  exists t', fold_left (fun t e => obind t (fun t => add_time t e)) es (Ok t) = Ok t' /\ fin32 t' /\ roundings (n + length es) (val t') (acc + sum (map seconds es)).
Proof.
  assert (P24 : Prec_gt_0 24) by reflexivity. assert (L24 : Prec_lt_emax 24 128) by reflexivity.
  induction es as [|e es IH]; intros n t acc H F N P Ap Hn B.
  - exists t. cbn [fold_left map sum fold_right length]. rewrite Rplus_0_r, Nat.add_0_r. auto.
  - inversion H as [|? ? He Hes]; subst. cbn [map sum fold_right length] in *. fold (sum (map seconds es)) in *. pose proof (sum_nonneg es Hes) as Ss.
    destruct (quotient_near e He) as (Fq & Pq & Nq & Sq & Zq).
    assert (E1 : add_time t e = Ok (f32_add t (quotient e))).
    { destruct e as [ms|x]; [reflexivity|]. cbn [add_time quotient]. rewrite most_max. destruct He as (HD & _). replace (INT_MAX <? 2 * most (c_steps x))%Z with false; [reflexivity|]. unfold INT_MAX. lia. }
    assert (Ns : roundings n (val t + val (quotient e)) (acc + seconds e)) by (apply near_add; [exact N|apply (near_more 3); auto]).
    assert (Top : K ^ n * (acc + seconds e) <= bpow radix2 100).
    { eapply Rle_trans; [|exact B]. apply Rmult_le_compat; [pose proof (K_ge n); lra|lra|apply Rle_pow; [unfold K; lra|lia]|lra]. }
    destruct Ns as [Na Nb]. fold K in Na, Nb.
    destruct (add_val 24 128 _ _ t (quotient e) F Fq) as [Fs Vs]; [apply small100; split; [lra|lra]|].
    destruct (near_rnd (val t + val (quotient e))) as [Nr Pr].
    { destruct P as [P|P], Zq as [Zq|Zq]; [left; lra|right; apply tiny_le; lra..]. }
    cbn [fold_left obind]. rewrite E1.
    destruct (IH (n + 1)%nat (f32_add t (quotient e)) (acc + seconds e) Hes Fs) as (t' & Et & Ft & Nt); auto; try lia.
    + unfold f32_add. rewrite Vs. rewrite Nat.add_comm. eapply near_trans; [exact Nr|]. unfold roundings. fold K. tauto.
    + unfold f32_add. rewrite Vs. destruct P as [P|P], Zq as [Zq|Zq]; [left; rewrite P, Zq, Rplus_0_r; apply (rnd_0 24 128)|right; destruct Nr as [N1 N2]; cbn [pow] in N1, N2..].
      * rewrite P, Rplus_0_l in *. rewrite (rnd_fin 24 128) by exact Fq. exact Zq.
      * rewrite Zq, Rplus_0_r in *. rewrite (rnd_fin 24 128) by exact F. exact P.
      * rewrite <- (rnd_fin 24 128 t F) in P. eapply Rle_trans; [exact P|]. apply (rnd_le 24 128); [exact P24|lra].
    + lra.
    + replace (n + 1 + length es)%nat with (n + S (length es))%nat by lia. rewrite Rplus_assoc. exact B.
    + exists t'. split; [exact Et|]. split; [exact Ft|]. replace (n + S (length es))%nat with (n + 1 + length es)%nat by lia. rewrite <- Rplus_assoc. exact Nt.
Qed.

(** The time of a file is the sum of the times of its pauses and motions, up to a rounding
    for each of them and three more. (The condition keeps it in the range of a float.) *)
Theorem C74_time : forall es ts, Forall sane es -> Forall2 time_of es ts ->
  (1 + / 8388608) ^ (3 + length es) * sum ts <= bpow radix2 100 ->
  exists t, total_time es = Ok t /\ fin32 t /\ roundings (3 + length es) (val t) (sum ts).
Proof.
  intros es ts H HT B. assert (E : ts = map seconds es).
  { clear B. induction HT as [|e T es ts He _ IH]; [reflexivity|]. inversion H as [|? ? Hs Hss]; subst. cbn [map]. rewrite IH by exact Hss. f_equal.
    destruct e as [ms|x]; [exact He|]. destruct Hs as (_ & _ & _ & Hv). apply lasts_only; [lra|exact He]. }
  subst ts. destruct (f32_of_Z_val 0 ltac:(lia)) as [F0 V0].
  destruct (time_from es 3 (f32_of_Z 0) 0 H F0) as (t & Et & Ft & Nt); try lra; [rewrite V0; apply near_refl; lra|lia|rewrite Rplus_0_l; exact B|].
  rewrite Rplus_0_l in Nt. exists t. auto.
Qed.
Print Assumptions C74_time.

(** Every such file has such times. *)
Lemma times_exist : forall es, Forall sane es -> exists ts, Forall2 time_of es ts.
Proof. intros es H. exists (map seconds es). induction H as [|e es He _ IH]; constructor; auto using seconds_time. Qed.

(** A way of 10 mm at 50 mm/s on the machine of C29: a quarter of a second. *)
Definition there : list call := [Move (fun a => match a with AX => f32_of_Z 10 | _ => f32_of_Z 0 end)%Z (f32_of_Z 50) 0%Z; Halt].
Example C74_example : match Model_Planner.history mill there with
  | Ok st => match total_time (map Run (rev (sent (p_log st)))) with Ok t => SFeqb t (f32_div (f32_of_Z 1) (f32_of_Z 4)) | Undefined => false end
  | Undefined => false end = true.
Proof. vm_compute. reflexivity. Qed.

(** ** A single step takes forever *)

(** The command of C29_single_step_refuted, one step with the speed 0 at both ends, counts
    as 2 / 0 seconds: the time of the whole file is infinite. *)
Theorem C74_single_step_refuted : exists st x, Model_Planner.history mill [Move to_step (f32_of_Z 50) 0%Z; Halt] = Ok st /\
  rev (sent (p_log st)) = [x] /\ c_steps x M1 = 1%Z /\ total_time [Run x] = Ok (S754_infinity false).
Proof.
  set (st := outcome_get (Model_Planner.history mill [Move to_step (f32_of_Z 50) 0%Z; Halt])). exists st, (nth 0 (rev (sent (p_log st))) no_command).
  assert (L : forall l : list command, (Z.of_nat (length l) =? 1)%Z = true -> l = [nth 0 l no_command]) by (intros [|x [|y l]] H; [discriminate H|reflexivity|apply Z.eqb_eq in H; cbn [length] in H; lia]).
  split; [apply outcome_got; vm_compute; reflexivity|]. split; [apply L; vm_compute; reflexivity|]. split; vm_compute; reflexivity.
Qed.
Print Assumptions C74_single_step_refuted.

(** ** Long files lose time *)

(** After four and a half hours a float cannot count half a millisecond any more: motions
    that are shorter add nothing, however many. *)
Definition step_2000 : timed := Run (mk_command (f32_of_Z 2000) (f32_of_Z 2000) 0 (fun m => match m with M1 => 1 | _ => 0 end)%Z).
Definition long_pause : timed := Pause (f32_of_Z 16384000).
Lemma steps_lost : forall n, fold_left (fun t e => obind t (fun t => add_time t e)) (repeat step_2000 n) (Ok (f32_of_Z 16384)) = Ok (f32_of_Z 16384).
Proof.
  assert (E : add_time (f32_of_Z 16384) step_2000 = Ok (f32_of_Z 16384)) by (vm_compute; reflexivity).
  induction n as [|n IH]; [reflexivity|]. cbn [repeat fold_left obind]. rewrite E. exact IH.
Qed.
Theorem C74_long_refuted : forall T, exists es ts t, Forall sane es /\ Forall2 time_of es ts /\ total_time es = Ok t /\ fin32 t /\ val t + T < sum ts.
Proof.
  intros T. destruct (f32_of_Z_val 2000 ltac:(lia)) as [F V]. destruct (f32_of_Z_val 16384000 ltac:(lia)) as [F1 V1]. destruct (f32_of_Z_val 16384 ltac:(lia)) as [F2 V2].
  set (n := Z.to_nat (up (2000 * Rabs T))).
  assert (Hn : 2000 * T < INR n).
  { unfold n. destruct (archimed (2000 * Rabs T)) as [U _]. pose proof (Rabs_pos T) as P. pose proof (Rle_abs T) as Q. rewrite INR_IZR_INZ, Z2Nat.id; [lra|]. apply le_IZR. lra. }
  assert (S1 : sane step_2000).
  { unfold sane, step_2000, sane_speed. cbn [c_v0 c_v1 c_steps]. rewrite V. split; [vm_compute; split; discriminate|]. repeat split; try apply F; lra. }
  assert (S0 : sane long_pause) by (split; [exact F1|right; rewrite V1; lra]).
  assert (Es : seconds step_2000 = / 2000) by (unfold seconds, step_2000; cbn [c_v0 c_v1 c_steps]; rewrite V; change (most _) with 1%Z; lra).
  exists (long_pause :: repeat step_2000 n), (map seconds (long_pause :: repeat step_2000 n)), (f32_of_Z 16384).
  assert (HS : Forall sane (long_pause :: repeat step_2000 n)) by (constructor; [exact S0|apply Forall_forall; intros e I; apply repeat_spec in I; now subst e]).
  split; [exact HS|]. split.
  { clear - HS. induction HS as [|e es He _ IH]; constructor; auto using seconds_time. }
  split.
  { unfold total_time. cbn [fold_left obind]. assert (E : add_time (f32_of_Z 0) long_pause = Ok (f32_of_Z 16384)) by (vm_compute; reflexivity). rewrite E. apply steps_lost. }
  split; [exact F2|]. rewrite V2. cbn [map sum fold_right seconds long_pause]. rewrite V1.
  assert (E : fold_right Rplus 0 (map seconds (repeat step_2000 n)) = INR n / 2000).
  { clear - Es. induction n as [|k IH]; [cbn; lra|]. cbn [repeat map fold_right]. rewrite IH, Es, S_INR. lra. }
  rewrite E. lra.
Qed.
Print Assumptions C74_long_refuted.
