From Coq Require Import Reals Lra SpecFloat.
From Flocq Require Import Core IEEE754.BinarySingleNaN.
From Verif Require Import Base Model_Float Spec_Real Proofs_Real Model_Spindle Spec_Spindle.

Lemma so_safe_app : forall al l1 l2 o, so_safe_all al o (l1 ++ l2) <-> so_safe_all al o l1 /\ so_safe_all al (so_after o l1) l2.
Proof. induction l1 as [|e l1 IH]; intros l2 o; cbn [app so_safe_all so_after fold_left]; [tauto|]. rewrite IH. unfold so_after. tauto. Qed.

Lemma so_after_app : forall l1 l2 o, so_after o (l1 ++ l2) = so_after (so_after o l1) l2.
Proof. intros. unfold so_after. apply fold_left_app. Qed.

Lemma zero_val : fin32 (f32_of_Z 0) /\ val (f32_of_Z 0) = 0%R.
Proof. apply (f32_of_Z_val 0). lia. Qed.
Lemma one_val : fin32 (f32_of_Z 1) /\ val (f32_of_Z 1) = 1%R.
Proof. apply (f32_of_Z_val 1). lia. Qed.

Lemma epsilon_val : fin32 ramp_epsilon /\ val ramp_epsilon = (13421773 / 134217728)%R.
Proof.
  assert (ramp_epsilon = S754_finite false 13421773 (-27)) as E by (vm_compute; reflexivity).
  rewrite E. split; [split; reflexivity|]. unfold val, SF2R, F2R. cbn [Fnum Fexp cond_Zopp].
  change (bpow radix2 (-27)) with (/ 134217728)%R. lra.
Qed.

Ltac split_abs := unfold Rabs in *; repeat match goal with H : context[Rcase_abs ?x] |- _ => destruct (Rcase_abs x) | |- context[Rcase_abs ?x] => destruct (Rcase_abs x) end.

Lemma rnd32_close : forall r, (Rabs r <= 2)%R -> (Rabs (rnd32 r - r) <= / 5000000)%R.
Proof. intros r H. pose proof (rnd32_error r) as E. eapply Rle_trans; [exact E|]. lra. Qed.

Lemma small_near : forall r, (Rabs r <= 4)%R -> small 128 r.
Proof. intros r H. apply (small_of_bound 128 r 2); lia || auto. Qed.

Lemma add_near : forall x y, fin32 x -> fin32 y -> (Rabs (val x + val y) <= 2)%R ->
  fin32 (f32_add x y) /\ (Rabs (val (f32_add x y) - (val x + val y)) <= / 5000000)%R.
Proof.
  intros x y Hx Hy H. pose proof (rnd32_close _ H) as C.
  destruct (add_val 24 128 _ _ x y Hx Hy) as [F V].
  - apply small_near. split_abs; lra.
  - split; auto. unfold f32_add. now rewrite V.
Qed.

Lemma sub_near : forall x y, fin32 x -> fin32 y -> (Rabs (val x - val y) <= 2)%R ->
  fin32 (f32_sub x y) /\ (Rabs (val (f32_sub x y) - (val x - val y)) <= / 5000000)%R.
Proof.
  intros x y Hx Hy H. pose proof (rnd32_close _ H) as C.
  destruct (sub_val 24 128 _ _ x y Hx Hy) as [F V].
  - apply small_near. split_abs; lra.
  - split; auto. unfold f32_sub. now rewrite V.
Qed.

(** ** Ramping down *)
Lemma ramp_down_ok : forall n duty o al, fin32 duty -> (0 <= val duty <= 1)%R -> (val duty <= INR n * (99 / 1000))%R ->
  so_pwm o = val duty -> so_power o = true ->
  exists d ev, ramp_down (S (S n)) duty = Ok (d, ev) /\ fin32 d /\ val d = 0%R /\
    so_safe_all al o ev /\ so_after o ev = mk_so true (so_ccw o) 0.
Proof.
  destruct zero_val as [F0 V0]. destruct epsilon_val as [Fe Ve].
  induction n as [|n IH]; intros duty o al Fd Hd Hn Ho Hp.
  - cbn in Hn. assert (val duty = 0%R) as Z by lra.
    exists duty, []. cbn [ramp_down].
    replace (SFltb (f32_of_Z 0) duty) with false.
    + repeat split; auto; try apply Fd. cbn. destruct o; cbn in *. congruence.
    + symmetry. apply not_true_iff_false. rewrite (ltb_lt 24 128) by assumption. rewrite V0. lra.
  - cbn [ramp_down]. destruct (SFltb (f32_of_Z 0) duty) eqn:L.
    + set (d' := if SFleb ramp_epsilon duty then f32_sub duty ramp_epsilon else f32_of_Z 0).
      assert (fin32 d' /\ (0 <= val d' <= 1)%R /\ (val d' <= INR n * (99 / 1000))%R /\
              (Rabs (val d' - val duty) <= 1 / 10 + 1 / 1000000)%R) as (F' & B' & N' & C').
      { unfold d'. destruct (SFleb ramp_epsilon duty) eqn:Le.
        - apply (leb_le 24 128) in Le; auto.
          assert (Rabs (val duty - val ramp_epsilon) <= 2)%R as A by (split_abs; lra).
          destruct (sub_near duty ramp_epsilon Fd Fe A) as [F C].
          destruct (sub_val 24 128 _ _ duty ramp_epsilon Fd Fe) as [_ V].
          { pose proof (rnd32_close _ A). apply small_near. split_abs; lra. }
          fold f32_sub in V. split; auto.
          assert (0 <= val (f32_sub duty ramp_epsilon))%R.
          { rewrite V. rewrite <- (rnd_0 24 128). apply rnd_le; auto with typeclass_instances. lra. }
          rewrite S_INR in Hn. repeat split; auto; split_abs; lra.
        - apply not_true_iff_false in Le. rewrite (leb_le 24 128) in Le by assumption.
          rewrite V0. repeat split; auto; try apply F0; try (pose proof (pos_INR n)); try lra.
          split_abs; lra. }
      destruct (IH d' (mk_so true (so_ccw o) (val d')) al F' B' N' eq_refl eq_refl) as (d & ev & E & Fd2 & Vd2 & Sa & Af).
      cbn [ramp_down] in E. rewrite E. cbn [obind].
      exists d, (SpPwm d' :: ev). split; [reflexivity|]. split; auto. split; auto.
      cbn [so_safe_all so_safe so_after fold_left so_apply]. rewrite Hp, Ho. split; auto.
    + exists duty, []. split; [reflexivity|].
      apply not_true_iff_false in L. rewrite (ltb_lt 24 128) in L by assumption.
      assert (val duty = 0%R) by lra. repeat split; auto; try apply Fd. cbn. destruct o; cbn in *. congruence.
Qed.

Definition ramp_lower (d : fl) : fl := if SFleb ramp_epsilon d then f32_sub d ramp_epsilon else f32_of_Z 0.
Lemma ramp_down_eq : forall f d, ramp_down (S f) d =
  if SFltb (f32_of_Z 0) d then obind (ramp_down f (ramp_lower d)) (fun '(x, ev) => Ok (x, SpPwm (ramp_lower d) :: ev)) else Ok (d, []).
Proof. reflexivity. Qed.

Lemma ramp_down_more : forall n k d r, ramp_down n d = Ok r -> ramp_down (n + k) d = Ok r.
Proof.
  induction n as [|n IH]; intros k d r H; [discriminate|]. rewrite Nat.add_succ_l. rewrite ramp_down_eq in *.
  destruct (SFltb (f32_of_Z 0) d); auto.
  destruct (ramp_down n (ramp_lower d)) as [x|] eqn:E; [|discriminate].
  now rewrite (IH k _ _ E).
Qed.

(** The PWM spindle's state and the outputs agree. *)
Definition sp_rel (s : spindle) (o : sp_out) : Prop :=
  fin32 (sp_duty s) /\ (0 <= val (sp_duty s) <= 1)%R /\ so_pwm o = val (sp_duty s) /\
  so_ccw o = sp_ccw s /\ so_power o = negb (sp_off s) /\ (sp_off s = true -> val (sp_duty s) = 0%R).

Strategy 1000 [ramp_down ramp_to ramp_fuel].

Lemma ramp_down_100 : forall duty o al, fin32 duty -> (0 <= val duty <= 1)%R -> so_pwm o = val duty -> so_power o = true ->
  exists d ev, ramp_down ramp_fuel duty = Ok (d, ev) /\ fin32 d /\ val d = 0%R /\
    so_safe_all al o ev /\ so_after o ev = mk_so true (so_ccw o) 0.
Proof.
  intros duty o al Fd Hd Ho Hp.
  destruct (ramp_down_ok 11 duty o al Fd Hd) as (d & ev & E & R); auto.
  { cbn; lra. }
  exists d, ev. split; [|exact R]. change ramp_fuel with (13 + 87)%nat. apply ramp_down_more. exact E.
Qed.

(** ** Ramping to a speed *)
Definition ramp_next (epsilon target duty : fl) : fl :=
  let duty := f32_add duty epsilon in
  if (SFltb epsilon (f32_of_Z 0) && SFltb duty target) || (SFltb (f32_of_Z 0) epsilon && SFltb target duty) then target else duty.

Lemma ramp_to_eq : forall f e t d, ramp_to (S f) e t d =
  if SFeqb d t then Ok (d, []) else obind (ramp_to f e t (ramp_next e t d)) (fun '(x, ev) => Ok (x, SpPwm (ramp_next e t d) :: ev)).
Proof. reflexivity. Qed.

Lemma ramp_to_more : forall n k e t d r, ramp_to n e t d = Ok r -> ramp_to (n + k) e t d = Ok r.
Proof.
  induction n as [|n IH]; intros k e t d r H; [discriminate|]. rewrite Nat.add_succ_l. rewrite ramp_to_eq in *.
  destruct (SFeqb d t); auto.
  destruct (ramp_to n e t (ramp_next e t d)) as [x|] eqn:E; [|discriminate].
  now rewrite (IH k _ _ _ _ E).
Qed.

Lemma ramp_up_next : forall t d, fin32 t -> fin32 d -> (0 <= val t <= 1)%R -> (0 <= val d)%R -> (val d < val t)%R ->
  let d' := ramp_next ramp_epsilon t d in
  fin32 d' /\ (val d <= val d' <= val t)%R /\ (Rabs (val d' - val d) <= 1 / 10 + 1 / 1000000)%R /\
  (val d' = val t \/ (val d + 99 / 1000 <= val d')%R).
Proof.
  intros t d Ft Fd Ht Hd L. cbn zeta. unfold ramp_next.
  destruct zero_val as [F0 V0]. destruct epsilon_val as [Fe Ve].
  assert (Rabs (val d + val ramp_epsilon) <= 2)%R as A by (split_abs; lra).
  destruct (add_near d ramp_epsilon Fd Fe A) as [F C].
  replace (SFltb ramp_epsilon (f32_of_Z 0)) with false by (vm_compute; reflexivity).
  replace (SFltb (f32_of_Z 0) ramp_epsilon) with true by (vm_compute; reflexivity).
  cbn [andb orb]. destruct (SFltb t (f32_add d ramp_epsilon)) eqn:K.
  - apply (ltb_lt 24 128) in K; auto. repeat split; auto; try apply Ft; try lra. split_abs; lra.
  - apply not_true_iff_false in K. rewrite (ltb_lt 24 128) in K by assumption.
    repeat split; try apply F; split_abs; try lra; right; lra.
Qed.

Lemma ramp_down_next : forall t d, fin32 t -> fin32 d -> (0 <= val t <= 1)%R -> (val d <= 1)%R -> (val t < val d)%R ->
  let d' := ramp_next (SFopp ramp_epsilon) t d in
  fin32 d' /\ (val t <= val d' <= val d)%R /\ (Rabs (val d' - val d) <= 1 / 10 + 1 / 1000000)%R /\
  (val d' = val t \/ (val d' <= val d - 99 / 1000)%R).
Proof.
  intros t d Ft Fd Ht Hd L. cbn zeta. unfold ramp_next.
  destruct zero_val as [F0 V0]. destruct epsilon_val as [Fe Ve].
  destruct (opp_val 24 128 ramp_epsilon Fe) as [Fo Vo].
  assert (Rabs (val d + val (SFopp ramp_epsilon)) <= 2)%R as A by (rewrite Vo; split_abs; lra).
  destruct (add_near d (SFopp ramp_epsilon) Fd Fo A) as [F C]. rewrite Vo in C.
  replace (SFltb (SFopp ramp_epsilon) (f32_of_Z 0)) with true by (vm_compute; reflexivity).
  replace (SFltb (f32_of_Z 0) (SFopp ramp_epsilon)) with false by (vm_compute; reflexivity).
  cbn [andb]. rewrite orb_false_r. destruct (SFltb (f32_add d (SFopp ramp_epsilon)) t) eqn:K.
  - apply (ltb_lt 24 128) in K; auto. repeat split; auto; try apply Ft; try lra. split_abs; lra.
  - apply not_true_iff_false in K. rewrite (ltb_lt 24 128) in K by assumption.
    repeat split; try apply F; split_abs; try lra; right; lra.
Qed.

Lemma ramp_to_ok : forall n up t d o al, fin32 t -> fin32 d -> (0 <= val t <= 1)%R -> (0 <= val d <= 1)%R ->
  (if up : bool then (val d <= val t)%R else (val t <= val d)%R) ->
  (Rabs (val t - val d) <= INR n * (99 / 1000))%R -> so_pwm o = val d -> so_power o = true ->
  exists x ev, ramp_to (S n) (if up then ramp_epsilon else SFopp ramp_epsilon) t d = Ok (x, ev) /\ fin32 x /\ val x = val t /\
    so_safe_all al o ev /\ so_after o ev = mk_so true (so_ccw o) (val t).
Proof.
  induction n as [|n IH]; intros up t d o al Ft Fd Ht Hd Hup Hn Ho Hp.
  - assert (val t = val d) as E. { cbn in Hn. split_abs; lra. }
    exists d, []. rewrite ramp_to_eq. rewrite (proj2 (eqb_eq_val 24 128 d t Fd Ft)) by auto.
    repeat split; auto; try apply Fd. cbn. destruct o; cbn in *. congruence.
  - rewrite ramp_to_eq. destruct (SFeqb d t) eqn:Q.
    + apply (eqb_eq_val 24 128) in Q; auto. exists d, []. repeat split; auto; try apply Fd. cbn. destruct o; cbn in *. congruence.
    + apply not_true_iff_false in Q. rewrite (eqb_eq_val 24 128) in Q by assumption.
      set (e := if up then ramp_epsilon else SFopp ramp_epsilon) in *. set (d' := ramp_next e t d).
      assert (fin32 d' /\ (0 <= val d' <= 1)%R /\ (if up then (val d' <= val t)%R else (val t <= val d')%R) /\
        (Rabs (val t - val d') <= INR n * (99 / 1000))%R /\ (Rabs (val d' - val d) <= 1 / 10 + 1 / 1000000)%R)
        as (F' & B' & U' & N' & C').
      { unfold d', e. pose proof (pos_INR n). rewrite S_INR in Hn. destruct up.
        - destruct (ramp_up_next t d Ft Fd Ht (proj1 Hd)) as (A1 & A2 & A3 & A4); [lra|].
          repeat split; try apply A1; try lra. destruct A4 as [A4|A4]; split_abs; lra.
        - destruct (ramp_down_next t d Ft Fd Ht (proj2 Hd)) as (A1 & A2 & A3 & A4); [lra|].
          repeat split; try apply A1; try lra. destruct A4 as [A4|A4]; split_abs; lra. }
      destruct (IH up t d' (mk_so true (so_ccw o) (val d')) al Ft F' Ht B' U' N' eq_refl eq_refl) as (x & ev & E & Fx & Vx & Sa & Af).
      fold e in E. rewrite E. cbn [obind]. exists x, (SpPwm d' :: ev). split; [reflexivity|]. split; auto. split; auto.
      cbn [so_safe_all so_safe so_after fold_left so_apply]. rewrite Hp, Ho. split; auto.
Qed.

(** ** The calls *)
Lemma min_val : forall a b, fin32 a -> fin32 b -> fin32 (fl_min a b) /\ val (fl_min a b) = Rmin (val a) (val b).
Proof.
  intros a b Ha Hb. unfold fl_min. destruct (SFltb b a) eqn:E.
  - apply (ltb_lt 24 128) in E; auto. split; auto. rewrite Rmin_right; lra.
  - apply not_true_iff_false in E. rewrite (ltb_lt 24 128) in E by assumption. split; auto. rewrite Rmin_left; lra.
Qed.

(** int to float *)
Lemma f32_int_val : forall z, Z.abs z <= 2 ^ 31 -> fin32 (f32_of_Z z) /\ val (f32_of_Z z) = rnd32 (IZR z).
Proof.
  intros z H. assert (F2R (Float radix2 z 0) = IZR z) as F by (unfold F2R; cbn; lra).
  rewrite <- F. apply normalize_val; auto with typeclass_instances.
  assert (Rabs (IZR z) <= IZR (2 ^ 31))%R as B by (rewrite <- abs_IZR; now apply IZR_le).
  rewrite F. apply (small_of_bound 128 _ 32); try lia.
  pose proof (rnd32_error (IZR z)) as E. change (IZR (2 ^ 32)) with 4294967296%R. change (IZR (2 ^ 31)) with 2147483648%R in B.
  split_abs; lra.
Qed.

Lemma rnd32_int_pos : forall z, 1 <= z <= 2 ^ 31 -> (1 <= rnd32 (IZR z) <= 2147483648)%R.
Proof.
  intros z H. split.
  - destruct one_val as [F V]. rewrite <- V, <- (rnd_fin 24 128 _ F). apply rnd_le; auto with typeclass_instances.
    rewrite V. apply IZR_le. lia.
  - assert (fin32 (f32_of_Z (2 ^ 31))) as F by (split; reflexivity).
    assert (val (f32_of_Z (2 ^ 31)) = 2147483648%R) as V. { vm_compute (f32_of_Z (2 ^ 31)). unfold val, SF2R, F2R. cbn [Fnum Fexp cond_Zopp].
      change (bpow radix2 8) with 256%R. lra. }
    rewrite <- V, <- (rnd_fin 24 128 _ F). apply rnd_le; auto with typeclass_instances.
    rewrite V. apply IZR_le. lia.
Qed.

Lemma target_val : forall c rpm, 1 <= spc_max_rpm c < 2 ^ 31 -> 0 <= rpm < 2 ^ 31 ->
  let t := fl_min (f32_div (f32_of_Z rpm) (f32_of_Z (spc_max_rpm c))) (f32_of_Z 1) in
  fin32 t /\ val t = speed_fraction (spc_max_rpm c) rpm /\ (0 <= val t <= 1)%R.
Proof.
  intros c rpm Hm Hr. cbn zeta. destruct one_val as [F1 V1].
  destruct (f32_int_val rpm) as [Fr Vr]; [lia|]. destruct (f32_int_val (spc_max_rpm c)) as [Fm Vm]; [lia|].
  pose proof (rnd32_int_pos (spc_max_rpm c)) as Pm.
  assert (0 <= rnd32 (IZR rpm) <= 2147483648)%R as Pr.
  { destruct (Z.eq_dec rpm 0) as [->|]; [rewrite rnd_0 by auto with typeclass_instances; lra|].
    pose proof (rnd32_int_pos rpm). lra || (assert (1 <= rpm <= 2 ^ 31) as A by lia; specialize (H A); lra). }
  assert (1 <= spc_max_rpm c <= 2 ^ 31) as A by lia. specialize (Pm A).
  assert (0 <= rnd32 (IZR rpm) / rnd32 (IZR (spc_max_rpm c)) <= 2147483648)%R as Q.
  { split.
    - apply Rmult_le_pos; [lra|]. apply Rlt_le, Rinv_0_lt_compat. lra.
    - apply (Rmult_le_reg_r (rnd32 (IZR (spc_max_rpm c)))); [lra|]. unfold Rdiv.
      rewrite Rmult_assoc, Rinv_l by lra. rewrite Rmult_1_r. nra. }
  assert (0 <= rnd32 (rnd32 (IZR rpm) / rnd32 (IZR (spc_max_rpm c))))%R as P0.
  { rewrite <- (rnd_0 24 128) at 1. apply rnd_le; auto with typeclass_instances. lra. }
  destruct (div_val 24 128 _ _ (f32_of_Z rpm) (f32_of_Z (spc_max_rpm c)) Fr Fm) as [Fd Vd].
  - rewrite Vm. lra.
  - rewrite Vr, Vm. pose proof (rnd32_error (rnd32 (IZR rpm) / rnd32 (IZR (spc_max_rpm c)))) as E.
    apply (small_of_bound 128 _ 32); try lia. change (IZR (2 ^ 32)) with 4294967296%R. split_abs; lra.
  - destruct (min_val _ _ Fd F1) as [Ft Vt]. fold f32_div in *. split; auto.
    assert (val (fl_min (f32_div (f32_of_Z rpm) (f32_of_Z (spc_max_rpm c))) (f32_of_Z 1)) = speed_fraction (spc_max_rpm c) rpm) as E.
    { rewrite Vt, V1. unfold f32_div in *. rewrite Vd, Vr, Vm. reflexivity. }
    split; auto. rewrite E. unfold speed_fraction. split; [apply Rmin_glb; lra|apply Rmin_r].
Qed.

Lemma sp_on_ok : forall c s o ccw rpm, 1 <= spc_max_rpm c < 2 ^ 31 -> 0 <= rpm < 2 ^ 31 -> sp_rel s o ->
  exists s' ev, sp_on c s ccw rpm = Ok (s', ev) /\ sp_rel s' (so_after o ev) /\ so_safe_all (spc_allow_ccw c) o ev /\
  (if negb (spc_allow_ccw c) && ccw then ev = [] else so_after o ev = mk_so true ccw (speed_fraction (spc_max_rpm c) rpm)).
Proof.
  intros c s o ccw rpm Hm Hr (R1 & R2 & R3 & R4 & R5 & R6). unfold sp_on.
  destruct (negb (spc_allow_ccw c) && ccw) eqn:A.
  - exists s, []. repeat split; auto; apply R1 || apply R2.
  - set (ev1 := if sp_off s then [SpPower true] else []).
    set (o1 := so_after o ev1).
    assert (so_safe_all (spc_allow_ccw c) o ev1 /\ o1 = mk_so true (so_ccw o) (so_pwm o)) as [S1 E1].
    { unfold ev1, o1, ev1. destruct (sp_off s); cbn in *.
      - split; [split; auto; discriminate|reflexivity].
      - split; auto. destruct o; cbn in *. now subst. }
    destruct (target_val c rpm Hm Hr) as (Ft & Vt & Bt).
    set (t := fl_min (f32_div (f32_of_Z rpm) (f32_of_Z (spc_max_rpm c))) (f32_of_Z 1)) in *.
    assert (exists d ev2, (if Bool.eqb ccw (sp_ccw s) then Ok (sp_duty s, []) else ramp_down ramp_fuel (sp_duty s)) = Ok (d, ev2) /\
      fin32 d /\ (0 <= val d <= 1)%R /\ so_safe_all (spc_allow_ccw c) o1 ev2 /\ so_after o1 ev2 = mk_so true (so_ccw o) (val d) /\
      (ccw <> so_ccw o -> val d = 0%R)) as (d & ev2 & Er & Fd & Bd & S2 & E2 & Z2).
    { destruct (Bool.eqb ccw (sp_ccw s)) eqn:Q.
      - apply eqb_prop in Q. exists (sp_duty s), []. split; [reflexivity|]. split; auto. split; auto. split; [exact I|].
        split; [cbn; rewrite E1; now rewrite R3|]. rewrite R4, Q. congruence.
      - apply eqb_false_iff in Q.
        assert (so_pwm o1 = val (sp_duty s)) as P1 by (rewrite E1; auto).
        assert (so_power o1 = true) as P2 by (rewrite E1; auto).
        destruct (ramp_down_100 (sp_duty s) o1 (spc_allow_ccw c) R1 R2 P1 P2) as (d & ev & E & Fd & Vd & Sa & Af).
        exists d, ev. split; [exact E|]. split; [exact Fd|]. split; [rewrite Vd; lra|]. split; [exact Sa|].
        split; [rewrite Af, E1, Vd; reflexivity|auto]. }
    rewrite Er. cbn [obind].
    set (o2 := mk_so true (so_ccw o) (val d)) in *. set (o3 := so_apply o2 (SpDir ccw)).
    assert (so_safe (spc_allow_ccw c) o2 (SpDir ccw)) as S3.
    { cbn. split; auto. intros ->. rewrite andb_true_r in A. now apply negb_false_iff in A. }
    assert (exists x ev3, ramp_to ramp_fuel (if SFltb d t then ramp_epsilon else SFopp ramp_epsilon) t d = Ok (x, ev3) /\
      fin32 x /\ val x = val t /\ so_safe_all (spc_allow_ccw c) o3 ev3 /\ so_after o3 ev3 = mk_so true ccw (val t)) as (x & ev3 & E3 & Fx & Vx & S4 & E4).
    { destruct (ramp_to_ok 11 (SFltb d t) t d o3 (spc_allow_ccw c) Ft Fd Bt Bd) as (x & ev & E & R); auto.
      - destruct (SFltb d t) eqn:L; [apply (ltb_lt 24 128) in L; auto; lra|].
        apply not_true_iff_false in L. rewrite (ltb_lt 24 128) in L by assumption. lra.
      - cbn. split_abs; lra.
      - exists x, ev. split; [|exact R]. change ramp_fuel with (12 + 88)%nat. apply ramp_to_more. exact E. }
    rewrite E3. cbn [obind].
    assert (so_after o (ev1 ++ ev2 ++ [SpDir ccw] ++ ev3) = mk_so true ccw (val t)) as EA.
    { rewrite so_after_app. fold o1. rewrite so_after_app, E2. fold o2. rewrite so_after_app.
      change (so_after o2 [SpDir ccw]) with o3. exact E4. }
    exists (mk_sp false ccw x), (ev1 ++ ev2 ++ [SpDir ccw] ++ ev3). split; [reflexivity|]. rewrite EA. split; [|split].
    + repeat split; auto; cbn; try apply Fx; try (rewrite Vx; lra).
    + rewrite !so_safe_app. fold o1. rewrite E2. fold o2. repeat split; auto; try apply S3.
    + now rewrite Vt.
Qed.

Lemma sp_off_ok : forall s o al, sp_rel s o ->
  (so_power o = false -> so_pwm o = 0%R) ->
  exists s' ev, sp_turn_off s = Ok (s', ev) /\ sp_rel s' (so_after o ev) /\ so_safe_all al o ev /\
  so_after o ev = mk_so false (so_ccw o) 0.
Proof.
  intros s o al (R1 & R2 & R3 & R4 & R5 & R6) _. unfold sp_turn_off.
  destruct (sp_off s) eqn:Off.
  - assert (val (sp_duty s) = 0%R) as Z by auto.
    assert (ramp_down ramp_fuel (sp_duty s) = Ok (sp_duty s, [])) as E.
    { change ramp_fuel with (S 99). rewrite ramp_down_eq. destruct zero_val as [F0 V0].
      replace (SFltb (f32_of_Z 0) (sp_duty s)) with false; auto.
      symmetry. apply not_true_iff_false. rewrite (ltb_lt 24 128) by assumption. lra. }
    rewrite E. cbn [obind app]. exists (mk_sp true (sp_ccw s) (sp_duty s)), [SpPower false].
    split; [reflexivity|]. split; [|split].
    + repeat split; cbn; auto; apply R1 || apply R2.
    + cbn. split; auto. intros _. now rewrite R3.
    + cbn. rewrite R3, Z. reflexivity.
  - destruct (ramp_down_100 (sp_duty s) o al R1 R2 R3) as (d & ev & E & Fd & Vd & Sa & Af); [rewrite R5; reflexivity|].
    rewrite E. cbn [obind]. exists (mk_sp true (sp_ccw s) d), (ev ++ [SpPower false]). split; [reflexivity|].
    assert (so_after o (ev ++ [SpPower false]) = mk_so false (so_ccw o) 0) as EA by (rewrite so_after_app, Af; reflexivity).
    rewrite EA. split; [|split].
    + repeat split; cbn; auto; try apply Fd; rewrite Vd; lra.
    + apply so_safe_app. split; auto. rewrite Af. cbn. auto.
    + reflexivity.
Qed.

Definition call_ok (x : sp_call) : Prop := match x with CallOn _ rpm => 0 <= rpm < 2 ^ 31 | CallOff => True end.

Lemma sp_run_ok : forall c calls s o, 1 <= spc_max_rpm c < 2 ^ 31 -> Forall call_ok calls -> sp_rel s o ->
  exists s' ev, sp_run c s calls = Ok (s', ev) /\ sp_rel s' (so_after o ev) /\ so_safe_all (spc_allow_ccw c) o ev.
Proof.
  intros c calls. induction calls as [|x r IH]; intros s o Hm Hc R.
  - exists s, []. repeat split; auto; apply R.
  - inversion Hc as [|? ? Hx Hr]; subst. cbn [sp_run].
    assert (exists s1 ev1, sp_step c s x = Ok (s1, ev1) /\ sp_rel s1 (so_after o ev1) /\ so_safe_all (spc_allow_ccw c) o ev1)
      as (s1 & ev1 & E & R1 & S1).
    { destruct x as [ccw rpm|]; cbn [sp_step].
      - destruct (sp_on_ok c s o ccw rpm Hm Hx R) as (s1 & ev1 & A & B & C & _). eauto.
      - destruct (sp_off_ok s o (spc_allow_ccw c) R) as (s1 & ev1 & A & B & C & _); [|eauto].
        destruct R as (_ & _ & R3 & _ & R5 & R6). intro P. rewrite R3. apply R6. rewrite R5 in P. now apply negb_false_iff in P. }
    rewrite E. cbn [obind]. destruct (IH s1 (so_after o ev1) Hm Hr R1) as (s2 & ev2 & E2 & R2 & S2).
    rewrite E2. cbn [obind]. exists s2, (ev1 ++ ev2). split; [reflexivity|]. rewrite so_after_app. split; auto.
    apply so_safe_app. auto.
Qed.

Lemma sp_init_rel : sp_rel sp_init so_init.
Proof. repeat split; cbn; auto; unfold val; cbn; lra. Qed.
