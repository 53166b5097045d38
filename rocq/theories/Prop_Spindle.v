(** C53, C54: the spindles and the PWM timers. *)
From Coq Require Import Reals Lra SpecFloat.
From Flocq Require Import Core IEEE754.BinarySingleNaN.
From Verif Require Import Base Lib_List Model_Float Spec_Real Proofs_Real Model_Spindle Spec_Spindle Proofs_Spindle Proofs_Pwm.

(** ** C53: PWM spindle *)
(** Every history of On and Off, at any speeds: every call returns, and everything sent
    to the outputs is safe: the direction changes only while the PWM value is zero and
    never to a direction that is not allowed; power goes off only at zero; the PWM value
    stays within 0..1, changes by a tenth at most, and only with power. *)
Theorem C53_history_safe : forall c calls, 1 <= spc_max_rpm c < 2 ^ 31 -> Forall call_ok calls ->
  exists s ev, sp_run c sp_init calls = Ok (s, ev) /\ so_safe_all (spc_allow_ccw c) so_init ev.
Proof.
  intros c calls Hm F. destruct (sp_run_ok c calls sp_init so_init Hm F sp_init_rel) as (s & ev & E & _ & S). eauto.
Qed.
Print Assumptions C53_history_safe.

Lemma sp_run_app : forall c calls s x s1 ev1, sp_run c s calls = Ok (s1, ev1) ->
  sp_run c s (calls ++ [x]) = obind (sp_step c s1 x) (fun '(s2, ev2) => Ok (s2, ev1 ++ ev2)).
Proof.
  induction calls as [|y calls IH]; intros s x s1 ev1 H; cbn [sp_run app] in *.
  - injection H as <- <-. destruct (sp_step c s x) as [[s2 ev2]|]; cbn [obind]; auto. now rewrite app_nil_r.
  - destruct (sp_step c s y) as [[s2 ev2]|]; cbn [obind] in *; [|discriminate].
    destruct (sp_run c s2 calls) as [[s3 ev3]|] eqn:E; cbn [obind] in *; [|discriminate]. injection H as <- <-.
    rewrite (IH _ _ _ _ E). destruct (sp_step c s3 x) as [[s4 ev4]|]; cbn [obind]; auto. now rewrite app_assoc.
Qed.

(** The speed reached is the wanted fraction of the maximal speed. *)
Lemma speed_fraction_near : forall m r, 1 <= m < 2 ^ 31 -> 0 <= r < 2 ^ 31 ->
  (Rabs (speed_fraction m r - Rmin (IZR r / IZR m) 1) <= / 1000000)%R.
Proof.
  intros m r Hm Hr. unfold speed_fraction.
  assert (1 <= IZR m)%R as Bm by (apply (IZR_le 1); lia). assert (0 <= IZR r)%R as Br by (apply (IZR_le 0); lia).
  pose proof (rnd32_near (IZR m) ltac:(lra)) as [M1 M2].
  destruct (Z.eq_dec r 0) as [->|N].
  { rewrite (rnd_0 24 128). unfold Rdiv. rewrite !Rmult_0_l. rewrite (rnd_0 24 128). rewrite Rmin_left by lra. split_abs; lra. }
  assert (1 <= IZR r)%R as Br1 by (apply (IZR_le 1); lia).
  pose proof (rnd32_near (IZR r) ltac:(lra)) as [R1 R2].
  set (q := (IZR r / IZR m)%R). set (m' := rnd32 (IZR m)) in *. set (r' := rnd32 (IZR r)) in *.
  assert (0 < m')%R as Pm by lra. assert (0 < r')%R as Pr by lra.
  assert (IZR m < 2147483648)%R as Um by (apply (IZR_lt _ (2 ^ 31)); lia).
  assert (/ 2147483648 <= q)%R as Q0.
  { unfold q. apply (Rmult_le_reg_r (IZR m)); [lra|]. replace (IZR r / IZR m * IZR m)%R with (IZR r) by (field; lra). lra. }
  assert (q * IZR m = IZR r)%R as Eq by (unfold q; field; lra).
  assert (near (/ 7900000) (r' / m') q) as N1.
  { unfold near. split; apply (Rmult_le_reg_r m'); auto; replace (r' / m' * m')%R with r' by (field; lra); nra. }
  unfold near in N1. pose proof (rnd32_near (r' / m')) as N2. clearbody m' r' q.
  assert (/ 1000000000000 <= r' / m')%R as Z1 by lra.
  specialize (N2 Z1). unfold near in N2. set (z := rnd32 (r' / m')) in *. clearbody z. set (y := (r' / m')%R) in *. clearbody y.
  unfold Rmin. destruct (Rle_dec z 1), (Rle_dec q 1); split_abs; lra.
Qed.

(** After any history, an allowed On switches the power on, selects the direction and
    reaches the fraction rpm/max-rpm of the full speed, at most 1; one that is not
    allowed does nothing. *)
Theorem C53_on : forall c calls ccw rpm, 1 <= spc_max_rpm c < 2 ^ 31 -> Forall call_ok calls -> 0 <= rpm < 2 ^ 31 ->
  exists s1 ev1 s2 ev2, sp_run c sp_init calls = Ok (s1, ev1) /\
    sp_run c sp_init (calls ++ [CallOn ccw rpm]) = Ok (s2, ev1 ++ ev2) /\
    if ccw && negb (spc_allow_ccw c) then ev2 = []
    else let o := so_after so_init (ev1 ++ ev2) in
         so_power o = true /\ so_ccw o = ccw /\ (Rabs (so_pwm o - Rmin (IZR rpm / IZR (spc_max_rpm c)) 1) <= / 1000000)%R.
Proof.
  intros c calls ccw rpm Hm F Hr. destruct (sp_run_ok c calls sp_init so_init Hm F sp_init_rel) as (s & ev & E & R & S).
  destruct (sp_on_ok c s (so_after so_init ev) ccw rpm Hm Hr R) as (s2 & ev2 & E2 & _ & _ & X).
  exists s, ev, s2, ev2. split; auto. rewrite (sp_run_app _ _ _ _ _ _ E). cbn [sp_step]. rewrite E2. cbn [obind]. split; auto.
  rewrite andb_comm. destruct (negb (spc_allow_ccw c) && ccw); auto.
  cbv zeta. rewrite so_after_app, X. cbn [so_power so_ccw so_pwm]. repeat split. now apply speed_fraction_near.
Qed.
Print Assumptions C53_on.

(** After any history, Off ends with PWM zero and then power off. *)
Theorem C53_off : forall c calls, 1 <= spc_max_rpm c < 2 ^ 31 -> Forall call_ok calls ->
  exists s ev, sp_run c sp_init (calls ++ [CallOff]) = Ok (s, ev ++ [SpPower false]) /\
    so_pwm (so_after so_init ev) = 0%R.
Proof.
  intros c calls Hm F. destruct (sp_run_ok c calls sp_init so_init Hm F sp_init_rel) as (s & ev & E & R & S).
  assert (so_power (so_after so_init ev) = false -> so_pwm (so_after so_init ev) = 0%R) as Z.
  { destruct R as (_ & _ & R3 & _ & R5 & R6). rewrite R3, R5. intros H. apply R6. now apply negb_false_iff. }
  destruct (sp_off_ok s _ (spc_allow_ccw c) R Z) as (s2 & ev2 & E2 & _ & S2 & X).
  unfold sp_turn_off in E2. destruct (ramp_down ramp_fuel (sp_duty s)) as [[d e]|] eqn:Q; cbn [obind] in E2; [|discriminate].
  injection E2 as <- <-. exists (mk_sp true (sp_ccw s) d), (ev ++ e). rewrite (sp_run_app _ _ _ _ _ _ E).
  cbn [sp_step]. unfold sp_turn_off. rewrite Q. cbn [obind]. rewrite app_assoc. split; auto.
  rewrite so_after_app in *. apply so_safe_app in S2. cbn in S2. destruct S2 as (_ & S2 & _). auto.
Qed.
Print Assumptions C53_off.

Example C53_ex : forall a, exists s ev, sp_run (mk_spc 3000 true) sp_init [CallOn a 1500; CallOn (negb a) 9000; CallOff; CallOff] = Ok (s, ev).
Proof. intros a. destruct (C53_history_safe (mk_spc 3000 true) [CallOn a 1500; CallOn (negb a) 9000; CallOff; CallOff]) as (s & ev & H & _); eauto; cbn; [lia|].
  repeat constructor; cbn; lia. Qed.
Example C53_ex_events : match sp_run (mk_spc 1000 true) sp_init [CallOn true 100; CallOff] with
  | Ok (_, ev) => map (fun e => match e with SpPower b => (1, b) | SpDir b => (2, b) | SpPwm d => (3, SFeqb d (f32_of_Z 0)) | _ => (4, true) end) ev
                = [(1, true); (2, true); (3, false); (3, true); (1, false)]
  | _ => False end.
Proof. vm_compute. reflexivity. Qed.

(** With max-rpm set to 0, M3 S0 never returns: the wanted speed is 0/0 and the ramp
    does not reach it in any number of rounds. *)
Theorem C53_no_max_rpm_refuted :
  (forall n epsilon duty, ramp_to n epsilon (fl_min (f32_div (f32_of_Z 0) (f32_of_Z 0)) (f32_of_Z 1)) duty = Undefined) /\
  sp_on (mk_spc 0 true) sp_init false 0 = Undefined.
Proof.
  assert (forall n epsilon duty, ramp_to n epsilon (fl_min (f32_div (f32_of_Z 0) (f32_of_Z 0)) (f32_of_Z 1)) duty = Undefined) as A.
  { change (fl_min (f32_div (f32_of_Z 0) (f32_of_Z 0)) (f32_of_Z 1)) with S754_nan.
    induction n as [|n IH]; intros e d; [reflexivity|]. rewrite ramp_to_eq.
    replace (SFeqb d S754_nan) with false by (now destruct d as [s|s| |s m x]). rewrite IH. reflexivity. }
  split; [exact A|]. unfold sp_on. cbn [spc_allow_ccw negb andb sp_off sp_init sp_ccw Bool.eqb sp_duty obind spc_max_rpm].
  rewrite A. reflexivity.
Qed.
Print Assumptions C53_no_max_rpm_refuted.

(** ** C53: serial spindle *)
(** The speed command carries the speed as 5 low and 7 high bits. *)
Theorem C53_serial_speed_bytes : forall ccw speed, 0 <= speed < 4096 ->
  exists lo hi, target_speed_bytes ccw speed = [if ccw then 134 else 133; lo; hi] /\
  0 <= lo < 32 /\ 0 <= hi < 128 /\ speed = lo + 32 * hi.
Proof.
  intros ccw s H. unfold target_speed_bytes. exists (s mod 32), (s / 32).
  change 31 with (Z.ones 5). change 127 with (Z.ones 7). rewrite !Z.land_ones, Z.shiftr_div_pow2 by lia.
  change (2 ^ 5) with 32. change (2 ^ 7) with 128.
  assert (0 <= s / 32 < 128) by (Z.div_mod_to_equations; lia).
  rewrite (Z.mod_small (s / 32)) by lia. split; [now destruct ccw|]. Z.div_mod_to_equations; lia.
Qed.
Print Assumptions C53_serial_speed_bytes.

(** The speed a pair of answer bytes reports. *)
Definition reported (p : Z * Z) : Z := int16 (fst p + 256 * snd p).

Lemma wait_speed_spec : forall done a, match wait_speed done a with
  | Some (a', ev) => exists pre p, a = pre ++ p :: a' /\ Forall (fun p => done (reported p) = false) pre /\ done (reported p) = true /\
      ev = repeat (SpSend [CMD_GET_VARIABLE; SMC_SPEED]) (length pre + 1)
  | None => Forall (fun p => done (reported p) = false) a
  end.
Proof.
  intros done. induction a as [|[lo hi] a IH]; cbn [wait_speed]; [constructor|].
  destruct (done (int16 (lo + 256 * hi))) eqn:E.
  - exists [], (lo, hi). repeat split; auto.
  - destruct (wait_speed done a) as [[a' ev]|].
    + destruct IH as (pre & p & -> & F & D & ->). exists ((lo, hi) :: pre), p. repeat split; auto.
    + constructor; auto.
Qed.

(** Off tells the controller to stop and cuts the power only after the controller has
    reported speed 0; while it reports anything else the power stays on. *)
Theorem C53_serial_off : forall a,
  match smc_off a with
  | Some (a', ev) => exists pre p, a = pre ++ p :: a' /\ Forall (fun p => reported p <> 0) pre /\ reported p = 0 /\
      ev = SpSend [224] :: repeat (SpSend [161; 21]) (length pre + 1) ++ [SpPower false]
  | None => Forall (fun p => reported p <> 0) a
  end.
Proof.
  intros a. unfold smc_off. pose proof (wait_speed_spec (fun speed => speed =? 0) a) as W.
  assert (forall l, Forall (fun p => (reported p =? 0) = false) l -> Forall (fun p => reported p <> 0) l) as Q.
  { intros l. apply Forall_impl. intros p. lia. }
  destruct (wait_speed (fun speed => speed =? 0) a) as [[a' ev]|]; auto.
  destruct W as (pre & p & -> & F & D & ->). exists pre, p. repeat split; auto. lia.
Qed.
Print Assumptions C53_serial_off.

(** An allowed On from standstill switches power on first, sends one speed command for
    the wanted direction and speed and returns once the controller has reported at least
    this speed. *)
Theorem C53_serial_on : forall c ccw rpm err a, (ccw = true -> spc_allow_ccw c = true) ->
  1 <= spc_max_rpm c -> 0 <= rpm -> rpm * 3200 < 2 ^ 31 ->
  let speed := Z.min (rpm * 3200 / spc_max_rpm c) 3200 in
  0 <= speed <= 3200 /\
  match smc_on c true ccw rpm (err :: a) with
  | Ok (Some (off, a', ev)) => off = false /\ exists pre p, a = pre ++ p :: a' /\ Forall (fun p => reported p < speed) pre /\ speed <= reported p /\
      ev = [SpPower true; SpSend [161; 1]; SpSend [131]; SpSend (target_speed_bytes ccw speed)] ++ repeat (SpSend [161; 21]) (length pre + 1)
  | Ok None => Forall (fun p => reported p < speed) a
  | Undefined => False
  end.
Proof.
  intros c ccw rpm err a Hc Hm Hr Ho speed.
  assert (0 <= rpm * 3200 / spc_max_rpm c) by (apply Z.div_pos; lia).
  split; [unfold speed; lia|]. unfold smc_on.
  replace (negb (spc_allow_ccw c) && ccw) with false by (destruct ccw; [rewrite Hc by auto|]; now rewrite ?andb_false_r).
  unfold get_variable. destruct err as [lo hi]. cbn zeta.
  replace ((spc_max_rpm c =? 0) || negb ((- 2 ^ 31 <=? rpm * SMC_MAX_SPEED) && (rpm * SMC_MAX_SPEED <? 2 ^ 31))) with false
    by (unfold SMC_MAX_SPEED; lia).
  unfold SMC_MAX_SPEED. rewrite Z.quot_div_nonneg by lia. fold speed.
  pose proof (wait_speed_spec (fun actual => speed <=? actual) a) as W.
  assert (forall l, Forall (fun p => (speed <=? reported p) = false) l -> Forall (fun p => reported p < speed) l) as Q.
  { intros l. apply Forall_impl. intros p. lia. }
  destruct (wait_speed (fun actual => speed <=? actual) a) as [[a' ev]|]; auto.
  destruct W as (pre & p & -> & F & D & ->). split; auto. exists pre, p. repeat split; auto. lia.
Qed.
Print Assumptions C53_serial_on.

Example C53_serial_ex : smc_on (mk_spc 3000 true) true true 1500 [(0, 0); (16, 0); (65, 6); (9, 9)]
  = Ok (Some (false, [(9, 9)], [SpPower true; SpSend [161; 1]; SpSend [131]; SpSend [134; 0; 50]; SpSend [161; 21]; SpSend [161; 21]])).
Proof. reflexivity. Qed.
Example C53_serial_off_ex : smc_off [(5, 0); (255, 255); (0, 0)] = Some ([], [SpSend [224]; SpSend [161; 21]; SpSend [161; 21]; SpSend [161; 21]; SpPower false]).
Proof. reflexivity. Qed.

(** A counter-clockwise start does not return if the controller reports the speed of a
    reverse run as a negative number, as its manual says, however often it is asked. *)
Theorem C53_serial_reverse_refuted : forall n,
  smc_on (mk_spc 3000 true) true true 1500 ((0, 0) :: repeat (192, 249) n) = Ok None /\ reported (192, 249) = -1600.
Proof.
  intros n. split; [|reflexivity].
  pose proof (C53_serial_on (mk_spc 3000 true) true 1500 (0, 0) (repeat (192, 249) n) (fun _ => eq_refl)) as H.
  cbn [spc_max_rpm] in H. specialize (H ltac:(lia) ltac:(lia) ltac:(lia)). cbv zeta in H. destruct H as [_ H].
  destruct (smc_on (mk_spc 3000 true) true true 1500 ((0, 0) :: repeat (192, 249) n)) as [[[[off a'] ev]|]|]; auto; [|contradiction].
  destruct H as (_ & pre & p & E & _ & S & _). exfalso.
  assert (In p (repeat (192, 249) n)) as I by (rewrite E; apply in_or_app; right; now left).
  apply repeat_spec in I. subst p. vm_compute in S. contradiction.
Qed.
Print Assumptions C53_serial_reverse_refuted.

(** A speed above 671088 rpm overflows. *)
Theorem C53_serial_overflow_refuted : exists a, smc_on (mk_spc 3000 true) true false 671089 a = Undefined.
Proof. exists [(0, 0)]. reflexivity. Qed.

(** ** C54 *)
(** Whatever the resolution (up to 2^31) and the duty value in (0, 1], the values for the
    load and match registers keep the distances the hardware requires (2 to the overflow
    and 2 between them) and give the wanted period and duty within 4 ticks. *)
Theorem C54_register_values : forall resolution duty, 0 <= resolution <= 2 ^ 31 -> fin32 duty -> (0 < val duty <= 1)%R ->
  exists load matching, pwm_values resolution duty = Ok (load, matching) /\
    0 <= load /\ load + 2 <= matching <= 4294967295 - 2 /\
    Z.abs ((4294967295 - load) - resolution) <= 4 /\
    (Rabs (IZR (4294967295 - matching) - IZR resolution * (1 - val duty)) <= 4)%R.
Proof.
  intros r d Hr Fd Hd. destruct (pwm_values_ok r d Hr Fd Hd) as (start & dc & E & B1 & B2 & B3 & B4 & B5).
  unfold TIMER_OVERFLOW in *. exists start, dc. split; [exact E|]. split; [lia|]. split; [lia|]. split; [lia|exact B5].
Qed.
Print Assumptions C54_register_values.

(** A timer set up with any frequency up to 12 MHz (0: 16 kHz) and then given any finite
    values: no step is undefined; the registers are unwritten or keep the distances; the
    timer runs only with written registers; the prescaler is off and the period is right
    within one tick and a millionth or so. *)
Theorem C54_history_legal : forall f values, 0 <= f <= 12000000 -> Forall fin32 values ->
  exists t0 t, pwm_setup f = Ok t0 /\ pwm_outputs t0 values = Ok t /\
    (p_tldr t = None /\ p_tmar t = None /\ p_running t = false \/
     exists load matching, p_tldr t = Some load /\ p_tmar t = Some matching /\
       0 <= load /\ load + 2 <= matching <= 4294967295 - 2) /\
    (p_running t = false -> p_tclr t = 0) /\
    (let wanted := (24000000 / IZR (if f =? 0 then 16000 else f))%R in
     (Rabs (IZR (p_resolution t0) - wanted) <= 1 + wanted * (1 / 4000000))%R /\ p_pre t0 = false).
Proof.
  intros f vs Hf F. destruct (pwm_setup_inv f Hf) as (t0 & E0 & I0 & Hq & Hp & _ & _ & A).
  destruct (pwm_outputs_inv vs t0 I0 F) as (t & E & I1 & I2 & I3 & I4 & I5 & I6 & I7).
  exists t0, t. split; auto. split; auto. split.
  - unfold regs_legal, TIMER_OVERFLOW in I2. destruct (p_tldr t) as [l|], (p_tmar t) as [m|]; try contradiction.
    + right. exists l, m. repeat split; auto; lia.
    + left. repeat split; auto. destruct (p_running t); auto. now destruct (I6 eq_refl).
  - split; auto. cbv zeta. change TIMER_DEFAULT_FREQ with 16000 in Hq. rewrite <- Hq. auto.
Qed.
Print Assumptions C54_history_legal.

(** What one value does, after any history. *)
Definition tclr_on : Z := 1 + 2 + 64 + 2048 + 4096.      (* start, auto-reload, compare, toggle on match and overflow *)

Lemma set_pwm_output_runs : forall t v, pwm_inv t -> fin32 v -> p_freq t <> 0 -> p_pre t = false -> p_ptv t = 0 ->
  exists t', set_pwm_output t v = Ok t' /\ pwm_inv t' /\ p_freq t' = p_freq t /\ p_pre t' = false /\ p_ptv t' = 0 /\
  p_resolution t' = p_resolution t /\
  ((val v <= 0)%R -> p_tclr t' = 0 /\ p_running t' = false) /\
  ((0 < val v <= 1)%R -> p_tclr t' = tclr_on /\ exists load matching, pwm_values (p_resolution t) v = Ok (load, matching) /\
       p_tcrr t' = Some load /\ p_tldr t' = Some load /\ p_tmar t' = Some matching) /\
  ((1 < val v)%R -> p_tcrr t' = p_tcrr t /\ p_tldr t' = p_tldr t /\ p_tmar t' = p_tmar t).
Proof.
  intros t v I Fv Hf Hp Ht. destruct zero_val as [F0 V0]. destruct one_val as [F1 V1].
  destruct (set_pwm_output_inv t v I Fv) as (t' & E & I'). exists t'. split; auto. split; auto.
  unfold set_pwm_output in E. destruct (SFleb v (f32_of_Z 0)) eqn:L.
  - apply (leb_le 24 128) in L; auto. rewrite V0 in L. injection E as <-. cbn. repeat split; auto; intros; exfalso; lra.
  - apply not_true_iff_false in L. rewrite (leb_le 24 128) in L by assumption. rewrite V0 in L.
    unfold pwm_set_duty in E. replace (p_freq t =? 0) with false in E by lia. cbn [orb] in E.
    replace (SFltb v (f32_of_Z 0)) with false in E.
    2:{ symmetry. apply not_true_iff_false. rewrite (ltb_lt 24 128) by assumption. rewrite V0. lra. }
    cbn [orb] in E. destruct (SFltb (f32_of_Z 1) v) eqn:U.
    + apply (ltb_lt 24 128) in U; auto. rewrite V1 in U. cbn [obind] in E. injection E as <-.
      unfold pwm_start. destruct (negb true || (p_freq t =? 0) || SFeqb (p_duty t) (f32_of_Z 0)); cbn; repeat split; auto; intros; exfalso; lra.
    + apply not_true_iff_false in U. rewrite (ltb_lt 24 128) in U by assumption. rewrite V1 in U.
      assert (SFeqb v (f32_of_Z 0) = false) as Z.
      { apply not_true_iff_false. rewrite (eqb_eq_val 24 128) by assumption. rewrite V0. lra. }
      rewrite Z in E. destruct I as (I1 & _). destruct (pwm_values_ok (p_resolution t) v I1 Fv) as (start & dc & Ev & _); [lra|].
      rewrite Ev in E. cbn [obind] in E. injection E as <-. unfold pwm_start. cbn [p_freq p_duty negb orb].
      replace (p_freq t =? 0) with false by lia. rewrite Z. cbn [orb]. cbn. rewrite Hp, Ht. repeat split; auto; try (intros; exfalso; lra).
      exists start, dc. auto.
Qed.

Lemma pwm_outputs_keep : forall vs t, pwm_inv t -> Forall fin32 vs -> p_freq t <> 0 -> p_pre t = false -> p_ptv t = 0 ->
  exists t', pwm_outputs t vs = Ok t' /\ pwm_inv t' /\ p_freq t' = p_freq t /\ p_pre t' = false /\ p_ptv t' = 0 /\ p_resolution t' = p_resolution t.
Proof.
  induction vs as [|v vs IH]; intros t I F Hf Hp Ht; cbn [pwm_outputs]; [exists t; auto 10|].
  inversion F; subst. destruct (set_pwm_output_runs t v) as (t1 & E & I1 & A & B & C & D & _); auto. rewrite E. cbn [obind].
  destruct (IH t1) as (t' & E' & I' & A' & B' & C' & D'); auto; try congruence. exists t'. split; auto. repeat split; auto; try apply I'; congruence.
Qed.

Lemma pwm_outputs_app : forall vs ws t, pwm_outputs t (vs ++ ws) = obind (pwm_outputs t vs) (fun t => pwm_outputs t ws).
Proof.
  induction vs as [|v vs IH]; intros ws t; cbn [app pwm_outputs obind]; auto.
  destruct (set_pwm_output t v) as [t1|]; cbn [obind]; auto.
Qed.

(** After any history: a value that is not positive stops the timer; a value in (0, 1]
    runs it with registers for this period and duty. *)
Theorem C54_output_effect : forall f values v, 0 <= f <= 12000000 -> Forall fin32 values -> fin32 v ->
  exists t0 t, pwm_setup f = Ok t0 /\ pwm_outputs t0 (values ++ [v]) = Ok t /\
    ((val v <= 0)%R -> p_tclr t = 0) /\
    ((0 < val v <= 1)%R -> p_tclr t = tclr_on /\ exists load matching, p_tldr t = Some load /\ p_tcrr t = Some load /\ p_tmar t = Some matching /\
       0 <= load /\ load + 2 <= matching <= 4294967295 - 2 /\
       Z.abs ((4294967295 - load) - p_resolution t0) <= 4 /\
       (Rabs (IZR (4294967295 - matching) - IZR (p_resolution t0) * (1 - val v)) <= 4)%R).
Proof.
  intros f vs v Hf F Fv. destruct (pwm_setup_inv f Hf) as (t0 & E0 & I0 & Hq & Hp & Ht & _ & _).
  assert (p_freq t0 <> 0) as Nf by (rewrite Hq; unfold TIMER_DEFAULT_FREQ; destruct (f =? 0) eqn:Z; lia).
  destruct (pwm_outputs_keep vs t0 I0 F Nf Hp Ht) as (t1 & E1 & I1 & A & B & C & D).
  destruct (set_pwm_output_runs t1 v) as (t & E & I & _ & _ & _ & Dt & X1 & X2 & _); auto; [congruence|].
  exists t0, t. split; auto. split.
  - rewrite pwm_outputs_app, E1. cbn [obind pwm_outputs]. rewrite E. reflexivity.
  - split; [intros H; now apply X1|]. intros H. destruct (X2 H) as (T & load & mt & Ev & G1 & G2 & G3). split; auto.
    exists load, mt. repeat (split; [assumption|]). destruct I1 as (I1 & _).
    destruct (C54_register_values (p_resolution t1) v I1 Fv H) as (l' & m' & Ev' & G).
    rewrite Ev in Ev'. injection Ev' as <- <-. rewrite <- D. exact G.
Qed.
Print Assumptions C54_output_effect.

Lemma half_fin : fin32 (S754_finite false 8388608 (-24)) /\ val (S754_finite false 8388608 (-24)) = (1 / 2)%R.
Proof.
  split; [split; reflexivity|]. unfold val, SF2R, F2R. cbn [Fnum Fexp cond_Zopp].
  change (bpow radix2 (-24)) with (/ 16777216)%R. lra.
Qed.
Example C54_ex : exists t0 t, pwm_setup 0 = Ok t0 /\ pwm_outputs t0 [S754_finite false 8388608 (-24)] = Ok t /\ p_tclr t = tclr_on /\
  p_tldr t = Some (4294967295 - 1500) /\ p_tmar t = Some (4294967295 - 750).
Proof. eexists. eexists. split; [vm_compute; reflexivity|]. split; [vm_compute; reflexivity|]. vm_compute. auto. Qed.

(** A value that is not a number reaches an undefined conversion. *)
Theorem C54_nan_refuted : exists t0, pwm_setup 0 = Ok t0 /\ pwm_outputs t0 [S754_nan] = Undefined.
Proof. eexists. split; [vm_compute; reflexivity|]. vm_compute. reflexivity. Qed.
