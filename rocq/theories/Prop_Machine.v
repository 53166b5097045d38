(** Properties C46-C52: the machine control guarding moves, homing, stop, feedrate, idling. *)
From Verif Require Import Base Text Model_Axis Model_Float Model_Hardware Model_Machine Spec_Machine.
From Verif Require Import Proofs_Machine Proofs_Machine2 Proofs_Machine3.

(** * C46: moves *)
(** A move reaches the planner only as the target of a G0/G1 style call, and only if
    the machine was homed (if required), not stopped and the target within limits
    (if checked). [s] is any state at all; the call may even still be waiting. *)
Theorem C46_move_guarded : forall c e s s' new pos feed,
  adds c e s s' new -> In (Did (DoEnqueue pos feed)) new ->
  (exists f, e = CoordinatedMove f pos \/ e = RapidMove f pos) /\
  (c_require_homing c = true -> m_homing s <> NeverHomed) /\
  stop_on s = false /\
  (c_range_check c = true -> in_limits c pos).
Proof.
  intros c e s s' new pos feed A H. destruct (guards _ _ _ _ _ _ _ A H) as (G1 & G2 & G3).
  split; [eapply only_moves; eauto|]. split; [|split; [auto|intros; now apply limits_spec]].
  intros R. unfold move_allowed_homing_status in G1. rewrite R in G1. cbn in G1. destruct (m_homing s); congruence.
Qed.
Print Assumptions C46_move_guarded.

(** Moves outside of the planned path happen only while homing, or while probing the
    axis to be probed, under the same conditions. *)
Theorem C46_drive_guarded : forall c e s s' new a d v0 v1,
  adds c e s s' new -> In (Did (DoDrive a d v0 v1)) new ->
  (exists b, e = GoHome b) \/
  ((exists f, e = ProbeAxis f a) /\ (c_require_homing c = true -> m_homing s <> NeverHomed) /\ stop_on s = false).
Proof.
  intros c e s s' new a d v0 v1 A H. destruct (only_drives _ _ _ _ _ _ _ _ _ A H) as [X|[f ->]]; auto. right.
  destruct (probe_guards _ _ _ _ _ _ _ A H) as (G1 & G3). split; eauto. split; auto.
  intros R. unfold move_allowed_homing_status in G1. rewrite R in G1. cbn in G1. destruct (m_homing s); congruence.
Qed.
Print Assumptions C46_drive_guarded.

(** * C47: emergency stop *)
(** Stopped means unhomed and motors off, in every reachable state. *)
Theorem C47_stopped_is_safe : forall c s, reachable c s -> stop_on s = true -> m_homing s = NeverHomed /\ power_on s = false.
Proof. intros c s R. apply (inv_stop _ (reachable_inv _ _ R)). Qed.
Print Assumptions C47_stopped_is_safe.

(** The stop is left only by M999 or G28, and only after having read the switch as released. *)
Theorem C47_latched : forall c s e s' new, reachable c s -> completes c e s s' -> adds c e s s' new ->
  stop_on s = true -> stop_on s' = false ->
  ((exists ps, e = MCode 999 ps) \/ (exists b, e = GoHome b)) /\ In (Ask QEstop 0) new.
Proof.
  intros c s e s' new R E [_ L] S S'. destruct (call_inv _ _ _ _ E (reachable_inv _ _ R)) as (_ & H & _).
  destruct (H S S') as (X & n & L2 & I). rewrite L in L2. apply app_inv_head in L2. subst n. split; auto.
  destruct e; cbn in X; try contradiction; subst; eauto.
Qed.
Print Assumptions C47_latched.

(** So without M999 and G28 the machine stays stopped, whatever else happens, and plans no move. *)
Theorem C47_latched_history : forall c s es s', reachable c s -> stop_on s = true ->
  Forall (fun e => match e with GoHome _ => False | MCode n _ => n <> 999 | _ => True end) es ->
  perform_all c es s = (Some tt, s') ->
  stop_on s' = true /\ m_homing s' = NeverHomed /\ power_on s' = false.
Proof.
  intros c s es s' R S F E. destruct (latched_history _ _ _ _ E (reachable_inv _ _ R) S F) as [S' I]. split; auto. now apply inv_stop.
Qed.
Print Assumptions C47_latched_history.

(** The stop is entered only by M0 or by reading the switch as pressed ... *)
Theorem C47_entered : forall c s e s' new, completes c e s s' -> adds c e s s' new ->
  stop_on s = false -> stop_on s' = true ->
  (exists ps, e = MCode 0 ps) \/ exists z, z <> 0 /\ In (Ask QEstop z) new.
Proof.
  intros c s e s' new E [_ L] S S'. destruct (match e with MCode n _ => n =? 0 | _ => false end) eqn:X.
  - destruct e; try discriminate. apply Z.eqb_eq in X. subst. eauto.
  - right. assert (N : forall ps, e <> MCode 0 ps) by (intros ps ->; discriminate).
    destruct (perform_entered c e N _ _ _ E) as (n & L2 & H). rewrite L in L2. apply app_inv_head in L2. subst n.
    destruct (H S') as [Y|Y]; [congruence|exact Y].
Qed.
Print Assumptions C47_entered.

(** ... M0 does enter it, switching off spindle, outputs and motors ... *)
Theorem C47_M0 : forall c s ps s' new, reachable c s -> completes c (MCode 0 ps) s s' -> adds c (MCode 0 ps) s s' new ->
  stop_on s' = true /\ m_homing s' = NeverHomed /\ power_on s' = false /\
  In (Did (DoHw HwAuxOff)) new /\ In (Did (DoMotors false)) new /\ (c_has_spindle c = true -> In (Did DoSpindleOff) new).
Proof.
  intros c s ps s' new R E A. destruct (m0_done _ _ _ _ _ E A (inv_sim _ (reachable_inv _ _ R))) as ((T1 & T2 & T3) & H). auto.
Qed.
Print Assumptions C47_M0.

(** ... and so does any call but homing that reads the switch as pressed. *)
Theorem C47_noticed : forall c s e s' new z, reachable c s -> completes c e s s' -> adds c e s s' new ->
  (forall b, e <> GoHome b) -> In (Ask QEstop z) new -> z <> 0 -> stop_on s' = true.
Proof.
  intros c s e s' new z R E A N H Hz. eapply noticed; eauto; [apply (inv_sim _ (reachable_inv _ _ R))|]. exists z. auto.
Qed.
Print Assumptions C47_noticed.

(** * C48: homing confidence *)
Theorem C48_homing_changes : forall c s e s' new, reachable c s -> completes c e s s' -> adds c e s s' new ->
  m_homing s' = m_homing s \/
  (m_homing s' = Homed /\ stop_on s' = false /\ exists b, e = GoHome b) \/
  (m_homing s = Homed /\ m_homing s' = HomedButUnpowered /\ In (Did (DoMotors false)) new) \/
  (m_homing s' = NeverHomed /\ stop_on s' = true).
Proof. intros c s e s' new R E A. apply (homing_changes c e); auto. now apply reachable_inv with c. Qed.
Print Assumptions C48_homing_changes.

Theorem C48_motors_off_unhomes : forall c s e s' new, completes c e s s' -> adds c e s s' new ->
  (forall b, e <> GoHome b) -> In (Did (DoMotors false)) new -> m_homing s' <> Homed.
Proof. intros c s e s' new. apply motors_off_unhomes. Qed.
Print Assumptions C48_motors_off_unhomes.

(** Without G28 the machine is never taken for homed. *)
Theorem C48_homed_needs_G28 : forall c h answers es s, hw_enabled h = false ->
  perform_all c es (start_state c h answers) = (Some tt, s) -> m_homing s <> NeverHomed -> exists b, In (GoHome b) es.
Proof. intros c h answers es s H E. now apply (homed_history _ _ _ _ _ E). Qed.
Print Assumptions C48_homed_needs_G28.

(** * C49: homing *)
(** If the stop switch is never read as pressed, a completed G28 drives, for every
    requested axis with a switch and in the configured order, half a millimeter at a
    time until the switch answers, then back a twentieth at a time until it does
    not, sets the position of the switch, and the machine counts as homed. *)
Theorem C49_homing_trace : forall c b s s' new, completes c (GoHome b) s s' -> adds c (GoHome b) s s' new ->
  hw_ready (m_hw s) = true -> no_stop_read new ->
  m_homing s' = Homed /\ exists trace, homed_axes c (axes_to_home c b (c_home_order c)) trace /\
    filter homing_event new = (if stop_on s then [Ask QEstop 0] else []) ++ trace ++ [Ask QEstop 0].
Proof.
  intros c b s s' new E [_ L] R N. destruct (go_home_trace _ _ _ _ E R) as (l & (n & L2 & F) & H). rewrite L in L2. apply app_inv_head in L2. subst n.
  assert (N' : no_stop_read l) by (intros z Hz; apply N; rewrite <- F in Hz; apply filter_In in Hz; tauto).
  destruct (H N') as (tr & H1 & H2 & H3). split; auto. exists tr. split; auto. congruence.
Qed.
Print Assumptions C49_homing_trace.

(** Physically: with a minimum switch closed at and below position [sw] (in steps),
    wherever the axis starts, it ends just above the switch: open, at most one
    back-off step away. *)
Theorem C49_homed_position : forall c sw d b a l p, homed_axis c a l -> c_home c a = TrigMin -> 0 < b ->
  fits sw d b p true l -> sw < final d b p true l <= sw + b.
Proof. exact homed_position. Qed.
Print Assumptions C49_homed_position.

(** * C50: clamping *)
Theorem C50_clamping : forall c affected pos, let r := clamp_to_range c affected pos in
  (r AZ <> pos AZ -> clamps_z c = true /\ only_z affected) /\
  (forall a, a <> AZ -> r a = pos a) /\
  (clamps_z c = true -> only_z affected -> is_number (pos AZ) = true ->
     SFleb zero (r AZ) = true /\ (SFltb zero (c_range c AZ) = true -> SFleb (r AZ) (c_range c AZ) = true)) /\
  (SFltb (pos AZ) zero = false -> (SFltb zero (c_range c AZ) = true -> SFltb (c_range c AZ) (pos AZ) = false) -> r AZ = pos AZ).
Proof. exact clamp_spec. Qed.
Print Assumptions C50_clamping.

(** * C51: feedrate *)
(** The speed factor is 1 or one given by M220, and never below 0.005. *)
Theorem C51_speed_factor : forall c h answers es s, perform_all c es (start_state c h answers) = (Some tt, s) ->
  SFltb (m_factor s) (f64_div (f64_of_Z 5) (f64_of_Z 1000)) = false /\
  (m_factor s = f32_of_Z 1 \/
   exists f, In (SetSpeedFactor f) es /\
     (m_factor s = f /\ SFltb f zero = false \/ m_factor s = f32_add (f32_of_Z 1) f /\ SFltb f zero = true)).
Proof. exact factor_history. Qed.
Print Assumptions C51_speed_factor.

(** A G1 move is sent with the current feedrate, which its own F sets if positive,
    times the speed factor, and only if that feedrate is positive. *)
Theorem C51_G1 : forall c feed pos s s' new p f, adds c (CoordinatedMove feed pos) s s' new -> In (Did (DoEnqueue p f)) new ->
  let current := if SFltb zero feed then f32_mul (c_speed c) feed else m_feed s in
  p = pos /\ f = f32_mul (m_factor s) current /\ SFleb current zero = false /\ m_feed s' = current.
Proof.
  intros c feed pos s s' new p f A H. destruct (g1_spec _ _ _ _ _ _ A) as (G1 & _ & G3). destruct (G1 _ _ H) as (-> & -> & X).
  cbv zeta. split; [auto|]. split; [auto|]. split; [exact X|]. apply G3. eauto.
Qed.
Print Assumptions C51_G1.

(** A G0 move is sent with its own F if positive, else with the highest axis speed. *)
Theorem C51_G0 : forall c feed pos s s' new p f, adds c (RapidMove feed pos) s s' new -> In (Did (DoEnqueue p f)) new ->
  let given := f32_mul (f32_mul (c_speed c) (m_factor s)) feed in
  p = pos /\ f = (if SFltb zero given then given else g0_feedrate c) /\
  (m_feed s' = m_feed s \/ (m_feed s' = given /\ SFltb zero given = true /\ SFleb (m_feed s) zero = true)).
Proof.
  intros c feed pos s s' new p f A H. destruct (g0_spec _ _ _ _ _ _ A) as (G1 & G2). destruct (G1 _ _ H) as (-> & ->).
  cbv zeta. split; auto.
Qed.
Print Assumptions C51_G0.

Theorem C51_G0_default_speed : forall c, (forall a, is_number (c_feed c a) = true) ->
  (forall a, SFltb (g0_feedrate c) (c_feed c a) = false) /\
  (g0_feedrate c = f32_of_Z (-1) \/ exists a, g0_feedrate c = c_feed c a).
Proof. exact g0_highest. Qed.
Print Assumptions C51_G0_default_speed.

(** The current feedrate is that of an earlier move (or none: -1). *)
Theorem C51_current_feedrate : forall c h answers es s, perform_all c es (start_state c h answers) = (Some tt, s) ->
  m_feed s = f32_of_Z (-1) \/
  (exists f pos, In (CoordinatedMove f pos) es /\ SFltb zero f = true /\ m_feed s = f32_mul (c_speed c) f) \/
  (exists f pos factor, In (RapidMove f pos) es /\ SFltb factor (f64_div (f64_of_Z 5) (f64_of_Z 1000)) = false /\
     m_feed s = f32_mul (f32_mul (c_speed c) factor) f /\ SFltb zero (m_feed s) = true).
Proof. exact feed_history. Qed.
Print Assumptions C51_current_feedrate.

(** So before any move with a positive feedrate, no G1 move is sent. *)
Theorem C51_no_feedrate_no_move : forall c h answers es s feed pos s' new,
  perform_all c es (start_state c h answers) = (Some tt, s) ->
  Forall (fun e => match e with CoordinatedMove f _ => SFltb zero f = false | RapidMove _ _ => False | _ => True end)
         (es ++ [CoordinatedMove feed pos]) ->
  adds c (CoordinatedMove feed pos) s s' new -> forall p f, ~ In (Did (DoEnqueue p f)) new.
Proof.
  intros c h answers es s feed pos s' new E F A p f H. apply Forall_app in F. destruct F as [F F1]. inversion_clear F1 as [|x xs F2 _].
  destruct (C51_G1 _ _ _ _ _ _ _ _ A H) as (_ & _ & X & _). cbv beta iota in F2. rewrite F2 in X. rewrite Forall_forall in F.
  destruct (feed_history _ _ _ _ _ E) as [Y|[(g & q & I1 & Y & _)|(g & q & x & I1 & _)]].
  - rewrite Y in X. discriminate.
  - specialize (F _ I1). cbv beta iota in F. change fzero with zero in Y. congruence.
  - exact (F _ I1).
Qed.
Print Assumptions C51_no_feedrate_no_move.

(** * C52: automatic motor shut-off *)
(** Input becomes idle at time t0, then idle events come at the times of [ts] (as read
    from the clock). What is done with the motors (and when the clock is read) is
    what [idle_log] says: they are switched off at the first event at or after
    t0 + the configured time, not before, and only once. *)
Theorem C52_idle_shutoff : forall c k s s', 0 < c_auto_motor c -> c_auto_fan c <= 0 ->
  perform_all c (InputIdle true :: repeat (InputIdle false) k) s = (Some tt, s') ->
  exists new, m_log s' = m_log s ++ new /\ (no_stop_read new ->
    exists t0 rest, filter idle_event new = Ask QTime t0 :: rest /\
      (0 <= t0 -> exists ts, length ts = k /\ rest = idle_log (t0 + c_auto_motor c) ts)).
Proof.
  intros c k s s' Ha Hf E. destruct (perform_all_log c (InputIdle true :: repeat (InputIdle false) k) s) as (new & L). rewrite E in L. cbn [snd] in L.
  exists new. split; auto. intros N0.
  assert (N : no_press s s') by (intros z (n & L2 & I); rewrite L in L2; apply app_inv_head in L2; subst n; now apply N0).
  cbn [perform_all] in E. apply bind_some in E. destruct E as ([] & s1 & E1 & E).
  assert (L1 : exists n, m_log s1 = m_log s ++ n) by (destruct (perform_log c (InputIdle true) s) as (n & X); rewrite E1 in X; eauto).
  assert (L2 : exists n, m_log s' = m_log s1 ++ n) by (destruct (perform_all_log c (repeat (InputIdle false) k) s1) as (n & X); rewrite E in X; eauto).
  destruct (no_press_app _ _ _ L1 L2 N) as [N1 N2]. cbn [perform] in E1.
  destruct (idle_first _ _ _ E1 Ha N1) as (t0 & S1 & A1 & B1).
  destruct (idle_rest _ _ _ _ E Ha Hf B1 N2) as [_ I2]. destruct L2 as (n2 & L2).
  assert (S2 : seen_idle s1 s' (filter idle_event n2)) by (exists n2; auto).
  exists t0, (filter idle_event n2). split.
  - destruct (si_trans _ _ _ _ _ S1 S2) as (n & L3 & F). rewrite L in L3. apply app_inv_head in L3. subst n. exact F.
  - intros Ht. rewrite A1 in I2. destruct I2 as (ts & Hl & (n3 & L3 & F3)); [lia|].
    exists ts. split; auto. rewrite L2 in L3. apply app_inv_head in L3. congruence.
Qed.
Print Assumptions C52_idle_shutoff.

(** * Concrete cases *)
Definition ex_cape : cape := mk_cape (fun i => 100 + i) (fun i => 200 + i) (fun i => 300 + i) 99 false.
Definition ex_c : mcfg := mk_mcfg (fun _ => f32_of_Z 100) (fun _ => f32_of_Z 100) (fun a => f32_of_Z (10 + axis_ix a)) (fun _ => f32_of_Z 10)
  (fun _ => f32_of_Z 5) (fun _ => f32_of_Z 5) (f32_of_Z 1) (txt "XYZ") (fun a => match a with AX => TrigMin | _ => TrigNone end)
  60 0 0 true true (txt "z") false true ex_cape.
Definition ex_h : hw := hw_run ex_cape [HwAddMotor AX 1 false; HwInit true; HwUpdateOutput OutEstop false].
Definition at_pos (x : fl) : axis -> fl := fun a => match a with AX => x | _ => f32_of_Z 0 end.
(** home X: (flush) two steps to the switch, one back; (stop not pressed) *)
Definition home_answers : list Z := [0; 0; 0; 0; 0; 0; 0; 0; 1; 1; 0; 0; 0; 0].
Definition ex_run (es : list call) (answers : list Z) : machine := snd (perform_all ex_c es (start_state ex_c ex_h answers)).
Definition ex_done (es : list call) (answers : list Z) : bool :=
  match fst (perform_all ex_c es (start_state ex_c ex_h answers)) with Some _ => match m_in (ex_run es answers) with [] => true | _ => false end | None => false end.
Definition homed_now (s : machine) : bool := match m_homing s with Homed => true | _ => false end.
Definition count (f : event -> bool) (s : machine) : nat := length (filter f (m_log s)).
Definition is_enqueue (e : event) : bool := match e with Did (DoEnqueue _ _) => true | _ => false end.
Definition is_drive (e : event) : bool := match e with Did (DoDrive AX _ _ _) => true | _ => false end.
Definition is_off (e : event) : bool := match e with Did (DoMotors false) => true | _ => false end.
Definition is_spindle (e : event) : bool := match e with Did (DoSpindleOn _ _) => true | _ => false end.
Definition half : fl := f32_div (f32_of_Z 1) (f32_of_Z 2).
Definition minus1 : fl := f32_of_Z (-1).
Definition go_to (x : Z) : call := CoordinatedMove (f32_of_Z 20) (at_pos (f32_of_Z x)).
Lemma ex_reachable : forall es answers, ex_done es answers = true -> reachable ex_c (ex_run es answers).
Proof.
  intros es answers H. exists ex_h, answers, es. split; [reflexivity|]. unfold ex_done, ex_run in *.
  destruct (perform_all ex_c es (start_state ex_c ex_h answers)) as [[[]|] s]; auto; discriminate.
Qed.
(** Homing, then a move; without homing or out of range the move is not made. *)
Example ex_moves :
  ex_done [GoHome 1; go_to 10] (home_answers ++ [1; 1]) = true /\
  count is_enqueue (ex_run [GoHome 1; go_to 10] (home_answers ++ [1; 1])) = 1%nat /\
  power_on (ex_run [GoHome 1; go_to 10] (home_answers ++ [1; 1])) = true /\
  count is_drive (ex_run [GoHome 1; go_to 10] (home_answers ++ [1; 1])) = 3%nat /\
  ex_done [go_to 10] [] = true /\ count is_enqueue (ex_run [go_to 10] []) = 0%nat /\
  ex_done [GoHome 1; go_to 101] home_answers = true /\ count is_enqueue (ex_run [GoHome 1; go_to 101] home_answers) = 0%nat.
Proof. vm_compute. repeat split; reflexivity. Qed.
(** Homed, stopped by M0, refused M999 (switch pressed), released, moves need homing again. *)
Example ex_stop : let es := [GoHome 1; MCode 0 []; go_to 10; MCode 999 []; go_to 10] in
  ex_done es (home_answers ++ [0; 0; 1]) = true /\ stop_on (ex_run es (home_answers ++ [0; 0; 1])) = true /\
  stop_on (ex_run es (home_answers ++ [0; 0; 0])) = false /\ count is_enqueue (ex_run es (home_answers ++ [0; 0; 0])) = 0%nat /\
  m_homing (ex_run es (home_answers ++ [0; 0; 0])) = NeverHomed.
Proof. vm_compute. repeat split; reflexivity. Qed.
(** Switch pressed, seen while idle *)
Example ex_pressed : ex_done [GoHome 1; InputIdle true] (home_answers ++ [0; 1000; 1; 0; 0]) = true /\
  stop_on (ex_run [GoHome 1; InputIdle true] (home_answers ++ [0; 1000; 1; 0; 0])) = true.
Proof. vm_compute. auto. Qed.
(** Minimum switch at step 100, coming from 170, steps of 50 and 5. *)
Example ex_homing_physics : let l := filter homing_event (m_log (ex_run [GoHome 1] home_answers)) in
  fits 100 50 5 196 true l /\ final 50 5 196 true l = 101.
Proof. vm_compute. repeat split; auto; intros H; try discriminate; try (intros X; discriminate); congruence. Qed.
Example ex_clamp : let r := clamp_to_range ex_c 4 (fun a => match a with AZ => f32_of_Z 150 | _ => f32_of_Z 120 end) in
  clamps_z ex_c = true /\ r AZ = f32_of_Z 100 /\ r AX = f32_of_Z 120 /\
  clamp_to_range ex_c 5 (fun _ => f32_of_Z 150) AZ = f32_of_Z 150.
Proof. vm_compute. auto. Qed.
(** Idle: shut off at 1060, clock read at 1000, 1030, 1061, not afterwards. *)
Example ex_idle : let s := ex_run (InputIdle true :: repeat (InputIdle false) 3) [0; 1000; 0; 0; 1030; 0; 0; 1061; 0; 0; 0; 0] in
  ex_done (InputIdle true :: repeat (InputIdle false) 3) [0; 1000; 0; 0; 1030; 0; 0; 1061; 0; 0; 0; 0] = true /\
  filter idle_event (m_log s) = Ask QTime 1000 :: idle_log 1060 [1030; 1061; 7] /\ count is_off s = 1%nat.
Proof. vm_compute. repeat split; reflexivity. Qed.
Example ex_feed : let s := ex_run [GoHome 1; SetSpeedFactor half; go_to 10; CoordinatedMove minus1 (at_pos (f32_of_Z 20))] (home_answers ++ [1; 1; 1; 1]) in
  map (fun e => match e with Did (DoEnqueue _ f) => f | _ => f32_of_Z 0 end) (filter is_enqueue (m_log s)) = [f32_of_Z 10; f32_of_Z 10] /\
  g0_feedrate ex_c = f32_of_Z 19.
Proof. vm_compute. auto. Qed.

(** * What does not hold *)
Lemma finished : forall (r : option unit * machine), fst r = Some tt -> r = (Some tt, snd r).
Proof. intros [o s] H. cbn in *. now subst. Qed.
Lemma ex_run_done : forall es answers, fst (perform_all ex_c es (start_state ex_c ex_h answers)) = Some tt -> reachable ex_c (ex_run es answers).
Proof. intros es answers H. exists ex_h, answers, es. split; [reflexivity|]. unfold ex_run. now apply finished. Qed.
Ltac run := vm_compute; reflexivity.
(** C46: a coordinate that is not a number passes the limits. *)
Theorem C46_nan_refuted : exists c s e s' new pos feed, reachable c s /\ completes c e s s' /\ adds c e s s' new /\
  c_range_check c = true /\ SFltb zero (c_range c AX) = true /\ In (Did (DoEnqueue pos feed)) new /\ pos AX = S754_nan.
Proof.
  set (s := ex_run [GoHome 1] (home_answers ++ [1; 1])). set (e := CoordinatedMove (f32_of_Z 20) (at_pos S754_nan)).
  exists ex_c, s, e, (snd (perform ex_c e s)).
  exists [Did (DoEnqueue (at_pos S754_nan) (f32_of_Z 20)); Ask QEnqueue 1; Did (DoHw (HwEnableMotors true)); Ask QEnqueued 1].
  exists (at_pos S754_nan), (f32_of_Z 20).
  split; [apply ex_run_done; run|]. split; [apply finished; run|].
  split; [split; [reflexivity|run]|]. split; [reflexivity|]. split; [run|]. split; [now left|reflexivity].
Qed.
Print Assumptions C46_nan_refuted.
(** C47: the spindle and outputs can be switched on while stopped. *)
Theorem C47_spindle_in_stop_refuted : exists c s ps s' new, reachable c s /\ stop_on s = true /\ completes c (MCode 3 ps) s s' /\
  adds c (MCode 3 ps) s s' new /\ In (Did (DoSpindleOn false 1000)) new /\ stop_on s' = true.
Proof.
  set (s := ex_run [MCode 0 []] [0; 0; 0]). set (ps := [("S"%char, f32_of_Z 1000)]).
  exists ex_c, s, ps, (snd (perform ex_c (MCode 3 ps) s)), [Did DoHalt; Ask QFlush 0; Did (DoSpindleOn false 1000)].
  split; [apply ex_run_done; run|]. split; [run|]. split; [apply finished; run|].
  split; [split; [reflexivity|run]|]. split; [cbn; auto|run].
Qed.
Print Assumptions C47_spindle_in_stop_refuted.
Theorem C47_output_in_stop_refuted : exists c s ps s', reachable c s /\ stop_on s = true /\ completes c (MCode 64 ps) s s' /\
  get_aux_bit (m_hw s) 3 = false /\ get_aux_bit (m_hw s') 3 = true /\ stop_on s' = true.
Proof.
  set (s := ex_run [MCode 0 []] [0; 0]). set (ps := [("P"%char, f32_of_Z 3)]).
  exists ex_c, s, ps, (snd (perform ex_c (MCode 64 ps) s)).
  split; [apply ex_run_done; run|]. split; [run|]. split; [apply finished; run|]. split; [run|]. split; run.
Qed.
Print Assumptions C47_output_in_stop_refuted.
(** C49: the stop switch pressed during homing and released before its end: the machine
    counts as homed although the axis has not been moved at all. *)
Theorem C49_stop_while_homing_refuted : exists c b s s' new, reachable c s /\ completes c (GoHome b) s s' /\ adds c (GoHome b) s s' new /\
  hw_ready (m_hw s) = true /\ In (Ask QEstop 1) new /\ m_homing s' = Homed /\ stop_on s' = false /\
  (forall a d v0 v1, ~ In (Did (DoDrive a d v0 v1)) new) /\ In (Did (DoSetPos AX zero)) new.
Proof.
  set (s := ex_run [] [0; 0; 0; 1; 0]). exists ex_c, 1, s, (snd (perform ex_c (GoHome 1) s)).
  exists [Did DoHalt; Ask QFlush 0; Did DoHalt; Ask QFlush 0; Ask (QAxis AX TrigMin) 0; Ask QEstop 1; Did (DoSetPos AX zero); Ask QEstop 0].
  split; [apply ex_run_done; run|]. split; [apply finished; run|]. split; [split; [reflexivity|run]|]. split; [run|].
  split; [cbn; auto 12|]. split; [run|]. split; [run|]. split; [|cbn; auto 12].
  intros a d v0 v1 H. cbn in H. intuition discriminate.
Qed.
Print Assumptions C49_stop_while_homing_refuted.
(** C51: if the first feedrate comes with a G0, the speed factor is applied twice to the
    G1 moves that follow: half of 20 is 5. *)
Theorem C51_factor_twice_refuted : exists c s pos s' new,
  (exists h answers p, perform_all c [GoHome 1; SetSpeedFactor half; RapidMove (f32_of_Z 20) p] (start_state c h answers) = (Some tt, s)) /\
  c_speed c = f32_of_Z 1 /\ m_factor s = half /\
  adds c (CoordinatedMove minus1 pos) s s' new /\ In (Did (DoEnqueue pos (f32_of_Z 5))) new.
Proof.
  set (s := ex_run [GoHome 1; SetSpeedFactor half; RapidMove (f32_of_Z 20) (at_pos (f32_of_Z 10))] (home_answers ++ [1; 1; 1; 1])).
  set (e := CoordinatedMove minus1 (at_pos (f32_of_Z 20))).
  exists ex_c, s, (at_pos (f32_of_Z 20)), (snd (perform ex_c e s)).
  exists [Did (DoEnqueue (at_pos (f32_of_Z 20)) (f32_of_Z 5)); Ask QEnqueue 1; Did (DoHw (HwEnableMotors true)); Ask QEnqueued 1].
  split; [exists ex_h, (home_answers ++ [1; 1; 1; 1]), (at_pos (f32_of_Z 10)); apply finished; run|]. split; [reflexivity|]. split; [run|].
  split; [split; [reflexivity|run]|]. now left.
Qed.
Print Assumptions C51_factor_twice_refuted.
