(** C76: the auxiliary outputs, switched by host and firmware. *)
From Verif Require Import Base Model_Axis Model_Hardware Model_MotorOps Model_Pru Model_PruQueue Spec_Queue Model_Gpio Spec_Gpio Model_Outputs Spec_Outputs
  Proofs_PruQueue Prop_Queue Prop_Gpio.

(** ** What is added to the logs *)
Lemma added_app : forall (A : Type) (l ev : list A), added l (l ++ ev) = ev.
Proof. intros A l ev. unfold added. now rewrite skipn_app, skipn_all, Nat.sub_diag. Qed.
Lemma q_log_grows : forall q a, exists ev, q_log (q_step q a) = q_log q ++ ev.
Proof.
  intros q a. destruct a as [op|e]; cbn [q_step].
  - unfold host_step, host_start, with_host. destruct (q_host q) as [|s sd|s sd|s sd|sd|s slot i sd|s slot sd|sd|sd|sd|st|];
      repeat match goal with
      | |- context [if ?b then _ else _] => destruct b
      | |- context [match ?op with OpEnqueue _ => _ | OpWaitEmpty => _ | OpPending => _ | OpShutdown _ => _ end] => destruct op as [?| | |[|]]
      end; cbn [q_log]; try (eexists; reflexivity); (exists []; now rewrite app_nil_r).
  - unfold pru_step, with_pru. destruct (q_pru q) as [|st dir pp|s'|fr ms t|v| |]; [| | |destruct (calculate_delay t) as [dl t']| | |];
      repeat match goal with |- context [if ?b then _ else _] => destruct b end; cbn [q_log]; try (eexists; reflexivity); (exists []; now rewrite app_nil_r).
Qed.
Definition gpio_ok (e : hw_event) : Prop := match e with GpioSet d | GpioClr d => connector d | _ => True end.
Lemma connector_0 : connector GPIO_NOT_MAPPED.
Proof. now left. Qed.
Lemma aux_connector : forall c n, wired c -> connector (aux_gpio (b_cape c) n).
Proof.
  intros c n [W _]. unfold aux_gpio. destruct (Z.leb_spec 1 n); [|apply connector_0]. destruct (Z.leb_spec n 16); [|apply connector_0]. cbn [andb].
  unfold out_pins in W. rewrite !Forall_app in W. destruct W as (_ & _ & _ & W & _). rewrite Forall_forall in W. apply W. apply in_map. cbn. lia.
Qed.
Lemma set_aux_log : forall c h, wired c -> exists ev, hw_log (set_aux_outputs (b_cape c) h) = hw_log h ++ ev /\ Forall gpio_ok ev.
Proof.
  intros c h W. unfold set_aux_outputs. destruct (hw_ready h); cbn [negb hw_log set_state]; [|exists []; split; [now rewrite app_nil_r|constructor]].
  eexists. split; [reflexivity|]. apply Forall_forall. intros e I. apply in_map_iff in I. destruct I as (i & <- & _). destruct (Z.testbit (hw_aux h) i); apply (aux_connector c (i + 1) W).
Qed.
Lemma hw_log_grows : forall c h op, wired c -> at_run_time (OHw op) -> exists ev, hw_log (hw_step (b_cape c) h op) = hw_log h ++ ev /\ Forall gpio_ok ev.
Proof.
  intros c h op W R. destruct op; try contradiction R; cbn [hw_step].
  - unfold enable_motors. destruct (hw_ready h); cbn [negb hw_log set_state]; [|exists []; split; [now rewrite app_nil_r|constructor]].
    eexists. split; [reflexivity|]. constructor; [|constructor]. destruct W as [W _]. unfold out_pins in W. rewrite !Forall_app in W. destruct W as (_ & _ & W & _). inversion W; subst.
    destruct (xorb _ _); assumption.
  - exists []. split; [now rewrite app_nil_r|constructor].
  - exists []. split; [now rewrite app_nil_r|constructor].
  - now apply set_aux_log.
  - unfold aux_outputs_off. destruct (set_aux_log c (set_state h (hw_estop h) (hw_enabled h) 0 (hw_ready h) (hw_log h)) W) as (ev & E & F). exists ev. split; [exact E|exact F].
  - unfold set_pwm_output. destruct (hw_ready h); cbn [negb hw_log set_state]; [|exists []; split; [now rewrite app_nil_r|constructor]].
    eexists. split; [reflexivity|]. destruct positive; repeat constructor.
Qed.

(** ** One step *)
Lemma firmware_access : forall c s e, access s true -> access (firmware_write c s e) true.
Proof. intros c s e A b H. exact (A b H). Qed.
Lemma not_elsewhere : forall c n, apart (but_pwm c) -> 1 <= n <= 16 -> cape_aux (b_cape c) n <> GPIO_NOT_MAPPED ->
  ~ In (cape_aux (b_cape c) n) (dir_pins c) /\ ~ In (cape_aux (b_cape c) n) (step_pins_of c).
Proof.
  intros c n A H N. set (d := cape_aux (b_cape c) n) in *. assert (K : In d (aux_pins c)) by (apply in_map; cbn; lia).
  assert (G : forall l1 l2, apart (l1 ++ l2) -> In d l1 -> In d l2 -> False).
  { intros l1 l2 A' I1 I2. unfold apart in A'. rewrite filter_app in A'.
    assert (F : forall l, In d l -> In d (filter (fun d => negb (d =? GPIO_NOT_MAPPED)) l)) by (intros l I; apply filter_In; split; [exact I|]; destruct (Z.eqb_spec d GPIO_NOT_MAPPED); [contradiction|reflexivity]).
    apply F in I1. apply F in I2. revert A' I1 I2. generalize (filter (fun d => negb (d =? GPIO_NOT_MAPPED)) l1) as x, (filter (fun d => negb (d =? GPIO_NOT_MAPPED)) l2) as y. clear.
    intros x y. induction x as [|a x IH]; intros H I1 I2; [destruct I1|]. cbn [app] in H. inversion H as [|? ? H1 H2]; subst. destruct I1 as [->|I1]; [apply H1, in_or_app; now right|auto]. }
  unfold but_pwm in A. split; intros I.
  - apply (G (step_pins_of c ++ dir_pins c) ([cape_enable (b_cape c)] ++ aux_pins c ++ in_pins c)); [now rewrite <- app_assoc|apply in_or_app; now right|].
    apply in_or_app. right. apply in_or_app. now left.
  - apply (G (step_pins_of c) (dir_pins c ++ [cape_enable (b_cape c)] ++ aux_pins c ++ in_pins c)); [exact A|exact I|].
    apply in_or_app. right. apply in_or_app. right. apply in_or_app. now left.
Qed.
Definition next (c : board) (n : Z) (l : bool) (e : qevent + hw_event) : bool := match tells c n e with Some b => b | None => l end.
Lemma parts_apart : forall c, apart (but_pwm c) -> apart (dir_pins c) /\ apart (step_pins_of c) /\ apart (aux_pins c).
Proof.
  intros c A. split; [|split]; eapply apart_part.
  - exact A.
  - apply (A : apart ([] ++ step_pins_of c ++ _)).
  - unfold but_pwm in A. rewrite (app_assoc (dir_pins c)), (app_assoc (step_pins_of c)) in A. exact A.
Qed.
Section one.
Variables (c : board) (n b i : Z).
Hypotheses (W : wired c) (A : apart (but_pwm c)) (Hn : 1 <= n <= 16) (P : is_pin b i) (E : cape_aux (b_cape c) n = pin b i).
Lemma firmware_next : forall s e, high (g_regs (firmware_write c s e)) b i = next c n (high (g_regs s) b i) (inl e).
Proof.
  intros s e. destruct (parts_apart c A) as (D1 & D2 & D3). destruct (not_elsewhere c n A Hn ltac:(rewrite E; now apply pin_not_0)) as [N1 N2]. rewrite E in N1, N2.
  destruct e as [s0| | |m pr|fl|bits|bits|pins dl| | |]; try reflexivity; cbn [firmware_write with_regs g_regs next tells].
  - destruct (C75_firmware c (g_regs s) bits (fun _ => 0) W D1 D2 D3) as ((S & _) & _ & _). now apply S.
  - destruct (C75_firmware c (g_regs s) bits (fun _ => 0) W D1 D2 D3) as (_ & _ & (S & _)). apply S; [exact P|]. rewrite <- E. unfold aux_pins.
    assert (G : forall xs, In n xs -> In (cape_aux (b_cape c) n, Z.testbit bits (n - 1)) (combine (map (cape_aux (b_cape c)) xs) (map (fun n => Z.testbit bits (n - 1)) xs))).
    { clear. induction xs as [|x xs IH]; [intros []|]. intros [->|I]; [now left|right; auto]. }
    apply G. cbn. lia.
  - destruct (C75_firmware c (g_regs s) 0 (fun m => Z.shiftl (Z.b2z (nth (Z.to_nat (motor_ix m)) pins false)) 31) W D1 D2 D3) as (_ & (S & _) & _). now apply S.
Qed.
Lemma firmware_all : forall es s, access s true -> access (fold_left (firmware_write c) es s) true /\
  high (g_regs (fold_left (firmware_write c) es s)) b i = fold_left (next c n) (map inl es) (high (g_regs s) b i).
Proof.
  induction es as [|e es IH]; intros s H; [split; [exact H|reflexivity]|]. cbn [fold_left map]. rewrite <- firmware_next. apply IH. now apply firmware_access.
Qed.
Lemma host_all : forall es s, Forall gpio_ok es -> access s true -> exists s', fold_left host_write es (Ok s) = Ok s' /\ access s' true /\
  high (g_regs s') b i = fold_left (next c n) (map inr es) (high (g_regs s) b i).
Proof.
  induction es as [|e es IH]; intros s F H; [exists s; auto|]. inversion F as [|? ? F1 F2]; subst. cbn [fold_left map].
  assert (G : exists s', host_write (Ok s) e = Ok s' /\ access s' true /\ high (g_regs s') b i = next c n (high (g_regs s) b i) (inr e)).
  { destruct e as [d|d|d on|d|d]; try (exists s; split; [reflexivity|split; [exact H|reflexivity]]); cbn [host_write obind].
    - exists (with_regs s (put true d (g_regs s))). split; [apply (write_is s true true d H)|]. split; [exact H|]. cbn [with_regs g_regs]. rewrite put_high by assumption. unfold next, tells. rewrite E. now destruct (d =? pin b i).
    - exists (with_regs s (put false d (g_regs s))). split; [apply (write_is s true false d H)|]. split; [exact H|]. cbn [with_regs g_regs]. rewrite put_high by assumption. unfold next, tells. rewrite E. now destruct (d =? pin b i). }
  destruct G as (s' & G1 & G2 & G3). rewrite G1, <- G3. apply IH; assumption.
Qed.
Lemma step_next : forall s a, at_run_time a -> access (o_pins s) true -> exists s' ev, ostep c s a = Ok s' /\ access (o_pins s') true /\ o_log s' = o_log s ++ ev /\
  o_q s' = fold_left q_step (queue_acts [a]) (o_q s) /\
  high (g_regs (o_pins s')) b i = fold_left (next c n) ev (high (g_regs (o_pins s)) b i).
Proof.
  intros s a R H. destruct a as [a|op].
  - cbn [ostep]. destruct (q_log_grows (o_q s) a) as (ev & Q). rewrite Q, added_app. destruct (firmware_all ev (o_pins s) H) as [F1 F2].
    eexists. exists (map inl ev). split; [reflexivity|]. cbn [o_pins o_log o_q]. auto.
  - cbn [ostep]. destruct (hw_log_grows c (o_hw s) op W R) as (ev & L & F). rewrite L, added_app. destruct (host_all ev (o_pins s) F H) as (p & F1 & F2 & F3). rewrite F1.
    destruct (q_host (o_q s)); try (exists s, []; split; [reflexivity|]; split; [exact H|]; split; [now rewrite app_nil_r|split; reflexivity]);
      (eexists; exists (map inr ev); split; [reflexivity|]; cbn [o_pins o_log o_q]; auto).
Qed.
Lemma run_next : forall acts s, Forall at_run_time acts -> access (o_pins s) true -> exists s' ev, orun c s acts = Ok s' /\ access (o_pins s') true /\ o_log s' = o_log s ++ ev /\
  o_q s' = fold_left q_step (queue_acts acts) (o_q s) /\
  high (g_regs (o_pins s')) b i = fold_left (next c n) ev (high (g_regs (o_pins s)) b i).
Proof.
  induction acts as [|a acts IH]; intros s F H; [exists s, []; split; [reflexivity|]; split; [exact H|]; split; [now rewrite app_nil_r|split; reflexivity]|].
  inversion F as [|? ? F1 F2]; subst. destruct (step_next s a F1 H) as (s1 & e1 & S1 & S2 & S3 & S4 & S5). destruct (IH s1 F2 S2) as (s2 & e2 & T1 & T2 & T3 & T4 & T5).
  exists s2, (e1 ++ e2). cbn [orun]. rewrite S1. cbn [obind]. split; [exact T1|]. split; [exact T2|]. split; [rewrite T3, S3; now rewrite app_assoc|]. split.
  - rewrite T4, S4. change (a :: acts) with ([a] ++ acts). unfold queue_acts. rewrite flat_map_app, fold_left_app. reflexivity.
  - now rewrite T5, S5, fold_left_app.
Qed.
End one.

(** C76: an auxiliary output shows what was last said about it, by the host or by
    the segment that the firmware has begun last. *)
Theorem C76_outputs : forall c r h acts n b i, wired c -> apart (but_pwm c) -> 1 <= n <= 16 -> is_pin b i -> cape_aux (b_cape c) n = pin b i ->
  Forall at_run_time acts ->
  exists s, orun c (ostart r h) acts = Ok s /\ high (g_regs (o_pins s)) b i = last_told c n (high r b i) (o_log s).
Proof.
  intros c r h acts n b i W A Hn P E F. destruct (run_next c n b i W A Hn P E acts (ostart r h) F) as (s & ev & R1 & _ & R3 & _ & R5); [intros x _; reflexivity|].
  exists s. split; [exact R1|]. rewrite R5, R3. reflexivity.
Qed.
Print Assumptions C76_outputs.

(** ** Once the queue is done *)
Lemma aux_from : forall q e bits, Inv q -> In (EvAux bits) (added (q_log q) (q_log (pru_step e q))) ->
  exists s, seg_at (accepted (q_log q)) (completed (q_log q)) s /\ bits = ms_aux s.
Proof.
  intros q e bits I H. pose proof (inv_pru e q I) as I'. destruct (i_pru _ I') as (runs & partial & _ & _ & P).
  unfold pru_step, with_pru in *. destruct (q_pru q) as [|st dir pp|s'|fr ms t|v| |].
  - destruct (_ =? _); [unfold added in H; rewrite skipn_all in H; destruct H|]. destruct (_ =? _); [unfold added in H; rewrite skipn_all in H; destruct H|].
    destruct (_ =? _); cbn [q_log] in H; rewrite added_app in H; [destruct H|destruct H as [H|[]]; discriminate H].
  - destruct (_ <? _); cbn [q_log q_pru] in *; rewrite added_app in H; [destruct H|]. destruct H as [H|[]]. inversion H; subst bits. clear H.
    cbn [pru_inv] in P. destruct P as (_ & _ & _ & _ & (s & S1 & S2 & S3 & _)). rewrite accepted_app, app_nil_r in S1. unfold completed in S1. rewrite count_app in S1. cbn in S1.
    rewrite Z.add_0_r in S1. exists s. split; [exact S1|]. apply S3.
  - cbn [q_log] in H. unfold added in H. rewrite skipn_all in H. destruct H.
  - destruct e; cbn [q_log] in H; [unfold added in H; rewrite skipn_all in H; destruct H|]. destruct (calculate_delay t) as [dl t']. destruct (dl =? 0); cbn [q_log] in H; rewrite added_app in H; destruct H as [H|[]]; discriminate H.
  - cbn [q_log] in H. rewrite added_app in H. destruct H as [H|[]]. destruct (v =? STATE_EMPTY); discriminate H.
  - cbn [q_log] in H. rewrite added_app in H. destruct H as [H|[]]. discriminate H.
  - unfold added in H; rewrite skipn_all in H; destruct H.
Qed.
Lemma host_no_aux : forall q op bits, ~ In (EvAux bits) (added (q_log q) (q_log (host_step op q))).
Proof.
  intros q op bits. unfold host_step, host_start, with_host. destruct (q_host q) as [|s sd|s sd|s sd|sd|s slot i sd|s slot sd|sd|sd|sd|st|];
    repeat match goal with
    | |- context [if ?b then _ else _] => destruct b
    | |- context [match ?op with OpEnqueue _ => _ | OpWaitEmpty => _ | OpPending => _ | OpShutdown _ => _ end] => destruct op as [?| | |[|]]
    end; cbn [q_log]; rewrite ?added_app; unfold added; rewrite ?skipn_all; cbn [In]; intuition discriminate.
Qed.
Lemma q_grows : forall acts q, exists ev, q_log (fold_left q_step acts q) = q_log q ++ ev.
Proof.
  induction acts as [|a acts IH]; intros q; [exists []; now rewrite app_nil_r|]. destruct (q_log_grows q a) as (e1 & E1). destruct (IH (q_step q a)) as (e2 & E2). exists (e1 ++ e2). cbn [fold_left]. rewrite E2, E1. now rewrite app_assoc.
Qed.
Lemma later_inv : forall acts q, Inv q -> Forall act_ok acts -> Inv (fold_left q_step acts q).
Proof.
  induction acts as [|a acts IH]; intros q I F; [exact I|]. inversion F as [|? ? F1 F2]; subst. cbn [fold_left]. apply IH; [|exact F2]. destruct a as [op|e]; cbn [q_step]; [now apply inv_host|now apply inv_pru].
Qed.
Lemma skip_app : forall (A : Type) (l m : list A) k x, (k <= length l)%nat -> In x (skipn k l) -> In x (skipn k (l ++ m)).
Proof. intros A l m k x L I. rewrite skipn_app. apply in_or_app. now left. Qed.
Section quiet.
Variables (c : board) (n b i : Z).
Hypotheses (W : wired c) (A : apart (but_pwm c)) (Hn : 1 <= n <= 16) (P : is_pin b i) (E : cape_aux (b_cape c) n = pin b i).
Lemma settled : forall later s k level, Inv (o_q s) -> Forall act_ok later -> access (o_pins s) true ->
  (k <= Z.to_nat (completed (q_log (o_q s))))%nat -> high (g_regs (o_pins s)) b i = level ->
  (forall x, In x (skipn k (accepted (q_log (fold_left q_step later (o_q s))))) -> Z.testbit (ms_aux x) (n - 1) = level) ->
  exists s', orun c s (map OQueue later) = Ok s' /\ o_q s' = fold_left q_step later (o_q s) /\ high (g_regs (o_pins s')) b i = level.
Proof.
  induction later as [|a later IH]; intros s k level I F H K L G; [exists s; auto|].
  inversion F as [|? ? F1 F2]; subst. cbn [map orun ostep obind].
  set (q := q_step (o_q s) a). set (es := added (q_log (o_q s)) (q_log q)).
  destruct (firmware_all c n b i W A Hn P E es (o_pins s) H) as [G1 G2].
  set (s1 := mk_osys q (fold_left (firmware_write c) es (o_pins s)) (o_hw s) (o_log s ++ map inl es)).
  assert (I1 : Inv q) by (apply (later_inv [a]); [exact I|constructor; [exact F1|constructor]]).
  destruct (q_log_grows (o_q s) a) as (ev & Q). fold q in Q. assert (Ees : es = ev) by (unfold es; rewrite Q; apply added_app).
  destruct (q_grows later q) as (ev2 & Q2).
  assert (C1 : completed (q_log (o_q s)) <= completed (q_log q)) by (rewrite Q; unfold completed; rewrite count_app; pose proof (count_nonneg is_end ev); lia).
  destruct (i_ring _ I) as (Hd & [Hd2 _] & _).
  apply (IH s1 k (high (g_regs (o_pins s)) b i)); cbn [o_q o_pins s1]; try assumption; [lia|]. rewrite G2.
  assert (Z1 : forall bits, In (EvAux bits) es -> Z.testbit bits (n - 1) = high (g_regs (o_pins s)) b i).
  { intros bits J. unfold es, q in J. destruct a as [op|e]; cbn [q_step] in J; [now apply host_no_aux in J|]. destruct (aux_from _ _ _ I J) as (x & [X0 X1] & ->). apply G.
    cbn [fold_left]. fold q. rewrite Q2, Q, !accepted_app, <- app_assoc. apply skip_app.
    - assert ((Z.to_nat (completed (q_log (o_q s))) < length (accepted (q_log (o_q s))))%nat) by (apply nth_error_Some; congruence). lia.
    - rewrite <- (firstn_skipn k (accepted (q_log (o_q s)))) in X1. rewrite nth_error_app2 in X1; [now apply nth_error_In in X1|]. rewrite firstn_length. lia. }
  clear - Z1. induction es as [|e es IH] using rev_ind; [reflexivity|]. rewrite map_app, fold_left_app. cbn [map fold_left]. rewrite IH by (intros bits J; apply Z1, in_or_app; now left).
  unfold next at 1, tells. destruct e; try reflexivity. apply Z1. apply in_or_app. right. now left.
Qed.
End quiet.

(** C76: when all segments are done, an output keeps its level until a segment with
    another level for it is accepted, or the host switches it. *)
Theorem C76_settled : forall c r h acts later n b i s, wired c -> apart (but_pwm c) -> 1 <= n <= 16 -> is_pin b i -> cape_aux (b_cape c) n = pin b i ->
  Forall at_run_time acts -> Forall act_ok (queue_acts acts) -> Forall act_ok later ->
  orun c (ostart r h) acts = Ok s ->
  let before := accepted (q_log (o_q s)) in
  completed (q_log (o_q s)) = Z.of_nat (length before) ->
  exists s' new, orun c s (map OQueue later) = Ok s' /\ accepted (q_log (o_q s')) = before ++ new /\
    ((forall x, In x new -> Z.testbit (ms_aux x) (n - 1) = high (g_regs (o_pins s)) b i) ->
     high (g_regs (o_pins s')) b i = high (g_regs (o_pins s)) b i).
Proof.
  intros c r h acts later n b i s W A Hn P E F1 F2 F3 R before D.
  destruct (run_next c n b i W A Hn P E acts (ostart r h) F1) as (s0 & ev & R1 & R2 & _ & R4 & _); [intros x _; reflexivity|]. rewrite R in R1. inversion R1; subst s0.
  assert (I : Inv (o_q s)) by (rewrite R4; apply later_inv; [apply inv_init|exact F2]).
  destruct (run_next c n b i W A Hn P E (map OQueue later) s) as (s' & ev' & T1 & _ & _ & T4 & _); [apply Forall_forall; intros a J; apply in_map_iff in J; destruct J as (x & <- & _); exact Logic.I|exact R2|].
  assert (Ql : queue_acts (map OQueue later) = later) by (clear; induction later as [|a l IH]; [reflexivity|cbn; now f_equal]). rewrite Ql in T4.
  destruct (q_grows later (o_q s)) as (ev2 & Q2). exists s', (accepted ev2). split; [exact T1|]. split; [rewrite T4, Q2, accepted_app; reflexivity|].
  intros G. destruct (settled c n b i W A Hn P E later s (length before) (high (g_regs (o_pins s)) b i) I F3 R2) as (s2 & U1 & _ & U3).
  - unfold before in *. lia.
  - reflexivity.
  - rewrite Q2, accepted_app. fold before. rewrite skipn_app, skipn_all, Nat.sub_diag. exact G.
  - rewrite T1 in U1. now inversion U1; subst.
Qed.
Print Assumptions C76_settled.

(** ** The emergency stop *)
(** VGEN5 with the spindle at its connector 14, spindle on. *)
Definition spindle_on : hw :=
  hw_run (b_cape vgen5) [HwAddAux OutSpindle 14; HwInit true; HwUpdateOutput OutEstop false; HwUpdateOutput OutSpindle true; HwSetAux].
(** A segment of a path with the outputs as they are. *)
Definition cutting : motion_segment :=
  {| ms_state := STATE_FILLED; ms_direction_bits := 5; ms_loops_accel := 0; ms_loops_travel := 2;
     ms_loops_decel := 0; ms_aux := hw_aux spindle_on; ms_accel_series_index := 0; ms_hires_accel_cycles := 0;
     ms_travel_delay_cycles := 1000; ms_fractions := fun m => if motor_ix m =? 0 then 2 ^ 31 else 0 |}.
(** What set_estop does (gcode-machine-control.cc:420-427): switch spindle and outputs off,
    remember the stop, wait for the queue, switch the motors off. *)
Definition stop : list oact :=
  [OHw (HwUpdateOutput OutSpindle false); OHw HwSetAux; OHw HwAuxOff; OHw (HwUpdateOutput OutEstop true); OQueue (Host OpWaitEmpty)].
Definition stop_acts : list oact :=
  map OQueue (enqueue cutting) ++ stop ++ map OQueue (repeat (Pru false) 70) ++ [OQueue (Host OpWaitEmpty); OHw (HwEnableMotors false)].
Definition stop_state : osys := match orun vgen5 (ostart blank spindle_on) stop_acts with Ok s => s | Undefined => ostart blank spindle_on end.
Lemma queue_run_time : forall l, Forall at_run_time (map OQueue l).
Proof. intros l. apply Forall_forall. intros a J. apply in_map_iff in J. destruct J as (x & <- & _). exact I. Qed.
Lemma stop_run_time : Forall at_run_time stop_acts.
Proof.
  unfold stop_acts. apply Forall_app. split; [apply queue_run_time|]. apply Forall_app. split; [unfold stop; repeat (apply Forall_cons; [exact I|]); apply Forall_nil|].
  apply Forall_app. split; [apply queue_run_time|]. repeat (apply Forall_cons; [exact I|]); apply Forall_nil.
Qed.
Lemma cutting_ok : seg_ok cutting.
Proof.
  assert (E : hw_aux spindle_on = 8192) by (vm_compute; reflexivity).
  unfold seg_ok, cutting; cbn [ms_state ms_direction_bits ms_loops_accel ms_loops_travel ms_loops_decel ms_aux ms_accel_series_index ms_hires_accel_cycles ms_travel_delay_cycles ms_fractions].
  rewrite E. unfold STATE_FILLED, STATE_ABORT. repeat split; try lia; destruct m; cbn; lia.
Qed.
Lemma acts_of : forall l, queue_acts (map OQueue l) = l.
Proof. induction l as [|a l IH]; [reflexivity|]. unfold queue_acts in *. cbn [map flat_map app]. now rewrite IH. Qed.
Lemma stop_ok : Forall act_ok (queue_acts stop_acts).
Proof.
  unfold stop_acts, queue_acts. rewrite !flat_map_app. fold (queue_acts (map OQueue (enqueue cutting))). fold (queue_acts (map OQueue (repeat (Pru false) 70))). rewrite !acts_of.
  apply Forall_app. split; [apply enqueue_ok, cutting_ok|]. apply Forall_app. split; [apply Forall_cons; [exact I|apply Forall_nil]|].
  apply Forall_app. split; [apply Forall_forall; intros a J; apply repeat_spec in J; subst; exact I|]. apply Forall_cons; [exact I|apply Forall_nil].
Qed.
Lemma stop_is : orun vgen5 (ostart blank spindle_on) stop_acts = Ok stop_state.
Proof.
  destruct (C75_capes vgen5) as (W & A & _); [right; right; right; now left|].
  destruct (C76_outputs vgen5 blank spindle_on stop_acts 14 3 14 W A) as (s & R & _); [lia|split; lia|reflexivity|exact stop_run_time|].
  unfold stop_state. rewrite R. reflexivity.
Qed.
(** C76: an emergency stop does not switch the outputs off for good: the segments that are
    still in the queue switch them on again, and nobody switches them off after the last one.
    Spindle and motors have been switched off, the host believes the spindle off, the queue is done, and the spindle is on. *)
Theorem C76_stop_refuted : Forall at_run_time stop_acts /\ Forall act_ok (queue_acts stop_acts) /\
  exists s, orun vgen5 (ostart blank spindle_on) stop_acts = Ok s /\
    hw_estop (o_hw s) = true /\ hw_enabled (o_hw s) = false /\ hw_aux (o_hw s) = 0 /\
    completed (q_log (o_q s)) = Z.of_nat (length (accepted (q_log (o_q s)))) /\ In EvEmpty (q_log (o_q s)) /\
    Z.testbit (hw_aux_of (o_hw s) OutSpindle) (14 - 1) = true /\ cape_aux (b_cape vgen5) 14 = pin 3 14 /\ high (g_regs (o_pins s)) 3 14 = true.
Proof.
  split; [exact stop_run_time|]. split; [exact stop_ok|]. exists stop_state. split; [exact stop_is|].
  split; [vm_compute; reflexivity|]. split; [vm_compute; reflexivity|]. split; [vm_compute; reflexivity|]. split; [vm_compute; reflexivity|]. split.
  - assert (X : existsb (fun e => match e with EvEmpty => true | _ => false end) (q_log (o_q stop_state)) = true) by (vm_compute; reflexivity).
    apply existsb_exists in X. destruct X as (e & J & Y). assert (Z1 : e = EvEmpty) by (clear J; destruct e; (reflexivity || discriminate Y)). rewrite <- Z1. exact J.
  - split; [vm_compute; reflexivity|]. split; [reflexivity|vm_compute; reflexivity].
Qed.
Print Assumptions C76_stop_refuted.

(** ** The end of a file *)
(** What M5 and the end of a file do to a spindle (gcode-machine-control.cc:522-527, 787-792;
    spindle-control.cc:207-215): the path is in the queue, then the output is switched off. *)
Definition spindle_off : list oact := [OHw (HwUpdateOutput OutSpindle false); OHw HwSetAux].
Definition end_acts : list oact := map OQueue (enqueue cutting) ++ spindle_off ++ map OQueue (repeat (Pru false) 70).
Definition end_state : osys := match orun vgen5 (ostart blank spindle_on) end_acts with Ok s => s | Undefined => ostart blank spindle_on end.
Definition done_acts : list oact := map OQueue (enqueue cutting) ++ map OQueue (repeat (Pru false) 70) ++ spindle_off.
Definition done_state : osys := match orun vgen5 (ostart blank spindle_on) done_acts with Ok s => s | Undefined => ostart blank spindle_on end.
Lemma off_run_time : Forall at_run_time spindle_off.
Proof. unfold spindle_off. repeat (apply Forall_cons; [exact I|]); apply Forall_nil. Qed.
Lemma end_run_time : Forall at_run_time end_acts /\ Forall at_run_time done_acts.
Proof. unfold end_acts, done_acts. split; repeat (apply Forall_app; split); (apply queue_run_time || apply off_run_time). Qed.
Lemma idle_ok : forall k, Forall act_ok (repeat (Pru false) k).
Proof. intros k. apply Forall_forall. intros a J. apply repeat_spec in J. subst. exact I. Qed.
Lemma end_ok : Forall act_ok (queue_acts end_acts) /\ Forall act_ok (queue_acts done_acts).
Proof.
  unfold end_acts, done_acts, queue_acts. rewrite !flat_map_app. fold (queue_acts (map OQueue (enqueue cutting))). fold (queue_acts (map OQueue (repeat (Pru false) 70))). rewrite !acts_of.
  split; repeat (apply Forall_app; split); try (apply enqueue_ok, cutting_ok); try apply idle_ok; apply Forall_nil.
Qed.
Lemma end_is : orun vgen5 (ostart blank spindle_on) end_acts = Ok end_state /\ orun vgen5 (ostart blank spindle_on) done_acts = Ok done_state.
Proof.
  destruct (C75_capes vgen5) as (W & A & _); [right; right; right; now left|]. split.
  - destruct (C76_outputs vgen5 blank spindle_on end_acts 14 3 14 W A) as (s & R & _); [lia|split; lia|reflexivity|apply end_run_time|].
    unfold end_state. rewrite R. reflexivity.
  - destruct (C76_outputs vgen5 blank spindle_on done_acts 14 3 14 W A) as (s & R & _); [lia|split; lia|reflexivity|apply end_run_time|].
    unfold done_state. rewrite R. reflexivity.
Qed.
Lemma idle_new : forall k q, accepted (q_log (fold_left q_step (repeat (Pru false) k) q)) = accepted (q_log q).
Proof.
  induction k as [|k IH]; intros q; [reflexivity|]. cbn [repeat fold_left]. rewrite IH. cbn [q_step]. clear.
  unfold pru_step, with_pru. destruct (q_pru q) as [|st dir pp|s'|fr ms t|v| |]; [| | |destruct (calculate_delay t) as [dl t']| | |];
    repeat match goal with |- context [if ?b then _ else _] => destruct b end; cbn [q_log]; rewrite ?accepted_app; cbn; now rewrite ?app_nil_r.
Qed.
(** In the state that is reached, as in any in which all segments are done: without a new segment nothing changes. *)
Lemma stays : forall acts s, Forall at_run_time acts -> Forall act_ok (queue_acts acts) -> orun vgen5 (ostart blank spindle_on) acts = Ok s ->
  completed (q_log (o_q s)) = Z.of_nat (length (accepted (q_log (o_q s)))) ->
  forall k, exists s', orun vgen5 s (map OQueue (repeat (Pru false) k)) = Ok s' /\ high (g_regs (o_pins s')) 3 14 = high (g_regs (o_pins s)) 3 14.
Proof.
  intros acts s F1 F2 R D k. destruct (C75_capes vgen5) as (W & A & _); [right; right; right; now left|].
  destruct (C76_settled vgen5 blank spindle_on acts (repeat (Pru false) k) 14 3 14 s W A) as (s' & new & T & N & G); try assumption; [lia|split; lia|reflexivity|apply idle_ok|].
  exists s'. split; [exact T|]. apply G.
  destruct (run_next vgen5 14 3 14 W A ltac:(lia) ltac:(split; lia) eq_refl acts (ostart blank spindle_on) F1) as (s0 & ev & R1 & R2 & _); [intros x _; reflexivity|].
  rewrite R in R1. inversion R1; subst s0.
  destruct (run_next vgen5 14 3 14 W A ltac:(lia) ltac:(split; lia) eq_refl (map OQueue (repeat (Pru false) k)) s (queue_run_time _) R2) as (s1 & ev1 & U1 & _ & _ & U4 & _).
  rewrite T in U1. inversion U1; subst s1. rewrite acts_of in U4. rewrite U4, idle_new in N.
  assert (L : length new = 0%nat) by (apply (f_equal (@length _)) in N; rewrite app_length in N; lia). destruct new; [intros x []|discriminate L].
Qed.
(** C76: a file that ends with M5, or just ends, leaves the spindle on when its last segments are still
    in the queue: they switch it on again, and it stays on for ever. The host believes it off. *)
Theorem C76_spindle_off_refuted : Forall at_run_time end_acts /\ Forall act_ok (queue_acts end_acts) /\
  exists s, orun vgen5 (ostart blank spindle_on) end_acts = Ok s /\ hw_aux (o_hw s) = 0 /\
    completed (q_log (o_q s)) = Z.of_nat (length (accepted (q_log (o_q s)))) /\
    cape_aux (b_cape vgen5) 14 = pin 3 14 /\
    forall k, exists s', orun vgen5 s (map OQueue (repeat (Pru false) k)) = Ok s' /\ high (g_regs (o_pins s')) 3 14 = true.
Proof.
  destruct end_run_time as [F1 _]. destruct end_ok as [F2 _]. destruct end_is as [R _].
  split; [exact F1|]. split; [exact F2|]. exists end_state. split; [exact R|]. split; [vm_compute; reflexivity|].
  assert (D : completed (q_log (o_q end_state)) = Z.of_nat (length (accepted (q_log (o_q end_state))))) by (vm_compute; reflexivity).
  split; [exact D|]. split; [reflexivity|]. intros k. destruct (stays end_acts end_state F1 F2 R D k) as (s' & T & H). exists s'. split; [exact T|]. rewrite H. vm_compute. reflexivity.
Qed.
Print Assumptions C76_spindle_off_refuted.
(** Switched off when all segments are done, it is off, and stays off. *)
Example C76_example : Forall at_run_time done_acts /\ Forall act_ok (queue_acts done_acts) /\ orun vgen5 (ostart blank spindle_on) done_acts = Ok done_state /\
  completed (q_log (o_q done_state)) = 1 /\ length (accepted (q_log (o_q done_state))) = 1%nat /\
  Z.testbit (ms_aux cutting) (14 - 1) = true /\ high (g_regs (o_pins done_state)) 3 14 = false /\
  forall k, exists s', orun vgen5 done_state (map OQueue (repeat (Pru false) k)) = Ok s' /\ high (g_regs (o_pins s')) 3 14 = false.
Proof.
  destruct end_run_time as [_ F1]. destruct end_ok as [_ F2]. destruct end_is as [_ R].
  split; [exact F1|]. split; [exact F2|]. split; [exact R|]. split; [vm_compute; reflexivity|]. split; [vm_compute; reflexivity|]. split; [vm_compute; reflexivity|].
  assert (H0 : high (g_regs (o_pins done_state)) 3 14 = false) by (vm_compute; reflexivity).
  split; [exact H0|]. intros k.
  assert (D : completed (q_log (o_q done_state)) = Z.of_nat (length (accepted (q_log (o_q done_state))))) by (vm_compute; reflexivity).
  destruct (stays done_acts done_state F1 F2 R D k) as (s' & T & H). exists s'. split; [exact T|]. now rewrite H.
Qed.
