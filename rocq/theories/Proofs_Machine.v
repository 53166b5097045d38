From Verif Require Import Base Text Model_Axis Model_Float Model_Hardware Model_Machine Spec_Machine Spec_Hardware Proofs_Hardware.

(** * Programs that respect a preorder on states *)
Definition hold {A} (R : machine -> machine -> Prop) (m : M A) : Prop := forall s, R s (snd (m s)).

Lemma hold_bind : forall (R : machine -> machine -> Prop) A B (m : M A) (f : A -> M B),
  (forall a b d, R a b -> R b d -> R a d) -> hold R m -> (forall x, hold R (f x)) -> hold R (bind m f).
Proof.
  intros R A B m f T Hm Hf s. unfold bind. specialize (Hm s). destruct (m s) as [[x|] s']; cbn [snd] in *; auto.
  eapply T; [exact Hm|apply Hf].
Qed.

(** The log grows by events satisfying P. *)
Definition grows (P : event -> Prop) (s s' : machine) : Prop := exists new, m_log s' = m_log s ++ new /\ Forall P new.
Lemma grows_trans : forall P a b d, grows P a b -> grows P b d -> grows P a d.
Proof.
  intros P a b d (n1 & E1 & F1) (n2 & E2 & F2). exists (n1 ++ n2). split; [now rewrite E2, E1, app_assoc|now apply Forall_app].
Qed.
Lemma grows_same : forall P s s', m_log s' = m_log s -> grows P s s'.
Proof. intros P s s' E. exists []. now rewrite E, app_nil_r. Qed.
Lemma grows_weaken : forall (P Q : event -> Prop) s s', (forall e, P e -> Q e) -> grows P s s' -> grows Q s s'.
Proof. intros P Q s s' H (n & E & F). exists n. split; auto. eapply Forall_impl; eauto. Qed.

(** Effects on homing state, stop, motor power. *)
Record quiet (s s' : machine) : Prop := {
  q_homing : m_homing s' = m_homing s;
  q_stop : stop_on s' = stop_on s;
  q_ready : hw_ready (m_hw s') = hw_ready (m_hw s);
  q_power : power_on s' = true -> power_on s = true \/ stop_on s = false;
  q_sim : hw_ready (m_hw s) = false -> power_on s' = power_on s
}.
Lemma quiet_refl : forall s, quiet s s.
Proof. intros s. constructor; auto. Qed.
Lemma quiet_trans : forall a b d, quiet a b -> quiet b d -> quiet a d.
Proof.
  intros a b d [H1 S1 R1 P1 M1] [H2 S2 R2 P2 M2]. constructor; try congruence.
  - intros H. destruct (P2 H) as [X|X]; auto. right. congruence.
  - intros H. rewrite M2, M1; auto. congruence.
Qed.

(** Which hardware calls are quiet. *)
Definition quiet_op (op : hw_op) : Prop :=
  match op with HwUpdateOutput OutEstop _ | HwInit _ | HwConfig _ _ _ => False | _ => True end.
Lemma quiet_hw : forall c s op, quiet_op op -> quiet s (snd (act c (DoHw op) s)).
Proof.
  intros c s op H. unfold act, stop_on. cbn [snd].
  assert (G : let h := m_hw s in let h' := hw_step (c_cape c) h op in
    hw_estop h' = hw_estop h /\ hw_ready h' = hw_ready h /\ (hw_enabled h' = true -> hw_enabled h = true \/ hw_estop h = false) /\
    (hw_ready h = false -> hw_enabled h' = hw_enabled h)).
  { cbv zeta. set (h := m_hw s). destruct op; cbn [quiet_op] in H; try contradiction; cbn [hw_step].
    - destruct (add_aux_state (c_cape c) o aux h) as (A & B & C & D & E). rewrite ?A, ?B, ?C, ?D. auto.
    - destruct (add_pwm_state (c_cape c) o pwm h) as (A & B & C & D & E). rewrite ?A, ?B, ?C, ?D. auto.
    - destruct (add_motor_state a motor mirrored h) as (A & B & C & D & E). rewrite ?A, ?B, ?C, ?D. auto.
    - unfold enable_motors. destruct (hw_ready h) eqn:R; cbn [negb]; auto.
      cbn [set_state hw_estop hw_ready hw_enabled]. split; auto. split; auto. split; [|discriminate].
      destruct on, (hw_estop h); cbn; auto; discriminate.
    - unfold update_aux_bits. cbn. auto.
    - unfold update_aux_bitmap. cbn. destruct o; cbn in *; auto. contradiction.
    - unfold set_aux_outputs. destruct (negb (hw_ready h)); cbn; auto.
    - unfold aux_outputs_off, set_aux_outputs. cbn. destruct (negb (hw_ready h)); cbn; auto.
    - unfold set_pwm_output. destruct (negb (hw_ready h)); cbn; auto. }
  cbv zeta in G. destruct G as (G1 & G2 & G3 & G4). constructor; unfold power_on, stop_on; cbn [m_homing m_hw]; auto.
Qed.


(** * Which primitives a program uses *)
Inductive prim :=
| PAsk (q : query) | PAct (a : action) | PHoming (h : homing)
| PFeed (f : fl) | PFactor (f : fl) | POffMotor (t : Z) | POffFan (t : Z) | PPause (b : bool).
Definition run_prim (c : mcfg) (p : prim) : M unit :=
  match p with
  | PAsk q => ask q ;;; ret tt
  | PAct a => act c a
  | PHoming h => set_homing h
  | PFeed f => set_feed f
  | PFactor f => set_factor f
  | POffMotor t => set_off_motor t
  | POffFan t => set_off_fan t
  | PPause b => set_pause b
  end.
Definition preorder (R : machine -> machine -> Prop) : Prop := (forall s, R s s) /\ (forall a b d, R a b -> R b d -> R a d).
Definition uses {A} (c : mcfg) (ok : prim -> Prop) (m : M A) : Prop :=
  forall R, preorder R -> (forall p, ok p -> hold R (run_prim c p)) -> hold R m.

Section Uses.
Variable c : mcfg.
Variable ok : prim -> Prop.
Lemma uses_bind : forall A B (m : M A) (f : A -> M B), uses c ok m -> (forall x, uses c ok (f x)) -> uses c ok (bind m f).
Proof.
  intros A B m f Hm Hf R P H. apply hold_bind; [apply P|now apply Hm|]. intros x. now apply Hf.
Qed.
Lemma uses_ret : forall A (x : A), uses c ok (ret x).
Proof. intros A x R [P _] _ s. apply P. Qed.
Lemma uses_get : uses c ok get.
Proof. intros R [P _] _ s. apply P. Qed.
Lemma uses_in_estop : uses c ok in_estop.
Proof. intros R [P _] _ s. apply P. Qed.
Lemma uses_limit : uses c ok loop_limit.
Proof. intros R [P _] _ s. apply P. Qed.
Lemma uses_stuck : forall A, uses c ok (fun s => (@None A, s)).
Proof. intros A R [P _] _ s. apply P. Qed.
Lemma uses_ask : forall q, ok (PAsk q) -> uses c ok (ask q).
Proof.
  intros q Hq R P H s. specialize (H _ Hq s). cbn in H. unfold bind, ask in *. destruct (m_in s); cbn in *; auto.
Qed.
Lemma uses_act : forall a, ok (PAct a) -> uses c ok (act c a).
Proof. intros a Ha R P H. exact (H _ Ha). Qed.
Lemma uses_homing : forall h, ok (PHoming h) -> uses c ok (set_homing h).
Proof. intros a Ha R P H. exact (H _ Ha). Qed.
Lemma uses_feed : forall f, ok (PFeed f) -> uses c ok (set_feed f).
Proof. intros a Ha R P H. exact (H _ Ha). Qed.
Lemma uses_factor : forall f, ok (PFactor f) -> uses c ok (set_factor f).
Proof. intros a Ha R P H. exact (H _ Ha). Qed.
Lemma uses_off_motor : forall t, ok (POffMotor t) -> uses c ok (set_off_motor t).
Proof. intros a Ha R P H. exact (H _ Ha). Qed.
Lemma uses_off_fan : forall t, ok (POffFan t) -> uses c ok (set_off_fan t).
Proof. intros a Ha R P H. exact (H _ Ha). Qed.
Lemma uses_pause : forall b, ok (PPause b) -> uses c ok (set_pause b).
Proof. intros a Ha R P H. exact (H _ Ha). Qed.
End Uses.

Ltac foot_hook := fail.
Ltac foot :=
  repeat first
    [ foot_hook | apply uses_bind; [|intros ?]
    | apply uses_ret | apply uses_get | apply uses_in_estop | apply uses_limit | apply uses_stuck
    | apply uses_ask; solve [cbn; auto] | apply uses_act; solve [cbn; auto] | apply uses_homing; solve [cbn; auto|discriminate]
    | apply uses_feed; solve [cbn; auto] | apply uses_factor; solve [cbn; auto] | apply uses_off_motor; solve [cbn; auto]
    | apply uses_off_fan; solve [cbn; auto] | apply uses_pause; solve [cbn; auto]
    | solve [auto]
    | match goal with
      | |- uses _ _ (if ?b then _ else _) => destruct b
      | |- uses _ _ (when ?b _) => unfold when; destruct b
      | |- uses _ _ (match ?x with _ => _ end) => destruct x
      | |- uses _ _ (test _) => unfold test
      | |- uses _ _ (int_of _) => unfold int_of
      | |- uses _ _ (halt _) => unfold halt
      | |- uses _ _ (motor_enable _ _) => unfold motor_enable
      | |- uses _ _ (motors_enable _ _) => unfold motors_enable
      | |- uses _ _ (set_output_flags _ _ _) => unfold set_output_flags
      | |- uses _ _ (set_fanspeed _ _) => unfold set_fanspeed
      | |- uses _ _ (set_spindle_off _) => unfold set_spindle_off
      | |- uses _ _ (set_estop _) => unfold set_estop
      | |- uses _ _ (clear_estop _) => unfold clear_estop
      | |- uses _ _ (check_for_estop _) => unfold check_for_estop
      | |- uses _ _ (direct_drive _ _ _ _ _) => unfold direct_drive
      | |- uses _ _ (enqueue _ _ _) => unfold enqueue
      end ].

(** Primitives of everything but moves, homing and emergency stop. *)
Definition calm (p : prim) : Prop :=
  match p with
  | PAct (DoEnqueue _ _) | PAct (DoDrive _ _ _ _) | PAct (DoSetPos _ _) | PAct (DoMotors _) => False
  | PAct (DoHw op) => quiet_op op
  | PHoming _ => False
  | PFeed _ | POffMotor _ => False
  | _ => True
  end.
Definition calm_or_stop (p : prim) : Prop :=
  match p with
  | PAct (DoHw (HwUpdateOutput OutEstop b)) => b = true
  | PAct (DoMotors b) => b = false
  | PHoming h => h <> Homed
  | _ => calm p
  end.
Lemma uses_weaken : forall A c (ok ok' : prim -> Prop) (m : M A), (forall p, ok p -> ok' p) -> uses c ok m -> uses c ok' m.
Proof. intros A c ok ok' m H U R P Hp. apply U; auto. Qed.
Lemma calm_stop : forall p, calm p -> calm_or_stop p.
Proof.
  intros []; cbn; auto; try contradiction. destruct a; cbn; auto; try contradiction.
  destruct op; cbn; auto. destruct o; cbn; auto.
Qed.

Lemma uses_wait_unpaused : forall c (ok : prim -> Prop) n a, ok (PAsk QPause) -> uses c ok (wait_unpaused n a).
Proof. intros c ok n. induction n as [|n IH]; intros a H; cbn [wait_unpaused]; foot. Qed.
Lemma uses_wait_started : forall c n, uses c calm (wait_started c n).
Proof. intros c n. induction n as [|n IH]; cbn [wait_started]; foot. Qed.
Lemma uses_wait_for_start : forall c, uses c calm (wait_for_start c).
Proof.
  intros c. unfold wait_for_start. foot. 1: now apply uses_wait_unpaused. all: apply uses_wait_started.
Qed.
Lemma uses_estop : forall c, uses c calm_or_stop (set_estop c).
Proof. intros c. foot. Qed.
Lemma uses_check : forall c, uses c calm_or_stop (check_for_estop c).
Proof. intros c. unfold check_for_estop. foot. Qed.

(** ** The primitives of every call *)
Definition fp (e : call) (p : prim) : Prop :=
  match p with
  | PAct (DoEnqueue pos _) => match e with CoordinatedMove _ q | RapidMove _ q => pos = q | _ => False end
  | PAct (DoDrive a _ _ _) | PAct (DoSetPos a _) => match e with GoHome _ => True | ProbeAxis _ b => a = b | _ => False end
  | PAct (DoMotors true) => e = MotorsEnable true
  | PAct (DoHw (HwUpdateOutput OutEstop false)) =>
      match e with GoHome _ => True | MCode n _ => n = 999 | _ => False end
  | PAct (DoHw (HwInit _)) | PAct (DoHw (HwConfig _ _ _)) => False
  | PAct (DoSpindleOn _ _) => match e with MCode n _ => n = 3 \/ n = 4 | _ => False end
  | PHoming Homed => match e with GoHome _ => True | _ => False end
  | PFeed _ => match e with CoordinatedMove _ _ | RapidMove _ _ => True | _ => False end
  | PFactor _ => match e with SetSpeedFactor _ => True | _ => False end
  | POffMotor _ | POffFan _ => match e with InputIdle _ => True | _ => False end
  | PPause _ => match e with MCode n _ => n = 120 \/ n = 121 | _ => False end
  | _ => True
  end.
Lemma uses_estop_fp : forall c e, uses c (fp e) (set_estop c).
Proof. intros c e. foot. Qed.
Lemma uses_check_fp : forall c e, uses c (fp e) (check_for_estop c).
Proof. intros c e. unfold check_for_estop. foot. Qed.
Lemma uses_wait_fp : forall c e, uses c (fp e) (wait_for_start c).
Proof.
  intros c e. unfold wait_for_start. foot; try (apply uses_wait_unpaused; exact I).
  match goal with |- uses _ _ (wait_started _ ?k) => generalize k end.
  intros n. induction n as [|n IH]; cbn [wait_started]; foot.
Qed.
Lemma uses_to_switch : forall c b a t v1 n v0, uses c (fp (GoHome b)) (drive_to_switch c a t v1 n v0).
Proof. intros c b a t v1 n. induction n as [|n IH]; intros v0; cbn [drive_to_switch]; foot. Qed.
Lemma uses_off_switch : forall c b a t v0 v1 n, uses c (fp (GoHome b)) (drive_off_switch c a t v0 v1 n).
Proof. intros c b a t v0 v1 n. induction n as [|n IH]; cbn [drive_off_switch]; foot. Qed.
Lemma uses_home_axis : forall c b a, uses c (fp (GoHome b)) (home_axis c a).
Proof.
  intros c b a. unfold home_axis, move_to_endstop. foot; try apply uses_to_switch; try apply uses_off_switch.
Qed.
Lemma uses_home_axes : forall c b m order, uses c (fp (GoHome b)) (home_axes c m order).
Proof. intros c b m order. induction order as [|ch r IH]; cbn [home_axes]; foot. all: apply uses_home_axis. Qed.
Lemma uses_to_probe : forall c f a neg v1 mx n v0 tot, uses c (fp (ProbeAxis f a)) (drive_to_probe c a neg v1 mx n v0 tot).
Proof. intros c f a neg v1 mx n. induction n as [|n IH]; intros v0 tot; cbn [drive_to_probe]; foot. Qed.
Lemma uses_spindle_speed : forall c e ps r, uses c (fp e) (spindle_speed ps r).
Proof. intros c e ps. induction ps as [|[ch v] ps IH]; intros r; cbn [spindle_speed]; foot. Qed.
Lemma uses_pin_value : forall c e b ps p r, uses c (fp e) (pin_and_value b ps p r).
Proof. intros c e b ps. induction ps as [|[ch v] ps IH]; intros p r; cbn [pin_and_value]; foot. Qed.
Lemma uses_light_value : forall c e ps r, uses c (fp e) (light_value ps r).
Proof. intros c e ps. induction ps as [|[ch v] ps IH]; intros r; cbn [light_value]; foot. Qed.
Ltac foot_hook ::=
  match goal with
  | |- uses _ _ (wait_for_start _) => apply uses_wait_fp
  | |- uses _ _ (set_estop _) => apply uses_estop_fp
  | |- uses _ _ (check_for_estop _) => apply uses_check_fp
  | |- uses _ _ (home_axes _ _ _) => apply uses_home_axes
  | |- uses _ _ (drive_to_probe _ _ _ _ _ _ _ _) => apply uses_to_probe
  | |- uses _ _ (spindle_speed _ _) => apply uses_spindle_speed
  | |- uses _ _ (pin_and_value _ _ _ _) => apply uses_pin_value
  | |- uses _ _ (light_value _ _) => apply uses_light_value
  end.
Lemma uses_perform : forall c e, uses c (fp e) (perform c e).
Proof.
  intros c [| | | |b|f a|f|f| |on|f pos|f pos|n ps]; cbn [perform].
  - unfold gcode_start. foot.
  - unfold gcode_finished. foot.
  - unfold input_idle. foot.
  - apply uses_wait_fp.
  - unfold go_home. foot.
  - unfold probe_axis, move_to_probe. foot.
  - unfold set_speed_factor. foot.
  - foot.
  - unfold dwell. foot.
  - unfold motors_enable, motor_enable. foot. all: destruct on; try (apply uses_act; cbn; auto).
  - unfold coordinated_move. foot.
  - unfold rapid_move. foot.
  - unfold special_commands.
    repeat match goal with |- uses _ _ (match ?x with _ => _ end) => destruct x end.
    all: try (unfold aux_bit_commands, set_spindle_on, set_pin, handle_set_lookahead, dwell; cbv iota beta; foot; fail).
Qed.

(** ** What follows from the primitives *)
Definition emitted (p : prim) (e : event) : Prop :=
  match p with PAsk q => exists z, e = Ask q z | PAct a => e = Did a | _ => False end.
Lemma grows_preorder : forall P, preorder (grows P).
Proof. intros P. split; [intros s; now apply grows_same|apply grows_trans]. Qed.
Lemma uses_grows : forall A c ok (m : M A) (P : event -> Prop), uses c ok m ->
  (forall p e, ok p -> emitted p e -> P e) -> hold (grows P) m.
Proof.
  intros A c ok m P U H. apply U; [apply grows_preorder|]. intros p Hp s.
  destruct p; cbn [run_prim]; try (apply grows_same; reflexivity).
  - unfold bind, ask, ret. destruct (m_in s) as [|z r]; cbn; [now apply grows_same|].
    exists [Ask q z]. split; [reflexivity|]. constructor; auto. apply (H _ _ Hp). cbn. eauto.
  - exists [Did a]. split; [reflexivity|]. constructor; auto. now apply (H _ _ Hp).
Qed.
Lemma call_grows : forall c e s s' new (P : event -> Prop), adds c e s s' new ->
  (forall p ev, fp e p -> emitted p ev -> P ev) -> Forall P new.
Proof.
  intros c e s s' new P [E1 E2] H. destruct (uses_grows _ _ _ _ P (uses_perform c e) H s) as (n & E & F).
  rewrite E1, E2 in E. apply app_inv_head in E. now subst.
Qed.

(** Completed runs. *)
Definition holdS {A} (R : machine -> machine -> Prop) (m : M A) : Prop := forall s x s', m s = (Some x, s') -> R s s'.
Lemma bind_some : forall A B (m : M A) (f : A -> M B) s y s', bind m f s = (Some y, s') ->
  exists x s1, m s = (Some x, s1) /\ f x s1 = (Some y, s').
Proof. intros A B m f s y s' H. unfold bind in H. destruct (m s) as [[x|] s1]; [eauto|discriminate]. Qed.
Lemma hold_S : forall A R (m : M A), hold R m -> holdS R m.
Proof. intros A R m H s x s' E. specialize (H s). now rewrite E in H. Qed.
Lemma holdS_bind : forall (R : machine -> machine -> Prop) A B (m : M A) (f : A -> M B),
  (forall a b d, R a b -> R b d -> R a d) -> holdS R m -> (forall x, holdS R (f x)) -> holdS R (bind m f).
Proof.
  intros R A B m f T Hm Hf s y s' E. apply bind_some in E. destruct E as (x & s1 & E1 & E2). eapply T; [eapply Hm; eauto|eapply Hf; eauto].
Qed.

Definition quiet_prim (p : prim) : Prop :=
  match p with PHoming _ => False | PAct (DoHw op) => quiet_op op | _ => True end.
Lemma quiet_pre : preorder quiet.
Proof. split; [apply quiet_refl|apply quiet_trans]. Qed.
Lemma prim_quiet : forall c p, quiet_prim p -> hold quiet (run_prim c p).
Proof.
  intros c p H s. destruct p; cbn [run_prim quiet_prim] in *; try contradiction; try (constructor; auto; fail).
  - unfold bind, ask, ret. destruct (m_in s); cbn; constructor; auto.
  - destruct a; try (constructor; auto; fail). now apply quiet_hw.
Qed.
Lemma uses_quiet : forall A c (m : M A), uses c quiet_prim m -> hold quiet m.
Proof. intros A c m U. apply U; [apply quiet_pre|apply prim_quiet]. Qed.
Ltac foot_hook ::= fail.
Lemma halt_quiet : forall c, hold quiet (halt c).
Proof. intros c. apply uses_quiet with c. foot. Qed.
Lemma spindle_off_quiet : forall c, hold quiet (set_spindle_off c).
Proof. intros c. apply uses_quiet with c. foot. Qed.

Definition sim_off (s : machine) : Prop := hw_ready (m_hw s) = false -> power_on s = false.
Record mild (s s' : machine) : Prop := {
  mi_homing : m_homing s' = m_homing s \/ (m_homing s = Homed /\ m_homing s' = HomedButUnpowered);
  mi_stop : stop_on s' = stop_on s;
  mi_power : power_on s' = true -> power_on s = true \/ stop_on s = false
}.
Definition tripped (s : machine) : Prop := stop_on s = true /\ m_homing s = NeverHomed /\ power_on s = false.
Definition normal (s s' : machine) : Prop := sim_off s -> sim_off s' /\ (mild s s' \/ tripped s').

Lemma quiet_sim : forall s s', quiet s s' -> sim_off s -> sim_off s'.
Proof. intros s s' [_ _ R _ S] H E. rewrite R in E. rewrite S by auto. auto. Qed.
Lemma quiet_mild : forall s s', quiet s s' -> mild s s'.
Proof. intros s s' [H S R P X]. constructor; auto. Qed.
Lemma quiet_normal : forall s s', quiet s s' -> normal s s'.
Proof. intros s s' Q H. split; [eapply quiet_sim; eauto|left; now apply quiet_mild]. Qed.
Lemma mild_trans : forall a b d, mild a b -> mild b d -> mild a d.
Proof.
  intros a b d [H1 S1 P1] [H2 S2 P2]. constructor; [|congruence|].
  - destruct H1 as [H1|[H1 H1']], H2 as [H2|[H2 H2']]; [left; congruence|right; split; congruence|right; split; congruence|congruence].
  - intros H. destruct (P2 H) as [X|X]; auto. right. congruence.
Qed.
Lemma trip_mild : forall b d, tripped b -> mild b d -> tripped d.
Proof.
  intros b d (T1 & T2 & T3) [H S P]. split; [congruence|]. split; [destruct H as [H|[H _]]; congruence|].
  destruct (power_on d); auto. destruct (P eq_refl); congruence.
Qed.
Lemma normal_pre : preorder normal.
Proof.
  split.
  - intros s. apply quiet_normal, quiet_refl.
  - intros a b d H1 H2 Ha. destruct (H1 Ha) as [Hb X1]. destruct (H2 Hb) as [Hd X2]. split; auto.
    destruct X2 as [X2|X2]; auto. destruct X1 as [X1|X1]; [left; eapply mild_trans; eauto|right; eapply trip_mild; eauto].
Qed.

Lemma motors_enable_done : forall c on s s', motors_enable c on s = (Some tt, s') ->
  (sim_off s -> sim_off s') /\ mild s s' /\ (on = false -> sim_off s -> power_on s' = false) /\ (m_homing s' = Homed -> on = true).
Proof.
  intros c on s s' E. unfold motors_enable in E. apply bind_some in E. destruct E as ([] & s1 & E1 & E).
  pose proof (hold_S _ _ _ (halt_quiet c) _ _ _ E1) as Q. clear E1.
  unfold motor_enable in E. apply bind_some in E. destruct E as ([] & s2 & E2 & E). apply bind_some in E2. destruct E2 as ([] & s3 & E3 & E2).
  assert (Q2 : quiet s1 s3) by (injection E3 as <-; constructor; auto).
  pose proof (quiet_hw c s3 (HwEnableMotors on) I) as Q3. rewrite E2 in Q3. cbn [snd] in Q3.
  pose proof (quiet_trans _ _ _ Q (quiet_trans _ _ _ Q2 Q3)) as Q4.
  assert (Poff : on = false -> sim_off s -> power_on s2 = false).
  { intros -> H. apply (quiet_sim _ _ Q4) in H. injection E2 as <-. unfold sim_off, power_on in *. cbn [m_hw] in *.
    cbn [hw_step] in *. unfold enable_motors in *. destruct (hw_ready (m_hw s3)) eqn:R; cbn [negb] in *; auto. }
  unfold bind, get in E. cbn iota beta in E.
  assert (F : s' = s2 /\ negb on && match m_homing s2 with Homed => true | _ => false end = false \/
              (on = false /\ m_homing s2 = Homed /\ set_homing HomedButUnpowered s2 = (Some tt, s'))).
  { unfold when in E. destruct (negb on && _) eqn:X; [right|left].
    - apply andb_prop in X. destruct X as [X1 X2]. split; [now destruct on|]. split; [now destruct (m_homing s2)|exact E].
    - injection E as <-. auto. }
  destruct F as [[-> X]|(-> & Hh & F)].
  - split; [intros H; eapply quiet_sim; eauto|]. split; [now apply quiet_mild|]. split; auto. intros H. rewrite H in X. destruct on; [auto|discriminate].
  - injection F as <-. destruct Q4 as [A1 A2 A3 A4 A5]. split.
    + intros H. apply quiet_sim in Q. exact (fun R => Poff eq_refl H). auto.
    + split; [|split; [intros _; exact (Poff eq_refl)|cbn; discriminate]].
      constructor; [|exact A2|exact A4]. right. cbn. split; congruence.
Qed.
Lemma estop_done : forall c s s', set_estop c s = (Some tt, s') -> sim_off s -> sim_off s' /\ tripped s'.
Proof.
  intros c s s' E H. unfold set_estop in E.
  apply bind_some in E. destruct E as ([] & s1 & E1 & E). pose proof (hold_S _ _ _ (spindle_off_quiet c) _ _ _ E1) as Q1. clear E1.
  apply bind_some in E. destruct E as ([] & s2 & E2 & E).
  pose proof (quiet_hw c s1 HwAuxOff I) as Q2. rewrite E2 in Q2. cbn [snd] in Q2. clear E2.
  apply bind_some in E. destruct E as ([] & s3 & E3 & E).
  assert (H2 : sim_off s2) by (eapply quiet_sim; [exact Q2|]; eapply quiet_sim; eauto).
  assert (H3 : sim_off s3 /\ stop_on s3 = true) by (injection E3 as <-; split; [exact H2|reflexivity]). destruct H3 as [H3 S3].
  apply bind_some in E. destruct E as ([] & s4 & E4 & E).
  destruct (motors_enable_done _ _ _ _ E4) as (A & [B1 B2 B3] & C & D).
  injection E as <-. split; [exact (A H3)|]. split; [unfold stop_on in *; cbn; congruence|]. split; [reflexivity|exact (C eq_refl H3)].
Qed.

(** Programs made of quiet primitives, emergency stops and switching motors. *)
Definition usesT {A} (c : mcfg) (m : M A) : Prop := holdS normal m.
Section UsesT.
Variable c : mcfg.
Lemma ut_bind : forall A B (m : M A) (f : A -> M B), usesT c m -> (forall x, usesT c (f x)) -> usesT c (bind m f).
Proof. intros A B m f Hm Hf. apply holdS_bind; [apply normal_pre|exact Hm|exact Hf]. Qed.
Lemma ut_quiet : forall A (m : M A), uses c quiet_prim m -> usesT c m.
Proof. intros A m U s x s' E. apply quiet_normal. exact (hold_S _ _ _ (uses_quiet _ _ _ U) _ _ _ E). Qed.
Lemma ut_estop : usesT c (set_estop c).
Proof. intros s [] s' E H. destruct (estop_done _ _ _ E H). auto. Qed.
Lemma ut_motors : forall b, usesT c (motors_enable c b).
Proof. intros b s [] s' E H. destruct (motors_enable_done _ _ _ _ E) as (A & B & _). auto. Qed.
End UsesT.
Ltac footT :=
  repeat first
    [ foot_hook
    | match goal with
      | |- usesT _ (set_estop _) => apply ut_estop
      | |- usesT _ (motors_enable _ _) => apply ut_motors
      | |- usesT _ (check_for_estop _) => unfold check_for_estop
      | |- usesT _ (bind _ _) => apply ut_bind; [|intros ?]
      | |- usesT _ (if ?b then _ else _) => destruct b
      | |- usesT _ (when ?b _) => unfold when; destruct b
      | |- usesT _ (match ?x with _ => _ end) => destruct x
      | |- usesT _ _ => apply ut_quiet; foot; fail
      end ].
Lemma quiet_wait : forall c, uses c quiet_prim (wait_for_start c).
Proof.
  intros c. unfold wait_for_start. foot; try (apply uses_wait_unpaused; exact I).
  match goal with |- uses _ _ (wait_started _ ?k) => generalize k end.
  intros n. induction n as [|n IH]; cbn [wait_started]; foot.
Qed.
Lemma quiet_to_switch : forall c a t v1 n v0, uses c quiet_prim (drive_to_switch c a t v1 n v0).
Proof. intros c a t v1 n. induction n as [|n IH]; intros v0; cbn [drive_to_switch]; foot. Qed.
Lemma quiet_off_switch : forall c a t v0 v1 n, uses c quiet_prim (drive_off_switch c a t v0 v1 n).
Proof. intros c a t v0 v1 n. induction n as [|n IH]; cbn [drive_off_switch]; foot. Qed.
Lemma quiet_home_axis : forall c a, uses c quiet_prim (home_axis c a).
Proof.
  intros c a. unfold home_axis, move_to_endstop. foot; try apply quiet_to_switch; try apply quiet_off_switch.
Qed.
Lemma quiet_home_axes : forall c m order, uses c quiet_prim (home_axes c m order).
Proof. intros c m order. induction order as [|ch r IH]; cbn [home_axes]; foot. all: apply quiet_home_axis. Qed.
Lemma quiet_to_probe : forall c a neg v1 mx n v0 tot, uses c quiet_prim (drive_to_probe c a neg v1 mx n v0 tot).
Proof. intros c a neg v1 mx n. induction n as [|n IH]; intros v0 tot; cbn [drive_to_probe]; foot. Qed.
Lemma quiet_spindle_speed : forall c ps r, uses c quiet_prim (spindle_speed ps r).
Proof. intros c ps. induction ps as [|[ch v] ps IH]; intros r; cbn [spindle_speed]; foot. Qed.
Lemma quiet_pin_value : forall c b ps p r, uses c quiet_prim (pin_and_value b ps p r).
Proof. intros c b ps. induction ps as [|[ch v] ps IH]; intros p r; cbn [pin_and_value]; foot. Qed.
Lemma quiet_light_value : forall c ps r, uses c quiet_prim (light_value ps r).
Proof. intros c ps. induction ps as [|[ch v] ps IH]; intros r; cbn [light_value]; foot. Qed.
Ltac foot_hook ::=
  match goal with
  | |- uses _ _ (wait_for_start _) => apply quiet_wait
  | |- uses _ _ (home_axes _ _ _) => apply quiet_home_axes
  | |- uses _ _ (drive_to_probe _ _ _ _ _ _ _ _) => apply quiet_to_probe
  | |- uses _ _ (spindle_speed _ _) => apply quiet_spindle_speed
  | |- uses _ _ (pin_and_value _ _ _ _) => apply quiet_pin_value
  | |- uses _ _ (light_value _ _) => apply quiet_light_value
  end.
Lemma perform_normal : forall c e, match e with GoHome _ => False | MCode n _ => n <> 999 | _ => True end -> usesT c (perform c e).
Proof.
  intros c [| | | |b|f a|f|f| |on|f pos|f pos|n ps] H; cbn [perform]; try contradiction.
  - unfold gcode_start. footT.
  - unfold gcode_finished. footT.
  - unfold input_idle. footT.
  - footT.
  - unfold probe_axis, move_to_probe. footT.
  - unfold set_speed_factor. footT.
  - footT.
  - unfold dwell. footT.
  - footT.
  - unfold coordinated_move. footT.
  - unfold rapid_move. footT.
  - unfold special_commands.
    repeat match goal with |- usesT _ (match ?x with _ => _ end) => destruct x end.
    all: try congruence.
    all: unfold aux_bit_commands, set_spindle_on, set_pin, handle_set_lookahead, dwell; cbv iota beta; footT.
Qed.

(** ** Clearing the stop, homing *)
Definition in_new (s s' : machine) (e : event) : Prop := exists new, m_log s' = m_log s ++ new /\ In e new.
Lemma in_new_trans : forall s s1 s' e P, in_new s s1 e -> grows P s1 s' -> in_new s s' e.
Proof.
  intros s s1 s' e P (n & E & H) (n' & E' & _). exists (n ++ n'). split; [now rewrite E', E, app_assoc|]. apply in_or_app. auto.
Qed.
Lemma clear_done : forall c s r s', clear_estop c s = (Some r, s') ->
  (r = true /\ stop_on s = false /\ s' = s) \/
  (r = false /\ stop_on s = true /\ quiet s s' /\ exists z, z <> 0 /\ in_new s s' (Ask QEstop z)) \/
  (r = true /\ stop_on s = true /\ stop_on s' = false /\ m_homing s' = m_homing s /\ power_on s' = power_on s /\
   hw_ready (m_hw s') = hw_ready (m_hw s) /\ in_new s s' (Ask QEstop 0)).
Proof.
  intros c s r s' E. unfold clear_estop in E. unfold bind at 1, in_estop at 1 in E. cbn iota beta in E.
  change (hw_estop (m_hw s)) with (stop_on s) in E. destruct (stop_on s) eqn:S; [|left; injection E as <- <-; auto].
  right. apply bind_some in E. destruct E as (hard & s1 & E1 & E). unfold test in E1. apply bind_some in E1.
  destruct E1 as (z & s2 & E1 & E2). injection E2 as <- <-.
  assert (A : quiet s s2 /\ m_log s2 = m_log s ++ [Ask QEstop z]).
  { unfold ask in E1. destruct (m_in s); [discriminate|]. injection E1 as <- <-. split; [constructor; auto|reflexivity]. }
  destruct A as [Q L]. destruct (Z.eqb_spec z 0) as [->|Hz]; cbn [negb] in E.
  - right. unfold set_output_flags in E. apply bind_some in E. destruct E as ([] & s3 & E3 & E).
    apply bind_some in E. destruct E as ([] & s4 & E4 & E). injection E as <- <-.
    pose proof (quiet_hw c s3 HwSetAux I) as Q4. rewrite E4 in Q4. cbn [snd] in Q4.
    assert (A4 : power_on s4 = power_on s3).
    { injection E4 as <-. unfold power_on. cbn [m_hw hw_step]. unfold set_aux_outputs. now destruct (negb _). }
    assert (A2 : power_on s2 = power_on s).
    { unfold ask in E1. destruct (m_in s); [discriminate|]. injection E1 as _ <-. reflexivity. }
    assert (L4 : m_log s4 = m_log s3 ++ [Did (DoHw HwSetAux)]) by (injection E4 as <-; reflexivity).
    injection E3 as <-. destruct Q as [Q1 Q2 Q3 _ _]. destruct Q4 as [P1 P2 P3 _ _].
    assert (S4 : stop_on s4 = false) by (rewrite P2; reflexivity).
    unfold power_on in *. cbn [m_homing m_hw m_log hw_step update_aux_bitmap set_state hw_enabled hw_ready] in *.
    split; auto. split; auto. split; [exact S4|]. split; [congruence|]. split; [congruence|]. split; [congruence|].
    exists ([Ask QEstop 0; Did (DoHw (HwUpdateOutput OutEstop false)); Did (DoHw HwSetAux)]). split; [|now left].
    rewrite L4, L. rewrite <- !app_assoc. reflexivity.
  - left. injection E as <- <-. split; auto. split; auto. split; auto. exists z. split; auto. exists [Ask QEstop z]. split; auto. now left.
Qed.
Definition anything (e : event) : Prop := True.
Lemma any_grows : forall A c (m : M A), uses c (fun _ => True) m -> hold (grows anything) m.
Proof. intros A c m U. apply (uses_grows _ _ _ _ anything U). exact (fun _ _ _ _ => I). Qed.
Lemma check_done : forall c s b s', check_for_estop c s = (Some b, s') -> sim_off s ->
  grows anything s s' /\ ((b = true /\ stop_on s = false /\ sim_off s' /\ tripped s') \/ (b = false /\ quiet s s')).
Proof.
  intros c s b s' E H. split.
  { assert (U : uses c (fun _ => True) (check_for_estop c)) by (unfold check_for_estop; foot).
    pose proof (any_grows _ _ _ U s) as G. now rewrite E in G. }
  unfold check_for_estop in E. unfold bind at 1, in_estop at 1 in E. cbn iota beta in E.
  change (hw_estop (m_hw s)) with (stop_on s) in E. destruct (stop_on s) eqn:S; [right; injection E as <- <-; split; [auto|apply quiet_refl]|].
  apply bind_some in E. destruct E as (hard & s1 & E1 & E).
  assert (Q : quiet s s1).
  { assert (U : uses c quiet_prim (test QEstop)) by foot. exact (hold_S _ _ _ (uses_quiet _ _ _ U) _ _ _ E1). }
  destruct hard; [left|right; injection E as <- <-; auto].
  apply bind_some in E. destruct E as ([] & s2 & E2 & E). injection E as <- <-.
  destruct (estop_done _ _ _ E2 (quiet_sim _ _ Q H)). auto.
Qed.
Lemma go_home_done : forall c b s s', go_home c b s = (Some tt, s') -> sim_off s -> sim_off s' /\
  ((stop_on s = true /\ quiet s s') \/ tripped s' \/
   (m_homing s' = Homed /\ stop_on s' = false /\ (stop_on s = true -> in_new s s' (Ask QEstop 0)))).
Proof.
  intros c b s s' E H. unfold go_home in E.
  apply bind_some in E. destruct E as ([] & s1 & E1 & E).
  pose proof (hold_S _ _ _ (halt_quiet c) _ _ _ E1) as Q1.
  assert (U1 : uses c (fun _ => True) (halt c)) by foot.
  pose proof (any_grows _ _ _ U1 s) as G1. rewrite E1 in G1. cbn [snd] in G1. clear E1 U1.
  apply bind_some in E. destruct E as (ok & s2 & E2 & E). pose proof (quiet_sim _ _ Q1 H) as H1.
  assert (Sq : stop_on s1 = stop_on s) by apply Q1.
  destruct (clear_done _ _ _ _ E2) as [(-> & S & ->)|[(-> & S & Q2 & z & Hz & N)|(-> & S & S2 & A & B & C & N)]]; cbn [negb] in E.
  1, 3: apply bind_some in E; destruct E as ([] & s3 & E3 & E);
    pose proof (hold_S _ _ _ (uses_quiet _ _ _ (quiet_home_axes c b (c_home_order c))) _ _ _ E3) as Q3;
    assert (U3 : uses c (fun _ => True) (home_axes c b (c_home_order c)))
      by (eapply uses_weaken; [|apply quiet_home_axes]; auto);
    pose proof (any_grows _ _ _ U3) as G3;
    pose proof (hold_S _ _ _ G3 _ _ _ E3) as G3'; clear G3 E3 U3;
    apply bind_some in E; destruct E as (e & s4 & E4 & E).
  - pose proof (quiet_sim _ _ Q3 H1) as H3.
    destruct (check_done _ _ _ _ E4 H3) as (G4 & [(-> & S4 & H4 & T4)|(-> & Q4)]).
    + injection E as <-. auto.
    + injection E as <-. assert (H4 : sim_off s4) by (eapply quiet_sim; eauto). split; [exact H4|]. right. right. cbn. split; auto.
      split; [|intros X; congruence]. change (stop_on s4 = false). destruct Q3, Q4. congruence.
  - assert (H2 : sim_off s2) by (unfold sim_off in *; rewrite C, B; auto).
    pose proof (quiet_sim _ _ Q3 H2) as H3.
    destruct (check_done _ _ _ _ E4 H3) as (G4 & [(-> & S4 & H4 & T4)|(-> & Q4)]).
    + injection E as <-. auto.
    + injection E as <-. assert (H4 : sim_off s4) by (eapply quiet_sim; eauto). split; [exact H4|]. right. right. cbn. split; auto.
      split; [change (stop_on s4 = false); destruct Q3, Q4; congruence|]. intros _.
      assert (N4 : in_new s1 s4 (Ask QEstop 0)) by (eapply in_new_trans; [eapply in_new_trans; [exact N|exact G3']|exact G4]).
      destruct G1 as (n1 & L1 & _), N4 as (n4 & L4 & I4). exists (n1 ++ n4). split; [cbn; now rewrite L4, L1, app_assoc|]. apply in_or_app. auto.
  - injection E as <-. pose proof (quiet_trans _ _ _ Q1 Q2) as Q. split; [eapply quiet_sim; eauto|]. left. split; [congruence|auto].
Qed.

(** ** The invariant *)
Record mach_inv (s : machine) : Prop := {
  inv_sim : sim_off s;
  inv_stop : stop_on s = true -> m_homing s = NeverHomed /\ power_on s = false
}.
Lemma normal_inv : forall s s', normal s s' -> mach_inv s -> mach_inv s' /\ (stop_on s = true -> stop_on s' = true).
Proof.
  intros s s' N [I1 I2]. destruct (N I1) as [J1 X]. destruct X as [[H S P]|(T1 & T2 & T3)].
  - split; [|congruence]. constructor; auto. intros St. rewrite S in St. destruct (I2 St) as [A B]. split.
    + destruct H as [H|[H _]]; congruence.
    + destruct (power_on s'); auto. destruct (P eq_refl); congruence.
  - split; auto. constructor; auto.
Qed.
Definition clears (e : call) : Prop := match e with GoHome _ => True | MCode n _ => n = 999 | _ => False end.
Lemma call_inv : forall c e s s', completes c e s s' -> mach_inv s -> mach_inv s' /\
  (stop_on s = true -> stop_on s' = false -> clears e /\ in_new s s' (Ask QEstop 0)) /\
  (m_homing s' = Homed -> m_homing s = Homed \/ exists b, e = GoHome b).
Proof.
  intros c e s s' E I. unfold completes in E.
  assert (D : clears e \/ match e with GoHome _ => False | MCode n _ => n <> 999 | _ => True end).
  { destruct e; cbn; auto. destruct (Z.eq_dec code 999); auto. }
  destruct D as [D|D].
  - destruct e; cbn [clears] in D; try contradiction.
    + cbn [perform] in E. destruct I as [I1 I2]. destruct (go_home_done _ _ _ _ E I1) as (J1 & [(S & Q)|[(T1 & T2 & T3)|(Hh & S & N)]]).
      * split; [|split; [intros _ X; destruct Q; congruence|intros X; right; eauto]].
        apply (normal_inv s s'); [now apply quiet_normal|now constructor].
      * split; [now constructor|]. split; [congruence|]. eauto.
      * split; [constructor; auto; congruence|]. split; [intros; split; [exact Logic.I|auto]|eauto].
    + subst code. cbn [perform special_commands] in E. apply bind_some in E. destruct E as (r & s1 & E & X). injection X as <-. destruct I as [I1 I2].
      destruct (clear_done _ _ _ _ E) as [(-> & S & ->)|[(-> & S & Q2 & z & Hz & N)|(-> & S & S2 & A & B & C & N)]].
      * split; [now constructor|]. split; [congruence|auto].
      * split; [|split; [destruct Q2; congruence|destruct Q2; left; congruence]]. apply (normal_inv s s1); [now apply quiet_normal|now constructor].
      * split; [constructor; [unfold sim_off in *; rewrite C, B; auto|congruence]|]. split; [cbn; auto|left; congruence].
  - destruct (normal_inv _ _ (perform_normal c e D s tt s' E) I) as [J K]. split; auto. split; [intros; rewrite K in *; auto; discriminate|].
    intros Hh. destruct I as [I1 I2]. destruct (perform_normal c e D s tt s' E I1) as [_ [[X _ _]|(_ & X & _)]]; [|congruence].
    left. destruct X as [X|[X Y]]; congruence.
Qed.
Lemma reachable_inv : forall c s, reachable c s -> mach_inv s.
Proof.
  intros c s (h & answers & es & P & E).
  assert (I : mach_inv (start_state c h answers)) by (constructor; unfold sim_off, stop_on, power_on; cbn; auto).
  revert E I. generalize (start_state c h answers). induction es as [|e es IH]; intros s0 E I; cbn [perform_all] in E.
  - now injection E as <-.
  - apply bind_some in E. destruct E as ([] & s1 & E1 & E). apply (IH s1); auto. now apply (call_inv c e s0 s1).
Qed.

(** ** Comparing floats *)
Lemma SFcompare_swap : forall x y, SFcompare y x = option_map CompOpp (SFcompare x y).
Proof.
  intros [sx|sx| |sx mx ex] [sy|sy| |sy my ey]; try (destruct sx); try (destruct sy); try reflexivity; cbn.
  all: rewrite (Z.compare_antisym ex ey); destruct (ex ?= ey); cbn; auto.
  all: rewrite (Pos.compare_cont_antisym mx my Eq); cbn; destruct (Pos.compare_cont Eq mx my); reflexivity.
Qed.
Lemma SFcompare_number : forall x y, is_number x = true -> is_number y = true -> exists r, SFcompare x y = Some r.
Proof.
  intros [sx|sx| |sx mx ex] [sy|sy| |sy my ey] Hx Hy; try discriminate; try (destruct sx); try (destruct sy); cbn; eauto.
  all: destruct (ex ?= ey); eauto.
Qed.
Lemma SFltb_not : forall x y, is_number x = true -> is_number y = true -> SFltb x y = false -> SFleb y x = true.
Proof.
  intros x y Hx Hy H. unfold SFltb, SFleb in *. rewrite SFcompare_swap. destruct (SFcompare_number x y Hx Hy) as [r E].
  rewrite E in *. destruct r; auto; discriminate.
Qed.
Lemma SFltb_number : forall x y, SFltb x y = true -> is_number x = true /\ is_number y = true.
Proof. intros [sx|sx| |sx mx ex] [sy|sy| |sy my ey]; cbn; auto; try discriminate; unfold SFltb; cbn; destruct sx; try discriminate; auto. Qed.
Lemma SFltb_leb : forall x y, SFltb x y = true -> SFleb y x = false.
Proof. intros x y H. unfold SFltb, SFleb in *. rewrite SFcompare_swap. destruct (SFcompare x y) as [[]|]; cbn; auto; discriminate. Qed.
Lemma limits_ok_in : forall c pos axes, limits_ok c pos axes = true -> forall a, In a axes -> is_rotational a = false ->
  is_number (pos a) = true ->
  SFleb fzero (pos a) = true /\ (SFltb fzero (c_range c a) = true -> SFleb (pos a) (c_range c a) = true).
Proof.
  intros c pos axes. induction axes as [|i r IH]; intros H a Ha Hr Hn; [contradiction|]. cbn [limits_ok] in H.
  destruct Ha as [->|Ha].
  - rewrite Hr in H. destruct (SFltb (pos a) fzero) eqn:E1; [discriminate|].
    split; [apply SFltb_not; auto|]. intros Hp. rewrite (SFltb_leb _ _ Hp) in H.
    destruct (SFltb (c_range c a) (pos a)) eqn:E2; [discriminate|]. apply SFltb_not; auto. now apply SFltb_number in Hp.
  - destruct (is_rotational i); auto. destruct (SFltb (pos i) fzero); [discriminate|]. destruct (SFleb (c_range c i) fzero); auto.
    destruct (SFltb (c_range c i) (pos i)); [discriminate|auto].
Qed.
Lemma limits_spec : forall c pos, move_allowed_within_machine_limits c pos = true -> c_range_check c = true -> in_limits c pos.
Proof.
  intros c pos H Hc a Ha. assert (Ha' : is_rotational a = false) by (destruct a; auto; discriminate). revert Ha'. unfold move_allowed_within_machine_limits in H. rewrite Hc in H. cbn [negb] in H.
  apply (limits_ok_in _ _ _ H). destruct a; cbn; auto 12.
Qed.

(** ** Moves *)
Definition move_of (e : call) : option (fl * (axis -> fl) * bool) :=
  match e with CoordinatedMove f p => Some (f, p, false) | RapidMove f p => Some (f, p, true) | _ => None end.
Lemma only_moves : forall c e s s' new pos feed, adds c e s s' new -> In (Did (DoEnqueue pos feed)) new ->
  exists f, e = CoordinatedMove f pos \/ e = RapidMove f pos.
Proof.
  intros c e s s' new pos feed A H.
  pose proof (call_grows c e s s' new (fun ev => forall p f, ev = Did (DoEnqueue p f) -> exists f', e = CoordinatedMove f' p \/ e = RapidMove f' p) A) as F.
  rewrite Forall_forall in F. apply (F) with (x := Did (DoEnqueue pos feed)) (f := feed); auto.
  intros p ev Hp Hev p' f' ->. destruct p; cbn [emitted] in Hev; try contradiction; [destruct Hev; discriminate|].
  injection Hev as <-. destruct e; cbn [fp] in Hp; try contradiction; subst; eauto.
Qed.
Lemma guards : forall c e s s' new pos feed, adds c e s s' new -> In (Did (DoEnqueue pos feed)) new ->
  move_allowed_homing_status c s = true /\ move_allowed_within_machine_limits c pos = true /\ stop_on s = false.
Proof.
  intros c e s s' new pos feed A H. destruct (only_moves _ _ _ _ _ _ _ A H) as [f E]. destruct A as [A1 A2].
  destruct (move_allowed_homing_status c s) eqn:G1.
  - destruct (move_allowed_within_machine_limits c pos) eqn:G2.
    + destruct (move_allowed_estop_status s) eqn:G3; [unfold move_allowed_estop_status in G3; destruct (hw_estop (m_hw s)) eqn:X; [discriminate|auto]|].
      exfalso. destruct E as [-> | ->]; cbn [perform] in A1; unfold coordinated_move, rapid_move, bind, get, ret in A1;
        rewrite G1, G2, G3 in A1; cbn in A1; subst s'; rewrite <- (app_nil_r (m_log s)) in A2 at 1; apply app_inv_head in A2; subst new; contradiction.
    + exfalso. destruct E as [-> | ->]; cbn [perform] in A1; unfold coordinated_move, rapid_move, bind, get, ret in A1;
        rewrite G1, G2 in A1; cbn in A1; subst s'; rewrite <- (app_nil_r (m_log s)) in A2 at 1; apply app_inv_head in A2; subst new; contradiction.
  - exfalso. destruct E as [-> | ->]; cbn [perform] in A1; unfold coordinated_move, rapid_move, bind, get, ret in A1;
      rewrite G1 in A1; cbn in A1; subst s'; rewrite <- (app_nil_r (m_log s)) in A2 at 1; apply app_inv_head in A2; subst new; contradiction.
Qed.

(** The feedrate given to the planner. *)
Definition g1_feed (c : mcfg) (s : machine) (feed : fl) : fl := if SFltb fzero feed then f32_mul (c_speed c) feed else m_feed s.
Definition not_enqueue (e : event) : Prop := match e with Did (DoEnqueue _ _) => False | _ => True end.
Lemma enqueue_log : forall c pos f s, exists new,
  m_log (snd (enqueue c pos f s)) = m_log s ++ Did (DoEnqueue pos f) :: new /\ Forall not_enqueue new.
Proof.
  intros c pos f s. unfold enqueue. set (k := n <- ask QEnqueue;; when (0 <? n) (act c (DoHw (HwEnableMotors true)));;; test QEnqueued).
  unfold bind at 1. unfold act at 1. cbn iota beta.
  assert (U : uses c (fun p => match p with PAct (DoEnqueue _ _) => False | _ => True end) k) by (unfold k; foot).
  match goal with |- context [k ?s1] => destruct (uses_grows _ _ _ _ not_enqueue U ltac:(intros [] ev Hp Hev; cbn in *; try contradiction;
    [destruct Hev as [z ->]; exact I|subst ev; destruct a; auto]) s1) as (n & E & F) end.
  exists n. split; auto. rewrite E. cbn [m_log]. now rewrite <- app_assoc.
Qed.
Lemma check_no_enqueue : forall c s, grows not_enqueue s (snd (check_for_estop c s)).
Proof.
  intros c s. assert (U : uses c (fun p => match p with PAct (DoEnqueue _ _) => False | _ => True end) (check_for_estop c)) by (unfold check_for_estop; foot).
  apply (uses_grows _ _ _ _ _ U). intros [] ev Hp Hev; cbn in *; try contradiction; [destruct Hev as [z ->]; exact I|subst ev; destruct a; auto].
Qed.
(** enqueue followed by the check: one enqueue event in the log *)
Lemma send_log : forall c pos f s A (k : bool -> M A), (forall b, hold (grows not_enqueue) (k b)) -> exists new,
  m_log (snd ((ok <- enqueue c pos f ;; k ok) s)) = m_log s ++ Did (DoEnqueue pos f) :: new /\ Forall not_enqueue new.
Proof.
  intros c pos f s A k Hk. destruct (enqueue_log c pos f s) as (n & E & F). unfold bind. destruct (enqueue c pos f s) as [[b|] s1]; cbn [snd] in *; [|eauto].
  destruct (Hk b s1) as (n2 & E2 & F2). exists (n ++ n2). split; [rewrite E2, E, <- app_assoc; reflexivity|now apply Forall_app].
Qed.
Lemma one_enqueue : forall log log' pos f new pos' f', log' = log ++ Did (DoEnqueue pos f) :: new -> Forall not_enqueue new ->
  forall all, log' = log ++ all -> In (Did (DoEnqueue pos' f')) all -> pos' = pos /\ f' = f.
Proof.
  intros log log' pos f new pos' f' E F all E2 H. rewrite E in E2. apply app_inv_head in E2. subst all. destruct H as [H|H].
  - injection H as <- <-. auto.
  - rewrite Forall_forall in F. destruct (F _ H).
Qed.
Lemma after_enqueue : forall c (b : bool), hold (grows not_enqueue) (if b then ret true else e <- check_for_estop c ;; ret (negb e)).
Proof.
  intros c b. destruct b; [intros s; now apply grows_same|]. apply hold_bind; [apply grows_trans| |intros x s; now apply grows_same].
  intros s. apply check_no_enqueue.
Qed.
(** State frames. *)
Lemma uses_frame : forall A B c ok (m : M A) (g : machine -> B), uses c ok m ->
  (forall p s, ok p -> g (snd (run_prim c p s)) = g s) -> forall s, g (snd (m s)) = g s.
Proof.
  intros A B c ok m g U H. apply (U (fun s s' => g s' = g s)); [split; congruence|]. intros p Hp s. auto.
Qed.
Ltac frame_prim := intros [] ? ?; cbn in *; try contradiction; auto; unfold bind, ask, ret; destruct (m_in _); reflexivity.
Lemma send_feed : forall c pos f (b0 : bool) s, m_feed (snd ((ok <- enqueue c pos f ;; if ok then ret true else e <- check_for_estop c ;; ret (negb e)) s)) = m_feed s.
Proof.
  intros c pos f b0 s. assert (U : uses c (fun p => match p with PFeed _ => False | _ => True end)
    (ok <- enqueue c pos f ;; if ok then ret true else e <- check_for_estop c ;; ret (negb e))) by (unfold check_for_estop; foot).
  apply (uses_frame _ _ _ _ _ m_feed U). frame_prim.
Qed.
Lemma g1_spec : forall c feed pos s s' new, adds c (CoordinatedMove feed pos) s s' new ->
  (forall p f, In (Did (DoEnqueue p f)) new -> p = pos /\ f = f32_mul (m_factor s) (g1_feed c s feed) /\ SFleb (g1_feed c s feed) fzero = false) /\
  (m_feed s' = m_feed s \/ m_feed s' = g1_feed c s feed) /\
  ((exists p f, In (Did (DoEnqueue p f)) new) -> m_feed s' = g1_feed c s feed).
Proof.
  intros c feed pos s s' new [A1 A2]. cbn [perform] in A1.
  assert (A3 : snd (coordinated_move c feed pos s) = s').
  { rewrite <- A1. unfold bind, ret. destruct (coordinated_move c feed pos s) as [[x|] s1]; reflexivity. }
  clear A1. unfold coordinated_move in A3. unfold bind at 1, get at 1 in A3. cbn iota beta in A3.
  assert (Nop : s' = s -> new = []) by (intros ->; rewrite <- (app_nil_r (m_log s)) in A2 at 1; apply app_inv_head in A2; auto).
  destruct (negb (move_allowed_homing_status c s)); [cbn in A3; rewrite Nop by auto; split; [intros p f []|split; [left; congruence|intros (p & f & [])]]|].
  destruct (negb (move_allowed_within_machine_limits c pos)); [cbn in A3; rewrite Nop by auto; split; [intros p f []|split; [left; congruence|intros (p & f & [])]]|].
  destruct (negb (move_allowed_estop_status s)); [cbn in A3; rewrite Nop by auto; split; [intros p f []|split; [left; congruence|intros (p & f & [])]]|].
  assert (W : exists s1, when (SFltb fzero feed) (set_feed (f32_mul (c_speed c) feed)) s = (Some tt, s1) /\ m_feed s1 = g1_feed c s feed /\
              m_factor s1 = m_factor s /\ m_log s1 = m_log s).
  { unfold when, g1_feed. destruct (SFltb fzero feed); eexists; split; try reflexivity; auto. }
  destruct W as (s1 & W & F1 & F2 & F3). unfold bind at 1 in A3. rewrite W in A3. unfold bind at 1, get at 1 in A3. cbn iota beta in A3.
  rewrite F1, F2 in A3. destruct (SFleb (g1_feed c s feed) fzero) eqn:Z.
  - cbn in A3. subst s1. rewrite F3, <- (app_nil_r (m_log s)) in A2 at 1. apply app_inv_head in A2. subst new.
    split; [intros p f []|]. split; [auto|intros (p & f & [])].
  - destruct (send_log c pos (f32_mul (m_factor s) (g1_feed c s feed)) s1 _ _ (after_enqueue c)) as (n & E & F).
    pose proof (send_feed c pos (f32_mul (m_factor s) (g1_feed c s feed)) true s1) as E2. rewrite A3 in E, E2. rewrite F3 in E.
    split; [|split; [right; congruence|intros; congruence]].
    intros p f H. destruct (one_enqueue _ _ _ _ _ p f E F _ A2 H) as [-> ->]. auto.
Qed.
Definition g0_given (c : mcfg) (s : machine) (feed : fl) : fl := f32_mul (f32_mul (c_speed c) (m_factor s)) feed.
Lemma g0_spec : forall c feed pos s s' new, adds c (RapidMove feed pos) s s' new ->
  (forall p f, In (Did (DoEnqueue p f)) new -> p = pos /\ f = if SFltb fzero (g0_given c s feed) then g0_given c s feed else g0_feedrate c) /\
  (m_feed s' = m_feed s \/ (m_feed s' = g0_given c s feed /\ SFltb fzero (g0_given c s feed) = true /\ SFleb (m_feed s) fzero = true)).
Proof.
  intros c feed pos s s' new [A1 A2]. cbn [perform] in A1.
  assert (A3 : snd (rapid_move c feed pos s) = s').
  { rewrite <- A1. unfold bind, ret. destruct (rapid_move c feed pos s) as [[x|] s1]; reflexivity. }
  clear A1. unfold rapid_move in A3. unfold bind at 1, get at 1 in A3. cbn iota beta zeta in A3.
  assert (Nop : s' = s -> new = []) by (intros ->; rewrite <- (app_nil_r (m_log s)) in A2 at 1; apply app_inv_head in A2; auto).
  destruct (negb (move_allowed_homing_status c s)); [cbn in A3; rewrite Nop by auto; split; [intros p f []|left; congruence]|].
  destruct (negb (move_allowed_within_machine_limits c pos)); [cbn in A3; rewrite Nop by auto; split; [intros p f []|left; congruence]|].
  destruct (negb (move_allowed_estop_status s)); [cbn in A3; rewrite Nop by auto; split; [intros p f []|left; congruence]|].
  fold (g0_given c s feed) in A3.
  assert (W : exists s1, when (SFltb fzero (g0_given c s feed) && SFleb (m_feed s) fzero) (set_feed (g0_given c s feed)) s = (Some tt, s1) /\
     (m_feed s1 = m_feed s \/ (m_feed s1 = g0_given c s feed /\ SFltb fzero (g0_given c s feed) = true /\ SFleb (m_feed s) fzero = true)) /\
              m_log s1 = m_log s).
  { unfold when. destruct (SFltb fzero (g0_given c s feed)) eqn:X1, (SFleb (m_feed s) fzero) eqn:X2; cbn [andb]; eexists; split; try reflexivity; auto. }
  destruct W as (s1 & W & F1 & F3). unfold bind at 1 in A3. rewrite W in A3.
  match type of A3 with context [enqueue c pos ?f] => set (ff := f) in * end.
  destruct (send_log c pos ff s1 _ _ (after_enqueue c)) as (n & E & F).
  pose proof (send_feed c pos ff true s1) as E2. rewrite A3 in E, E2. rewrite F3 in E.
  split; [|rewrite E2; exact F1].
  intros p f H. destruct (one_enqueue _ _ _ _ _ p f E F _ A2 H) as [-> ->]. auto.
Qed.
Lemma feed_frame : forall c e s, move_of e = None -> m_feed (snd (perform c e s)) = m_feed s.
Proof.
  intros c e s H. apply (uses_frame _ _ c (fun p => match p with PFeed _ => False | _ => True end) (perform c e) m_feed).
  - eapply uses_weaken; [|apply uses_perform]. intros p Hp. destruct p; cbn in *; auto. destruct e; auto; discriminate.
  - frame_prim.
Qed.
Lemma factor_frame : forall c e s, (forall f, e <> SetSpeedFactor f) -> m_factor (snd (perform c e s)) = m_factor s.
Proof.
  intros c e s H. apply (uses_frame _ _ c (fun p => match p with PFactor _ => False | _ => True end) (perform c e) m_factor).
  - eapply uses_weaken; [|apply uses_perform]. intros p Hp. destruct p; cbn in *; auto. destruct e; auto. destruct (H f0). reflexivity.
  - frame_prim.
Qed.
Lemma off_motor_frame : forall c e s, (forall b, e <> InputIdle b) -> m_off_motor (snd (perform c e s)) = m_off_motor s.
Proof.
  intros c e s H. apply (uses_frame _ _ c (fun p => match p with POffMotor _ => False | _ => True end) (perform c e) m_off_motor).
  - eapply uses_weaken; [|apply uses_perform]. intros p Hp. destruct p; cbn in *; auto. destruct e; auto. destruct (H is_first). reflexivity.
  - frame_prim.
Qed.

(** ** Reading the emergency stop switch *)
Definition pressed (l : list event) : Prop := exists z, z <> 0 /\ In (Ask QEstop z) l.
Definition alert (s s' : machine) : Prop := sim_off s -> sim_off s' /\ (stop_on s = true -> stop_on s' = true) /\
  exists new, m_log s' = m_log s ++ new /\ (pressed new -> stop_on s' = true).
Lemma alert_pre : preorder alert.
Proof.
  split.
  - intros s H. split; auto. split; auto. exists []. rewrite app_nil_r. split; auto. intros (z & _ & []).
  - intros a b d H1 H2 H. destruct (H1 H) as (A1 & A2 & n1 & A3 & A4). destruct (H2 A1) as (B1 & B2 & n2 & B3 & B4).
    split; auto. split; auto. exists (n1 ++ n2). split; [now rewrite B3, A3, app_assoc|].
    intros (z & Hz & Hi). apply in_app_or in Hi. destruct Hi as [Hi|Hi]; [apply B2, A4|apply B4]; exists z; auto.
Qed.
Definition silent_prim (p : prim) : Prop := match p with PAsk QEstop => False | _ => quiet_prim p end.
Lemma silent_alert : forall A c (m : M A), uses c silent_prim m -> holdS alert m.
Proof.
  intros A c m U s x s' E H.
  assert (Q : quiet s s').
  { assert (U' : uses c quiet_prim m) by (eapply uses_weaken; [|exact U]; intros []; cbn; auto).
    exact (hold_S _ _ _ (uses_quiet _ _ _ U') _ _ _ E). }
  assert (G : grows (fun e => forall z, e <> Ask QEstop z) s s').
  { refine (hold_S _ _ _ (uses_grows _ _ _ _ _ U _) _ _ _ E). intros [] ev Hp Hev z; cbn in *; try contradiction; [|congruence].
    destruct Hev as [z' ->]. intros [= -> ->]. contradiction. }
  split; [eapply quiet_sim; eauto|]. split; [destruct Q; congruence|]. destruct G as (n & L & F). exists n. split; auto.
  intros (z & _ & Hi). rewrite Forall_forall in F. destruct (F _ Hi z). reflexivity.
Qed.
Lemma check_alert : forall c, holdS alert (check_for_estop c).
Proof.
  intros c s b s' E H. destruct (check_done _ _ _ _ E H) as (G & [(-> & S & H' & T)|(-> & Q)]).
  - split; auto. split; [intros; apply T|]. destruct G as (n & L & _). exists n. split; auto. intros _. apply T.
  - split; [eapply quiet_sim; eauto|]. split; [destruct Q; congruence|].
    unfold check_for_estop in E. unfold bind at 1, in_estop at 1 in E. cbn iota beta in E.
    destruct (hw_estop (m_hw s)) eqn:S.
    + injection E as <-. exists []. rewrite app_nil_r. split; auto.
    + apply bind_some in E. destruct E as (hard & s1 & E1 & E). unfold test in E1. apply bind_some in E1. destruct E1 as (z & s2 & E1 & E2).
      injection E2 as <- <-. destruct (Z.eqb_spec z 0) as [->|Hz]; cbn [negb] in E.
      * injection E as <-. unfold ask in E1. destruct (m_in s); [discriminate|]. injection E1 as -> <-.
        exists [Ask QEstop 0]. split; auto. intros (z & Hz & [X|[]]). congruence.
      * apply bind_some in E. destruct E as ([] & s3 & _ & E). discriminate.
Qed.
Lemma estop_alert : forall c, holdS alert (set_estop c).
Proof.
  intros c s [] s' E H. destruct (estop_done _ _ _ E H) as [H' T]. split; auto. split; [intros; apply T|].
  assert (U : uses c (fun _ => True) (set_estop c)) by foot.
  pose proof (any_grows _ _ _ U s) as G. rewrite E in G. destruct G as (n & L & _). exists n. split; auto. intros; apply T.
Qed.
Lemma motors_alert : forall c b, holdS alert (motors_enable c b).
Proof.
  intros c b s [] s' E H. destruct (motors_enable_done _ _ _ _ E) as (A & [B1 B2 B3] & C). split; auto. split; [congruence|].
  assert (U : uses c (fun p => match p with PAsk QEstop => False | _ => True end) (motors_enable c b)) by foot.
  pose proof (uses_grows _ _ _ _ (fun e => forall z, e <> Ask QEstop z) U) as G.
  destruct (G ltac:(intros [] ev Hp Hev z; cbn in *; try contradiction; [destruct Hev as [z' ->]; intros [= -> ->]; contradiction|congruence]) s) as (n & L & F).
  rewrite E in L. exists n. split; auto. intros (z & _ & Hi). rewrite Forall_forall in F. destruct (F _ Hi z). reflexivity.
Qed.
Lemma clear_alert : forall c s r s', clear_estop c s = (Some r, s') -> sim_off s ->
  exists new, m_log s' = m_log s ++ new /\ (pressed new -> stop_on s' = true).
Proof.
  intros c s r s' E H. unfold clear_estop in E. unfold bind at 1, in_estop at 1 in E. cbn iota beta in E.
  destruct (hw_estop (m_hw s)) eqn:S.
  - apply bind_some in E. destruct E as (hard & s1 & E1 & E). unfold test in E1. apply bind_some in E1. destruct E1 as (z & s2 & E1 & E2).
    injection E2 as <- <-. unfold ask in E1. destruct (m_in s) as [|z' rest] eqn:Ein; [discriminate|]. injection E1 as -> <-.
    destruct (Z.eqb_spec z 0) as [->|Hz]; cbn [negb] in E.
    + unfold set_output_flags, bind, act, ret in E. injection E as <- <-. cbn [m_log].
      eexists. split; [rewrite <- !app_assoc; reflexivity|]. intros (z & Hz & Hi). cbn in Hi. destruct Hi as [X|[X|[X|[]]]]; try discriminate.
      congruence.
    + injection E as <- <-. exists [Ask QEstop z]. split; auto.
  - injection E as <- <-. exists []. rewrite app_nil_r. split; auto. intros (z & _ & []).
Qed.
