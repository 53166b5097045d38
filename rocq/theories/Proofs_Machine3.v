(** Changes of the homing state, for C48. *)
From Verif Require Import Base Text Model_Axis Model_Float Model_Hardware Model_Machine Spec_Machine Proofs_Hardware Proofs_Machine Proofs_Machine2.

Definition off : event := Did (DoMotors false).
Definition steady (s s' : machine) : Prop := exists new, m_log s' = m_log s ++ new /\
  ((m_homing s' = m_homing s /\ (In off new -> m_homing s <> Homed)) \/
   (m_homing s = Homed /\ m_homing s' = HomedButUnpowered /\ In off new) \/
   (m_homing s' = NeverHomed /\ In off new)).
Lemma steady_pre : preorder steady.
Proof.
  split.
  - intros s. exists []. rewrite app_nil_r. split; [auto|]. left. split; [auto|]. intros [].
  - intros a b d (n1 & L1 & H1) (n2 & L2 & H2). exists (n1 ++ n2). split; [now rewrite L2, L1, app_assoc|].
    rewrite in_app_iff. destruct H1 as [[A1 B1]|[(A1 & B1 & C1)|(A1 & B1)]], H2 as [[A2 B2]|[(A2 & B2 & C2)|(A2 & B2)]];
      try (right; right; tauto); try congruence.
    + left. split; [congruence|]. intros [X|X]; auto. rewrite <- A1. auto.
    + right. left. split; [congruence|]. auto.
    + right. left. split; [congruence|]. split; [congruence|auto].
    + right. right. split; [congruence|auto].
Qed.
Definition steady_prim (p : prim) : Prop := match p with PHoming _ | PAct (DoMotors _) => False | _ => True end.
Lemma prim_steady : forall A c (m : M A), uses c steady_prim m -> holdS steady m.
Proof.
  intros A c m U s x s' E.
  assert (G : grows (fun e => e <> off) s s').
  { refine (hold_S _ _ _ (uses_grows _ _ _ _ _ U _) _ _ _ E). intros [] ev Hp Hev; cbn in *; try contradiction; [destruct Hev as [z ->]; discriminate|].
    subst ev. destruct a; try discriminate. contradiction. }
  pose proof (uses_frame _ _ _ _ _ m_homing U) as F. assert (F' : m_homing s' = m_homing s).
  { rewrite <- (F ltac:(intros [] s0 Hp; cbn in *; try contradiction; auto; unfold bind, ask, ret; destruct (m_in s0); auto) s). now rewrite E. }
  destruct G as (n & L & G). exists n. split; auto. left. split; auto. intros X. rewrite Forall_forall in G. destruct (G _ X). reflexivity.
Qed.
Ltac foot_hook ::= fail.
Lemma motors_steady : forall c b, holdS steady (motors_enable c b).
Proof.
  intros c b s [] s' E. unfold motors_enable in E. apply bind_some in E. destruct E as ([] & s1 & E1 & E).
  apply (prim_steady _ c) in E1; [|foot]. apply (proj2 steady_pre _ _ _ E1). clear E1.
  unfold motor_enable, bind, act, get, when, ret in E.
  destruct b; cbn [negb andb] in E.
  - injection E as <-. exists [Did (DoMotors true); Did (DoHw (HwEnableMotors true))]. cbn. split; [now rewrite <- app_assoc|].
    left. split; auto. intros [X|[X|[]]]; discriminate.
  - match type of E with context [match m_homing ?y with _ => _ end] => change (m_homing y) with (m_homing s1) in E end.
    exists [Did (DoMotors false); Did (DoHw (HwEnableMotors false))].
    destruct (m_homing s1) eqn:H; cbn in E; injection E as <-; cbn; rewrite <- app_assoc; (split; [reflexivity|]); rewrite ?H;
      [left; split; auto; discriminate|left; split; auto; discriminate|right; left; unfold off; auto].
Qed.
Lemma ts_bind : forall A B (m : M A) (f : A -> M B), holdS steady m -> (forall x, holdS steady (f x)) -> holdS steady (bind m f).
Proof. intros A B m f Hm Hf. apply holdS_bind; [apply steady_pre|exact Hm|exact Hf]. Qed.
Lemma motors_off_logged : forall c s x s', motors_enable c false s = (Some x, s') -> in_new s s' off.
Proof.
  intros c s [] s' E. destruct (motors_off_idle _ _ _ E) as ((n & L & F) & _). exists n. split; auto.
  assert (X : In off (filter idle_event n)) by (rewrite F; left; reflexivity). apply filter_In in X. tauto.
Qed.
Lemma estop_steady : forall c, holdS steady (set_estop c).
Proof.
  intros c s [] s' E. unfold set_estop in E.
  apply bind_some in E. destruct E as ([] & s1 & E1 & E). apply (prim_steady _ c) in E1; [|foot]. apply (proj2 steady_pre _ _ _ E1). clear E1.
  apply bind_some in E. destruct E as ([] & s2 & E1 & E). apply (prim_steady _ c) in E1; [|foot]. apply (proj2 steady_pre _ _ _ E1). clear E1.
  apply bind_some in E. destruct E as ([] & s3 & E1 & E). apply (prim_steady _ c) in E1; [|foot]. apply (proj2 steady_pre _ _ _ E1). clear E1.
  apply bind_some in E. destruct E as ([] & s4 & E1 & E). apply motors_off_logged in E1. destruct E1 as (n & L & I).
  injection E as <-. exists n. cbn. auto.
Qed.
Lemma check_steady : forall c, holdS steady (check_for_estop c).
Proof.
  intros c. unfold check_for_estop. apply ts_bind; [apply (prim_steady _ c); foot|]. intros [|]; [apply (prim_steady _ c); foot|].
  apply ts_bind; [apply (prim_steady _ c); foot|]. intros [|]; [|apply (prim_steady _ c); foot].
  apply ts_bind; [apply estop_steady|]. intros []. apply (prim_steady _ c). foot.
Qed.
Lemma sp_wait : forall c, uses c steady_prim (wait_for_start c).
Proof.
  intros c. unfold wait_for_start. foot; try (apply uses_wait_unpaused; exact I).
  match goal with |- uses _ _ (wait_started _ ?k) => generalize k end.
  intros n. induction n as [|n IH]; cbn [wait_started]; foot.
Qed.
Lemma sp_to_probe : forall c a neg v1 mx n v0 tot, uses c steady_prim (drive_to_probe c a neg v1 mx n v0 tot).
Proof. intros c a neg v1 mx n. induction n as [|n IH]; intros v0 tot; cbn [drive_to_probe]; foot. Qed.
Lemma sp_spindle_speed : forall c ps r, uses c steady_prim (spindle_speed ps r).
Proof. intros c ps. induction ps as [|[ch v] ps IH]; intros r; cbn [spindle_speed]; foot. Qed.
Lemma sp_pin_value : forall c b ps p r, uses c steady_prim (pin_and_value b ps p r).
Proof. intros c b ps. induction ps as [|[ch v] ps IH]; intros p r; cbn [pin_and_value]; foot. Qed.
Lemma sp_light_value : forall c ps r, uses c steady_prim (light_value ps r).
Proof. intros c ps. induction ps as [|[ch v] ps IH]; intros r; cbn [light_value]; foot. Qed.
Ltac foot_hook ::=
  match goal with
  | |- uses _ _ (wait_for_start _) => apply sp_wait
  | |- uses _ _ (drive_to_probe _ _ _ _ _ _ _ _) => apply sp_to_probe
  | |- uses _ _ (spindle_speed _ _) => apply sp_spindle_speed
  | |- uses _ _ (pin_and_value _ _ _ _) => apply sp_pin_value
  | |- uses _ _ (light_value _ _) => apply sp_light_value
  end.
Ltac footP c :=
  repeat match goal with
    | |- holdS _ (set_estop _) => apply estop_steady
    | |- holdS _ (motors_enable _ _) => apply motors_steady
    | |- holdS _ (check_for_estop _) => apply check_steady
    | |- holdS _ (bind _ _) => apply ts_bind; [|intros ?]
    | |- holdS _ (if ?b then _ else _) => destruct b
    | |- holdS _ (when ?b _) => unfold when; destruct b
    | |- holdS _ (match ?x with _ => _ end) => destruct x
    | |- holdS _ _ => apply (prim_steady _ c); foot; fail
    end.
Lemma perform_steady : forall c e, (forall b, e <> GoHome b) -> holdS steady (perform c e).
Proof.
  intros c [| | | |b|f a|f|f| |on|f pos|f pos|n ps] H; cbn [perform]; try (destruct (H b); reflexivity).
  - unfold gcode_start. footP c.
  - unfold gcode_finished. footP c.
  - unfold input_idle. footP c.
  - footP c.
  - unfold probe_axis, move_to_probe. footP c.
  - unfold set_speed_factor. footP c.
  - footP c.
  - unfold dwell. footP c.
  - footP c.
  - unfold coordinated_move. footP c.
  - unfold rapid_move. footP c.
  - unfold special_commands.
    repeat match goal with |- holdS _ (match ?x with _ => _ end) => destruct x end.
    all: unfold aux_bit_commands, set_spindle_on, set_pin, handle_set_lookahead, dwell; cbv iota beta; footP c.
Qed.
Lemma homing_changes : forall c e s s' new, completes c e s s' -> adds c e s s' new -> mach_inv s ->
  m_homing s' = m_homing s \/
  (m_homing s' = Homed /\ stop_on s' = false /\ exists b, e = GoHome b) \/
  (m_homing s = Homed /\ m_homing s' = HomedButUnpowered /\ In off new) \/
  (m_homing s' = NeverHomed /\ stop_on s' = true).
Proof.
  intros c e s s' new E [_ L] I. destruct (match e with GoHome _ => true | _ => false end) eqn:G.
  - destruct e; try discriminate. destruct (go_home_done _ _ _ _ E (inv_sim _ I)) as (_ & [(_ & Q)|[T|(A & B & _)]]).
    + left. apply Q.
    + right. right. right. split; apply T.
    + right. left. eauto.
  - assert (N : forall b, e <> GoHome b) by (intros b ->; discriminate).
    destruct (perform_steady c e N _ _ _ E) as (n & L2 & H). rewrite L in L2. apply app_inv_head in L2. subst n.
    destruct H as [[A _]|[(A & B & C)|(A & B)]]; auto; [right; right; left; auto|].
    destruct (match e with MCode n _ => n =? 999 | _ => false end) eqn:X.
    + destruct e; try discriminate. apply Z.eqb_eq in X. subst code. unfold completes in E. cbn [perform special_commands] in E.
      apply bind_some in E. destruct E as (r & s1 & E & Y). injection Y as <-.
      destruct (clear_done _ _ _ _ E) as [(_ & _ & ->)|[(_ & _ & Q & _)|(_ & _ & _ & Q & _)]]; auto. left. apply Q.
    + assert (D : match e with GoHome _ => False | MCode n _ => n <> 999 | _ => True end).
      { destruct e; auto. - destruct (N bitmap); auto. - now apply Z.eqb_neq. }
      destruct (perform_normal c e D _ _ _ E (inv_sim _ I)) as (_ & [M|T]); [|right; right; right; split; apply T].
      destruct (mi_homing _ _ M) as [Y|[Y1 Y2]]; [auto|congruence].
Qed.
Lemma motors_off_unhomes : forall c e s s' new, completes c e s s' -> adds c e s s' new -> (forall b, e <> GoHome b) ->
  In (Did (DoMotors false)) new -> m_homing s' <> Homed.
Proof.
  intros c e s s' new E [_ L] N I. destruct (perform_steady c e N _ _ _ E) as (n & L2 & H). rewrite L in L2. apply app_inv_head in L2. subst n.
  destruct H as [[A B]|[(A & B & C)|(A & B)]]; [rewrite A; apply B; exact I|congruence|congruence].
Qed.

(** ** How the machine gets stopped *)
Definition entered (s s' : machine) : Prop := exists new, m_log s' = m_log s ++ new /\
  (stop_on s' = true -> stop_on s = true \/ pressed new).
Lemma pressed_app : forall a b, pressed (a ++ b) <-> pressed a \/ pressed b.
Proof.
  intros a b. split.
  - intros (z & Hz & H). apply in_app_or in H. destruct H; [left|right]; exists z; auto.
  - intros [(z & Hz & H)|(z & Hz & H)]; exists z; split; auto; apply in_or_app; auto.
Qed.
Lemma entered_pre : preorder entered.
Proof.
  split.
  - intros s. exists []. rewrite app_nil_r. auto.
  - intros a b d (n1 & L1 & H1) (n2 & L2 & H2). exists (n1 ++ n2). split; [now rewrite L2, L1, app_assoc|].
    rewrite pressed_app. tauto.
Qed.
Definition still_prim (p : prim) : Prop := match p with PAct (DoHw (HwUpdateOutput OutEstop b)) => b = false | PAct (DoHw (HwInit _)) | PAct (DoHw (HwConfig _ _ _)) => False | _ => True end.
Lemma prim_entered : forall A c (m : M A), uses c still_prim m -> holdS entered m.
Proof.
  intros A c m U. apply hold_S. apply U; [apply entered_pre|]. intros p Hp s.
  assert (X : exists new, m_log (snd (run_prim c p s)) = m_log s ++ new).
  { destruct p; cbn [run_prim]; try (exists []; now rewrite app_nil_r).
    - unfold bind, ask, ret. destruct (m_in s); cbn; [exists []; now rewrite app_nil_r|eauto].
    - cbn. eauto. }
  destruct X as (new & L). exists new. split; auto. intros H. left.
  destruct p; cbn [run_prim] in H; auto.
  - unfold bind, ask, ret in H. destruct (m_in s); exact H.
  - destruct a; auto. destruct (match op with HwUpdateOutput OutEstop _ => true | _ => false end) eqn:X.
    + destruct op; try discriminate. destruct o; try discriminate. cbn [still_prim] in Hp. subst. discriminate.
    + assert (Q : quiet_op op) by (destruct op; cbn in *; auto; destruct o; auto; discriminate).
      pose proof (q_stop _ _ (quiet_hw c s op Q)) as Y. congruence.
Qed.
Lemma te_bind : forall A B (m : M A) (f : A -> M B), holdS entered m -> (forall x, holdS entered (f x)) -> holdS entered (bind m f).
Proof. intros A B m f Hm Hf. apply holdS_bind; [apply entered_pre|exact Hm|exact Hf]. Qed.
Ltac foot_hook ::= fail.
Lemma check_entered : forall c, holdS entered (check_for_estop c).
Proof.
  intros c s b s' E. unfold check_for_estop in E. unfold bind at 1, in_estop at 1 in E. cbn iota beta in E.
  destruct (hw_estop (m_hw s)) eqn:S; [injection E as <- <-; apply (proj1 entered_pre)|].
  apply bind_some in E. destruct E as (hard & s1 & E1 & E). unfold test in E1. apply bind_some in E1. destruct E1 as (z & s2 & E1 & E2).
  injection E2 as <- <-. unfold ask in E1. destruct (m_in s) as [|z' rest]; [discriminate|]. injection E1 as -> <-.
  destruct (Z.eqb_spec z 0) as [->|Hz]; cbn [negb] in E.
  - injection E as <- <-. exists [Ask QEstop 0]. split; auto.
  - assert (U : uses c (fun _ => True) (set_estop c;;; ret true)) by foot.
    pose proof (any_grows _ _ _ U) as G.
    match type of E with _ ?x = _ => specialize (G x) end. rewrite E in G. destruct G as (n & L & _). cbn [snd m_log] in L.
    exists (Ask QEstop z :: n). split; [now rewrite L, <- app_assoc|]. intros _. right. exists z. cbn. auto.
Qed.
Lemma ep_wait : forall c, uses c still_prim (wait_for_start c).
Proof.
  intros c. unfold wait_for_start. foot; try (apply uses_wait_unpaused; exact I).
  match goal with |- uses _ _ (wait_started _ ?k) => generalize k end.
  intros n. induction n as [|n IH]; cbn [wait_started]; foot.
Qed.
Lemma ep_to_probe : forall c a neg v1 mx n v0 tot, uses c still_prim (drive_to_probe c a neg v1 mx n v0 tot).
Proof. intros c a neg v1 mx n. induction n as [|n IH]; intros v0 tot; cbn [drive_to_probe]; foot. Qed.
Lemma ep_spindle_speed : forall c ps r, uses c still_prim (spindle_speed ps r).
Proof. intros c ps. induction ps as [|[ch v] ps IH]; intros r; cbn [spindle_speed]; foot. Qed.
Lemma ep_pin_value : forall c b ps p r, uses c still_prim (pin_and_value b ps p r).
Proof. intros c b ps. induction ps as [|[ch v] ps IH]; intros p r; cbn [pin_and_value]; foot. Qed.
Lemma ep_light_value : forall c ps r, uses c still_prim (light_value ps r).
Proof. intros c ps. induction ps as [|[ch v] ps IH]; intros r; cbn [light_value]; foot. Qed.
Lemma ep_to_switch : forall c a t v1 n v0, uses c still_prim (drive_to_switch c a t v1 n v0).
Proof. intros c a t v1 n. induction n as [|n IH]; intros v0; cbn [drive_to_switch]; foot. Qed.
Lemma ep_off_switch : forall c a t v0 v1 n, uses c still_prim (drive_off_switch c a t v0 v1 n).
Proof. intros c a t v0 v1 n. induction n as [|n IH]; cbn [drive_off_switch]; foot. Qed.
Lemma ep_home_axis : forall c a, uses c still_prim (home_axis c a).
Proof. intros c a. unfold home_axis, move_to_endstop. foot; try apply ep_to_switch; try apply ep_off_switch. Qed.
Lemma ep_home_axes : forall c m order, uses c still_prim (home_axes c m order).
Proof. intros c m order. induction order as [|ch r IH]; cbn [home_axes]; foot. all: apply ep_home_axis. Qed.
Ltac foot_hook ::=
  match goal with
  | |- uses _ _ (wait_for_start _) => apply ep_wait
  | |- uses _ _ (drive_to_probe _ _ _ _ _ _ _ _) => apply ep_to_probe
  | |- uses _ _ (spindle_speed _ _) => apply ep_spindle_speed
  | |- uses _ _ (pin_and_value _ _ _ _) => apply ep_pin_value
  | |- uses _ _ (light_value _ _) => apply ep_light_value
  | |- uses _ _ (home_axes _ _ _) => apply ep_home_axes
  end.
Ltac footE c :=
  repeat match goal with
    | |- holdS _ (check_for_estop _) => apply check_entered
    | |- holdS _ (bind _ _) => apply te_bind; [|intros ?]
    | |- holdS _ (if ?b then _ else _) => destruct b
    | |- holdS _ (when ?b _) => unfold when; destruct b
    | |- holdS _ (match ?x with _ => _ end) => destruct x
    | |- holdS _ _ => apply (prim_entered _ c); foot; fail
    end.
Lemma perform_entered : forall c e, (forall ps, e <> MCode 0 ps) -> holdS entered (perform c e).
Proof.
  intros c [| | | |b|f a|f|f| |on|f pos|f pos|n ps] H; cbn [perform].
  - unfold gcode_start. footE c.
  - unfold gcode_finished. footE c.
  - unfold input_idle. footE c.
  - footE c.
  - unfold go_home. footE c.
  - unfold probe_axis, move_to_probe. footE c.
  - unfold set_speed_factor. footE c.
  - footE c.
  - unfold dwell. footE c.
  - footE c.
  - unfold coordinated_move. footE c.
  - unfold rapid_move. footE c.
  - unfold special_commands.
    repeat match goal with |- holdS _ (match ?x with _ => _ end) => destruct x end.
    all: try (destruct (H ps); reflexivity).
    all: unfold aux_bit_commands, set_spindle_on, set_pin, handle_set_lookahead, dwell; cbv iota beta; footE c.
Qed.
(** M0 *)
Lemma m0_done : forall c ps s s' new, completes c (MCode 0 ps) s s' -> adds c (MCode 0 ps) s s' new -> sim_off s ->
  tripped s' /\ In (Did (DoHw HwAuxOff)) new /\ In (Did (DoMotors false)) new /\ (c_has_spindle c = true -> In (Did DoSpindleOff) new).
Proof.
  intros c ps s s' new E [_ L] H. unfold completes in E. cbn [perform special_commands] in E.
  destruct (estop_done _ _ _ E H) as [_ T]. split; auto.
  assert (W : exists n, m_log s' = m_log s ++ n /\ In (Did (DoHw HwAuxOff)) n /\ In (Did (DoMotors false)) n /\ (c_has_spindle c = true -> In (Did DoSpindleOff) n)).
  { unfold set_estop in E. apply bind_some in E. destruct E as ([] & s1 & E1 & E).
    assert (G1 : exists n, m_log s1 = m_log s ++ n /\ (c_has_spindle c = true -> In (Did DoSpindleOff) n)).
    { unfold set_spindle_off in E1. destruct (c_has_spindle c); [|injection E1 as <-; exists []; rewrite app_nil_r; split; [auto|discriminate]].
      apply bind_some in E1. destruct E1 as ([] & s0 & E0 & E1). assert (U : uses c (fun _ => True) (halt c)) by foot.
      pose proof (any_grows _ _ _ U s) as G. rewrite E0 in G. destruct G as (n & L0 & _). cbn [snd] in L0. injection E1 as <-.
      exists (n ++ [Did DoSpindleOff]). cbn. split; [now rewrite L0, <- app_assoc|]. intros _. apply in_or_app. right. now left. }
    destruct G1 as (n1 & L1 & I1). apply bind_some in E. destruct E as ([] & s2 & E2 & E). injection E2 as <-.
    apply bind_some in E. destruct E as ([] & s3 & E3 & E). injection E3 as <-.
    apply bind_some in E. destruct E as ([] & s4 & E4 & E). apply motors_off_logged in E4. destruct E4 as (n4 & L4 & I4). injection E as <-.
    cbn in L4. eexists. split; [cbn; rewrite L4, L1, <- !app_assoc; reflexivity|]. cbn [app].
    split; [apply in_or_app; right; now left|]. split; [|intros X; apply in_or_app; auto].
    apply in_or_app. right. right. right. exact I4. }
  destruct W as (n & L2 & W). rewrite L in L2. apply app_inv_head in L2. now subst.
Qed.

(** ** Direct drives *)
Lemma only_drives : forall c e s s' new a d v0 v1, adds c e s s' new -> In (Did (DoDrive a d v0 v1)) new ->
  (exists b, e = GoHome b) \/ exists f, e = ProbeAxis f a.
Proof.
  intros c e s s' new a d v0 v1 A H.
  pose proof (call_grows c e s s' new (fun ev => forall a d v0 v1, ev = Did (DoDrive a d v0 v1) -> (exists b, e = GoHome b) \/ exists f, e = ProbeAxis f a) A) as F.
  rewrite Forall_forall in F. apply (F) with (x := Did (DoDrive a d v0 v1)) (d := d) (v0 := v0) (v1 := v1); auto.
  intros p ev Hp Hev a' d' v0' v1' ->. destruct p; cbn [emitted] in Hev; try contradiction; [destruct Hev; discriminate|].
  injection Hev as <-. destruct e; cbn [fp] in Hp; try contradiction; subst; eauto.
Qed.
Lemma probe_guards : forall c f a s s' new ev, adds c (ProbeAxis f a) s s' new -> In ev new ->
  move_allowed_homing_status c s = true /\ stop_on s = false.
Proof.
  intros c f a s s' new ev [A1 A2] H.
  destruct (move_allowed_homing_status c s) eqn:G1.
  - destruct (move_allowed_estop_status s) eqn:G3; [unfold move_allowed_estop_status in G3; destruct (hw_estop (m_hw s)) eqn:X; [discriminate|auto]|].
    exfalso. cbn [perform] in A1; unfold probe_axis, bind, get, ret in A1;
        rewrite G1, G3 in A1; cbn in A1; subst s'; rewrite <- (app_nil_r (m_log s)) in A2 at 1; apply app_inv_head in A2; subst new; contradiction.
  - exfalso. cbn [perform] in A1; unfold probe_axis, bind, get, ret in A1;
      rewrite G1 in A1; cbn in A1; subst s'; rewrite <- (app_nil_r (m_log s)) in A2 at 1; apply app_inv_head in A2; subst new; contradiction.
Qed.

(** ** Histories *)
Lemma perform_all_app : forall c es1 es2 s s', perform_all c (es1 ++ es2) s = (Some tt, s') ->
  exists s1, perform_all c es1 s = (Some tt, s1) /\ perform_all c es2 s1 = (Some tt, s').
Proof.
  intros c es1. induction es1 as [|e es1 IH]; intros es2 s s' E; cbn [app perform_all] in *; [exists s; auto|].
  apply bind_some in E. destruct E as ([] & s1 & E1 & E). destruct (IH _ _ _ E) as (s2 & E2 & E3). exists s2. split; auto.
  unfold bind. now rewrite E1.
Qed.
Lemma history_ind : forall c (P : list call -> machine -> Prop) s0, P [] s0 ->
  (forall es e s s', perform_all c es s0 = (Some tt, s) -> P es s -> completes c e s s' -> P (es ++ [e]) s') ->
  forall es s, perform_all c es s0 = (Some tt, s) -> P es s.
Proof.
  intros c P s0 H0 HS es. induction es as [|e es IH] using rev_ind; intros s E; [injection E as <-; auto|].
  destruct (perform_all_app _ _ _ _ _ E) as (s1 & E1 & E2). cbn [perform_all] in E2. apply bind_some in E2. destruct E2 as ([] & s2 & E2 & E3).
  injection E3 as <-. eapply HS; eauto.
Qed.
Lemma factor_history : forall c h answers es s, perform_all c es (start_state c h answers) = (Some tt, s) ->
  SFltb (m_factor s) five_thousandths = false /\
  (m_factor s = f32_of_Z 1 \/ exists f, In (SetSpeedFactor f) es /\ (m_factor s = f /\ SFltb f fzero = false \/ m_factor s = f32_add (f32_of_Z 1) f /\ SFltb f fzero = true)).
Proof.
  intros c h answers. apply (history_ind c (fun es s => SFltb (m_factor s) five_thousandths = false /\
  (m_factor s = f32_of_Z 1 \/ exists f, In (SetSpeedFactor f) es /\ (m_factor s = f /\ SFltb f fzero = false \/ m_factor s = f32_add (f32_of_Z 1) f /\ SFltb f fzero = true)))).
  - split; [reflexivity|auto].
  - intros es e s s' _ (H1 & H2) E. destruct (match e with SetSpeedFactor _ => true | _ => false end) eqn:X.
    + destruct e; try discriminate. unfold completes in E. cbn [perform] in E. unfold set_speed_factor in E.
      assert (K : s' = s -> SFltb (m_factor s') five_thousandths = false /\ (m_factor s' = f32_of_Z 1 \/ exists f0, In (SetSpeedFactor f0) (es ++ [SetSpeedFactor f]) /\ (m_factor s' = f0 /\ SFltb f0 fzero = false \/ m_factor s' = f32_add (f32_of_Z 1) f0 /\ SFltb f0 fzero = true))).
      { intros ->. split; auto. destruct H2 as [H2|(f0 & I0 & H2)]; auto. right. exists f0. split; auto. apply in_or_app; auto. }
      destruct (SFltb f fzero) eqn:N.
      * destruct (SFltb (f32_add (f32_of_Z 1) f) five_thousandths) eqn:T; [injection E as <-; auto|]. injection E as <-. cbn [m_factor].
        split; auto. right. exists f. split; [apply in_or_app; right; now left|auto].
      * destruct (SFltb f five_thousandths) eqn:T; [injection E as <-; auto|]. injection E as <-. cbn [m_factor].
        split; auto. right. exists f. split; [apply in_or_app; right; now left|auto].
    + assert (F : m_factor s' = m_factor s).
      { pose proof (factor_frame c e s ltac:(intros f ->; discriminate)) as F. unfold completes in E. now rewrite E in F. }
      rewrite F. split; auto. destruct H2 as [H2|(f0 & I0 & H2)]; auto. right. exists f0. split; auto. apply in_or_app; auto.
Qed.
Lemma feed_history : forall c h answers es s, perform_all c es (start_state c h answers) = (Some tt, s) ->
  m_feed s = f32_of_Z (-1) \/
  (exists f pos, In (CoordinatedMove f pos) es /\ SFltb fzero f = true /\ m_feed s = f32_mul (c_speed c) f) \/
  (exists f pos factor, In (RapidMove f pos) es /\ SFltb factor five_thousandths = false /\ m_feed s = f32_mul (f32_mul (c_speed c) factor) f /\ SFltb fzero (m_feed s) = true).
Proof.
  intros c h answers. apply (history_ind c (fun es s => m_feed s = f32_of_Z (-1) \/
  (exists f pos, In (CoordinatedMove f pos) es /\ SFltb fzero f = true /\ m_feed s = f32_mul (c_speed c) f) \/
  (exists f pos factor, In (RapidMove f pos) es /\ SFltb factor five_thousandths = false /\ m_feed s = f32_mul (f32_mul (c_speed c) factor) f /\ SFltb fzero (m_feed s) = true))).
  - left. reflexivity.
  - intros es e s s' R H E.
    assert (K : m_feed s' = m_feed s -> m_feed s' = f32_of_Z (-1) \/
      (exists f pos, In (CoordinatedMove f pos) (es ++ [e]) /\ SFltb fzero f = true /\ m_feed s' = f32_mul (c_speed c) f) \/
      (exists f pos factor, In (RapidMove f pos) (es ++ [e]) /\ SFltb factor five_thousandths = false /\ m_feed s' = f32_mul (f32_mul (c_speed c) factor) f /\ SFltb fzero (m_feed s') = true)).
    { intros ->. destruct H as [H|[(f & p & I1 & H)|(f & p & x & I1 & H)]]; auto.
      - right. left. exists f, p. split; auto. apply in_or_app; auto.
      - right. right. exists f, p, x. split; auto. apply in_or_app; auto. }
    destruct (perform_log c e s) as (new & L).
    assert (A : adds c e s s' new) by (unfold completes in E; split; rewrite E in *; auto).
    destruct (move_of e) as [[[f pos] b]|] eqn:X.
    + destruct e; try discriminate.
      * destruct (g1_spec _ _ _ _ _ _ A) as (_ & [G|G] & _); [auto|]. unfold g1_feed in G.
        destruct (SFltb fzero feed) eqn:P; [|auto]. right. left. exists feed, pos0. split; [apply in_or_app; right; now left|auto].
      * destruct (g0_spec _ _ _ _ _ _ A) as (_ & [G|(G & P & _)]); [auto|]. right. right. exists feed, pos0, (m_factor s).
        split; [apply in_or_app; right; now left|]. split; [eapply factor_history; eauto|]. rewrite G. auto.
    + apply K. pose proof (feed_frame c e s X) as F. unfold completes in E. now rewrite E in F.
Qed.
Lemma homed_history : forall c h answers es s, perform_all c es (start_state c h answers) = (Some tt, s) -> hw_enabled h = false ->
  m_homing s <> NeverHomed -> exists b, In (GoHome b) es.
Proof.
  intros c h answers es s E Hh. revert es s E.
  apply (history_ind c (fun es s => m_homing s <> NeverHomed -> exists b, In (GoHome b) es)); [intros []; reflexivity|].
  intros es e s s' R H E Hn. destruct (perform_log c e s) as (new & L).
  assert (A : adds c e s s' new) by (unfold completes in E; split; rewrite E in *; auto).
  assert (I : mach_inv s) by (apply (reachable_inv c); exists h, answers, es; auto).
  assert (K : m_homing s <> NeverHomed -> exists b, In (GoHome b) (es ++ [e])).
  { intros X. destruct (H X) as [b Hb]. exists b. apply in_or_app. auto. }
  destruct (homing_changes _ _ _ _ _ E A I) as [X|[(_ & _ & b & ->)|[(X & _)|(X & _)]]]; [apply K; congruence| |apply K; congruence|congruence].
  exists b. apply in_or_app. right. now left.
Qed.
Lemma latched_history : forall c es s s', perform_all c es s = (Some tt, s') -> mach_inv s -> stop_on s = true ->
  Forall (fun e => match e with GoHome _ => False | MCode n _ => n <> 999 | _ => True end) es -> stop_on s' = true /\ mach_inv s'.
Proof.
  intros c es. induction es as [|e es IH]; intros s s' E I S F; [injection E as <-; auto|]. inversion_clear F as [|x xs F1 F2].
  cbn [perform_all] in E. apply bind_some in E. destruct E as ([] & s1 & E1 & E).
  destruct (call_inv _ _ _ _ E1 I) as (I1 & C & _). apply (IH s1); auto.
  destruct (stop_on s1) eqn:S1; auto. destruct (C S eq_refl) as (X & _). destruct e; cbn in *; contradiction.
Qed.

(** ** Clamping *)
Lemma letter_z : forall ch, (match letter_axis ch with Some AZ => true | _ => false end) = Ascii.eqb ch "z" || Ascii.eqb ch "Z".
Proof. intros [[] [] [] [] [] [] [] []]; reflexivity. Qed.
Lemma axis_clamped_eq : forall c, axis_clamped c = if clamps_z c then 4 else 0.
Proof.
  intros c. unfold axis_clamped, clamps_z.
  assert (G : forall l (b : bool), fold_left (fun m ch => match letter_axis ch with Some AZ => Z.lor m (Z.shiftl 1 (axis_ix AZ)) | _ => m end) l (if b then 4 else 0)
    = if b || existsb (fun ch => Ascii.eqb ch "z" || Ascii.eqb ch "Z") l then 4 else 0).
  { induction l as [|ch l IH]; intros b; cbn [fold_left existsb]; [now rewrite orb_false_r|]. rewrite <- letter_z.
    rewrite orb_assoc. rewrite <- IH. f_equal. destruct (letter_axis ch) as [[]|]; destruct b; reflexivity. }
  apply (G (c_clamp c) false).
Qed.
Lemma affected_z : forall n, Z.land n 4 = n <-> n = 0 \/ n = 4.
Proof.
  intros n. split; [|intros [-> | ->]; reflexivity].
  intros E. assert (B : Z.land n 4 = if Z.testbit n 2 then 4 else 0).
  { apply Z.bits_inj'. intros k Hk. change 4 with (Z.shiftl 1 2). rewrite Z.land_spec, bit1 by lia.
    destruct (Z.eqb_spec k 2) as [->|X]; [destruct (Z.testbit n 2); reflexivity|]. rewrite andb_false_r.
    destruct (Z.testbit n 2); [rewrite bit1 by lia; destruct (Z.eqb_spec k 2); congruence|now rewrite Z.bits_0]. }
  destruct (Z.testbit n 2); rewrite B in E; auto.
Qed.
Lemma clamp_spec : forall c affected pos, let r := clamp_to_range c affected pos in
  (r AZ <> pos AZ -> clamps_z c = true /\ only_z affected) /\ (forall a, a <> AZ -> r a = pos a) /\
  (clamps_z c = true -> only_z affected -> is_number (pos AZ) = true ->
     SFleb zero (r AZ) = true /\ (SFltb zero (c_range c AZ) = true -> SFleb (r AZ) (c_range c AZ) = true)) /\
  (SFltb (pos AZ) zero = false -> (SFltb zero (c_range c AZ) = true -> SFltb (c_range c AZ) (pos AZ) = false) -> r AZ = pos AZ).
Proof.
  intros c affected pos r.
  assert (R : r = if clamps_z c && ((affected =? 0) || (affected =? 4)) || (affected =? 0) then fold_left (fun p i => clamp_axis c i p) all_axes pos else pos).
  { unfold r, clamp_to_range. rewrite axis_clamped_eq. destruct (clamps_z c); cbn [andb orb].
    - destruct (Z.eqb_spec affected 0) as [->|H0]; [reflexivity|]. destruct (Z.eqb_spec affected 4) as [->|H4]; [reflexivity|]. cbn [orb].
      destruct (Z.eqb_spec (Z.land affected 4) affected) as [X|X]; [apply affected_z in X; lia|reflexivity].
    - rewrite Z.land_0_r. destruct (Z.eqb_spec affected 0) as [->|H0]; [reflexivity|]. destruct (Z.eqb_spec 0 affected); [congruence|reflexivity]. }
  assert (CZ : clamped c AZ = clamps_z c) by (unfold clamped; rewrite axis_clamped_eq; destruct (clamps_z c); reflexivity).
  assert (K : forall a, r a = pos a \/ (r a = clamp_axis c a pos a /\ ((clamps_z c = true /\ only_z affected) \/ affected = 0))).
  { intros a. rewrite R. destruct (clamps_z c) eqn:Z1; cbn [andb orb].
    - destruct (Z.eqb_spec affected 0) as [->|H0]; cbn [orb]; [rewrite clamp_fold; right; split; auto|].
      destruct (Z.eqb_spec affected 4) as [->|H4]; cbn [orb]; [rewrite clamp_fold; right; split; [auto|left; split; [auto|right; auto]]|auto].
    - destruct (Z.eqb_spec affected 0) as [->|H0]; [rewrite clamp_fold; right; split; auto|auto]. }
  split; [|split; [|split]].
  - intros N. destruct (K AZ) as [E|(E & [X|X])]; [congruence|auto|]. rewrite E in N.
    destruct (clamp_axis_spec c AZ pos AZ) as ([Y|[_ Y]] & _); [congruence|]. rewrite CZ in Y. split; auto. left. auto.
  - intros a Ha. destruct (K a) as [E|(E & _)]; auto. rewrite E. destruct (clamp_axis_spec c a pos a) as ([Y|[_ Y]] & _); auto.
    apply clamped_Z in Y. contradiction.
  - intros Z1 O N. rewrite R, Z1. replace ((affected =? 0) || (affected =? 4)) with true by (destruct O as [-> | ->]; reflexivity). cbn [andb orb].
    rewrite clamp_fold. destruct (clamp_axis_spec c AZ pos AZ) as (_ & Y & _). apply Y; auto. congruence.
  - intros H1 H2. destruct (K AZ) as [E|(E & _)]; auto. rewrite E. destruct (clamp_axis_spec c AZ pos AZ) as (_ & _ & Y). apply Y; auto.
Qed.

(** ** The highest axis speed *)
Lemma SFltb_finite : forall sx mx ex sy my ey, SFltb (S754_finite sx mx ex) (S754_finite sy my ey) =
  match sx, sy with
  | true, false => true | false, true => false
  | false, false => (ex <? ey) || ((ex =? ey) && (Zpos mx <? Zpos my))
  | true, true => (ey <? ex) || ((ex =? ey) && (Zpos my <? Zpos mx))
  end.
Proof.
  intros [] mx ex [] my ey; unfold SFltb, SFcompare; auto; change (Pos.compare_cont Eq mx my) with (Z.compare (Zpos mx) (Zpos my)); try reflexivity.
  - destruct (Z.compare_spec ex ey); cbn [CompOpp]; try lia. destruct (Z.compare_spec (Zpos mx) (Zpos my)); cbn [CompOpp]; lia.
  - destruct (Z.compare_spec ex ey); try lia. destruct (Z.compare_spec (Zpos mx) (Zpos my)); lia.
Qed.
Lemma SFnlt_trans : forall x y z, is_number x = true -> is_number y = true -> is_number z = true ->
  SFltb y x = false -> SFltb z y = false -> SFltb z x = false.
Proof.
  intros x y z Hx Hy Hz.
  destruct x as [sx|sx| |sx mx ex], y as [sy|sy| |sy my ey], z as [sz|sz| |sz mz ez]; try discriminate; rewrite ?SFltb_finite;
    try (destruct sx); try (destruct sy); try (destruct sz); try (cbn; auto; discriminate); lia.
Qed.
Lemma SFltb_irrefl : forall x, SFltb x x = false.
Proof. intros [[]|[]| |[] m e]; auto; rewrite SFltb_finite; lia. Qed.
Lemma SFltb_asym : forall x y, SFltb x y = true -> SFltb y x = false.
Proof.
  intros [sx|sx| |sx mx ex] [sy|sy| |sy my ey]; rewrite ?SFltb_finite;
    try (destruct sx); try (destruct sy); try (cbn; auto; discriminate); lia.
Qed.
Lemma g0_highest : forall c, (forall a, is_number (c_feed c a) = true) ->
  (forall a, SFltb (g0_feedrate c) (c_feed c a) = false) /\
  (g0_feedrate c = f32_of_Z (-1) \/ exists a, g0_feedrate c = c_feed c a).
Proof.
  intros c Hn. unfold g0_feedrate.
  assert (G : forall l g, is_number g = true -> let r := fold_left (fun g a => if SFltb (c_feed c a) g then g else c_feed c a) l g in
    is_number r = true /\ SFltb r g = false /\ (forall a, In a l -> SFltb r (c_feed c a) = false) /\ (r = g \/ exists a, r = c_feed c a)).
  { induction l as [|a l IH]; intros g Hg; cbv zeta; cbn [fold_left].
    - split; auto. split; [apply SFltb_irrefl|]. split; [intros a []|auto].
    - set (g' := if SFltb (c_feed c a) g then g else c_feed c a).
      assert (Hg' : is_number g' = true) by (unfold g'; destruct (SFltb (c_feed c a) g); auto).
      assert (H1 : SFltb g' g = false) by (unfold g'; destruct (SFltb (c_feed c a) g) eqn:X; [apply SFltb_irrefl|exact X]).
      assert (H2 : SFltb g' (c_feed c a) = false) by (unfold g'; destruct (SFltb (c_feed c a) g) eqn:X; [now apply SFltb_asym|apply SFltb_irrefl]).
      destruct (IH g' Hg') as (I1 & I2 & I3 & I4). split; auto. split; [apply (SFnlt_trans _ g'); auto|]. split.
      + intros b [<-|Hb]; auto. apply (SFnlt_trans _ g'); auto.
      + destruct I4 as [I4|I4]; auto. assert (Q : g' = g \/ g' = c_feed c a) by (unfold g'; destruct (SFltb (c_feed c a) g); auto).
        destruct Q as [Q|Q]; [left; exact (eq_trans I4 Q)|right; exists a; exact (eq_trans I4 Q)]. }
  destruct (G all_axes (f32_of_Z (-1)) eq_refl) as (_ & _ & G1 & G2). split; auto.
  intros a. apply G1. destruct a; cbn; auto 12.
Qed.
