From Coq Require Import SpecFloat.
From Verif Require Import Base Text Model_Float Model_Axis Model_Hardware Model_Machine Model_Planner Model_Whole
  Spec_Machine Spec_Planner Spec_Whole Proofs_Machine Proofs_Machine2 Proofs_Planner Prop_Planner.

(** * The rules of the planner, followed along the log *)
Definition step1 (x : bool * bool) (e : event) : option (bool * bool) :=
  let '(h, k) := x in
  match e with
  | Did (DoEnqueue _ _) => if k then Some (false, k) else None
  | Did DoHalt => Some (true, k)
  | Did (DoDrive _ _ _ _) => Some (true, false)
  | Did (DoSetPos _ _) => if h then Some (h, true) else None
  | _ => Some x
  end.
Definition step (o : option (bool * bool)) (e : event) : option (bool * bool) := match o with Some x => step1 x e | None => None end.
Definition flow_from (o : option (bool * bool)) (log : list event) : option (bool * bool) := fold_left step log o.
Definition flow (log : list event) := flow_from (Some (true, true)) log.
Definition at_ (s : machine) : option (bool * bool) := flow (m_log s).
Lemma flow_none : forall log, flow_from None log = None.
Proof. induction log as [|e r IH]; [reflexivity|exact IH]. Qed.
Lemma flow_app : forall l1 l2, flow (l1 ++ l2) = flow_from (flow l1) l2.
Proof. intros. unfold flow, flow_from. apply fold_left_app. Qed.
Lemma flow_proper : forall c log h x, flow_from (Some x) log <> None -> proper (fst x) (snd x) (planner_calls c h log).
Proof.
  intros c. induction log as [|e r IH]; intros h [b k] H; [exact I|]. cbn [planner_calls].
  assert (G : forall y, flow_from (Some y) r <> None -> proper (fst y) (snd y) (planner_calls c (hw_after c h e) r)) by (intros; now apply IH).
  clear IH. unfold flow_from in H. cbn [fold_left step] in H. fold (flow_from (step1 (b, k) e) r) in H.
  destruct e as [q z|a]; [|destruct a]; cbn [planner_call step1 app proper fst snd] in *; try exact (G (b, k) H).
  - destruct k; [|rewrite flow_none in H; congruence]. split; [reflexivity|]. exact (G (false, true) H).
  - exact (G (true, false) H).
  - destruct b; [|rewrite flow_none in H; congruence]. split; [reflexivity|]. exact (G (true, true) H).
  - exact (G (true, k) H).
Qed.

Definition kn (s : machine) : Prop := exists h, at_ s = Some (h, true).
Definition hal (s : machine) : Prop := exists k, at_ s = Some (true, k).
Lemma at_ask : forall q s, at_ (snd (ask q s)) = at_ s.
Proof.
  intros q s. unfold ask, at_. destruct (m_in s); [reflexivity|]. cbn [snd m_log]. rewrite flow_app. unfold flow_from. cbn [fold_left]. destruct (flow (m_log s)) as [[h k]|]; reflexivity.
Qed.
Lemma at_act : forall c a s, at_ (snd (act c a s)) = step (at_ s) (Did a).
Proof. intros. unfold act, at_. cbn [snd m_log]. now rewrite flow_app. Qed.
Lemma prim_at : forall c p s, (match p with PAct _ => False | _ => True end) -> at_ (snd (run_prim c p s)) = at_ s.
Proof.
  intros c p s H. destruct p; try contradiction; try reflexivity. cbn [run_prim]. unfold bind. pose proof (at_ask q s) as A. destruct (ask q s) as [[x|] s']; exact A.
Qed.
Definition Rk (s s' : machine) : Prop := kn s -> kn s'.
Definition Rh (s s' : machine) : Prop := hal s -> hal s'.
Lemma pre_k : preorder Rk. Proof. split; unfold Rk; auto. Qed.
Lemma pre_h : preorder Rh. Proof. split; unfold Rh; auto. Qed.
Definition keeps_known (p : prim) : Prop := match p with PAct (DoDrive _ _ _ _) | PAct (DoSetPos _ _) => False | _ => True end.
Definition keeps_halted (p : prim) : Prop := match p with PAct (DoEnqueue _ _) => False | _ => True end.
Lemma prim_k : forall c p, keeps_known p -> hold Rk (run_prim c p).
Proof.
  intros c p H s [h E]. destruct p; try (exists h; rewrite prim_at by exact I; exact E). unfold kn. cbn [run_prim]. rewrite at_act, E. cbn [step step1].
  destruct a; try contradiction; eauto.
Qed.
Lemma prim_h : forall c p, keeps_halted p -> hold Rh (run_prim c p).
Proof.
  intros c p H s [k E]. destruct p; try (exists k; rewrite prim_at by exact I; exact E). unfold hal. cbn [run_prim]. rewrite at_act, E. cbn [step step1].
  destruct a; try contradiction; eauto.
Qed.
Lemma uses_k : forall A c (ok : prim -> Prop) (m : M A), (forall p, ok p -> keeps_known p) -> uses c ok m -> hold Rk m.
Proof. intros A c ok m H U. apply U; [exact pre_k|]. intros p Hp. apply prim_k. auto. Qed.
Lemma uses_h : forall A c (ok : prim -> Prop) (m : M A), (forall p, ok p -> keeps_halted p) -> uses c ok m -> hold Rh m.
Proof. intros A c ok m H U. apply U; [exact pre_h|]. intros p Hp. apply prim_h. auto. Qed.
Lemma halt_at : forall c s h k, at_ s = Some (h, k) -> at_ (snd (halt c s)) = Some (true, k).
Proof.
  intros c s h k E. unfold halt, bind. destruct (act c DoHalt s) as [[x|] s1] eqn:A; [|unfold act in A; discriminate].
  assert (A1 : at_ s1 = Some (true, k)). { pose proof (at_act c DoHalt s) as P. rewrite A, E in P. exact P. }
  pose proof (at_ask QFlush s1) as Q. destruct (ask QFlush s1) as [[n|] s2]; cbn [snd] in *; [|congruence].
  unfold when. destruct (0 <? n); [|unfold ret; cbn [snd]; congruence]. rewrite at_act, Q, A1. reflexivity.
Qed.
Lemma halt_first : forall A c (m : unit -> M A) s x, kn s -> (halt c) s = (Some tt, x) -> at_ x = Some (true, true).
Proof. intros A c m s x [h E] H. pose proof (halt_at c s h true E) as P. now rewrite H in P. Qed.

Lemma uses_halt : forall c (ok : prim -> Prop), ok (PAct DoHalt) -> ok (PAsk QFlush) -> ok (PAct (DoHw (HwEnableMotors true))) -> uses c ok (halt c).
Proof. intros. foot. Qed.

(** ** Homing *)
Lemma home_axis_known : forall c a, holdS (fun s s' => hal s -> kn s -> hal s' /\ kn s') (home_axis c a).
Proof.
  intros c a s x s' E Hh Hk. unfold home_axis in E.
  assert (G : forall f t, (halt c ;;; move_to_endstop c a f t ;;; act c (DoSetPos a (home_pos c a))) s = (Some x, s') -> hal s' /\ kn s').
  { intros f t E0. apply bind_some in E0. destruct E0 as (u & s1 & E1 & E2). apply bind_some in E2. destruct E2 as (v & s2 & E2 & E3).
    assert (H2 : hal s2).
    { assert (U : hold Rh (halt c ;;; move_to_endstop c a f t)).
      { apply uses_h with c (fp (GoHome 0)); [intros [| [] | | | | | | ]; cbn; auto|].
        unfold move_to_endstop. foot; try apply uses_to_switch; try apply uses_off_switch. }
      specialize (U s Hh). unfold bind in U. rewrite E1, E2 in U. exact U. }
    destruct H2 as [k H2]. pose proof (at_act c (DoSetPos a (home_pos c a)) s2) as P. rewrite E3, H2 in P. cbn [snd step step1] in P. split; eexists; exact P. }
  destruct (c_home c a); try (eapply G; exact E). injection E as _ <-. auto.
Qed.
Lemma home_axes_known : forall c b order, holdS (fun s s' => hal s -> kn s -> hal s' /\ kn s') (home_axes c b order).
Proof.
  intros c b. induction order as [|ch r IH]; cbn [home_axes].
  - intros s x s' E H K. injection E as _ <-. auto.
  - destruct (letter_axis ch); [|exact IH]. destruct (_ =? 0); [exact IH|]. apply holdS_bind; [|apply home_axis_known|intros; exact IH].
    intros p q s H1 H2 H K. destruct (H1 H K). auto.
Qed.
Lemma check_k : forall c, hold Rk (check_for_estop c).
Proof. intros c. apply uses_k with c (fp Dwell); [intros [| [] | | | | | | ]; cbn; auto|]. apply uses_check_fp. Qed.
Lemma clear_k : forall c, hold Rk (clear_estop c).
Proof. intros c. apply uses_k with c keeps_known; [auto|]. foot. Qed.
Lemma clear_h : forall c, hold Rh (clear_estop c).
Proof. intros c. apply uses_h with c keeps_halted; [auto|]. foot. Qed.
Lemma go_home_known : forall c b s x s', go_home c b s = (Some x, s') -> kn s -> hal s' /\ kn s'.
Proof.
  intros c b s x s' E K. unfold go_home in E. apply bind_some in E. destruct E as ([] & s1 & E1 & E). pose proof (halt_first unit c ret s s1 K E1) as A1.
  assert (H1 : hal s1) by (eexists; exact A1). assert (K1 : kn s1) by (eexists; exact A1).
  apply bind_some in E. destruct E as (ok & s2 & E2 & E). pose proof (clear_k c s1 K1) as K2. pose proof (clear_h c s1 H1) as H2. rewrite E2 in K2, H2. cbn [snd] in K2, H2.
  destruct ok; cbn [negb] in E; [|injection E as _ <-; auto].
  apply bind_some in E. destruct E as (u & s3 & E3 & E). destruct (home_axes_known c b _ s2 u s3 E3 H2 K2) as [H3 K3].
  apply bind_some in E. destruct E as (e & s4 & E4 & E). pose proof (check_k c s3 K3) as K4. rewrite E4 in K4. cbn [snd] in K4.
  assert (H4 : hal s4).
  { assert (U : hold Rh (check_for_estop c)) by (apply uses_h with c (fp Dwell); [intros [| [] | | | | | | ]; cbn; auto|apply uses_check_fp]). specialize (U s3 H3). now rewrite E4 in U. }
  destruct e; injection E as _ <-; auto.
Qed.
Lemma go_home_safe : forall c b s, kn s -> at_ (snd (go_home c b s)) <> None.
Proof.
  intros c b s K. unfold go_home. unfold bind at 1. destruct K as [h K]. pose proof (halt_at c s h true K) as A. destruct (halt c s) as [[u|] s1]; cbn [snd] in A |- *; [|congruence].
  match goal with |- at_ (snd (?m s1)) <> None => assert (U : hold Rh m) end.
  { apply uses_h with c (fp (GoHome b)); [intros [| [] | | | | | | ]; cbn; auto|]. foot; first [apply uses_home_axes|apply uses_check_fp|idtac]. }
  destruct (U s1 (ex_intro _ true A)) as [k P]. congruence.
Qed.

(** ** Probing *)
Lemma probe_fp : forall f a p, fp (ProbeAxis f a) p -> keeps_halted p.
Proof. intros f a [| [] | | | | | | ]; cbn; auto. Qed.
Lemma probe_rest_h : forall c (f : fl) a feed neg mx, hold Rh (move_to_probe c a feed neg mx) /\ hold Rk (ask (QPosition a)) /\ hold Rh (ask (QPosition a)) /\
  (forall z, hold Rk (int_of z) /\ hold Rh (int_of z)).
Proof.
  intros c f a feed neg mx. repeat split.
  - apply uses_h with c (fp (ProbeAxis f a)); [apply probe_fp|]. unfold move_to_probe. foot. apply uses_to_probe.
  - apply uses_k with c keeps_known; [auto|]. foot.
  - apply uses_h with c keeps_halted; [auto|]. foot.
  - apply uses_k with c keeps_known; [auto|]. foot.
  - apply uses_h with c keeps_halted; [auto|]. foot.
Qed.
Lemma probe_known : forall c f a s x s', probe_axis c f a s = (Some x, s') -> kn s -> kn s'.
Proof.
  intros c f a s x s' E K. unfold probe_axis in E. apply bind_some in E. destruct E as (s0 & s1 & E0 & E). injection E0 as <- <-.
  destruct (negb (move_allowed_homing_status c s)); [injection E as _ <-; exact K|]. destruct (negb (move_allowed_estop_status s)); [injection E as _ <-; exact K|].
  apply bind_some in E. destruct E as ([] & s1 & E1 & E). pose proof (halt_first unit c ret s s1 K E1) as A1.
  apply bind_some in E. destruct E as (s0 & s2 & E0 & E). injection E0 as <- <-. destruct (negb (has_probe_switch s1 a)); [injection E as _ <-; eexists; exact A1|].
  apply bind_some in E. destruct E as (st & s3 & E3 & E). apply bind_some in E. destruct E as (mx & s4 & E4 & E). apply bind_some in E. destruct E as (tot & s5 & E5 & E).
  apply bind_some in E. destruct E as (u & s6 & E6 & E). injection E as _ <-.
  assert (H5 : hal s5).
  { destruct (probe_rest_h c f a (if SFleb f fzero then f32_of_Z 20 else f) (negb (is_min (c_home c a))) (Z.abs mx)) as (P1 & _ & P3 & P4).
    assert (H1 : hal s1) by (eexists; exact A1). pose proof (P3 s1 H1) as H3. rewrite E3 in H3. cbn [snd] in H3.
    pose proof (proj2 (P4 (fl_trunc (f32_mul (c_range c a) (Model_Machine.c_steps c a)))) s3 H3) as H4. rewrite E4 in H4. cbn [snd] in H4. pose proof (P1 s4 H4) as H5. rewrite E5 in H5. exact H5. }
  destruct H5 as [k H5]. pose proof (at_act c (DoSetPos a (f32_add (f32_div (f32_of_Z st) (Model_Machine.c_steps c a)) (f32_div (f32_of_Z tot) (Model_Machine.c_steps c a)))) s5) as P.
  rewrite E6, H5 in P. cbn [snd step step1] in P. eexists. exact P.
Qed.
Lemma probe_safe : forall c f a s, kn s -> at_ (snd (probe_axis c f a s)) <> None.
Proof.
  intros c f a s K. unfold probe_axis. unfold bind at 1. cbn [get].
  assert (N : at_ s <> None) by (destruct K as [h K]; congruence).
  destruct (negb (move_allowed_homing_status c s)); [exact N|]. destruct (negb (move_allowed_estop_status s)); [exact N|].
  unfold bind at 1. destruct K as [h K]. pose proof (halt_at c s h true K) as A. destruct (halt c s) as [[u|] s1]; cbn [snd] in A |- *; [|congruence].
  match goal with |- at_ (snd (?m s1)) <> None => assert (U : hold Rh m) end.
  { apply uses_h with c (fp (ProbeAxis f a)); [apply probe_fp|]. unfold move_to_probe. foot. apply uses_to_probe. }
  destruct (U s1 (ex_intro _ true A)) as [k P]. intros Z0. assert (X : Some (true, k) = None) by (rewrite <- P; exact Z0). discriminate X.
Qed.

(** ** Every call, every history *)
Lemma other_k : forall c e, repositions e = false -> hold Rk (Model_Machine.perform c e).
Proof.
  intros c e H. apply uses_k with c (fp e); [|apply uses_perform]. intros p Hp. destruct p; try exact I. destruct a; try exact I; cbn [fp keeps_known] in *; destruct e; try discriminate; contradiction.
Qed.
Lemma call_known : forall c e s x s', Model_Machine.perform c e s = (Some x, s') -> kn s -> kn s'.
Proof.
  intros c e s x s' E K. destruct (repositions e) eqn:R.
  - destruct e; try discriminate; cbn [Model_Machine.perform] in E.
    + now apply (go_home_known c bitmap s x s').
    + apply bind_some in E. destruct E as (r & s1 & E1 & E2). injection E2 as _ <-. now apply (probe_known c feed a s r).
  - pose proof (other_k c e R s K) as P. now rewrite E in P.
Qed.
Lemma call_safe : forall c e s, kn s -> at_ (snd (Model_Machine.perform c e s)) <> None.
Proof.
  intros c e s K. destruct (repositions e) eqn:R.
  - destruct e; try discriminate; cbn [Model_Machine.perform].
    + now apply go_home_safe.
    + pose proof (probe_safe c feed a s K) as P. unfold bind. destruct (probe_axis c feed a s) as [[r|] s1]; exact P.
  - destruct (other_k c e R s K) as [h P]. congruence.
Qed.
Lemma run_known : forall c es s x s', Model_Machine.perform_all c es s = (Some x, s') -> kn s -> kn s'.
Proof.
  intros c. induction es as [|e r IH]; intros s x s' E K; cbn [Model_Machine.perform_all] in E; [injection E as _ <-; exact K|].
  apply bind_some in E. destruct E as (u & s1 & E1 & E2). eapply IH; [exact E2|]. eapply call_known; eauto.
Qed.
Lemma run_safe : forall c es s, kn s -> at_ (snd (Model_Machine.perform_all c es s)) <> None.
Proof.
  intros c. induction es as [|e r IH]; intros s K; cbn [Model_Machine.perform_all]; [destruct K as [h K]; cbn; congruence|].
  unfold bind. pose proof (call_safe c e s K) as S. pose proof (fun x s' H => call_known c e s x s' H K) as N. destruct (Model_Machine.perform c e s) as [[u|] s1]; [|exact S].
  apply IH. eapply N. reflexivity.
Qed.
Lemma init_log : forall c h answers s, machine_init c h answers = Some s -> m_log s = [].
Proof.
  intros c h answers s E. unfold machine_init in E. destruct (existsb _ _); [discriminate|]. destruct (negb _); [discriminate|]. destruct (negb _); [discriminate|].
  destruct (fold_left _ _ _) as [[|] h']; [|discriminate]. injection E as <-. reflexivity.
Qed.
Lemma init_known : forall c h answers s, machine_init c h answers = Some s -> kn s.
Proof. intros c h answers s E. exists true. unfold at_. now rewrite (init_log c h answers s E). Qed.

(** ** Growth of the log *)
Lemma any_grows : forall A c ok (m : M A), uses c ok m -> forall s, exists new, m_log (snd (m s)) = m_log s ++ new /\ Forall (fun ev => exists p, ok p /\ emitted p ev) new.
Proof. intros A c ok m U s. exact (uses_grows A c ok m (fun ev => exists p, ok p /\ emitted p ev) U (fun p ev H E => ex_intro _ p (conj H E)) s). Qed.
(** The hardware mapping is the one the log says. *)
Definition hw_along (c : mcfg) (h : hw) (log : list event) : hw := fold_left (hw_after c) log h.
Lemma calls_app : forall c l1 l2 h, planner_calls c h (l1 ++ l2) = planner_calls c h l1 ++ planner_calls c (hw_along c h l1) l2.
Proof. intros c. induction l1 as [|e r IH]; intros l2 h; [reflexivity|]. cbn [app planner_calls]. rewrite IH, app_assoc. reflexivity. Qed.
Lemma hw_prim : forall c p s, exists new, m_log (snd (run_prim c p s)) = m_log s ++ new /\ m_hw (snd (run_prim c p s)) = hw_along c (m_hw s) new.
Proof.
  intros c p s. destruct p; cbn [run_prim]; try (exists []; rewrite app_nil_r; split; reflexivity).
  - unfold bind, ask, ret. destruct (m_in s) as [|z r]; [exists []; rewrite app_nil_r; split; reflexivity|]. exists [Ask q z]. split; reflexivity.
  - exists [Did a]. split; reflexivity.
Qed.
Definition follows_log (c : mcfg) (s s' : machine) : Prop := exists new, m_log s' = m_log s ++ new /\ m_hw s' = hw_along c (m_hw s) new.
Lemma pre_log : forall c, preorder (follows_log c).
Proof.
  intros c. split.
  - intros s. exists []. rewrite app_nil_r. split; reflexivity.
  - intros x y z (n1 & A1 & B1) (n2 & A2 & B2). exists (n1 ++ n2). split; [now rewrite A2, A1, app_assoc|]. unfold hw_along. rewrite fold_left_app. fold (hw_along c (m_hw x) n1). now rewrite <- B1.
Qed.
Lemma run_hw : forall c es s, follows_log c s (snd (Model_Machine.perform_all c es s)).
Proof.
  intros c es. assert (H : hold (follows_log c) (Model_Machine.perform_all c es)); [|exact H].
  induction es as [|e r IH]; cbn [Model_Machine.perform_all]; [intros s; apply pre_log|]. apply hold_bind; [apply pre_log| |intros; exact IH].
  apply (uses_perform c e); [apply pre_log|]. intros p _ s. apply hw_prim.
Qed.

(** ** The primitives of every call, with the positions set and the lookahead *)
Definition fq (c : mcfg) (e : Model_Machine.call) (p : prim) : Prop :=
  match p with
  | PAct (DoLookahead _) => match e with MCode n _ => n = 181 | _ => False end
  | PAct (DoSetPos a q) => match e with GoHome _ => q = home_pos c a | ProbeAxis _ b => a = b | _ => False end
  | _ => fp e p
  end.
Lemma fq_wait : forall c e, uses c (fq c e) (wait_for_start c).
Proof.
  intros c e. unfold wait_for_start. foot; try (apply uses_wait_unpaused; exact I).
  match goal with |- uses _ _ (wait_started _ ?k) => generalize k end.
  intros n. induction n as [|n IH]; cbn [wait_started]; foot.
Qed.
Lemma fq_to_switch : forall c b a t v1 n v0, uses c (fq c (GoHome b)) (drive_to_switch c a t v1 n v0).
Proof. intros c b a t v1 n. induction n as [|n IH]; intros v0; cbn [drive_to_switch]; foot. Qed.
Lemma fq_off_switch : forall c b a t v0 v1 n, uses c (fq c (GoHome b)) (drive_off_switch c a t v0 v1 n).
Proof. intros c b a t v0 v1 n. induction n as [|n IH]; cbn [drive_off_switch]; foot. Qed.
Lemma fq_home_axis : forall c b a, uses c (fq c (GoHome b)) (home_axis c a).
Proof. intros c b a. unfold home_axis, move_to_endstop. foot; try apply fq_to_switch; try apply fq_off_switch. Qed.
Lemma fq_home_axes : forall c b m order, uses c (fq c (GoHome b)) (home_axes c m order).
Proof. intros c b m order. induction order as [|ch r IH]; cbn [home_axes]; foot. all: apply fq_home_axis. Qed.
Lemma fq_to_probe : forall c f a neg v1 mx n v0 tot, uses c (fq c (ProbeAxis f a)) (drive_to_probe c a neg v1 mx n v0 tot).
Proof. intros c f a neg v1 mx n. induction n as [|n IH]; intros v0 tot; cbn [drive_to_probe]; foot. Qed.
Lemma fq_spindle_speed : forall c e ps r, uses c (fq c e) (spindle_speed ps r).
Proof. intros c e ps. induction ps as [|[ch v] ps IH]; intros r; cbn [spindle_speed]; foot. Qed.
Lemma fq_pin_value : forall c e b ps p r, uses c (fq c e) (pin_and_value b ps p r).
Proof. intros c e b ps. induction ps as [|[ch v] ps IH]; intros p r; cbn [pin_and_value]; foot. Qed.
Lemma fq_light_value : forall c e ps r, uses c (fq c e) (light_value ps r).
Proof. intros c e ps. induction ps as [|[ch v] ps IH]; intros r; cbn [light_value]; foot. Qed.
Ltac foot_hook ::=
  match goal with
  | |- uses _ _ (wait_for_start _) => apply fq_wait
  | |- uses _ _ (home_axes _ _ _) => apply fq_home_axes
  | |- uses _ _ (drive_to_probe _ _ _ _ _ _ _ _) => apply fq_to_probe
  | |- uses _ _ (spindle_speed _ _) => apply fq_spindle_speed
  | |- uses _ _ (pin_and_value _ _ _ _) => apply fq_pin_value
  | |- uses _ _ (light_value _ _) => apply fq_light_value
  end.
Lemma fq_perform : forall c e, uses c (fq c e) (Model_Machine.perform c e).
Proof.
  intros c [| | | |b|f a|f|f| |on|f pos|f pos|n ps]; cbn [Model_Machine.perform].
  - unfold gcode_start. foot.
  - unfold gcode_finished. foot.
  - unfold input_idle. foot.
  - apply fq_wait.
  - unfold go_home. foot.
  - unfold probe_axis, move_to_probe. foot.
  - unfold set_speed_factor. foot.
  - foot.
  - unfold dwell. foot.
  - unfold motors_enable, motor_enable. foot. all: destruct on; try (apply uses_act; cbn; auto).
  - unfold coordinated_move. foot.
  - unfold rapid_move. foot.
  - unfold special_commands.
    repeat match goal with |- uses _ _ (match ?x with _ => _ end) => destruct x end.
    all: try (unfold aux_bit_commands, set_spindle_on, set_pin, handle_set_lookahead, dwell; cbv iota beta; foot; fail).
Qed.
Ltac foot_hook ::= fail.
Lemma run_grows : forall c es s, exists new, m_log (snd (Model_Machine.perform_all c es s)) = m_log s ++ new /\
  Forall (fun ev => exists e p, In e es /\ fq c e p /\ emitted p ev) new.
Proof.
  intros c. induction es as [|e r IH]; intros s; cbn [Model_Machine.perform_all].
  - exists []. split; [now rewrite app_nil_r|constructor].
  - destruct (any_grows _ c _ _ (fq_perform c e) s) as (n1 & E1 & F1). unfold bind. destruct (Model_Machine.perform c e s) as [[u|] s1]; cbn [snd] in E1.
    + destruct (IH s1) as (n2 & E2 & F2). exists (n1 ++ n2). split; [now rewrite E2, E1, app_assoc|]. apply Forall_app. split.
      * revert F1. apply Forall_impl. intros ev (p & H). exists e, p. split; [now left|exact H].
      * revert F2. apply Forall_impl. intros ev (e' & p & I & H). exists e', p. split; [now right|exact H].
    + exists n1. split; [exact E1|]. revert F1. apply Forall_impl. intros ev (p & H). exists e, p. split; [now left|exact H].
Qed.

(** * Which axes are set by homing *)
Lemma axis_ix_nonneg : forall a, 0 <= axis_ix a.
Proof. destruct a; cbn; lia. Qed.
Lemma home_axis_sets : forall c a s x s', home_axis c a s = (Some x, s') -> (match c_home c a with TrigNone => false | _ => true end) = true ->
  exists new, m_log s' = m_log s ++ new /\ In (Did (DoSetPos a (switch_pos c a))) new.
Proof.
  intros c a s x s' E H. unfold home_axis in E.
  assert (G : forall f t, (halt c ;;; move_to_endstop c a f t ;;; act c (DoSetPos a (home_pos c a))) s = (Some x, s') ->
    exists new, m_log s' = m_log s ++ new /\ In (Did (DoSetPos a (switch_pos c a))) new).
  { intros f t E0. apply bind_some in E0. destruct E0 as (u & s1 & E1 & E2). apply bind_some in E2. destruct E2 as (v & s2 & E2 & E3).
    assert (U : uses c (fp (GoHome 0)) (halt c ;;; move_to_endstop c a f t)).
    { unfold move_to_endstop. foot; try apply uses_to_switch; try apply uses_off_switch. }
    destruct (any_grows _ c _ _ U s) as (n1 & G1 & _). unfold bind in G1. rewrite E1, E2 in G1. cbn [snd] in G1. injection E3 as _ <-. cbn [m_log].
    exists (n1 ++ [Did (DoSetPos a (home_pos c a))]). split; [now rewrite G1, app_assoc|]. apply in_or_app. right. now left. }
  destruct (c_home c a); try discriminate; eapply G; exact E.
Qed.
Lemma home_axes_set : forall c b order s x s', home_axes c b order s = (Some x, s') -> exists new, m_log s' = m_log s ++ new /\
  forall a, In a (axes_to_home c b order) -> In (Did (DoSetPos a (switch_pos c a))) new.
Proof.
  intros c b. induction order as [|ch r IH]; intros s x s' E; cbn [home_axes axes_to_home] in *.
  - injection E as _ <-. exists []. rewrite app_nil_r. split; [reflexivity|intros a []].
  - destruct (letter_axis ch) as [i|]; [|exact (IH _ _ _ E)]. rewrite (land_bit b (axis_ix i) (axis_ix_nonneg i)) in E.
    destruct (Z.testbit b (axis_ix i)); cbn [negb andb] in *; [|exact (IH _ _ _ E)].
    apply bind_some in E. destruct E as (u & s1 & E1 & E2). destruct (IH _ _ _ E2) as (n2 & G2 & H2).
    destruct (match c_home c i with TrigNone => false | _ => true end) eqn:HT.
    + destruct (home_axis_sets c i s u s1 E1 HT) as (n1 & G1 & H1). exists (n1 ++ n2). split; [now rewrite G2, G1, app_assoc|].
      intros a [<-|I]; apply in_or_app; [now left|right; auto].
    + unfold home_axis in E1. destruct (c_home c i); try discriminate. injection E1 as _ <-. eauto.
Qed.
Lemma go_home_sets : forall c b s x s', go_home c b s = (Some x, s') -> stop_on s = false -> exists new, m_log s' = m_log s ++ new /\
  forall a, In a (axes_to_home c b (c_home_order c)) -> In (Did (DoSetPos a (switch_pos c a))) new.
Proof.
  intros c b s x s' E S. unfold go_home in E. apply bind_some in E. destruct E as (u & s1 & E1 & E).
  pose proof (halt_quiet c s) as Q. rewrite E1 in Q. cbn [snd] in Q. pose proof (q_stop _ _ Q) as S1. rewrite S in S1.
  apply bind_some in E. destruct E as (ok & s2 & E2 & E). unfold clear_estop in E2. apply bind_some in E2. destruct E2 as (e & s3 & E2 & E3). injection E2 as <- <-.
  unfold stop_on in S1. rewrite S1 in E3. injection E3 as <- <-. cbn [negb] in E. apply bind_some in E. destruct E as (u2 & s3 & E3 & E4).
  destruct (home_axes_set c b _ _ _ _ E3) as (n2 & G2 & H2).
  assert (U1 : uses c (fp Dwell) (halt c)) by foot. destruct (any_grows _ c _ _ U1 s) as (n1 & G1 & _). rewrite E1 in G1. cbn [snd] in G1.
  assert (U2 : uses c (fp (GoHome b)) (e <- check_for_estop c ;; if e then ret tt else set_homing Homed)).
  { foot. }
  destruct (any_grows _ c _ _ U2 s3) as (n3 & G3 & _). rewrite E4 in G3. cbn [snd] in G3.
  exists (n1 ++ n2 ++ n3). split; [now rewrite G3, G2, G1, !app_assoc|]. intros a I. apply in_or_app. right. apply in_or_app. left. auto.
Qed.

(** * Where the path ends *)
Lemma ends_home : forall c p new h pos a,
  Forall (fun ev => match ev with Did (DoEnqueue _ _) => False | Did (DoSetPos x q) => q = home_pos c x | _ => True end) new ->
  ends p pos (planner_calls c h new) a = pos a \/ ends p pos (planner_calls c h new) a = steps_at p a (switch_pos c a).
Proof.
  intros c p. induction new as [|ev r IH]; intros h pos a F; [now left|]. inversion F as [|? ? F1 F2]; subst. cbn [planner_calls].
  assert (E : forall l, ends p pos (l ++ planner_calls c (hw_after c h ev) r) a = ends p (ends p pos l) (planner_calls c (hw_after c h ev) r) a).
  { intros l. revert pos. induction l as [|o l IHl]; intros pos; [reflexivity|]. cbn [app ends]. apply IHl. }
  rewrite E. destruct (IH (hw_after c h ev) (ends p pos (planner_call h ev)) a F2) as [->|X]; [|now right].
  destruct ev as [q z|ac]; [now left|]. destruct ac; cbn [planner_call ends after]; try (now left). subst. unfold set_axis. destruct (axis_eqb_spec a a0) as [->|N]; [now right|now left].
Qed.
Lemma ends_app : forall p os1 os2 pos, ends p pos (os1 ++ os2) = ends p (ends p pos os1) os2.
Proof. intros p. induction os1 as [|o l IH]; intros os2 pos; [reflexivity|]. cbn [app ends]. apply IH. Qed.
Lemma ends_set : forall c p new h pos a,
  Forall (fun ev => match ev with Did (DoEnqueue _ _) => False | Did (DoSetPos x q) => q = home_pos c x | _ => True end) new ->
  In (Did (DoSetPos a (switch_pos c a))) new -> ends p pos (planner_calls c h new) a = steps_at p a (switch_pos c a).
Proof.
  intros c p new h pos a F I. apply in_split in I. destruct I as (l1 & l2 & ->). rewrite calls_app, ends_app. cbn [planner_calls planner_call app ends after].
  apply Forall_app in F. destruct F as [_ F]. inversion F as [|? ? _ F2]; subst.
  destruct (ends_home c p l2 (hw_after c (hw_along c h l1) (Did (DoSetPos a (switch_pos c a)))) (set_axis (ends p pos (planner_calls c h l1)) a (steps_at p a (switch_pos c a))) a F2) as [->| ->]; [|reflexivity].
  unfold set_axis. now destruct (axis_eqb_spec a a).
Qed.
Lemma ends_target : forall c p new h pos d a, pos a = steps_at p a (d a) ->
  Forall (fun ev => match ev with Did (DoSetPos _ _) => False | _ => True end) new ->
  ends p pos (planner_calls c h new) a = steps_at p a (last_target d new a).
Proof.
  intros c p. induction new as [|ev r IH]; intros h pos d a E F; [exact E|]. inversion F as [|? ? F1 F2]; subst. cbn [planner_calls]. rewrite ends_app.
  destruct ev as [q z|ac]; [apply IH; auto|]. destruct ac; cbn [planner_call ends after last_target]; try (apply IH; auto). contradiction.
Qed.

(** * The planner between two stops *)
Lemma halted_inv : forall p os st, willing p -> history p os = Ok st -> p_halted st = true -> forall m a, turns_for p m a ->
  total (fun x => Model_Planner.c_steps x m) (sent (p_log st)) = fold_right (fun l n => l_steps l a + n) 0 (legs p (at_home p) os).
Proof.
  intros p os st W E HT m a T. destruct (history_ok p os st E) as [(hs & pend & [] & (done & pl & EL & Le)) _].
  destruct (ledger_willing p _ _ _ _ W Le) as (gs & G1 & G2). destruct Le as [_ _ P]. rewrite (sh_halted HT) in P. inversion P; subst. rewrite EL, app_nil_r.
  rewrite <- total_rev, <- G2. apply (carried p gs done G1 m a T).
Qed.
Lemma sum_app : forall a ls1 ls2, fold_right (fun l n => l_steps l a + n) 0 (ls1 ++ ls2) =
  fold_right (fun l n => l_steps l a + n) 0 ls1 + fold_right (fun l n => l_steps l a + n) 0 ls2.
Proof. intros a. induction ls1 as [|l r IH]; intros ls2; [reflexivity|]. cbn [app fold_right]. rewrite IH. lia. Qed.
Definition only_moves (o : Model_Planner.call) : Prop := match o with Drive _ _ _ _ _ | Position _ _ => False | _ => True end.
Lemma sum_moves : forall p os pos a, Forall only_moves os -> fold_right (fun l n => l_steps l a + n) 0 (legs p pos os) = ends p pos os a - pos a.
Proof.
  intros p. induction os as [|o os IH]; intros pos a F; [cbn; lia|]. inversion F as [|? ? F1 F2]; subst. cbn [legs ends]. rewrite sum_app, IH by auto.
  destruct o as [to f aux| | | |n]; try contradiction; cbn [asks after fold_right]; try lia.
  destruct (forallb _ all_axes) eqn:Z0; cbn [fold_right l_steps]; [|lia]. rewrite forallb_forall in Z0. specialize (Z0 a (all_axes_in a)). cbn beta in Z0. lia.
Qed.
Definition halts1 (b : bool) (o : Model_Planner.call) : bool := match o with Move _ _ _ => false | Halt | Drive _ _ _ _ _ => true | _ => b end.
Lemma halted_from : forall p os b pos L st st', inv p pos L st -> 1 <= p_look st -> (b = true -> p_halted st = true) ->
  Model_Planner.perform_all p os st = Ok st' -> fold_left halts1 os b = true -> p_halted st' = true.
Proof.
  intros p. induction os as [|o os IH]; intros b pos L st st' I LK HB E F; cbn [Model_Planner.perform_all fold_left] in *; [injection E as <-; auto|].
  destruct (Model_Planner.perform p o st) as [s1|] eqn:P; [|discriminate]. cbn [obind] in E. destruct (perform_ok p o pos L st s1 I LK P) as (I1 & L1 & H1).
  apply (IH (halts1 b o) _ _ s1 st' I1 L1); auto. intros HH. destruct o as [to f aux| |a d v0 v1 aux|a q|n]; cbn [halts1] in HH; try exact H1; try discriminate.
  - cbn [Model_Planner.perform] in P. specialize (HB HH). destruct (position_ok p pos L st a q I HB) as (s2 & E2 & _ & H2 & _). rewrite P in E2. injection E2 as ->. exact H2.
  - cbn [Model_Planner.perform] in P. injection P as <-. unfold set_lookahead. destruct (_ || _); cbn; auto.
Qed.
Lemma halted_history : forall p os st, history p os = Ok st -> fold_left halts1 os true = true -> p_halted st = true.
Proof.
  intros p os st E F. apply history_from in E. destruct E as (s0 & (I & H & _ & K & _) & E).
  apply (halted_from p os true (at_home p) [] s0 st I); auto. rewrite K. clear. lia.
Qed.
Lemma flow_halts : forall c log h x y, flow_from (Some x) log = Some y -> fold_left halts1 (planner_calls c h log) (fst x) = fst y.
Proof.
  intros c. induction log as [|ev r IH]; intros h [b k] y E; [injection E as <-; reflexivity|]. cbn [planner_calls]. rewrite fold_left_app.
  unfold flow_from in E. cbn [fold_left step] in E. fold (flow_from (step1 (b, k) ev) r) in E.
  destruct (step1 (b, k) ev) as [z|] eqn:S; [|rewrite flow_none in E; discriminate]. rewrite <- (IH (hw_after c h ev) z y E). f_equal.
  destruct ev as [q n|ac]; [injection S as <-; reflexivity|]. destruct ac; cbn [step1] in S; try (injection S as <-; reflexivity).
  - destruct k; [|discriminate]. injection S as <-. reflexivity.
  - destruct b; [|discriminate]. injection S as <-. reflexivity.
Qed.
Lemma plan_is : forall c h p s, plan c h p s = history p (planner_calls c h (m_log s)).
Proof. reflexivity. Qed.
Lemma plan_halted : forall c h p s st, hal s -> plan c h p s = Ok st -> p_halted st = true.
Proof.
  intros c h p s st [k A] E. rewrite plan_is in E. pose proof (flow_halts c (m_log s) h (true, true) (true, k) A) as F. cbn [fst] in F.
  exact (halted_history p _ st E F).
Qed.

(** ** Calls that stop *)
Ltac foot_hook ::= match goal with |- uses _ _ (wait_for_start _) => apply uses_wait_fp end.
Lemma stops_halted : forall c e s x s', stops e = true -> Model_Machine.perform c e s = (Some x, s') -> kn s -> hal s'.
Proof.
  intros c e s x s' S E K.
  assert (G : forall (rest : unit -> M unit), (forall u, uses c (fp e) (rest u)) -> (match e with CoordinatedMove _ _ | RapidMove _ _ => False | _ => True end) ->
    bind (halt c) rest s = (Some x, s') -> hal s').
  { intros rest U NM E0. apply bind_some in E0. destruct E0 as ([] & s1 & E1 & E2). pose proof (halt_first unit c ret s s1 K E1) as A1.
    assert (H : hold Rh (rest tt)). { apply uses_h with c (fp e); [|apply U]. intros p Hp. destruct p; try exact I. destruct a; try exact I. cbn [fp] in Hp. destruct e; try contradiction. }
    specialize (H s1 (ex_intro _ true A1)). now rewrite E2 in H. }
  destruct e; try discriminate S; cbn [Model_Machine.perform] in E.
  - refine (G _ _ I E). intros _. foot.
  - refine (G _ _ I E). intros _. foot.
  - refine (G _ _ I E). intros _. foot.
  - refine (G _ _ I E). intros _. unfold motor_enable. foot. all: destruct on; try (apply uses_act; cbn; auto).
  - assert (code = 400). { cbn in S. repeat match type of S with context [match ?x with _ => _ end] => destruct x; try discriminate S end. reflexivity. } subst.
    cbn [special_commands] in E. refine (G _ _ I E). intros _. foot.
Qed.
