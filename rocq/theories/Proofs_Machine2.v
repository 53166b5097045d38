From Verif Require Import Base Text Model_Axis Model_Float Model_Hardware Model_Machine Spec_Machine Spec_Hardware Proofs_Hardware Proofs_Machine.

(** ** A pressed emergency stop switch that is noticed stops the machine *)
Section Alert.
Variable c : mcfg.
Lemma ua_bind : forall A B (m : M A) (f : A -> M B), holdS alert m -> (forall x, holdS alert (f x)) -> holdS alert (bind m f).
Proof. intros A B m f Hm Hf. apply holdS_bind; [apply alert_pre|exact Hm|exact Hf]. Qed.
End Alert.
Ltac foot_hook ::= fail.
Lemma silent_wait : forall c, uses c silent_prim (wait_for_start c).
Proof.
  intros c. unfold wait_for_start. foot; try (apply uses_wait_unpaused; exact I).
  match goal with |- uses _ _ (wait_started _ ?k) => generalize k end.
  intros n. induction n as [|n IH]; cbn [wait_started]; foot.
Qed.
Lemma silent_to_probe : forall c a neg v1 mx n v0 tot, uses c silent_prim (drive_to_probe c a neg v1 mx n v0 tot).
Proof. intros c a neg v1 mx n. induction n as [|n IH]; intros v0 tot; cbn [drive_to_probe]; foot. Qed.
Lemma silent_spindle_speed : forall c ps r, uses c silent_prim (spindle_speed ps r).
Proof. intros c ps. induction ps as [|[ch v] ps IH]; intros r; cbn [spindle_speed]; foot. Qed.
Lemma silent_pin_value : forall c b ps p r, uses c silent_prim (pin_and_value b ps p r).
Proof. intros c b ps. induction ps as [|[ch v] ps IH]; intros p r; cbn [pin_and_value]; foot. Qed.
Lemma silent_light_value : forall c ps r, uses c silent_prim (light_value ps r).
Proof. intros c ps. induction ps as [|[ch v] ps IH]; intros r; cbn [light_value]; foot. Qed.
Ltac foot_hook ::=
  match goal with
  | |- uses _ _ (wait_for_start _) => apply silent_wait
  | |- uses _ _ (drive_to_probe _ _ _ _ _ _ _ _) => apply silent_to_probe
  | |- uses _ _ (spindle_speed _ _) => apply silent_spindle_speed
  | |- uses _ _ (pin_and_value _ _ _ _) => apply silent_pin_value
  | |- uses _ _ (light_value _ _) => apply silent_light_value
  end.
Ltac footA c :=
  repeat match goal with
    | |- holdS _ (set_estop _) => apply estop_alert
    | |- holdS _ (motors_enable _ _) => apply motors_alert
    | |- holdS _ (check_for_estop _) => apply check_alert
    | |- holdS _ (bind _ _) => apply ua_bind; [|intros ?]
    | |- holdS _ (if ?b then _ else _) => destruct b
    | |- holdS _ (when ?b _) => unfold when; destruct b
    | |- holdS _ (match ?x with _ => _ end) => destruct x
    | |- holdS _ _ => apply (silent_alert _ c); foot; fail
    end.
Lemma perform_alert : forall c e, match e with GoHome _ => False | MCode n _ => n <> 999 | _ => True end -> holdS alert (perform c e).
Proof.
  intros c [| | | |b|f a|f|f| |on|f pos|f pos|n ps] H; cbn [perform]; try contradiction.
  - unfold gcode_start. footA c.
  - unfold gcode_finished. footA c.
  - unfold input_idle. footA c.
  - footA c.
  - unfold probe_axis, move_to_probe. footA c.
  - unfold set_speed_factor. footA c.
  - footA c.
  - unfold dwell. footA c.
  - footA c.
  - unfold coordinated_move. footA c.
  - unfold rapid_move. footA c.
  - unfold special_commands.
    repeat match goal with |- holdS _ (match ?x with _ => _ end) => destruct x end.
    all: try congruence.
    all: unfold aux_bit_commands, set_spindle_on, set_pin, handle_set_lookahead, dwell; cbv iota beta; footA c.
Qed.
Lemma noticed : forall c e s s' new, completes c e s s' -> adds c e s s' new -> sim_off s ->
  (forall b, e <> GoHome b) -> pressed new -> stop_on s' = true.
Proof.
  intros c e s s' new E [_ L] H N P.
  assert (G : exists n, m_log s' = m_log s ++ n /\ (pressed n -> stop_on s' = true)).
  { destruct (match e with MCode n _ => n =? 999 | _ => false end) eqn:X.
    - destruct e; try discriminate. apply Z.eqb_eq in X. subst code. unfold completes in E. cbn [perform special_commands] in E.
      apply bind_some in E. destruct E as (r & s1 & E & X). injection X as <-. eapply clear_alert; eauto.
    - assert (D : match e with GoHome _ => False | MCode n _ => n <> 999 | _ => True end).
      { destruct e; auto. - destruct (N bitmap); auto. - now apply Z.eqb_neq. }
      destruct (perform_alert c e D s tt s' E H) as (_ & _ & G). exact G. }
  destruct G as (n & L2 & G). rewrite L in L2. apply app_inv_head in L2. subst. auto.
Qed.

(** ** Homing traces *)
Definition seen (s s' : machine) (l : list event) : Prop :=
  exists new, m_log s' = m_log s ++ new /\ filter homing_event new = l.
Lemma seen_trans : forall a b d l1 l2, seen a b l1 -> seen b d l2 -> seen a d (l1 ++ l2).
Proof.
  intros a b d l1 l2 (n1 & E1 & F1) (n2 & E2 & F2). exists (n1 ++ n2). split; [now rewrite E2, E1, app_assoc|].
  now rewrite filter_app, F1, F2.
Qed.
Lemma seen_refl : forall s, seen s s [].
Proof. intros s. exists []. now rewrite app_nil_r. Qed.
Lemma seen_inj : forall a b l1 l2, seen a b l1 -> seen a b l2 -> l1 = l2.
Proof. intros a b l1 l2 (n1 & E1 & F1) (n2 & E2 & F2). rewrite E1 in E2. apply app_inv_head in E2. congruence. Qed.
Definition unseen_prim (p : prim) : Prop :=
  match p with PAsk (QAxis _ _) | PAsk QEstop | PAct (DoDrive _ _ _ _) | PAct DoWait | PAct (DoSetPos _ _) => False | _ => True end.
Lemma unseen : forall A c (m : M A), uses c unseen_prim m -> hold (fun s s' => seen s s' []) m.
Proof.
  intros A c m U s. destruct (uses_grows _ _ _ _ (fun e => homing_event e = false) U ltac:(
    intros [] ev Hp Hev; cbn in *; try contradiction; [destruct Hev as [z ->]; destruct q; auto; contradiction|subst ev; destruct a; auto; contradiction]) s)
    as (n & E & F).
  exists n. split; auto. clear E. induction F as [|e n H F IH]; auto. cbn. now rewrite H.
Qed.
Lemma test_seen : forall q s b s', test q s = (Some b, s') -> homing_event (Ask q 0) = true ->
  exists z, seen s s' [Ask q z] /\ b = negb (z =? 0).
Proof.
  intros q s b s' E H. unfold test in E. apply bind_some in E. destruct E as (z & s1 & E1 & E). injection E as <- <-.
  unfold ask in E1. destruct (m_in s); [discriminate|]. injection E1 as -> <-. exists z. split; auto.
  exists [Ask q z]. split; auto. cbn [filter]. assert (X : homing_event (Ask q z) = true) by (destruct q; auto). now rewrite X.
Qed.
Lemma act_seen : forall c a s x s', act c a s = (x, s') -> homing_event (Did a) = true -> seen s s' [Did a].
Proof. intros c a s x s' E H. unfold act in E. injection E as _ <-. exists [Did a]. split; auto. cbn [filter]. now rewrite H. Qed.
Lemma unseen_S : forall A c (m : M A), uses c unseen_prim m -> forall s x s', m s = (Some x, s') -> seen s s' [].
Proof. intros A c m U s x s' E. pose proof (unseen _ _ _ U s) as S. now rewrite E in S. Qed.
Ltac foot_hook ::= fail.
Lemma drive_seen : forall c a d v0 v1 s x s', direct_drive c a d v0 v1 s = (Some x, s') -> seen s s' [Did (DoDrive a d v0 v1); Did DoWait].
Proof.
  intros c a d v0 v1 s x s' E. unfold direct_drive in E.
  apply bind_some in E. destruct E as ([] & s1 & E1 & E). apply (unseen_S _ c) in E1; [|foot].
  apply bind_some in E. destruct E as ([] & s2 & E2 & E). apply act_seen in E2; [|reflexivity].
  apply bind_some in E. destruct E as ([] & s3 & E3 & E). apply (unseen_S _ c) in E3; [|foot].
  apply bind_some in E. destruct E as ([] & s4 & E4 & E). apply act_seen in E4; [|reflexivity].
  apply (unseen_S _ c) in E; [|foot].
  pose proof (seen_trans _ _ _ _ _ E1 (seen_trans _ _ _ _ _ E2 (seen_trans _ _ _ _ _ E3 (seen_trans _ _ _ _ _ E4 E)))) as S. exact S.
Qed.
Lemma towards_eq : forall t, signed (is_min t) kHomingMM = towards t half_mm.
Proof. intros []; reflexivity. Qed.
Lemma away_eq : forall t, signed (negb (is_min t)) kBackoffMM = away t twentieth_mm.
Proof. intros []; reflexivity. Qed.
Lemma to_switch_trace : forall c a t v1 n v0 s r s', drive_to_switch c a t v1 n v0 s = (Some r, s') ->
  exists l, seen s s' l /\ match r with Some _ => approach a t l | None => exists z, z <> 0 /\ In (Ask QEstop z) l end.
Proof.
  intros c a t v1 n. induction n as [|n IH]; intros v0 s r s' E; cbn [drive_to_switch] in E; [discriminate|].
  apply bind_some in E. destruct E as (on & s1 & E1 & E). apply test_seen in E1; [|reflexivity]. destruct E1 as (z & S1 & ->).
  destruct (Z.eqb_spec z 0) as [->|Hz]; cbn [negb] in E.
  - apply bind_some in E. destruct E as (e & s2 & E2 & E). apply test_seen in E2; [|reflexivity]. destruct E2 as (z & S2 & ->).
    destruct (Z.eqb_spec z 0) as [->|Hz]; cbn [negb] in E.
    + apply bind_some in E. destruct E as (x & s3 & E3 & E). apply drive_seen in E3. rewrite towards_eq in E3. destruct (IH _ _ _ _ E) as (l & S4 & X).
      exists (Ask (QAxis a t) 0 :: Ask QEstop 0 :: Did (DoDrive a (towards t half_mm) v0 v1) :: Did DoWait :: l). split.
      * exact (seen_trans _ _ _ _ _ S1 (seen_trans _ _ _ _ _ S2 (seen_trans _ _ _ _ _ E3 S4))).
      * destruct r; [now constructor|]. destruct X as (z & Hz & X). exists z. split; auto. cbn. auto.
    + injection E as <- <-. eexists. split; [exact (seen_trans _ _ _ _ _ S1 S2)|]. exists z. split; auto. cbn. auto.
  - injection E as <- <-. exists [Ask (QAxis a t) z]. split; auto. now constructor.
Qed.
Lemma off_switch_trace : forall c a t v0 v1 n s r s', drive_off_switch c a t v0 v1 n s = (Some r, s') ->
  exists l, seen s s' l /\ if r then backoff a t l else exists z, z <> 0 /\ In (Ask QEstop z) l.
Proof.
  intros c a t v0 v1 n. induction n as [|n IH]; intros s r s' E; cbn [drive_off_switch] in E; [discriminate|].
  apply bind_some in E. destruct E as (on & s1 & E1 & E). apply test_seen in E1; [|reflexivity]. destruct E1 as (z & S1 & ->).
  destruct (Z.eqb_spec z 0) as [->|Hz]; cbn [negb] in E.
  - injection E as <- <-. exists [Ask (QAxis a t) 0]. split; auto. constructor.
  - apply bind_some in E. destruct E as (e & s2 & E2 & E). apply test_seen in E2; [|reflexivity]. destruct E2 as (z2 & S2 & ->).
    destruct (Z.eqb_spec z2 0) as [->|Hz2]; cbn [negb] in E.
    + apply bind_some in E. destruct E as (x & s3 & E3 & E). apply drive_seen in E3. rewrite away_eq in E3. destruct (IH _ _ _ E) as (l & S4 & X).
      exists (Ask (QAxis a t) z :: Ask QEstop 0 :: Did (DoDrive a (away t twentieth_mm) v0 v1) :: Did DoWait :: l). split.
      * exact (seen_trans _ _ _ _ _ S1 (seen_trans _ _ _ _ _ S2 (seen_trans _ _ _ _ _ E3 S4))).
      * destruct r; [now constructor|]. destruct X as (z3 & Hz3 & X). exists z3. split; auto. cbn. auto.
    + injection E as <- <-. eexists. split; [exact (seen_trans _ _ _ _ _ S1 S2)|]. exists z2. split; auto. cbn. auto.
Qed.
Lemma no_stop_app : forall l1 l2, no_stop_read (l1 ++ l2) -> no_stop_read l1 /\ no_stop_read l2.
Proof. intros l1 l2 H. split; intros z Hz; apply H, in_or_app; auto. Qed.
Lemma home_axis_trace : forall c a s s', home_axis c a s = (Some tt, s') -> c_home c a <> TrigNone -> hw_ready (m_hw s) = true ->
  exists l, seen s s' l /\ (no_stop_read l -> homed_axis c a l).
Proof.
  intros c a s s' E Ht Hr. unfold home_axis in E.
  assert (E' : (halt c;;; move_to_endstop c a (if SFltb fzero (c_homefeed c a) then c_homefeed c a else f32_of_Z 15) (c_home c a);;;
                act c (DoSetPos a (home_pos c a))) s = (Some tt, s')) by (destruct (c_home c a); [contradiction|exact E..]).
  clear E. rename E' into E.
  apply bind_some in E. destruct E as ([] & s1 & E1 & E).
  assert (R1 : hw_ready (m_hw s1) = true) by (destruct (hold_S _ _ _ (halt_quiet c) _ _ _ E1); congruence).
  apply (unseen_S _ c) in E1; [|foot].
  apply bind_some in E. destruct E as ([] & s2 & E2 & E). apply act_seen in E; [|reflexivity].
  change (home_pos c a) with (switch_pos c a) in E.
  unfold move_to_endstop in E2. unfold bind at 1, get at 1 in E2. cbn iota beta in E2. rewrite R1 in E2. cbn [negb] in E2.
  unfold bind at 1, loop_limit at 1 in E2. cbn iota beta in E2.
  apply bind_some in E2. destruct E2 as (r & s3 & E3 & E2). destruct (to_switch_trace _ _ _ _ _ _ _ _ _ E3) as (l1 & S1 & X1).
  destruct r as [v0|].
  - unfold bind at 1, loop_limit at 1 in E2. cbn iota beta in E2.
    apply bind_some in E2. destruct E2 as (r & s4 & E4 & E2). injection E2 as <-. destruct (off_switch_trace _ _ _ _ _ _ _ _ _ E4) as (l2 & S2 & X2).
    exists (l1 ++ l2 ++ [Did (DoSetPos a (switch_pos c a))]). split; [exact (seen_trans _ _ _ _ _ E1 (seen_trans _ _ _ _ _ S1 (seen_trans _ _ _ _ _ S2 E)))|].
    intros N. destruct r; [now constructor|]. destruct X2 as (z & Hz & X2). destruct Hz. apply N. apply in_or_app. right. apply in_or_app. auto.
  - injection E2 as <-. exists (l1 ++ [Did (DoSetPos a (switch_pos c a))]). split; [exact (seen_trans _ _ _ _ _ E1 (seen_trans _ _ _ _ _ S1 E))|].
    intros N. destruct X1 as (z & Hz & X1). destruct Hz. apply N. apply in_or_app. auto.
Qed.
Lemma land_bit : forall m k, 0 <= k -> (Z.land m (Z.shiftl 1 k) =? 0) = negb (Z.testbit m k).
Proof.
  intros m k Hk. destruct (Z.eqb_spec (Z.land m (Z.shiftl 1 k)) 0) as [E|E].
  - pose proof (f_equal (fun x => Z.testbit x k) E) as X. cbn beta in X. rewrite Z.land_spec, bit1, Z.eqb_refl, andb_true_r, Z.bits_0 in X by lia.
    now rewrite X.
  - destruct (Z.testbit m k) eqn:B; auto. exfalso. apply E. apply Z.bits_inj'. intros i Hi. rewrite Z.land_spec, bit1, Z.bits_0 by lia.
    destruct (Z.eqb_spec i k) as [->|]; [now rewrite B|apply andb_false_r].
Qed.
Lemma home_axes_trace : forall c bm order s s', home_axes c bm order s = (Some tt, s') -> hw_ready (m_hw s) = true ->
  exists l, seen s s' l /\ (no_stop_read l -> homed_axes c (axes_to_home c bm order) l).
Proof.
  intros c bm order. induction order as [|ch r IH]; intros s s' E R; cbn [home_axes axes_to_home] in *.
  - injection E as <-. exists []. split; [apply seen_refl|]. constructor.
  - destruct (letter_axis ch) as [a|]; [|now apply IH].
    rewrite land_bit in E by (destruct a; cbn; lia). destruct (Z.testbit bm (axis_ix a)); cbn [negb andb] in *; [|now apply IH].
    apply bind_some in E. destruct E as ([] & s1 & E1 & E).
    assert (R1 : hw_ready (m_hw s1) = true) by (destruct (hold_S _ _ _ (uses_quiet _ _ _ (quiet_home_axis c a)) _ _ _ E1); congruence).
    destruct (IH _ _ E R1) as (l2 & S2 & X2).
    assert (D : c_home c a = TrigNone \/ c_home c a <> TrigNone) by (destruct (c_home c a); auto; right; discriminate).
    destruct D as [D|D].
    + rewrite D. unfold home_axis in E1. rewrite D in E1. injection E1 as <-. eauto.
    + destruct (home_axis_trace _ _ _ _ E1 D R) as (l1 & S1 & X1).
      exists (l1 ++ l2). split; [eapply seen_trans; eauto|]. intros N. apply no_stop_app in N. destruct N as [N1 N2].
      destruct (c_home c a); try contradiction; constructor; auto.
Qed.
Lemma go_home_trace : forall c b s s', go_home c b s = (Some tt, s') -> hw_ready (m_hw s) = true ->
  exists l, seen s s' l /\ (no_stop_read l ->
    exists trace, homed_axes c (axes_to_home c b (c_home_order c)) trace /\
      l = (if stop_on s then [Ask QEstop 0] else []) ++ trace ++ [Ask QEstop 0] /\ m_homing s' = Homed).
Proof.
  intros c b s s' E R. unfold go_home in E.
  apply bind_some in E. destruct E as ([] & s1 & E1 & E).
  pose proof (hold_S _ _ _ (halt_quiet c) _ _ _ E1) as [_ Q2 Q3 _ _].
  apply (unseen_S _ c) in E1; [|foot]. assert (R1 : hw_ready (m_hw s1) = true) by congruence.
  apply bind_some in E. destruct E as (ok & s2 & E2 & E).
  assert (C : exists l, seen s1 s2 l /\ (no_stop_read l -> ok = true /\ l = (if stop_on s1 then [Ask QEstop 0] else []) /\
     stop_on s2 = false /\ hw_ready (m_hw s2) = true)).
  { destruct (clear_done _ _ _ _ E2) as [(-> & S & ->)|[(-> & S & Q & z & Hz & n & L & Hi)|(-> & S & S2 & A & B & D & _)]].
    - exists []. split; [apply seen_refl|]. rewrite S. auto.
    - exists (filter homing_event n). split; [exists n; auto|]. intros N. destruct Hz. apply N, filter_In. auto.
    - rewrite S. unfold clear_estop in E2. unfold bind at 1, in_estop at 1 in E2. cbn iota beta in E2.
      change (hw_estop (m_hw s1)) with (stop_on s1) in E2. rewrite S in E2.
      apply bind_some in E2. destruct E2 as (hard & s3 & E3 & E2). apply test_seen in E3; [|reflexivity]. destruct E3 as (z & S3 & ->).
      destruct (Z.eqb_spec z 0) as [->|]; cbn [negb] in E2; [|discriminate].
      apply (unseen_S _ c) in E2; [|foot]. exists [Ask QEstop 0]. split; [exact (seen_trans _ _ _ _ _ S3 E2)|]. intros _. split; auto. split; auto. split; auto. congruence. }
  destruct C as (l2 & S2 & C). rewrite Q2 in C.
  destruct ok; cbn [negb] in E.
  - apply bind_some in E. destruct E as ([] & s3 & E3 & E).
    pose proof (hold_S _ _ _ (uses_quiet _ _ _ (quiet_home_axes c b (c_home_order c))) _ _ _ E3) as [_ P2 P3 _ _].
    apply bind_some in E. destruct E as (e & s4 & E4 & E).
    assert (G4 : exists l, seen s3 s4 l /\ (no_stop_read l -> stop_on s3 = false -> e = false /\ l = [Ask QEstop 0])).
    { unfold check_for_estop in E4. unfold bind at 1, in_estop at 1 in E4. cbn iota beta in E4.
      change (hw_estop (m_hw s3)) with (stop_on s3) in E4. destruct (stop_on s3).
      - injection E4 as <- <-. exists []. split; [apply seen_refl|]. discriminate.
      - apply bind_some in E4. destruct E4 as (hard & s5 & E5 & E4). apply test_seen in E5; [|reflexivity]. destruct E5 as (z & S5 & ->).
        destruct (Z.eqb_spec z 0) as [->|Hz]; cbn [negb] in E4.
        + injection E4 as <- <-. exists [Ask QEstop 0]. auto.
        + apply bind_some in E4. destruct E4 as ([] & s6 & E6 & E4). injection E4 as <- <-.
          assert (U : uses c (fun _ => True) (set_estop c)) by foot.
          pose proof (hold_S _ _ _ (any_grows _ _ _ U) _ _ _ E6) as (n & L & _).
          exists ([Ask QEstop z] ++ filter homing_event n). split; [eapply seen_trans; [exact S5|exists n; auto]|].
          intros N. destruct Hz. apply N. now left. }
    destruct G4 as (l4 & S4 & G4).
    assert (Hready2 : no_stop_read l2 -> hw_ready (m_hw s2) = true) by (intros N; apply (C N)).
    assert (S5 : seen s4 s' []).
    { destruct e; [injection E as <-; apply seen_refl|]. injection E as <-. exists []. cbn. now rewrite app_nil_r. }
    assert (U3 : uses c (fun _ => True) (home_axes c b (c_home_order c))) by (eapply uses_weaken; [|apply quiet_home_axes]; auto).
    pose proof (hold_S _ _ _ (any_grows _ _ _ U3) _ _ _ E3) as (n3 & L3 & _).
    assert (S3 : seen s2 s3 (filter homing_event n3)) by (exists n3; auto).
    exists (l2 ++ filter homing_event n3 ++ l4). split.
    { pose proof (seen_trans _ _ _ _ _ E1 (seen_trans _ _ _ _ _ S2 (seen_trans _ _ _ _ _ S3 (seen_trans _ _ _ _ _ S4 S5)))) as X. now rewrite app_nil_r in X. }
    intros N. apply no_stop_app in N. destruct N as [N2 N]. apply no_stop_app in N. destruct N as [N3 N4].
    destruct (C N2) as (_ & -> & Z2 & R2). destruct (home_axes_trace _ _ _ _ _ E3 R2) as (l3 & S3' & X3).
    rewrite (seen_inj _ _ _ _ S3 S3') in *. destruct (G4 N4 ltac:(congruence)) as (-> & ->).
    exists l3. split; auto. split; auto. injection E as <-. reflexivity.
  - injection E as <-. exists l2. split; [exact (seen_trans _ _ _ _ _ E1 S2)|]. intros N. destruct (C N) as (X & _). discriminate.
Qed.

(** Where the axis ends up. *)
Lemma fits_approach : forall sw d b a l, approach a TrigMin l -> forall p r, fits sw d b p true (l ++ r) ->
  exists p', p' <= sw /\ fits sw d b p' false r /\ final d b p true (l ++ r) = final d b p' false r.
Proof.
  intros sw d b a l H. induction H as [z Hz|v0 v1 l H IH]; intros p r F; cbn [app fits final] in *.
  - destruct (Z.eqb_spec z 0); [contradiction|]. cbn [andb] in *. exists p. tauto.
  - destruct F as [F1 F]. rewrite Z.eqb_refl in *. cbn [andb] in *. apply (IH _ _ F).
Qed.
Lemma fits_backoff : forall sw d b a l, backoff a TrigMin l -> forall p r, 0 < b -> p <= sw + b -> fits sw d b p false (l ++ r) ->
  exists p', sw < p' <= sw + b /\ fits sw d b p' false r /\ final d b p false (l ++ r) = final d b p' false r.
Proof.
  intros sw d b a l H. induction H as [|z v0 v1 l Hz H IH]; intros p r Hb Hp F; cbn [app fits final andb] in *.
  - exists p. split; [|tauto]. destruct F as [F _]. destruct (Z_le_gt_dec p sw) as [X|X]; [apply F in X; congruence|lia].
  - destruct F as [F1 F]. apply IH; auto. assert (p <= sw) by tauto. lia.
Qed.
Lemma homed_position : forall c sw d b a l p, homed_axis c a l -> c_home c a = TrigMin -> 0 < b -> fits sw d b p true l ->
  sw < final d b p true l <= sw + b.
Proof.
  intros c sw d b a l p H Ht Hb F. destruct H as [l1 l2 H1 H2]. rewrite Ht in *.
  destruct (fits_approach _ _ _ _ _ H1 _ _ F) as (p1 & A1 & A2 & ->).
  assert (A3 : p1 <= sw + b) by lia.
  destruct (fits_backoff _ _ _ _ _ H2 _ _ Hb A3 A2) as (p2 & B1 & B2 & ->). cbn [final]. lia.
Qed.

(** ** Clamping *)
Definition clamped (c : mcfg) (a : axis) : bool := Z.testbit (axis_clamped c) (axis_ix a).
Lemma clamp_axis_spec : forall c i pos a,
  (clamp_axis c i pos a = pos a \/ (a = i /\ clamped c i = true)) /\
  (a = i -> clamped c i = true -> is_number (pos a) = true ->
     SFleb fzero (clamp_axis c i pos a) = true /\
     (SFltb fzero (c_range c i) = true -> SFleb (clamp_axis c i pos a) (c_range c i) = true)) /\
  (a = i -> SFltb (pos a) fzero = false -> (SFltb fzero (c_range c i) = true -> SFltb (c_range c i) (pos a) = false) -> clamp_axis c i pos a = pos a).
Proof.
  intros c i pos a. unfold clamp_axis. rewrite land_bit by (destruct i; cbn; lia). fold (clamped c i).
  destruct (clamped c i) eqn:C; cbn [negb]; [|split; auto; split; auto; discriminate].
  destruct (axis_eqb_spec a i) as [->|N].
  - split; [auto|]. split.
    + intros _ _ Hn. destruct (SFltb (pos i) fzero) eqn:L.
      * set (p0 := set_axis pos i fzero). assert (P0 : p0 i = fzero) by (unfold p0, set_axis; destruct (axis_eqb_spec i i); congruence).
        destruct (SFleb (c_range c i) fzero) eqn:R0; rewrite ?P0.
        { split; [reflexivity|]. intros X. apply SFltb_leb in X. congruence. }
        destruct (SFltb (c_range c i) fzero) eqn:R1.
        { exfalso. unfold SFltb in R1. unfold SFleb in R0. destruct (SFcompare (c_range c i) fzero) as [[]|]; discriminate. }
        rewrite P0. split; [reflexivity|]. intros X. unfold SFltb in X. unfold SFleb. destruct (SFcompare fzero (c_range c i)) as [[]|]; auto; discriminate.
      * assert (L' : SFleb fzero (pos i) = true) by (apply SFltb_not; auto).
        destruct (SFleb (c_range c i) fzero) eqn:R0.
        { split; auto. intros X. apply SFltb_leb in X. congruence. }
        destruct (SFltb (c_range c i) (pos i)) eqn:R1.
        { unfold set_axis. destruct (axis_eqb_spec i i); [|congruence].
          assert (Hr : is_number (c_range c i) = true) by apply (SFltb_number _ _ R1).
          split.
          - unfold SFleb in *. rewrite SFcompare_swap. destruct (SFcompare_number (c_range c i) fzero Hr eq_refl) as [rr E]. rewrite E in *. destruct rr; auto; discriminate.
          - intros _. unfold SFleb. destruct (c_range c i) as [sx|sx| |sx mx ex]; try discriminate; try (destruct sx; reflexivity).
            cbn. destruct sx; rewrite Z.compare_refl; change (Pos.compare_cont Eq mx mx) with (Pos.compare mx mx); rewrite Pos.compare_refl; reflexivity. }
        split; auto. intros X. apply SFltb_not; auto. apply (SFltb_number _ _ X).
    + intros _ H1 H2. rewrite H1. destruct (SFleb (c_range c i) fzero) eqn:R0; auto.
      destruct (SFltb (c_range c i) (pos i)) eqn:R1; auto. exfalso.
      assert (Hr : is_number (c_range c i) = true) by apply (SFltb_number _ _ R1).
      assert (P : SFltb fzero (c_range c i) = true).
      { unfold SFleb in R0. unfold SFltb. rewrite SFcompare_swap. destruct (SFcompare_number (c_range c i) fzero Hr eq_refl) as [rr E]. rewrite E in *. destruct rr; auto; discriminate. }
      specialize (H2 P). congruence.
  - split; [left|split; intros; congruence].
    assert (K : forall (v : fl) p, set_axis p i v a = p a) by (intros; unfold set_axis; destruct (axis_eqb_spec a i); congruence).
    repeat match goal with |- context [if ?x then _ else _] => destruct x end; rewrite ?K; reflexivity.
Qed.
Lemma clamped_Z : forall c a, clamped c a = true -> a = AZ.
Proof.
  intros c a. unfold clamped, axis_clamped.
  assert (G : forall l m, m = 0 \/ m = 4 -> let r := fold_left (fun m ch => match letter_axis ch with Some AZ => Z.lor m (Z.shiftl 1 (axis_ix AZ)) | _ => m end) l m in r = 0 \/ r = 4).
  { induction l as [|ch l IH]; intros m Hm; cbn [fold_left]; auto. apply IH. destruct (letter_axis ch) as [[]|]; auto.
    right. destruct Hm as [-> | ->]; reflexivity. }
  destruct (G (c_clamp c) 0 (or_introl eq_refl)) as [-> | ->]; destruct a; cbn; auto; discriminate.
Qed.
Lemma clamp_fold : forall c pos a, let r := fold_left (fun p i => clamp_axis c i p) all_axes pos in r a = clamp_axis c a pos a.
Proof.
  intros c pos a.
  assert (G : forall l p, ~ In a l -> fold_left (fun p i => clamp_axis c i p) l p a = p a).
  { induction l as [|i l IH]; intros p H; auto. cbn [fold_left]. rewrite IH by (intros X; apply H; now right).
    destruct (clamp_axis_spec c i p a) as ([E|[-> _]] & _); auto. destruct H. now left. }
  assert (K : forall i p, i <> a -> clamp_axis c i p a = p a) by (intros i p Hi; destruct (clamp_axis_spec c i p a) as ([E|[-> _]] & _); congruence).
  assert (P : forall p q i, p i = q i -> clamp_axis c i p i = clamp_axis c i q i).
  { intros p q i E. unfold clamp_axis. assert (S : forall (v : fl) r, set_axis r i v i = v) by (intros; unfold set_axis; destruct (axis_eqb_spec i i); congruence).
    destruct (Z.land _ _ =? 0); auto. rewrite E. destruct (SFltb (q i) fzero); rewrite ?S; rewrite ?E.
    - destruct (SFleb (c_range c i) fzero); rewrite ?S; auto. destruct (SFltb (c_range c i) fzero); rewrite ?S; auto.
    - destruct (SFleb (c_range c i) fzero); auto. destruct (SFltb (c_range c i) (q i)); rewrite ?S; auto. }
  assert (In a all_axes) as Hin by (destruct a; cbn; auto 12). cbv zeta.
  assert (Sp : exists l1 l2, all_axes = l1 ++ a :: l2 /\ ~ In a l1 /\ ~ In a l2).
  { assert (ND : NoDup all_axes) by (unfold all_axes; repeat constructor; cbn; intuition discriminate).
    apply in_split in Hin. destruct Hin as (l1 & l2 & E). exists l1, l2. split; auto. rewrite E in ND. apply NoDup_remove_2 in ND. split; intros X; apply ND, in_or_app; auto. }
  destruct Sp as (l1 & l2 & -> & N1 & N2). rewrite fold_left_app. cbn [fold_left]. rewrite G by auto. apply P. now rewrite G.
Qed.

(** ** Automatic motor shut-off *)
Definition seen_idle (s s' : machine) (l : list event) : Prop :=
  exists new, m_log s' = m_log s ++ new /\ filter idle_event new = l.
Lemma si_trans : forall a b d l1 l2, seen_idle a b l1 -> seen_idle b d l2 -> seen_idle a d (l1 ++ l2).
Proof.
  intros a b d l1 l2 (n1 & E1 & F1) (n2 & E2 & F2). exists (n1 ++ n2). split; [now rewrite E2, E1, app_assoc|].
  now rewrite filter_app, F1, F2.
Qed.
Lemma si_refl : forall s, seen_idle s s [].
Proof. intros s. exists []. now rewrite app_nil_r. Qed.
Definition unidle_prim (p : prim) : Prop :=
  match p with PAsk QTime | PAct (DoMotors _) | POffMotor _ | POffFan _ => False | _ => True end.
Lemma unidle : forall A c (m : M A), uses c unidle_prim m -> forall s x s', m s = (x, s') ->
  seen_idle s s' [] /\ m_off_motor s' = m_off_motor s /\ m_off_fan s' = m_off_fan s.
Proof.
  intros A c m U s x s' E. destruct (uses_grows _ _ _ _ (fun e => idle_event e = false) U ltac:(
    intros [] ev Hp Hev; cbn in *; try contradiction; [destruct Hev as [z ->]; destruct q; auto; contradiction|subst ev; destruct a; auto; contradiction]) s)
    as (n & L & F).
  pose proof (uses_frame _ _ _ _ _ m_off_motor U ltac:(frame_prim) s) as F1.
  pose proof (uses_frame _ _ _ _ _ m_off_fan U ltac:(frame_prim) s) as F2. rewrite E in *. cbn [snd] in *.
  split; auto. exists n. split; auto. clear L. induction F as [|e n H F IH]; auto. cbn. now rewrite H.
Qed.
Lemma check_idle : forall c s b s', check_for_estop c s = (Some b, s') -> (forall z, ~ in_new s s' (Ask QEstop z) \/ z = 0) ->
  seen_idle s s' [] /\ m_off_motor s' = m_off_motor s /\ m_off_fan s' = m_off_fan s.
Proof.
  intros c s b s' E N. unfold check_for_estop in E. unfold bind at 1, in_estop at 1 in E. cbn iota beta in E.
  destruct (hw_estop (m_hw s)); [injection E as <- <-; split; [apply si_refl|auto]|].
  apply bind_some in E. destruct E as (hard & s1 & E1 & E). unfold test in E1. apply bind_some in E1. destruct E1 as (z & s2 & E1 & E2).
  injection E2 as <- <-. unfold ask in E1. destruct (m_in s) as [|z' rest]; [discriminate|]. injection E1 as -> <-.
  destruct (Z.eqb_spec z 0) as [->|Hz]; cbn [negb] in E.
  - injection E as <- <-. split; [|auto]. exists [Ask QEstop 0]. auto.
  - exfalso. apply bind_some in E. destruct E as ([] & s3 & E3 & E). injection E as <- <-.
    assert (U : uses c (fun _ => True) (set_estop c)) by foot.
    pose proof (hold_S _ _ _ (any_grows _ _ _ U) _ _ _ E3) as (n & L & _). cbn [m_log] in L.
    destruct (N z) as [X|X]; [|contradiction]. apply X. exists ([Ask QEstop z] ++ n). split; [rewrite L, <- app_assoc; reflexivity|now left].
Qed.
Lemma in_new_more : forall s s1 s' e, (exists n, m_log s1 = m_log s ++ n) -> in_new s1 s' e -> in_new s s' e.
Proof. intros s s1 s' e (n & L) (n2 & L2 & H). exists (n ++ n2). split; [now rewrite L2, L, app_assoc|apply in_or_app; auto]. Qed.
Lemma motors_off_idle : forall c s s', motors_enable c false s = (Some tt, s') ->
  seen_idle s s' [Did (DoMotors false)] /\ m_off_motor s' = m_off_motor s /\ m_off_fan s' = m_off_fan s.
Proof.
  intros c s s' E. unfold motors_enable, motor_enable in E. apply bind_some in E. destruct E as ([] & s1 & E1 & E).
  apply (unidle _ c) in E1; [|foot]. destruct E1 as (S1 & A1 & B1).
  apply bind_some in E. destruct E as ([] & s2 & E2 & E). apply bind_some in E2. destruct E2 as ([] & s3 & E3 & E2).
  assert (S3 : seen_idle s1 s3 [Did (DoMotors false)] /\ m_off_motor s3 = m_off_motor s1 /\ m_off_fan s3 = m_off_fan s1).
  { injection E3 as <-. split; [exists [Did (DoMotors false)]; auto|auto]. }
  destruct S3 as (S3 & A3 & B3).
  apply (unidle _ c) in E2; [|foot]. destruct E2 as (S2 & A2 & B2).
  apply (unidle _ c) in E; [|foot]. destruct E as (S4 & A4 & B4).
  split; [|split; congruence]. pose proof (si_trans _ _ _ _ _ S1 (si_trans _ _ _ _ _ S3 (si_trans _ _ _ _ _ S2 S4))) as X. exact X.
Qed.
Definition no_press (s s' : machine) : Prop := forall z, in_new s s' (Ask QEstop z) -> z = 0.
Lemma ask_time : forall s t s', ask QTime s = (Some t, s') ->
  seen_idle s s' [Ask QTime t] /\ m_off_motor s' = m_off_motor s /\ m_off_fan s' = m_off_fan s.
Proof. intros s t s' E. unfold ask in E. destruct (m_in s); [discriminate|]. injection E as -> <-. split; [exists [Ask QTime t]|]; auto. Qed.
Lemma check_part : forall c s s2 b s', (exists n, m_log s2 = m_log s ++ n) -> check_for_estop c s2 = (Some b, s') -> no_press s s' ->
  seen_idle s2 s' [] /\ m_off_motor s' = m_off_motor s2 /\ m_off_fan s' = m_off_fan s2.
Proof.
  intros c s s2 b s' L E N. apply (check_idle _ _ _ _ E). intros z. destruct (Z.eq_dec z 0) as [X|X]; auto. left. intros Y.
  apply X, N. eapply in_new_more; eauto.
Qed.
Lemma si_log : forall s s' l, seen_idle s s' l -> exists n, m_log s' = m_log s ++ n.
Proof. intros s s' l (n & L & _). eauto. Qed.
Lemma idle_first : forall c s s', input_idle c true s = (Some tt, s') -> 0 < c_auto_motor c -> no_press s s' ->
  exists t, seen_idle s s' [Ask QTime t] /\ m_off_motor s' = t + c_auto_motor c /\ m_off_fan s' = -1.
Proof.
  intros c s s' E Ha N. unfold input_idle in E. apply bind_some in E. destruct E as ([] & s1 & E1 & E).
  apply (unidle _ c) in E1; [|foot]. destruct E1 as (S1 & A1 & B1).
  apply bind_some in E. destruct E as ([] & s2 & E2 & E).
  destruct (Z.ltb_spec 0 (c_auto_motor c)); [|lia].
  apply bind_some in E2. destruct E2 as (t & s3 & E3 & E2). apply ask_time in E3. destruct E3 as (S3 & A3 & B3).
  apply bind_some in E2. destruct E2 as ([] & s4 & E4 & E2). injection E4 as <-. injection E2 as <-.
  match type of E with _ ?x = _ => set (s5 := x) in * end.
  assert (S5 : seen_idle s3 s5 []) by (exists []; cbn; now rewrite app_nil_r).
  unfold bind at 1, get at 1 in E. cbn iota beta in E. change (m_off_fan s5 =? -1) with true in E. cbn iota in E.
  unfold bind at 1, ret at 1 in E. cbn iota beta in E. apply bind_some in E. destruct E as (b & s6 & E6 & E). injection E as <-.
  pose proof (si_trans _ _ _ _ _ S1 (si_trans _ _ _ _ _ S3 S5)) as S. cbn [app] in S.
  destruct (check_part _ _ _ _ _ (si_log _ _ _ S) E6 N) as (S6 & A6 & B6).
  exists t. pose proof (si_trans _ _ _ _ _ S S6) as X. cbn [app] in X. split; auto.
Qed.
Lemma idle_next : forall c s s', input_idle c false s = (Some tt, s') -> 0 < c_auto_motor c -> c_auto_fan c <= 0 -> m_off_fan s = -1 -> no_press s s' ->
  m_off_fan s' = -1 /\
  ((m_off_motor s = -1 /\ seen_idle s s' [] /\ m_off_motor s' = -1) \/
   (m_off_motor s <> -1 /\ exists t,
     (m_off_motor s <= t /\ seen_idle s s' [Ask QTime t; Did (DoMotors false)] /\ m_off_motor s' = -1) \/
     (t < m_off_motor s /\ seen_idle s s' [Ask QTime t] /\ m_off_motor s' = m_off_motor s))).
Proof.
  intros c s s' E Ha Hf Hm N. unfold input_idle in E. apply bind_some in E. destruct E as ([] & s1 & E1 & E).
  apply (unidle _ c) in E1; [|foot]. destruct E1 as (S1 & A1 & B1).
  apply bind_some in E. destruct E as ([] & s2 & E2 & E).
  destruct (Z.ltb_spec 0 (c_auto_motor c)); [|lia]. destruct (Z.ltb_spec 0 (c_auto_fan c)); [lia|].
  assert (F : m_off_fan s2 = -1 /\ 
   ((m_off_motor s = -1 /\ seen_idle s s2 [] /\ m_off_motor s2 = -1) \/
   (m_off_motor s <> -1 /\ exists t,
     (m_off_motor s <= t /\ seen_idle s s2 [Ask QTime t; Did (DoMotors false)] /\ m_off_motor s2 = -1) \/
     (t < m_off_motor s /\ seen_idle s s2 [Ask QTime t] /\ m_off_motor s2 = m_off_motor s)))).
  { unfold bind at 1, get at 1 in E2. cbn iota beta in E2. rewrite A1 in E2. destruct (Z.eqb_spec (m_off_motor s) (-1)) as [X|X].
    - injection E2 as <-. split; [congruence|]. left. split; auto. split; auto. congruence.
    - apply bind_some in E2. destruct E2 as (t & s3 & E3 & E2). apply ask_time in E3. destruct E3 as (S3 & A3 & B3).
      destruct (Z.leb_spec (m_off_motor s) t).
      + apply bind_some in E2. destruct E2 as ([] & s4 & E4 & E2). apply motors_off_idle in E4. destruct E4 as (S4 & A4 & B4).
        apply bind_some in E2. destruct E2 as ([] & s5 & E5 & E2). injection E5 as <-. injection E2 as <-.
        match goal with |- m_off_fan ?x = _ /\ _ => set (s5 := x) in * end.
        assert (S5 : seen_idle s4 s5 []) by (exists []; cbn; now rewrite app_nil_r).
        split; [cbn; congruence|]. right. split; auto. exists t. left. split; auto. split; auto.
        pose proof (si_trans _ _ _ _ _ S1 (si_trans _ _ _ _ _ S3 (si_trans _ _ _ _ _ S4 S5))) as Y. exact Y.
      + injection E2 as <-. split; [congruence|]. right. split; auto. exists t. right. split; auto. split; [|congruence].
        exact (si_trans _ _ _ _ _ S1 S3). }
  destruct F as (F1 & F). unfold bind at 1, get at 1 in E. cbn iota beta in E. rewrite F1 in E. cbn [Z.eqb Pos.eqb] in E. cbn iota in E.
  unfold bind at 1, ret at 1 in E. cbn iota beta in E. apply bind_some in E. destruct E as (b & s6 & E6 & E). injection E as <-.
  assert (L : exists n, m_log s2 = m_log s ++ n).
  { destruct F as [(_ & S & _)|(_ & t & [(_ & S & _)|(_ & S & _)])]; exact (si_log _ _ _ S). }
  destruct (check_part _ _ _ _ _ L E6 N) as (S6 & A6 & B6). split; [congruence|].
  destruct F as [(X & S & Y)|(X & t & [(Z1 & S & Y)|(Z1 & S & Y)])].
  - left. split; auto. split; [exact (si_trans _ _ _ _ _ S S6)|congruence].
  - right. split; auto. exists t. left. split; auto. split; [exact (si_trans _ _ _ _ _ S S6)|congruence].
  - right. split; auto. exists t. right. split; auto. split; [exact (si_trans _ _ _ _ _ S S6)|congruence].
Qed.
Lemma no_press_app : forall s s1 s', (exists n, m_log s1 = m_log s ++ n) -> (exists n, m_log s' = m_log s1 ++ n) -> no_press s s' ->
  no_press s s1 /\ no_press s1 s'.
Proof.
  intros s s1 s' (n1 & L1) (n2 & L2) N. split; intros z (n & L & H); apply N.
  - exists (n ++ n2). split; [now rewrite L2, L, app_assoc|apply in_or_app; auto].
  - eapply in_new_more; eauto. exists n. auto.
Qed.
Lemma perform_log : forall c e s, exists n, m_log (snd (perform c e s)) = m_log s ++ n.
Proof.
  intros c e s. assert (U : uses c (fun _ => True) (perform c e)) by (eapply uses_weaken; [|apply uses_perform]; auto).
  destruct (any_grows _ _ _ U s) as (n & L & _). eauto.
Qed.
Lemma perform_all_log : forall c es s, exists n, m_log (snd (perform_all c es s)) = m_log s ++ n.
Proof.
  intros c es. induction es as [|e es IH]; intros s; cbn [perform_all]; [exists []; now rewrite app_nil_r|].
  destruct (perform_log c e s) as (n & L). unfold bind. destruct (perform c e s) as [[[]|] s1]; cbn [snd] in *; [|eauto].
  destruct (IH s1) as (n2 & L2). exists (n ++ n2). now rewrite L2, L, app_assoc.
Qed.
Lemma idle_rest : forall c k s s', perform_all c (repeat (InputIdle false) k) s = (Some tt, s') ->
  0 < c_auto_motor c -> c_auto_fan c <= 0 -> m_off_fan s = -1 -> no_press s s' ->
  (m_off_motor s = -1 -> seen_idle s s' []) /\
  (m_off_motor s <> -1 -> exists ts, length ts = k /\ seen_idle s s' (idle_log (m_off_motor s) ts)).
Proof.
  intros c k. induction k as [|k IH]; intros s s' E Ha Hf Hm N; cbn [repeat perform_all] in E.
  - injection E as <-. split; [intros; apply si_refl|]. intros _. exists []. split; [auto|apply si_refl].
  - apply bind_some in E. destruct E as ([] & s1 & E1 & E).
    assert (L1 : exists n, m_log s1 = m_log s ++ n) by (destruct (perform_log c (InputIdle false) s) as (n & L); rewrite E1 in L; eauto).
    assert (L2 : exists n, m_log s' = m_log s1 ++ n) by (destruct (perform_all_log c (repeat (InputIdle false) k) s1) as (n & L); rewrite E in L; eauto).
    destruct (no_press_app _ _ _ L1 L2 N) as [N1 N2]. cbn [perform] in E1.
    destruct (idle_next _ _ _ E1 Ha Hf Hm N1) as (F1 & F). destruct (IH _ _ E Ha Hf F1 N2) as [I1 I2].
    destruct F as [(X & S & Y)|(X & t & [(Z1 & S & Y)|(Z1 & S & Y)])].
    + split; [|congruence]. intros _. exact (si_trans _ _ _ _ _ S (I1 Y)).
    + split; [congruence|]. intros _. exists (t :: repeat 0 k). split; [cbn; now rewrite repeat_length|]. cbn [idle_log].
      destruct (Z.leb_spec (m_off_motor s) t); [|lia]. exact (si_trans _ _ _ _ _ S (I1 Y)).
    + split; [congruence|]. intros _. rewrite Y in I2. destruct (I2 X) as (ts & L & S2). exists (t :: ts). split; [cbn; congruence|]. cbn [idle_log].
      destruct (Z.leb_spec (m_off_motor s) t); [lia|]. exact (si_trans _ _ _ _ _ S S2).
Qed.
