(** Parser and machine agree on the position. *)
From Coq Require Import SpecFloat.
From Verif Require Import Base Text Model_Float Model_Axis Model_Gcode Model_Arc Model_Hardware Model_Machine Model_Planner Model_Whole Model_Joined
  Spec_Track Spec_Machine Spec_Planner Spec_Whole Spec_Joined Proofs_Machine Proofs_Machine2 Proofs_Planner Proofs_Whole.
Notation mevent := Model_Machine.event.

(** ** What is recorded by the calls *)
(** Nothing about the position *)
Definition plain (ev : mevent) : Prop := match ev with Did (DoEnqueue _ _) | Did (DoSetPos _ _) | Did (DoDrive _ _ _ _) => False | _ => True end.
Definition no_set (ev : mevent) : Prop := match ev with Did (DoSetPos _ _) => False | _ => True end.
(** The position of [a] is not touched. *)
Definition spares (a : axis) (ev : mevent) : Prop := match ev with Did (DoEnqueue _ _) => False | Did (DoSetPos x _) => x <> a | _ => True end.
Lemma ends_spares : forall c p new h pos a, Forall (spares a) new -> ends p pos (planner_calls c h new) a = pos a.
Proof.
  intros c p. induction new as [|ev r IH]; intros h pos a F; [reflexivity|]. inversion F as [|? ? F1 F2]; subst. cbn [planner_calls]. rewrite ends_app, IH by exact F2.
  destruct ev as [q z|ac]; [reflexivity|]. destruct ac; cbn [planner_call ends after spares] in *; try reflexivity; try contradiction. unfold set_axis. destruct (axis_eqb_spec a a0); congruence.
Qed.
Lemma plain_spares : forall a new, Forall plain new -> Forall (spares a) new.
Proof. intros a new. apply Forall_impl. intros [q z|[]]; cbn; auto; contradiction. Qed.

Definition calm_call (e : Model_Machine.call) : Prop := match e with GoHome _ | ProbeAxis _ _ | CoordinatedMove _ _ | RapidMove _ _ => False | _ => True end.
Lemma run_plain : forall c es s, Forall calm_call es -> exists new, m_log (snd (Model_Machine.perform_all c es s)) = m_log s ++ new /\ Forall plain new.
Proof.
  intros c es s F. destruct (run_grows c es s) as (new & L & G). exists new. split; [exact L|]. revert G. apply Forall_impl. intros ev (e & p & I & Hq & Em).
  rewrite Forall_forall in F. specialize (F e I). destruct ev as [q z|a]; [exact Logic.I|]. destruct p; cbn [emitted] in Em; try contradiction; [destruct Em; discriminate|]. injection Em as ->.
  destruct a0; try exact Logic.I; cbn [fq fp] in Hq; destruct e; contradiction.
Qed.

(** ** Moves *)
Lemma after_true : forall c pos f s s', (ok <- Model_Machine.enqueue c pos f ;; if ok then ret true else e <- check_for_estop c ;; ret (negb e)) s = (Some true, s') ->
  exists n, m_log s' = m_log s ++ Did (DoEnqueue pos f) :: n /\ Forall not_enqueue n.
Proof. intros c pos f s s' E. destruct (send_log c pos f s _ _ (after_enqueue c)) as (n & L & F). rewrite E in L. eauto. Qed.
Lemma targets : forall n d pos f, Forall not_enqueue n -> last_target d (Did (DoEnqueue pos f) :: n) = pos.
Proof.
  intros n d pos f F. cbn [last_target]. induction F as [|ev l H _ IH]; [reflexivity|]. destruct ev as [q z|a]; [exact IH|]. destruct a; try exact IH. contradiction.
Qed.
Lemma coordinated_true : forall c f pos s s', coordinated_move c f pos s = (Some true, s') ->
  exists new, m_log s' = m_log s ++ new /\ forall d, last_target d new = pos.
Proof.
  intros c f pos s s' E. unfold coordinated_move in E. apply bind_some in E. destruct E as (x & s1 & E0 & E). injection E0 as <- <-.
  destruct (negb (move_allowed_homing_status c s)); [discriminate E|]. destruct (negb (move_allowed_within_machine_limits c pos)); [discriminate E|]. destruct (negb (move_allowed_estop_status s)); [discriminate E|].
  apply bind_some in E. destruct E as (u & s1 & E1 & E). assert (L1 : m_log s1 = m_log s) by (unfold when, set_feed in E1; destruct (SFltb fzero f); injection E1 as _ <-; reflexivity).
  apply bind_some in E. destruct E as (x & s2 & E0 & E). injection E0 as <- <-. destruct (SFleb (m_feed s1) fzero); [discriminate E|].
  destruct (after_true _ _ _ _ _ E) as (n & L & F). rewrite L1 in L. exists (Did (DoEnqueue pos (f32_mul (m_factor s1) (m_feed s1))) :: n). split; [exact L|]. intros d. now apply targets.
Qed.
Lemma rapid_true : forall c f pos s s', rapid_move c f pos s = (Some true, s') ->
  exists new, m_log s' = m_log s ++ new /\ forall d, last_target d new = pos.
Proof.
  intros c f pos s s' E. unfold rapid_move in E. apply bind_some in E. destruct E as (x & s1 & E0 & E). injection E0 as <- <-.
  destruct (negb (move_allowed_homing_status c s)); [discriminate E|]. destruct (negb (move_allowed_within_machine_limits c pos)); [discriminate E|]. destruct (negb (move_allowed_estop_status s)); [discriminate E|].
  cbv zeta in E. apply bind_some in E. destruct E as (u & s1 & E1 & E). assert (L1 : m_log s1 = m_log s) by (unfold when, set_feed in E1; destruct (_ && _); injection E1 as _ <-; reflexivity).
  destruct (after_true _ _ _ _ _ E) as (n & L & F). rewrite L1 in L. eexists. split; [exact L|]. intros d. now apply targets.
Qed.
(** As calls *)
Lemma coordinated_call : forall c f pos s b s', coordinated_move c f pos s = (Some b, s') -> Model_Machine.perform_all c [CoordinatedMove f pos] s = (Some tt, s').
Proof. intros c f pos s b s' E. cbn [Model_Machine.perform_all Model_Machine.perform]. unfold bind. now rewrite E. Qed.
Lemma rapid_call : forall c f pos s b s', rapid_move c f pos s = (Some b, s') -> Model_Machine.perform_all c [RapidMove f pos] s = (Some tt, s').
Proof. intros c f pos s b s' E. cbn [Model_Machine.perform_all Model_Machine.perform]. unfold bind. now rewrite E. Qed.
Lemma probe_call : forall c f a s r s', probe_axis c f a s = (Some r, s') -> Model_Machine.perform_all c [ProbeAxis f a] s = (Some tt, s').
Proof. intros c f a s r s' E. cbn [Model_Machine.perform_all Model_Machine.perform]. unfold bind. now rewrite E. Qed.
Lemma all_app : forall c es1 es2 s s1, Model_Machine.perform_all c es1 s = (Some tt, s1) -> Model_Machine.perform_all c (es1 ++ es2) s = Model_Machine.perform_all c es2 s1.
Proof.
  intros c. induction es1 as [|e r IH]; intros es2 s s1 E; cbn [app Model_Machine.perform_all] in *; [injection E as <-; reflexivity|].
  unfold bind in *. destruct (Model_Machine.perform c e s) as [[u|] s2]; [|discriminate]. now apply IH.
Qed.
Definition is_move (e : Model_Machine.call) : Prop := match e with CoordinatedMove _ _ | RapidMove _ _ => True | _ => False end.
Lemma try_calls : forall c l s b s', try_moves c l s = (Some b, s') -> exists es, Forall is_move es /\ Model_Machine.perform_all c es s = (Some tt, s').
Proof.
  intros c. induction l as [|[f pos] r IH]; intros s b s' E; cbn [try_moves] in E; [injection E as _ <-; exists []; split; [constructor|reflexivity]|].
  apply bind_some in E. destruct E as (ok & s1 & E1 & E2). apply coordinated_call in E1. destruct ok.
  - destruct (IH _ _ _ E2) as (es & F & R). exists (CoordinatedMove f pos :: es). split; [now constructor|]. exact (eq_trans (all_app c [_] es s s1 E1) R).
  - injection E2 as _ <-. exists [CoordinatedMove f pos]. split; [repeat constructor|exact E1].
Qed.
Lemma last_target_app : forall l1 l2 d, last_target d (l1 ++ l2) = last_target (last_target d l1) l2.
Proof. induction l1 as [|ev r IH]; intros l2 d; [reflexivity|]. destruct ev as [q z|a]; [apply IH|]. destruct a; apply IH. Qed.
Lemma try_true : forall c l s s' f pos, try_moves c (l ++ [(f, pos)]) s = (Some true, s') -> exists new, m_log s' = m_log s ++ new /\ forall d, last_target d new = pos.
Proof.
  intros c. induction l as [|[f0 p0] r IH]; intros s s' f pos E; cbn [app try_moves] in E; apply bind_some in E; destruct E as (ok & s1 & E1 & E2); destruct ok; try discriminate E2.
  - injection E2 as <-. now apply coordinated_true in E1.
  - destruct (coordinated_true _ _ _ _ _ E1) as (n1 & L1 & _). destruct (IH _ _ _ _ E2) as (n2 & L2 & T). exists (n1 ++ n2). split; [now rewrite L2, L1, app_assoc|]. intros d. rewrite last_target_app. apply T.
Qed.
Lemma moves_no_set : forall c es s, Forall is_move es -> exists new, m_log (snd (Model_Machine.perform_all c es s)) = m_log s ++ new /\ Forall no_set new.
Proof.
  intros c es s F. destruct (run_grows c es s) as (new & L & G). exists new. split; [exact L|]. revert G. apply Forall_impl. intros ev (e & p & I & Hq & Em).
  rewrite Forall_forall in F. specialize (F e I). destruct ev as [q z|a]; [exact Logic.I|]. destruct p; cbn [emitted] in Em; try contradiction; [destruct Em; discriminate|]. injection Em as ->.
  destruct a0; try exact Logic.I; cbn [fq fp] in Hq; destruct e; contradiction.
Qed.
(** The last move of an arc or a spline goes to its target. *)
Lemma arc_true : forall m f n i p0 p1 p2 o0 o1 c0 c1 th li ot pos h, fst (arc_loop m (fun _ => true) f n i p0 p1 p2 o0 o1 c0 c1 th li ot pos h) = true.
Proof. induction n as [|n IH]; intros; [reflexivity|]. cbn [arc_loop segment_output]. cbv zeta. apply IH. Qed.
Lemma arc_last : forall m f normal cw start center target, let h := snd (arc_move m (fun _ => true) f normal cw start center target []) in
  h = [] \/ exists r, h = (f, target) :: r.
Proof.
  intros. unfold h, arc_move, arc_gen. destruct (plane normal) as [[[p0 p1] p2]|]; [|now left]. cbv zeta. destruct (SFltb _ _); [now left|].
  match goal with |- context [arc_loop ?a ?b ?x ?d ?e ?g ?i ?j ?k ?l ?o ?q ?r ?s ?t ?u ?v] => pose proof (arc_true a x d e g i j k l o q r s t u v) as T; destruct (arc_loop a b x d e g i j k l o q r s t u v) as [ok h1] end.
  cbn [fst] in T. subst ok. right. exists h1. reflexivity.
Qed.
Lemma spline_last : forall f n start cp1 cp2 target ok h, spline_move (fun _ => true) f n start cp1 cp2 target [] = Some (ok, h) -> exists r, h = (f, target) :: r.
Proof.
  intros f n start cp1 cp2 target ok h E. unfold spline_move, spline_gen in E.
  assert (X : forall n t h r, spline_loop (fun _ => true) f n t start cp1 cp2 target h = Some r -> fst r = true).
  { clear. induction n as [|n IH]; intros t h r E; cbn [spline_loop] in E; destruct (SFltb t f1); try discriminate; try (injection E as <-; reflexivity). cbn [segment_output] in E. exact (IH _ _ _ E). }
  destruct (spline_loop _ f n f0 start cp1 cp2 target []) as [[b h1]|] eqn:L; [|discriminate]. apply X in L. cbn [fst] in L. subst b. injection E as _ <-. eauto.
Qed.
Lemma moves_end : forall j e target, match e with EArc _ _ _ _ _ t | ESpline _ _ _ _ t => t = target | _ => False end -> moves_of j e <> [] ->
  exists l f, moves_of j e = l ++ [(f, target)].
Proof.
  intros j e target H N. destruct e; try contradiction; subst; cbn [moves_of] in *.
  - destruct (arc_last (j_libm j) feed normal clockwise start center target) as [E|[r E]]; rewrite E in *; [now elim N|]. cbn [rev]. eauto.
  - destruct (spline_move _ feed 200 start cp1 cp2 target []) as [[ok h]|] eqn:E; [|now elim N]. apply spline_last in E. destruct E as [r ->]. cbn [rev]. eauto.
Qed.

(** ** Homing *)
Lemma bitmap_bit : forall w a, Z.testbit (bitmap w) (axis_ix a) = w a.
Proof.
  intros w a. unfold bitmap. cbn [fold_left all_axes].
  assert (X : forall z i b, 0 <= i -> Z.testbit (if w b then Z.lor z (Z.shiftl 1 (axis_ix b)) else z) i = Z.testbit z i || (w b && (i =? axis_ix b))).
  { intros z i b Hi. destruct (w b); [|now rewrite orb_false_r]. rewrite Z.lor_spec, Z.shiftl_1_l, Z.pow2_bits_eqb by (destruct b; cbn; lia). cbn [andb]. f_equal. rewrite Z.eqb_sym. reflexivity. }
  rewrite !X by apply axis_ix_nonneg. rewrite Z.bits_0. destruct a; cbn [axis_ix Z.eqb Pos.eqb]; rewrite ?andb_false_r, ?andb_true_r, ?orb_false_r, ?orb_false_l; reflexivity.
Qed.
Definition in_map (b : Z) (p : prim) : Prop := match p with PAct (DoEnqueue _ _) => False | PAct (DoSetPos x _) => Z.testbit b (axis_ix x) = true | _ => True end.
Definition set_only (a : axis) (p : prim) : Prop := match p with PAct (DoEnqueue _ _) => False | PAct (DoSetPos x _) => x = a | _ => True end.
Lemma set_to_switch : forall c b a t v1 n v0, uses c (set_only b) (drive_to_switch c a t v1 n v0).
Proof. intros c b a t v1 n. induction n as [|n IH]; intros v0; cbn [drive_to_switch]; foot. Qed.
Lemma set_off_switch : forall c b a t v0 v1 n, uses c (set_only b) (drive_off_switch c a t v0 v1 n).
Proof. intros c b a t v0 v1 n. induction n as [|n IH]; cbn [drive_off_switch]; foot. Qed.
Lemma set_home_axis : forall c a, uses c (set_only a) (home_axis c a).
Proof. intros c a. unfold home_axis, move_to_endstop. foot; try apply set_to_switch; try apply set_off_switch. Qed.
Lemma map_home_axes : forall c b order, uses c (in_map b) (home_axes c b order).
Proof.
  intros c b. induction order as [|ch r IH]; cbn [home_axes]; [apply uses_ret|]. destruct (letter_axis ch) as [i|]; [|exact IH]. rewrite (land_bit b (axis_ix i) (axis_ix_nonneg i)).
  destruct (Z.testbit b (axis_ix i)) eqn:B; cbn [negb]; [|exact IH]. apply uses_bind; [|intros; exact IH]. apply (uses_weaken _ c (set_only i)); [|apply set_home_axis].
  intros p H. destruct p; try exact I. destruct a; try exact I; try contradiction. cbn in *. now subst.
Qed.
Lemma home_spares : forall c b s a, Z.testbit b (axis_ix a) = false -> exists new, m_log (snd (go_home c b s)) = m_log s ++ new /\ Forall (spares a) new.
Proof.
  intros c b s a B. assert (U : uses c (in_map b) (go_home c b)).
  { unfold go_home, clear_estop, check_for_estop, set_estop, motors_enable. foot; try apply map_home_axes. }
  destruct (any_grows _ c _ _ U s) as (new & L & F). exists new. split; [exact L|]. revert F. apply Forall_impl. intros ev (p & H & Em). destruct ev as [q z|x]; [exact I|].
  destruct p; cbn [emitted] in Em; try contradiction; [destruct Em; discriminate|]. injection Em as ->. destruct a0; try exact I; [contradiction|]. cbn in *. intros ->. congruence.
Qed.
Lemma home_footprint : forall c b s, exists new, m_log (snd (go_home c b s)) = m_log s ++ new /\
  Forall (fun ev => match ev with Did (DoEnqueue _ _) => False | Did (DoSetPos x q) => q = home_pos c x | _ => True end) new.
Proof.
  intros c b s. destruct (any_grows _ c _ _ (fq_perform c (GoHome b)) s) as (new & L & F). exists new. split; [exact L|]. revert F. apply Forall_impl. intros ev (p & H & Em). destruct ev as [q z|x]; [exact I|].
  destruct p; cbn [emitted] in Em; try contradiction; [destruct Em; discriminate|]. injection Em as ->. destruct a; try exact I; exact H.
Qed.

(** ** Probing *)
Definition idle_prim (p : prim) : Prop := match p with PAct (DoEnqueue _ _) | PAct (DoSetPos _ _) => False | _ => True end.
Definition untold (ev : mevent) : Prop := match ev with Did (DoEnqueue _ _) | Did (DoSetPos _ _) => False | _ => True end.
Lemma idle_grows : forall A c (m : M A), uses c idle_prim m -> forall s, exists new, m_log (snd (m s)) = m_log s ++ new /\ Forall untold new.
Proof.
  intros A c m U s. destruct (any_grows _ c _ _ U s) as (new & L & F). exists new. split; [exact L|]. revert F. apply Forall_impl. intros ev (p & H & Em). destruct ev as [q z|x]; [exact I|].
  destruct p; cbn [emitted] in Em; try contradiction; [destruct Em; discriminate|]. injection Em as ->. destruct a; try exact I; contradiction.
Qed.
Lemma idle_probe : forall c a neg v1 mx n v0 tot, uses c idle_prim (drive_to_probe c a neg v1 mx n v0 tot).
Proof. intros c a neg v1 mx n. induction n as [|n IH]; intros v0 tot; cbn [drive_to_probe]; foot. Qed.
Lemma probe_log : forall c f a s r s', probe_axis c f a s = (Some r, s') ->
  match r with
  | Some q => exists pre, m_log s' = m_log s ++ pre ++ [Did (DoSetPos a q)] /\ Forall untold pre
  | None => exists new, m_log s' = m_log s ++ new /\ Forall untold new
  end.
Proof.
  intros c f a s r s' E. unfold probe_axis in E. apply bind_some in E. destruct E as (x & s1 & E0 & E). injection E0 as <- <-.
  assert (Z : exists new, m_log s = m_log s ++ new /\ Forall untold new) by (exists []; split; [now rewrite app_nil_r|constructor]).
  destruct (negb (move_allowed_homing_status c s)); [injection E as <- <-; exact Z|]. destruct (negb (move_allowed_estop_status s)); [injection E as <- <-; exact Z|]. clear Z.
  apply bind_some in E. destruct E as (u & s1 & E1 & E). destruct (idle_grows _ c (halt c) ltac:(foot) s) as (n1 & L1 & F1). rewrite E1 in L1. cbn [snd] in L1.
  apply bind_some in E. destruct E as (x & s2 & E0 & E). injection E0 as <- <-. destruct (negb (has_probe_switch s1 a)); [injection E as <- <-; eauto|].
  apply bind_some in E. destruct E as (steps & s2 & E2 & E). destruct (idle_grows _ c (ask (QPosition a)) ltac:(foot) s1) as (n2 & L2 & F2). rewrite E2 in L2. cbn [snd] in L2.
  cbv zeta in E. apply bind_some in E. destruct E as (mx & s3 & E3 & E).
  destruct (idle_grows _ c (Model_Machine.int_of (fl_trunc (f32_mul (c_range c a) (Model_Machine.c_steps c a)))) ltac:(unfold Model_Machine.int_of; foot) s2) as (n3 & L3 & F3). rewrite E3 in L3. cbn [snd] in L3.
  apply bind_some in E. destruct E as (tot & s4 & E4 & E).
  match type of E4 with ?m s3 = _ => destruct (idle_grows _ c m ltac:(unfold move_to_probe; foot; apply idle_probe) s3) as (n4 & L4 & F4) end. rewrite E4 in L4. cbn [snd] in L4.
  apply bind_some in E. destruct E as (v & s5 & E5 & E). injection E5 as _ <-. injection E as <- <-. cbn [m_log].
  exists (n1 ++ n2 ++ n3 ++ n4). split; [rewrite L4, L3, L2, L1, <- !app_assoc; reflexivity|]. repeat (apply Forall_app; split; [assumption|]). exact F4.
Qed.

(** ** A request *)
Lemma bind_ret : forall A B (m : M A) (f : A -> B) s r s', (x <- m ;; ret (f x)) s = (Some r, s') -> exists x, m s = (Some x, s') /\ r = f x.
Proof. intros A B m f s r s' E. apply bind_some in E. destruct E as (x & s1 & E1 & E2). injection E2 as <- <-. eauto. Qed.
Definition other_request (e : Model_Gcode.event) : Prop :=
  match e with EMove _ _ _ | EArc _ _ _ _ _ _ | ESpline _ _ _ _ _ | EProbe _ _ | EClamp _ _ => False | _ => True end.
Lemma serve_other : forall j e r, other_request e -> serve j (e :: r) = (Model_Machine.perform_all (j_machine j) (calls_of j (e :: r)) ;;; ret (reply_with j (e :: r) true fzero (fun p => p))).
Proof. intros j e r H. destruct e; try contradiction; reflexivity. Qed.
Lemma other_calm : forall j e r, other_request e -> moves_blindly e = false -> Forall calm_call (calls_of j (e :: r)).
Proof.
  intros j e r H B. destruct e; try contradiction; try discriminate; cbn [calls_of]; repeat constructor.
  destruct (Ascii.eqb letter "M"); [|constructor]. destruct (to_int _); repeat constructor.
Qed.
Lemma serve_calls : forall j e r s rep s', serve j (e :: r) s = (Some rep, s') ->
  exists es, Model_Machine.perform_all (j_machine j) es s = (Some tt, s') /\ (moves_blindly e = false -> Forall (fun x => repositions x = false) es).
Proof.
  intros j e r s rep s' E.
  assert (O : other_request e -> exists es, Model_Machine.perform_all (j_machine j) es s = (Some tt, s') /\ (moves_blindly e = false -> Forall (fun x => repositions x = false) es)).
  { intros H. rewrite (serve_other j e r H) in E. apply bind_ret in E. destruct E as ([] & E & _). exists (calls_of j (e :: r)). split; [exact E|]. intros B.
    generalize (other_calm j e r H B). apply Forall_impl. intros x Hx. destruct x; try reflexivity; contradiction. }
  assert (T : forall l, (ok <- try_moves (j_machine j) l ;; ret (reply_with j (e :: r) ok fzero (fun p => p))) s = (Some rep, s') ->
    exists es, Model_Machine.perform_all (j_machine j) es s = (Some tt, s') /\ (moves_blindly e = false -> Forall (fun x => repositions x = false) es)).
  { intros l E1. apply bind_ret in E1. destruct E1 as (b & E1 & _). destruct (try_calls _ _ _ _ _ E1) as (es & F & R). exists es. split; [exact R|]. intros _. revert F. apply Forall_impl. intros x Hx. destruct x; try reflexivity; contradiction. }
  destruct e; try (apply O; exact I); cbn [serve] in E.
  - apply bind_ret in E. destruct E as (q & E & _). eexists. split; [exact (probe_call _ _ _ _ _ _ E)|discriminate].
  - injection E as _ <-. exists []. split; [reflexivity|constructor].
  - destruct coordinated; apply bind_ret in E; destruct E as (q & E & _); eexists; (split; [first [exact (coordinated_call _ _ _ _ _ _ E) | exact (rapid_call _ _ _ _ _ _ E)]|repeat constructor]).
  - exact (T _ E).
  - exact (T _ E).
Qed.

Section Sync.
Variables (j : joint) (s0 : machine) (g : gcfg) (p : pcfg) (a : axis).
Hypothesis Jn : connected j s0 g.
Let c := j_machine j.
Definition agrees (evs : list Model_Gcode.event) (pos : axis -> Z) : Prop := pos a = steps_at p a (believed g evs a).
Lemma reply_is : forall e r s rep s', machine_after j s0 r = (Some tt, s) -> serve j (e :: r) s = (Some rep, s') -> gc_reply g (e :: r) = rep.
Proof. intros e r s rep s' E1 E2. destruct Jn as [J1 _]. rewrite J1. unfold reply_of. now rewrite E1, E2. Qed.
Lemma serve_sync : forall e r s rep s', machine_after j s0 r = (Some tt, s) -> serve j (e :: r) s = (Some rep, s') ->
  nothing_refused g (e :: r) -> well_homed j s0 a (e :: r) ->
  exists new, m_log s' = m_log s ++ new /\ forall h pos, agrees r pos -> agrees (e :: r) (ends p pos (planner_calls c h new)).
Proof.
  intros e r s rep s' E0 E [_ N] [_ W]. pose proof (reply_is e r s rep s' E0 E) as R.
  (* a granted move *)
  assert (T : forall target new, m_log s' = m_log s ++ new -> Forall no_set new -> (forall d, last_target d new = target) -> believed g (e :: r) = target ->
    exists new, m_log s' = m_log s ++ new /\ forall h pos, agrees r pos -> agrees (e :: r) (ends p pos (planner_calls c h new))).
  { intros target new L F D B. exists new. split; [exact L|]. intros h pos A. unfold agrees in *. rewrite B, <- (D (believed g r)). apply ends_target; [exact A|exact F]. }
  assert (P : (forall x, believed g (e :: r) x = believed g r x) -> (exists new, m_log s' = m_log s ++ new /\ Forall (spares a) new) ->
    exists new, m_log s' = m_log s ++ new /\ forall h pos, agrees r pos -> agrees (e :: r) (ends p pos (planner_calls c h new))).
  { intros B (new & L & F). exists new. split; [exact L|]. intros h pos A. unfold agrees in *. now rewrite B, ends_spares. }
  assert (O : other_request e -> moves_blindly e = false -> exists new, m_log s' = m_log s ++ new /\ Forall (spares a) new).
  { intros H B. rewrite (serve_other j e r H) in E. apply bind_ret in E. destruct E as ([] & E & _). destruct (run_plain c (calls_of j (e :: r)) s (other_calm j e r H B)) as (new & L & F).
    unfold c in L. rewrite E in L. exists new. split; [exact L|now apply plain_spares]. }
  assert (K : forall es new, Model_Machine.perform_all c es s = (Some tt, s') -> Forall is_move es -> m_log s' = m_log s ++ new -> Forall no_set new).
  { intros es new Ee F L. destruct (moves_no_set c es s F) as (n & Ln & Fn). rewrite Ee in Ln. cbn [snd] in Ln. rewrite L in Ln. apply app_inv_head in Ln. now subst. }
  assert (S : forall l f target, (ok <- try_moves c (l ++ [(f, target)]) ;; ret (reply_with j (e :: r) ok fzero (fun q => q))) s = (Some rep, s') -> r_ok rep = true -> believed g (e :: r) = target ->
    exists new, m_log s' = m_log s ++ new /\ forall h pos, agrees r pos -> agrees (e :: r) (ends p pos (planner_calls c h new))).
  { intros l f target E1 Ok B. apply bind_ret in E1. destruct E1 as (b & E1 & ->). cbn [reply_with r_ok] in Ok. subst b. destruct (try_true _ _ _ _ _ _ E1) as (new & L & D). destruct (try_calls _ _ _ _ _ E1) as (es & F & Re).
    exact (T target new L (K es new Re F L) D B). }
  destruct e; try (apply P; [reflexivity|apply O; [exact I|reflexivity]]); cbn [serve] in E; fold c in E.
  - (* home *) cbn [calls_of] in E. apply bind_ret in E. destruct E as ([] & E & _). cbn [Model_Machine.perform_all Model_Machine.perform] in E. apply bind_ret in E. destruct E as ([] & E & _).
    destruct (which a) eqn:Wa.
    + destruct (W eq_refl) as [In0 St]. rewrite E0 in St. cbn [snd] in St. destruct (go_home_sets c (bitmap which) s tt s' E St) as (new & L & H). destruct (home_footprint c (bitmap which) s) as (n & Ln & F).
      rewrite E in Ln. cbn [snd] in Ln. rewrite L in Ln. apply app_inv_head in Ln. subst n. exists new. split; [exact L|]. intros h pos _. unfold agrees. cbn [believed]. rewrite Wa. destruct Jn as [_ J2]. rewrite J2.
      apply ends_set; [exact F|]. apply H. exact In0.
    + destruct (home_spares c (bitmap which) s a ltac:(rewrite bitmap_bit; exact Wa)) as (new & L & F). rewrite E in L. cbn [snd] in L. exists new. split; [exact L|]. intros h pos A. unfold agrees in *. cbn [believed]. rewrite Wa, ends_spares by exact F. exact A.
  - (* probe *) apply bind_ret in E. destruct E as (q & E & ->). apply probe_log in E. destruct q as [q|].
    + destruct E as (pre & L & F). exists (pre ++ [Did (DoSetPos a0 q)]). split; [exact L|]. intros h pos A. unfold agrees in *. rewrite calls_app, ends_app. cbn [planner_calls planner_call app ends after believed]. rewrite R. cbn [reply_with r_ok r_probed]. rewrite andb_true_r.
      unfold set_axis. destruct (axis_eqb_spec a a0) as [->|Ne]; [reflexivity|]. rewrite ends_spares; [exact A|]. revert F. apply Forall_impl. intros [qq z|[]]; cbn; auto; contradiction.
    + destruct E as (new & L & F). exists new. split; [exact L|]. intros h pos A. unfold agrees in *. cbn [believed]. rewrite R. cbn [reply_with r_ok]. rewrite andb_false_r, ends_spares; [exact A|]. revert F. apply Forall_impl. intros [qq z|[]]; cbn; auto; contradiction.
  - (* clamp *) injection E as _ <-. apply P; [reflexivity|]. exists []. split; [now rewrite app_nil_r|constructor].
  - (* move *) assert (B : believed g (EMove coordinated feed pos :: r) = pos) by (cbn [believed]; now rewrite N). rewrite R in N. destruct coordinated; apply bind_ret in E; destruct E as (b & E & ->); cbn [reply_with r_ok] in N; subst b.
    + destruct (coordinated_true _ _ _ _ _ E) as (new & L & D). refine (T pos new L (K _ new (coordinated_call _ _ _ _ _ _ E) _ L) D B). repeat constructor.
    + destruct (rapid_true _ _ _ _ _ E) as (new & L & D). refine (T pos new L (K _ new (rapid_call _ _ _ _ _ _ E) _ L) D B). repeat constructor.
  - (* arc *) assert (B : believed g (EArc feed normal clockwise start center target :: r) = target) by (cbn [believed]; now rewrite N). rewrite R in N.
    destruct (moves_end j (EArc feed normal clockwise start center target) target eq_refl W) as (l & f & M). rewrite M in E. exact (S l f target E N B).
  - (* spline *) assert (B : believed g (ESpline feed start cp1 cp2 target :: r) = target) by (cbn [believed]; now rewrite N). rewrite R in N.
    destruct (moves_end j (ESpline feed start cp1 cp2 target) target eq_refl W) as (l & f & M). rewrite M in E. exact (S l f target E N B).
Qed.
Lemma idle_run : forall l s, exists new, m_log (snd (Model_Machine.perform_all c (map InputIdle l) s)) = m_log s ++ new /\ Forall plain new.
Proof. intros l s. apply run_plain. induction l; constructor; [exact I|assumption]. Qed.
Lemma sync : forall evs s, m_log s0 = [] -> (forall x, home_pos c x = if p_home_max p x then p_range p x else f32_of_Z 0) ->
  machine_after j s0 evs = (Some tt, s) -> nothing_refused g evs -> well_homed j s0 a evs ->
  forall h, agrees evs (ends p (at_home p) (planner_calls c h (m_log s))).
Proof.
  intros evs. induction evs as [|e r IH]; intros s L0 H0 E N W h; cbn [machine_after] in E.
  - destruct (idle_run (j_idle j []) s0) as (new & L & F). fold c in E. rewrite E, L0 in L. cbn [snd app] in L. rewrite L. unfold agrees. rewrite ends_spares by (now apply plain_spares).
    cbn [believed]. destruct Jn as [_ J2]. rewrite J2. fold c. now rewrite H0.
  - destruct (machine_after j s0 r) as [[u|] s1] eqn:E1; [|discriminate]. destruct u. destruct ((serve j (e :: r) ;;; ret tt) s1) as [[v|] s2] eqn:E2; [|discriminate].
    apply bind_ret in E2. destruct E2 as (rep & E2 & _). destruct (serve_sync e r s1 rep s2 E1 E2 N W) as (n1 & L1 & A1).
    destruct (idle_run (j_idle j (e :: r)) s2) as (n2 & L2 & F2). fold c in E. rewrite E in L2. cbn [snd] in L2.
    rewrite L2, calls_app, ends_app. unfold agrees. rewrite ends_spares by (now apply plain_spares). rewrite L1, calls_app, ends_app.
    apply A1. apply (IH s1 L0 H0 eq_refl (proj1 N) (proj1 W)).
Qed.
End Sync.

(** ** The calls behind the requests *)
Lemma after_calls : forall j s0 evs s, machine_after j s0 evs = (Some tt, s) -> exists es, Model_Machine.perform_all (j_machine j) es s0 = (Some tt, s).
Proof.
  intros j s0. induction evs as [|e r IH]; intros s E; cbn [machine_after] in E; [eauto|].
  destruct (machine_after j s0 r) as [[[]|] s1] eqn:E1; [|discriminate]. destruct ((serve j (e :: r) ;;; ret tt) s1) as [[v|] s2] eqn:E2; [|discriminate].
  apply bind_ret in E2. destruct E2 as (rep & E2 & _). destruct (serve_calls _ _ _ _ _ _ E2) as (es & Ee & _). destruct (IH s1 eq_refl) as (es0 & Es0).
  exists (es0 ++ es ++ map InputIdle (j_idle j (e :: r))). rewrite (all_app _ _ _ _ _ Es0), (all_app _ _ _ _ _ Ee). exact E.
Qed.
Lemma between_calls : forall j s0 r s1, machine_after j s0 r = (Some tt, s1) -> forall l s2, machine_after j s0 (l ++ r) = (Some tt, s2) -> existsb moves_blindly l = false ->
  exists es, Model_Machine.perform_all (j_machine j) es s1 = (Some tt, s2) /\ Forall (fun x => repositions x = false) es.
Proof.
  intros j s0 r s1 E1. induction l as [|e l IH]; intros s2 E B.
  - cbn [app] in E. rewrite E1 in E. injection E as <-. exists []. split; [reflexivity|constructor].
  - cbn [app machine_after existsb] in *. apply orb_false_iff in B. destruct B as [B1 B2].
    destruct (machine_after j s0 (l ++ r)) as [[[]|] s3] eqn:E3; [|discriminate]. destruct ((serve j (e :: l ++ r) ;;; ret tt) s3) as [[v|] s4] eqn:E4; [|discriminate].
    apply bind_ret in E4. destruct E4 as (rep & E4 & _). destruct (serve_calls _ _ _ _ _ _ E4) as (es & Ee & F). destruct (IH s3 eq_refl B2) as (es0 & Es0 & F0).
    exists (es0 ++ es ++ map InputIdle (j_idle j (e :: l ++ r))). rewrite (all_app _ _ _ _ _ Es0), (all_app _ _ _ _ _ Ee). split; [exact E|].
    apply Forall_app. split; [exact F0|]. apply Forall_app. split; [exact (F B1)|]. clear. induction (j_idle j (e :: l ++ r)); constructor; [reflexivity|assumption].
Qed.
Lemma idle_rests : forall c l s s', Model_Machine.perform_all c (map InputIdle l) s = (Some tt, s') -> kn s -> l <> [] \/ hal s -> hal s'.
Proof.
  intros c. induction l as [|b l IH]; intros s s' E K H; cbn [map Model_Machine.perform_all] in E.
  - injection E as <-. destruct H as [H|H]; [now destruct H|exact H].
  - apply bind_some in E. destruct E as ([] & s1 & E1 & E2). apply (IH s1 s' E2 (call_known _ _ _ _ _ E1 K)). right. exact (stops_halted c (InputIdle b) s tt s1 eq_refl E1 K).
Qed.
Lemma rests_halted : forall j s0 evs s, kn s0 -> machine_after j s0 evs = (Some tt, s) -> rests j evs -> hal s.
Proof.
  intros j s0 evs. induction evs as [|e r IH]; intros s K0 E R; cbn [machine_after] in E; [destruct R as [R|[]]; eapply idle_rests; eauto|].
  destruct (machine_after j s0 r) as [[[]|] s1] eqn:E1; [|discriminate]. destruct ((serve j (e :: r) ;;; ret tt) s1) as [[v|] s2] eqn:E2; [|discriminate].
  destruct (after_calls _ _ _ _ E1) as (es0 & Es0). pose proof (run_known _ _ _ _ _ Es0 K0) as K1.
  apply bind_ret in E2. destruct E2 as (rep & E2 & _). destruct (serve_calls _ _ _ _ _ _ E2) as (es & Ee & _). pose proof (run_known _ _ _ _ _ Ee K1) as K2.
  apply (idle_rests _ _ _ _ E K2). cbn [rests] in R. destruct R as [R|R]; [now left|right].
  assert (O : other_request e) by (destruct e; try contradiction; exact I). rewrite (serve_other j e r O) in E2. apply bind_ret in E2. destruct E2 as ([] & E2 & _).
  destruct e; try contradiction; cbn [calls_of Model_Machine.perform_all] in E2;
    first [injection E2 as <-; exact (IH s1 K0 eq_refl R) | apply bind_ret in E2; destruct E2 as ([] & E2 & _); eapply stops_halted; eauto; reflexivity].
Qed.
Lemma between_moves : forall c es s s', Model_Machine.perform_all c es s = (Some tt, s') -> Forall (fun x => repositions x = false) es ->
  exists new, m_log s' = m_log s ++ new /\ forall h, Forall only_moves (planner_calls c h new).
Proof.
  intros c es s s' E R. destruct (run_grows c es s) as (new & L & G). rewrite E in L. exists new. split; [exact L|]. clear - G R.
  induction G as [|ev l (x & q & Ix & Hq & Em) _ IH]; intros h; [constructor|]. cbn [planner_calls]. apply Forall_app. split; [|apply IH].
  rewrite Forall_forall in R. specialize (R x Ix). destruct ev as [qq z|a]; [constructor|]. destruct q; cbn [emitted] in Em; try contradiction; [destruct Em; discriminate|]. injection Em as ->.
  destruct a0; cbn [planner_call]; try (repeat constructor; fail); exfalso; cbn [fq fp] in Hq; destruct x; try contradiction; discriminate R.
Qed.
