(** C80: machine control and planner together; where the machine stands. *)
From Coq Require Import SpecFloat.
From Verif Require Import Base Text Model_Float Model_Axis Model_Hardware Model_Machine Model_Planner Model_Whole
  Spec_Machine Spec_Planner Spec_Whole Proofs_Machine Proofs_Machine2 Proofs_Machine3 Proofs_Planner Proofs_Whole Prop_Planner.
Open Scope Z_scope.

(** ** The rules of the planner *)

(** Machine control keeps to the rules of the planner, whatever the G-code and the
    switches do, and also while a call waits: no move while the position is not known, the
    position is set on a halted path only. The assertions of the planner about this hold. *)
Theorem C80_rules : forall c h answers s0 es r s, machine_init c h answers = Some s0 ->
  Model_Machine.perform_all c es s0 = (r, s) -> proper true true (planner_calls c (m_hw s0) (m_log s)).
Proof.
  intros c h answers s0 es r s I E. pose proof (run_safe c es s0 (init_known _ _ _ _ I)) as S. rewrite E in S. cbn [snd] in S.
  exact (flow_proper c (m_log s) (m_hw s0) (true, true) S).
Qed.
Print Assumptions C80_rules.

(** The auxiliary outputs that go with a move are those of the moment it is asked for. *)
Lemma no_moves : forall c new h pos f aux, Forall not_enqueue new -> ~ In (Move pos f aux) (planner_calls c h new).
Proof.
  intros c. induction new as [|ev r IH]; intros h pos f aux F I; [exact I|]. inversion F as [|? ? F1 F2]; subst. cbn [planner_calls] in I. apply in_app_or in I.
  destruct I as [I|I]; [|exact (IH _ _ _ _ F2 I)]. destruct ev as [q z|a]; [exact I|]. destruct a; cbn [planner_call not_enqueue] in *; try contradiction; destruct I as [I|[]]; discriminate I.
Qed.
Lemma move_shape : forall c e s, match e with CoordinatedMove _ _ | RapidMove _ _ => True | _ => False end ->
  exists new, m_log (snd (Model_Machine.perform c e s)) = m_log s ++ new /\
    (Forall not_enqueue new \/ exists pos f n, new = Did (DoEnqueue pos f) :: n /\ Forall not_enqueue n).
Proof.
  intros c e s H.
  assert (Z : forall A (m : M A) x, m s = (Some x, s) -> exists new, m_log (snd ((m ;;; ret tt) s)) = m_log s ++ new /\ (Forall not_enqueue new \/ exists pos f n, new = Did (DoEnqueue pos f) :: n /\ Forall not_enqueue n)).
  { intros A m x E. exists []. unfold bind. rewrite E. cbn [ret snd]. rewrite app_nil_r. split; [reflexivity|left; constructor]. }
  assert (Y : forall pos f s1, m_log s1 = m_log s ->
    exists new, m_log (snd (((ok <- Model_Machine.enqueue c pos f ;; if ok then ret true else e <- check_for_estop c ;; ret (negb e)) ;;; ret tt) s1)) = m_log s ++ new /\
      (Forall not_enqueue new \/ exists pos f n, new = Did (DoEnqueue pos f) :: n /\ Forall not_enqueue n)).
  { intros pos f s1 E1. destruct (send_log c pos f s1 _ _ (after_enqueue c)) as (n & E & F). exists (Did (DoEnqueue pos f) :: n). split; [|right; eauto].
    rewrite <- E1, <- E. unfold bind at 1. destruct ((ok <- _ ;; _) s1) as [[b|] s2]; reflexivity. }
  destruct e as [| | | | | | | | | |feed pos|feed pos|]; try contradiction; cbn [Model_Machine.perform].
  - unfold coordinated_move. destruct (move_allowed_homing_status c s) eqn:A; [|apply (Z _ _ false); unfold bind, get; now rewrite A].
    destruct (move_allowed_within_machine_limits c pos) eqn:B; [|apply (Z _ _ false); unfold bind, get; now rewrite A].
    destruct (move_allowed_estop_status s) eqn:D; [|apply (Z _ _ false); unfold bind, get; rewrite A; cbn [negb]; now rewrite D].
    set (s1 := snd (when (SFltb fzero feed) (set_feed (f32_mul (c_speed c) feed)) s)). assert (E1 : m_log s1 = m_log s) by (unfold s1, when; now destruct (SFltb _ _)).
    assert (E2 : when (SFltb fzero feed) (set_feed (f32_mul (c_speed c) feed)) s = (Some tt, s1)) by (unfold s1, when; now destruct (SFltb _ _)).
    destruct (SFleb (m_feed s1) fzero) eqn:G.
    + exists []. rewrite app_nil_r. split; [|left; constructor]. unfold bind, get. rewrite A; cbn [negb]; rewrite D; cbn [negb]. rewrite E2, G. exact E1.
    + destruct (Y pos (f32_mul (m_factor s1) (m_feed s1)) s1 E1) as (new & En & Fn). exists new. split; [|exact Fn]. rewrite <- En. unfold bind at 1 2, get. rewrite A; cbn [negb]; rewrite D; cbn [negb].
      unfold bind at 1. rewrite E2. unfold bind at 1. rewrite G. reflexivity.
  - unfold rapid_move. destruct (move_allowed_homing_status c s) eqn:A; [|apply (Z _ _ false); unfold bind, get; now rewrite A].
    destruct (move_allowed_within_machine_limits c pos) eqn:B; [|apply (Z _ _ false); unfold bind, get; now rewrite A].
    destruct (move_allowed_estop_status s) eqn:D; [|apply (Z _ _ false); unfold bind, get; rewrite A; cbn [negb]; now rewrite D].
    set (given := f32_mul (f32_mul (c_speed c) (m_factor s)) feed).
    set (s1 := snd (when (SFltb fzero given && SFleb (m_feed s) fzero) (set_feed given) s)). assert (E1 : m_log s1 = m_log s) by (unfold s1, when; now destruct (_ && _)).
    assert (E2 : when (SFltb fzero given && SFleb (m_feed s) fzero) (set_feed given) s = (Some tt, s1)) by (unfold s1, when; now destruct (_ && _)).
    destruct (Y pos (if SFltb fzero given then given else g0_feedrate c) s1 E1) as (new & En & Fn). exists new. split; [|exact Fn]. rewrite <- En. unfold bind at 1 2, get. rewrite A; cbn [negb]; rewrite D; cbn [negb]. cbv zeta. fold given.
      unfold bind at 1. rewrite E2. reflexivity.
Qed.
Theorem C80_outputs : forall c h answers s0 es s e s' new, machine_init c h answers = Some s0 ->
  Model_Machine.perform_all c es s0 = (Some tt, s) ->
  match e with CoordinatedMove _ _ | RapidMove _ _ => True | _ => False end -> adds c e s s' new ->
  planner_calls c (m_hw s0) (m_log s') = planner_calls c (m_hw s0) (m_log s) ++ planner_calls c (m_hw s) new /\
  forall pos feed aux, In (Move pos feed aux) (planner_calls c (m_hw s) new) -> aux = hw_aux (m_hw s).
Proof.
  intros c h answers s0 es s e s' new I E M (A1 & A2). split.
  - rewrite A2, calls_app. do 2 f_equal. destruct (run_hw c es s0) as (n & L & H). rewrite E in L, H. cbn [snd] in L, H. rewrite (init_log _ _ _ _ I) in L. cbn [app] in L. now rewrite L, H.
  - intros pos feed aux In0. destruct (move_shape c e s M) as (n & L & Sh). rewrite A1, A2 in L. apply app_inv_head in L. subst n. destruct Sh as [F|(p & f & n & -> & F)]; [now apply no_moves in In0|].
    cbn [planner_calls planner_call app hw_after] in In0. destruct In0 as [X|X]; [now injection X as _ _ <-|now apply no_moves in X].
Qed.
Print Assumptions C80_outputs.

(** ** No failure *)

(** If the first block sets a lookahead of at most 1023 (M181 S...) and no other does, then
    no assertion of the planner fails, whatever follows and whatever the motors accept. *)
Theorem C80_no_failure : forall c h answers s0 p v n es r s, machine_init c h answers = Some s0 ->
  fl_trunc v = Some n -> 1 <= n <= 1023 -> Forall (fun e => match e with MCode 181 _ => False | _ => True end) es ->
  Model_Machine.perform_all c (MCode 181 [("S"%char, v)] :: es) s0 = (r, s) ->
  exists st, plan c (m_hw s0) p s = Ok st /\ size st <= 1022.
Proof.
  intros c h answers s0 p v n es r s I V N F E.
  pose proof (C80_rules c h answers s0 _ r s I E) as P. cbn [Model_Machine.perform_all] in E.
  set (s1 := mk_machine (m_homing s0) (m_feed s0) (m_factor s0) (m_off_motor s0) (m_off_fan s0) (m_pause s0) (m_hw s0) (m_in s0) (m_log s0 ++ [Did DoWait] ++ [Did (DoLookahead n)])).
  assert (E1 : Model_Machine.perform c (MCode 181 [("S"%char, v)]) s0 = (Some tt, s1)).
  { cbn [Model_Machine.perform special_commands handle_set_lookahead]. unfold bind at 1, int_of. rewrite V. unfold to_int. replace ((_ <=? n) && (n <=? _)) with true by lia. cbn [ret].
    unfold max_lookahead. replace ((n <=? 0) || (1024 <? n)) with false by lia. unfold bind, act. cbn [m_homing m_feed m_factor m_off_motor m_off_fan m_pause m_hw m_in m_log]. unfold s1. now rewrite <- app_assoc. }
  unfold bind at 1 in E. rewrite E1 in E. destruct (run_grows c es s1) as (new & L & G). rewrite E in L. cbn [snd] in L. unfold s1 in L. cbn [m_log] in L. rewrite (init_log _ _ _ _ I) in L. cbn [app] in L.
  rewrite plan_is. rewrite L in P |- *. cbn [planner_calls planner_call hw_after app proper] in P |- *. apply C27_fits; auto.
  clear - F G. generalize (m_hw s0). induction G as [|ev l (e & q & Ie & Hq & Em) _ IH]; intros h; [constructor|]. cbn [planner_calls]. apply Forall_app. split; [|apply IH].
  destruct ev as [qq z|a]; [constructor|]. destruct a; cbn [planner_call]; repeat constructor. exfalso.
  destruct q; cbn [emitted] in Em; try contradiction; [destruct Em; discriminate|]. injection Em as <-. cbn [fq] in Hq. destruct e; try contradiction. subst. rewrite Forall_forall in F. exact (F _ Ie).
Qed.
Print Assumptions C80_no_failure.

(** ** Where the machine stands *)

(** Home an axis (G28, with the emergency stop off), then do anything but homing and probing,
    then stop. Every motor of the axis has made just the steps from the switch to the
    position of the last move that was accepted: nothing is lost or accumulates over any
    history, whatever it did before, with outputs, spindle, pauses, idle times, motors
    switched off and on and emergency stops in between. This position is one asked for. *)
Theorem C80_position : forall c h answers s0 p, machine_init c h answers = Some s0 -> plans_for c (m_hw s0) p -> willing p ->
  forall before b between e s s1 s2,
    Model_Machine.perform_all c before s0 = (Some tt, s) -> stop_on s = false -> completes c (GoHome b) s s1 ->
    Model_Machine.perform_all c (between ++ [e]) s1 = (Some tt, s2) ->
    existsb repositions (between ++ [e]) = false -> stops e = true ->
  forall st1 st2, plan c (m_hw s0) p s1 = Ok st1 -> plan c (m_hw s0) p s2 = Ok st2 ->
  exists new, m_log s2 = m_log s1 ++ new /\
    (forall m a, In a (axes_to_home c b (c_home_order c)) -> drives (m_hw s0) m a ->
       sent_steps m st2 - sent_steps m st1 = in_steps c p a (last_target (switch_pos c) new a) - in_steps c p a (switch_pos c a)) /\
    (last_target (switch_pos c) new = switch_pos c \/ In (last_target (switch_pos c) new) (asked_for between)).
Proof.
  intros c h answers s0 p I (PS & _ & _ & _ & _ & PH) W before b between e s s1 s2 E0 S E1 E2 R St st1 st2 P1 P2.
  assert (K0 : kn s) by exact (run_known c before s0 tt s E0 (init_known _ _ _ _ I)).
  destruct (go_home_known c b s tt s1 E1 K0) as [H1 K1].
  assert (H2 : hal s2).
  { destruct (Proofs_Machine3.perform_all_app c between [e] s1 s2 E2) as (s3 & E3 & E4). cbn [Model_Machine.perform_all] in E4. apply bind_some in E4. destruct E4 as (u & s4 & E4 & E5). injection E5 as <-.
    exact (stops_halted c e s3 u s4 St E4 (run_known c between s1 tt s3 E3 K1)). }
  pose proof (plan_halted _ _ _ _ _ H1 P1) as HT1. pose proof (plan_halted _ _ _ _ _ H2 P2) as HT2.
  destruct (go_home_sets c b s tt s1 E1 S) as (n1 & L1 & Set1).
  destruct (run_grows c [GoHome b] s) as (n1' & L1' & G1). assert (E1' : snd (Model_Machine.perform_all c [GoHome b] s) = s1) by (cbn [Model_Machine.perform_all]; unfold bind; unfold completes in E1; now rewrite E1).
  rewrite E1', L1 in L1'. apply app_inv_head in L1'. subst n1'.
  assert (F1 : Forall (fun ev => match ev with Did (DoEnqueue _ _) => False | Did (DoSetPos x q) => q = home_pos c x | _ => True end) n1).
  { clear - G1. revert G1. apply Forall_impl. intros ev (x & q & Ix & Hq & Em). destruct Ix as [<-|[]]. destruct ev as [qq z|a]; [exact Logic.I|]. destruct q; cbn [emitted] in Em; try contradiction; [destruct Em; discriminate|]. injection Em as ->. destruct a0; try exact Logic.I; exact Hq. }
  destruct (run_grows c (between ++ [e]) s1) as (n2 & L2 & G2). rewrite E2 in L2. cbn [snd] in L2.
  assert (NR : forall x, In x (between ++ [e]) -> repositions x = false). { intros x Ix. destruct (repositions x) eqn:X; [|reflexivity]. rewrite <- R. symmetry. apply existsb_exists. eauto. }
  assert (F2 : Forall (fun ev => match ev with Did (DoEnqueue pos _) => In pos (asked_for between) | Did (DoSetPos _ _) | Did (DoDrive _ _ _ _) => False | _ => True end) n2).
  { clear - NR G2 St. revert G2. apply Forall_impl. intros ev (x & q & Ix & Hq & Em). specialize (NR x Ix). destruct ev as [qq z|a]; [exact Logic.I|]. destruct q; cbn [emitted] in Em; try contradiction; [destruct Em; discriminate|]. injection Em as ->.
    destruct a0; try exact Logic.I; cbn [fq fp] in Hq; destruct x; try contradiction; try discriminate.
    all: subst; assert (Ib : In _ between) by (apply in_app_or in Ix; destruct Ix as [Ix|[->|[]]]; [exact Ix|discriminate St]); clear - Ib; induction between as [|y r IH]; [destruct Ib|]; destruct Ib as [->|Ib]; [now left|]; specialize (IH Ib); destruct y; cbn [asked_for]; auto; now right. }
  exists n2. split; [exact L2|]. rewrite plan_is in P1, P2. rewrite L2, calls_app in P2. rewrite L1, calls_app in P1, P2.
  set (os0 := planner_calls c (m_hw s0) (m_log s)) in *. set (hw1 := hw_along c (m_hw s0) (m_log s)) in *. set (os1 := planner_calls c hw1 n1) in *. set (hw2 := hw_along c (m_hw s0) (m_log s ++ n1)) in *. set (os2 := planner_calls c hw2 n2) in *.
  split.
  - intros m a Ia D. assert (T : turns_for p m a) by (intros x; rewrite PH; apply D). unfold sent_steps.
    rewrite (halted_inv p _ st2 W P2 HT2 m a T), (halted_inv p _ st1 W P1 HT1 m a T), legs_app, sum_app.
    assert (OM : Forall only_moves os2).
    { unfold os2. clear - F2. generalize hw2. induction F2 as [|ev l H _ IH]; intros g; [constructor|]. cbn [planner_calls]. apply Forall_app. split; [|apply IH]. destruct ev as [q z|a]; [constructor|]. destruct a; try contradiction; repeat constructor. }
    rewrite (sum_moves p os2 (ends p (at_home p) (os0 ++ os1)) a OM).
    assert (SA : forall x, in_steps c p a x = steps_at p a x) by (intros x; unfold in_steps, steps_at; now rewrite PS). rewrite !SA.
    assert (X1 : ends p (at_home p) (os0 ++ os1) a = steps_at p a (switch_pos c a)) by (rewrite ends_app; apply ends_set; auto).
    rewrite X1. unfold os2. rewrite (ends_target c p n2 hw2 _ (switch_pos c) a X1); [lia|]. revert F2. apply Forall_impl. intros [q z|[]]; auto.
  - clear - F2. generalize (switch_pos c) as d. induction F2 as [|ev l H _ IH]; intros d; [now left|]. destruct ev as [q z|a]; [apply IH|]. destruct a; cbn [last_target]; try apply IH; try contradiction.
    destruct (IH pos) as [->|X]; [now right|now right].
Qed.
Print Assumptions C80_position.

(** ** A machine with two axes

    X has a switch at its far end (100 mm) and is homed; two moves are accepted, one is not as it
    leaves the machine. *)
Definition wcape : cape := mk_cape (fun i => 100 + i) (fun i => 200 + i) (fun i => 300 + i) 99 false.
Definition wc : mcfg := mk_mcfg (fun a => match a with AX | AY => f32_of_Z 100 | _ => f32_of_Z 0 end) (fun _ => f32_of_Z 100) (fun _ => f32_of_Z 50) (fun _ => f32_of_Z 1000)
  (fun _ => f32_of_Z 5) (fun _ => f32_of_Z 5) (f32_of_Z 1) (txt "XYZ") (fun a => match a with AX => TrigMax | _ => TrigNone end)
  0 0 0 true true (txt "z") false true wcape.
Definition wh : hw := hw_run wcape [HwConfig (txt "switch-mapping") (txt "switch_2") (txt "max_x"); HwAddMotor AX 1 false; HwAddMotor AY 2 false; HwInit true; HwUpdateOutput OutEstop false].
Definition wp (h : hw) : pcfg :=
  mk_pcfg (Model_Machine.c_steps wc) (c_range wc) (c_feed wc) (c_accel wc) (f32_of_Z 10) (f32_of_Z 0) (fun a => match c_home wc a with TrigMax => true | _ => false end) h
    (fun x => x) (fun x => x) (fun _ => 0) (fun _ => 0) (fun _ => true).
Definition w_answers : list Z := [0; 0; 0; 0; 0; 0; 0; 0; 1; 1; 0; 0; 0; 0; 1; 1; 0; 1; 1; 0; 0; 0; 0].
Definition w0 : machine := match machine_init wc wh w_answers with Some s => s | None => start_state wc wh [] end.
Definition wrun (es : list Model_Machine.call) (s : machine) : machine := snd (Model_Machine.perform_all wc es s).
Definition w_before : list Model_Machine.call := [MCode 181 [("S"%char, f32_of_Z 20)]].
Definition w_to (x y : Z) : axis -> fl := fun a => match a with AX => f32_of_Z x | AY => f32_of_Z y | _ => f32_of_Z 0 end.
Definition w_between : list Model_Machine.call := [CoordinatedMove (f32_of_Z 20) (w_to 30 10); MotorsEnable true; RapidMove (f32_of_Z 40) (w_to 60 0); CoordinatedMove (f32_of_Z 20) (w_to 101 0)].
Definition ws : machine := wrun w_before w0.
Definition ws1 : machine := wrun [GoHome 1] ws.
Definition ws2 : machine := wrun (w_between ++ [Dwell]) ws1.
Definition w_steps (s : machine) : option Z := match plan wc (m_hw w0) (wp (m_hw w0)) s with Ok st => Some (sent_steps M1 st) | Undefined => None end.
Lemma w_done : forall es s, fst (Model_Machine.perform_all wc es s) = Some tt -> Model_Machine.perform_all wc es s = (Some tt, wrun es s).
Proof. intros es s H. unfold wrun. destruct (Model_Machine.perform_all wc es s) as [r s']. cbn [fst] in H. now subst. Qed.
Example C80_example :
  machine_init wc wh w_answers = Some w0 /\ plans_for wc (m_hw w0) (wp (m_hw w0)) /\ willing (wp (m_hw w0)) /\
  Model_Machine.perform_all wc w_before w0 = (Some tt, ws) /\ stop_on ws = false /\ completes wc (GoHome 1) ws ws1 /\
  Model_Machine.perform_all wc (w_between ++ [Dwell]) ws1 = (Some tt, ws2) /\
  existsb repositions (w_between ++ [Dwell]) = false /\ stops Dwell = true /\
  In AX (axes_to_home wc 1 (c_home_order wc)) /\ drives (m_hw w0) M1 AX.
Proof.
  split; [reflexivity|]. split; [repeat split|]. split; [intros l; reflexivity|]. split; [apply w_done; vm_compute; reflexivity|]. split; [vm_compute; reflexivity|].
  split. { unfold completes. unfold ws1, wrun. cbn [Model_Machine.perform_all]. unfold bind at 1. destruct (Model_Machine.perform wc (GoHome 1) ws) as [[[]|] s'] eqn:E; [reflexivity|].
           assert (X : fst (Model_Machine.perform wc (GoHome 1) ws) = Some tt) by (vm_compute; reflexivity). rewrite E in X. discriminate X. }
  split; [apply w_done; vm_compute; reflexivity|]. split; [reflexivity|]. split; [reflexivity|]. split; [vm_compute; auto|].
  intros b. split; [|intros ->; vm_compute; reflexivity]. intros H. destruct b; [reflexivity| | | | | | | | |]; vm_compute in H; discriminate H.
Qed.
(** From the switch at 100 mm to 60 mm: 4000 steps back. *)
Example C80_example_steps : w_steps ws1 = Some 95 /\ w_steps ws2 = Some (-3905) /\
  in_steps wc (wp (m_hw w0)) AX (f32_of_Z 60) - in_steps wc (wp (m_hw w0)) AX (switch_pos wc AX) = -4000.
Proof. split; [vm_compute; reflexivity|]. split; vm_compute; reflexivity. Qed.

(** ** Without M181 *)

(** The lookahead a machine starts with does not fit in the planning buffer: a plain file with
    1023 moves in a row makes the planner fail an assertion, on any hardware. *)
Definition zc : mcfg := mk_mcfg (Model_Machine.c_steps wc) (c_range wc) (c_feed wc) (c_accel wc) (c_homefeed wc) (c_probefeed wc) (c_speed wc) (c_home_order wc) (fun _ => TrigNone)
  0 0 0 false true [] false true wcape.
Definition z_moves (n : nat) : list Model_Machine.call :=
  flat_map (fun _ => [CoordinatedMove (f32_of_Z 20) (w_to 10 0); CoordinatedMove (f32_of_Z 20) (w_to 20 0)]) (repeat tt n).
Definition z_answers (n : nat) : list Z := flat_map (fun _ => [0; 1; 0; 1]) (repeat tt n).
Definition z0 : machine := match machine_init zc wh (z_answers 512) with Some s => s | None => start_state zc wh [] end.
Definition zs : machine := snd (Model_Machine.perform_all zc (z_moves 512) z0).
Definition zp (h : hw) : pcfg :=
  mk_pcfg (Model_Machine.c_steps zc) (c_range zc) (c_feed zc) (c_accel zc) (f32_of_Z 10) (f32_of_Z 0) (fun _ => false) h
    (fun x => x) (fun x => x) (fun _ => 0) (fun _ => 0) (fun _ => true).
Definition moving (o : Model_Planner.call) : bool := match o with Move _ _ _ => true | _ => false end.
Theorem C80_default_refuted : exists c h answers s0 p es s, machine_init c h answers = Some s0 /\ plans_for c (m_hw s0) p /\ willing p /\
  Forall (fun e => exists f pos, e = CoordinatedMove f pos) es /\
  Model_Machine.perform_all c es s0 = (Some tt, s) /\ plan c (m_hw s0) p s = Undefined.
Proof.
  exists zc, wh, (z_answers 512), z0, (zp (m_hw z0)), (z_moves 512), zs. split; [vm_compute; reflexivity|]. split; [repeat split|]. split; [intros l; reflexivity|].
  split. { apply Forall_forall. intros e I. apply in_flat_map in I. destruct I as (u & _ & [<-|[<-|[]]]); eauto. }
  split. { unfold zs. assert (X : fst (Model_Machine.perform_all zc (z_moves 512) z0) = Some tt) by (vm_compute; reflexivity). destruct (Model_Machine.perform_all zc (z_moves 512) z0) as [r s]. cbn [fst] in X. now subst. }
  rewrite plan_is. apply C27_default_refuted.
  - assert (X : forallb moving (planner_calls zc (m_hw z0) (m_log zs)) = true) by (vm_compute; reflexivity). apply Forall_forall. intros o I. rewrite forallb_forall in X. specialize (X o I). destruct o; try discriminate X. exact Logic.I.
  - apply Nat.leb_le. vm_compute. reflexivity.
Qed.
Print Assumptions C80_default_refuted.
