(** C26, C27, C28, C58: the planner keeps every step, its buffer, halting, its verdict. *)
From Coq Require Import SpecFloat Reals Lra.
From Flocq Require Import Core.
From Verif Require Import Base Model_Float Model_Axis Model_Hardware Model_Planner Spec_Real Spec_Planner Proofs_Planner Proofs_Real.
Open Scope Z_scope.

(** ** A machine for the examples: X and Y with 100 steps per mm, Z with 400. *)
Definition ex_hw : hw :=
  mk_hw (fun _ => 0) (fun _ => 0) (fun a => match a with AX => 1 | AY => 2 | AZ => 12 | _ => 0 end) (fun _ => 0) (fun _ => 0) (fun _ => 0)
        (fun _ => false) 0 0 0 0 false false 0 true [].
Definition ex_pcfg (accepts : list command -> bool) : pcfg :=
  mk_pcfg (fun a => f32_of_Z (match a with AZ => 400 | _ => 100 end)) (fun _ => f32_of_Z 200) (fun _ => f32_of_Z 100) (fun _ => f32_of_Z 1000)
          (f32_of_Z 10) (f32_of_Z 0) (fun _ => false) ex_hw (fun x => x) (fun x => x) (fun _ => 0) (fun _ => 0) accepts.
Definition ex_ready := ex_pcfg (fun _ => true).
Definition to_xyz (x y z : Z) : axis -> fl := fun a => f32_of_Z (match a with AX => x | AY => y | AZ => z | _ => 0 end).
Definition ex_path : list call :=
  [Move (to_xyz 10 0 0) (f32_of_Z 50) 1; Move (to_xyz 20 1 0) (f32_of_Z 80) 3; Move (to_xyz 20 1 0) (f32_of_Z 80) 2; Move (to_xyz 19 1 (-2)) (f32_of_Z 80) 0].
Definition steps_of (m : motor) (o : outcome planner) : option (list Z) :=
  match o with Ok st => Some (rev (map (fun x => c_steps x m) (sent (p_log st)))) | Undefined => None end.

(** ** C26: no step is lost or invented *)

(** What has been sent is, leg by leg and in order, the beginning of the path asked for:
    for each leg the motors of an axis make exactly the steps between the rounded positions
    and the others none. Whatever the floating point computations return. *)
Theorem C26_leg_by_leg : forall c os st, willing c -> history c os = Ok st ->
  exists done pending groups, legs c (at_home c) os = done ++ pending /\
    Forall2 (carries_out c) groups done /\ concat groups = rev (sent (p_log st)).
Proof.
  intros c os st W E. destruct (history_ok c os st E) as [(hs & pend & _ & (done & pl & -> & Le)) _]. destruct (ledger_willing c _ _ _ _ W Le) as (gs & G1 & G2).
  exists done, pl, gs. auto.
Qed.
Print Assumptions C26_leg_by_leg.

Lemma total_app : forall f l1 l2, total f (l1 ++ l2) = total f l1 + total f l2.
Proof. intros f l1 l2. induction l1 as [|x l IH]; [reflexivity|]. cbn [app total fold_right]. unfold total in *. lia. Qed.
Lemma total_rev : forall f l, total f (rev l) = total f l.
Proof. intros f. induction l as [|x l IH]; [reflexivity|]. cbn [rev]. rewrite total_app, IH. cbn [total fold_right]. unfold total. lia. Qed.
Lemma carried : forall c gs ls, Forall2 (carries_out c) gs ls -> forall m a, turns_for c m a ->
  total (fun x => c_steps x m) (concat gs) = fold_right (fun l n => l_steps l a + n) 0 ls.
Proof.
  intros c gs ls H m a T. induction H as [|g l gs ls (H & _) _ IH]; [reflexivity|]. cbn [concat fold_right]. rewrite total_app, IH, (H m a T). reflexivity.
Qed.
Lemma halted_all : forall c os st, willing c -> history c (os ++ [Halt]) = Ok st ->
  exists groups, Forall2 (carries_out c) groups (legs c (at_home c) os) /\ concat groups = rev (sent (p_log st)).
Proof.
  intros c os st W E. rewrite history_app in E. destruct (history c os) as [s1|] eqn:E1; [|discriminate]. cbn [obind perform_all perform] in E.
  destruct (history_ok c os s1 E1) as [I LK]. destruct (halt_ok c _ _ _ I) as (s2 & H2 & (hs & pend & [] & (done & pl & -> & Le)) & HT & _). rewrite H2 in E. injection E as <-.
  destruct (ledger_willing c _ _ _ _ W Le) as (gs & G1 & G2). destruct Le as [_ _ P]. rewrite (sh_halted HT) in P. inversion P; subst. exists gs. rewrite app_nil_r. auto.
Qed.

(** After a halt, the steps of a motor add up to the way of its axis: the rounded position
    of the last target less that at the start. Nothing accumulates. *)
Theorem C26_total : forall c os st, willing c -> history c (os ++ [Halt]) = Ok st ->
  Forall (fun o => match o with Drive _ _ _ _ _ | Position _ _ => False | _ => True end) os ->
  forall m a, turns_for c m a ->
    total (fun x => c_steps x m) (sent (p_log st)) = ends c (at_home c) os a - at_home c a.
Proof.
  intros c os st W E F m a T. destruct (halted_all c os st W E) as (gs & G1 & G2).
  rewrite <- total_rev, <- G2, (carried _ _ _ G1 m a T). clear - F. generalize (at_home c). induction F as [|o os Ho _ IH]; intros pos; [cbn; lia|].
  cbn [legs ends]. rewrite fold_right_app.
  assert (X : forall ls n, fold_right (fun l n => l_steps l a + n) n ls = fold_right (fun l n => l_steps l a + n) 0 ls + n).
  { induction ls as [|l ls IHl]; intros n; [reflexivity|]. cbn [fold_right]. rewrite IHl. lia. }
  rewrite X, IH. destruct o as [to f aux| | | |n]; try contradiction; cbn [asks after fold_right]; try lia.
  destruct (forallb _ all_axes) eqn:Z0; cbn [fold_right l_steps]; [|lia]. rewrite forallb_forall in Z0. specialize (Z0 a (all_axes_in a)). cbn beta in Z0. lia.
Qed.
Print Assumptions C26_total.

(** The rounded position is within half a step of the position computed from millimetres. *)
Theorem C26_rounding : forall c a x,
  fin32 (f32_mul x (p_steps_per_mm c a)) -> (Rabs (val (f32_mul x (p_steps_per_mm c a))) <= IZR (2 ^ 30))%R ->
  (Rabs (IZR (steps_at c a x) - val (f32_mul x (p_steps_per_mm c a))) <= / 2)%R.
Proof.
  intros c a x F B. unfold steps_at, lround. destruct (round_val _ _ _ F) as (z & E & H). rewrite E.
  assert (Z1 : - 2 ^ 30 - 1 <= z <= 2 ^ 30 + 1).
  { apply Rabs_le_inv in H. apply Rabs_le_inv in B. cbn [Z.pow] in B. split; apply le_IZR.
    - rewrite minus_IZR, opp_IZR. change (IZR (2 ^ 30)) with (IZR (Z.pow_pos 2 30)). lra.
    - rewrite plus_IZR. change (IZR (2 ^ 30)) with (IZR (Z.pow_pos 2 30)). lra. }
  unfold to_int. replace ((_ <=? z) && (z <=? _)) with true by lia. exact H.
Qed.
Print Assumptions C26_rounding.

(** The motors of an axis, and no others, are told its position whenever it is set, and the
    home positions at the start. *)
Lemma told_fold : forall c a z l log, fold_left (fun log m => if Z.testbit (hw_drivers (p_hw c) a) (motor_ix m) then External m z :: log else log) l log =
  rev (map (fun m => External m z) (filter (fun m => Z.testbit (hw_drivers (p_hw c) a) (motor_ix m)) l)) ++ log.
Proof.
  intros c a z. induction l as [|m r IH]; intros log; [reflexivity|]. cbn [fold_left filter]. rewrite IH. destruct (Z.testbit _ _); [|reflexivity]. cbn [map rev]. now rewrite <- app_assoc.
Qed.
Lemma position_log : forall c a p st st', external_position c a p st = Ok st' -> p_log st' = rev (told_position c a (steps_at c a p)) ++ p_log st.
Proof.
  intros c a p st st' E. unfold external_position in E. destruct (p_buf st) as [|s [|? ?]]; try discriminate. destruct (p_halted st); [|discriminate]. rewrite told_fold in E. apply (f_equal (fun o => match o with Ok s => p_log s | Undefined => [] end)) in E. symmetry. exact E.
Qed.
Theorem C26_told : forall c os a p st, history c (os ++ [Position a p]) = Ok st ->
  exists st0, history c os = Ok st0 /\ p_log st = rev (told_position c a (steps_at c a p)) ++ p_log st0.
Proof.
  intros c os a p st E. rewrite history_app in E. destruct (history c os) as [s0|]; [|discriminate]. cbn [obind perform_all perform] in E. exists s0. split; [reflexivity|].
  destruct (external_position c a p s0) as [s1|] eqn:X; [|discriminate]. injection E as <-. now apply position_log.
Qed.
Print Assumptions C26_told.
Lemma told_all : forall c l s s1, fold_left (fun o a => obind o (external_position c a (if p_home_max c a then p_range c a else d0))) l (Ok s) = Ok s1 ->
  rev (p_log s1) = rev (p_log s) ++ flat_map (fun a => told_position c a (at_home c a)) l.
Proof.
  intros c. induction l as [|a l IH]; intros s s1 F; [apply (f_equal (fun o => match o with Ok s => p_log s | Undefined => [] end)) in F; cbn [fold_left] in F; rewrite <- F; now rewrite app_nil_r|].
  cbn [fold_left flat_map obind] in *.
  destruct (external_position c a _ s) as [s2|] eqn:X; [|exfalso; clear - F; induction l; [discriminate|now apply IHl]].
  rewrite (IH s2 s1 F), (position_log _ _ _ _ _ X), rev_app_distr, rev_involutive, <- app_assoc. reflexivity.
Qed.
Lemma new_is : forall c, new_planner c = fold_left (fun o a => obind o (external_position c a (if p_home_max c a then p_range c a else d0))) all_axes
  (Ok (mk_planner [holder (fun _ => 0)] 0 PLANNING_BUFFER_CAPACITY true true [])).
Proof. intros c. unfold new_planner. reflexivity. Qed.
Lemma told_new : forall c s1, new_planner c = Ok s1 -> rev (p_log s1) = flat_map (fun a => told_position c a (at_home c a)) all_axes.
Proof.
  intros c s1 N. rewrite new_is in N. rewrite (told_all c _ _ _ N). reflexivity.
Qed.
Theorem C26_told_home : forall c st, history c [] = Ok st -> rev (p_log st) = flat_map (fun a => told_position c a (at_home c a)) all_axes.
Proof.
  intros c st E. rewrite history_unfold in E. apply told_new. revert E. generalize (new_planner c) as o. intros [s1|] E; [exact E|discriminate E].
Qed.
Print Assumptions C26_told_home.
Example C26_told_example : told_position ex_ready AZ 800 = [External M3 800; External M4 800].
Proof. reflexivity. Qed.

Example C26_turns : turns_for ex_ready M1 AX /\ turns_for ex_ready M3 AZ /\ turns_for ex_ready M4 AZ.
Proof. repeat split; intros; destruct b; cbn in *; congruence. Qed.
Example C26_willing : willing ex_ready.
Proof. intros l. reflexivity. Qed.
(** Acceleration, travel and deceleration of the legs of 1000, 1000 and -100 steps. *)
Example C26_x : steps_of M1 (history ex_ready (ex_path ++ [Halt])) = Some [125; 750; 125; 316; 368; 316; -50; -50].
Proof. vm_compute. reflexivity. Qed.

(** ** C27: the planning buffer *)

(** With a lookahead of at most 1023 no history that keeps to the rules of the interface
    fails an assertion, whatever the backend accepts. *)
Theorem C27_fits : forall c n os, 1 <= n <= 1023 -> proper true true os -> looks_at_most 1023 os ->
  exists st, history c (Lookahead n :: os) = Ok st /\ size st <= 1022.
Proof.
  intros c n os N P L. unfold history. destruct (new_ok c) as (s0 & E0 & I & H & S & K & KN). rewrite E0. cbn [obind perform_all perform].
  unfold set_lookahead, PLANNING_BUFFER_CAPACITY. replace ((n <=? 0) || (1024 <? n)) with false by lia. cbn [snd obind].
  eapply proper_ok; [|exact P|exact L|auto|auto|cbn; lia|unfold size in *; cbn [p_buf]; lia].
  unfold inv in *. cbn [p_halted]. eapply ok_same; [exact I|reflexivity|reflexivity].
Qed.
Print Assumptions C27_fits.

Example C27_rules :
  proper true true (ex_path ++ [Lookahead 20; Halt; Drive AX (f32_of_Z 5) (f32_of_Z 1) (f32_of_Z 2) 0; Position AX (f32_of_Z 3); Lookahead 0; Move (to_xyz 1 2 3) (f32_of_Z 5) 0]) /\
  looks_at_most 1023 (ex_path ++ [Lookahead 20; Lookahead 0]).
Proof. split; [repeat split|]. repeat constructor; lia. Qed.

(** The lookahead a planner starts with is 1024, though. It fails an assertion as soon as
    1023 moves follow each other, whatever they are. *)
Theorem C27_default_refuted : forall c os,
  Forall (fun o => match o with Move _ _ _ => True | _ => False end) os -> (1023 <= length (legs c (at_home c) os))%nat ->
  history c os = Undefined.
Proof.
  intros c os M L. unfold history. destruct (new_ok c) as (s0 & E0 & I & H & S & K & KN). rewrite E0. cbn [obind].
  apply (too_many c os (at_home c) [] s0 I M KN K); lia.
Qed.
Print Assumptions C27_default_refuted.
Definition ex_zigzag (n : nat) : list call :=
  flat_map (fun _ => [Move (to_xyz 1 0 0) (f32_of_Z 1) 0; Move (to_xyz 0 0 0) (f32_of_Z 1) 0]) (repeat tt n).
Example C27_default_happens : (1023 <=? Z.of_nat (length (legs ex_ready (at_home ex_ready) (ex_zigzag 512)))) = true.
Proof. vm_compute. reflexivity. Qed.
Example C27_default_proper : proper true true (ex_zigzag 512).
Proof.
  assert (G : forall n b, proper b true (ex_zigzag n)); [|apply G].
  unfold ex_zigzag. induction n as [|n IH]; intros b; cbn [repeat flat_map app proper]; auto.
Qed.

(** ** C28: bringing the path to a halt *)

(** Everything asked for has been sent, leg by leg and in order. *)
Theorem C28_flushed : forall c os st, willing c -> history c (os ++ [Halt]) = Ok st ->
  exists groups, Forall2 (carries_out c) groups (legs c (at_home c) os) /\ concat groups = rev (sent (p_log st)).
Proof. exact halted_all. Qed.
Print Assumptions C28_flushed.

(** Halting succeeds in every state, whatever the backend accepts; doing it again changes
    nothing and sends nothing. *)
Theorem C28_again : forall c os st, history c os = Ok st ->
  exists st', perform c Halt st = Ok st' /\ perform c Halt st' = Ok st'.
Proof.
  intros c os st E. destruct (history_ok c os st E) as [I _]. destruct (halt_ok c _ _ _ I) as (s1 & E1 & I1 & H1 & _). exists s1. split; [exact E1|].
  destruct (halt_ok c _ _ _ I1) as (s2 & E2 & _ & _ & _ & _ & _ & X). cbn [perform]. rewrite E2. now rewrite (X H1).
Qed.
Print Assumptions C28_again.
(** Before the halt, nothing has been sent. *)
Example C28_example : steps_of M1 (history ex_ready ex_path) = Some [].
Proof. vm_compute. reflexivity. Qed.

(** ** C58: the verdict about a move *)

(** If the backend accepts everything, a move is reported as done, with a lookahead of at
    least 2. *)
Theorem C58_done : forall c os st to f aux ret st', willing c -> history c os = Ok st -> 2 <= lookahead os ->
  machine_move c to f aux st = Ok (ret, st') -> ret = true.
Proof.
  intros c os st to f aux ret st' W E L M. destruct (history_ok c os st E) as [I LK]. pose proof (history_look c os st E) as LE.
  assert (K : p_known st = true) by (unfold machine_move in M; now destruct (p_known st)).
  assert (C : size st < capacity) by (unfold machine_move in M; rewrite K in M; cbn [negb] in M; destruct (size st <? capacity) eqn:X; [lia|discriminate]).
  destruct (move_ok c _ _ st to f aux I K LK C) as (ret' & s2 & M2 & I2 & L2 & _ & X). rewrite M in M2. injection M2 as <- <-.
  destruct (asks c _ _); [now destruct X|]. destruct X as (_ & X & _). rewrite (X W). lia.
Qed.
Print Assumptions C58_done.

(** Whatever the backend refuses: the commands tried are, leg by leg and in order, for the
    beginning of the path; for each leg up to the first one refused. Commands are left out
    only behind a refused one. *)
Theorem C58_refused : forall c os st, history c os = Ok st ->
  exists done pending, legs c (at_home c) os = done ++ pending /\ delivered c (rev (tries (p_log st))) done.
Proof. intros c os st E. destruct (history_ok c os st E) as [(hs & pend & _ & (done & pl & -> & [D _ _])) _]. exists done, pl. auto. Qed.
Print Assumptions C58_refused.
(** The backend refuses the second command: the rest of the first leg is left out. *)
Definition ex_refusing := ex_pcfg (fun l => negb (Z.of_nat (length l) =? 2)).
Example C58_refused_example :
  match history ex_refusing (ex_path ++ [Halt]) with
  | Ok st => rev (map (fun x => (c_steps (fst x) M1, snd x)) (tries (p_log st)))
  | Undefined => []
  end = [(125, true); (750, false); (316, true); (368, true); (316, true); (-50, true); (-50, true)].
Proof. vm_compute. reflexivity. Qed.

(** With a lookahead of 1, which M181 S1 sets, every move that changes the position
    is reported as refused, although its steps have been sent completely. *)
Theorem C58_lookahead_one_refuted : forall c os st to f aux, willing c -> history c os = Ok st -> lookahead os = 1 -> p_known st = true -> size st < 1023 ->
  asks c (ends c (at_home c) os) (Move to f aux) <> [] ->
  exists st', machine_move c to f aux st = Ok (false, st') /\
    exists groups, Forall2 (carries_out c) groups (legs c (at_home c) (os ++ [Move to f aux])) /\ concat groups = rev (sent (p_log st')).
Proof.
  intros c os st to f aux W E L K C A. destruct (history_ok c os st E) as [I LK]. pose proof (history_look c os st E) as LE.
  destruct (move_ok c _ _ st to f aux I K LK C) as (ret & s2 & M2 & I2 & L2 & _ & X).
  rewrite legs_app. cbn [legs]. rewrite app_nil_r. destruct (asks c _ _) as [|l r] eqn:Q; [congruence|]. destruct X as (_ & _ & _ & X).
  destruct (X (eq_trans LE L)) as [-> HT]. exists s2. split; [exact M2|].
  destruct I2 as (hs & pend & [] & (done & pl & -> & Le)). destruct (ledger_willing c _ _ _ _ W Le) as (gs & G1 & G2). destruct Le as [_ _ P]. rewrite (sh_halted HT) in P. inversion P; subst. rewrite app_nil_r. eauto.
Qed.
Print Assumptions C58_lookahead_one_refuted.
Example C58_example :
  match history ex_ready [Lookahead 1] with
  | Ok st => match machine_move ex_ready (to_xyz 10 0 0) (f32_of_Z 50) 1 st with
             | Ok (ret, st') => (ret, steps_of M1 (Ok st'))
             | Undefined => (true, None)
             end
  | Undefined => (true, None)
  end = (false, Some [125; 750; 125]).
Proof. vm_compute. reflexivity. Qed.
