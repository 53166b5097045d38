(** Machine control and planner together: the calls that src/gcode-machine-control.cc
    makes of the planner, taken from its log, are performed by [Model_Planner]. *)
From Verif Require Import Base Model_Float Model_Axis Model_Hardware Model_Machine Model_Planner.

(** The state of the hardware mapping after an action. *)
Definition hw_after (c : mcfg) (h : hw) (e : event) : hw :=
  match e with Did (DoHw op) => hw_step (c_cape c) h op | _ => h end.
(** planner.cc:951-984: what the methods of Planner pass on. The auxiliary bits are those
    of the moment (planner.cc:627, 924). *)
Definition planner_call (h : hw) (e : event) : list Model_Planner.call :=
  match e with
  | Did (DoEnqueue pos feed) => [Move pos feed (hw_aux h)]
  | Did (DoDrive a d v0 v1) => [Drive a d v0 v1 (hw_aux h)]
  | Did (DoSetPos a p) => [Position a p]
  | Did DoHalt => [Halt]
  | Did (DoLookahead n) => [Lookahead n]
  | _ => []
  end.
(** All calls of the planner in a log, [h] is the hardware mapping at its beginning. *)
Fixpoint planner_calls (c : mcfg) (h : hw) (log : list event) : list Model_Planner.call :=
  match log with
  | [] => []
  | e :: r => planner_call h e ++ planner_calls c (hw_after c h e) r
  end.
(** gcode-machine-control.cc:336 (Init): the planner works with the configuration of the
    machine control and the same hardware mapping [h]. *)
Definition plans_for (c : mcfg) (h : hw) (p : pcfg) : Prop :=
  p_steps_per_mm p = Model_Machine.c_steps c /\ p_range p = c_range c /\ p_max_feedrate p = c_feed c /\ p_acceleration p = c_accel c /\
  (forall a, p_home_max p a = match c_home c a with TrigMax => true | _ => false end) /\ p_hw p = h.
(** The planner of a machine that started with the hardware mapping [h]. *)
Definition plan (c : mcfg) (h : hw) (p : pcfg) (s : machine) : outcome planner :=
  Model_Planner.history p (planner_calls c h (m_log s)).
