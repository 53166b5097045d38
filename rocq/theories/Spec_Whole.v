(** Specification: where the machine stands. *)
From Verif Require Import Base Model_Float Model_Axis Model_Hardware Model_Machine Model_Planner Spec_Machine Spec_Planner.

(** The call sets or loses the position of an axis: homing and probing. *)
Definition repositions (e : Model_Machine.call) : bool := match e with GoHome _ | ProbeAxis _ _ => true | _ => false end.
(** The call brings the machine to a stop: G4 and M400, end of program or stream, idle
    input, motors on or off. *)
Definition stops (e : Model_Machine.call) : bool :=
  match e with Dwell | GcodeFinished _ | InputIdle _ | MotorsEnable _ | MCode 400 _ => true | _ => false end.
(** The last position a move was accepted for, [d] if there is none. *)
Fixpoint last_target (d : axis -> fl) (log : list event) : axis -> fl :=
  match log with
  | [] => d
  | Did (DoEnqueue pos _) :: r => last_target pos r
  | _ :: r => last_target d r
  end.
(** The positions of the moves among the calls. *)
Fixpoint asked_for (es : list Model_Machine.call) : list (axis -> fl) :=
  match es with
  | [] => []
  | CoordinatedMove _ pos :: r | RapidMove _ pos :: r => pos :: asked_for r
  | _ :: r => asked_for r
  end.
(** Millimetres as whole steps of an axis of the machine; [p] only rounds. *)
Definition in_steps (c : mcfg) (p : pcfg) (a : axis) (x : fl) : Z := lround p (f32_mul x (Model_Machine.c_steps c a)).
(** The motor [m] turns for the axis [a] and no other. *)
Definition drives (h : hw) (m : motor) (a : axis) : Prop :=
  forall b, Z.testbit (hw_drivers h b) (motor_ix m) = true <-> b = a.
(** The steps of the motor [m] sent so far. *)
Definition sent_steps (m : motor) (st : planner) : Z := total (fun x => Model_Planner.c_steps x m) (sent (p_log st)).
