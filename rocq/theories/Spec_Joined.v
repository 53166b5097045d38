(** Specification: when G-code parser and machine agree. *)
From Verif Require Import Base Model_Float Model_Axis Model_Gcode Model_Hardware Model_Machine Spec_Machine Model_Joined.

(** Whenever homing was asked for the axis [a], the machine did it: the axis has a switch for
    homing and a place in the order, and the emergency stop was off. Each arc and each spline
    had a length. *)
Fixpoint well_homed (j : joint) (s0 : machine) (a : axis) (evs : list Model_Gcode.event) : Prop :=
  match evs with
  | [] => True
  | e :: r =>
      well_homed j s0 a r /\
      match e with
      | EHome which => which a = true -> In a (axes_to_home (j_machine j) (bitmap which) (c_home_order (j_machine j))) /\ stop_on (snd (machine_after j s0 r)) = false
      | EArc _ _ _ _ _ _ | ESpline _ _ _ _ _ => moves_of j e <> []
      | _ => True
      end
  end.
(** The request loses the position of an axis for a while: homing and probing. *)
Definition moves_blindly (e : Model_Gcode.event) : bool := match e with EHome _ | EProbe _ _ => true | _ => false end.
(** The machine rests after the last of the requests: it was a pause (G4), the end of the
    stream or the motors on or off, only told since then that a command or line is done, or the
    input was found idle behind it. *)
Fixpoint rests (j : joint) (evs : list Model_Gcode.event) : Prop :=
  j_idle j evs <> [] \/
  match evs with
  | EDwell _ :: _ | EFinished _ :: _ | EMotors _ :: _ => True
  | ECommandDone _ _ :: r | EBlockDone :: r => rests j r
  | _ => False
  end.
