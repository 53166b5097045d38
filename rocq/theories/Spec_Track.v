(** Specification: the position that follows from the requests and their answers. *)
From Verif Require Import Base Model_Float Model_Axis Model_Gcode.

(** The newest request first. A granted move, arc or spline leads to its target, homing to the
    origin in the axes named, a granted probe to the position reported for its axis; all else
    leaves the position. *)
Fixpoint believed (c : gcfg) (evs : list event) : axes :=
  match evs with
  | [] => gc_origin c
  | e :: r =>
      let answer := gc_reply c evs in
      match e with
      | EMove _ _ target | EArc _ _ _ _ _ target | ESpline _ _ _ _ target => if r_ok answer then target else believed c r
      | EHome which => fun a => if which a then gc_origin c a else believed c r a
      | EProbe _ b => fun a => if axis_eqb a b && r_ok answer then r_probed answer else believed c r a
      | _ => believed c r
      end
  end.
(** No move, arc or spline was refused. *)
Fixpoint nothing_refused (c : gcfg) (evs : list event) : Prop :=
  match evs with
  | [] => True
  | e :: r => nothing_refused c r /\ match e with EMove _ _ _ | EArc _ _ _ _ _ _ | ESpline _ _ _ _ _ => r_ok (gc_reply c evs) = true | _ => True end
  end.
