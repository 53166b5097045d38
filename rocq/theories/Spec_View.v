(** Specification: what the picture of a path has to show. *)
From Coq Require Import SpecFloat.
From Verif Require Import Base Model_Float Model_Axis Model_Gcode Model_View.

(** The lines of a path: each move from where the machine stands; homing takes it to the origin
    in the axes homed. *)
Fixpoint way (origin pos : axes) (evs : list viz_event) : list (bool * axes * axes) :=
  match evs with
  | [] => []
  | VMove rapid p :: r => (rapid, pos, p) :: way origin p r
  | VHome which :: r => way origin (fun a => if which a then origin a else pos a) r
  | _ :: r => way origin pos r
  end.
(** The lines that a device draws, with the ink and where the pen stood. *)
Fixpoint lines (i : ink) (pen : option axes) (ops : list device_op) : list (ink * option axes * axes) :=
  match ops with
  | [] => []
  | MoveTo p :: r => lines i (Some p) r
  | LineTo p :: r => (i, pen, p) :: lines i (Some p) r
  | Color i' :: r => lines i' pen r
  | Stroke :: r => lines i pen r
  end.
Definition shown (a : axis) : Prop := a = AX \/ a = AY \/ a = AZ.
Definition starts (e : viz_event) : bool := match e with VStart => true | _ => false end.
(** The powers of the laser and the targets of the moves in a file. *)
Definition powers (evs : list viz_event) : list fl := flat_map (fun e => match e with VSpindle v => [v] | _ => [] end) evs.
Definition moves (evs : list viz_event) : list axes := flat_map (fun e => match e with VMove _ p => [p] | _ => [] end) evs.
