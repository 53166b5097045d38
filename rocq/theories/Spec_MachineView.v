(** Specification: what the picture of the movement of the motors has to show. *)
From Coq Require Import Reals SpecFloat.
From Verif Require Import Base Model_Float Spec_Real Model_Axis Model_Planner Model_MachineView.

(** Where the motors stand after commands, from [pos]. *)
Definition after_call (pos : mreg) (e : call) : mreg :=
  match e with Move k => fun m => pos m + Model_Planner.c_steps k m | Place m p => fun x => if motor_eqb x m then p else pos x end.
Definition stands (es : list call) (pos : mreg) : mreg := fold_left after_call es pos.
(** X, Y and Z are shown. *)
Definition shown_motor (m : motor) : Prop := m = M1 \/ m = M2 \/ m = M3.
Definition turns (k : command) (m : motor) : Prop := Model_Planner.c_steps k m <> 0.
Definition seen (k : command) : bool := negb ((Model_Planner.c_steps k M1 =? 0) && (Model_Planner.c_steps k M2 =? 0) && (Model_Planner.c_steps k M3 =? 0)).
(** The lines to show, from where to where, in steps. *)
Fixpoint track (pos : mreg) (es : list call) : list (mreg * mreg) :=
  match es with
  | [] => []
  | Move k :: r => (if seen k then [(pos, after_call pos (Move k))] else []) ++ track (after_call pos (Move k)) r
  | e :: r => track (after_call pos e) r
  end.
(** The lines drawn, and where the pen was. *)
Fixpoint drawn (pen : option point) (ms : list mark) : list (option point * point) :=
  match ms with
  | [] => []
  | GoTo p :: r => drawn (Some p) r
  | DrawTo p :: r => (pen, p) :: drawn (Some p) r
  | _ :: r => drawn pen r
  end.
(** A point in millimetres for a position in steps. *)
Definition at_mm (steps_per_mm : axis -> fl) (pos : mreg) : point :=
  (f32_div (f32_of_Z (pos M1)) (steps_per_mm AX), f32_div (f32_of_Z (pos M2)) (steps_per_mm AY), f32_div (f32_of_Z (pos M3)) (steps_per_mm AZ)).
(** A motor that turns has steps per millimetre. *)
Definition geared (steps_per_mm : axis -> fl) (es : list call) : Prop :=
  forall k m, In (Move k) es -> turns k m -> SFeqb (steps_per_mm (motor_axis m)) (f32_of_Z 0) = false.
Definition corners (p : point) : list fl := let '(x, y, z) := p in [x; y; z].
Definition the_end (ms : list mark) : option point := fold_left (fun p m => match m with DrawTo q => Some q | GoTo q => Some q | _ => p end) ms None.
(** Whenever the motor has been turned, it is told later where it stands. *)
Definition settled (m : motor) (es : list call) : Prop :=
  forall l k r, es = l ++ Move k :: r -> turns k m -> exists p, In (Place m p) r.
(** The speeds in a list of commands, in mm/s through space: of those that move X, Y and Z by more
    than three steps. [v] is the speed of the motor with most steps, in steps/s. *)
Definition through_space (c : mv_config) (k : command) (v : fl) : fl :=
  f32_mul (speed_ratio c (Model_Planner.c_steps k)) (f32_div v (spmm c (dominant (Model_Planner.c_steps k)))).
Definition long_enough (k : command) : bool :=
  3 <? Z.abs (Model_Planner.c_steps k M1) + Z.abs (Model_Planner.c_steps k M2) + Z.abs (Model_Planner.c_steps k M3).
Definition speeds (c : mv_config) (es : list call) : list fl :=
  flat_map (fun e => match e with Move k => if long_enough k then [through_space c k (c_v0 k); through_space c k (c_v1 k)] else [] | _ => [] end) es.
(** What a motor moves, in millimetres, and the length of the way of a command through space. *)
Definition dist (c : mv_config) (m : motor) (steps : Z) : R := (Rabs (IZR steps) / val (spmm c m))%R.
Definition way_length (c : mv_config) (s : mreg) : R :=
  sqrt (dist c M1 (s M1) * dist c M1 (s M1) + dist c M2 (s M2) * dist c M2 (s M2) + dist c M3 (s M3) * dist c M3 (s M3)).
(** The colour in which each line is drawn, if [cur] is set before. *)
Fixpoint painted (cur : Z) (ms : list mark) : list Z :=
  match ms with
  | [] => []
  | SpeedColor i :: r => painted i r
  | DrawTo _ :: r => cur :: painted cur r
  | _ :: r => painted cur r
  end.
