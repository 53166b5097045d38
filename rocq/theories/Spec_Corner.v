(** Specification: what the commands do at the corners of a path. *)
From Coq Require Import Reals SpecFloat.
From Verif Require Import Base Model_Float Model_Axis Model_Planner Spec_Planner Spec_Real Spec_Speeds.
Open Scope R_scope.

(** [gs] has a group of commands for each of the first legs of the path; [prev] is the leg
    before, and [v] the speed with which it ended. Between two legs with a sharp corner, and
    before the first leg, neither the speed at the end of the one nor the speed at the start
    of the other has a square above [j]. *)
Fixpoint slow_corners (c : pcfg) (j v : R) (prev : option leg) (gs : list (list command)) (ls : list leg) : Prop :=
  match gs, ls with
  | [], _ => True
  | g :: gs', l :: ls' =>
      carries_out c g l /\
      (match prev with None => True | Some p => sharp c p l end ->
        v * v <= j /\ match g with [] => True | x :: _ => val (c_v0 x) * val (c_v0 x) <= j end) /\
      slow_corners c j (final v g) (Some l) gs' ls'
  | _ :: _, [] => False
  end.
