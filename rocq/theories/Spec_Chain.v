(** Specification: commands that the motor operations and the firmware carry out. *)
From Coq Require Import Reals.
From Verif Require Import Base Model_Float Model_Planner Model_MotorOps Spec_Real Spec_Speeds Spec_Timing.
Open Scope R_scope.

(** A command that the motors follow: at a constant speed of at least a tenth of a step per
    second, however long; changing the speed as C70 asks for; or making no steps. *)
Record follows (x : command) : Prop := {
  fo_v0 : fin32 (c_v0 x); fo_v1 : fin32 (c_v1 x);
  fo_int : forall m, (Z.abs (c_steps x m) <= 2147483647)%Z;
  fo_speeds : let D := most (c_steps x) in let v0 := val (c_v0 x) in let v1 := val (c_v1 x) in
    D = 0%Z \/ v0 <> v1 /\ ramp_request v0 v1 D \/ v0 = v1 /\ / 10 <= v0 }.
