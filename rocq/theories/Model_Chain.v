(** The planner and the motor operations together: the commands the planner issues are
    handed, in order, to MotionQueueMotorOperations::Enqueue. *)
From Verif Require Import Base Model_Float Model_Planner Model_MotorOps Model_Speed.
Open Scope Z_scope.

(** src/planner.cc:520-546 and src/segment-queue.h:28-43: a command of the planner as the
    motor operations get it. The speeds are floats there; the model of the motor operations
    keeps doubles (see [ieee_speed]), into which a float goes as it is. *)
Definition request (x : command) : linear_segment ieee_speed :=
  {| ls_v0 := f64_of_f32 (c_v0 x) : spd ieee_speed; ls_v1 := f64_of_f32 (c_v1 x) : spd ieee_speed;
     ls_aux := c_aux x; ls_steps := c_steps x |}.

(** src/planner.cc:544-546, 929: the commands enqueued one after the other. The segments
    handed to the backend; none behind one that was refused. *)
Fixpoint enqueue_all {B : backend} (flip : motor -> bool) (st : mops B) (xs : list command) : outcome (mops B) :=
  match xs with
  | [] => Ok st
  | x :: r => obind (mops_enqueue flip st (request x)) (fun '(st', ok) => if ok then enqueue_all flip st' r else Ok st')
  end.
