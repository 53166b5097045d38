(** Model of src/determine-print-stats.cc: the time a file would take. *)
From Coq Require Import SpecFloat.
From Verif Require Import Base Model_Float Model_Planner Model_MotorOps.
Open Scope Z_scope.

(** What counts for the time: the pauses in the file (dwell, 61-66), and the commands that
    the planner gives to the motors (Enqueue, 105-117). *)
Inductive timed := Pause (ms : fl) | Run (x : command).

(** 106-110: the largest number of steps of a motor; [abs] of an int. *)
Definition max_steps (steps : mreg) : Z := fold_left (fun n m => Z.max (Z.abs (steps m)) n) all_motors 0.

(** 62 and 113: [total_time_seconds] is a float (determine-print-stats.h:27); [2 * max_steps]
    is an int, converted for the division by a float. Its overflow is undefined. *)
Definition add_time (t : fl) (e : timed) : outcome fl :=
  match e with
  | Pause ms => Ok (f32_add t (f32_div ms (f32_of_Z 1000)))
  | Run x =>
      let n := 2 * max_steps (c_steps x) in
      if INT_MAX <? n then Undefined
      else Ok (f32_add t (f32_div (f32_of_Z n) (f32_add (c_v0 x) (c_v1 x))))
  end.

(** 129: the time is 0 at first. *)
Definition total_time (es : list timed) : outcome fl :=
  fold_left (fun t e => obind t (fun t => add_time t e)) es (Ok (f32_of_Z 0)).
