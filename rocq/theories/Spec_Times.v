(** Specification: how long pauses and motions last. *)
From Coq Require Import Reals.
From Verif Require Import Base Model_Float Model_Planner Model_MotorOps Spec_Real Spec_Speeds Model_Times.
Open Scope R_scope.

(** A motion of [D] steps from speed [v0] to [v1] lasts [T] seconds: with the constant
    acceleration [a] it has the speed v0 + a t and has gone v0 t + a t^2 / 2. *)
Definition lasts (v0 v1 : R) (D : Z) (T : R) : Prop :=
  exists a, v0 + a * T = v1 /\ v0 * T + a * (T * T) / 2 = IZR D.
(** The time of a pause (in milliseconds), or of the motion of the motor with most steps. *)
Definition time_of (e : timed) (T : R) : Prop :=
  match e with
  | Pause ms => T = val ms / 1000
  | Run x => lasts (val (c_v0 x)) (val (c_v1 x)) (most (c_steps x)) T
  end.
Definition sum (ts : list R) : R := fold_right Rplus 0 ts.

(** Pauses up to a week, and motions at speeds that are not absurd. *)
Definition sane_speed (v : fl) : Prop := fin32 v /\ 0 <= val v <= 1073741824.
Definition sane (e : timed) : Prop :=
  match e with
  | Pause ms => fin32 ms /\ (val ms = 0 \/ 1 <= val ms <= 1000000000)
  | Run x => (1 <= most (c_steps x) <= 536870912)%Z /\ sane_speed (c_v0 x) /\ sane_speed (c_v1 x) /\ / 1024 <= val (c_v0 x) + val (c_v1 x)
  end.

(** [x] is [y] up to [n] roundings of a float. *)
Definition roundings (n : nat) (x y : R) : Prop := x <= (1 + / 8388608) ^ n * y /\ y <= (1 + / 8388608) ^ n * x.
