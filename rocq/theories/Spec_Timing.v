(** Time in the firmware, and the motion a segment asks for. *)
From Coq Require Import Reals.
From Verif Require Import Base Model_Float Model_MotorOps Model_Speed Model_Pru Spec_Real.
Open Scope Z_scope.

(** The processor runs at 200 MHz and the delay loop has two instructions: time is counted
    in passes of that loop, "ticks" of 10 ns (src/motor-interface-constants.h:28). *)
Definition clock : R := 100000000.

(** What a pass of the step loop takes besides its delay, in ticks, as the firmware reckons
    it (it subtracts just this from the delay): the division and what is around it when the
    speed changes (src/motor-interface-pru.p:130, 166), less on the way (137), and updating
    the status (179). What the firmware does not reckon with is not counted here either:
    the additions, the calls that set the pins and look at the emergency stop, and the
    jump back (243-267, 281) make every pass longer by the same time. *)
Definition overhead (s : motion_segment) : Z :=
  if 0 <? ms_loops_accel s then (129 + 9) / 2 + 2 else if 0 <? ms_loops_travel s then 4 / 2 + 2 else (129 + 11) / 2 + 2.

(** How long the passes of a segment take, without the last one, which ends it at once. *)
Definition ticks (s : motion_segment) : option (list Z) :=
  match pru_execute s with
  | None => None
  | Some passes => Some (map (fun p => pl_delay p + overhead s) (removelast passes))
  end.

Open Scope R_scope.

(** Two passes make a step: the steps per second at passes of [t] ticks. *)
Definition speed_of (t : R) : R := clock / (2 * t).

(** Constant acceleration from speed [v0] to [v1] over [D] steps. *)
Definition accel_of (v0 v1 : R) (D : Z) : R := (v1 * v1 - v0 * v0) / (2 * IZR D).
(** The square of the speed behind [j] half steps of it. *)
Definition planned_sq (v0 v1 : R) (D : Z) (j : R) : R := v0 * v0 + accel_of v0 v1 D * j.

(** A change of speed as the motion queue is asked for: at most 32767 steps (C31), at most
    300000 steps per second, not slower than 10 steps/s^2, and not from a speed so high
    that reaching it at this acceleration would have taken more than 32768 steps. *)
Record ramp_request (v0 v1 : R) (D : Z) : Prop := {
  rr_steps : (1 <= D <= 32767)%Z;
  rr_v0 : 0 <= v0 <= 300000; rr_v1 : 0 <= v1 <= 300000;
  rr_accel : 10 <= Rabs (accel_of v0 v1 D);
  rr_before : v0 * v0 <= 65536 * Rabs (accel_of v0 v1 D) }.

(** The speeds of a request to the motors are floats. *)
Definition asks (p : linear_segment ieee_speed) (v0 v1 : R) : Prop :=
  fin32 (f32_of_f64 (ls_v0 p)) /\ fin32 (f32_of_f64 (ls_v1 p)) /\ val (f32_of_f64 (ls_v0 p)) = v0 /\ val (f32_of_f64 (ls_v1 p)) = v1.
