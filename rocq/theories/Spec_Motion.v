(** Specification vocabulary for the motion properties (C30-C36). Written from
    the meaning of the hardware format, not from the code that produces it. *)
From Verif Require Import Base Model_MotorOps.

(** Number of step-clock periods (loops) of a segment. *)
Definition seg_loops (s : motion_segment) : Z :=
  ms_loops_accel s + ms_loops_travel s + ms_loops_decel s.

(** What a hardware segment means: it lasts D = loops/2 steps of the fastest
    motor; a motor advances by the fraction "fractions/(2^31-1)" of D, rounded
    up; it goes backwards when its direction line differs from its mirror
    setting. *)
Definition seg_motion (mirrored : motor -> bool) (s : motion_segment) (m : motor) : Z :=
  let d := seg_loops s / 2 in
  let n := - ((- (ms_fractions s m * d)) / (2 ^ 31 - 1)) in
  if xorb (Z.testbit (ms_direction_bits s) (motor_ix m)) (mirrored m) then - n else n.

Fixpoint zsum (l : list Z) : Z := match l with [] => 0 | x :: t => x + zsum t end.

(** Total motion of a list of segments. *)
Definition total_motion (mirrored : motor -> bool) (l : list motion_segment) (m : motor) : Z :=
  zsum (map (fun s => seg_motion mirrored s m) l).

(** A segment whose fields all fit their hardware width without truncation, with
    exactly one phase, at least one step and at most 32767 steps. *)
Definition segment_fits (s : motion_segment) : Prop :=
  (exists n, 1 <= n <= 32767 /\
     ((ms_loops_accel s = 2 * n /\ ms_loops_travel s = 0 /\ ms_loops_decel s = 0) \/
      (ms_loops_accel s = 0 /\ ms_loops_travel s = 2 * n /\ ms_loops_decel s = 0) \/
      (ms_loops_accel s = 0 /\ ms_loops_travel s = 0 /\ ms_loops_decel s = 2 * n))) /\
  (forall m, 0 <= ms_fractions s m < 2 ^ 31) /\
  0 <= ms_direction_bits s < 2 ^ 8 /\
  0 <= ms_accel_series_index s < 2 ^ 32 /\
  0 <= ms_hires_accel_cycles s < 2 ^ 32 /\
  0 <= ms_travel_delay_cycles s < 2 ^ 32 /\
  ms_state s = 1.
