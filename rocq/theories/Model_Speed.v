(** The floating point speed computations of src/motion-queue-motor-operations.cc,
    bit exact for FLT_EVAL_METHOD 0 without FMA contraction. This is the instance
    of [speed_model] that the code uses; the theorems hold for every instance. *)
From Verif Require Import Base Model_Float Model_MotorOps.

(** src/motor-interface-constants.h:28 TIMER_FREQUENCY, a double constant. *)
Definition TIMER_FREQUENCY : fl := f64_div (f64_of_Z 200000000) (f64_of_Z 2).

(** src/motion-queue-motor-operations.cc:50-51 *)
Definition sq (x : fl) : fl := f32_mul x x.
Definition sqd (x : fl) : fl := f64_mul x x.

(** src/motion-queue-motor-operations.cc:52 round2int *)
Definition round2int (x : fl) : option Z := to_int (fl_round x).

(** src/motion-queue-motor-operations.cc:48,55-57 *)
Definition clip_hardware_frequency_limit (v : fl) : fl :=
  if SFltb v (f32_of_Z 1000000) then v else f32_of_Z 1000000.

(** src/motion-queue-motor-operations.cc:59-67 *)
Definition calcAccelerationCurveValueAt (index : Z) (acceleration : fl) : fl :=
  let accel_factor :=
    f32_of_f64
      (f64_div
         (f64_mul TIMER_FREQUENCY
            (f64_of_f32 (f32_sqrt (f32_div (f32_mul (f32_of_Z LOOPS_PER_STEP) (f32_of_Z 2)) acceleration))))
         (f64_of_Z LOOPS_PER_STEP)) in
  let c0 := if index =? 0 then f32_mul accel_factor (f32_div (f32_of_Z 67605) (f32_of_Z 100000))
            else accel_factor in
  f32_mul c0 (f32_sub (f32_sqrt (f32_of_Z (index + 1))) (f32_sqrt (f32_of_Z index))).

(** src/motion-queue-motor-operations.cc:158-160 *)
Definition ieee_travel_cycles (v0 : fl) : option Z :=
  let travel_speed := clip_hardware_frequency_limit (f32_of_f64 v0) in
  round2int (f32_of_f64 (f64_div TIMER_FREQUENCY (f64_of_f32 (f32_mul (f32_of_Z LOOPS_PER_STEP) travel_speed)))).

(** src/motion-queue-motor-operations.cc:170-183 and 190-202: [lo],[hi] are the
    two speeds in the order they are subtracted. *)
Definition ieee_ramp (v0 hi lo : fl) (defining : Z) : option (Z * Z) :=
  let acceleration := f32_div (f32_sub (sq hi) (sq lo)) (f32_mul (f32_of_Z 2) (f32_of_Z defining)) in
  match round2int (f32_mul (f32_of_Z LOOPS_PER_STEP)
                     (f32_div (sq (f32_sub v0 (f32_of_Z 0))) (f32_mul (f32_of_Z 2) acceleration))) with
  | None => None
  | Some idx =>
      match round2int (f32_mul (f32_of_Z 32) (calcAccelerationCurveValueAt idx acceleration)) with
      | None => None
      | Some h => Some (idx, h)
      end
  end.

(** src/motion-queue-motor-operations.cc:283-284,309-314 *)
Definition ieee_piece_speed (v0 v1 : fl) (total : Z) (prev : fl) (piece : Z) : fl :=
  let a := f64_div (f64_sub (sqd v1) (sqd v0)) (f64_mul (f64_of_Z 2) (f64_of_Z total)) in
  let v1squared := f64_add (sqd prev) (f64_mul (f64_mul (f64_of_Z 2) a) (f64_of_Z piece)) in
  if SFltb (f64_of_Z 0) v1squared then f64_sqrt v1squared else f64_of_Z 0.

(** Speeds are kept as doubles between pieces (line 295) and narrowed to float
    when stored in LinearSegmentSteps (315-316). *)
Definition ieee_speed : speed_model := {|
  spd := fl;
  spd_eqb a b := SFeqb (f32_of_f64 a) (f32_of_f64 b);
  spd_ltb a b := SFltb (f32_of_f64 a) (f32_of_f64 b);
  travel_cycles := ieee_travel_cycles;
  accel_params v0 v1 := ieee_ramp (f32_of_f64 v0) (f32_of_f64 v1) (f32_of_f64 v0);
  decel_params v0 v1 := ieee_ramp (f32_of_f64 v0) (f32_of_f64 v0) (f32_of_f64 v1);
  piece_speed := ieee_piece_speed
|}.
