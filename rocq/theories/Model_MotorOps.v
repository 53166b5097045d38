(** Model of src/motion-queue-motor-operations.cc: cutting moves into hardware
    segments, and the shadow queue used to report the motor positions. *)
From Verif Require Import Base.

(** src/motion-queue-motor-operations.cc:40 *)
Definition LOOPS_PER_STEP : Z := 2.
(** src/motion-queue-motor-operations.cc:44 *)
Definition MAX_STEPS_PER_SEGMENT : Z := 65535 / LOOPS_PER_STEP.
(** src/motion-queue-motor-operations.cc:132,220 *)
Definition max_fraction : Z := 4294967295 / LOOPS_PER_STEP.
(** src/motor-interface-constants.h:30-33 *)
Definition STATE_EMPTY : Z := 0.
Definition STATE_FILLED : Z := 1.
Definition STATE_EXIT : Z := 2.
Definition STATE_ABORT : Z := 3.

(** The floating-point speed computations of EnqueueInternal/Enqueue. They are
    left abstract: [None] is a float-to-int conversion outside the int range
    (undefined behaviour).  Nothing is assumed about them, so every theorem
    holds in particular for the IEEE single/double computations of the code.
    - [spd_eqb], [spd_ltb]: the comparisons in lines 154 and 161;
    - [travel_cycles v0]: lines 158-160;
    - [accel_params v0 v1 steps]: lines 170-183 (series index, hires cycles);
    - [decel_params v0 v1 steps]: lines 190-202;
    - [piece_speed v0 v1 total prev piece]: lines 283-284, 309-314. *)
Record speed_model := {
  spd : Type;
  spd_eqb : spd -> spd -> bool;
  spd_ltb : spd -> spd -> bool;
  travel_cycles : spd -> option Z;
  accel_params : spd -> spd -> Z -> option (Z * Z);
  decel_params : spd -> spd -> Z -> option (Z * Z);
  piece_speed : spd -> spd -> Z -> spd -> Z -> spd
}.

(** src/segment-queue.h:28-42 LinearSegmentSteps *)
Record linear_segment (S : speed_model) := {
  ls_v0 : spd S;
  ls_v1 : spd S;
  ls_aux : Z;
  ls_steps : mreg
}.
Arguments ls_v0 {S}. Arguments ls_v1 {S}. Arguments ls_aux {S}. Arguments ls_steps {S}.

(** src/motion-queue.h:51-80 MotionSegment (without JERK_EXPERIMENT) *)
Record motion_segment := {
  ms_state : Z;
  ms_direction_bits : Z;
  ms_loops_accel : Z;
  ms_loops_travel : Z;
  ms_loops_decel : Z;
  ms_aux : Z;
  ms_accel_series_index : Z;
  ms_hires_accel_cycles : Z;
  ms_travel_delay_cycles : Z;
  ms_fractions : mreg
}.

(** src/motion-queue-motor-operations.cc:91-97 HistoryPositionInfo *)
Record pos_info := { pi_position : Z; pi_fraction : Z; pi_sign : Z }.
(** src/motion-queue-motor-operations.cc:92 *)
Definition pos_info0 : pos_info := {| pi_position := 0; pi_fraction := 0; pi_sign := 1 |}.
(** src/motion-queue-motor-operations.cc:100-103 HistorySegment *)
Record history := { h_pos : motor -> pos_info; h_aux : Z }.
Definition history0 : history := {| h_pos := fun _ => pos_info0; h_aux := 0 |}.

(** src/motion-queue.h:97-123 MotionQueue: the backend. Abstract: any state,
    any acceptance behaviour, any answer about pending elements.
    [b_pending] is GetPendingElements: (number of elements, head item progress). *)
Record backend := {
  b_state : Type;
  b_enqueue : b_state -> motion_segment -> b_state * bool;
  b_pending : b_state -> Z * Z
}.

(** State of MotionQueueMotorOperations: shadow queue (front first) and backend,
    plus a ghost log of all segments handed to the backend (with its answer). *)
Record mops (B : backend) := {
  mo_shadow : list history;
  mo_backend : b_state B;
  mo_sent : list (motion_segment * bool)
}.
Arguments mo_shadow {B}. Arguments mo_backend {B}. Arguments mo_sent {B}.

(** src/motion-queue-motor-operations.cc:105-112 constructor *)
Definition mops_init (B : backend) (b : b_state B) : mops B :=
  {| mo_shadow := [history0]; mo_backend := b; mo_sent := [] |}.

(** src/motion-queue-motor-operations.cc:133-146: direction bit of one motor.
    [flip] is hardware_mapping_->IsMotorFlipped. *)
Definition dir_bit (flip : motor -> bool) (steps : mreg) (m : motor) : bool :=
  if steps m <? 0 then negb (flip m) else flip m.

Definition bit_of (m : motor) (b : bool) : Z := if b then 2 ^ motor_ix m else 0.

(** src/motion-queue-motor-operations.cc:121,133-141: the OR of (1 << i). *)
Definition direction_bits (flip : motor -> bool) (steps : mreg) : Z :=
  fold_left (fun acc m => Z.lor acc (bit_of m (dir_bit flip steps m))) all_motors 0.

(** src/motion-queue-motor-operations.cc:143-144, stored in a uint32_t *)
Definition fraction_of (steps : Z) (defining : Z) : Z :=
  u32 (u64 (Z.abs steps * max_fraction) / defining).

(** src/motion-queue-motor-operations.cc:118-203,205-206: the new element.
    Division by zero (line 144) and undefined conversions are [Undefined]. *)
Definition make_segment {S : speed_model} (flip : motor -> bool)
    (p : linear_segment S) (defining : Z) : outcome motion_segment :=
  if defining =? 0 then Undefined else
  let total_loops := LOOPS_PER_STEP * defining in
  let base la lt ld idx hires travel :=
    {| ms_state := STATE_FILLED;
       ms_direction_bits := direction_bits flip (ls_steps p);
       ms_loops_accel := u16 la; ms_loops_travel := u16 lt; ms_loops_decel := u16 ld;
       ms_aux := ls_aux p;
       ms_accel_series_index := u32 idx;
       ms_hires_accel_cycles := u32 hires;
       ms_travel_delay_cycles := u32 travel;
       ms_fractions := fun m => fraction_of (ls_steps p m) defining |} in
  if spd_eqb S (ls_v0 p) (ls_v1 p) then
    match travel_cycles S (ls_v0 p) with
    | Some c => Ok (base 0 total_loops 0 0 0 c)
    | None => Undefined
    end
  else if spd_ltb S (ls_v0 p) (ls_v1 p) then
    match accel_params S (ls_v0 p) (ls_v1 p) defining with
    | Some (idx, hires) => Ok (base total_loops 0 0 idx hires 0)
    | None => Undefined
    end
  else
    match decel_params S (ls_v0 p) (ls_v1 p) defining with
    | Some (idx, hires) => Ok (base 0 0 total_loops idx hires 0)
    | None => Undefined
    end.

(** src/motion-queue-motor-operations.cc:124,133-149: the new history element. *)
Definition make_history {S : speed_model} (prev : history)
    (p : linear_segment S) (defining : Z) : history :=
  {| h_pos := fun m =>
       {| pi_position := pi_position (h_pos prev m) + ls_steps p m;
          pi_fraction := fraction_of (ls_steps p m) defining;
          pi_sign := if ls_steps p m <? 0 then -1 else 1 |};
     h_aux := ls_aux p |}.

(** std::deque::front() on the shadow queue; empty would be undefined. *)
Definition shadow_front (q : list history) : outcome history :=
  match q with [] => Undefined | h :: _ => Ok h end.

(** src/motion-queue-motor-operations.cc:118-209 EnqueueInternal.
    backend_->MotorEnable(true) (207) is not part of this state; see Model_Hardware. *)
Definition enqueue_internal {S : speed_model} {B : backend} (flip : motor -> bool)
    (st : mops B) (p : linear_segment S) (defining : Z) : outcome (mops B * bool) :=
  obind (shadow_front (mo_shadow st)) (fun prev =>
  obind (make_segment flip p defining) (fun seg =>
    let '(b', ok) := b_enqueue B (mo_backend st) seg in
    Ok ({| mo_shadow := make_history prev p defining :: mo_shadow st;
           mo_backend := b';
           mo_sent := mo_sent st ++ [(seg, ok)] |}, ok))).

(** src/motion-queue-motor-operations.cc:255-261 *)
Definition get_defining_axis_steps (steps : mreg) : Z :=
  fold_left (fun acc m => Z.max (Z.abs (steps m)) acc) (tl all_motors) (Z.abs (steps M1)).

(** std::deque::resize(n): cut at the back or append default elements. *)
Definition resize (n : nat) (q : list history) : list history :=
  firstn n q ++ repeat history0 (n - length q).

(** src/motion-queue-motor-operations.cc:329-331 (and 214-216, 250-252) *)
Definition shrink {B : backend} (st : mops B) : mops B :=
  let n := fst (b_pending B (mo_backend st)) in
  let new_size := if 0 <? n then n else 1 in
  {| mo_shadow := resize (Z.to_nat new_size) (mo_shadow st);
     mo_backend := mo_backend st; mo_sent := mo_sent st |}.

(** src/motion-queue-motor-operations.cc:285 *)
Definition divisions_of (defining : Z) : Z := defining / MAX_STEPS_PER_SEGMENT + 1.

(** src/motion-queue-motor-operations.cc:289-290: ((int64_t)steps << 32) / divisions + 1
    (C++ division truncates towards zero). *)
Definition hires_per_div (steps divisions : Z) : Z :=
  Z.quot (Z.shiftl steps 32) divisions + 1.

(** src/motion-queue-motor-operations.cc:299-321: one iteration of the division
    loop computes these steps; [d] counts from 0, the accumulators after [d]
    additions are d * hires_per_div (no int64 overflow: see Proofs_MotorOps). *)
Definition accumulated (steps divisions d : Z) : Z :=
  Z.shiftr (d * hires_per_div steps divisions) 32.
Definition piece_steps (steps : mreg) (divisions d : Z) : mreg :=
  fun m => accumulated (steps m) divisions (d + 1) - accumulated (steps m) divisions d.

(** src/motion-queue-motor-operations.cc:299-321: the loop; [n] iterations left,
    [d] is the loop counter, [prev_v] is previous_speed. *)
Fixpoint divide_loop {S : speed_model} {B : backend} (flip : motor -> bool)
    (orig : linear_segment S) (total divisions : Z)
    (n : nat) (d : Z) (prev_v : spd S) (st : mops B) (ret : bool)
    : outcome (mops B * bool) :=
  match n with
  | O => Ok (st, ret)
  | S n' =>
      let steps := piece_steps (ls_steps orig) divisions d in
      let division_steps := get_defining_axis_steps steps in
      let v1 := piece_speed S (ls_v0 orig) (ls_v1 orig) total prev_v division_steps in
      let output := {| ls_v0 := prev_v; ls_v1 := v1; ls_aux := ls_aux orig; ls_steps := steps |} in
      obind (enqueue_internal flip st output division_steps) (fun '(st', ok) =>
        if ok then divide_loop flip orig total divisions n' (d + 1) v1 st' ok
        else Ok (st', ok))
  end.

(** src/motion-queue-motor-operations.cc:263-333 Enqueue *)
Definition mops_enqueue {S : speed_model} {B : backend} (flip : motor -> bool)
    (st : mops B) (seg : linear_segment S) : outcome (mops B * bool) :=
  let defining := get_defining_axis_steps (ls_steps seg) in
  let r :=
    if defining =? 0 then
      obind (shadow_front (mo_shadow st)) (fun prev =>
        let empty := {| ms_state := STATE_FILLED; ms_direction_bits := 0;
                        ms_loops_accel := 0; ms_loops_travel := 0; ms_loops_decel := 0;
                        ms_aux := ls_aux seg; ms_accel_series_index := 0;
                        ms_hires_accel_cycles := 0; ms_travel_delay_cycles := 0;
                        ms_fractions := fun _ => 0 |} in
        let '(b', ok) := b_enqueue B (mo_backend st) empty in
        Ok ({| mo_shadow := {| h_pos := h_pos prev; h_aux := ls_aux seg |} :: mo_shadow st;
               mo_backend := b';
               mo_sent := mo_sent st ++ [(empty, ok)] |}, ok))
    else if MAX_STEPS_PER_SEGMENT <? defining then
      let divisions := divisions_of defining in
      divide_loop flip seg defining divisions (Z.to_nat divisions) 0 (ls_v0 seg) st false
    else
      enqueue_internal flip st seg defining in
  obind r (fun '(st', ok) => Ok (shrink st', ok)).

(** src/motion-queue-motor-operations.cc:237-253 SetExternalPosition *)
Definition mops_set_external_position {B : backend} (st : mops B) (m : motor) (steps : Z)
    : outcome (mops B) :=
  obind (shadow_front (mo_shadow st)) (fun prev =>
    let h := {| h_pos := fun m' =>
                  if motor_eqb m' m then
                    {| pi_position := steps;
                       pi_fraction := pi_fraction (h_pos prev m);
                       pi_sign := if steps <? 0 then -1 else 1 |}
                  else h_pos prev m';
                h_aux := h_aux prev |} in
    Ok (shrink {| mo_shadow := h :: mo_shadow st; mo_backend := mo_backend st;
                  mo_sent := mo_sent st |})).

(** std::deque::back() *)
Definition shadow_back (q : list history) : outcome history :=
  match q with [] => Undefined | h :: t => Ok (last t h) end.

(** src/motion-queue-motor-operations.cc:225-231: position of one motor, [loops]
    loops before the end of the segment described by [pi] (uint64 arithmetic). *)
Definition reported_position (pi : pos_info) (loops : Z) : Z :=
  let steps := u64 (u64 (loops / LOOPS_PER_STEP * pi_fraction pi) + (max_fraction - 1)) / max_fraction in
  pi_position pi - pi_sign pi * steps.

(** src/motion-queue-motor-operations.cc:211-235 GetPhysicalStatus *)
Definition mops_get_physical_status {B : backend} (st : mops B)
    : outcome (mops B * (mreg * Z)) :=
  let loops := snd (b_pending B (mo_backend st)) in
  let st' := shrink st in
  obind (shadow_back (mo_shadow st')) (fun hs =>
    Ok (st', ((fun m => reported_position (h_pos hs m) loops), h_aux hs))).
