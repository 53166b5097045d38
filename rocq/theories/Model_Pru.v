(** Model of the realtime firmware: src/motor-interface-pru.p and src/idiv.hp.
    Registers are 32 bit; [u32] is applied to every ALU result. *)
From Verif Require Import Base Model_MotorOps.

(** src/idiv.hp:90-99 _idiv_division_step: (hi || lo) shifted left by one with
    carry from lo into hi, then conditional subtract.
    [adc] loses the carry out of [hi] as the hardware register does.
    [qblt SKIP_SUB, d, hi] branches if hi < d. *)
Definition idiv_step (d : Z) (hl : Z * Z) : Z * Z :=
  let '(hi, lo) := hl in
  let carry := (lo + lo) / 2 ^ 32 in
  let lo1 := u32 (lo + lo) in
  let hi1 := u32 (hi + hi + carry) in
  if hi1 <? d then (hi1, lo1) else (u32 (hi1 - d), Z.lor lo1 1).

(** src/idiv.hp:42-84 idiv_macro: 32 unrolled steps, remainder starts at 0.
    Result: (remainder, quotient). *)
Definition idiv (dividend divisor : Z) : Z * Z :=
  Nat.iter 32 (idiv_step divisor) (0, dividend).

(** src/motor-interface-pru.p:35-61 TravelParameters (the part CalculateDelay
    changes) and register r3, the remainder carried between divisions (99-101, 219). *)
Record travel := {
  t_accel : Z; t_travel : Z; t_decel : Z;
  t_series : Z; t_hires : Z; t_travel_delay : Z;
  t_rem : Z
}.

(** src/idiv.hp:33 *)
Definition IDIV_CYCLES : Z := 129.
(** src/motor-interface-constants.h:39 *)
Definition DELAY_CYCLE_SHIFT : Z := 5.

(** src/motor-interface-pru.p:97-169 CalculateDelay: (delay register, new state).
    Delay 0 is the special value "all steps consumed". *)
Definition calculate_delay (t : travel) : Z * travel :=
  if negb (t_accel t =? 0) then
    let '(rem, hires) :=
      if t_series t =? 0 then (t_rem t, t_hires t)
      else
        let dividend := u32 (u32 (2 * t_hires t) + t_rem t) in
        let divisor := u32 (u32 (4 * t_series t) + 1) in
        let '(r, q) := idiv dividend divisor in
        (r, u32 (t_hires t - q)) in
    (u32 (hires / 2 ^ DELAY_CYCLE_SHIFT - (IDIV_CYCLES + 9) / 2),
     {| t_accel := u16 (t_accel t - 1); t_travel := t_travel t; t_decel := t_decel t;
        t_series := u32 (t_series t + 1); t_hires := hires;
        t_travel_delay := t_travel_delay t; t_rem := rem |})
  else if negb (t_travel t =? 0) then
    (u32 (t_travel_delay t - 4 / 2),
     {| t_accel := t_accel t; t_travel := u16 (t_travel t - 1); t_decel := t_decel t;
        t_series := t_series t; t_hires := t_hires t;
        t_travel_delay := t_travel_delay t; t_rem := t_rem t |})
  else if t_decel t =? 0 then (0, t)
  else
    let dividend := u32 (u32 (2 * t_hires t) + t_rem t) in
    let divisor := u32 (u32 (4 * t_series t) - 1) in
    let '(r, q) := idiv dividend divisor in
    let hires := u32 (t_hires t + q) in
    (u32 (hires / 2 ^ DELAY_CYCLE_SHIFT - (IDIV_CYCLES + 11) / 2),
     {| t_accel := t_accel t; t_travel := t_travel t; t_decel := u16 (t_decel t - 1);
        t_series := u32 (t_series t - 1); t_hires := hires;
        t_travel_delay := t_travel_delay t; t_rem := r |}).

(** src/motor-interface-pru.p:82-92 SetSteps (pru-generic-io-routines.hp:83-92):
    the step pin of a motor shows bit 31 of its state register. *)
Definition step_pins (mstate : mreg) : motor -> bool :=
  fun m => Z.testbit (mstate m) 31.

(** One pass through STEP_GEN that did not end the segment, or its end. *)
Record pru_loop := {
  pl_pins : motor -> bool;      (* step pins set in this pass *)
  pl_counter : Z;               (* loop counter pushed to DRAM (173-180) *)
  pl_delay : Z                  (* passes of the busy loop STEP_DELAY (277-279) *)
}.

(** src/motor-interface-pru.p:243-281: loop STEP_GEN without emergency stop.
    [r28] is the 24 bit loop counter of the status word. The result is the list of passes;
    the last element is the final pass (its delay is 0 and the counter unchanged).
    [None]: fuel exhausted. *)
Fixpoint step_gen (fuel : nat) (fractions : mreg) (mstate : mreg) (t : travel) (counter : Z)
    : option (list pru_loop) :=
  match fuel with
  | O => None
  | S fuel' =>
      let mstate' := fun m => u32 (mstate m + fractions m) in
      let pins := step_pins mstate' in
      let '(delay, t') := calculate_delay t in
      if delay =? 0 then
        Some [{| pl_pins := pins; pl_counter := counter; pl_delay := 0 |}]
      else
        let counter' := counter - 1 in
        let r1 := u32 (delay - 4 / 2) in
        (* STEP_DELAY: decrement first, loop until zero *)
        let busy := if r1 =? 0 then 2 ^ 32 else r1 in
        match step_gen fuel' fractions mstate' t' counter' with
        | None => None
        | Some rest =>
            Some ({| pl_pins := pins; pl_counter := counter'; pl_delay := busy |} :: rest)
        end
  end.

(** src/motor-interface-pru.p:209-241: load the travel parameters, clear the motor
    state and the remainder register. *)
Definition travel_of (s : motion_segment) : travel :=
  {| t_accel := ms_loops_accel s; t_travel := ms_loops_travel s; t_decel := ms_loops_decel s;
     t_series := ms_accel_series_index s; t_hires := ms_hires_accel_cycles s;
     t_travel_delay := ms_travel_delay_cycles s; t_rem := 0 |}.

Definition total_loops (s : motion_segment) : Z :=
  ms_loops_accel s + ms_loops_travel s + ms_loops_decel s.

(** src/motor-interface-pru.p:192-285: execution of one filled slot. *)
Definition pru_execute (s : motion_segment) : option (list pru_loop) :=
  step_gen (Z.to_nat (total_loops s + 1)) (ms_fractions s) (fun _ => 0) (travel_of s) (total_loops s).

(** What a stepper driver sees: number of low-to-high transitions of a pin that
    is at level [level] before the list of levels. *)
Fixpoint rising_edges (level : bool) (l : list bool) : Z :=
  match l with
  | [] => 0
  | b :: t => (if negb level && b then 1 else 0) + rising_edges b t
  end.

(** Level of the direction pin of motor [m] (SetDirections,
    pru-generic-io-routines.hp:71-80). *)
Definition dir_pin (s : motion_segment) (m : motor) : bool :=
  Z.testbit (ms_direction_bits s) (motor_ix m).

(** Signed steps a motor makes during one segment, given the level of its step
    pin before the segment: forward when the direction pin is low. *)
Definition pru_signed_steps (level : bool) (s : motion_segment) (m : motor) : option Z :=
  match pru_execute s with
  | None => None
  | Some ls =>
      let n := rising_edges level (map (fun l => pl_pins l m) ls) in
      Some (if dir_pin s m then - n else n)
  end.
