(** Model of src/sim-firmware.cc: the simulated firmware (without its printed
    output and times, which are floating point and only informational). *)
From Verif Require Import Base Model_MotorOps Model_Pru.

(** src/sim-firmware.cc:235-306: advance the segment fields; [None] is the
    [break] in line 305; the number is delay_loops. C++ / and % on uint32_t. *)
Definition sim_advance (t : travel) : option (Z * travel) :=
  if 0 <? t_accel t then
    let '(rem, hires) :=
      if t_series t =? 0 then (t_rem t, t_hires t)
      else
        let divident := u32 (u32 (Z.shiftl (t_hires t) 1) + t_rem t) in
        let divisor := u32 (u32 (Z.shiftl (t_series t) 2) + 1) in
        (divident mod divisor, u32 (t_hires t - divident / divisor)) in
    Some (Z.shiftr hires DELAY_CYCLE_SHIFT,
     {| t_accel := u16 (t_accel t - 1); t_travel := t_travel t; t_decel := t_decel t;
        t_series := u32 (t_series t + 1); t_hires := hires;
        t_travel_delay := t_travel_delay t; t_rem := rem |})
  else if 0 <? t_travel t then
    Some (t_travel_delay t,
     {| t_accel := t_accel t; t_travel := u16 (t_travel t - 1); t_decel := t_decel t;
        t_series := t_series t; t_hires := t_hires t;
        t_travel_delay := t_travel_delay t; t_rem := t_rem t |})
  else if 0 <? t_decel t then
    let divident := u32 (u32 (Z.shiftl (t_hires t) 1) + t_rem t) in
    let divisor := u32 (u32 (Z.shiftl (t_series t) 2) - 1) in
    let hires := u32 (t_hires t + divident / divisor) in
    Some (Z.shiftr hires DELAY_CYCLE_SHIFT,
     {| t_accel := t_accel t; t_travel := t_travel t; t_decel := u16 (t_decel t - 1);
        t_series := u32 (t_series t - 1); t_hires := hires;
        t_travel_delay := t_travel_delay t; t_rem := divident mod divisor |})
  else None.

(** src/sim-firmware.cc:187-198 and 235-322: the loop. [steps] is sim_steps, [m]
    the motor state. [None]: fuel exhausted. *)
Fixpoint sim_loop (fuel : nat) (s : motion_segment) (state : mreg) (steps : mreg) (t : travel)
    : option mreg :=
  match fuel with
  | O => None
  | S fuel' =>
      let state' := fun i => u32 (state i + ms_fractions s i) in
      let steps' := fun i =>
        let before := negb (Z.land (state i) 2147483648 =? 0) in
        let after := negb (Z.land (state' i) 2147483648 =? 0) in
        if negb before && after then
          steps i + (if negb (Z.land (Z.shiftl 1 (motor_ix i)) (ms_direction_bits s) =? 0) then -1 else 1)
        else steps i in
      match sim_advance t with
      | None => Some steps'
      | Some (_, t') => sim_loop fuel' s state' steps' t'
      end
  end.

(** src/sim-firmware.cc:165-324 SimFirmwareQueue::Enqueue on sim_steps. *)
Definition sim_enqueue (s : motion_segment) (steps : mreg) : option mreg :=
  if ms_state s =? STATE_EXIT then Some steps
  else sim_loop (Z.to_nat (total_loops s + 1)) s (fun _ => 0) steps (travel_of s).
