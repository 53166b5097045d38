(** Model of src/spindle-control.cc: the PWM spindle and the serial ("Pololu SMC")
    spindle; and of src/pwm-timer.cc with HardwareMapping::SetPWMOutput. Delays and
    log messages are not modelled. *)
From Coq Require Import SpecFloat.
From Verif Require Import Base Model_Float.

(** What a spindle does to the outside, in order: the power output, the direction
    output, the PWM value, bytes sent to the serial controller. *)
Inductive sp_event :=
| SpPower (on : bool)
| SpDir (ccw : bool)
| SpPwm (duty : fl)
| SpSend (bytes : list Z).

(** spindle-control.h:29-43, the fields used *)
Record sp_cfg := mk_spc { spc_max_rpm : Z; spc_allow_ccw : bool }.

(** spindle-control.cc:132-134 *)
Record spindle := mk_sp { sp_off : bool; sp_ccw : bool; sp_duty : fl }.
Definition sp_init : spindle := mk_sp true false (S754_zero false).

(** spindle-control.cc:54: the float nearest to 0.1 *)
Definition ramp_epsilon : fl := f32_of_f64 (f64_div (f64_of_Z 1) (f64_of_Z 10)).

(** spindle-control.cc:217-227 ramp_down. [Undefined] if it is not done after [fuel]
    rounds. *)
Fixpoint ramp_down (fuel : nat) (duty : fl) : outcome (fl * list sp_event) :=
  match fuel with
  | O => Undefined
  | S f =>
      if SFltb (f32_of_Z 0) duty then
        let duty := if SFleb ramp_epsilon duty then f32_sub duty ramp_epsilon else f32_of_Z 0 in
        obind (ramp_down f duty) (fun '(d, ev) => Ok (d, SpPwm duty :: ev))
      else Ok (duty, [])
  end.

(** spindle-control.cc:186-195, the loop *)
Fixpoint ramp_to (fuel : nat) (epsilon target duty : fl) : outcome (fl * list sp_event) :=
  match fuel with
  | O => Undefined
  | S f =>
      if SFeqb duty target then Ok (duty, [])
      else
        let duty := f32_add duty epsilon in
        let duty :=
          if (SFltb epsilon (f32_of_Z 0) && SFltb duty target) || (SFltb (f32_of_Z 0) epsilon && SFltb target duty)
          then target else duty in
        obind (ramp_to f epsilon target duty) (fun '(d, ev) => Ok (d, SpPwm duty :: ev))
  end.

(** std::min(a, b) *)
Definition fl_min (a b : fl) : fl := if SFltb b a then b else a.
Definition fl_max (a b : fl) : fl := if SFltb a b then b else a.

(** Rounds after which a ramp is considered not to end. *)
Definition ramp_fuel : nat := 100.

(** spindle-control.cc:164-206 PWMSpindle::On *)
Definition sp_on (c : sp_cfg) (s : spindle) (ccw : bool) (rpm : Z) : outcome (spindle * list sp_event) :=
  if negb (spc_allow_ccw c) && ccw then Ok (s, [])
  else
    let ev1 := if sp_off s then [SpPower true] else [] in
    obind (if Bool.eqb ccw (sp_ccw s) then Ok (sp_duty s, []) else ramp_down ramp_fuel (sp_duty s)) (fun '(duty, ev2) =>
    let target := fl_min (f32_div (f32_of_Z rpm) (f32_of_Z (spc_max_rpm c))) (f32_of_Z 1) in
    let epsilon := if SFltb duty target then ramp_epsilon else SFopp ramp_epsilon in
    obind (ramp_to ramp_fuel epsilon target duty) (fun '(duty, ev3) =>
    Ok (mk_sp false ccw duty, ev1 ++ ev2 ++ [SpDir ccw] ++ ev3))).

(** spindle-control.cc:208-214 PWMSpindle::Off *)
Definition sp_turn_off (s : spindle) : outcome (spindle * list sp_event) :=
  obind (ramp_down ramp_fuel (sp_duty s)) (fun '(duty, ev) => Ok (mk_sp true (sp_ccw s) duty, ev ++ [SpPower false])).

Inductive sp_call := CallOn (ccw : bool) (rpm : Z) | CallOff.
Definition sp_step (c : sp_cfg) (s : spindle) (call : sp_call) : outcome (spindle * list sp_event) :=
  match call with CallOn ccw rpm => sp_on c s ccw rpm | CallOff => sp_turn_off s end.
Fixpoint sp_run (c : sp_cfg) (s : spindle) (calls : list sp_call) : outcome (spindle * list sp_event) :=
  match calls with
  | [] => Ok (s, [])
  | x :: r => obind (sp_step c s x) (fun '(s, ev) => obind (sp_run c s r) (fun '(s, ev') => Ok (s, ev ++ ev')))
  end.

(** ** The serial spindle *)
(** spindle-control.cc:236-334, the constants used *)
Definition CMD_EXIT_SAFE_START := 131.
Definition CMD_MOTOR_FORWARD := 133.
Definition CMD_MOTOR_REVERSE := 134.
Definition CMD_GET_VARIABLE := 161.
Definition CMD_STOP_MOTOR := 224.
Definition ERRORS_OCCURED := 1.
Definition SMC_SPEED := 21.
Definition SMC_MAX_SPEED := 3200.

(** What the controller answers to each request for a variable: two bytes. A read
    that fails leaves arbitrary bytes, so every pair is possible. *)
Definition answers := list (Z * Z).

(** spindle-control.cc:524-531 get_variable; [None] if there are no more answers
    (the caller is still waiting) *)
Definition get_variable (id : Z) (a : answers) : option (Z * answers * list sp_event) :=
  match a with
  | [] => None
  | (lo, hi) :: r => Some (lo + 256 * hi, r, [SpSend [CMD_GET_VARIABLE; id]])
  end.

(** static_cast<int16_t> *)
Definition int16 (z : Z) : Z := let m := z mod 2 ^ 16 in if m <? 2 ^ 15 then m else m - 2 ^ 16.

(** spindle-control.cc:415-419 and 437-441: ask for the speed until it is as wanted.
    [None]: still asking when the answers are used up. *)
Fixpoint wait_speed (done : Z -> bool) (a : answers) : option (answers * list sp_event) :=
  match a with
  | [] => None
  | (lo, hi) :: r =>
      let ask := SpSend [CMD_GET_VARIABLE; SMC_SPEED] in
      if done (int16 (lo + 256 * hi)) then Some (r, [ask])
      else match wait_speed done r with None => None | Some (r, ev) => Some (r, ask :: ev) end
  end.

(** spindle-control.cc:466-472 set_target_speed *)
Definition target_speed_bytes (ccw : bool) (speed : Z) : list Z :=
  [if ccw then CMD_MOTOR_REVERSE else CMD_MOTOR_FORWARD; Z.land speed 31; Z.land (Z.shiftr speed 5) 127].

(** spindle-control.cc:389-427 PololuSMCSpindle::On with an open port; the product in
    int must not overflow and max_rpm must not be zero. *)
Definition smc_on (c : sp_cfg) (off : bool) (ccw : bool) (rpm : Z) (a : answers)
  : outcome (option (bool * answers * list sp_event)) :=
  if negb (spc_allow_ccw c) && ccw then Ok (Some (off, a, []))
  else
    let start :=
      if off then
        match get_variable ERRORS_OCCURED a with
        | None => None
        | Some (_, a, ev) => Some (a, SpPower true :: ev ++ [SpSend [CMD_EXIT_SAFE_START]])
        end
      else Some (a, []) in
    match start with
    | None => Ok None
    | Some (a, ev1) =>
        if (spc_max_rpm c =? 0) || negb ((- 2 ^ 31 <=? rpm * SMC_MAX_SPEED) && (rpm * SMC_MAX_SPEED <? 2 ^ 31)) then Undefined
        else
          let speed := Z.min (Z.quot (rpm * SMC_MAX_SPEED) (spc_max_rpm c)) SMC_MAX_SPEED in
          let ev2 := [SpSend (target_speed_bytes ccw speed)] in
          if off then
            match wait_speed (fun actual => speed <=? actual) a with
            | None => Ok None
            | Some (a, ev3) => Ok (Some (false, a, ev1 ++ ev2 ++ ev3))
            end
          else Ok (Some (false, a, ev1 ++ ev2))
    end.

(** spindle-control.cc:429-447 PololuSMCSpindle::Off *)
Definition smc_off (a : answers) : option (answers * list sp_event) :=
  match wait_speed (fun speed => speed =? 0) a with
  | None => None
  | Some (a, ev) => Some (a, SpSend [CMD_STOP_MOTOR] :: ev ++ [SpPower false])
  end.

(** ** PWM timers *)
Definition TIMER_OVERFLOW := 4294967295.
Definition TIMER_BASE_CLOCK := 24000000.
Definition TIMER_DEFAULT_FREQ := 16000.

(** pwm-timer.cc:95-105 with the registers of the timer. [None] in a register: not
    written yet. *)
Record pwm := mk_pwm {
  p_tclr : Z; p_tcrr : option Z; p_tldr : option Z; p_tmar : option Z;
  p_freq : Z; p_resolution : Z; p_duty : fl; p_pre : bool; p_ptv : Z; p_running : bool }.

(** pwm-timer.cc:107: static storage *)
Definition pwm_init : pwm := mk_pwm 0 None None None 0 0 (S754_zero false) false 0 false.

(** pwm-timer.cc:127-146 pwm_timer_start: ST, AR, PTV, PRE, CE, TRG_OVF_MAT, PT *)
Definition pwm_start (t : pwm) (start : bool) : pwm :=
  if negb start || (p_freq t =? 0) || SFeqb (p_duty t) (f32_of_Z 0) then
    mk_pwm 0 (p_tcrr t) (p_tldr t) (p_tmar t) (p_freq t) (p_resolution t) (p_duty t) (p_pre t) (p_ptv t) false
  else
    mk_pwm (1 + 2 + 4 * Z.land (p_ptv t) 7 + (if p_pre t then 32 else 0) + 64 + 2048 + 4096)
      (p_tcrr t) (p_tldr t) (p_tmar t) (p_freq t) (p_resolution t) (p_duty t) (p_pre t) (p_ptv t) true.

(** pwm-timer.cc:157-166: the values of start and dc. The conversion to uint32_t is
    undefined outside its range and for NaN. *)
Definition pwm_values (resolution : Z) (duty : fl) : outcome (Z * Z) :=
  let start := u32 (TIMER_OVERFLOW - resolution) in
  match fl_trunc (f64_mul (f64_of_Z resolution) (f64_sub (f64_of_Z 1) (f64_of_f32 duty))) with
  | None => Undefined
  | Some off =>
      if (off <? 0) || (2 ^ 32 <=? off) then Undefined
      else
        let dc := u32 (TIMER_OVERFLOW - off) in
        let start := if u32 (TIMER_OVERFLOW - start) <=? 2 then TIMER_OVERFLOW - 2 else start in
        let dc := if u32 (TIMER_OVERFLOW - dc) <=? 2 then TIMER_OVERFLOW - 2 else dc in
        let start := if u32 (dc - start) <=? 2 then u32 (dc - 2) else start in
        Ok (start, dc)
  end.

(** pwm-timer.cc:148-173 pwm_timer_set_duty *)
Definition pwm_set_duty (t : pwm) (duty : fl) : outcome pwm :=
  if (p_freq t =? 0) || SFltb duty (f32_of_Z 0) || SFltb (f32_of_Z 1) duty then Ok t
  else
    let with_duty (t : pwm) := mk_pwm (p_tclr t) (p_tcrr t) (p_tldr t) (p_tmar t) (p_freq t) (p_resolution t) duty
                       (p_pre t) (p_ptv t) (p_running t) in
    if SFeqb duty (f32_of_Z 0) then Ok (with_duty (pwm_start t false))
    else
      obind (pwm_values (p_resolution t) duty) (fun '(start, dc) =>
      Ok (with_duty (mk_pwm (p_tclr t) (Some start) (Some start) (Some dc) (p_freq t) (p_resolution t) (p_duty t)
                       (p_pre t) (p_ptv t) (p_running t)))).

(** pwm-timer.cc:183-188: the loop; [k] is the number of doublings of the ratio so far.
    The conversion to uint64_t is undefined for negative values. *)
Fixpoint pwm_ratio (fuel : nat) (period : fl) (k : Z) (resolution : Z) : outcome (Z * Z) :=
  match fuel with
  | O => Ok (k, resolution)              (* ratio is 512 after the last round *)
  | S f =>
      let clk_period := f32_of_f64 (f64_mul (f64_div (f64_of_Z 1) (f64_of_Z TIMER_BASE_CLOCK)) (f64_of_Z (2 ^ k))) in
      match fl_trunc (f32_div period clk_period) with
      | None => Undefined
      | Some z =>
          if (z <? 0) || (2 ^ 64 <=? z) then Undefined
          else if z <? TIMER_OVERFLOW then Ok (k, z) else pwm_ratio f period (k + 1) z
      end
  end.

(** pwm-timer.cc:175-208 pwm_timer_calc_resolution *)
Definition pwm_calc_resolution (t : pwm) (freq : Z) : outcome pwm :=
  let period := f32_of_f64 (f64_div (f64_of_Z 1) (f64_of_Z freq)) in
  obind (pwm_ratio 9 period 0 0) (fun '(k, z) =>
  let '(pre, ptv) := if (1 <=? k) && (k <=? 8) then (true, k - 1) else (false, 0) in
  Ok (mk_pwm (p_tclr t) (p_tcrr t) (p_tldr t) (p_tmar t) freq (u32 z) (p_duty t) pre ptv (p_running t))).

(** pwm-timer.cc:210-222 pwm_timer_set_freq *)
Definition pwm_set_freq (t : pwm) (freq : Z) : outcome pwm :=
  let freq := if freq =? 0 then TIMER_DEFAULT_FREQ else freq in
  if TIMER_BASE_CLOCK / 2 <? freq then
    Ok (mk_pwm (p_tclr t) (p_tcrr t) (p_tldr t) (p_tmar t) 0 (p_resolution t) (p_duty t) (p_pre t) (p_ptv t) (p_running t))
  else pwm_calc_resolution t freq.

(** hardware-mapping.cc:262-275 SetPWMOutput on a mapped timer *)
Definition set_pwm_output (t : pwm) (value : fl) : outcome pwm :=
  if SFleb value (f32_of_Z 0) then Ok (pwm_start t false)
  else obind (pwm_set_duty t value) (fun t => Ok (pwm_start t true)).

(** hardware-mapping.cc:164-171 and then any values *)
Definition pwm_setup (freq : Z) : outcome pwm := pwm_set_freq (pwm_start pwm_init false) freq.
Fixpoint pwm_outputs (t : pwm) (values : list fl) : outcome pwm :=
  match values with
  | [] => Ok t
  | v :: r => obind (set_pwm_output t v) (fun t => pwm_outputs t r)
  end.
