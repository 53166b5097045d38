(** Model of src/hardware-mapping.{h,cc}: which connector does what, auxiliary
    outputs, motor enable, switches.

    The connectors present on a cape (the *_GPIO macros of
    hardware/<CAPE>/beagleg-pin-mapping.h) are a parameter. Writes to GPIO pins and
    PWM timers are recorded in a log. Not modelled: opening /dev/mem
    (InitializeHardware 139-170) other than as success or failure; log output. *)
From Verif Require Import Base Text Model_Axis Model_StringUtil.

(** hardware-mapping.h:76-81 *)
Definition NUM_SWITCHES : Z := 9.
Definition NUM_BOOL_OUTPUTS : Z := 16.
Definition NUM_PWM_OUTPUTS : Z := 4.
Definition NUM_MOTORS : Z := 8.

(** hardware-mapping.h:97-115 NamedOutput *)
Inductive output :=
| OutMist | OutFlood | OutVacuum | OutSpindle | OutSpindleSpeed | OutSpindleDirection
| OutCooler | OutCaseLights | OutFan | OutHotend | OutHeatedbed | OutPointer | OutLed
| OutAtxPower | OutEstop.
Definition output_ix (o : output) : Z :=
  match o with
  | OutMist => 0 | OutFlood => 1 | OutVacuum => 2 | OutSpindle => 3 | OutSpindleSpeed => 4
  | OutSpindleDirection => 5 | OutCooler => 6 | OutCaseLights => 7 | OutFan => 8 | OutHotend => 9
  | OutHeatedbed => 10 | OutPointer => 11 | OutLed => 12 | OutAtxPower => 13 | OutEstop => 14
  end.
Definition output_eqb (a b : output) : bool := output_ix a =? output_ix b.

(** motor-interface-constants.h:116 *)
Definition GPIO_NOT_MAPPED : Z := 0.
(** hardware-mapping.cc:612-668: the descriptors; numbers outside the switch give
    GPIO_NOT_MAPPED. *)
Record cape := mk_cape {
  cape_aux : Z -> Z; cape_pwm : Z -> Z; cape_switch : Z -> Z;
  cape_enable : Z;               (* MOTOR_ENABLE_GPIO *)
  cape_enable_high : bool        (* MOTOR_ENABLE_IS_ACTIVE_HIGH *)
}.
Definition aux_gpio (c : cape) (n : Z) : Z := if (1 <=? n) && (n <=? 16) then cape_aux c n else GPIO_NOT_MAPPED.
Definition pwm_gpio (c : cape) (n : Z) : Z := if (1 <=? n) && (n <=? 4) then cape_pwm c n else GPIO_NOT_MAPPED.
Definition switch_gpio (c : cape) (n : Z) : Z := if (1 <=? n) && (n <=? 9) then cape_switch c n else GPIO_NOT_MAPPED.

(** What the outside sees. *)
Inductive hw_event :=
| GpioSet (g : Z) | GpioClr (g : Z)
| PwmStart (g : Z) (on : bool) | PwmFreq (g : Z) | PwmDuty (g : Z).

(** hardware-mapping.h:240-270, the members; function fields are the arrays. *)
Record hw := mk_hw {
  hw_aux_of : output -> Z;       (* output_to_aux_bits_ *)
  hw_pwm_of : output -> Z;       (* output_to_pwm_gpio_ *)
  hw_drivers : axis -> Z;        (* axis_to_driver_ *)
  hw_flip : Z -> Z;              (* driver_flip_ *)
  hw_min : axis -> Z;            (* axis_to_min_endstop_ *)
  hw_max : axis -> Z;            (* axis_to_max_endstop_ *)
  hw_level : Z -> bool;          (* trigger_level_ *)
  hw_estop_in : Z; hw_pause_in : Z; hw_start_in : Z; hw_probe_in : Z;
  hw_estop : bool;               (* estop_state_ *)
  hw_enabled : bool;             (* motors_enabled_ *)
  hw_aux : Z;                    (* aux_bits_ *)
  hw_ready : bool;               (* is_hardware_initialized_ *)
  hw_log : list hw_event
}.

(** hardware-mapping.cc:37-45, container.h:38: everything zero *)
Definition hw_init : hw :=
  mk_hw (fun _ => 0) (fun _ => GPIO_NOT_MAPPED) (fun _ => 0) (fun _ => 0) (fun _ => 0) (fun _ => 0)
        (fun _ => false) 0 0 0 0 false false 0 false [].

Definition set_aux_of (h : hw) o v := mk_hw (fun x => if output_eqb x o then v else hw_aux_of h x)
  (hw_pwm_of h) (hw_drivers h) (hw_flip h) (hw_min h) (hw_max h) (hw_level h) (hw_estop_in h) (hw_pause_in h)
  (hw_start_in h) (hw_probe_in h) (hw_estop h) (hw_enabled h) (hw_aux h) (hw_ready h) (hw_log h).
Definition set_pwm_of (h : hw) o v := mk_hw (hw_aux_of h) (fun x => if output_eqb x o then v else hw_pwm_of h x)
  (hw_drivers h) (hw_flip h) (hw_min h) (hw_max h) (hw_level h) (hw_estop_in h) (hw_pause_in h)
  (hw_start_in h) (hw_probe_in h) (hw_estop h) (hw_enabled h) (hw_aux h) (hw_ready h) (hw_log h).
Definition set_driver (h : hw) a bits m fl := mk_hw (hw_aux_of h) (hw_pwm_of h)
  (set_axis (hw_drivers h) a bits) (fun x => if x =? m then fl else hw_flip h x) (hw_min h) (hw_max h) (hw_level h)
  (hw_estop_in h) (hw_pause_in h) (hw_start_in h) (hw_probe_in h) (hw_estop h) (hw_enabled h) (hw_aux h) (hw_ready h) (hw_log h).
Definition set_switches (h : hw) mn mx lv e p s pr := mk_hw (hw_aux_of h) (hw_pwm_of h) (hw_drivers h) (hw_flip h)
  mn mx lv e p s pr (hw_estop h) (hw_enabled h) (hw_aux h) (hw_ready h) (hw_log h).
Definition set_state (h : hw) es en ax rd lg := mk_hw (hw_aux_of h) (hw_pwm_of h) (hw_drivers h) (hw_flip h)
  (hw_min h) (hw_max h) (hw_level h) (hw_estop_in h) (hw_pause_in h) (hw_start_in h) (hw_probe_in h) es en ax rd lg.

(** hardware-mapping.cc:56-74 AddAuxMapping *)
Definition add_aux_mapping (c : cape) (o : output) (aux : Z) (h : hw) : bool * hw :=
  if aux =? 0 then (true, h)
  else if (aux <? 1) || (NUM_BOOL_OUTPUTS <? aux) then (false, h)
  else if aux_gpio c aux =? GPIO_NOT_MAPPED then (true, h)
  else (true, set_aux_of h o (u16 (Z.lor (hw_aux_of h o) (Z.shiftl 1 (aux - 1))))).
(** hardware-mapping.cc:75-77 *)
Definition has_aux_mapping (h : hw) (o : output) : bool := negb (hw_aux_of h o =? 0).
(** hardware-mapping.cc:102-104 *)
Definition has_pwm_mapping (h : hw) (o : output) : bool := negb (hw_pwm_of h o =? GPIO_NOT_MAPPED).
(** hardware-mapping.cc:79-101 AddPWMMapping *)
Definition add_pwm_mapping (c : cape) (o : output) (pwm : Z) (h : hw) : bool * hw :=
  if pwm =? 0 then (true, h)
  else if (pwm <? 1) || (NUM_PWM_OUTPUTS <? pwm) then (false, h)
  else if has_pwm_mapping h o then (false, h)
  else (true, set_pwm_of h o (pwm_gpio c pwm)).
(** hardware-mapping.cc:106-123 AddMotorMapping *)
Definition add_motor_mapping (a : axis) (motor : Z) (mirrored : bool) (h : hw) : bool * hw :=
  if motor =? 0 then (true, h)
  else if (motor <? 1) || (NUM_MOTORS <? motor) then (false, h)
  else if negb (hw_flip h (motor - 1) =? 0) then (false, h)
  else (true, set_driver h a (u8 (Z.lor (hw_drivers h a) (Z.shiftl 1 (motor - 1)))) (motor - 1)
                         (if mirrored then -1 else 1)).
(** hardware-mapping.cc:125-130 GetFirstFreeMotor; the loop over 0..7 *)
Definition get_first_free_motor (h : hw) : Z :=
  match find (fun m => hw_flip h m =? 0) [0; 1; 2; 3; 4; 5; 6; 7] with Some m => m + 1 | None => 0 end.
(** hardware-mapping.cc:132-134; hardware-mapping.h:155 HasMotorFor *)
Definition is_motor_flipped (h : hw) (m : Z) : bool := hw_flip h m =? -1.
Definition has_motor_for (h : hw) (a : axis) : bool := negb (hw_drivers h a =? 0).

(** hardware-mapping.cc:243-251 SetAuxOutputs *)
Definition set_aux_outputs (c : cape) (h : hw) : hw :=
  if negb (hw_ready h) then h
  else set_state h (hw_estop h) (hw_enabled h) (hw_aux h) (hw_ready h)
    (hw_log h ++ map (fun i => if Z.testbit (hw_aux h) i then GpioSet (aux_gpio c (i + 1)) else GpioClr (aux_gpio c (i + 1)))
                     [0; 1; 2; 3; 4; 5; 6; 7; 8; 9; 10; 11; 12; 13; 14; 15]).
(** hardware-mapping.cc:206-220 EnableMotors *)
Definition enable_motors (c : cape) (on : bool) (h : hw) : hw :=
  if negb (hw_ready h) then h
  else
    let on := if on && hw_estop h then false else on in
    set_state h (hw_estop h) on (hw_aux h) (hw_ready h)
      (hw_log h ++ [if xorb on (cape_enable_high c) then GpioClr (cape_enable c) else GpioSet (cape_enable c)]).
(** hardware-mapping.cc:196-204 ResetHardware *)
Definition reset_hardware (c : cape) (h : hw) : hw :=
  if negb (hw_ready h) then h
  else
    let h := set_state h (hw_estop h) (hw_enabled h) 0 (hw_ready h) (hw_log h) in
    let h := set_aux_outputs c h in
    let h := enable_motors c false h in
    set_state h (hw_estop h) (hw_enabled h) (hw_aux h) (hw_ready h)
      (hw_log h ++ map (fun i => PwmStart (pwm_gpio c (i + 1)) false) [0; 1; 2; 3]).
(** hardware-mapping.cc:222-224 GetAuxBits, GetAuxBit *)
Definition get_aux_bit (h : hw) (pin : Z) : bool := Z.testbit (hw_aux h) (pin - 1).
(** hardware-mapping.cc:226-231 UpdateAuxBits *)
Definition update_aux_bits (pin : Z) (on : bool) (h : hw) : hw :=
  set_state h (hw_estop h) (hw_enabled h)
    (if on then u16 (Z.lor (hw_aux h) (Z.shiftl 1 (pin - 1))) else u16 (Z.land (hw_aux h) (Z.lnot (Z.shiftl 1 (pin - 1)))))
    (hw_ready h) (hw_log h).
(** hardware-mapping.cc:233-241 UpdateAuxBitmap *)
Definition update_aux_bitmap (o : output) (on : bool) (h : hw) : hw :=
  set_state h (if output_eqb o OutEstop then on else hw_estop h) (hw_enabled h)
    (if on then u16 (Z.lor (hw_aux h) (hw_aux_of h o)) else u16 (Z.land (hw_aux h) (Z.lnot (hw_aux_of h o))))
    (hw_ready h) (hw_log h).
(** hardware-mapping.cc:253-256 AuxOutputsOff *)
Definition aux_outputs_off (c : cape) (h : hw) : hw :=
  set_aux_outputs c (set_state h (hw_estop h) (hw_enabled h) 0 (hw_ready h) (hw_log h)).
(** hardware-mapping.cc:262-274 SetPWMOutput; [positive] is value > 0.0 *)
Definition set_pwm_output (o : output) (positive : bool) (h : hw) : hw :=
  if negb (hw_ready h) then h
  else set_state h (hw_estop h) (hw_enabled h) (hw_aux h) (hw_ready h)
    (hw_log h ++ if positive then [PwmDuty (hw_pwm_of h o); PwmStart (hw_pwm_of h o) true]
                 else [PwmStart (hw_pwm_of h o) false]).

(** hardware-mapping.cc:290-298 AssignMotorSteps *)
Definition assign_motor_steps (h : hw) (a : axis) (steps : Z) (out : mreg) : mreg :=
  fun m => if Z.testbit (hw_drivers h a) (motor_ix m) then steps else out m.
(** hardware-mapping.cc:300-313 GetAxisSteps: the loop, [fuel] = motors left *)
Fixpoint axis_motor (mask : Z) (motors : list motor) : option motor :=
  match motors with
  | [] => None
  | m :: r => if Z.testbit mask 0 then Some m else axis_motor (Z.shiftr mask 1) r
  end.
Definition get_axis_steps (h : hw) (a : axis) (pos : mreg) : Z :=
  match axis_motor (hw_drivers h a) all_motors with Some m => pos m | None => 0 end.

(** hardware-mapping.cc:330-345: the debounce loop over the readings of the pin;
    the result and the number of readings used, [None] if the readings end first. *)
Fixpoint debounce (state : bool) (n : nat) (readings : list bool) : option bool :=
  match readings with
  | [] => None
  | r :: rest =>
      if Bool.eqb r state then
        match n with
        | O => debounce state 1 rest
        | _ => Some state
        end
      else debounce r 0 rest
  end.
(** hardware-mapping.cc:327-345 TestSwitch; [None]: still reading. *)
Definition test_switch (c : cape) (h : hw) (sw : Z) (default : bool) (readings : list bool) : option bool :=
  if negb (hw_ready h) then Some default
  else if switch_gpio c sw =? GPIO_NOT_MAPPED then Some default
  else match readings with
       | [] => None
       | r :: rest => match debounce r 0 rest with
                      | Some s => Some (Bool.eqb s (hw_level h (sw - 1)))
                      | None => None
                      end
       end.
(** hardware-mapping.cc:315-325 AvailableAxisSwitch: (min, max) *)
Definition available_axis_switch (h : hw) (a : axis) : bool * bool :=
  if negb (hw_ready h) then (true, true) else (negb (hw_min h a =? 0), negb (hw_max h a =? 0)).

(** hardware-mapping.cc:136-194 InitializeHardware; [mapped] tells if geteuid,
    map_gpio and pwm_timers_map succeed. The final check of the switches
    (178-191) only decides the result. *)
Definition initialize_hardware (c : cape) (mapped : bool) (h : hw) : hw :=
  let h := set_state h true (hw_enabled h) (hw_aux h) (hw_ready h) (hw_log h) in
  if negb mapped then h
  else
    let h := set_state h (hw_estop h) (hw_enabled h) (hw_aux h) true
      (hw_log h ++ map (fun i => PwmStart (cape_pwm c i) false) [1; 2; 3; 4] ++ map (fun i => PwmFreq (cape_pwm c i)) [1; 2; 3; 4]) in
    reset_hardware c h.

(** ** Reading the configuration: hardware-mapping.cc:373-554 *)
Definition text_eqb (a b : text) : bool :=
  (Nat.eqb (length a) (length b)) && forallb (fun p => Ascii.eqb (fst p) (snd p)) (combine a b).

(** hardware-mapping.cc:587-609 NameToOutput *)
Definition name_to_output (s : text) : option output :=
  let n := to_lower_text s in
  let is (x : text) := text_eqb n x in
  if is (txt "mist") then Some OutMist else if is (txt "flood") then Some OutFlood
  else if is (txt "vacuum") then Some OutVacuum
  else if is (txt "spindle") || is (txt "spindle-on") then Some OutSpindle
  else if is (txt "spindle-speed") || is (txt "spindle-pwm") then Some OutSpindleSpeed
  else if is (txt "spindle-dir") then Some OutSpindleDirection
  else if is (txt "cooler") then Some OutCooler else if is (txt "case-lights") then Some OutCaseLights
  else if is (txt "fan") then Some OutFan else if is (txt "hotend") then Some OutHotend
  else if is (txt "heatedbed") then Some OutHeatedbed else if is (txt "pointer") then Some OutPointer
  else if is (txt "led") then Some OutLed else if is (txt "atx-power") then Some OutAtxPower
  else if is (txt "estop") then Some OutEstop else None.

(** hardware-mapping.cc:427-447 SetAuxMapping *)
Definition set_aux_mapping (c : cape) (aux : Z) (value : text) (h : hw) : bool * hw :=
  match name_to_output value with
  | None => (false, h)
  | Some o =>
      if output_eqb o OutHotend || output_eqb o OutHeatedbed then (false, h)
      else if (aux =? 16) && negb (output_eqb o OutLed) then (false, h)
      else if output_eqb o OutLed && negb (aux =? 16) then (false, h)
      else add_aux_mapping c o aux h
  end.
(** hardware-mapping.cc:449-459 SetPwmMapping *)
Definition set_pwm_mapping (c : cape) (pwm : Z) (value : text) (h : hw) : bool * hw :=
  match name_to_output value with Some o => add_pwm_mapping c o pwm h | None => (false, h) end.

Definition separators : text := [" "; "009"; ","]%char.
(** hardware-mapping.cc:461-491 SetMotorAxis; every option either returns or is
    an error, so only the first one counts *)
Definition set_motor_axis (motor : Z) (value : text) (h : hw) : bool * hw :=
  match split_string value separators with
  | [] => (true, h)
  | o :: _ =>
      let option := to_lower_text o in
      if has_prefix option (txt "axis:") then
        let ax := skipn 5 option in
        match ax with
        | [] => (false, h)
        | d :: r =>
            let '(mirrored, ax) := if Ascii.eqb d "-" then (true, r) else (false, ax) in
            match ax with
            | [] => (false, h)
            | letter :: _ =>
                match letter_axis letter with
                | None => (false, h)
                | Some a => add_motor_mapping a motor mirrored h
                end
            end
        end
      else (false, h)
  end.
(** hardware-mapping.cc:493-549 SetSwitchOptions: one option *)
Definition set_switch_option (c : cape) (sw : Z) (opt : text) (h : hw) : bool * hw :=
  let o := to_lower_text opt in
  let is (x : text) := text_eqb o x in
  let keep mn mx lv e p s pr := (true, set_switches h mn mx lv e p s pr) in
  match o with
  | [] => (true, h)
  | _ =>
    if is (txt "e-stop") then keep (hw_min h) (hw_max h) (hw_level h) sw (hw_pause_in h) (hw_start_in h) (hw_probe_in h)
    else if is (txt "pause") then keep (hw_min h) (hw_max h) (hw_level h) (hw_estop_in h) sw (hw_start_in h) (hw_probe_in h)
    else if is (txt "start") then keep (hw_min h) (hw_max h) (hw_level h) (hw_estop_in h) (hw_pause_in h) sw (hw_probe_in h)
    else if is (txt "probe") then keep (hw_min h) (hw_max h) (hw_level h) (hw_estop_in h) (hw_pause_in h) (hw_start_in h) sw
    else if Nat.eqb (length o) 5 then
      match letter_axis (nth 4 o NUL) with
      | None => (false, h)
      | Some a =>
          if switch_gpio c sw =? GPIO_NOT_MAPPED then (false, h)
          else if has_prefix o (txt "min_") then
            keep (set_axis (hw_min h) a sw) (hw_max h) (hw_level h) (hw_estop_in h) (hw_pause_in h) (hw_start_in h) (hw_probe_in h)
          else if has_prefix o (txt "max_") then
            keep (hw_min h) (set_axis (hw_max h) a sw) (hw_level h) (hw_estop_in h) (hw_pause_in h) (hw_start_in h) (hw_probe_in h)
          else (false, h)
      end
    else if is (txt "active:low") then
      keep (hw_min h) (hw_max h) (fun x => if x =? sw - 1 then false else hw_level h x) (hw_estop_in h) (hw_pause_in h) (hw_start_in h) (hw_probe_in h)
    else if is (txt "active:high") then
      keep (hw_min h) (hw_max h) (fun x => if x =? sw - 1 then true else hw_level h x) (hw_estop_in h) (hw_pause_in h) (hw_start_in h) (hw_probe_in h)
    else (false, h)
  end.
Fixpoint set_switch_options (c : cape) (sw : Z) (opts : list text) (h : hw) : bool * hw :=
  match opts with
  | [] => (true, h)
  | o :: r => let '(ok, h) := set_switch_option c sw o h in if ok then set_switch_options c sw r h else (false, h)
  end.

(** StringPrintf("<prefix>%d", i) for the numbers that occur *)
Definition digit_char (n : Z) : ascii := ascii_of_nat (Z.to_nat (48 + n)).
Definition numbered (prefix : text) (i : Z) : text :=
  prefix ++ (if i <? 10 then [digit_char i] else [digit_char (i / 10); digit_char (i mod 10)]).
Fixpoint number_of (prefix name : text) (from : list Z) : option Z :=
  match from with
  | [] => None
  | i :: r => if text_eqb name (numbered prefix i) then Some i else number_of prefix name r
  end.
Definition upto (n : nat) : list Z := map (fun k => Z.of_nat k + 1) (seq 0 n).

(** hardware-mapping.cc:377-384 SeenSection *)
Definition hw_section (s : text) : bool :=
  text_eqb s (txt "aux-mapping") || text_eqb s (txt "pwm-mapping") ||
  text_eqb s (txt "switch-mapping") || text_eqb s (txt "motor-mapping").
(** hardware-mapping.cc:386-422 SeenNameValue *)
Definition hw_name_value (c : cape) (section name value : text) (h : hw) : bool * hw :=
  if text_eqb section (txt "aux-mapping") then
    match number_of (txt "aux_") name (upto 16) with Some i => set_aux_mapping c i value h | None => (false, h) end
  else if text_eqb section (txt "pwm-mapping") then
    match number_of (txt "pwm_") name (upto 4) with Some i => set_pwm_mapping c i value h | None => (false, h) end
  else if text_eqb section (txt "motor-mapping") then
    match number_of (txt "motor_") name (upto 8) with Some i => set_motor_axis i value h | None => (false, h) end
  else if text_eqb section (txt "switch-mapping") then
    match number_of (txt "switch_") name (upto 9) with
    | Some i => set_switch_options c i (split_string value separators) h
    | None => (false, h)
    end
  else (false, h).

(** ** Histories of calls *)
Inductive hw_op :=
| HwAddAux (o : output) (aux : Z)
| HwAddPwm (o : output) (pwm : Z)
| HwAddMotor (a : axis) (motor : Z) (mirrored : bool)
| HwConfig (section name value : text)
| HwInit (mapped : bool)
| HwEnableMotors (on : bool)
| HwUpdateAux (pin : Z) (on : bool)
| HwUpdateOutput (o : output) (on : bool)
| HwSetAux
| HwAuxOff
| HwPwm (o : output) (positive : bool).
Definition hw_step (c : cape) (h : hw) (op : hw_op) : hw :=
  match op with
  | HwAddAux o n => snd (add_aux_mapping c o n h)
  | HwAddPwm o n => snd (add_pwm_mapping c o n h)
  | HwAddMotor a m f => snd (add_motor_mapping a m f h)
  | HwConfig s n v => snd (hw_name_value c s n v h)
  | HwInit m => initialize_hardware c m h
  | HwEnableMotors on => enable_motors c on h
  | HwUpdateAux pin on => update_aux_bits pin on h
  | HwUpdateOutput o on => update_aux_bitmap o on h
  | HwSetAux => set_aux_outputs c h
  | HwAuxOff => aux_outputs_off c h
  | HwPwm o p => set_pwm_output o p h
  end.
Definition hw_run (c : cape) (ops : list hw_op) : hw := fold_left (hw_step c) ops hw_init.
