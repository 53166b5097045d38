(** Specification of the machine commands: what the documentation (G-code.md) says a
    command does, as a list of requests to planner, motors, spindle and outputs. *)
From Verif Require Import Base Text Model_Axis Model_Float Model_Hardware Model_Machine Spec_Machine.

(** The log [new] consists of exactly the requests [acts], in this order, and
    questions to the environment. Bringing the path to a halt switches the motors on
    if there was something left to send. *)
Inductive does : list event -> list action -> Prop :=
| does_nothing : does [] []
| does_ask q z l acts : q <> QFlush -> does l acts -> does (Ask q z :: l) acts
| does_act a l acts : a <> DoHalt -> does l acts -> does (Did a :: l) (a :: acts)
| does_halt n l acts : does l acts ->
    does (Did DoHalt :: Ask QFlush n :: (if 0 <? n then [Did (DoHw (HwEnableMotors true))] else []) ++ l) (DoHalt :: acts).

(** ** The words after a command *)
(** The words up to the first with another letter. *)
Fixpoint leading (ls : list ascii) (ps : pairs) : pairs :=
  match ps with
  | (ch, v) :: r => if existsb (Ascii.eqb ch) ls then (ch, v) :: leading ls r else []
  | [] => []
  end.
(** The value of the last word with a letter. *)
Fixpoint last_of (l : ascii) (ps : pairs) : option fl :=
  match ps with
  | (ch, v) :: r => match last_of l r with Some w => Some w | None => if Ascii.eqb ch l then Some v else None end
  | [] => None
  end.
(** ... rounded to an integer; [default] without such a word *)
Definition number_of (l : ascii) (ps : pairs) (default : Z) : Z :=
  match last_of l ps with Some v => match fl_round v with Some z => z | None => default end | None => default end.
(** Values that fit in an int, rounded or truncated. *)
Definition int_value (v : fl) : Prop :=
  (exists z, fl_round v = Some z /\ - 2 ^ 31 <= z <= 2 ^ 31 - 1) /\ (exists z, fl_trunc v = Some z /\ - 2 ^ 31 <= z <= 2 ^ 31 - 1).
Definition readable (e : call) : Prop := match e with MCode _ ps => Forall (fun w => int_value (snd w)) ps | _ => True end.

(** ** What is documented *)
Definition spindle_stop (c : mcfg) : list action := if c_has_spindle c then [DoHalt; DoSpindleOff] else [].
Definition power (on : bool) : list action := [DoHalt; DoMotors on; DoHw (HwEnableMotors on)].
Definition output (o : Model_Hardware.output) (on : bool) : action := DoHw (HwUpdateOutput o on).
(** Fan speeds from 0 to 255; the fan can be an output or a PWM output or both. *)
Definition fan (speed : fl) : list action :=
  if SFltb speed (f64_of_Z 0) || SFltb (f64_of_Z 255) speed then []
  else let turning := SFltb (f64_of_Z 0) (f32_of_f64 (f64_div speed (f64_of_Z 255))) in
       [output OutFan turning; DoHw (HwPwm OutFan turning)].
(** AUX pins 1 to 16 *)
Definition pin_request (pin value : Z) (at_once : bool) : list action :=
  if (1 <=? pin) && (pin <=? 16) && (0 <=? value) && (value <=? 1)
  then DoHw (HwUpdateAux pin (value =? 1)) :: (if at_once then [DoHw HwSetAux] else []) else [].
Definition spindle_start (c : mcfg) (ccw : bool) (ps : pairs) : list action :=
  if c_has_spindle c then
    let rpm := number_of "S" (leading ["S"%char] ps) (-1) in DoHalt :: (if 0 <=? rpm then [DoSpindleOn ccw rpm] else [])
  else [].
Definition lookahead (ps : pairs) : list action :=
  match ps with
  | [] => [DoWait; DoLookahead 1024]
  | ("S"%char, v) :: _ => match fl_trunc v with
                          | Some n => if (1 <=? n) && (n <=? 1024) then [DoWait; DoLookahead n] else []
                          | None => [] end
  | _ => []
  end.
Definition documented_code (c : mcfg) (code : Z) (ps : pairs) : option (list action) :=
  match code with
  | 0 => Some (spindle_stop c ++ [DoHw HwAuxOff; output OutEstop true] ++ power false)
  | 3 => Some (spindle_start c false ps)
  | 4 => Some (spindle_start c true ps)
  | 5 => Some (spindle_stop c)
  | 7 => Some [output OutMist true]
  | 8 => Some [output OutFlood true]
  | 9 => Some [output OutMist false; output OutFlood false]
  | 10 => Some [output OutVacuum true]
  | 11 => Some [output OutVacuum false]
  | 42 => let ws := leading ["P"%char; "S"%char] ps in Some (pin_request (number_of "P" ws (-1)) (number_of "S" ws (-1)) false)
  | 62 => Some (pin_request (number_of "P" (leading ["P"%char] ps) (-1)) 1 false)
  | 63 => Some (pin_request (number_of "P" (leading ["P"%char] ps) (-1)) 0 false)
  | 64 => Some (pin_request (number_of "P" (leading ["P"%char] ps) (-1)) 1 true)
  | 65 => Some (pin_request (number_of "P" (leading ["P"%char] ps) (-1)) 0 true)
  | 80 => Some [output OutAtxPower true; DoHw HwSetAux]
  | 81 => Some [output OutAtxPower false; DoHw HwSetAux]
  | 181 => Some (lookahead ps)
  | 245 => Some [output OutCooler true]
  | 246 => Some [output OutCooler false]
  | 355 => Some [output OutCaseLights (0 <? number_of "S" (leading ["S"%char] ps) 0)]
  | 400 | 999 => None          (* these depend on switches: below *)
  | _ => Some []
  end.
Definition documented (c : mcfg) (e : call) : option (list action) :=
  match e with
  | GcodeStart => Some (if 0 <? c_auto_fan_pwm c then fan (f32_of_Z (c_auto_fan_pwm c)) else [])
  | GcodeFinished at_end => Some (DoHalt :: spindle_stop c ++ (if at_end && (0 <? c_auto_motor c) then power false else []))
  | SetFanspeed f => Some (fan f)
  | SetSpeedFactor _ => Some []
  | MotorsEnable on => Some (power on)
  | MCode code ps => documented_code c code ps
  | _ => None
  end.
(** M120 and M121 switch the pause switch on and off; nothing else does. *)
Definition pause_after (e : call) (before : bool) : bool :=
  match e with MCode 120 _ => true | MCode 121 _ => false | _ => before end.

(** ** The spindle as last requested: direction (true is counterclockwise) and speed *)
Definition spindle_step (st : option (bool * Z)) (e : event) : option (bool * Z) :=
  match e with Did (DoSpindleOn ccw rpm) => Some (ccw, rpm) | Did DoSpindleOff => None | _ => st end.
Definition spindle_of (log : list event) : option (bool * Z) := fold_left spindle_step log None.
(** Commands that stop the spindle: M0, M5, end of program (M2, M30, end of input). *)
Definition stops_spindle (e : call) : bool :=
  match e with GcodeFinished _ => true | MCode n _ => (n =? 0) || (n =? 5) | _ => false end.
(** Commands that neither start nor stop it. *)
Definition idle_spindle (e : call) : Prop := stops_spindle e = false /\
  forall n ps, e = MCode n ps -> n = 3 \/ n = 4 -> readable e -> number_of "S" (leading ["S"%char] ps) (-1) < 0.

(** ** The hardware calls in a log *)
Definition hw_ops (log : list event) : list hw_op :=
  flat_map (fun e => match e with Did (DoHw op) => [op] | _ => [] end) log.
