(** Model of src/gcode-machine-control.cc: the receiver of G-code events that guards
    the planner, the motors and the auxiliary outputs.

    The environment is a list of answers: every time the code reads a switch or the
    clock, or asks the planner something whose result depends on the motion queue,
    it takes the next answer. If there is none, the call is still waiting (result
    [None], with the state as it is then). All actions and answers are recorded in
    a log, newest last. The hardware state is that of Model_Hardware; switches are
    read debounced (C44), a switch that is not connected is one that always answers
    its default.

    Not modelled: texts written to the message stream (mprintf, M105, M114, M115,
    M117, M119, acknowledgements), sleeping, the Get...Status functions. The planner
    and the spindle are separate models; here only the calls are recorded. *)
From Verif Require Import Base Text Model_Axis Model_Float Model_Hardware.

(** hardware-mapping.h:85-90 AxisTrigger *)
Inductive trigger := TrigNone | TrigMin | TrigMax | TrigAny.
(** gcode-machine-control.h HomingState, in increasing order *)
Inductive homing := NeverHomed | HomedButUnpowered | Homed.

(** gcode-machine-control.h:38-82 MachineControlConfig (fields used here) *)
Record mcfg := mk_mcfg {
  c_steps : axis -> fl; c_range : axis -> fl; c_feed : axis -> fl; c_accel : axis -> fl;
  c_homefeed : axis -> fl; c_probefeed : axis -> fl;
  c_speed : fl;
  c_home_order : text;
  c_home : axis -> trigger;
  c_auto_motor : Z; c_auto_fan : Z; c_auto_fan_pwm : Z;
  c_require_homing : bool; c_range_check : bool;
  c_clamp : text;
  c_enable_pause : bool;
  c_has_spindle : bool;                (* spindle_ != NULL *)
  c_cape : cape
}.

(** What is asked of the environment. *)
Inductive query :=
| QEstop | QPause | QStart | QProbe | QAxis (a : axis) (t : trigger)   (* switches; 0 is false *)
| QTime                  (* time(NULL) *)
| QFlush                 (* BringPathToHalt: segments sent to the motors *)
| QEnqueue               (* Planner::Enqueue: segments sent to the motors *)
| QEnqueued              (* Planner::Enqueue: its result *)
| QPosition (a : axis)   (* Planner::GetCurrentPosition *)
| QInt.                  (* an int converted from a float outside the int range *)

(** What is done. *)
Inductive action :=
| DoEnqueue (pos : axis -> fl) (feed : fl)       (* Planner::Enqueue *)
| DoDrive (a : axis) (distance v0 v1 : fl)       (* Planner::DirectDrive *)
| DoSetPos (a : axis) (pos : fl)                 (* Planner::SetExternalPosition *)
| DoHalt                                         (* Planner::BringPathToHalt *)
| DoWait                                         (* SegmentQueue::WaitQueueEmpty *)
| DoMotors (on : bool)                           (* SegmentQueue::MotorEnable *)
| DoSpindleOn (ccw : bool) (rpm : Z)
| DoSpindleOff
| DoLookahead (n : Z)
| DoHw (op : hw_op).                             (* HardwareMapping calls *)
Inductive event := Ask (q : query) (answer : Z) | Did (a : action).

Record machine := mk_machine {
  m_homing : homing;               (* homing_state_ *)
  m_feed : fl;                     (* current_feedrate_mm_per_sec_ *)
  m_factor : fl;                   (* prog_speed_factor_ *)
  m_off_motor : Z;                 (* next_auto_disable_motor_ *)
  m_off_fan : Z;                   (* next_auto_disable_fan_ *)
  m_pause : bool;                  (* pause_enabled_ *)
  m_hw : hw;                       (* hardware_mapping_ *)
  m_in : list Z;                   (* answers to come *)
  m_log : list event
}.

Definition M (A : Type) := machine -> option A * machine.
Definition ret {A} (x : A) : M A := fun s => (Some x, s).
Definition bind {A B} (m : M A) (f : A -> M B) : M B :=
  fun s => match m s with (Some x, s') => f x s' | (None, s') => (None, s') end.
Definition get : M machine := fun s => (Some s, s).
Notation "x <- m ;; k" := (bind m (fun x => k)) (at level 61, m at next level, right associativity).
Notation "m ;;; k" := (bind m (fun _ => k)) (at level 61, right associativity).
Definition when (b : bool) (m : M unit) : M unit := if b then m else ret tt.

Definition set_homing (h : homing) : M unit := fun s =>
  (Some tt, mk_machine h (m_feed s) (m_factor s) (m_off_motor s) (m_off_fan s) (m_pause s) (m_hw s) (m_in s) (m_log s)).
Definition set_feed (f : fl) : M unit := fun s =>
  (Some tt, mk_machine (m_homing s) f (m_factor s) (m_off_motor s) (m_off_fan s) (m_pause s) (m_hw s) (m_in s) (m_log s)).
Definition set_factor (f : fl) : M unit := fun s =>
  (Some tt, mk_machine (m_homing s) (m_feed s) f (m_off_motor s) (m_off_fan s) (m_pause s) (m_hw s) (m_in s) (m_log s)).
Definition set_off_motor (t : Z) : M unit := fun s =>
  (Some tt, mk_machine (m_homing s) (m_feed s) (m_factor s) t (m_off_fan s) (m_pause s) (m_hw s) (m_in s) (m_log s)).
Definition set_off_fan (t : Z) : M unit := fun s =>
  (Some tt, mk_machine (m_homing s) (m_feed s) (m_factor s) (m_off_motor s) t (m_pause s) (m_hw s) (m_in s) (m_log s)).
Definition set_pause (b : bool) : M unit := fun s =>
  (Some tt, mk_machine (m_homing s) (m_feed s) (m_factor s) (m_off_motor s) (m_off_fan s) b (m_hw s) (m_in s) (m_log s)).
(** Record an action; calls to the hardware mapping change its state. *)
Definition act (c : mcfg) (a : action) : M unit := fun s =>
  (Some tt, mk_machine (m_homing s) (m_feed s) (m_factor s) (m_off_motor s) (m_off_fan s) (m_pause s)
              (match a with DoHw op => hw_step (c_cape c) (m_hw s) op | _ => m_hw s end) (m_in s) (m_log s ++ [Did a])).
(** Take the next answer of the environment. *)
Definition ask (q : query) : M Z := fun s =>
  match m_in s with
  | [] => (None, s)
  | z :: rest => (Some z, mk_machine (m_homing s) (m_feed s) (m_factor s) (m_off_motor s) (m_off_fan s) (m_pause s)
                            (m_hw s) rest (m_log s ++ [Ask q z]))
  end.
Definition test (q : query) : M bool := z <- ask q ;; ret (negb (z =? 0)).

(** ** Calls to the planner, as far as they touch the hardware.
    Whenever a segment is sent to the motors, the motors are switched on first
    (motion-queue-motor-operations.cc:207, pru-motion-queue.cc:163-165). *)
(** planner.cc:678-683 BringPathToHalt *)
Definition halt (c : mcfg) : M unit :=
  act c DoHalt ;;; n <- ask QFlush ;; when (0 <? n) (act c (DoHw (HwEnableMotors true))).
(** planner.cc:958 Enqueue *)
Definition enqueue (c : mcfg) (pos : axis -> fl) (feed : fl) : M bool :=
  act c (DoEnqueue pos feed) ;;; n <- ask QEnqueue ;;
  when (0 <? n) (act c (DoHw (HwEnableMotors true))) ;;; test QEnqueued.
(** An int from a float: the value if it is in range, else anything. *)
Definition int_of (z : option Z) : M Z := match to_int z with Some i => ret i | None => ask QInt end.
(** planner.cc:910-933 DirectDrive; returns the steps. A drive of no steps enables no
    motor, which is the same as enabling here. *)
Definition direct_drive (c : mcfg) (a : axis) (distance v0 v1 : fl) : M Z :=
  halt c ;;; act c (DoDrive a distance v0 v1) ;;; act c (DoHw (HwEnableMotors true)) ;;;
  act c DoWait ;;; int_of (fl_round (f32_mul distance (c_steps c a))).
(** motion-queue-motor-operations.cc:335-338 MotorEnable, pru-motion-queue.cc:163-165 *)
Definition motor_enable (c : mcfg) (on : bool) : M unit := act c (DoMotors on) ;;; act c (DoHw (HwEnableMotors on)).

(** ** Emergency stop, motors, outputs *)
(** gcode-machine-control.cc:658-661 set_output_flags *)
Definition set_output_flags (c : mcfg) (o : output) (on : bool) : M unit := act c (DoHw (HwUpdateOutput o on)).
(** gcode-machine-control.cc:357-364 motors_enable *)
Definition motors_enable (c : mcfg) (enable : bool) : M unit :=
  halt c ;;; motor_enable c enable ;;; s <- get ;;
  when (negb enable && match m_homing s with Homed => true | _ => false end) (set_homing HomedButUnpowered).
(** gcode-machine-control.cc:374-382 set_fanspeed *)
Definition set_fanspeed (c : mcfg) (speed : fl) : M unit :=
  if SFltb speed (f64_of_Z 0) || SFltb (f64_of_Z 255) speed then ret tt
  else
    let positive := SFltb (f64_of_Z 0) (f32_of_f64 (f64_div speed (f64_of_Z 255))) in
    set_output_flags c OutFan positive ;;; act c (DoHw (HwPwm OutFan positive)).
(** gcode-machine-control.cc:523-528 set_spindle_off *)
Definition set_spindle_off (c : mcfg) : M unit :=
  if c_has_spindle c then halt c ;;; act c DoSpindleOff else ret tt.
(** gcode-machine-control.cc:416-418 *)
Definition in_estop : M bool := fun s => (Some (hw_estop (m_hw s)), s).
(** gcode-machine-control.cc:420-427 set_estop *)
Definition set_estop (c : mcfg) : M unit :=
  set_spindle_off c ;;; act c (DoHw HwAuxOff) ;;; set_output_flags c OutEstop true ;;;
  motors_enable c false ;;; set_homing NeverHomed.
(** gcode-machine-control.cc:429-440 clear_estop *)
Definition clear_estop (c : mcfg) : M bool :=
  e <- in_estop ;;
  if e then
    hard <- test QEstop ;;
    if hard then ret false
    else set_output_flags c OutEstop false ;;; act c (DoHw HwSetAux) ;;; ret true
  else ret true.
(** gcode-machine-control.cc:442-452 check_for_estop *)
Definition check_for_estop (c : mcfg) : M bool :=
  e <- in_estop ;;
  if e then ret false
  else hard <- test QEstop ;; if hard then set_estop c ;;; ret true else ret false.

(** ** Waiting for the operator: gcode-machine-control.cc:384-414 wait_for_start.
    [fuel] bounds the rounds; each round takes an answer, so as many rounds as there
    are answers are enough. *)
Definition loop_limit : M nat := fun s => (Some (S (length (m_in s))), s).
Fixpoint wait_unpaused (fuel : nat) (active : nat) : M unit :=
  match fuel with
  | O => fun s => (None, s)
  | S f =>
      match active with
      | O => ret tt
      | S a => p <- test QPause ;; wait_unpaused f (if p then 2%nat else a)
      end
  end.
Fixpoint wait_started (c : mcfg) (fuel : nat) : M unit :=
  match fuel with
  | O => fun s => (None, s)
  | S f =>
      b <- test QStart ;;
      if b then ret tt
      else set_output_flags c OutLed true ;;; act c (DoHw HwSetAux) ;;;
           set_output_flags c OutLed false ;;; act c (DoHw HwSetAux) ;;; wait_started c f
  end.
Definition wait_for_start (c : mcfg) : M unit :=
  s <- get ;;
  p <- (if m_pause s then test QPause else ret false) ;;
  (if p then n <- loop_limit ;; wait_unpaused (S n) 2 else ret tt) ;;;
  b <- test QStart ;;
  if b then ret tt else n <- loop_limit ;; wait_started c n.

(** ** Moves *)
(** gcode-parser.h:78-80 *)
Definition is_rotational (a : axis) : bool := match a with AA | AB | AC => true | _ => false end.
Definition fzero : fl := S754_zero false.
(** gcode-machine-control.cc:793-799 *)
Definition move_allowed_homing_status (c : mcfg) (s : machine) : bool :=
  if negb (c_require_homing c) then true else match m_homing s with NeverHomed => false | _ => true end.
(** gcode-machine-control.cc:801-807 *)
Definition move_allowed_estop_status (s : machine) : bool := negb (hw_estop (m_hw s)).
(** gcode-machine-control.cc:809-859 *)
Fixpoint limits_ok (c : mcfg) (pos : axis -> fl) (axes : list axis) : bool :=
  match axes with
  | [] => true
  | i :: r =>
      if is_rotational i then limits_ok c pos r
      else if SFltb (pos i) fzero then false
      else if SFleb (c_range c i) fzero then limits_ok c pos r
      else if SFltb (c_range c i) (pos i) then false
      else limits_ok c pos r
  end.
Definition move_allowed_within_machine_limits (c : mcfg) (pos : axis -> fl) : bool :=
  if negb (c_range_check c) then true else limits_ok c pos all_axes.
(** gcode-machine-control.cc:232-255: axis_clamped_ as computed by Init *)
Definition axis_clamped (c : mcfg) : Z :=
  fold_left (fun m ch => match letter_axis ch with Some AZ => Z.lor m (Z.shiftl 1 (axis_ix AZ)) | _ => m end) (c_clamp c) 0.
(** gcode-machine-control.cc:861-884 clamp_to_range; returns the register *)
Definition clamp_axis (c : mcfg) (i : axis) (pos : axis -> fl) : axis -> fl :=
  if Z.land (axis_clamped c) (Z.shiftl 1 (axis_ix i)) =? 0 then pos
  else
    let pos := if SFltb (pos i) fzero then set_axis pos i fzero else pos in
    if SFleb (c_range c i) fzero then pos
    else if SFltb (c_range c i) (pos i) then set_axis pos i (c_range c i) else pos.
Definition clamp_to_range (c : mcfg) (affected : Z) (pos : axis -> fl) : axis -> fl :=
  if negb (Z.land affected (axis_clamped c) =? affected) then pos
  else fold_left (fun p i => clamp_axis c i p) all_axes pos.
(** gcode-machine-control.cc:219-222: g0_feedrate_mm_per_sec_, std::max over the axes
    starting with -1 *)
Definition g0_feedrate (c : mcfg) : fl :=
  fold_left (fun g a => if SFltb (c_feed c a) g then g else c_feed c a) all_axes (f32_of_Z (-1)).
(** gcode-machine-control.cc:886-905 coordinated_move *)
Definition coordinated_move (c : mcfg) (feed : fl) (pos : axis -> fl) : M bool :=
  s <- get ;;
  if negb (move_allowed_homing_status c s) then ret false
  else if negb (move_allowed_within_machine_limits c pos) then ret false
  else if negb (move_allowed_estop_status s) then ret false
  else
    when (SFltb fzero feed) (set_feed (f32_mul (c_speed c) feed)) ;;;
    s <- get ;;
    if SFleb (m_feed s) fzero then ret false
    else
      ok <- enqueue c pos (f32_mul (m_factor s) (m_feed s)) ;;
      if ok then ret true else e <- check_for_estop c ;; ret (negb e).
(** gcode-machine-control.cc:907-922 rapid_move *)
Definition rapid_move (c : mcfg) (feed : fl) (pos : axis -> fl) : M bool :=
  s <- get ;;
  if negb (move_allowed_homing_status c s) then ret false
  else if negb (move_allowed_within_machine_limits c pos) then ret false
  else if negb (move_allowed_estop_status s) then ret false
  else
    let given := f32_mul (f32_mul (c_speed c) (m_factor s)) feed in
    when (SFltb fzero given && SFleb (m_feed s) fzero) (set_feed given) ;;;
    ok <- enqueue c pos (if SFltb fzero given then given else g0_feedrate c) ;;
    if ok then ret true else e <- check_for_estop c ;; ret (negb e).
(** gcode-machine-control.cc:924-946 dwell *)
Definition dwell (c : mcfg) : M unit :=
  halt c ;;; act c DoWait ;;;
  e <- check_for_estop c ;;
  if e then ret tt
  else s <- get ;; p <- (if m_pause s then test QPause else ret false) ;; if p then wait_for_start c else ret tt.
(** gcode-machine-control.cc:948-968 input_idle *)
Definition input_idle (c : mcfg) (is_first : bool) : M unit :=
  halt c ;;;
  (if 0 <? c_auto_motor c then
     if is_first then t <- ask QTime ;; set_off_motor (t + c_auto_motor c) ;;; set_off_fan (-1)
     else s <- get ;;
       if m_off_motor s =? -1 then ret tt
       else t <- ask QTime ;;
         if m_off_motor s <=? t then
           motors_enable c false ;;; set_off_motor (-1) ;;;
           (if 0 <? c_auto_fan c then t <- ask QTime ;; set_off_fan (t + c_auto_fan c) else ret tt)
         else ret tt
   else ret tt) ;;;
  s <- get ;;
  (if m_off_fan s =? -1 then ret tt
   else t <- ask QTime ;; if m_off_fan s <=? t then set_fanspeed c fzero ;;; set_off_fan (-1) else ret tt) ;;;
  e <- check_for_estop c ;; ret tt.
(** gcode-machine-control.cc:970-980 set_speed_factor *)
Definition five_thousandths : fl := f64_div (f64_of_Z 5) (f64_of_Z 1000).
Definition set_speed_factor (factor : fl) : M unit :=
  let factor := if SFltb factor fzero then f32_add (f32_of_Z 1) factor else factor in
  if SFltb factor five_thousandths then ret tt else set_factor factor.

(** ** Homing and probing *)
Definition kHomingMM : fl := f32_div (f32_of_Z 1) (f32_of_Z 2).
Definition kBackoffMM : fl := f32_of_f64 (f64_div kHomingMM (f64_of_Z 10)).
Definition kProbeMM : fl := f32_of_f64 (f64_div (f64_of_Z 5) (f64_of_Z 100)).
Definition is_min (t : trigger) : bool := match t with TrigMin => true | _ => false end.
Definition signed (negative : bool) (x : fl) : fl := f32_mul (f32_of_Z (if negative then -1 else 1)) x.
(** gcode-machine-control.cc:983-1009 move_to_endstop: the two loops. The number of
    steps is not used by the caller and left out. [false]: left because of the
    emergency stop switch. *)
Fixpoint drive_to_switch (c : mcfg) (a : axis) (t : trigger) (v1 : fl) (fuel : nat) (v0 : fl) : M (option fl) :=
  match fuel with
  | O => fun s => (None, s)
  | S f =>
      on <- test (QAxis a t) ;;
      if on then ret (Some v0)
      else
        e <- test QEstop ;;
        if e then ret None
        else direct_drive c a (signed (is_min t) kHomingMM) v0 v1 ;;; drive_to_switch c a t v1 f v1
  end.
Fixpoint drive_off_switch (c : mcfg) (a : axis) (t : trigger) (v0 v1 : fl) (fuel : nat) : M bool :=
  match fuel with
  | O => fun s => (None, s)
  | S f =>
      on <- test (QAxis a t) ;;
      if on then
        e <- test QEstop ;;
        if e then ret false
        else direct_drive c a (signed (negb (is_min t)) kBackoffMM) v0 v1 ;;; drive_off_switch c a t v0 v1 f
      else ret true
  end.
Definition move_to_endstop (c : mcfg) (a : axis) (feedrate : fl) (t : trigger) : M unit :=
  s <- get ;;
  if negb (hw_ready (m_hw s)) then ret tt
  else
    n <- loop_limit ;;
    r <- drive_to_switch c a t feedrate n fzero ;;
    match r with
    | None => ret tt
    | Some v0 => n <- loop_limit ;; drive_off_switch c a t v0 feedrate n ;;; ret tt
    end.
(** gcode-machine-control.cc:1036-1049 home_axis *)
Definition home_pos (c : mcfg) (a : axis) : fl := match c_home c a with TrigMax => c_range c a | _ => fzero end.
Definition home_axis (c : mcfg) (a : axis) : M unit :=
  match c_home c a with
  | TrigNone => ret tt
  | t =>
      halt c ;;;
      move_to_endstop c a (if SFltb fzero (c_homefeed c a) then c_homefeed c a else f32_of_Z 15) t ;;;
      act c (DoSetPos a (home_pos c a))
  end.
(** gcode-machine-control.cc:1051-1061 go_home *)
Fixpoint home_axes (c : mcfg) (bitmap : Z) (order : text) : M unit :=
  match order with
  | [] => ret tt
  | ch :: r =>
      match letter_axis ch with
      | Some a => if Z.land bitmap (Z.shiftl 1 (axis_ix a)) =? 0 then home_axes c bitmap r
                  else home_axis c a ;;; home_axes c bitmap r
      | None => home_axes c bitmap r
      end
  end.
Definition go_home (c : mcfg) (bitmap : Z) : M unit :=
  halt c ;;;
  ok <- clear_estop c ;;
  if negb ok then ret tt
  else
    home_axes c bitmap (c_home_order c) ;;;
    e <- check_for_estop c ;;
    if e then ret tt else set_homing Homed.
(** gcode-machine-control.cc:205-215: max_probe_feedrate after Init *)
Definition probe_feed (c : mcfg) (a : axis) : fl :=
  if SFleb (c_probefeed c a) fzero || SFltb (c_feed c a) (c_probefeed c a) then c_feed c a else c_probefeed c a.
(** gcode-machine-control.cc:1011-1033 move_to_probe *)
Fixpoint drive_to_probe (c : mcfg) (a : axis) (negative : bool) (v1 : fl) (max_steps : Z) (fuel : nat) (v0 : fl) (total : Z) : M Z :=
  match fuel with
  | O => fun s => (None, s)
  | S f =>
      on <- test QProbe ;;
      if on then ret total
      else
        d <- direct_drive c a (signed negative kProbeMM) v0 v1 ;;
        if max_steps <? Z.abs (total + d) then ret (total + d)
        else drive_to_probe c a negative v1 max_steps f v1 (total + d)
  end.
Definition move_to_probe (c : mcfg) (a : axis) (feedrate : fl) (negative : bool) (max_steps : Z) : M Z :=
  s <- get ;;
  if negb (hw_ready (m_hw s)) then ret 0
  else n <- loop_limit ;;
    drive_to_probe c a negative (if SFltb (probe_feed c a) feedrate then probe_feed c a else feedrate) max_steps n fzero 0.
(** hardware-mapping.h:248-251 HasProbeSwitch *)
Definition has_probe_switch (s : machine) (a : axis) : bool :=
  match a with AZ => negb (hw_probe_in (m_hw s) =? 0) | _ => false end.
(** gcode-machine-control.cc:1063-1095 probe_axis; [Some p]: true with this position.
    The position before comes from the planner: an answer, in steps. *)
Definition probe_axis (c : mcfg) (feed : fl) (a : axis) : M (option fl) :=
  s <- get ;;
  if negb (move_allowed_homing_status c s) then ret None
  else if negb (move_allowed_estop_status s) then ret None
  else
    halt c ;;;
    s <- get ;;
    if negb (has_probe_switch s a) then ret None
    else
      steps <- ask (QPosition a) ;;
      let machine_pos := f32_div (f32_of_Z steps) (c_steps c a) in
      let feed := if SFleb feed fzero then f32_of_Z 20 else feed in
      max_steps <- int_of (fl_trunc (f32_mul (c_range c a) (c_steps c a))) ;;
      total <- move_to_probe c a feed (negb (is_min (c_home c a))) (Z.abs max_steps) ;;
      let new_pos := f32_add machine_pos (f32_div (f32_of_Z total) (c_steps c a)) in
      act c (DoSetPos a new_pos) ;;; ret (Some new_pos).

(** ** Start, end, M-codes *)
(** gcode-machine-control.cc:781-784 gcode_start *)
Definition gcode_start (c : mcfg) : M unit :=
  if 0 <? c_auto_fan_pwm c then set_fanspeed c (f32_of_Z (c_auto_fan_pwm c)) else ret tt.
(** gcode-machine-control.cc:786-791 gcode_finished *)
Definition gcode_finished (c : mcfg) (end_of_stream : bool) : M unit :=
  halt c ;;; set_spindle_off c ;;; when (end_of_stream && (0 <? c_auto_motor c)) (motors_enable c false).

(** What ParsePair returns for the rest of the block: letters and values. *)
Definition pairs := list (ascii * fl).
(** gcode-machine-control.cc:498-521 set_spindle_on; the last S value counts *)
Fixpoint spindle_speed (ps : pairs) (rpm : Z) : M Z :=
  match ps with
  | ("S"%char, v) :: r => z <- int_of (fl_round v) ;; spindle_speed r z
  | _ => ret rpm
  end.
Definition set_spindle_on (c : mcfg) (ccw : bool) (ps : pairs) : M unit :=
  if negb (c_has_spindle c) then ret tt
  else halt c ;;; rpm <- spindle_speed ps (-1) ;; when (0 <=? rpm) (act c (DoSpindleOn ccw rpm)).
(** gcode-machine-control.cc:602-616: the loop of M42, M62-65; (pin, value) *)
Fixpoint pin_and_value (m42 : bool) (ps : pairs) (pin value : Z) : M (Z * Z) :=
  match ps with
  | ("P"%char, v) :: r => z <- int_of (fl_round v) ;; pin_and_value m42 r z value
  | ("S"%char, v) :: r => if m42 then z <- int_of (fl_round v) ;; pin_and_value m42 r pin z else ret (pin, value)
  | _ => ret (pin, value)
  end.
(** gcode-machine-control.cc:640-650: M355 *)
Fixpoint light_value (ps : pairs) (value : Z) : M Z :=
  match ps with
  | ("S"%char, v) :: r => z <- int_of (fl_round v) ;; light_value r z
  | _ => ret value
  end.
(** gcode-machine-control.cc:602-634 *)
Definition set_pin (c : mcfg) (code : Z) (ps : pairs) : M unit :=
  pv <- pin_and_value (code =? 42) ps (-1) (-1) ;;
  let '(pin, value) := pv in
  let value := if (code =? 62) || (code =? 64) then 1 else if (code =? 63) || (code =? 65) then 0 else value in
  if (0 <? pin) && (pin <=? NUM_BOOL_OUTPUTS) && (0 <=? value) && (value <=? 1) then
    act c (DoHw (HwUpdateAux pin (value =? 1))) ;;;
    when ((code =? 64) || (code =? 65)) (act c (DoHw HwSetAux))
  else ret tt.
(** gcode-machine-control.cc:584-656 aux_bit_commands *)
Definition aux_bit_commands (c : mcfg) (code : Z) (ps : pairs) : M unit :=
  match code with
  | 3 => set_spindle_on c false ps
  | 4 => set_spindle_on c true ps
  | 5 => set_spindle_off c
  | 7 => set_output_flags c OutMist true
  | 8 => set_output_flags c OutFlood true
  | 9 => set_output_flags c OutMist false ;;; set_output_flags c OutFlood false
  | 10 => set_output_flags c OutVacuum true
  | 11 => set_output_flags c OutVacuum false
  | 42 | 62 | 63 | 64 | 65 => set_pin c code ps
  | 245 => set_output_flags c OutCooler true
  | 246 => set_output_flags c OutCooler false
  | 355 => v <- light_value ps 0 ;; set_output_flags c OutCaseLights (0 <? v)
  | _ => ret tt
  end.
(** gcode-machine-control.cc:458-485 handle_set_lookahead; planner.cc:239 the maximum is 1024 *)
Definition max_lookahead : Z := 1024.
Definition handle_set_lookahead (c : mcfg) (ps : pairs) : M unit :=
  match ps with
  | [] => act c DoWait ;;; act c (DoLookahead max_lookahead)
  | ("S"%char, v) :: _ =>
      n <- int_of (fl_trunc v) ;;
      if (n <=? 0) || (max_lookahead <? n) then ret tt else act c DoWait ;;; act c (DoLookahead n)
  | _ => ret tt
  end.
(** gcode-machine-control.cc:534-582 special_commands, for letter M *)
Definition special_commands (c : mcfg) (code : Z) (ps : pairs) : M unit :=
  match code with
  | 0 => set_estop c
  | 999 => clear_estop c ;;; ret tt
  | 3 | 4 | 5 | 7 | 8 | 9 | 10 | 11 | 42 | 62 | 63 | 64 | 65 | 245 | 246 | 355 => aux_bit_commands c code ps
  | 400 => dwell c
  | 80 | 81 => set_output_flags c OutAtxPower (code =? 80) ;;; act c (DoHw HwSetAux)
  | 120 => set_pause true
  | 121 => set_pause false
  | 181 => handle_set_lookahead c ps
  | _ => ret tt
  end.

(** ** Histories of events (GCodeParser::EventReceiver, gcode-parser.h) *)
Inductive call :=
| GcodeStart
| GcodeFinished (end_of_stream : bool)
| InputIdle (is_first : bool)
| WaitForStart
| GoHome (bitmap : Z)
| ProbeAxis (feed : fl) (a : axis)
| SetSpeedFactor (f : fl)
| SetFanspeed (f : fl)
| Dwell
| MotorsEnable (on : bool)
| CoordinatedMove (feed : fl) (pos : axis -> fl)
| RapidMove (feed : fl) (pos : axis -> fl)
| MCode (code : Z) (ps : pairs).

Definition perform (c : mcfg) (e : call) : M unit :=
  match e with
  | GcodeStart => gcode_start c
  | GcodeFinished b => gcode_finished c b
  | InputIdle b => input_idle c b
  | WaitForStart => wait_for_start c
  | GoHome b => go_home c b
  | ProbeAxis f a => probe_axis c f a ;;; ret tt
  | SetSpeedFactor f => set_speed_factor f
  | SetFanspeed f => set_fanspeed c f
  | Dwell => dwell c
  | MotorsEnable b => motors_enable c b
  | CoordinatedMove f p => coordinated_move c f p ;;; ret tt
  | RapidMove f p => rapid_move c f p ;;; ret tt
  | MCode n ps => special_commands c n ps
  end.
Fixpoint perform_all (c : mcfg) (es : list call) : M unit :=
  match es with
  | [] => ret tt
  | e :: r => perform c e ;;; perform_all c r
  end.

(** ** Creation: gcode-machine-control.cc:164-185 constructor, 187-340 Init *)
Definition start_state (c : mcfg) (h : hw) (answers : list Z) : machine :=
  mk_machine NeverHomed (f32_of_Z (-1)) (f32_of_Z 1) (-1) (-1) (c_enable_pause c) h answers [].
(** 189-217, 226-230 (homing_trigger), 232-252, 263-334; [None]: Init fails *)
Definition home_switch_ok (c : mcfg) (h : hw) (a : axis) : bool :=
  let '(mn, mx) := available_axis_switch h a in
  match c_home c a with TrigNone => true | TrigAny => false | TrigMin => mn | TrigMax => mx end.
Definition map_free_motor (c : mcfg) (h : hw) (a : axis) : bool * hw :=
  if SFltb fzero (c_steps c a) && negb (has_motor_for h a) then
    let n := get_first_free_motor h in
    (negb (n =? 0), snd (add_motor_mapping a n false h))
  else (true, h).
Definition init_axis (c : mcfg) (st : bool * hw) (a : axis) : bool * hw :=
  let '(ok, h) := st in
  let '(ok', h') := map_free_motor c h a in
  (ok && ok' && (negb (has_motor_for h' a) || (negb (SFleb (c_steps c a) fzero) && negb (SFleb (c_feed c a) fzero))), h').
Definition machine_init (c : mcfg) (h : hw) (answers : list Z) : option machine :=
  if existsb (fun a => SFltb (c_steps c a) fzero || SFltb (c_feed c a) fzero || SFltb (c_accel c a) fzero) all_axes then None
  else if negb (forallb (home_switch_ok c h) all_axes) then None
  else if negb (forallb (fun ch => match letter_axis ch with Some AZ => true | _ => false end) (c_clamp c)) then None
  else
    let '(ok, h') := fold_left (init_axis c) all_axes (true, h) in
    if ok then Some (start_state c h' answers) else None.
