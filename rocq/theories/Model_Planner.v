(** Model of src/planner.cc: from target positions to ramps for the motors.

    Doubles and floats are computed as in the code (Model_Float). Parameters: the
    configuration, the mapping of axes to motors, acos and cos, the results of lround and
    of conversions to integers outside of the range of the result, and whether the motor
    backend accepts a command. The planning buffer is a list: C06 shows that RingDeque
    behaves as one up to its capacity. Not modelled: overflow of the sum or difference of
    two step counts, WaitQueueEmpty, and debug output. *)
From Coq Require Import SpecFloat.
From Verif Require Import Base Model_Float Model_Axis Model_Hardware.

(** segment-queue.h:28-42 LinearSegmentSteps *)
Record command := mk_command { c_v0 : fl; c_v1 : fl; c_aux : Z; c_steps : mreg }.

Record pcfg := mk_pcfg {
  p_steps_per_mm : axis -> fl;          (* gcode-machine-control.h:45 *)
  p_range : axis -> fl;                 (* 46-47 move_range_mm *)
  p_max_feedrate : axis -> fl;          (* 49 *)
  p_acceleration : axis -> fl;          (* 50-51 *)
  p_threshold : fl;                     (* 56 threshold_angle *)
  p_tune : fl;                          (* 57 speed_tune_angle *)
  p_home_max : axis -> bool;            (* 62 homing_trigger is TRIGGER_MAX *)
  p_hw : hw;                            (* hardware_mapping_ *)
  p_acos : fl -> fl; p_cos : fl -> fl;  (* math.h *)
  p_lround : fl -> Z;                   (* lround out of range: any int *)
  p_to_int : fl -> Z;                   (* (int) or (uint32_t) out of range *)
  p_accepts : list command -> bool      (* does Enqueue add the newest command? *)
}.

(** planner.cc:62-78 AxisTarget *)
Record target := mk_target {
  t_pos : axis -> Z; t_delta : axis -> Z; t_axis : axis;
  t_start : fl; t_speed : fl; t_accel : fl; t_aux : Z;
  t_dx : fl; t_dy : fl; t_dz : fl; t_len : fl
}.
(** planner.cc:117-123 PlannedProfile *)
Record profile := mk_profile { f_accel : Z; f_travel : Z; f_decel : Z; f_v0 : fl; f_v1 : fl; f_v2 : fl }.
(** planner.cc:253-267 PlanningSegment *)
Record pseg := mk_pseg { s_target : target; s_plan : profile }.

Definition d0 : fl := S754_zero false.
Definition d1 : fl := f64_of_Z 1.
(** Value initialisation, [= {}]. *)
Definition no_plan : profile := mk_profile 0 0 0 d0 d0 d0.
Definition no_target (pos : axis -> Z) : target := mk_target pos (fun _ => 0) AX d0 d0 d0 0 d0 d0 d0 d0.
Definition holder (pos : axis -> Z) : pseg := mk_pseg (no_target pos) no_plan.

(** What the motor backend has been told, the newest first. *)
Inductive told := Segment (c : command) (accepted : bool) | External (m : motor) (pos : Z).
(** planner.cc:280-305: the members; 279 has motor_ops_ *)
Record planner := mk_planner {
  p_buf : list pseg; p_ready : Z; p_look : Z; p_halted : bool; p_known : bool; p_log : list told
}.
(** planner.cc:40; RingDeque has one less *)
Definition PLANNING_BUFFER_CAPACITY : Z := 1024.
Definition capacity : Z := PLANNING_BUFFER_CAPACITY - 1.

Section Planner.
Variable cfg : pcfg.

(** std::min *)
Definition fmin (a b : fl) : fl := if SFltb b a then b else a.
Definition f64_abs (x : fl) : fl := SFabs x.
(** std::lround *)
Definition lround (x : fl) : Z := match to_int (fl_round x) with Some z => z | None => p_lround cfg x end.
(** double to int, double to uint32_t *)
Definition int_from (x : fl) : Z := match to_int (fl_trunc x) with Some z => z | None => p_to_int cfg x end.
Definition uint_from (x : fl) : Z :=
  match fl_trunc x with
  | Some z => if (0 <=? z) && (z <? 2 ^ 32) then z else p_to_int cfg x
  | None => p_to_int cfg x
  end.
Definition spm (a : axis) : fl := p_steps_per_mm cfg a.

(** planner.cc:155-170 clamp_defining_axis_limit; the result is a float *)
Definition clamp_limit (steps : axis -> Z) (limits : axis -> fl) (def : axis) : fl :=
  let step acc i :=
    if steps i =? 0 then acc
    else
      let up := f64_mul (f64_mul d1 (f64_of_Z (steps i))) (f64_of_f32 (spm def)) in
      let down := f32_mul (f32_of_Z (steps def)) (spm i) in
      let ratio := f32_of_f64 (f64_abs (f64_div up (f64_of_f32 down))) in
      fmin acc (f32_div (limits i) ratio) in
  f32_mul (fold_left step all_axes (limits def)) (spm def).

(** planner.cc:175-178 uniformly_accelerated_ramp_distance *)
Definition ramp_distance (v0 v1 a : fl) : fl :=
  f64_div (f64_sub (f64_mul v1 v1) (f64_mul v0 v0)) (f64_mul (f64_of_Z 2) a).
(** planner.cc:183-186 uniformly_accelerated_ramp_speed *)
Definition ramp_speed (s v0 a : fl) : fl :=
  f64_sqrt (f64_add (f64_mul (f64_mul (f64_of_Z 2) a) s) (f64_mul v0 v0)).
(** planner.cc:190-201 find_uniformly_accelerated_ramps_intersection *)
Definition intersection (v0 v1 a distance : fl) : fl :=
  let min_v := if SFleb v0 v1 then v0 else v1 in
  let max_v := if SFleb v0 v1 then v1 else v0 in
  let reach := ramp_distance min_v max_v a in
  f64_add (f64_mul reach (f64_of_Z (if SFltb v0 v1 then 1 else 0))) (f64_div (f64_sub distance reach) (f64_of_Z 2)).

(** planner.cc:307-314 get_speed_factor_for_axis *)
Definition speed_factor (t : target) (a : axis) : fl :=
  if t_delta t (t_axis t) =? 0 then d0
  else if axis_eqb a (t_axis t) then d1
  else f64_abs (f64_div (f64_mul d1 (f64_of_Z (t_delta t a))) (f64_of_Z (t_delta t (t_axis t)))).
(** planner.cc:318-321 get_speed_for_axis *)
Definition speed_for (t : target) (a : axis) : fl := f64_mul (t_speed t) (speed_factor t a).
(** planner.cc:323-325 euclid_distance *)
Definition euclid (x y z : fl) : fl := f64_sqrt (f64_add (f64_add (f64_mul x x) (f64_mul y y)) (f64_mul z z)).
(** planner.cc:327-333 within_acceptable_range *)
Definition within (new_val old_val fraction : fl) : bool :=
  let max_diff := f64_mul fraction old_val in
  negb (SFltb new_val (f64_sub old_val max_diff)) && negb (SFltb (f64_add old_val max_diff) new_val).

(** The constants 1e-5, M_PI, 45 *)
Definition small : fl := f64_div d1 (f64_of_Z 100000).
Definition M_PI : fl := S754_finite false 7074237752028440 (-51).

(** planner.cc:377-397: the loop of determine_joining_speed; [first] is is_first *)
Fixpoint join_axes (from to : target) (first : bool) (speed : fl) (l : list axis) : fl :=
  match l with
  | [] => speed
  | a :: r =>
      let fd := t_delta from a in
      let td := t_delta to a in
      if (fd =? 0) && (td =? 0) then join_axes from to first speed r
      else if (fd =? 0) || (td =? 0) then d0
      else if ((fd <? 0) && (0 <? td)) || ((0 <? fd) && (td <? 0)) then d0
      else
        let conversion := f64_div (f64_mul d1 (f64_of_Z (t_delta from (t_axis from)))) (f64_of_Z fd) in
        let goal := f64_mul (speed_for to a) conversion in
        if SFltb goal d0 then d0
        else if first || within goal speed small then join_axes from to false (fmin goal speed) r
        else d0
  end.
(** planner.cc:340-400 determine_joining_speed *)
Definition joining_speed (from to : target) (threshold tune : fl) : fl :=
  let dot := f64_add (f64_add (f64_mul (t_dx from) (t_dx to)) (f64_mul (t_dy from) (t_dy to))) (f64_mul (t_dz from) (t_dz to)) in
  let mag := f64_mul (t_len from) (t_len to) in
  if SFeqb dot d0 then d0
  else if SFltb dot d0 then d0
  else
    let dotmag := f64_div dot mag in
    if within d1 dotmag small then t_speed to
    else
      let rad2deg := f64_div (f64_of_Z 180) M_PI in
      let angle := f64_abs (f64_mul (p_acos cfg dotmag) rad2deg) in
      if SFleb (f64_of_Z 45) angle then d0
      else if SFleb angle threshold then
        if SFltb dot d1 then
          let deg2rad := f64_div M_PI (f64_of_Z 180) in
          f64_mul (t_speed to) (p_cos cfg (f64_mul (f64_add angle tune) deg2rad))
        else t_speed to
      else join_axes from to true (t_speed from) all_axes.

(** planner.cc:229-234 axis_delta_to_mm *)
Definition delta_mm (t : axis -> Z) (a : axis) : fl :=
  if SFeqb (spm a) d0 then d0 else f64_div (f64_of_Z (t a)) (f64_of_f32 (spm a)).

(** planner.cc:691-771 DecelerationPlanSegment: the result and the new profile *)
Definition decelerate (seg : pseg) (next : option pseg) : bool * profile :=
  let t := s_target seg in
  let p := s_plan seg in
  if SFeqb (t_speed t) d0 then (true, p)
  else
    let delta := Z.abs (t_delta t (t_axis t)) in
    let next_axis := match next with None => t_axis t | Some n => t_axis (s_target n) end in
    let next_v0 := match next with None => d0 | Some n => fmin (f_v1 (s_plan n)) (t_start (s_target n)) end in
    let factor := speed_factor t next_axis in
    let end_speed := if SFeqb factor d0 then d0 else f64_div next_v0 factor in
    if SFeqb (f_v2 p) end_speed && (match next with None => false | _ => true end) then (false, p)
    else if SFltb end_speed (t_speed t) then
      let to_max := int_from (ramp_distance end_speed (t_speed t) (t_accel t)) in
      let decel := u32 (if delta <? to_max then delta else to_max) in
      let v1 := if 0 <? to_max then ramp_speed (f64_of_Z decel) end_speed (t_accel t) else t_speed t in
      (true, mk_profile 0 (u32 (delta - decel)) decel (f_v0 p) v1 end_speed)
    else (true, mk_profile 0 (u32 delta) 0 (f_v0 p) (t_speed t) (t_speed t)).

(** planner.cc:126 TotalSteps *)
Definition total_steps (p : profile) : Z := u32 (f_accel p + f_travel p + f_decel p).
(** planner.cc:773-848 AccelerationPlanSegment *)
Definition accelerate (prev : option pseg) (seg : pseg) : bool * profile :=
  let t := s_target seg in
  let p := s_plan seg in
  let prev_v2 := match prev with None => f_v0 p | Some s => f_v2 (s_plan s) end in
  let factor := speed_factor t (t_axis t) in
  let start := if SFeqb factor d0 then d0 else f64_div prev_v2 factor in
  if SFeqb (f_v1 p) d0 then (false, mk_profile (f_accel p) (f_travel p) (f_decel p) start (f_v1 p) (f_v2 p))
  else if SFleb (f_v1 p) start then (false, mk_profile 0 (f_travel p) (f_decel p) (f_v1 p) (f_v1 p) (f_v2 p))
  else
    let steps := total_steps p in
    let to_max := uint_from (ramp_distance start (f_v1 p) (t_accel t)) in
    if to_max <=? f_travel p then (true, mk_profile to_max (f_travel p - to_max) (f_decel p) start (f_v1 p) (f_v2 p))
    else
      let end_speed := ramp_speed (f64_of_Z steps) start (t_accel t) in
      if SFltb (f_v2 p) end_speed then
        let accel := uint_from (intersection start (f_v2 p) (t_accel t) (f64_of_Z steps)) in
        let v1 := ramp_speed (f64_of_Z accel) start (t_accel t) in
        if SFleb v1 (f_v2 p) then (true, mk_profile steps 0 0 start v1 v1)
        else (true, mk_profile accel 0 (u32 (steps - accel)) start v1 (f_v2 p))
      else (true, mk_profile steps 0 0 start end_speed end_speed).

Definition with_plan (s : pseg) (p : profile) : pseg := mk_pseg (s_target s) p.
(** planner.cc:867-875: the backward pass over the segments from num_segments_ready_ on,
    the last first; [done] are those behind, already planned. The segments that the forward
    pass begins with are those behind the one that breaks the loop. *)
Fixpoint backward (rev_segs : list pseg) (done : list pseg) : list pseg * list pseg :=
  match rev_segs with
  | [] => ([], done)
  | s :: r =>
      let '(go, p) := decelerate s (match done with [] => None | n :: _ => Some n end) in
      if go : bool then backward r (with_plan s p :: done) else (rev rev_segs, done)
  end.
(** planner.cc:880-890: the forward pass; the first index with an acceleration *)
Fixpoint forward (prev : option pseg) (ix : Z) (segs : list pseg) : list pseg * option Z :=
  match segs with
  | [] => ([], None)
  | s :: r =>
      let '(acc, p) := accelerate prev s in
      let s' := with_plan s p in
      let '(r', first) := forward (Some s') (ix + 1) r in
      (s' :: r', if acc then Some ix else first)
  end.
(** planner.cc:853-891 UpdateMotionProfile *)
Definition update_profile (buf : list pseg) (ready : Z) : list pseg * Z :=
  let fixed := firstn (Z.to_nat ready) buf in
  let '(kept, behind) := backward (rev (skipn (Z.to_nat ready) buf)) [] in
  let pre := fixed ++ kept in
  let '(planned, first) := forward None (Z.of_nat (length pre)) behind in
  (pre ++ planned, match first with Some i => i | None => ready end).

(** planner.cc:445-449 assign_steps_to_motors for all axes in turn *)
Definition assign_all (steps : axis -> Z) : mreg :=
  fold_left (fun out a => assign_motor_steps (p_hw cfg) a (steps a) out) all_axes (fun _ => 0).
(** planner.cc:204-213 subtract_steps: the difference, and if it has a step *)
Definition subtract_steps (v s : mreg) : mreg * bool :=
  (fun m => v m - s m, existsb (fun m => negb (v m - s m =? 0)) all_motors).

(** planner.cc:501-537: the three commands of a segment, and if the middle one has steps *)
Definition commands (s : pseg) : command * command * command * bool :=
  let t := s_target s in
  let p := s_plan s in
  let total := f64_of_Z (total_steps p) in
  let part n := assign_all (fun a => lround (f64_mul (f64_div (f64_of_Z n) total) (f64_of_Z (t_delta t a)))) in
  let none : mreg := fun _ => 0 in
  let accel := if f_accel p =? 0 then mk_command d0 d0 (t_aux t) none
               else mk_command (f32_of_f64 (f_v0 p)) (f32_of_f64 (f_v1 p)) (t_aux t) (part (f_accel p)) in
  let decel := if f_decel p =? 0 then mk_command d0 d0 (t_aux t) none
               else mk_command (f32_of_f64 (f_v1 p)) (f32_of_f64 (f_v2 p)) (t_aux t) (part (f_decel p)) in
  let '(m1, _) := subtract_steps (assign_all (t_delta t)) (c_steps accel) in
  let '(m2, has_move) := subtract_steps m1 (c_steps decel) in
  (accel, mk_command (f32_of_f64 (f_v1 p)) (f32_of_f64 (f_v1 p)) (t_aux t) m2, decel, has_move).

(** SegmentQueue::Enqueue: the result and the new log *)
Definition sent (log : list told) : list command :=
  flat_map (fun e => match e with Segment c _ => [c] | _ => [] end) log.
Definition enqueue (c : command) (log : list told) : bool * list told :=
  let ok := p_accepts cfg (c :: sent log) in (ok, Segment c ok :: log).

(** planner.cc:541-543 *)
Definition send (s : pseg) (ret : bool) (log : list told) : bool * list told :=
  let '(accel, move, decel, has_move) := commands s in
  let '(ret, log) := if f_accel (s_plan s) =? 0 then (ret, log) else enqueue accel log in
  let '(ret, log) := if has_move && ret then enqueue move log else (ret, log) in
  if negb (f_decel (s_plan s) =? 0) && ret then enqueue decel log else (ret, log).

(** planner.cc:494-562: the loop over the first [n] segments *)
Fixpoint issue (n : nat) (ret : bool) (st : planner) : outcome (bool * planner) :=
  match n with
  | O => Ok (ret, st)
  | S n =>
      match p_buf st with
      | [] => Undefined
      | s :: rest =>
          let '(ret, log) := send s ret (p_log st) in
          match rest with
          | [] => issue n false (mk_planner [holder (t_pos (s_target s))] 0 (p_look st) true (p_known st) log)
          | _ => issue n ret (mk_planner rest (if 0 <? p_ready st then p_ready st - 1 else p_ready st) (p_look st) (p_halted st) (p_known st) log)
          end
      end
  end.
Definition size (st : planner) : Z := Z.of_nat (length (p_buf st)).
(** planner.cc:461-565 issue_motor_move_if_possible *)
Definition issue_if_possible (flush : bool) (st : planner) : outcome (bool * planner) :=
  let n := if flush then size st else 0 in
  let extra := size st - p_look st in
  let n := if (n =? 0) && (0 <=? extra) then extra + 1 else n in
  issue (Z.to_nat n) true st.

(** planner.cc:607-621: positions and differences; the axis with most steps, the first of
    several *)
Definition defining (delta : axis -> Z) : Z * axis :=
  fold_left (fun '(m, d) a => if m <? Z.abs (delta a) then (Z.abs (delta a), a) else (m, d)) all_axes (-1, AX).
(** planner.cc:625-664: the new target *)
Definition new_target (prev : target) (pos : axis -> Z) (feedrate : fl) (aux : Z) : target :=
  let delta a := pos a - t_pos prev a in
  let d := snd (defining delta) in
  let dx := delta_mm delta AX in
  let dy := delta_mm delta AY in
  let dz := delta_mm delta AZ in
  let len := euclid dx dy dz in
  let speed := f64_of_f32 (f32_mul feedrate (spm d)) in
  (* 451-458 euclidian_speed *)
  let factor := if SFltb d0 len then f64_div (f64_abs (delta_mm delta d)) len else d1 in
  let speed := f64_mul speed factor in
  let t := mk_target pos delta d speed speed d0 aux dx dy dz len in
  let start := fmin (joining_speed prev t (f64_of_f32 (p_threshold cfg)) (f64_of_f32 (p_tune cfg))) speed in
  let speed := fmin (f64_of_f32 (clamp_limit delta (p_max_feedrate cfg) d)) speed in
  let accel := f64_of_f32 (clamp_limit delta (p_acceleration cfg) d) in
  mk_target pos delta d start speed accel aux dx dy dz len.

(** planner.cc:582-676 machine_move; [aux] is what GetAuxBits returns *)
Definition machine_move (to : axis -> fl) (feedrate : fl) (aux : Z) (st : planner) : outcome (bool * planner) :=
  if negb (p_known st) then Undefined
  else if negb (size st <? capacity) then Undefined
  else
    match rev (p_buf st) with
    | [] => Undefined
    | last :: _ =>
        let prev := s_target last in
        let pos a := lround (f32_mul (to a) (spm a)) in
        if fst (defining (fun a => pos a - t_pos prev a)) =? 0 then Ok (true, st)
        else
          let '(buf, ready) := update_profile (p_buf st ++ [mk_pseg (new_target prev pos feedrate aux) no_plan]) (p_ready st) in
          obind (issue_if_possible false (mk_planner buf ready (p_look st) (p_halted st) (p_known st) (p_log st)))
            (fun '(ret, st) => Ok (ret, mk_planner (p_buf st) (p_ready st) (p_look st) (if ret then false else p_halted st) (p_known st) (p_log st)))
    end.

(** planner.cc:678-683 bring_path_to_halt *)
Definition bring_to_halt (st : planner) : outcome planner :=
  if p_halted st then Ok st else obind (issue_if_possible true st) (fun '(_, st) => Ok st).

(** planner.cc:935-948 SetExternalPosition *)
Definition external_position (a : axis) (pos : fl) (st : planner) : outcome planner :=
  match p_buf st, p_halted st with
  | [s], true =>
      let steps := lround (f32_mul pos (spm a)) in
      let t := s_target s in
      let t := mk_target (set_axis (t_pos t) a steps) (t_delta t) (t_axis t) (t_start t) (t_speed t) (t_accel t) (t_aux t) (t_dx t) (t_dy t) (t_dz t) (t_len t) in
      let log := fold_left (fun log m => if Z.testbit (hw_drivers (p_hw cfg) a) (motor_ix m) then External m steps :: log else log) all_motors (p_log st) in
      Ok (mk_planner [mk_pseg t (s_plan s)] (p_ready st) (p_look st) (p_halted st) true log)
  | _, _ => Undefined
  end.

(** planner.cc:427-430 *)
Definition max_axis_speed (a : axis) : fl := f32_mul (p_max_feedrate cfg a) (spm a).
(** planner.cc:910-933 DirectDrive: the steps *)
Definition direct_drive (a : axis) (distance v0 v1 : fl) (aux : Z) (st : planner) : outcome (Z * planner) :=
  obind (bring_to_halt st) (fun st =>
    let steps := lround (f32_mul distance (spm a)) in
    let c := mk_command (fmin (f32_mul v0 (spm a)) (max_axis_speed a)) (fmin (f32_mul v1 (spm a)) (max_axis_speed a)) aux
               (assign_motor_steps (p_hw cfg) a steps (fun _ => 0)) in
    let '(_, log) := enqueue c (p_log st) in
    Ok (steps, mk_planner (p_buf st) (p_ready st) (p_look st) (p_halted st) false log)).

(** planner.cc:239-245 SetLookahead, GetMaxLookahead *)
Definition set_lookahead (n : Z) (st : planner) : bool * planner :=
  if (n <=? 0) || (PLANNING_BUFFER_CAPACITY <? n) then (false, st)
  else (true, mk_planner (p_buf st) (p_ready st) n (p_halted st) (p_known st) (p_log st)).

(** planner.cc:402-435: the constructor *)
Definition new_planner : outcome planner :=
  fold_left (fun o a => obind o (external_position a (if p_home_max cfg a then p_range cfg a else d0))) all_axes
    (Ok (mk_planner [holder (fun _ => 0)] 0 PLANNING_BUFFER_CAPACITY true true [])).

(** The calls. *)
Inductive call :=
| Move (to : axis -> fl) (feedrate : fl) (aux : Z)    (* Enqueue *)
| Halt                                                (* BringPathToHalt *)
| Drive (a : axis) (distance v0 v1 : fl) (aux : Z)    (* DirectDrive *)
| Position (a : axis) (pos : fl)                      (* SetExternalPosition *)
| Lookahead (n : Z).                                  (* SetLookahead *)
Definition perform (o : call) (st : planner) : outcome planner :=
  match o with
  | Move to f aux => obind (machine_move to f aux st) (fun '(_, st) => Ok st)
  | Halt => bring_to_halt st
  | Drive a d v0 v1 aux => obind (direct_drive a d v0 v1 aux st) (fun '(_, st) => Ok st)
  | Position a p => external_position a p st
  | Lookahead n => Ok (snd (set_lookahead n st))
  end.
Fixpoint perform_all (os : list call) (st : planner) : outcome planner :=
  match os with [] => Ok st | o :: r => obind (perform o st) (perform_all r) end.
Definition history (os : list call) : outcome planner := obind new_planner (perform_all os).
End Planner.
