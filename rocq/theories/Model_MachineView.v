(** Model of src/gcode2ps.cc:841-1082: the picture of the movement of the motors
    (SegmentQueuePrinter), which gets the commands for the motors in two passes.

    The options that no flag of the command line sets are as in 84-91 (no vertices for ThreeJS,
    nothing is shown as out of range). int and float are as in the code; a conversion to int or
    a product that is outside of int, and a failed assertion, are [Undefined]. Positions are
    integers without bound. Not modelled: comments, the legend, the line width. *)
From Coq Require Import SpecFloat.
From Verif Require Import Base Model_Float Model_Axis Model_Spindle Model_Planner.

(** gcode2ps.cc:1409-1412: "a convenient mapping of gcode-axis == motor-number" *)
Definition motor_axis (m : motor) : axis :=
  match m with M1 => AX | M2 => AY | M3 => AZ | M4 => AA | M5 => AB | M6 => AC | M7 => AU | M8 => AV end.
(** What the printer is told: Enqueue and SetExternalPosition. *)
Inductive call := Move (c : command) | Place (m : motor) (pos : Z).
(** gcode2ps.cc:400-418: what is written *)
Definition point : Type := fl * fl * fl.
Inductive mark := GoTo (p : point) | DrawTo (p : point) | MoveColor | SpeedColor (index : Z).

Record mv_config := { mv_steps : axis -> fl; mv_speeds : bool; mv_length : fl (* color_segment_length_ *) }.
(** gcode2ps.cc:1068-1079 *)
Record mv := mk_mv { mv_pos : mreg; mv_min : fl; mv_max : fl; mv_low : fl; mv_high : fl; mv_index : Z; mv_colored : bool }.
Definition ten_billion : Z := 10000000000.
Definition mv_init : mv :=
  mk_mv (fun _ => 0) (f32_of_Z ten_billion) (f32_of_Z (- ten_billion)) (f32_of_Z 0) (f32_of_Z 0) (-1) false.

Section View.
Variable c : mv_config.
Definition spmm (m : motor) : fl := mv_steps c (motor_axis m).
(** gcode2ps.cc:1049-1054 and others: int divided by float *)
Definition mm (m : motor) (steps : Z) : fl := f32_div (f32_of_Z steps) (spmm m).
Definition place (pos : mreg) : point := (mm M1 (pos M1), mm M2 (pos M2), mm M3 (pos M3)).

(** gcode2ps.cc:878-886 *)
Definition dominant (s : mreg) : motor :=
  fold_left (fun d m => if Z.abs (s d) <? Z.abs (s m) then m else d) (tl all_motors) M1.
Definition nothing_to_do (s : mreg) : bool := SFeqb (spmm (dominant s)) (f32_of_Z 0) || (s (dominant s) =? 0).
(** gcode2ps.cc:898-902 and 948-950, 963-964: segment_len *)
Definition length_mm (s : mreg) : fl :=
  let d m := f32_mul (mm m (s m)) (mm m (s m)) in
  f32_sqrt (f32_add (f32_add (d M1) (d M2)) (d M3)).
(** 905-907, 969-971: segment_speed_factor *)
Definition speed_ratio (s : mreg) : fl :=
  f32_div (length_mm s) (f32_div (f32_of_Z (Z.abs (s (dominant s)))) (spmm (dominant s))).

(** gcode2ps.cc:872-875 RememberMinMax; std::max(v, max_v_), std::min(v, min_v_) *)
Definition remember (v : fl) (z : mv) : mv :=
  mk_mv (mv_pos z) (fl_min v (mv_min z)) (fl_max v (mv_max z)) (mv_low z) (mv_high z) (mv_index z) (mv_colored z).
(** gcode2ps.cc:890-913 *)
Definition look_at (k : command) (z : mv) : mv :=
  let s := Model_Planner.c_steps k in
  if Z.abs (s M1) + Z.abs (s M2) + Z.abs (s M3) <=? 3 then z
  else
    let v x := f32_mul (speed_ratio s) (f32_div x (spmm (dominant s))) in
    remember (v (c_v1 k)) (remember (v (c_v0 k)) z).

(** gcode2ps.cc:984-993 col_idx *)
Definition color_index (low high v : fl) : outcome Z :=
  if SFltb v low then Ok 0
  else if SFltb high v then Ok 255
  else
    let x := f64_div (f64_mul (f64_of_Z 255) (f64_of_f32 (f32_sub v low))) (f64_of_f32 (f32_sub high low)) in
    match to_int (fl_round (f32_of_f64 x)) with
    | Some i => if (0 <=? i) && (i <? 256) then Ok i else Undefined
    | None => Undefined
    end.
(** gcode2ps.cc:972-976 segments *)
Definition pieces (k : command) : outcome Z :=
  if SFeqb (c_v0 k) (c_v1 k) then Ok 1
  else match to_int (fl_trunc (f32_div (length_mm (Model_Planner.c_steps k)) (mv_length c))) with
       | Some n => Ok (if n =? 0 then 1 else n)
       | None => Undefined
       end.
(** gcode2ps.cc:978-980 v *)
Definition piece_speed (k : command) (n i : Z) : fl :=
  let s := Model_Planner.c_steps k in
  let v := f32_add (c_v0 k) (f32_div (f32_mul (f32_of_Z i) (f32_sub (c_v1 k) (c_v0 k))) (f32_of_Z n)) in
  f32_mul (f32_div v (spmm (dominant s))) (speed_ratio s).
(** gcode2ps.cc:1014-1016 TO_ABS_AXIS *)
Definition abs_axis (pos s : mreg) (n i : Z) (m : motor) : outcome fl :=
  match to_int (Some ((i + 1) * s m)) with
  | Some p => Ok (f32_div (f32_add (f32_of_Z (pos m)) (f32_div (f32_of_Z p) (f32_of_Z n))) (spmm m))
  | None => Undefined
  end.
(** gcode2ps.cc:977-1021: the loop from [i] on, with [todo] rounds; the last colour is
    passed on *)
Fixpoint draw_pieces (k : command) (pos : mreg) (low high : fl) (n : Z) (todo : nat) (i : Z) (last : Z) : outcome (Z * list mark) :=
  match todo with
  | O => Ok (last, [])
  | S todo =>
      let s := Model_Planner.c_steps k in
      obind (color_index low high (piece_speed k n i)) (fun idx =>
      obind (abs_axis pos s n i M1) (fun x => obind (abs_axis pos s n i M2) (fun y => obind (abs_axis pos s n i M3) (fun z =>
      obind (draw_pieces k pos low high n todo (i + 1) idx) (fun '(l, ms) =>
      Ok (l, (if idx =? last then [] else [SpeedColor idx]) ++ DrawTo (x, y, z) :: ms))))))
  end.
(** gcode2ps.cc:943-946 new_pos *)
Definition add_xyz (pos s : mreg) : mreg :=
  fun m => match m with M1 | M2 | M3 => pos m + s m | _ => pos m end.
Definition with_pos (z : mv) (pos : mreg) (index : Z) (colored : bool) : mv :=
  mk_mv pos (mv_min z) (mv_max z) (mv_low z) (mv_high z) index colored.
(** gcode2ps.cc:938-1037 PrintSegment *)
Definition print_segment (k : command) (z : mv) : outcome (mv * list mark) :=
  let s := Model_Planner.c_steps k in
  if (s M1 =? 0) && (s M2 =? 0) && (s M3 =? 0) then Ok (z, [])
  else
    let pos := add_xyz (mv_pos z) s in
    if mv_speeds c then
      if SFeqb (length_mm s) (f32_of_Z 0) then Ok (z, [])
      else
        obind (pieces k) (fun n =>
        obind (draw_pieces k (mv_pos z) (mv_low z) (mv_high z) n (Z.to_nat n) 0 (mv_index z)) (fun '(l, ms) =>
        Ok (with_pos z pos l (mv_colored z), ms)))
    else Ok (with_pos z pos (mv_index z) true, (if mv_colored z then [] else [MoveColor]) ++ [DrawTo (place pos)]).

(** gcode2ps.cc:877-919 Enqueue and 1042-1047 SetExternalPosition, first in the pass
    Preprocess, then in GenerateOutput *)
Definition first_step (e : call) (z : mv) : mv :=
  match e with
  | Move k => if nothing_to_do (Model_Planner.c_steps k) then z else look_at k z
  | Place m p => with_pos z (fun x => if motor_eqb x m then p else mv_pos z x) (mv_index z) (mv_colored z)
  end.
Definition second_step (e : call) (z : mv) : outcome (mv * list mark) :=
  match e with
  | Move k => if nothing_to_do (Model_Planner.c_steps k) then Ok (z, []) else print_segment k z
  | Place m p => let pos := fun x => if motor_eqb x m then p else mv_pos z x in
      Ok (with_pos z pos (mv_index z) (mv_colored z), [GoTo (place pos)])
  end.
Definition first_pass (es : list call) (z : mv) : mv := fold_left (fun z e => first_step e z) es z.
Fixpoint second_pass (es : list call) (z : mv) : outcome (mv * list mark) :=
  match es with
  | [] => Ok (z, [])
  | e :: r => obind (second_step e z) (fun '(z, o) => obind (second_pass r z) (fun '(z, o') => Ok (z, o ++ o')))
  end.
(** gcode2ps.cc:859-870 SetPass; 0.1 is a double *)
Definition tenth : fl := f64_div (f64_of_Z 1) (f64_of_Z 10).
Definition begin_output (z : mv) : mv :=
  let d := f64_mul tenth (f64_of_f32 (f32_sub (mv_max z) (mv_min z))) in
  mk_mv (mv_pos z) (mv_min z) (mv_max z) (f32_of_f64 (f64_add (f64_of_f32 (mv_min z)) d)) (f32_of_f64 (f64_sub (f64_of_f32 (mv_max z)) d))
        (mv_index z) (mv_colored z).
(** gcode2ps.cc:1428-1440: [first] are the commands of the file and of Reset, [second] those of
    the file, read again *)
Definition machine_picture (first second : list call) : outcome (list mark) :=
  let z := begin_output (first_pass first mv_init) in
  obind (second_pass second z) (fun '(_, o) => Ok (GoTo (place (mv_pos z)) :: o)).
End View.
