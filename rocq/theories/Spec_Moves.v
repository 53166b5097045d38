(** Specification: where a G-code move goes. *)
From Coq Require Import SpecFloat.
From Verif Require Import Base Text Model_Float Model_Axis Model_Gcode Spec_Words.

(** The origin of the selected coordinate system: that of the machine or one of nine. *)
Definition system_origin (c : gcfg) (s : gst) (a : axis) : fl :=
  match g_origin s with None => gc_origin c a | Some i => g_cs s i a end.
(** The offset of G92, unless it is suspended. *)
Definition active_offset (s : gst) (a : axis) : fl := if g_offset s then g_g92 s a else f32_of_Z 0.
(** What the coordinates of an axis are relative to: in absolute mode the origin and the
    offset, in relative mode the present position. *)
Definition reference (c : gcfg) (s : gst) (a : axis) : fl :=
  if g_abs s a then f32_add (system_origin c s a) (active_offset s a) else g_pos s a.
(** Millimetres for a given number: the unit is for axes that are not rotary. *)
Definition length_of (s : gst) (a : axis) (v : fl) : fl :=
  f32_mul v (match a with AA | AB | AC => f32_of_Z 1 | _ => g_unit s end).
Definition goal_of (c : gcfg) (s : gst) (a : axis) (v : fl) : fl :=
  f32_add (reference c s a) (f32_mul (length_of s a v) (g_scale s a)).
(** The last word for an axis counts; without one it stays. *)
Definition destination (c : gcfg) (s : gst) (ws : list (ascii * fl)) (a : axis) : fl :=
  match last_value (axis_letter a) ws with Some v => goal_of c s a v | None => g_pos s a end.
(** Millimetres per second from units per minute; -1 for none. *)
Definition speed_of (s : gst) (ws : list (ascii * fl)) : fl :=
  match last_value "F" ws with Some v => f32_div (f32_mul v (g_unit s)) (f32_of_Z 60) | None => f32_of_Z (-1) end.

(** The letters of a move. *)
Definition move_letter (l : ascii) : bool := is_axis_letter l || Ascii.eqb l "F" || Ascii.eqb l "S".
Definition spindle_speeds (ws : list (ascii * fl)) : list event :=
  map (fun w => ESpindleSpeed (snd w)) (filter (fun w => Ascii.eqb (fst w) "S") ws).

(** What a move does in the state [s], after the words have been read: the receiver may
    shift the destination into the allowed range and is then asked to move there; only if
    it does so is that the new position. *)
Definition moved (c : gcfg) (coordinated : bool) (feed : fl) (affected : axis -> bool) (target : axes) (s : gst) : gst :=
  let s1 := seen [EClamp affected target] s in
  let allowed := r_pos (gc_reply c (g_events s1)) target in
  let s2 := seen [EMove coordinated feed allowed] s1 in
  if r_ok (gc_reply c (g_events s2)) then with_pos s2 allowed else s2.

(** The number of a command, as in G90.1: tenths of it. *)
Definition is_number (v : fl) (tenths : Z) : bool := SFeqb v (f32_div (f32_of_Z tenths) (f32_of_Z 10)).
Definition inch : fl := f32_div (f32_of_Z 254) (f32_of_Z 10).

(** Commands that only change a mode. *)
Definition mode_change (c : gcfg) (letter : ascii) (v : fl) : option (gst -> gst) :=
  let n := int_of c v in
  if Ascii.eqb letter "G" then
    if n =? 17 then Some (fun s => with_normal s AZ)
    else if n =? 18 then Some (fun s => with_normal s AY)
    else if n =? 19 then Some (fun s => with_normal s AX)
    else if (n =? 20) || (n =? 70) then Some (fun s => with_unit s inch)
    else if (n =? 21) || (n =? 71) then Some (fun s => with_unit s (f32_of_Z 1))
    else if n =? 50 then Some (fun s => with_scale s (fun _ => f32_of_Z 1))
    else if n =? 90 then if is_number v 900 then Some (fun s => with_abs s (fun _ => true) true) else None
    else if n =? 91 then if is_number v 910 then Some (fun s => with_abs s (fun _ => false) false) else None
    else None
  else if Ascii.eqb letter "M" then
    if n =? 82 then Some (fun s => with_abs s (fun a => match a with AE => true | _ => g_abs s a end) (g_abs_g90 s))
    else if n =? 83 then Some (fun s => with_abs s (fun a => match a with AE => false | _ => g_abs s a end) (g_abs_g90 s))
    else None
  else None.
