(** Specification: what the words of arcs (G2, G3) and splines (G5, G5.1) ask for. *)
From Coq Require Import SpecFloat.
From Verif Require Import Base Text Model_Float Model_Axis Model_Gcode Spec_Words Spec_Moves.

Definition arc_letter (l : ascii) : bool := existsb (fun x => Ascii.eqb x l) (map axis_letter all_axes ++ ["I"; "J"; "K"; "R"; "P"; "F"]%char).
Definition spline_letter (l : ascii) : bool := existsb (fun x => Ascii.eqb x l) (map axis_letter all_axes ++ ["I"; "J"; "P"; "Q"; "F"]%char).

(** A length given with this letter, in millimetres; zero without it. *)
Definition millimetres (s : gst) (letter : ascii) (ws : list (ascii * fl)) : fl :=
  match last_value letter ws with Some v => f32_mul v (g_unit s) | None => f32_of_Z 0 end.
(** The same in the scale of an axis *)
Definition offset_by (s : gst) (letter : ascii) (a : axis) (ws : list (ascii * fl)) : fl :=
  match last_value letter ws with Some v => f32_mul (f32_mul v (g_unit s)) (g_scale s a) | None => f32_of_Z 0 end.

(** What is asked of the receiver; if it agrees the target is the new position. *)
Definition asked (c : gcfg) (e : event) (target : axes) (s : gst) : gst :=
  let s1 := seen [e] s in if r_ok (gc_reply c (g_events s1)) then with_pos s1 target else s1.
(** An error is reported. *)
Definition reported (s : gst) : gst := with_errors s (g_errors s + 1).

(** ** Arcs *)
(** From the start to the centre: given by I, J and K, or found for the radius R; None if it is neither of the two or both, if it
    leaves the plane, or for several turns. *)
Definition in_plane (normal : axis) : axis * axis := match normal with AX => (AY, AZ) | AY => (AX, AZ) | _ => (AX, AY) end.
Definition to_centre (c : gcfg) (s : gst) (clockwise : bool) (ws : list (ascii * fl)) : option (axis -> fl) :=
  let by_offset := mentioned "I" ws || mentioned "J" ws || mentioned "K" ws in
  let by_radius := mentioned "R" ws in
  let turns := match last_value "P" ws with Some v => int_of c v | None => 1 end in
  let offset a := match a with AX => offset_by s "I" AX ws | AY => offset_by s "J" AY ws | AZ => offset_by s "K" AZ ws | _ => f32_of_Z 0 end in
  if negb (turns =? 1) then None
  else if by_offset && by_radius then None
  else if by_offset then if SFeqb (offset (g_normal s)) (f32_of_Z 0) then Some offset else None
  else if by_radius then
    let '(a, b) := in_plane (g_normal s) in
    match gc_center c (g_pos s a) (g_pos s b) (destination c s ws a) (destination c s ws b) (millimetres s "R" ws) clockwise with
    | Some (x, y) => Some (fun d => if axis_eqb d a then x else if axis_eqb d b then y else f32_of_Z 0)
    | None => None
    end
  else None.

(** ** Splines *)
Definition is_cubic (v : fl) : bool := is_number v 50.
Definition is_quadratic (v : fl) : bool := is_number v 51.
(** The control points of a cubic spline: the first by I and J from the start, or the mirrored last one of the spline just before;
    the second by P and Q from the target. *)
Definition cubic_points (c : gcfg) (s : gst) (ws : list (ascii * fl)) : option ((axis -> fl) * (axis -> fl)) :=
  let first a letter := if mentioned letter ws then offset_by s letter a ws else SFopp (g_cp2 s a) in
  if (mentioned "P" ws || mentioned "Q" ws) && Bool.eqb (mentioned "I" ws) (mentioned "J" ws) && (mentioned "I" ws || g_first_spline s) then
    Some (fun a => match a with AX => f32_add (first AX "I"%char) (g_pos s AX) | AY => f32_add (first AY "J"%char) (g_pos s AY) | _ => f32_of_Z 0 end,
          fun a => match a with AX => f32_add (offset_by s "P" AX ws) (destination c s ws AX)
                              | AY => f32_add (offset_by s "Q" AY ws) (destination c s ws AY) | _ => f32_of_Z 0 end)
  else None.
(** Those of a quadratic spline as the code takes them *)
Definition quadratic_points (s : gst) (ws : list (ascii * fl)) : option ((axis -> fl) * (axis -> fl)) :=
  let x := offset_by s "I" AX ws in
  let y := offset_by s "J" AY ws in
  let part n v := f32_div (f32_mul v (f32_of_Z n)) (f32_of_Z 3) in
  let one a v := f32_add (g_pos s a) (part 2 v) in
  let two a v := f32_add (one a v) (part 1 v) in
  if (mentioned "I" ws || mentioned "J" ws) && negb (SFeqb x (f32_of_Z 0) && SFeqb y (f32_of_Z 0)) then
    Some (fun a => match a with AX => one AX x | AY => one AY y | _ => f32_of_Z 0 end,
          fun a => match a with AX => two AX x | AY => two AY y | _ => f32_of_Z 0 end)
  else None.
