(** Specification: offsets, coordinate systems, homing and the defaults of a program. *)
From Coq Require Import Reals SpecFloat.
From Flocq Require Import Core IEEE754.BinarySingleNaN.
From Verif Require Import Base Text Model_Float Model_Axis Model_Gcode Spec_Real Spec_Words Spec_Moves.

(** What is reported when the origin changes: the origin of the coordinate system plus the
    active offset, for every axis. *)
Definition reports_origin (c : gcfg) (s : gst) (name : text) (e : event) : Prop :=
  exists o, e = EOrigin o name /\ forall a, o a = f32_add (system_origin c s a) (active_offset s a).

(** The offset by which the present position gets the coordinate [v]. *)
Definition renaming (c : gcfg) (s : gst) (a : axis) (v : fl) : fl :=
  f32_sub (f32_sub (g_pos s a) (f32_mul v (g_unit s))) (system_origin c s a).

(** Coordinate systems are numbered from 0: G54 to G59, G59.1 to G59.3. *)
Definition system_name (i : Z) : text :=
  match i with
  | 0 => txt "G54" | 1 => txt "G55" | 2 => txt "G56" | 3 => txt "G57" | 4 => txt "G58" | 5 => txt "G59"
  | 6 => txt "G59.1" | 7 => txt "G59.2" | 8 => txt "G59.3" | _ => []
  end.
Definition system_of (c : gcfg) (v : fl) : option Z :=
  let n := int_of c v in
  if (54 <=? n) && (n <=? 58) then Some (n - 54)
  else if n =? 59 then
    if is_number v 590 then Some 5 else if is_number v 591 then Some 6
    else if is_number v 592 then Some 7 else if is_number v 593 then Some 8 else None
  else None.

(** The modes at the start of a program. *)
Record default_modes (s : gst) : Prop := {
  dm_unit : g_unit s = f32_of_Z 1;
  dm_abs : forall a, g_abs s a = true;
  dm_g90 : g_abs_g90 s = true;
  dm_ijk : g_ijk_abs s = false;
  dm_scale : forall a, g_scale s a = f32_of_Z 1;
  dm_g92 : forall a, g_g92 s a = f32_of_Z 0;
  dm_offset : g_offset s = true;
  dm_normal : g_normal s = AZ;
  dm_spline : g_first_spline s = false;
  dm_loop : g_do_while s = false }.

(** Numbers on a grid of a power of two, such as multiples of 1/1024 mm up to 4 m. *)
Definition on_grid (e : Z) (x : fl) : Prop := fin32 x /\ exists m, Z.abs m <= 2 ^ 22 /\ val x = (IZR m * bpow radix2 e)%R.
