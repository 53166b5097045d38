(** The logical axes: gcode-parser/gcode-parser.h:45-57. *)
From Verif Require Import Base Text.

Inductive axis := AX | AY | AZ | AA | AB | AC | AU | AV | AW | AE.

(** Enumeration value (index into registers, bit number in bitmaps). *)
Definition axis_ix (a : axis) : Z :=
  match a with
  | AX => 0 | AY => 1 | AZ => 2 | AA => 3 | AB => 4 | AC => 5 | AU => 6 | AV => 7 | AW => 8 | AE => 9
  end.
(** gcode-parser.h:58 AllAxes *)
Definition all_axes : list axis := [AX; AY; AZ; AA; AB; AC; AU; AV; AW; AE].
Definition axis_eqb (a b : axis) : bool := axis_ix a =? axis_ix b.

(** gcode-parser.cc:49-64 gcodep_axis2letter *)
Definition axis_letter (a : axis) : ascii :=
  match a with
  | AX => "X" | AY => "Y" | AZ => "Z" | AA => "A" | AB => "B" | AC => "C"
  | AU => "U" | AV => "V" | AW => "W" | AE => "E"
  end.
(** gcode-parser.cc:68-82 gcodep_letter2axis; [None] is GCODE_NUM_AXES *)
Definition letter_axis (c : ascii) : option axis :=
  find (fun a => Ascii.eqb (axis_letter a) (to_upper c)) all_axes.

(** A register with one value per axis (AxesRegister, gcode-parser.h:61). *)
Definition set_axis {A} (r : axis -> A) (a : axis) (v : A) : axis -> A :=
  fun x => if axis_eqb x a then v else r x.
