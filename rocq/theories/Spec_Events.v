(** Specification: what the receiver of a G-code parser may see. Histories are written with
    the newest event first. *)
From Verif Require Import Base Text Model_Float Model_Axis Model_Gcode.

(** Between the start of a program and its end. *)
Fixpoint in_program (h : list event) : bool :=
  match h with
  | [] => false
  | EStart _ :: _ => true
  | EFinished false :: _ => false
  | _ :: r => in_program r
  end.

(** Everything but the marks of programs, commands, lines and streams. *)
Definition action (e : event) : bool :=
  match e with EStart _ | EFinished _ | ECommandDone _ _ | EBlockDone => false | _ => true end.

(** M2 and M30 *)
Definition ends_program (c : gcfg) (letter : ascii) (v : fl) : bool :=
  Ascii.eqb letter "M" && ((int_of c v =? 2) || (int_of c v =? 30)).

(** The machine is put back to its defaults: the offset of G92 is dropped, the speed factor
    is 1, fan and heater are off. *)
Definition reset (o : axes) : list event := [ETemperature f0; EFan f0; ESpeedFactor f1; EOrigin o (txt "H")].

(** A new parser resets the machine and selects a coordinate system. A program is started
    when none is in progress; actions and completed commands come within a program, and so
    does its end, which M2 and M30 report, followed by the reset and the completion of the
    command. Parameter assignments, completed lines and the end of the stream can come at
    any time. *)
Inductive legal (c : gcfg) : list event -> Prop :=
| lg_new : forall o o' name, legal c (EOrigin o' name :: reset o)
| lg_start : forall b h, legal c h -> in_program h = false -> legal c (EStart b :: h)
| lg_action : forall e h, legal c h -> in_program h = true -> action e = true -> legal c (e :: h)
| lg_command : forall letter v h, legal c h -> in_program h = true -> ends_program c letter v = false ->
    legal c (ECommandDone letter v :: h)
| lg_end : forall o letter v h, legal c h -> in_program h = true -> ends_program c letter v = true ->
    legal c (ECommandDone letter v :: reset o ++ EFinished false :: h)
| lg_assignment : forall v h, legal c h -> legal c (ECommandDone "#" v :: h)
| lg_line : forall h, legal c h -> legal c (EBlockDone :: h)
| lg_stream : forall h, legal c h -> legal c (EFinished true :: h).
