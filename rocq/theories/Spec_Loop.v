(** Specification of WHILE loops: the program that is written out instead of the loop. *)
From Coq Require Import SpecFloat.
From Verif Require Import Base Text Model_Float Model_Axis Model_Lexer Model_Gcode Spec_Lexer.

(** The lines, given one after the other to a parser in the state [s], lead to [s']. *)
Definition runs (c : gcfg) (lines : list text) (s s' : gst) : Prop := exists f, each (parse_block c f) lines s = Done tt s'.

(** The expression [t] (behind its opening bracket) has the value [v], with [rest] behind it; None: it has none. *)
Definition condition_is (c : gcfg) (t : text) (s : gst) (r : option (fl * text)) (s' : gst) : Prop := exists f, expression c f t s = Done r s'.

(** A line with WHILE, in any letter case, and the opening bracket; [cond] is behind it. *)
Definition opens_loop (line cond : text) : Prop :=
  exists w r, skip_spaces line = w ++ r /\ map to_upper w = txt "WHILE" /\ skip_spaces r = "["%char :: cond.
(** A line with END. *)
Definition closes_loop (line : text) : Prop := ci_prefix (txt "END") (skip_spaces line).
(** A line of a file, without the newline at its end *)
Definition one_line (b : text) : Prop := ~ In NUL b /\ ~ In LF b.

(** Empty lines and comments are not part of a loop, neither is white space at the beginning of a line. Behind the last line there is
    an empty one. *)
Definition kept (b : text) : list text :=
  match skip_spaces b with [] => [] | x :: r => if Ascii.eqb x ";" || Ascii.eqb x "%" then [] else [x :: r] end.
Definition loop_lines (body : list text) : list text := flat_map kept body ++ [[]].

(** The text is followed by DO. *)
Definition then_do (rest : text) : Prop := ci_prefix (txt "DO") (skip_spaces rest).
Definition all_done (k : nat) (s : gst) : gst := with_events s (repeat EBlockDone k ++ g_events s).
Definition one_more_error (s : gst) : gst := with_errors s (g_errors s + 1).

(** The lines written out [n] times: the condition is evaluated before each time and behind the last, and it is not zero but the last
    time. A condition that has no value or is not followed by DO ends the loop with an error. *)
Inductive unrolled (c : gcfg) (cond : text) (lines : list text) : nat -> gst -> gst -> Prop :=
| un_end : forall s v rest s', condition_is c cond s (Some (v, rest)) s' -> SFeqb v f0 = true -> unrolled c cond lines 0 s s'
| un_again : forall s v rest s1 s2 n s', condition_is c cond s (Some (v, rest)) s1 -> SFeqb v f0 = false -> then_do rest ->
    runs c lines s1 s2 -> unrolled c cond lines n s2 s' -> unrolled c cond lines (S n) s s'
| un_no_value : forall s s', condition_is c cond s None s' -> unrolled c cond lines 0 s (one_more_error s')
| un_no_do : forall s v rest s', condition_is c cond s (Some (v, rest)) s' -> SFeqb v f0 = false -> ~ then_do rest -> unrolled c cond lines 0 s (one_more_error s').

(** Two states that differ only in the text of the last loop; gcode_start() may have been called without a parser. *)
Definition owned (e : event) : event := match e with EStart _ => EStart true | _ => e end.
Definition alike (s t : gst) : Prop :=
  map owned (g_events s) = map owned (g_events t) /\
  t = mk_gst (g_events t) (g_params s) (g_running s) (g_modal s) (g_unit s) (g_abs s) (g_abs_g90 s) (g_ijk_abs s) (g_pos s) (g_scale s) (g_cs s) (g_g92 s) (g_origin s)
        (g_offset s) (g_normal s) (g_cp2 s) (g_first_spline s) (g_do_while s) (g_cond t) (g_loop t) (g_iterating s) (g_debug s) (g_errors s).
(** A receiver that does not use the parser it gets from gcode_start() *)
Definition ignores_owner (c : gcfg) : Prop := forall ev, gc_reply c (map owned ev) = gc_reply c ev.
