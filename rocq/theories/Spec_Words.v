(** Specification: the words of a G-code line (a letter and its value), and what it means
    that a line does something and then what the rest of it does. *)
From Verif Require Import Base Text Model_Float Model_Axis Model_Gcode Spec_Expr.

(** Behind white space and perhaps a comment the text [line] goes on with [l]. *)
Definition opens (line l : text) : Prop :=
  skip_spaces line = l \/
  exists w r, skip_spaces line = "("%char :: w ++ ")"%char :: r /\ ~ In ")"%char w /\ l = skip_spaces r.

(** [line] begins with a word: a letter, which does not begin IF or WHILE, and an operand
    (Spec_Expr) with the value [v]; [rest] is behind it. *)
Definition word (c : gcfg) (s : gst) (line : text) (letter : ascii) (v : fl) (rest : text) : Prop :=
  exists x r r', ~ In NUL line /\ opens line (x :: r) /\ is_alpha x = true /\ letter = to_upper x /\
    (forall t, ~ written (txt "IF") (x :: r) t /\ ~ written (txt "WHILE") (x :: r) t) /\
    operand c s (skip_spaces r) (Some v) r' /\ rest = skip_spaces r'.

Inductive words (c : gcfg) (s : gst) : text -> list (ascii * fl) -> text -> Prop :=
| ws_none line : words c s line [] line
| ws_more line letter v l ws rest : word c s line letter v l -> words c s l ws rest -> words c s line ((letter, v) :: ws) rest.

(** Nothing but a comment follows. *)
Definition line_end (line : text) : Prop :=
  skip_spaces line = [] \/ (exists r, skip_spaces line = ";"%char :: r \/ skip_spaces line = "%"%char :: r) \/ opens line [].

(** [rest] is the end of the line or begins with a word whose letter is not one of [mine]. *)
Definition ends_at (c : gcfg) (s : gst) (mine : ascii -> bool) (rest : text) : Prop :=
  line_end rest \/ exists letter v r, word c s rest letter v r /\ mine letter = false.

(** The result of a line, with any large number of rounds. *)
Definition outcome (c : gcfg) (line : text) (s : gst) (r : res unit) : Prop :=
  exists n, forall f, (n <= f)%nat -> parse_block c f line s = r.
(** The line [line] in the state [s] does what leads to [s1], and then what [rest] does. *)
Definition leads (c : gcfg) (line : text) (s : gst) (rest : text) (s1 : gst) : Prop :=
  forall r, outcome c rest s1 r -> outcome c line s r.

(** The state with further events, the oldest first. *)
Definition seen (es : list event) (s : gst) : gst := with_events s (rev es ++ g_events s).
(** A command begins: a program is started if there is none, and the memory of the last
    spline is dropped. *)
Definition begun (s : gst) : gst :=
  with_first (if g_running s then s else with_running (seen [EStart (negb (g_iterating s))] s) true) false.

(** The last value given for a letter, if any. *)
Definition last_value (letter : ascii) (ws : list (ascii * fl)) : option fl :=
  fold_left (fun r w => if Ascii.eqb (fst w) letter then Some (snd w) else r) ws None.
Definition mentioned (letter : ascii) (ws : list (ascii * fl)) : bool := existsb (fun w => Ascii.eqb (fst w) letter) ws.
(** The letters of [ws] are all of [mine]. *)
Definition only (mine : ascii -> bool) (ws : list (ascii * fl)) : Prop := Forall (fun w => mine (fst w) = true) ws.
Definition is_axis_letter (l : ascii) : bool := existsb (fun a => Ascii.eqb (axis_letter a) l) all_axes.
