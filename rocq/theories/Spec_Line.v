(** Specification: which lines are harmless for the G-code parser. *)
From Verif Require Import Base Text Model_Float Model_Gcode Spec_Expr.

(** The last character of an operator, or an opening bracket. *)
Definition ends_operator (x : ascii) : bool :=
  existsb (Ascii.eqb (to_upper x)) (txt "[+-*/=<>&|DRQET").
Definition digit_next (line : text) : bool := match line with x :: _ => is_digit x | [] => false end.

(** Within each pair of brackets there is at most one minus sign behind an operator (or the
    opening bracket) that is not followed by a digit. [prev]: the character before [line],
    [seen]: for the open brackets, the innermost first, whether there was one. *)
Fixpoint one_minus (prev : ascii) (seen : list bool) (line : text) : bool :=
  match line with
  | [] => true
  | x :: r =>
      if is_space x then one_minus prev seen r
      else if Ascii.eqb x "[" then one_minus x (false :: seen) r
      else if Ascii.eqb x "]" then one_minus x (tl seen) r
      else if Ascii.eqb x "-" && ends_operator prev && negb (digit_next r) then
        match seen with
        | [] => one_minus x [] r
        | true :: _ => false
        | false :: l => one_minus x (true :: l) r
        end
      else one_minus x seen r
  end.

(** Every comment is closed. *)
Definition comments_closed (line : text) : Prop := forall a b, line = a ++ "("%char :: b -> In ")"%char b.
(** No WHILE in any letter case. *)
Definition no_while (line : text) : Prop := forall a b rest, line = a ++ b -> ~ written (txt "WHILE") b rest.

(** A harmless line: a C string in which the comments are closed, there is no "?" and there
    are no two such minus signs. *)
Record harmless (line : text) : Prop := {
  hl_string : ~ In NUL line;
  hl_comments : comments_closed line;
  hl_choice : ~ In "?"%char line;
  hl_minus : one_minus " " [] line = true }.

(** What is expected of the number reader (from_chars): it consumes at least one character
    and no bracket, and it reads a minus sign before a digit. *)
Record reads_numbers (c : gcfg) : Prop := {
  rn_consumes : forall t v rest, gc_number c t = Some (v, rest) ->
    exists w, t = w ++ rest /\ w <> [] /\ ~ In "["%char w /\ ~ In "]"%char w;
  rn_minus : forall t x, is_digit x = true -> gc_number c ("-"%char :: x :: t) <> None }.
