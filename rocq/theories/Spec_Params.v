(** Specification: G-code parameters and their assignment. *)
From Coq Require Import SpecFloat.
From Verif Require Import Base Text Model_StringUtil Model_Float Model_Axis Model_Gcode Spec_Text Spec_Expr Spec_Words.

(** Letter case does not matter in names, nor do spaces around them. *)
Definition same_name (a b : text) : Prop :=
  exists x y, is_trimmed a x /\ is_trimmed b y /\ map to_lower x = map to_lower y.
(** Parameter 0 and numbers from 5400 on cannot be written. *)
Definition writable (name : text) : Prop :=
  forall n, is_trimmed name n -> n <> txt "0" /\ forall z r, convert_strto64 n = Some (z, r) -> z < 5400.

(** Behind "#" the text [t] has the name of a parameter: letters and digits that do not
    begin with a digit, perhaps in angle brackets, or its number, then [rest]. *)
Inductive names (c : gcfg) (s : gst) (t : text) : text -> text -> Prop :=
| nm_name name rest :
    skip_spaces t = name ++ rest -> name <> [] -> Forall (fun x => is_name_char x = true) name ->
    (forall x r, name = x :: r -> is_digit x = false) -> (forall x r, rest = x :: r -> is_name_char x = false) ->
    names c s t name (skip_spaces rest)
| nm_angle name rest :
    skip_spaces t = "<"%char :: name ++ ">"%char :: rest ->
    Forall (fun x => is_name_char x = true \/ is_space x = true) name -> filter is_name_char name <> [] ->
    (forall x r, name = x :: r -> is_digit x = false) ->
    names c s t (filter is_name_char name) (skip_spaces rest)
| nm_index x r v rest :
    skip_spaces t = x :: r -> (is_digit x = true \/ x = "#"%char) -> operand c s (skip_spaces t) (Some v) rest ->
    names c s t (show_int (int_of c v)) (skip_spaces rest).

(** What is behind the name: the new value, whether it is reported, and the rest. *)
Definition op_of (x : ascii) : option binop :=
  if Ascii.eqb x "+" then Some Plus else if Ascii.eqb x "-" then Some Minus
  else if Ascii.eqb x "*" then Some Times else if Ascii.eqb x "/" then Some Divide else None.
Inductive becomes (c : gcfg) (s : gst) (now : fl) : text -> fl -> bool -> text -> Prop :=
| b_up r : becomes c s now ("+"%char :: "+"%char :: r) (f32_add now (f32_of_Z 1)) false (skip_spaces r)
| b_down r : becomes c s now ("-"%char :: "-"%char :: r) (f32_sub now (f32_of_Z 1)) false (skip_spaces r)
| b_set r v rest : operand c s (skip_spaces r) (Some v) rest -> starts "?" (skip_spaces rest) = false ->
    becomes c s now ("="%char :: r) v true (skip_spaces rest)
| b_op x op r v w rest : op_of x = Some op -> operand c s (skip_spaces r) (Some v) rest -> apply2 c op now v = Some w ->
    becomes c s now (x :: "="%char :: r) w true (skip_spaces rest)
| b_choice r v r1 r2 a r3 r4 b rest :
    operand c s (skip_spaces r) (Some v) r1 -> skip_spaces r1 = "?"%char :: r2 ->
    operand c s (skip_spaces r2) (Some a) r3 -> skip_spaces r3 = ":"%char :: r4 ->
    operand c s (skip_spaces r4) (Some b) rest ->
    becomes c s now ("="%char :: r) (if SFeqb v (f32_of_Z 0) then b else a) true (skip_spaces rest).

(** [line] begins with the assignment of [v] to the parameter [name]. *)
Definition assignment (c : gcfg) (s : gst) (line name : text) (v : fl) (reported : bool) (rest : text) : Prop :=
  exists t u, ~ In NUL line /\ opens line ("#"%char :: t) /\ names c s t name u /\ becomes c s (param s name) u v reported rest.

(** The last value given to a name, if any. *)
Inductive given : list (text * fl) -> text -> option fl -> Prop :=
| gv_none name : given [] name None
| gv_here l name n v : same_name n name -> writable n -> given (l ++ [(n, v)]) name (Some v)
| gv_before l name n v r : ~ (same_name n name /\ writable n) -> given l name r -> given (l ++ [(n, v)]) name r.
