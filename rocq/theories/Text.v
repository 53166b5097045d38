(** Characters and strings shared by the text-processing models. *)
From Coq Require Export Ascii String List ZArith Lia Bool.
Export ListNotations.
From Verif Require Export Base.

(** A C string without its terminating NUL, or a [string_view]. *)
Definition text := list ascii.

(** Literals for examples. *)
Fixpoint txt (s : string) : text :=
  match s with
  | EmptyString => []
  | String c r => c :: txt r
  end.

Definition code (c : ascii) : Z := Z.of_N (N_of_ascii c).

Definition NUL : ascii := "000".
Definition LF : ascii := "010".
Definition CR : ascii := "013".

(** isspace() in the C locale: space, \t \n \v \f \r. *)
Definition is_space (c : ascii) : bool :=
  (code c =? 32) || ((9 <=? code c) && (code c <=? 13)).

(** isdigit() in the C locale. *)
Definition is_digit (c : ascii) : bool := (48 <=? code c) && (code c <=? 57).

(** isalpha(), isalnum() in the C locale. *)
Definition is_upper (c : ascii) : bool := (65 <=? code c) && (code c <=? 90).
Definition is_lower (c : ascii) : bool := (97 <=? code c) && (code c <=? 122).
Definition is_alpha (c : ascii) : bool := is_upper c || is_lower c.
Definition is_alnum (c : ascii) : bool := is_alpha c || is_digit c.

(** toupper(), tolower() in the C locale. *)
Definition to_upper (c : ascii) : ascii :=
  if is_lower c then ascii_of_N (N_of_ascii c - 32) else c.
Definition to_lower (c : ascii) : ascii :=
  if is_upper c then ascii_of_N (N_of_ascii c + 32) else c.

(** What a client sees of a [const char *]: everything before the first NUL. *)
Fixpoint cstr (s : text) : text :=
  match s with
  | [] => []
  | c :: r => if Ascii.eqb c NUL then [] else c :: cstr r
  end.

(** The loop "while the character is not NUL and isspace, advance" on a C string. *)
Fixpoint skip_spaces (s : text) : text :=
  match s with
  | [] => []
  | c :: r => if is_space c then skip_spaces r else s
  end.
