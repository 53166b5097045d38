(** Specifications of the text utilities, independent of the code's loops. *)
From Verif Require Import Text.

(** Pieces glued together with the given characters between them. *)
Fixpoint glue (pieces : list text) (between : text) : text :=
  match pieces, between with
  | p :: ps, c :: cs => p ++ c :: glue ps cs
  | p :: _, [] => p
  | [], _ => []
  end.

Definition no_char_of (seps p : text) : Prop := forall c, In c p -> ~ In c seps.

(** [pieces] is [s] cut at every character of [seps]: there is a list of the
    separators found, one fewer than the pieces, that glues the pieces back. *)
Definition is_split (s seps : text) (pieces : list text) : Prop :=
  exists between,
    length pieces = S (length between) /\
    glue pieces between = s /\
    (forall c, In c between -> In c seps) /\
    (forall p, In p pieces -> no_char_of seps p).

Definition white (c : ascii) : Prop :=
  c = " "%char \/ c = "009"%char \/ c = "010"%char \/ c = "011"%char \/
  c = "012"%char \/ c = "013"%char.

Definition all_white (s : text) : Prop := forall c, In c s -> white c.

(** [t] is [s] without the surrounding white space. *)
Definition is_trimmed (s t : text) : Prop :=
  (exists l r, s = l ++ t ++ r /\ all_white l /\ all_white r) /\
  (forall c t', t = c :: t' -> ~ white c) /\
  (forall c t', t = t' ++ [c] -> ~ white c).

(** The value of a text of decimal digits. *)
Inductive decimal : text -> Z -> Prop :=
| dec_one : forall d, 0 <= d <= 9 -> decimal [ascii_of_N (Z.to_N (48 + d))] d
| dec_more : forall s v d, decimal s v -> 0 <= d <= 9 ->
    decimal (s ++ [ascii_of_N (Z.to_N (48 + d))]) (10 * v + d).

(** [s] starts with a decimal digit *)
Definition starts_with_digit (s : text) : Prop :=
  exists c r, s = c :: r /\ 48 <= code c <= 57.
