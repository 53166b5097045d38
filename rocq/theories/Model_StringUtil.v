(** Model of src/common/string-util.cc (C++17 build: [beagleg::string_view] is
    [std::string_view]). *)
From Verif Require Import Text.

(** string-util.cc:43, the loop moving [start] over leading white space;
    the iterator is the number of characters passed. *)
Fixpoint trim_start (s : text) : nat :=
  match s with
  | [] => 0%nat
  | c :: r => if is_space c then S (trim_start r) else 0%nat
  end.

(** string-util.cc:44-45, the loop moving [end] backwards. The iterator is
    kept as [end + 1] so that the empty string (where [s.end() - 1] points
    before the text) needs no negative index. *)
Fixpoint trim_end (s : text) (start : nat) (end1 : nat) : nat :=
  match end1 with
  | O => O
  | S e =>
      if (start <? e)%nat && is_space (nth e s NUL) then trim_end s start e
      else end1
  end.

(** string-util.cc:41-47 TrimWhitespace *)
Definition trim_whitespace (s : text) : text :=
  let start := trim_start s in
  let end1 := trim_end s start (length s) in
  firstn (end1 - start) (skipn start s).

(** string-util.cc:49-53 ToLower *)
Definition to_lower_text (s : text) : text := map to_lower s.

(** C library strncmp(a, b, n) == 0, on texts that are at least n long:
    comparison stops early after a common NUL. *)
Fixpoint strncmp_eq (a b : text) (n : nat) : bool :=
  match n, a, b with
  | O, _, _ => true
  | S k, x :: a', y :: b' =>
      if Ascii.eqb x y then (if Ascii.eqb x NUL then true else strncmp_eq a' b' k)
      else false
  | S _, _, _ => false
  end.

(** string-util.cc:55-58 HasPrefix *)
Definition has_prefix (s prefix : text) : bool :=
  if (length s <? length prefix)%nat then false
  else strncmp_eq s prefix (length prefix).

(** string-util.cc:60-62 contains *)
Definition contains (str : text) (c : ascii) : bool := existsb (Ascii.eqb c) str.

(** string-util.cc:64-77 SplitString. [cur] holds the characters between the
    iterators [start] and [i]. *)
Fixpoint split_loop (separators : text) (cur : text) (s : text) : list text :=
  match s with
  | [] => [cur]
  | c :: r =>
      if contains separators c then cur :: split_loop separators [] r
      else split_loop separators (cur ++ [c]) r
  end.
Definition split_string (s separators : text) : list text :=
  split_loop separators [] s.

(** Digits of std::from_chars for integers, base 10: greedy, most significant
    first. Returns the accumulated value and the rest. *)
Fixpoint digits_loop (acc : Z) (s : text) : Z * text :=
  match s with
  | c :: r => if is_digit c then digits_loop (10 * acc + (code c - 48)) r else (acc, s)
  | [] => (acc, s)
  end.

(** std::from_chars<intN_t>(first, last, value): optional '-', at least one
    digit, all following digits are taken; out-of-range values are reported as
    an error and leave the result unchanged. *)
Definition from_chars_int (bits : Z) (s : text) : option (Z * text) :=
  let '(neg, body) :=
    match s with
    | c :: r => if Ascii.eqb c "-" then (true, r) else (false, s)
    | [] => (false, s)
    end in
  match body with
  | c :: _ =>
      if is_digit c then
        let '(v, rest) := digits_loop 0 body in
        let v := if neg : bool then - v else v in
        if (- 2 ^ (bits - 1) <=? v) && (v <=? 2 ^ (bits - 1) - 1)
        then Some (v, rest) else None
      else None
  | [] => None
  end.

(** string-util.cc:103-122 convert_strto_num, C++17 branch. [None] is the
    nullptr result, [Some (v, rest)] is the stored value and the text from the
    returned pointer on. *)
Definition convert_strto_num (bits : Z) (s : text) : option (Z * text) :=
  let s := skip_spaces s in
  let s := match s with
           | c :: r => if Ascii.eqb c "+" then r else s
           | [] => s
           end in
  from_chars_int bits s.

(** string-util.cc:123-128 *)
Definition convert_strto32 := convert_strto_num 32.
Definition convert_strto64 := convert_strto_num 64.
