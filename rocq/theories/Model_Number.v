(** Decimal numbers as the C library reads them: strtod()/strtof() on plain
    decimal notation (no exponent, no hexadecimal, no "inf" or "nan"), correctly
    rounded. Only used where a model needs a concrete number reader; the theorems
    quantify over any number reader. *)
From Coq Require Import SpecFloat.
From Verif Require Import Text Model_StringUtil Model_Float.

(** The decimal number [m / 10^k], correctly rounded. *)
Definition decimal_value (prec emax : Z) (neg : bool) (m : Z) (k : nat) : fl :=
  match m with
  | Zpos p => SFdiv prec emax (S754_finite neg p 0) (S754_finite false (Pos.pow 10 (Pos.of_succ_nat k)) 0)
  | _ => S754_zero neg
  end.

(** Digits with at most one decimal point: mantissa, number of fraction digits,
    was there a digit, rest. *)
Definition scan_decimal (s : text) : Z * nat * bool * text :=
  let '(m, r) := digits_loop 0 s in
  let some := negb (Nat.eqb (length r) (length s)) in
  match r with
  | c :: r' =>
      if Ascii.eqb c "." then
        let '(m', r'') := digits_loop m r' in
        let k := (length r' - length r'')%nat in
        if some || negb (Nat.eqb k 0) then (m', k, true, r'') else (m, O, false, s)
      else (m, O, some, r)
  | [] => (m, O, some, r)
  end.

Definition sign_of (s : text) : bool * text :=
  match s with
  | c :: r => if Ascii.eqb c "-" then (true, r) else if Ascii.eqb c "+" then (false, r) else (false, s)
  | [] => (false, s)
  end.

(** One more digit in the divisor: the mantissa is multiplied by ten too, so that
    the exponent [k + 1] can be used with [Pos.of_succ_nat]. *)
Definition read_decimal (prec emax : Z) (s : text) : option (fl * text) :=
  let '(neg, r) := sign_of (skip_spaces s) in
  let '(m, k, ok, rest) := scan_decimal r in
  if ok : bool then Some (decimal_value prec emax neg (10 * m) k, rest) else None.

Definition strtod_decimal := read_decimal 53 1024.
Definition strtof_decimal := read_decimal 24 128.
