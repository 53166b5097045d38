(** IEEE-754 binary32/binary64 as used by the code, from Coq's SpecFloat
    (round to nearest even, NaN and infinities; no axioms). *)
From Coq Require Export ZArith Floats.SpecFloat.
From Verif Require Import Base.

Definition fl := spec_float.

Definition f32_add := SFadd 24 128.
Definition f32_sub := SFsub 24 128.
Definition f32_mul := SFmul 24 128.
Definition f32_div := SFdiv 24 128.
Definition f32_sqrt := SFsqrt 24 128.
Definition f64_add := SFadd 53 1024.
Definition f64_sub := SFsub 53 1024.
Definition f64_mul := SFmul 53 1024.
Definition f64_div := SFdiv 53 1024.
Definition f64_sqrt := SFsqrt 53 1024.

(** Conversion of an integer to float/double. *)
Definition f32_of_Z (z : Z) : fl := binary_normalize 24 128 z 0 false.
Definition f64_of_Z (z : Z) : fl := binary_normalize 53 1024 z 0 false.

(** double -> float (float -> double keeps the value). *)
Definition f32_of_f64 (x : fl) : fl :=
  match x with
  | S754_finite s m e => binary_normalize 24 128 (if s then Zneg m else Zpos m) e s
  | _ => x
  end.

Definition f64_of_f32 (x : fl) : fl :=
  match x with
  | S754_finite s m e => binary_normalize 53 1024 (if s then Zneg m else Zpos m) e s
  | _ => x
  end.

(** roundf/lround: nearest integer, halves away from zero; None for NaN/infinity. *)
Definition fl_round (x : fl) : option Z :=
  match x with
  | S754_zero _ => Some 0
  | S754_finite s m e =>
      let a := if 0 <=? e then Zpos m * 2 ^ e
               else (2 * Zpos m + 2 ^ (- e)) / (2 * 2 ^ (- e)) in
      Some (if s then - a else a)
  | _ => None
  end.

(** Truncation towards zero: (int) x. *)
Definition fl_trunc (x : fl) : option Z :=
  match x with
  | S754_zero _ => Some 0
  | S754_finite s m e =>
      let a := if 0 <=? e then Zpos m * 2 ^ e else Zpos m / 2 ^ (- e) in
      Some (if s then - a else a)
  | _ => None
  end.

(** Conversion to int is undefined outside the int range. *)
Definition to_int (x : option Z) : option Z :=
  match x with
  | Some z => if (- 2 ^ 31 <=? z) && (z <=? 2 ^ 31 - 1) then Some z else None
  | None => None
  end.
