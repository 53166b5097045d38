(** Floating point numbers as real numbers (Flocq's vocabulary). *)
From Coq Require Import Reals SpecFloat.
From Flocq Require Import Core IEEE754.BinarySingleNaN.
From Verif Require Import Base Model_Float.

(** [x] is a proper finite number of the format with [prec] bits and exponents up to
    [emax]; (24, 128) is float, (53, 1024) is double. *)
Definition fin (prec emax : Z) (x : fl) : Prop := valid_binary prec emax x = true /\ is_finite_SF x = true.
Notation fin32 := (fin 24 128).
Notation fin64 := (fin 53 1024).

(** Its value. *)
Definition val (x : fl) : R := SF2R radix2 x.

(** The number of the format nearest to [r], the even one of two (for numbers that are
    not too large). *)
Definition rnd (prec emax : Z) (r : R) : R := round radix2 (SpecFloat.fexp prec emax) ZnearestE r.
Notation rnd32 := (rnd 24 128).
Notation rnd64 := (rnd 53 1024).
