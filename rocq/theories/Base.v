(** Shared basics: fixed-width integers, motors, outcomes. *)
From Coq Require Export List ZArith Lia Bool.
From Coq Require Export ZifyBool.
Export ListNotations.
Open Scope Z_scope.

(** Truncation of a C++ value stored into an unsigned field of 8/16/32/64 bits. *)
Definition u8 (x : Z) : Z := x mod 2 ^ 8.
Definition u16 (x : Z) : Z := x mod 2 ^ 16.
Definition u32 (x : Z) : Z := x mod 2 ^ 32.
Definition u64 (x : Z) : Z := x mod 2 ^ 64.

Definition INT_MAX : Z := 2 ^ 31 - 1.

(** A value of C++ type [int] whose absolute value is also an [int]
    (everything but INT_MIN, for which [abs] is undefined). *)
Definition is_abs_int (x : Z) : Prop := - INT_MAX <= x <= INT_MAX.

(** Outcome of code that may run into undefined behaviour (division by zero,
    out-of-range float to integer conversion, out-of-bounds access, ...) or a
    failing [assert]. *)
Inductive outcome (A : Type) : Type :=
| Ok (a : A)
| Undefined.
Arguments Ok {A} a.
Arguments Undefined {A}.

Definition obind {A B} (x : outcome A) (f : A -> outcome B) : outcome B :=
  match x with Ok a => f a | Undefined => Undefined end.

(** The eight motors: src/segment-queue.h:24 BEAGLEG_NUM_MOTORS,
    src/motion-queue.h MOTION_MOTOR_COUNT, src/hardware-mapping.h:80 NUM_MOTORS. *)
Inductive motor := M1 | M2 | M3 | M4 | M5 | M6 | M7 | M8.

(** The C++ array index of a motor (0..7). *)
Definition motor_ix (m : motor) : Z :=
  match m with
  | M1 => 0 | M2 => 1 | M3 => 2 | M4 => 3 | M5 => 4 | M6 => 5 | M7 => 6 | M8 => 7
  end.

Definition all_motors : list motor := [M1; M2; M3; M4; M5; M6; M7; M8].

Definition motor_eqb (a b : motor) : bool := motor_ix a =? motor_ix b.

(** Array of one integer per motor. *)
Definition mreg := motor -> Z.

Global Arguments Z.mul : simpl never.
Global Arguments Z.add : simpl never.
Global Arguments Z.sub : simpl never.
Global Arguments Z.opp : simpl never.
Global Arguments Z.div : simpl never.
Global Arguments Z.modulo : simpl never.
Global Arguments Z.pow : simpl never.
Global Arguments Z.of_nat : simpl never.
Global Arguments Z.to_nat : simpl never.
