(** What a spindle may do, and the state of its outputs. *)
From Coq Require Import Reals.
From Verif Require Import Base Model_Float Spec_Real Model_Spindle.

(** The outputs: power, direction and PWM value. *)
Record sp_out := mk_so { so_power : bool; so_ccw : bool; so_pwm : R }.
Definition so_init : sp_out := mk_so false false 0.

Definition so_apply (o : sp_out) (e : sp_event) : sp_out :=
  match e with
  | SpPower on => mk_so on (so_ccw o) (so_pwm o)
  | SpDir ccw => mk_so (so_power o) ccw (so_pwm o)
  | SpPwm v => mk_so (so_power o) (so_ccw o) (val v)
  | SpSend _ => o
  end.

(** An event is safe: the direction changes only at standstill and only if allowed;
    power goes off only at standstill; the PWM value is within 0..1, changes by a tenth
    at most (up to rounding) and only with power. *)
Definition so_safe (allow_ccw : bool) (o : sp_out) (e : sp_event) : Prop :=
  match e with
  | SpPower on => on = false -> so_pwm o = 0%R
  | SpDir ccw => (ccw <> so_ccw o -> so_pwm o = 0%R) /\ (ccw = true -> allow_ccw = true)
  | SpPwm v => fin32 v /\ (0 <= val v <= 1)%R /\ (Rabs (val v - so_pwm o) <= 1 / 10 + 1 / 1000000)%R /\ so_power o = true
  | SpSend _ => True
  end.

Fixpoint so_safe_all (allow_ccw : bool) (o : sp_out) (l : list sp_event) : Prop :=
  match l with
  | [] => True
  | e :: r => so_safe allow_ccw o e /\ so_safe_all allow_ccw (so_apply o e) r
  end.

Definition so_after (o : sp_out) (l : list sp_event) : sp_out := fold_left so_apply l o.

(** The speed wanted: a fraction of the maximum, at most 1. *)
Definition speed_fraction (max_rpm rpm : Z) : R := Rmin (rnd32 (rnd32 (IZR rpm) / rnd32 (IZR max_rpm))) 1.
