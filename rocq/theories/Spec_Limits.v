(** Specification: the limits of the axes and the feedrate asked for. *)
From Coq Require Import Reals SpecFloat.
From Verif Require Import Base Model_Float Model_Axis Model_Planner Spec_Planner Spec_Real Spec_Speeds.
Open Scope R_scope.

(** The legs asked for, those of a move with its feedrate in mm/s. *)
Definition order (c : pcfg) (pos : axis -> Z) (o : call) : list (leg * option fl) :=
  map (fun l => (l, match o with Move _ f _ => Some f | _ => None end)) (asks c pos o).
Fixpoint orders (c : pcfg) (pos : axis -> Z) (os : list call) : list (leg * option fl) :=
  match os with [] => [] | o :: r => order c pos o ++ orders c (after c pos o) r end.
(** Sane calls: moves of axes with a motor, with sane feedrates; axes driven directly have
    sane speeds (in mm/s). *)
Definition sane_call (c : pcfg) (pos : axis -> Z) (o : call) : Prop :=
  match o with
  | Move _ f _ => good_feed f /\ Forall (good_leg c) (asks c pos o)
  | Drive a _ v0 v1 _ => driven c a /\ forall v, v = v0 \/ v = v1 -> fin32 v /\ 0 <= val v <= 1048576
  | _ => True
  end.
Fixpoint sane_calls (c : pcfg) (pos : axis -> Z) (os : list call) : Prop :=
  match os with [] => True | o :: r => sane_call c pos o /\ sane_calls c (after c pos o) r end.

(** The most steps any axis makes in a leg; the share of an axis, at most 1. The speed of a
    command is that of the axis with the share 1. *)
Definition longest (l : leg) : Z := fold_right (fun a n => Z.max (Z.abs (l_steps l a)) n) 0%Z all_axes.
Definition share (l : leg) (a : axis) : R := IZR (Z.abs (l_steps l a)) / IZR (longest l).

(** Steps per second and steps per second squared that an axis may make. *)
Definition max_speed (c : pcfg) (a : axis) : R := val (p_max_feedrate c a) * val (p_steps_per_mm c a).
Definition max_accel (c : pcfg) (a : axis) : R := val (p_acceleration c a) * val (p_steps_per_mm c a).

(** All rounding errors together are below a thousandth. *)
Definition about : R := 1001 / 1000.
Definition within_speed (c : pcfg) (l : leg) (x : command) : Prop :=
  forall a v, l_steps l a <> 0%Z -> v = c_v0 x \/ v = c_v1 x -> 0 <= val v /\ val v * share l a <= about * max_speed c a.

(** The length of the leg in X, Y and Z, in mm. *)
Definition way (c : pcfg) (l : leg) (a : axis) : R := IZR (l_steps l a) / val (p_steps_per_mm c a).
Definition length_of (c : pcfg) (l : leg) : R :=
  sqrt (way c l AX * way c l AX + way c l AY * way c l AY + way c l AZ * way c l AZ).
(** The feedrate asked for is that of the way in X, Y and Z; without such a way, it is the
    speed of the axis with most steps. *)
Definition within_feed (c : pcfg) (l : leg) (f : fl) (x : command) : Prop :=
  forall v, v = c_v0 x \/ v = c_v1 x ->
    val v * length_of c l <= about * val f * IZR (longest l) /\
    (length_of c l = 0 -> forall a, leads l a -> val v <= about * val f * val (p_steps_per_mm c a)).
(** The speed changes no more than the acceleration of each axis allows in the steps of the
    command and one and a half steps more: ramps are cut to whole steps. [m] is a motor of the
    axis with most steps. *)
Definition within_accel (c : pcfg) (l : leg) (x : command) : Prop :=
  forall a d m, l_steps l a <> 0%Z -> leads l d -> turns_for c m d ->
    Rabs (val (c_v1 x) * val (c_v1 x) - val (c_v0 x) * val (c_v0 x)) * share l a <= 2 * (about * max_accel c a) * (IZR (Z.abs (c_steps x m)) + 3 / 2).

(** The commands for a leg keep to the limits. *)
Definition in_speed (c : pcfg) (g : list command) (o : leg * option fl) : Prop :=
  carries_out c g (fst o) /\ Forall (within_speed c (fst o)) g /\
  match snd o with Some f => Forall (within_feed c (fst o) f) g | None => True end.
Definition in_accel (c : pcfg) (g : list command) (o : leg * option fl) : Prop :=
  carries_out c g (fst o) /\ match snd o with Some _ => Forall (within_accel c (fst o)) g | None => True end.
