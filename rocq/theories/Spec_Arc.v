(** Specification: the moves of an arc or spline; circles and Bezier curves. *)
From Coq Require Import Reals SpecFloat.
From Verif Require Import Base Model_Float Model_Axis Model_Gcode Model_Arc Spec_Real.
Open Scope R_scope.

(** ** Delivery *)
(** Each of the moves [l], asked for one after the other after those in [h], is accepted. *)
Definition all_accepted (answer : moves -> bool) (h : moves) (l : moves) : Prop :=
  forall front x back, l = front ++ x :: back -> answer (x :: rev front ++ h) = true.
(** The moves [l] bring the machine to [goal]: the last one goes there; the first one that
    is refused is the last one asked for. *)
Definition delivered (answer : moves -> bool) (h : moves) (goal : fl * axes) (l : moves) (ok : bool) : Prop :=
  exists front last, l = front ++ [last] /\ all_accepted answer h front /\ answer (last :: rev front ++ h) = ok /\ (ok = true -> last = goal).

(** ** Circles *)
Definition near (e x y : R) : Prop := Rabs (x - y) <= e.
(** The length of (x, y) *)
Definition len (x y : R) : R := sqrt (x * x + y * y).
(** The mathematical library is good enough: up to a millionth for the angles of a turn, for
    the direction of a point and for the length of a vector. *)
Definition good_trig (m : libm) : Prop :=
  (forall x, fin32 x -> Rabs (val x) <= 7 -> fin32 (m_cos m x) /\ near (/ 1000000) (val (m_cos m x)) (cos (val x)) /\
                                          fin32 (m_sin m x) /\ near (/ 1000000) (val (m_sin m x)) (sin (val x))) /\
  (forall y x, fin32 y -> fin32 x -> fin32 (m_atan2 m y x) /\
     exists a, - PI <= a <= PI /\ val x = len (val x) (val y) * cos a /\ val y = len (val x) (val y) * sin a /\ near (/ 1000000) (val (m_atan2 m y x)) a) /\
  (forall x y, fin32 x -> fin32 y -> Rabs (val x) <= 1048576 -> Rabs (val y) <= 1048576 ->
     fin32 (m_hypot m x y) /\ near (/ 1000000 * (1 + len (val x) (val y))) (val (m_hypot m x y)) (len (val x) (val y))).
Definition good_asin (m : libm) : Prop :=
  forall x, fin32 x -> -1 <= val x <= 1 -> fin32 (m_asin m x) /\ exists a, - (PI / 2) <= a <= PI / 2 /\ sin a = val x /\ near (/ 1000000) (val (m_asin m x)) a.
(** A coordinate in the range of a metre, and more: in millimetres *)
Definition metre (x : fl) : Prop := fin32 x /\ Rabs (val x) <= 1024.
(** (x, y) is (px, py) turned by [angle] around (cx, cy), counterclockwise from the first
    axis to the second, up to [e]. *)
Definition turned (e : R) (cx cy px py angle x y : R) : Prop :=
  near e x (cx + (px - cx) * cos angle - (py - cy) * sin angle) /\
  near e y (cy + (px - cx) * sin angle + (py - cy) * cos angle).
(** The two axes of the plane with this normal *)
Definition plane_axes (normal : axis) : axis * axis :=
  match normal with AX => (AY, AZ) | AY => (AX, AZ) | _ => (AX, AY) end.

(** ** Bezier curves *)
Definition bezier (t p0 p1 p2 p3 : R) : R :=
  (1 - t) * (1 - t) * (1 - t) * p0 + 3 * (1 - t) * (1 - t) * t * p1 + 3 * (1 - t) * t * t * p2 + t * t * t * p3.
(** A parabola with one control point *)
Definition parabola (t p0 q p1 : R) : R := (1 - t) * (1 - t) * p0 + 2 * (1 - t) * t * q + t * t * p1.
