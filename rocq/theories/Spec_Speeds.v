(** Specification: the speed of the machine from one command to the next. *)
From Coq Require Import Reals SpecFloat.
From Verif Require Import Base Model_Float Model_Axis Model_Planner Spec_Planner Spec_Real.
Open Scope R_scope.

(** Going from the speed [v] (in steps per second) the commands [cs] follow without a jump:
    all speeds are numbers, and the squares of the speeds at a joint differ by at most [j]. A ramp with the acceleration
    [a] changes the square of the speed by [2 * a] in each step (v^2 = 2 a s). *)
Definition is_speed (v : fl) : Prop := fin32 v /\ 0 <= val v.
Fixpoint smooth (j v : R) (cs : list command) : Prop :=
  match cs with
  | [] => True
  | x :: r => (is_speed (c_v0 x) /\ is_speed (c_v1 x)) /\ Rabs (v * v - val (c_v0 x) * val (c_v0 x)) <= j /\ smooth j (val (c_v1 x)) r
  end.
(** The speed at the end of the commands. *)
Definition final (v : R) (cs : list command) : R := fold_left (fun _ x => val (c_v1 x)) cs v.

(** The configuration of an axis that moves: sane numbers (in mm, mm/s and mm/s^2). *)
Record driven (c : pcfg) (a : axis) : Prop := mk_driven {
  dr_spm : fin32 (p_steps_per_mm c a) /\ / 16 <= val (p_steps_per_mm c a) <= 16384;
  dr_feed : fin32 (p_max_feedrate c a) /\ / 1024 <= val (p_max_feedrate c a) <= 1048576;
  dr_acc : fin32 (p_acceleration c a) /\ / 1024 <= val (p_acceleration c a) <= 1073741824
}.
(** The configuration of the machine; no axis has more than [A] steps/s^2. *)
Record drivable (c : pcfg) (A : R) : Prop := mk_drivable {
  dv_spm : forall a, fin32 (p_steps_per_mm c a);
  (* a ramp to full speed takes half a million steps at most *)
  dv_ramp : forall a b, driven c a -> driven c b -> val (p_max_feedrate c a) * val (p_max_feedrate c b) * val (p_steps_per_mm c b) <= 1048576 * val (p_acceleration c a);
  dv_some : 0 < A;
  dv_acc : forall a, driven c a -> val (p_acceleration c a) * val (p_steps_per_mm c a) <= A;
  dv_angle : fin32 (p_threshold c) /\ fin32 (p_tune c) /\ 0 <= val (p_tune c) <= 85 /\ val (p_threshold c) + val (p_tune c) <= 85;
  (* acos of a double is a double, and cos gives a cosine of an angle up to 85 degrees *)
  dv_acos : forall x, valid_binary 53 1024 x = true -> valid_binary 53 1024 (p_acos c x) = true;
  dv_cos : forall x, fin64 x -> 0 <= val x <= 3 / 2 -> fin64 (p_cos c x) /\ 0 <= val (p_cos c x) <= 1;
  (* acos of at most 0.7071 is pi / 4 at least, 0.785398 *)
  dv_eighth : forall x, fin64 x -> 0 <= val x <= 7071 / 10000 -> fin64 (p_acos c x) /\ 785405 / 1000000 <= val (p_acos c x) <= 2
}.
Definition good_feed (f : fl) : Prop := fin32 f /\ / 1024 <= val f <= 1048576.
(** Some motor moves in the leg, and only driven axes do. *)
Definition good_leg (c : pcfg) (l : leg) : Prop :=
  (forall a, Z.abs (l_steps l a) < 2 ^ 31)%Z /\ (forall a, l_steps l a <> 0%Z -> driven c a) /\ (exists m a, turns_for c m a /\ l_steps l a <> 0%Z).
(** [a] makes most steps in a leg, the first of several such axes. *)
Definition leads (l : leg) (a : axis) : Prop :=
  exists before behind, all_axes = before ++ a :: behind /\
    (forall b, In b before -> Z.abs (l_steps l b) < Z.abs (l_steps l a))%Z /\ (forall b, In b behind -> Z.abs (l_steps l b) <= Z.abs (l_steps l a))%Z.
(** The way of a leg in space in mm, and the corner between two legs: it is sharp if the cosine
    of the angle by which the path turns is at most 0.707, an angle of 45.01 degrees or more.
    A leg that goes nowhere in space makes a sharp corner with any. *)
Definition way (c : pcfg) (l : leg) (a : axis) : R := IZR (l_steps l a) / val (p_steps_per_mm c a).
Definition inner (c : pcfg) (l1 l2 : leg) : R := way c l1 AX * way c l2 AX + way c l1 AY * way c l2 AY + way c l1 AZ * way c l2 AZ.
Definition distance (c : pcfg) (l : leg) : R := sqrt (inner c l l).
Definition sharp (c : pcfg) (l1 l2 : leg) : Prop := inner c l1 l2 <= 707 / 1000 * (distance c l1 * distance c l2).
(** Two legs that follow each other: the same axis leads, or the corner is sharp. *)
Definition meet (c : pcfg) (l1 l2 : leg) : Prop := (exists a, leads l1 a /\ leads l2 a) \/ sharp c l1 l2.
(** The calls ask for such a path; [prev] is the leg before, if there is one since the last
    halt. *)
Fixpoint suits (c : pcfg) (pos : axis -> Z) (prev : option leg) (os : list call) : Prop :=
  match os with
  | [] => True
  | o :: r =>
      match o with Drive _ _ _ _ _ => False | Move _ f _ => good_feed f | _ => True end /\
      match asks c pos o with
      | [] => suits c (after c pos o) (match o with Halt | Position _ _ => None | _ => prev end) r
      | l :: _ => good_leg c l /\ match prev with None => True | Some p => meet c p l end /\ suits c (after c pos o) (Some l) r
      end
  end.

(** The speed of a motor when the motor with most steps of a command has the speed [v]. *)
Definition most (s : mreg) : Z := fold_right (fun m n => Z.max (Z.abs (s m)) n) 0%Z all_motors.
Definition turning (v : fl) (s : mreg) (m : motor) : R := val v * IZR (Z.abs (s m)) / IZR (most s).
