(** Specification: what the planner has to send to the motors. *)
From Verif Require Import Base Model_Float Model_Axis Model_Hardware Model_Planner.

(** Millimetres as whole steps of an axis. *)
Definition steps_at (c : pcfg) (a : axis) (x : fl) : Z := lround c (f32_mul x (p_steps_per_mm c a)).

(** The motor [m] turns for the axis [a] and no other. *)
Definition turns_for (c : pcfg) (m : motor) (a : axis) : Prop :=
  forall b, Z.testbit (hw_drivers (p_hw c) b) (motor_ix m) = true <-> b = a.

(** A leg of the path: the steps for every axis and the auxiliary outputs. *)
Record leg := mk_leg { l_steps : axis -> Z; l_aux : Z }.
(** The position in steps after a call, and the leg it asks for, if any. A move that does
    not change the position in steps asks for none. *)
Definition after (c : pcfg) (pos : axis -> Z) (o : call) : axis -> Z :=
  match o with
  | Move to _ _ => fun a => steps_at c a (to a)
  | Position a p => set_axis pos a (steps_at c a p)
  | _ => pos
  end.
Definition asks (c : pcfg) (pos : axis -> Z) (o : call) : list leg :=
  match o with
  | Move to _ aux =>
      let d a := steps_at c a (to a) - pos a in
      if forallb (fun a => d a =? 0) all_axes then [] else [mk_leg d aux]
  | Drive a x _ _ aux => [mk_leg (fun b => if axis_eqb b a then steps_at c a x else 0) aux]
  | _ => []
  end.
Fixpoint legs (c : pcfg) (pos : axis -> Z) (os : list call) : list leg :=
  match os with [] => [] | o :: r => asks c pos o ++ legs c (after c pos o) r end.
Fixpoint ends (c : pcfg) (pos : axis -> Z) (os : list call) : axis -> Z :=
  match os with [] => pos | o :: r => ends c (after c pos o) r end.
(** Where the machine is assumed to be at first: at the switch for homing. *)
Definition at_home (c : pcfg) (a : axis) : Z := steps_at c a (if p_home_max c a then p_range c a else f32_of_Z 0).

Definition total (f : command -> Z) (l : list command) : Z := fold_right (fun x n => f x + n) 0 l.
(** The commands [g] carry out the leg [l]: every motor makes the steps of its axis, the
    auxiliary outputs are those of the leg, and the speed does not jump. *)
Fixpoint joined (g : list command) : Prop :=
  match g with
  | x :: (y :: _) as r => c_v1 x = c_v0 y /\ joined r
  | _ => True
  end.
Definition carries_out (c : pcfg) (g : list command) (l : leg) : Prop :=
  (forall m a, turns_for c m a -> total (fun x => c_steps x m) g = l_steps l a) /\
  (forall m, (forall a, ~ Z.testbit (hw_drivers (p_hw c) a) (motor_ix m) = true) -> total (fun x => c_steps x m) g = 0) /\
  Forall (fun x => c_aux x = l_aux l) g /\ (length g <= 3)%nat /\ joined g.

(** The commands tried, the last first, and if they were accepted. *)
Definition tries (log : list told) : list (command * bool) :=
  flat_map (fun e => match e with Segment x ok => [(x, ok)] | _ => [] end) log.
(** The last command tried was refused. *)
Definition stopped (ts : list (command * bool)) : Prop := exists before x, ts = before ++ [(x, false)].
(** The commands tried, in order, are for the legs: those for a leg are tried up to the
    first refused. The rest is left out only if the last one tried was refused. *)
Inductive delivered (c : pcfg) : list (command * bool) -> list leg -> Prop :=
| delivered_none : delivered c [] []
| delivered_more : forall ts ls g rest l, delivered c ts ls ->
    carries_out c (map fst g ++ rest) l ->
    (forall g1 x g2, g = g1 ++ x :: g2 -> g2 <> [] -> snd x = true) ->
    (rest = [] \/ stopped (ts ++ g)) ->
    delivered c (ts ++ g) (ls ++ [l]).
(** What the motors are told about their position. *)
Definition told_position (c : pcfg) (a : axis) (p : Z) : list told :=
  map (fun m => External m p) (filter (fun m => Z.testbit (hw_drivers (p_hw c) a) (motor_ix m)) all_motors).

(** The backend accepts every command. *)
Definition willing (c : pcfg) : Prop := forall l, p_accepts c l = true.

(** The rules of the interface (planner.h): the position is only set on a halted path, and
    it has to be set after driving directly and before the next move. [halted], [known]: the
    path is halted, the position is known. *)
Fixpoint proper (halted known : bool) (os : list call) : Prop :=
  match os with
  | [] => True
  | Move _ _ _ :: r => known = true /\ proper false known r
  | Halt :: r => proper true known r
  | Drive _ _ _ _ _ :: r => proper true false r
  | Position _ _ :: r => halted = true /\ proper halted true r
  | Lookahead _ :: r => proper halted known r
  end.
(** The lookahead in force; sizes out of range are refused. *)
Definition next_look (n : Z) (o : call) : Z :=
  match o with Lookahead k => if (1 <=? k) && (k <=? 1024) then k else n | _ => n end.
Definition lookahead (os : list call) : Z := fold_left next_look os 1024.
(** No call sets a lookahead above [n]. *)
Definition looks_at_most (n : Z) (os : list call) : Prop :=
  Forall (fun o => match o with Lookahead k => k <= n \/ 1024 < k | _ => True end) os.
