(** Specification of the machine control, in terms of its calls and its log. *)
From Verif Require Import Base Text Model_Axis Model_Float Model_Hardware Model_Machine.

(** What a call added to the log. *)
Definition adds (c : mcfg) (e : call) (s s' : machine) (new : list event) : Prop :=
  snd (perform c e s) = s' /\ m_log s' = m_log s ++ new.
(** The call ran to its end (it is not waiting for anything). *)
Definition completes (c : mcfg) (e : call) (s s' : machine) : Prop := perform c e s = (Some tt, s').
(** Emergency stop and motor power as reported. *)
Definition stop_on (s : machine) : bool := hw_estop (m_hw s).
Definition power_on (s : machine) : bool := hw_enabled (m_hw s).
(** A state reached from start-up with motors off, by completed calls. *)
Definition reachable (c : mcfg) (s : machine) : Prop :=
  exists h answers es, hw_enabled h = false /\ perform_all c es (start_state c h answers) = (Some tt, s).

(** Within the machine limits: for every linear axis 0 <= x, and x <= range if a
    range is configured. A coordinate that is not a number is not covered. *)
Definition is_number (x : fl) : bool := match x with S754_nan => false | _ => true end.
Definition linear (a : axis) : bool := match a with AA | AB | AC => false | _ => true end.
Definition zero : fl := S754_zero false.
Definition in_limits (c : mcfg) (pos : axis -> fl) : Prop :=
  forall a, linear a = true -> is_number (pos a) = true ->
    SFleb zero (pos a) = true /\
    (SFltb zero (c_range c a) = true -> SFleb (pos a) (c_range c a) = true).

(** ** Homing *)
(** The axes homed by G28, in order. *)
Fixpoint axes_to_home (c : mcfg) (bitmap : Z) (order : text) : list axis :=
  match order with
  | [] => []
  | ch :: r =>
      match letter_axis ch with
      | Some a => if Z.testbit bitmap (axis_ix a) && match c_home c a with TrigNone => false | _ => true end
                  then a :: axes_to_home c bitmap r else axes_to_home c bitmap r
      | None => axes_to_home c bitmap r
      end
  end.
(** The part of the log that matters for homing. *)
Definition homing_event (e : event) : bool :=
  match e with
  | Ask (QAxis _ _) _ | Ask QEstop _ | Did (DoDrive _ _ _ _) | Did DoWait | Did (DoSetPos _ _) => true
  | _ => false
  end.
(** The floats 0.5 and (nearest) 0.05, as m * 2^e. *)
Definition half_mm : fl := S754_finite false 8388608 (-24).
Definition twentieth_mm : fl := S754_finite false 13421773 (-28).
(** Towards a minimum switch is negative. *)
Definition towards (t : trigger) (x : fl) : fl := match t with TrigMin => SFopp x | _ => x end.
Definition away (t : trigger) (x : fl) : fl := match t with TrigMin => x | _ => SFopp x end.
(** The position of the home switch. *)
Definition switch_pos (c : mcfg) (a : axis) : fl := match c_home c a with TrigMax => c_range c a | _ => zero end.
(** Drive in steps of half a millimeter, each to its end before the switch is read
    again, until the switch answers ... *)
Inductive approach (a : axis) (t : trigger) : list event -> Prop :=
| approach_done z : z <> 0 -> approach a t [Ask (QAxis a t) z]
| approach_step v0 v1 l : approach a t l ->
    approach a t (Ask (QAxis a t) 0 :: Ask QEstop 0 :: Did (DoDrive a (towards t half_mm) v0 v1) :: Did DoWait :: l).
(** ... and back in steps of a twentieth until it does not. *)
Inductive backoff (a : axis) (t : trigger) : list event -> Prop :=
| backoff_done : backoff a t [Ask (QAxis a t) 0]
| backoff_step z v0 v1 l : z <> 0 -> backoff a t l ->
    backoff a t (Ask (QAxis a t) z :: Ask QEstop 0 :: Did (DoDrive a (away t twentieth_mm) v0 v1) :: Did DoWait :: l).
Inductive homed_axis (c : mcfg) (a : axis) : list event -> Prop :=
| homed_axis_done l1 l2 : approach a (c_home c a) l1 -> backoff a (c_home c a) l2 ->
    homed_axis c a (l1 ++ l2 ++ [Did (DoSetPos a (switch_pos c a))]).
Inductive homed_axes (c : mcfg) : list axis -> list event -> Prop :=
| homed_none : homed_axes c [] []
| homed_more a axes l r : homed_axis c a l -> homed_axes c axes r -> homed_axes c (a :: axes) (l ++ r).
(** The emergency stop switch is never read as pressed. *)
Definition no_stop_read (l : list event) : Prop := forall z, In (Ask QEstop z) l -> z = 0.

(** Physics of a minimum switch: closed at and below step position [sw]. The answers
    in the log fit the position [p], given the steps of the two kinds of drives. *)
Fixpoint fits (sw d b p : Z) (toward : bool) (l : list event) : Prop :=
  match l with
  | Ask (QAxis _ _) z :: r => (z <> 0 <-> p <= sw) /\ fits sw d b p (toward && (z =? 0)) r
  | Did (DoDrive _ _ _ _) :: r => fits sw d b (if toward then p - d else p + b) toward r
  | _ :: r => fits sw d b p toward r
  | [] => True
  end.
Fixpoint final (d b p : Z) (toward : bool) (l : list event) : Z :=
  match l with
  | Ask (QAxis _ _) z :: r => final d b p (toward && (z =? 0)) r
  | Did (DoDrive _ _ _ _) :: r => final d b (if toward then p - d else p + b) toward r
  | _ :: r => final d b p toward r
  | [] => p
  end.

(** ** Idle *)
Definition idle_event (e : event) : bool :=
  match e with Ask QTime _ | Did (DoMotors _) => true | _ => false end.
(** Clock readings and motor switching expected for idle events at the times [ts]
    with the motors due at time [due]. *)
Fixpoint idle_log (due : Z) (ts : list Z) : list event :=
  match ts with
  | [] => []
  | t :: r => if due <=? t then [Ask QTime t; Did (DoMotors false)] else Ask QTime t :: idle_log due r
  end.

(** ** Clamping: the configuration names the Z axis. *)
Definition clamps_z (c : mcfg) : bool := existsb (fun ch => Ascii.eqb ch "z" || Ascii.eqb ch "Z") (c_clamp c).
(** A bitmap of axes with no axis but Z. *)
Definition only_z (affected : Z) : Prop := affected = 0 \/ affected = 4.
