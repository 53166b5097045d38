(** Specification of the hardware mapping, in terms of the calls made. *)
From Verif Require Import Base Text Model_Axis Model_StringUtil Model_Hardware.

(** Motor mapping calls (axis, motor number, mirrored), in order; the first call for
    a motor decides. *)
Definition motor_call : Type := axis * Z * bool.
Definition first_call (calls : list motor_call) (motor : Z) : option motor_call :=
  find (fun c => match c with (_, n, _) => n =? motor end) calls.
Definition map_motor (h : hw) (c : motor_call) : hw := match c with (a, n, f) => snd (add_motor_mapping a n f h) end.
Definition map_motors (calls : list motor_call) (h : hw) : hw := fold_left map_motor calls h.

(** Is the output connected to the auxiliary pin? *)
Definition drives (h : hw) (o : output) (pin : Z) : Prop := Z.testbit (hw_aux_of h o) (pin - 1) = true.
(** What a call does to an auxiliary pin: switch it, or nothing. *)
Definition switches (h : hw) (op : hw_op) (pin : Z) (on : bool) : Prop :=
  match op with
  | HwUpdateAux p b => p = pin /\ b = on
  | HwUpdateOutput o b => drives h o pin /\ b = on
  | HwAuxOff | HwInit true => on = false
  | _ => False
  end.
Definition leaves (h : hw) (op : hw_op) (pin : Z) : Prop := forall on, ~ switches h op pin on.
(** Pin numbers as callers may pass them. *)
Definition pin_ok (op : hw_op) : Prop := match op with HwUpdateAux p _ => 1 <= p <= 16 | _ => True end.

(** The software emergency stop, from the calls alone. *)
Definition stop_after (s : bool) (op : hw_op) : bool :=
  match op with HwInit _ => true | HwUpdateOutput OutEstop b => b | _ => s end.
Definition stopped (ops : list hw_op) : bool := fold_left stop_after ops false.
(** The level that enables the motors appears at the enable pin. *)
Definition motors_on (c : cape) : hw_event :=
  if cape_enable_high c then GpioSet (cape_enable c) else GpioClr (cape_enable c).

(** The first level that is read three times in a row. *)
Fixpoint first_stable (readings : list bool) : option bool :=
  match readings with
  | a :: r =>
      match r with
      | b :: c :: _ => if Bool.eqb a b && Bool.eqb b c then Some a else first_stable r
      | _ => None
      end
  | [] => None
  end.

(** ** What the configuration says about the switches *)
(** The words for a switch, in the order of the configuration, in lower case; [Some i] in
    front: switch_i. *)
Definition switch_lines (op : hw_op) : list (Z * text) :=
  match op with
  | HwConfig section name value =>
      if text_eqb section (txt "switch-mapping") then
        match find (fun i => text_eqb name (txt "switch_" ++ [ascii_of_nat (48 + Z.to_nat i)])) [1; 2; 3; 4; 5; 6; 7; 8; 9] with
        | Some i => map (fun w => (i, to_lower_text w)) (split_string value [" "; "009"; ","]%char)
        | None => []
        end
      else []
  | _ => []
  end.
Definition said_in (ops : list hw_op) : list (Z * text) := flat_map switch_lines ops.
(** The last switch that was given this word, 0 if none was. *)
Definition switch_for (word : text) (said : list (Z * text)) : Z :=
  fold_left (fun d '(i, x) => if text_eqb x word then i else d) said 0.
(** The level at which the switch answers: the last word about it, low if there is none. *)
Definition level_for (sw : Z) (said : list (Z * text)) : bool :=
  fold_left (fun d '(i, x) =>
    if negb (i =? sw) then d else if text_eqb x (txt "active:low") then false else if text_eqb x (txt "active:high") then true else d) said false.
(** Every line of the configuration was accepted. *)
Definition accepted (c : cape) (ops : list hw_op) : Prop :=
  forall pre s n v post, ops = pre ++ HwConfig s n v :: post -> fst (hw_name_value c s n v (hw_run c pre)) = true.
