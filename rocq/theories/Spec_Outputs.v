(** Specification of the auxiliary outputs: what was last said about an output. *)
From Verif Require Import Base Model_Axis Model_Hardware Model_MotorOps Model_Pru Model_PruQueue Model_Gpio Model_Outputs.

(** What an event says about auxiliary output [n] (1 to 16). *)
Definition tells (c : board) (n : Z) (e : qevent + hw_event) : option bool :=
  match e with
  | inl (EvAux bits) => Some (Z.testbit bits (n - 1))
  | inr (GpioSet d) => if d =? cape_aux (b_cape c) n then Some true else None
  | inr (GpioClr d) => if d =? cape_aux (b_cape c) n then Some false else None
  | _ => None
  end.
Definition last_told (c : board) (n : Z) (start : bool) (log : list (qevent + hw_event)) : bool :=
  fold_left (fun l e => match tells c n e with Some b => b | None => l end) log start.
(** Calls while the machine runs, not those that configure it. *)
Definition at_run_time (a : oact) : Prop :=
  match a with
  | OHw (HwEnableMotors _ | HwUpdateAux _ _ | HwUpdateOutput _ _ | HwSetAux | HwAuxOff | HwPwm _ _) => True
  | OHw _ => False
  | OQueue _ => True
  end.
Definition queue_acts (acts : list oact) : list qact :=
  flat_map (fun a => match a with OQueue a => [a] | OHw _ => [] end) acts.
