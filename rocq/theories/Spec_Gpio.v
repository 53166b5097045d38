(** Specification of the pins. *)
From Verif Require Import Base Model_Axis Model_Hardware Model_Gpio.

(** Line [i] of bank [b]. *)
Definition is_pin (b i : Z) : Prop := 0 <= b < 4 /\ 0 <= i < 32.
Definition high (r : regs) (b i : Z) : bool := Z.testbit (r_out r b) i.
Definition is_input (r : regs) (b i : Z) : bool := Z.testbit (r_oe r b) i.
Definition seen (r : regs) (b i : Z) : bool := Z.testbit (r_in r b) i.
(** A connector is at a pin, or the cape does not have it. *)
Definition connector (d : Z) : Prop := d = GPIO_NOT_MAPPED \/ exists b i, is_pin b i /\ d = pin b i.
Definition wired (c : board) : Prop := Forall connector (out_pins c) /\ Forall connector (in_pins c).
(** The pin [d] is that of a switch or the probe; it is that of an output of the cape: step
    and direction of a motor, the pin that enables the motors, 16 outputs and 4 with PWM. *)
Definition switch_pin (c : board) (d : Z) : Prop := exists n, 1 <= n <= 9 /\ d = cape_switch (b_cape c) n.
Definition driven_pin (c : board) (d : Z) : Prop :=
  (exists m, d = b_step c m \/ d = b_dir c m) \/ d = cape_enable (b_cape c) \/
  (exists n, 1 <= n <= 16 /\ d = cape_aux (b_cape c) n) \/ (exists n, 1 <= n <= 4 /\ d = cape_pwm (b_cape c) n).
(** No two of these connectors are at the same pin. *)
Definition apart (ds : list Z) : Prop := NoDup (filter (fun d => negb (d =? GPIO_NOT_MAPPED)) ds).

(** The level the pin [d] should have: what was last said while there was access. *)
Fixpoint should (d : Z) (access level : bool) (ops : list gop) : bool :=
  match ops with
  | [] => level
  | GMap opened clocks ok :: ops =>
      should d (if opened then clocks && ok 0 && ok 1 && ok 2 && ok 3 else access) level ops
  | GUnmap :: ops => should d false level ops
  | GSet d' :: ops => should d access (if access && (d' =? d) then true else level) ops
  | GClr d' :: ops => should d access (if access && (d' =? d) then false else level) ops
  | GFirmware bits bit d' :: ops => should d access (if d' =? d then Z.testbit bits bit else level) ops
  | GInputs _ :: ops => should d access level ops
  end.
Definition op_ok (op : gop) : Prop :=
  match op with GSet d | GClr d | GFirmware _ _ d => connector d | _ => True end.

(** Pins [ds] show the levels [ls], and no other pin has changed. *)
Definition shows (r r' : regs) (ds : list Z) (ls : list bool) : Prop :=
  (forall b i, is_pin b i ->
     (forall l, In (pin b i, l) (combine ds ls) -> high r' b i = l) /\
     (~ In (pin b i) ds -> high r' b i = high r b i)) /\
  r_oe r' = r_oe r.
