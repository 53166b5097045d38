(** Host and firmware write the same pins: the queue of [Model_PruQueue], the calls of
    [Model_Hardware] and the registers of [Model_Gpio] together. The host is one
    thread: it calls the hardware only between its calls of the queue. *)
From Verif Require Import Base Model_Axis Model_Hardware Model_MotorOps Model_Pru Model_PruQueue Model_Gpio.

Record osys := mk_osys {
  o_q : qsys; o_pins : gsys; o_hw : hw;
  o_log : list (qevent + hw_event)     (* ghost: what both have done, in order *)
}.
(** motor-interface-pru.p:207, 216, 271: what the firmware writes; bit 31 of the
    motor states is what SetSteps looks at *)
Definition firmware_write (c : board) (s : gsys) (e : qevent) : gsys :=
  with_regs s
    (match e with
     | EvDirections bits => set_directions c bits (g_regs s)
     | EvAux bits => set_aux_bits c bits (g_regs s)
     | EvPass pins _ => set_steps c (fun m => Z.shiftl (Z.b2z (nth (Z.to_nat (motor_ix m)) pins false)) 31) (g_regs s)
     | _ => g_regs s
     end).
(** hardware-mapping.cc:206-220, 243-251: what the host writes *)
Definition host_write (s : outcome gsys) (e : hw_event) : outcome gsys :=
  obind s (fun s => match e with GpioSet d => set_gpio s d | GpioClr d => clr_gpio s d | _ => Ok s end).
Definition added {A : Type} (old new : list A) : list A := skipn (length old) new.

Inductive oact := OQueue (a : qact) | OHw (op : hw_op).
Definition ostep (c : board) (s : osys) (a : oact) : outcome osys :=
  match a with
  | OQueue a =>
      let q := q_step (o_q s) a in
      let es := added (q_log (o_q s)) (q_log q) in
      Ok (mk_osys q (fold_left (firmware_write c) es (o_pins s)) (o_hw s) (o_log s ++ map inl es))
  | OHw op =>
      match q_host (o_q s) with
      | HIdle | HOff =>
          let h := hw_step (b_cape c) (o_hw s) op in
          let es := added (hw_log (o_hw s)) (hw_log h) in
          obind (fold_left host_write es (Ok (o_pins s))) (fun p => Ok (mk_osys (o_q s) p h (o_log s ++ map inr es)))
      | _ => Ok s
      end
  end.
Fixpoint orun (c : board) (s : osys) (acts : list oact) : outcome osys :=
  match acts with [] => Ok s | a :: acts => obind (ostep c s a) (fun s => orun c s acts) end.
(** The pins are mapped, the queue is new. *)
Definition ostart (r : regs) (h : hw) : osys := mk_osys q_init (mk_gsys r (fun _ => At)) h [].
