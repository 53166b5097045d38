(** Model of how the host sleeps while it waits for the firmware: WaitEvent of
    src/uio-genirq-interface.cc:209-233 and src/uio-pruss-interface.cc:81-85, the
    interrupt the firmware raises (motor-interface-pru.p:286, 302) and the interrupt
    itself, around the two programs of [Model_PruQueue]. There WaitEvent may return
    at any time; here it returns when an interrupt has been counted.
    The interrupt controller and the kernel drivers are not part of the repository.
    They are modelled as the comment uio-genirq-interface.cc:210-213 describes them:
    a raised event is latched in the controller; when the interrupt is not masked,
    the kernel counts the event and masks the interrupt; read() returns when the
    count differs from the one read before. uio_pdrv_genirq also acknowledges the
    latched event and unmasks on write(); with uio_pruss both are done by
    prussdrv_pru_clear_event, in this order. *)
From Verif Require Import Base Model_MotorOps Model_Pru Model_PruQueue.

(** Which of the two interfaces is in use. *)
Inductive driver := Genirq | Pruss.

(** Where the host is within WaitEvent. *)
Inductive wait_pc :=
| WStart        (* uio-genirq-interface.cc:215 write(); uio-pruss-interface.cc:82 *)
| WRead         (* uio-genirq-interface.cc:222 read() *)
| WClear        (* uio-pruss-interface.cc:83, the event is cleared *)
| WUnmask.      (* uio-pruss-interface.cc:83, the interrupt is unmasked *)

Record isys := mk_isys {
  s_q : qsys;
  s_wait : wait_pc;
  s_raise : bool;    (* the firmware has written the slot, not yet R31 *)
  s_latch : bool;    (* event latched in the interrupt controller *)
  s_armed : bool;    (* interrupt not masked *)
  s_count : Z;       (* events counted by the kernel *)
  s_seen : Z         (* count at the last read() *)
}.

(** uio-genirq-interface.cc:139-153, uio-pruss-interface.cc:45-58 *)
Definition i_init : isys := mk_isys q_init WStart false false true 0 0.

(** The host is in a call of WaitEvent: pru-motion-queue.cc:138, 159. *)
Definition in_wait (q : qsys) : bool :=
  match q_host q with HEnqWait _ _ | HWaitWait _ => true | _ => false end.

(** WaitEvent returns to the loop of Enqueue or WaitQueueEmpty. *)
Definition leave_wait (op : host_op) (s : isys) (latch armed : bool) (seen : Z) : isys :=
  mk_isys (host_step op (s_q s)) WStart (s_raise s) latch armed (s_count s) seen.

Definition host_istep (d : driver) (op : host_op) (s : isys) : isys :=
  let goto w latch armed seen := mk_isys (s_q s) w (s_raise s) latch armed (s_count s) seen in
  if in_wait (s_q s) then
    match d, s_wait s with
    | Genirq, WStart => goto WRead (s_latch s) true (s_seen s)
    | Genirq, _ =>
        if s_count s =? s_seen s then s
        else leave_wait op s (s_latch s) (s_armed s) (s_count s)
    | Pruss, WStart =>
        if s_count s =? s_seen s then s else goto WClear (s_latch s) (s_armed s) (s_count s)
    | Pruss, WClear => goto WUnmask false (s_armed s) (s_seen s)
    | Pruss, _ => leave_wait op s (s_latch s) true (s_seen s)
    end
  else leave_wait op s (s_latch s) (s_armed s) (s_seen s).

(** write() or read() fails, or read() is interrupted by a signal: WaitEvent of
    genirq logs and returns 0 (uio-genirq-interface.cc:215-219, 224-228; after a
    signal it reads again, 223), the one of pruss goes on. *)
Definition fail_istep (d : driver) (op : host_op) (s : isys) : isys :=
  if in_wait (s_q s) then
    match d, s_wait s with
    | Genirq, _ => leave_wait op s (s_latch s) (s_armed s) (s_seen s)
    | Pruss, WStart => mk_isys (s_q s) WClear (s_raise s) (s_latch s) (s_armed s) (s_count s) (s_seen s)
    | Pruss, _ => s
    end
  else s.

(** The firmware, which writes to R31 after it has written the state of the slot:
    motor-interface-pru.p:285-286, 301-302. *)
Definition pru_istep (estop : bool) (s : isys) : isys :=
  if s_raise s then mk_isys (s_q s) (s_wait s) false true (s_armed s) (s_count s) (s_seen s)
  else mk_isys (pru_step estop (s_q s)) (s_wait s)
               (match q_pru (s_q s) with PStore _ | PFinish => true | _ => false end)
               (s_latch s) (s_armed s) (s_count s) (s_seen s).

(** The kernel, when the controller interrupts it. *)
Definition kernel_istep (d : driver) (s : isys) : isys :=
  if s_latch s && s_armed s then
    mk_isys (s_q s) (s_wait s) (s_raise s) (match d with Genirq => false | Pruss => true end)
            false (s_count s + 1) (s_seen s)
  else s.

Inductive iact := IHost (op : host_op) | IFail (op : host_op) | IPru (estop : bool) | IKernel.
Definition i_step (d : driver) (s : isys) (a : iact) : isys :=
  match a with
  | IHost op => host_istep d op s
  | IFail op => fail_istep d op s
  | IPru e => pru_istep e s
  | IKernel => kernel_istep d s
  end.
Definition i_run (d : driver) (acts : list iact) : isys := fold_left (i_step d) acts i_init.
