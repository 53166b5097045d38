(** Specification of waiting: no call of the queue sleeps for ever. *)
From Verif Require Import Base Model_MotorOps Model_Pru Model_PruQueue Spec_Queue Model_Irq.

(** Calls as the rest of the program makes them: segments are well-formed and the
    exit element is left to Shutdown. *)
Definition op_ok (op : host_op) : Prop :=
  match op with OpEnqueue s => seg_ok s /\ ms_state s <> STATE_EXIT | _ => True end.
Definition iact_ok (a : iact) : Prop :=
  match a with IHost op | IFail op => op_ok op | _ => True end.

(** No call is in progress. *)
Definition returned (s : isys) : Prop := q_host (s_q s) = HIdle \/ q_host (s_q s) = HOff.

(** The host sleeps in read() and the kernel has nothing for it. *)
Definition asleep (d : driver) (s : isys) : Prop :=
  in_wait (s_q s) = true /\ s_wait s = (match d with Genirq => WRead | Pruss => WStart end) /\
  s_count s = s_seen s.
(** An interrupt is on its way to it. *)
Definition on_its_way (s : isys) : Prop :=
  s_raise s = true \/ (s_latch s = true /\ s_armed s = true).

(** Segments accepted and not completed. *)
Definition outstanding (s : isys) : Z :=
  Z.of_nat (length (accepted (q_log (s_q s)))) - completed (q_log (s_q s)).

(** An endless schedule in which host, firmware and kernel are never held up for
    ever. *)
Definition fair (sched : nat -> iact) : Prop :=
  (forall i, exists j op, (i <= j)%nat /\ sched j = IHost op) /\
  (forall i, exists j e, (i <= j)%nat /\ sched j = IPru e) /\
  (forall i, exists j, (i <= j)%nat /\ sched j = IKernel).
(** The state after the first [n] actions of the schedule. *)
Definition after (d : driver) (sched : nat -> iact) (n : nat) : isys := i_run d (map sched (seq 0 n)).
