(** C78: a call that waits for the firmware never sleeps for ever. *)
From Verif Require Import Base Model_MotorOps Model_Pru Model_PruQueue Spec_Queue Model_Irq Spec_Irq.
From Verif Require Import Proofs_PruQueue Proofs_PruQueue2 Proofs_Irq Proofs_Irq2 Prop_Queue.

(** C78: when the host sleeps and no interrupt is on its way, what it waits for has
    not happened: for Enqueue all 16 slots are still taken, for WaitQueueEmpty and
    Shutdown a segment is still outstanding; and the firmware is still at work on it. *)
Theorem C78_no_lost_wakeup : forall d acts, Forall iact_ok acts ->
  let s := i_run d acts in
  asleep d s -> ~ on_its_way s ->
  0 < outstanding s /\ q_pru (s_q s) <> PHalt /\
  ((exists seg shutdown, q_host (s_q s) = HEnqWait seg shutdown) -> outstanding s = 16).
Proof.
  intros d acts Hok s (A1 & A2 & A3) Hn. pose proof (J_run d acts Hok) as Js. fold s in Js.
  destruct Js as [J1 J2 J3 J4 J5 J6 J7].
  assert (F : is_free (q_mem (s_q s) (want (s_q s))) = false).
  { destruct (is_free (q_mem (s_q s) (want (s_q s)))) eqn:F; [exfalso|reflexivity].
    assert (Sg : sig s).
    { assert (Hw : s_wait s = WStart \/ s_wait s = WRead) by (destruct d; auto). specialize (J7 Hw).
      unfold noticed in J7. unfold in_wait in A1. destruct (q_host (s_q s)); try discriminate A1; auto. }
    destruct (J6 A2) as [Ar|Ar]; [|contradiction].
    destruct Sg as [Sg|[Sg|Sg]]; [| |contradiction]; apply Hn; unfold on_its_way; auto. }
  assert (As : asks (s_q s) = true) by (unfold asks, in_wait in *; destruct (q_host (s_q s)); try discriminate A1; reflexivity).
  destruct (want_busy _ J1 As F) as [B1 B2]. unfold outstanding. fold (len (accepted (q_log (s_q s)))).
  split; [lia|]. split.
  - intros P. destruct J2 as (_ & X & _); [intros X; unfold in_wait in A1; rewrite X in A1; discriminate A1|].
    destruct (X P) as [Y _]. lia.
  - intros (seg & sd & E). unfold asks_empty in B2. rewrite E in B2. specialize (B2 eq_refl). lia.
Qed.
Print Assumptions C78_no_lost_wakeup.

(** C78: in every schedule in which host, firmware and kernel go on, every call
    returns, with either kernel interface, whatever the emergency stop does and
    however often waiting fails or is interrupted by a signal. *)
Theorem C78_calls_return : forall d sched, (forall i, iact_ok (sched i)) -> fair sched ->
  forall i, exists j, (i <= j)%nat /\ returned (after d sched j).
Proof. exact calls_return. Qed.
Print Assumptions C78_calls_return.

(** C78: the queue of this model is the one of C37 to C40: what those say of every
    history holds here. *)
Theorem C78_same_queue : forall d acts, Forall iact_ok acts ->
  exists qacts, Forall act_ok qacts /\ s_q (i_run d acts) = q_run qacts /\
    (~ In (IPru true) acts -> no_estop qacts).
Proof. exact same_queue. Qed.
Print Assumptions C78_same_queue.

(** A segment is enqueued, the host waits for it and falls asleep; the firmware
    executes it and raises the interrupt, the kernel counts it, the host wakes up. *)
Definition ex_sleep : list iact :=
  repeat (IHost (OpEnqueue ex_seg)) 58 ++ repeat (IHost OpWaitEmpty) 6.
Definition ex_wake : list iact := ex_sleep ++ repeat (IPru false) 60 ++ [IKernel].
Lemma ex_ops : forall n op, op_ok op -> Forall iact_ok (repeat (IHost op) n).
Proof. intros n op H. apply Forall_forall. intros a Ha. apply repeat_spec in Ha. subst a. exact H. Qed.
Lemma ex_seg_op : op_ok (OpEnqueue ex_seg).
Proof. split; [exact ex_seg_ok|]. discriminate. Qed.
Example C78_example :
  (forall d, Forall iact_ok ex_sleep /\ asleep d (i_run d ex_sleep) /\ ~ on_its_way (i_run d ex_sleep)) /\
  ~ asleep Genirq (i_run Genirq ex_wake) /\ ~ asleep Pruss (i_run Pruss ex_wake) /\
  returned (i_run Genirq (ex_wake ++ repeat (IHost OpPending) 2)) /\
  returned (i_run Pruss (ex_wake ++ repeat (IHost OpPending) 4)).
Proof.
  split; [|split; [|split; [|split]]].
  - intros d. split; [unfold ex_sleep; apply Forall_app; split; apply ex_ops; [exact ex_seg_op|exact I]|].
    destruct d.
    + split; [split; [|split]; vm_compute; reflexivity|]. intros [X|[X _]]; vm_compute in X; discriminate X.
    + split; [split; [|split]; vm_compute; reflexivity|]. intros [X|[X _]]; vm_compute in X; discriminate X.
  - intros (_ & _ & X). vm_compute in X. discriminate X.
  - intros (_ & _ & X). vm_compute in X. discriminate X.
  - left. vm_compute. reflexivity.
  - left. vm_compute. reflexivity.
Qed.
(** A fair schedule: in turn. *)
Definition ex_turns (n : nat) : iact :=
  match (n mod 3)%nat with O => IHost (OpEnqueue ex_seg) | S O => IPru false | _ => IKernel end.
Example C78_fair_example : (forall i, iact_ok (ex_turns i)) /\ fair ex_turns.
Proof.
  split.
  - intros i. unfold ex_turns. destruct (i mod 3)%nat as [|[|k]]; [exact ex_seg_op|exact I|exact I].
  - assert (G : forall i k, (k < 3)%nat -> exists j, (i <= j)%nat /\ (j mod 3 = k)%nat).
    { intros i k Hk. exists (k + i * 3)%nat. split; [lia|]. rewrite Nat.mod_add by lia. apply Nat.mod_small. exact Hk. }
    split; [|split]; intros i.
    + destruct (G i 0%nat ltac:(lia)) as (j & H1 & H2). exists j. eexists. split; [exact H1|]. unfold ex_turns. rewrite H2. reflexivity.
    + destruct (G i 1%nat ltac:(lia)) as (j & H1 & H2). exists j. eexists. split; [exact H1|]. unfold ex_turns. rewrite H2. reflexivity.
    + destruct (G i 2%nat ltac:(lia)) as (j & H1 & H2). exists j. split; [exact H1|]. unfold ex_turns. rewrite H2. reflexivity.
Qed.
