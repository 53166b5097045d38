(** Properties of the motion queue shared by host and firmware (C37-C40), for
    every interleaving of the two. *)
From Verif Require Import Base Model_MotorOps Model_Pru Model_PruQueue Spec_Queue Proofs_PruQueue Proofs_PruQueue2.

(** C37: without emergency stop, whatever the interleaving, the firmware outputs a
    prefix of what executing the accepted segments one after the other in order
    gives: nothing is lost, repeated, reordered or torn. *)
Theorem C37_fifo : forall acts, Forall act_ok acts -> no_estop acts ->
  exists rest,
    concat (map seg_events (accepted (q_log (q_run acts)))) = outputs (q_log (q_run acts)) ++ rest.
Proof. exact fifo_run. Qed.
Print Assumptions C37_fifo.

(** C37: never more than 16 segments are accepted and not completed. *)
Theorem C37_capacity : forall acts, Forall act_ok acts ->
  completed (q_log (q_run acts)) <= Z.of_nat (length (accepted (q_log (q_run acts)))) <= completed (q_log (q_run acts)) + 16.
Proof. intros acts H. destruct (i_ring _ (inv_run acts H)) as (_ & R & _). exact R. Qed.
Print Assumptions C37_capacity.

(** C37: from every reachable state in which the firmware was not told to stop, it
    needs only to run on to execute everything accepted to its end. *)
Theorem C37_drains : forall acts, Forall act_ok acts -> no_estop acts ->
  (forall b, ~ In (EvShutdown b) (q_log (q_run acts))) ->
  (forall s, In s (accepted (q_log (q_run acts))) -> ms_state s <> STATE_EXIT) ->
  exists n, let q' := q_run (acts ++ repeat (Pru false) n) in
    accepted (q_log q') = accepted (q_log (q_run acts)) /\
    outputs (q_log q') = concat (map seg_events (accepted (q_log (q_run acts)))).
Proof.
  intros acts Hok Hno Hs Hx. pose proof (inv_run acts Hok) as I.
  destruct (i_ring _ I) as (R1 & R2 & _).
  assert (Hp : q_pru (q_run acts) <> PHalt).
  { intros E. destruct (halted_why acts Hok E) as [(b & B)|(s & S1 & S2)]; [now apply (Hs b)|now apply (Hx s)]. }
  destruct (drains (Z.to_nat (len (accepted (q_log (q_run acts))) - completed (q_log (q_run acts)))) _ I Hp Hx ltac:(lia)) as (n & N1 & N2).
  exists n. rewrite iterp_run. split; auto. rewrite <- N1. apply all_done_outputs.
  - now apply inv_iterp.
  - apply calm_iterp. now apply calm_run.
  - now rewrite N1.
Qed.
Print Assumptions C37_drains.

(** C38: GetPendingElements returns 0 exactly if all accepted segments are completed
    at the moment it returns (no emergency stop). [es] are the firmware steps that
    happen while the call runs. *)
Theorem C38_zero_iff_done : forall acts es op, Forall act_ok acts -> no_estop acts -> ~ In true es ->
  q_host (q_run acts) = HIdle -> q_pru (q_run acts) <> PHalt ->
  let q := q_run (acts ++ Host OpPending :: map Pru es) in
  exists n progress,
    q_log (q_run (acts ++ Host OpPending :: map Pru es ++ [Host op])) = q_log q ++ [EvPending n progress] /\
    (n = 0 <-> completed (q_log q) = Z.of_nat (length (accepted (q_log q)))).
Proof.
  intros acts es op Hok Hno Hes Hh Hp. destruct (pending_run acts es op Hok Hno Hes Hh Hp) as [E1 E2].
  cbv zeta. eexists. eexists. split; [exact E2|]. cbv zeta in *.
  fold (len (accepted (q_log (q_run (acts ++ Host OpPending :: map Pru es))))).
  destruct (Z.eqb_spec (completed (q_log (q_run (acts ++ Host OpPending :: map Pru es)))) (len (accepted (q_log (q_run (acts ++ Host OpPending :: map Pru es)))))) as [E|E].
  - tauto.
  - split; [|contradiction]. intros H0. exfalso. revert H0.
    destruct (i_ring _ (inv_run acts Hok)) as (R1 & R2 & _).
    destruct (Z.eqb_spec (seen (accepted (q_log (q_run acts))) (completed (q_log (q_run acts))) (q_pru (q_run acts))) 17); [lia|].
    assert (Hm : completed (q_log (q_run acts)) < len (accepted (q_log (q_run acts)))).
    { assert (Hmono : completed (q_log (q_run acts)) <= completed (q_log (q_run (acts ++ Host OpPending :: map Pru es)))).
      { clear. unfold q_run at 2. rewrite fold_left_app. fold (q_run acts). generalize (q_run acts) as q.
        generalize (Host OpPending :: map Pru es) as l. induction l as [|a l IH]; intros q; cbn [fold_left]; [lia|].
        etransitivity; [|apply IH]. clear IH.
        assert (G : forall l' ev, l' = q_log q ++ ev -> completed (q_log q) <= completed l').
        { intros l' ev ->. unfold completed. rewrite count_app. pose proof (count_nonneg is_end ev). lia. }
        destruct a as [o|e]; cbn [q_step].
        - unfold host_step, host_start, with_host.
          destruct (q_host q); repeat match goal with
          | |- context [if ?b then _ else _] => destruct b
          | |- context [match ?op with OpEnqueue _ => _ | OpWaitEmpty => _ | OpPending => _ | OpShutdown _ => _ end] => destruct op as [?| | |[|]]
          end; cbn [q_log]; try lia; (eapply G; reflexivity).
        - unfold pru_step, with_pru. destruct (q_pru q) as [|st dir pp|s'|fr ms t|v| |];
          try destruct (calculate_delay t) as [delay t'];
          repeat match goal with |- context [if ?b then _ else _] => destruct b end; cbn [q_log]; try lia; (eapply G; reflexivity). }
      rewrite E1 in E. assert (Hok2 : Forall act_ok (acts ++ Host OpPending :: map Pru es)).
      { apply Forall_app. split; auto. constructor; [exact Logic.I|]. apply Forall_forall. intros a Ha. apply in_map_iff in Ha.
        destruct Ha as (e & <- & _). exact Logic.I. }
      destruct (i_ring _ (inv_run _ Hok2)) as (_ & R2' & _). rewrite E1 in R2'. lia. }
    unfold seen. destruct (q_pru (q_run acts)); try (destruct (Z.eqb_spec (completed (q_log (q_run acts))) 0)); lia.
Qed.
Print Assumptions C38_zero_iff_done.

(** C38: if the call begins while the firmware steps a segment, the count is the
    number of segments accepted and not completed at that moment (the executing
    one included), and the progress value the number of passes of that segment
    still to come, less one. *)
Theorem C38_count_while_executing : forall acts es op fr ms tr, Forall act_ok acts -> no_estop acts -> ~ In true es ->
  let q0 := q_run acts in
  let q := q_run (acts ++ Host OpPending :: map Pru es) in
  q_host q0 = HIdle -> q_pru q0 = PStep fr ms tr -> Forall full (accepted (q_log q0)) ->
  exists s partial rest,
    nth_error (accepted (q_log q0)) (Z.to_nat (completed (q_log q0))) = Some s /\
    outputs (q_log q0) = concat (map seg_events (firstn (Z.to_nat (completed (q_log q0))) (accepted (q_log q0)))) ++ partial /\
    seg_events s = partial ++ rest /\
    q_log (q_run (acts ++ Host OpPending :: map Pru es ++ [Host op])) = q_log q ++
      [EvPending (if completed (q_log q) =? Z.of_nat (length (accepted (q_log q))) then 0
                  else Z.of_nat (length (accepted (q_log q0))) - completed (q_log q0))
                 (count is_pass rest - 1)].
Proof.
  intros acts es op fr ms tr Hok Hno Hes q0 q Hh Hp Hf.
  assert (Hp' : q_pru q0 <> PHalt) by (rewrite Hp; discriminate).
  destruct (progress_run acts fr ms tr Hok Hno Hp Hf) as (s & partial & rest & P1 & P2 & P3 & P4).
  exists s, partial, rest. split; auto. split; auto. split; auto.
  destruct (pending_run acts es op Hok Hno Hes Hh Hp') as [E1 E2]. cbv zeta in E1, E2. fold q0 in E1, E2, P4. fold q in E1, E2. unfold q at 1. rewrite E2, P4.
  do 3 f_equal. fold (len (accepted (q_log q))). destruct (completed (q_log q) =? len (accepted (q_log q))); auto.
  rewrite Hp. unfold seen. destruct (i_ring _ (inv_run acts Hok)) as (R1 & R2 & _). fold q0 in R1, R2.
  destruct (Z.eqb_spec (len (accepted (q_log q0)) - completed (q_log q0)) 17); [lia|reflexivity].
Qed.
Print Assumptions C38_count_while_executing.

(** C38: if the call begins after a segment was completed and before the next is
    under way, the completed one is still counted. *)
Theorem C38_count_between : forall acts es op, Forall act_ok acts -> no_estop acts -> ~ In true es ->
  let q0 := q_run acts in
  let q := q_run (acts ++ Host OpPending :: map Pru es) in
  q_host q0 = HIdle -> q_pru q0 = PRead -> 0 < completed (q_log q0) ->
  let pending := Z.of_nat (length (accepted (q_log q0))) - completed (q_log q0) in
  exists progress,
    q_log (q_run (acts ++ Host OpPending :: map Pru es ++ [Host op])) = q_log q ++
      [EvPending (if completed (q_log q) =? Z.of_nat (length (accepted (q_log q))) then 0
                  else if pending =? 16 then 1 else pending + 1) progress].
Proof.
  intros acts es op Hok Hno Hes q0 q Hh Hp Hd pending.
  assert (Hp' : q_pru q0 <> PHalt) by (rewrite Hp; discriminate).
  destruct (pending_run acts es op Hok Hno Hes Hh Hp') as [E1 E2]. cbv zeta in E1, E2. fold q0 in E1, E2. fold q in E1, E2.
  eexists. rewrite E2. do 3 f_equal. fold (len (accepted (q_log q))). destruct (completed (q_log q) =? len (accepted (q_log q))); auto.
  rewrite Hp. unfold seen, pending. fold (len (accepted (q_log q0))).
  destruct (Z.eqb_spec (completed (q_log q0)) 0); [lia|].
  destruct (Z.eqb_spec (len (accepted (q_log q0)) - (completed (q_log q0) - 1)) 17);
    destruct (Z.eqb_spec (len (accepted (q_log q0)) - completed (q_log q0)) 16); lia.
Qed.
Print Assumptions C38_count_between.

(** A segment: one pass of acceleration-free travel, then the final pass. *)
Definition ex_seg : motion_segment :=
  {| ms_state := STATE_FILLED; ms_direction_bits := 5; ms_loops_accel := 0; ms_loops_travel := 2;
     ms_loops_decel := 0; ms_aux := 3; ms_accel_series_index := 0; ms_hires_accel_cycles := 0;
     ms_travel_delay_cycles := 1000; ms_fractions := fun m => if motor_ix m =? 0 then 2 ^ 31 else 0 |}.
Definition enqueue (s : motion_segment) : list qact := repeat (Host (OpEnqueue s)) 58.
Lemma ex_seg_ok : seg_ok ex_seg.
Proof. unfold seg_ok, ex_seg; cbn [ms_state ms_direction_bits ms_loops_accel ms_loops_travel ms_loops_decel ms_aux ms_accel_series_index ms_hires_accel_cycles ms_travel_delay_cycles ms_fractions]. unfold STATE_FILLED, STATE_ABORT. repeat split; try lia; destruct m; cbn; lia. Qed.
Lemma enqueue_ok : forall s n, seg_ok s -> Forall act_ok (repeat (Host (OpEnqueue s)) n).
Proof. intros s n H. apply Forall_forall. intros a Ha. apply repeat_spec in Ha. subst a. exact H. Qed.
Lemma pru_ok : forall e n, Forall act_ok (repeat (Pru e) n).
Proof. intros e n. apply Forall_forall. intros a Ha. apply repeat_spec in Ha. subst a. exact Logic.I. Qed.

(** C38, refuted without the guard: with 16 segments pending, 1 is reported if the
    first of 17 has just been completed and the second is not yet under way. *)
Definition stale : list qact :=
  repeat (Host (OpEnqueue ex_seg)) (16 * 58) ++ repeat (Pru false) 59 ++ enqueue ex_seg.
Theorem C38_sixteen_reported_as_one_refuted :
  exists acts, Forall act_ok acts /\ no_estop acts /\
    Z.of_nat (length (accepted (q_log (q_run acts)))) - completed (q_log (q_run acts)) = 16 /\
    q_log (q_run (acts ++ [Host OpPending; Host OpPending])) = q_log (q_run acts) ++ [EvPending 1 0].
Proof.
  exists stale. split; [|split; [|split]].
  - unfold stale, enqueue. rewrite !Forall_app. split; [|split]; [apply enqueue_ok, ex_seg_ok|apply pru_ok|apply enqueue_ok, ex_seg_ok].
  - intros X. unfold stale, enqueue in X. rewrite !in_app_iff in X. destruct X as [X|[X|X]]; apply repeat_spec in X; discriminate.
  - vm_compute. reflexivity.
  - rewrite (app_assoc _ [Host OpPending] [Host OpPending] : stale ++ [Host OpPending; Host OpPending] = _), !run_snoc.
    generalize (eq_refl : q_host (q_run stale) = q_host (q_run stale)).
    assert (Hh : q_host (q_run stale) = HIdle) by (vm_compute; reflexivity).
    assert (Hs : q_status (q_run stale) = 0) by (vm_compute; reflexivity).
    assert (Hm : (q_mem (q_run stale) (slot_addr (ring_offset (q_pos (q_run stale)) (-1))) =? STATE_EMPTY) = false) by (vm_compute; reflexivity).
    assert (Hr : ring_offset (q_pos (q_run stale)) 0 = 1) by (vm_compute; reflexivity).
    intros _. revert Hh Hs Hm Hr. generalize (q_run stale). intros q Hh Hs Hm Hr.
    cbn [q_step]. unfold host_step at 2. rewrite Hh. unfold host_start, with_host, host_step. cbn [q_host q_mem q_pos q_log q_status].
    unfold with_host. cbn [q_log]. rewrite Hs, Hm. change (- (0 / 2 ^ 24)) with 0. rewrite Hr. rewrite app_nil_r. reflexivity.
Qed.
Print Assumptions C38_sixteen_reported_as_one_refuted.

(** C39: when WaitQueueEmpty returns, everything accepted before was executed to its
    end; when a flushing Shutdown returns, additionally the exit element was
    accepted and executed last. *)
Theorem C39_wait_queue_empty : forall acts l1 l2, Forall act_ok acts -> no_estop acts ->
  q_log (q_run acts) = l1 ++ EvEmpty :: l2 ->
  outputs l1 = concat (map seg_events (accepted l1)).
Proof. intros acts l1 l2 H1 H2 E. exact (proj2 (flush_ok_run acts H1 H2 l1 EvEmpty l2 E)). Qed.
Print Assumptions C39_wait_queue_empty.

Theorem C39_shutdown_flushes : forall acts l1 l2, Forall act_ok acts -> no_estop acts ->
  q_log (q_run acts) = l1 ++ EvShutdown true :: l2 ->
  exists A, accepted l1 = A ++ [exit_element] /\ outputs l1 = concat (map seg_events A) ++ [EvHalt].
Proof.
  intros acts l1 l2 H1 H2 E. destruct (flush_ok_run acts H1 H2 l1 (EvShutdown true) l2 E) as [G (A & EA)].
  exists A. split; auto. rewrite G, EA, map_app, concat_app. reflexivity.
Qed.
Print Assumptions C39_shutdown_flushes.

(** C39: after Shutdown has returned nothing is output any more. *)
Lemma off_stays : forall acts q, q_host q = HOff -> q_pru q = PHalt -> fold_left q_step acts q = q.
Proof.
  induction acts as [|a acts IH]; intros q H1 H2; auto. cbn [fold_left].
  replace (q_step q a) with q; [auto|]. destruct a as [op|e]; cbn [q_step]; [unfold host_step; now rewrite H1|unfold pru_step; now rewrite H2].
Qed.
Theorem C39_silent_after_shutdown : forall acts l1 b l2, Forall act_ok acts ->
  q_log (q_run acts) = l1 ++ EvShutdown b :: l2 -> l2 = [].
Proof.
  intros acts l1 b l2 Hok.
  assert (G : forall acts, (forall b, ~ In (EvShutdown b) (q_log (q_run acts))) \/
     (q_host (q_run acts) = HOff /\ q_pru (q_run acts) = PHalt /\ exists l b, q_log (q_run acts) = l ++ [EvShutdown b] /\ forall b, ~ In (EvShutdown b) l)).
  { clear. induction acts as [|a acts IH] using rev_ind; [left; intros b []|]. rewrite run_snoc. set (q := q_run acts) in *.
    destruct IH as [IH|(H1 & H2 & H3)].
    2: { right. replace (q_step q a) with q; [auto|]. destruct a as [op|e]; cbn [q_step]; [unfold host_step; now rewrite H1|unfold pru_step; now rewrite H2]. }
    assert (N : forall q' ev, q_log q' = q_log q ++ ev -> (forall b, ~ In (EvShutdown b) ev) -> forall b, ~ In (EvShutdown b) (q_log q')).
    { intros q' ev -> Hn b X. apply in_app_or in X. destruct X as [X|X]; [now apply (IH b)|now apply (Hn b)]. }
    destruct a as [op|e]; cbn [q_step].
    - unfold host_step, host_start, with_host.
      destruct (q_host q); repeat match goal with
          | |- context [if ?b then _ else _] => destruct b
          | |- context [match ?op with OpEnqueue _ => _ | OpWaitEmpty => _ | OpPending => _ | OpShutdown _ => _ end] => destruct op as [?| | |[|]]
          end;
      try (left; first [exact IH | eapply N; [cbn [q_log]; first [reflexivity|symmetry; apply app_nil_r]|cbn; intros ? X; repeat destruct X as [X|X]; solve [discriminate|contradiction]]]).
      all: right; split; [reflexivity|]; split; [reflexivity|]; cbn [q_log].
      all: try (exists (q_log q), false; split; [reflexivity|exact IH]).
      all: exists (q_log q ++ [EvEmpty]), true; split; [now rewrite <- app_assoc|]; intros b X; apply in_app_or in X; destruct X as [X|[X|[]]]; [now apply (IH b)|discriminate].
    - left. unfold pru_step, with_pru. destruct (q_pru q) as [|st dir pp|s'|fr ms t|v| |];
          try destruct (calculate_delay t) as [delay t'];
          repeat match goal with |- context [if ?b then _ else _] => destruct b end;
      first [exact IH | eapply N; [cbn [q_log]; first [reflexivity|symmetry; apply app_nil_r]|cbn; intros ? X; repeat destruct X as [X|X]; solve [discriminate|contradiction]]]. }
  intros E. destruct (G acts) as [N|(_ & _ & (l & b' & E' & N))].
  - exfalso. apply (N b). rewrite E. apply in_or_app. right. now left.
  - rewrite E in E'. destruct l2 as [|x l2] using rev_ind; auto. exfalso. clear IHl2.
    rewrite app_comm_cons, app_assoc in E'. apply app_inj_tail in E'. destruct E' as [E' _]. apply (N b). rewrite <- E'.
    apply in_or_app. right. now left.
Qed.
Print Assumptions C39_silent_after_shutdown.

(** C40: with emergency stops at any time, the firmware's outputs are those of the
    accepted segments in order, each executed fully or cut off and marked aborted,
    then the beginning of the next one. *)
Theorem C40_every_segment_ends : forall acts, Forall act_ok acts ->
  exists runs partial,
    outputs (q_log (q_run acts)) = concat runs ++ partial /\
    Forall2 seg_run (firstn (Z.to_nat (completed (q_log (q_run acts)))) (accepted (q_log (q_run acts)))) runs /\
    (partial = [] \/ exists s rest,
       nth_error (accepted (q_log (q_run acts))) (Z.to_nat (completed (q_log (q_run acts)))) = Some s /\
       seg_events s = partial ++ rest).
Proof.
  intros acts Hok. pose proof (inv_run acts Hok) as I. destruct (i_pru _ I) as (runs & partial & P1 & P2 & P3).
  exists runs, partial. split; auto. split; auto. destruct (i_ring _ I) as (_ & _ & _ & _ & R5).
  destruct (partial_prefix _ _ _ _ _ _ _ R5 P3) as [->|(s & post & [_ S1] & S2)]; [now left|right; eauto].
Qed.
Print Assumptions C40_every_segment_ends.

(** C40: while the emergency stop input is active no step pulse is output. *)
Theorem C40_no_steps_while_stopped : forall acts1 acts2, ~ In (Pru false) acts2 ->
  exists l, q_log (q_run (acts1 ++ acts2)) = q_log (q_run acts1) ++ l /\ (forall p d, ~ In (EvPass p d) l).
Proof.
  intros acts1 acts2 H. destruct (stopped_no_pass acts2 (q_run acts1) H) as (l & E & C).
  exists l. split; [unfold q_run in *; now rewrite fold_left_app|]. intros p d X. unfold count in C.
  assert (In (EvPass p d) (filter is_pass l)) by (apply filter_In; auto). destruct (filter is_pass l); [auto|cbn in C; lia].
Qed.
Print Assumptions C40_no_steps_while_stopped.

(** C40: the host learns of an aborted segment: Enqueue fails before the segment 16
    places later is accepted. *)
Theorem C40_host_is_told : forall acts l1 s l2, Forall act_ok acts ->
  q_log (q_run acts) = l1 ++ EvAccepted s :: l2 -> 16 <= Z.of_nat (length (accepted l1)) ->
  nth_error (ends l1) (Z.to_nat (Z.of_nat (length (accepted l1)) - 16)) = Some EvAborted ->
  exists l3 l4, l1 = l3 ++ EvRefused :: l4 /\ accepted l4 = [].
Proof. intros acts l1 s l2 H E H16 Hn. exact (proj2 (told_run acts H) l1 (EvAccepted s) l2 E H16 Hn). Qed.
Print Assumptions C40_host_is_told.

(** C40: Enqueue fails only because of aborted segments, once for each; up to 16
    aborted segments can go unnoticed. *)
Theorem C40_refusals : forall acts, Forall act_ok acts ->
  count is_refused (q_log (q_run acts)) <= count is_aborted (q_log (q_run acts)) <= count is_refused (q_log (q_run acts)) + 16.
Proof. exact aborts_run. Qed.
Print Assumptions C40_refusals.

(** Concrete executions: hypotheses are met by non-trivial cases. *)
Definition ex_acts : list qact :=
  enqueue ex_seg ++ repeat (Pru false) 57 ++ enqueue ex_seg ++ repeat (Pru false) 120.
Example ex_fifo : Forall act_ok ex_acts /\ no_estop ex_acts /\
  outputs (q_log (q_run ex_acts)) = seg_events ex_seg ++ seg_events ex_seg /\
  count is_pass (seg_events ex_seg) = 3.
Proof.
  split; [|split; [|split]].
  - unfold ex_acts, enqueue. rewrite !Forall_app. split; [|split; [|split]]; auto using enqueue_ok, ex_seg_ok, pru_ok.
  - intros X. unfold ex_acts, enqueue in X. rewrite !in_app_iff in X. destruct X as [X|[X|[X|X]]]; apply repeat_spec in X; discriminate.
  - vm_compute. reflexivity.
  - vm_compute. reflexivity.
Qed.
(** Counting while the firmware steps the first of two segments. *)
Definition ex_exec : list qact := enqueue ex_seg ++ enqueue ex_seg ++ repeat (Pru false) 56.
Example ex_pending : q_host (q_run ex_exec) = HIdle /\ (exists fr ms t, q_pru (q_run ex_exec) = PStep fr ms t) /\
  skipn 5 (q_log (q_run (ex_exec ++ [Host OpPending; Host OpPending]))) = [EvPending 2 1].
Proof.
  split; [vm_compute; reflexivity|]. split; [|vm_compute; reflexivity].
  assert (E : match q_pru (q_run ex_exec) with PStep _ _ _ => true | _ => false end = true) by (vm_compute; reflexivity).
  destruct (q_pru (q_run ex_exec)); try discriminate. eauto.
Qed.
Example ex_full : full ex_seg.
Proof.
  right. assert (E : match pru_execute ex_seg with Some ls => length ls | None => 0%nat end = 3%nat) by (vm_compute; reflexivity).
  destruct (pru_execute ex_seg) as [ls|]; [|discriminate]. exists ls. rewrite E. auto.
Qed.
(** Shutdown with a segment still pending. *)
Definition ex_down : list qact :=
  enqueue ex_seg ++ repeat (Host (OpShutdown true)) 58 ++ repeat (Pru false) 61 ++ repeat (Host OpWaitEmpty) 3.
Example ex_shutdown : exists l1, q_log (q_run ex_down) = l1 ++ [EvShutdown true] /\ length (accepted l1) = 2%nat.
Proof.
  exists (firstn 10 (q_log (q_run ex_down))). split; [|vm_compute; reflexivity].
  transitivity (firstn 10 (q_log (q_run ex_down)) ++ skipn 10 (q_log (q_run ex_down))); [symmetry; apply firstn_skipn|].
  assert (E : skipn 10 (q_log (q_run ex_down)) = [EvShutdown true]) by (vm_compute; reflexivity). now rewrite E.
Qed.
(** An emergency stop in the middle of a segment; the host finds out 16 segments later. *)
Definition ex_stop : list qact :=
  enqueue ex_seg ++ repeat (Pru false) 56 ++ repeat (Pru true) 2 ++ repeat (Host (OpEnqueue ex_seg)) (15 * 58 + 4) ++ enqueue ex_seg.
Example ex_told : count is_aborted (q_log (q_run ex_stop)) = 1 /\ count is_refused (q_log (q_run ex_stop)) = 1 /\
  length (accepted (q_log (q_run ex_stop))) = 17%nat.
Proof. vm_compute. repeat split; reflexivity. Qed.
