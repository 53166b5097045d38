From Verif Require Import Base Model_MotorOps Model_Pru Model_PruQueue Spec_Queue Model_Irq Spec_Irq.
From Verif Require Import Proofs_PruQueue Proofs_PruQueue2 Proofs_Irq.

Lemma level_range : forall s, 1 <= level s <= 3.
Proof. intros s. unfold level. destruct (s_count s =? s_seen s), (s_latch s); lia. Qed.
Lemma wrank_range : forall d s, 1 <= wrank d s <= 10.
Proof. intros d s. pose proof (level_range s). unfold wrank. destruct d, (s_wait s); lia. Qed.
Lemma hrank_range : forall d s, Inv (s_q s) -> 1 <= hrank d s <= 100.
Proof.
  intros d s I. pose proof (wrank_range d s). pose proof (i_host _ I) as HI. unfold hrank.
  destruct (q_host (s_q s)); try lia; try (destruct (aborted_slot s); lia).
  cbn [host_inv] in HI. destruct HI as [(_ & _ & _ & _ & _ & C & _) _]. lia.
Qed.
Definition tail (d : driver) (s : isys) : Z :=
  if blocked s then 2 ^ 34 + (2 * work (s_q s) + (if s_raise s then 1 else 0)) else hrank d s.
Lemma tail_range : forall d s, Inv (s_q s) -> 1 <= tail d s < 2 ^ 36.
Proof.
  intros d s I. pose proof (hrank_range d s I). pose proof (work_range _ I). unfold tail.
  destruct (blocked s), (s_raise s); lia.
Qed.
Lemma rank_tail : forall d s, rank d s = phase (s_q s) * 2 ^ 40 + tail d s.
Proof. reflexivity. Qed.
Lemma phase_less : forall d s s', Inv (s_q s) -> Inv (s_q s') -> phase (s_q s') < phase (s_q s) -> rank d s' < rank d s.
Proof.
  intros d s s' I I' H. rewrite !rank_tail. pose proof (tail_range d s I). pose proof (tail_range d s' I'). lia.
Qed.

Definition moves (d : driver) (s : isys) (a : iact) (s' : isys) : Prop :=
  returned s' \/ rank d s' < rank d s \/
  (rank d s' = rank d s /\ helpful d s' = helpful d s /\ cls_of a <> Some (helpful d s)).

(** The program of the host stays where it is. *)
Lemma moves_same : forall d s a s', s_q s' = s_q s -> s_raise s' = s_raise s ->
  (blocked s = true -> cls_of a <> Some CPru) ->
  (blocked s = false -> in_wait (s_q s) = true ->
     wrank d s' < wrank d s \/ (wrank d s' = wrank d s /\ hwait d s' = hwait d s /\ cls_of a <> Some (hwait d s))) ->
  (in_wait (s_q s) = false -> cls_of a <> Some CHost) ->
  moves d s a s'.
Proof.
  intros d s a s' E R Hb Hw Hh. unfold moves, rank, helpful, hrank, blocked, aborted_slot in *. rewrite E, R.
  destruct (asks (s_q s) && negb (is_free (q_mem (s_q s) (want (s_q s))))).
  - right. right. auto.
  - unfold in_wait in *. destruct (q_host (s_q s)); try (right; right; split; [reflexivity|]; split; [reflexivity|]; now apply Hh).
    + destruct (Hw eq_refl eq_refl) as [W|(W1 & W2 & W3)]; [right; left; lia|right; right; rewrite W1; auto].
    + destruct (Hw eq_refl eq_refl) as [W|(W1 & W2 & W3)]; [right; left; lia|right; right; rewrite W1; auto].
Qed.

(** WaitEvent returns. *)
Lemma moves_leave : forall d op s a latch armed seen, J d s -> in_wait (s_q s) = true -> cls_of a <> Some CPru ->
  moves d s a (leave_wait op s latch armed seen).
Proof.
  intros d op s a latch armed seen Js W Ha. pose proof (wrank_range d s) as Wr.
  unfold moves, leave_wait, rank, helpful, hrank, blocked, aborted_slot, in_wait, asks, phase, want, work in *.
  cbn [s_q s_raise]. unfold host_step, with_host.
  destruct (q_host (s_q s)) eqn:E; try discriminate W; cbn [q_host q_mem q_pos q_log q_pru q_r28]; rewrite app_nil_r; cbn [andb];
    (destruct (is_free _); cbn [negb]; [right; left; destruct (_ =? STATE_ABORT); lia|right; right; auto]).
Qed.

Lemma free_cases : forall v, is_free v = (v =? STATE_EMPTY) || (v =? STATE_ABORT).
Proof. reflexivity. Qed.

Lemma moves_program : forall d op s latch armed seen, op_ok op -> J d s -> in_wait (s_q s) = false -> ~ returned s ->
  moves d s (IHost op) (leave_wait op s latch armed seen).
Proof.
  intros d op s latch armed seen Ho Js W Hr. pose proof (j_inv _ _ Js) as HI0. pose proof (inv_host op _ (op_ok_act _ Ho) HI0) as HI1.
  assert (Ph : forall q', host_step op (s_q s) = q' -> phase q' < phase (s_q s) -> moves d s (IHost op) (leave_wait op s latch armed seen)).
  { intros q' E H. right. left. apply phase_less; auto. unfold leave_wait. cbn [s_q]. now rewrite E. }
  set (s' := leave_wait op s latch armed seen) in *. pose proof (wrank_range d s') as Wr.
  assert (Eq : s_q s' = host_step op (s_q s)) by reflexivity. assert (Er : s_raise s' = s_raise s) by reflexivity.
  clearbody s'. unfold host_step, with_host in *. pose proof (i_host _ HI0) as HH.
  destruct (q_host (s_q s)) as [|s0 sd|s0 sd|s0 sd|sd|s0 slot i sd|s0 slot sd|sd|sd|sd|st|] eqn:E;
    try (exfalso; apply Hr; unfold returned; rewrite E; tauto); try (unfold in_wait in W; rewrite E in W; discriminate W).
  - assert (Wa : want (s_q s) = slot_addr (q_pos (s_q s))) by (unfold want; now rewrite E).
    destruct (Z.eqb_spec (q_mem (s_q s) (slot_addr (q_pos (s_q s)))) STATE_EMPTY) as [F|F].
    + right. left. unfold rank, blocked, asks, hrank, phase, aborted_slot. rewrite Eq, E, Wa, F. cbn [q_host andb]. change (is_free STATE_EMPTY) with true. change (STATE_EMPTY =? STATE_ABORT) with false. cbn [negb]. lia.
    + assert (Wa' : want (s_q s') = slot_addr (q_pos (s_q s))) by (unfold want; rewrite Eq; reflexivity).
      unfold moves, rank, helpful, blocked, asks, hrank, phase, aborted_slot, work. rewrite Wa', Wa, Eq, E, Er. cbn [q_host q_mem q_log q_pru q_r28 andb].
      rewrite app_nil_r. rewrite free_cases. apply Z.eqb_neq in F. rewrite F. cbn [orb].
      destruct (_ =? STATE_ABORT); cbn [negb]; [right; left; lia|right; right; repeat split; discriminate].
  - assert (Wa : want (s_q s) = slot_addr (q_pos (s_q s))) by (unfold want; now rewrite E).
    destruct (Z.eqb_spec (q_mem (s_q s) (slot_addr (q_pos (s_q s)))) STATE_ABORT) as [F|F].
    + right. left. unfold rank, blocked, asks, hrank, phase, aborted_slot. rewrite Eq, E, Wa, F. cbn [q_host andb]. change (is_free STATE_ABORT) with true. change (STATE_ABORT =? STATE_ABORT) with true. cbn [negb]. lia.
    + assert (Wa' : want (s_q s') = slot_addr (q_pos (s_q s))) by (unfold want; rewrite Eq; reflexivity).
      unfold moves, rank, helpful, blocked, asks, hrank, phase, aborted_slot, work. rewrite Wa', Wa, Eq, E, Er. cbn [q_host q_mem q_log q_pru q_r28 andb].
      rewrite app_nil_r. rewrite free_cases. apply Z.eqb_neq in F. rewrite F, orb_false_r.
      destruct (_ =? STATE_EMPTY); cbn [negb]; [right; left; lia|right; right; repeat split; discriminate].
  - destruct sd.
    + eapply Ph; [reflexivity|]. unfold phase. rewrite E. cbn [q_host]. lia.
    + left. left. rewrite Eq. reflexivity.
  - cbn [host_inv] in HH. destruct HH as [(_ & _ & _ & _ & _ & C & _) _]. change ELEMENT_SIZE with 54 in *.
    right. left. unfold rank, blocked, asks, hrank, phase. rewrite Eq, E.
    destruct (Z.ltb_spec i 54); cbn [q_host andb]; lia.
  - destruct sd.
    + eapply Ph; [reflexivity|]. unfold phase. rewrite E. cbn [q_host]. lia.
    + left. left. rewrite Eq. reflexivity.
  - assert (Wa : want (s_q s) = slot_addr (ring_offset (q_pos (s_q s)) (-1))) by (unfold want; now rewrite E).
    destruct (Z.eqb_spec (q_mem (s_q s) (slot_addr (ring_offset (q_pos (s_q s)) (-1)))) STATE_EMPTY) as [F|F].
    + left. destruct sd; [right|left]; rewrite Eq; reflexivity.
    + assert (Wa' : want (s_q s') = slot_addr (ring_offset (q_pos (s_q s)) (-1))) by (unfold want; rewrite Eq; reflexivity).
      unfold moves, rank, helpful, blocked, asks, hrank, phase, aborted_slot, work. rewrite Wa', Wa, Eq, E, Er. cbn [q_host q_mem q_log q_pru q_r28 andb].
      rewrite app_nil_r. rewrite free_cases. apply Z.eqb_neq in F. rewrite F. cbn [orb].
      destruct (_ =? STATE_ABORT); cbn [negb]; [right; left; lia|right; right; repeat split; discriminate].
  - assert (Wa : want (s_q s) = slot_addr (ring_offset (q_pos (s_q s)) (-1))) by (unfold want; now rewrite E).
    destruct (Z.eqb_spec (q_mem (s_q s) (slot_addr (ring_offset (q_pos (s_q s)) (-1)))) STATE_ABORT) as [F|F].
    + left. destruct sd; [right|left]; rewrite Eq; reflexivity.
    + assert (Wa' : want (s_q s') = slot_addr (ring_offset (q_pos (s_q s)) (-1))) by (unfold want; rewrite Eq; reflexivity).
      unfold moves, rank, helpful, blocked, asks, hrank, phase, aborted_slot, work. rewrite Wa', Wa, Eq, E, Er. cbn [q_host q_mem q_log q_pru q_r28 andb].
      rewrite app_nil_r. rewrite free_cases. apply Z.eqb_neq in F. rewrite F, orb_false_r.
      destruct (_ =? STATE_EMPTY); cbn [negb]; [right; left; lia|right; right; repeat split; discriminate].
  - left. left. rewrite Eq. reflexivity.
Qed.

Lemma moves_pru : forall d e s, J d s -> ~ returned s -> moves d s (IPru e) (pru_istep e s).
Proof.
  intros d e s Js Hr. pose proof Js as [J1 J2 J3 J4 J5 J6 J7]. unfold pru_istep. destruct (s_raise s) eqn:R.
  - unfold moves, rank, helpful, blocked, hrank, aborted_slot. cbn [s_q s_raise]. rewrite R.
    destruct (asks (s_q s) && negb (is_free (q_mem (s_q s) (want (s_q s))))); [right; left; lia|]. right.
    assert (Lv : level (mk_isys (s_q s) (s_wait s) false true (s_armed s) (s_count s) (s_seen s)) < level s \/
      (level (mk_isys (s_q s) (s_wait s) false true (s_armed s) (s_count s) (s_seen s)) = level s /\
       hlevel (mk_isys (s_q s) (s_wait s) false true (s_armed s) (s_count s) (s_seen s)) = hlevel s /\ hlevel s <> CPru)).
    { unfold level, hlevel. cbn [s_count s_seen s_latch]. destruct (s_count s =? s_seen s), (s_latch s); try lia; right; repeat split; discriminate. }
    unfold wrank, hwait. cbn [s_wait].
    destruct (q_host (s_q s)); try (right; repeat split; discriminate).
    all: destruct d, (s_wait s); try (right; repeat split; discriminate).
    all: destruct Lv as [L|(L1 & L2 & L3)]; [left; lia|right; rewrite L1, L2; repeat split; cbn [cls_of]; congruence].
  - fold (writes (s_q s)). pose proof (inv_pru e _ J1) as I1.
    destruct (pru_keeps e (s_q s)) as (K1 & K2 & K3 & K4). destruct (in_wait_pru e (s_q s)) as [K5 K6].
    set (s' := mk_isys (pru_step e (s_q s)) (s_wait s) (writes (s_q s)) (s_latch s) (s_armed s) (s_count s) (s_seen s)).
    assert (Ph : phase (s_q s') = phase (s_q s)) by (unfold phase, s'; cbn [s_q]; now rewrite K1).
    assert (As : asks (s_q s') = asks (s_q s)) by (unfold asks, s'; cbn [s_q]; now rewrite K1).
    destruct (blocked s) eqn:B.
    + right. left. pose proof B as B'. unfold blocked in B'. apply andb_prop in B'. destruct B' as [B1 B2]. apply negb_true_iff in B2.
      destruct (want_busy _ J1 B1 B2) as [Hd _].
      assert (Hp : q_pru (s_q s) <> PHalt).
      { intros P. destruct (J2 ltac:(intros X; apply Hr; right; exact X)) as (_ & X & _). destruct (X P) as [Y _]. lia. }
      pose proof (work_down e _ J1 Hp Hd) as Wd. pose proof (work_range _ J1). pose proof (hrank_range d s' I1).
      unfold rank. rewrite Ph, B, R. destruct (blocked s'); [|lia]. unfold s'. cbn [s_q s_raise]. destruct (writes (s_q s)); lia.
    + assert (Mem : asks (s_q s) = true -> q_mem (s_q s') (want (s_q s')) = q_mem (s_q s) (want (s_q s))).
      { intros A. unfold s'. cbn [s_q]. rewrite K6. apply free_stays; auto. unfold blocked in B. rewrite A in B. cbn [andb] in B. now apply negb_false_iff in B. }
      assert (B' : blocked s' = false).
      { unfold blocked. rewrite As. unfold blocked in B. destruct (asks (s_q s)); [|reflexivity]. rewrite Mem by reflexivity. exact B. }
      assert (Wr : wrank d s' = wrank d s) by reflexivity. assert (Hw : hwait d s' = hwait d s) by reflexivity.
      assert (Hk : hrank d s' = hrank d s).
      { unfold hrank. rewrite Wr. unfold aborted_slot. unfold asks in Mem.
        change (q_host (s_q s')) with (q_host (pru_step e (s_q s))). rewrite K1.
        destruct (q_host (s_q s)); try reflexivity; now rewrite Mem. }
      right. right. unfold rank, helpful. rewrite Ph, B, B', Hk, Hw. change (q_host (s_q s')) with (q_host (pru_step e (s_q s))). rewrite K1.
      split; [reflexivity|]. split; [reflexivity|]. cbn [cls_of].
      assert (Hl : (exists s0 sd, q_host (s_q s) = HEnqWait s0 sd) \/ (exists sd, q_host (s_q s) = HWaitWait sd) -> hwait d s <> CPru).
      { intros Hq. assert (Fr : is_free (q_mem (s_q s) (want (s_q s))) = true).
        { unfold blocked, asks in B. destruct Hq as [(s0 & sd & E)|(sd & E)]; rewrite E in B; cbn [andb] in B; now apply negb_false_iff in B. }
        assert (Sg : s_wait s = WStart \/ s_wait s = WRead -> sig s).
        { intros Hs. specialize (J7 Hs). unfold noticed in J7. destruct Hq as [(s0 & sd & E)|(sd & E)]; rewrite E in J7; auto. }
        unfold sig in Sg. rewrite R in Sg. unfold hwait, hlevel.
        destruct d, (s_wait s) eqn:Ew; try discriminate; try (destruct J5; discriminate); try congruence;
          destruct (Z.eqb_spec (s_count s) (s_seen s)); try discriminate; destruct (s_latch s); try discriminate;
          destruct Sg as [Sg|[Sg|Sg]]; auto; congruence. }
      destruct (q_host (s_q s)) eqn:E; try discriminate.
      * intros X. injection X as X. symmetry in X. revert X. apply Hl. left. eauto.
      * intros X. injection X as X. symmetry in X. revert X. apply Hl. right. eauto.
Qed.

Lemma moves_step : forall d s a, iact_ok a -> J d s -> ~ returned s -> moves d s a (i_step d s a).
Proof.
  intros d s a Ha Js Hr. pose proof Js as [J1 J2 J3 J4 J5 J6 J7]. pose proof (level_range s) as Lr.
  destruct a as [op|op|e|]; cbn [i_step iact_ok] in *.
  - unfold host_istep. destruct (in_wait (s_q s)) eqn:W; [|now apply moves_program].
    destruct d.
    + destruct (s_wait s) eqn:E.
      * apply moves_same; auto; [discriminate| |congruence]. intros _ _. left. unfold wrank. rewrite E. cbn [s_wait].
        pose proof (level_range (mk_isys (s_q s) WRead (s_raise s) (s_latch s) true (s_count s) (s_seen s))). lia.
      * destruct (Z.eqb_spec (s_count s) (s_seen s)) as [C|C].
        -- apply moves_same; auto; [discriminate| |congruence]. intros _ _. right. split; auto. split; auto.
           unfold hwait, hlevel. rewrite E, C, Z.eqb_refl. cbn [cls_of]. destruct (s_latch s); discriminate.
        -- apply moves_leave; auto. discriminate.
      * destruct J5; discriminate.
      * destruct J5; discriminate.
    + destruct (s_wait s) eqn:E.
      * destruct (Z.eqb_spec (s_count s) (s_seen s)) as [C|C].
        -- apply moves_same; auto; [discriminate| |congruence]. intros _ _. right. split; auto. split; auto.
           unfold hwait, hlevel. rewrite E, C, Z.eqb_refl. cbn [cls_of]. destruct (s_latch s); discriminate.
        -- apply moves_same; auto; [discriminate| |congruence]. intros _ _. left. unfold wrank. rewrite E. cbn [s_wait]. lia.
      * congruence.
      * apply moves_same; auto; [discriminate| |congruence]. intros _ _. left. unfold wrank. rewrite E. cbn [s_wait]. lia.
      * apply moves_leave; auto. discriminate.
  - unfold fail_istep. destruct (in_wait (s_q s)) eqn:W.
    2: { apply moves_same; auto; try discriminate; try congruence. }
    destruct d.
    + apply moves_leave; auto. discriminate.
    + destruct (s_wait s) eqn:E.
      * apply moves_same; auto; [discriminate| |discriminate]. intros _ _. left. unfold wrank. rewrite E. cbn [s_wait]. lia.
      * apply moves_same; auto; try discriminate. intros _ _. right. repeat split; discriminate.
      * apply moves_same; auto; try discriminate. intros _ _. right. repeat split; discriminate.
      * apply moves_same; auto; try discriminate. intros _ _. right. repeat split; discriminate.
  - now apply moves_pru.
  - unfold kernel_istep. destruct (s_latch s && s_armed s) eqn:LA.
    + apply andb_prop in LA. destruct LA as [L A].
      apply moves_same; try reflexivity; try discriminate. intros _ _.
      unfold wrank, hwait, level, hlevel. cbn [s_wait s_count s_seen s_latch cls_of]. rewrite L.
      destruct (Z.eqb_spec (s_count s + 1) (s_seen s)) as [C|_]; [lia|].
      destruct (s_count s =? s_seen s), d, (s_wait s); first [left; lia|right; repeat split; discriminate].
    + apply moves_same; auto; try discriminate. intros _ Hi. right. split; auto. split; auto.
      unfold hwait, hlevel. cbn [cls_of].
      assert (G : s_wait s = (match d with Genirq => WRead | Pruss => WStart end) -> s_latch s = true -> s_count s <> s_seen s).
      { intros G1 G2. destruct (J6 G1) as [G3|G3]; [|exact G3]. rewrite G2, G3 in LA. discriminate LA. }
      destruct d, (s_wait s); try discriminate; try (destruct J5; discriminate);
        destruct (Z.eqb_spec (s_count s) (s_seen s)); try discriminate; destruct (s_latch s); try discriminate; specialize (G eq_refl eq_refl); contradiction.
Qed.

(** ** Fair schedules *)
Lemma after_S : forall d sched n, after d sched (S n) = i_step d (after d sched n) (sched n).
Proof. intros. unfold after, i_run. rewrite seq_S, map_app, fold_left_app. reflexivity. Qed.
Lemma after_J : forall d sched n, (forall i, iact_ok (sched i)) -> J d (after d sched n).
Proof. intros d sched n H. apply J_run. apply Forall_forall. intros a Ha. apply in_map_iff in Ha. destruct Ha as (i & <- & _). apply H. Qed.

Lemma fair_cls : forall sched c i, fair sched -> exists k, cls_of (sched (i + k)%nat) = Some c.
Proof.
  intros sched c i (F1 & F2 & F3). destruct c.
  - destruct (F1 i) as (j & op & H1 & H2). exists (j - i)%nat. replace (i + (j - i))%nat with j by lia. now rewrite H2.
  - destruct (F2 i) as (j & op & H1 & H2). exists (j - i)%nat. replace (i + (j - i))%nat with j by lia. now rewrite H2.
  - destruct (F3 i) as (j & H1 & H2). exists (j - i)%nat. replace (i + (j - i))%nat with j by lia. now rewrite H2.
Qed.
Lemma returned_dec : forall s, returned s \/ ~ returned s.
Proof. intros s. unfold returned. destruct (q_host (s_q s)); auto; right; intros [X|X]; discriminate X. Qed.

(** Until the helpful side moves, either the call returns or the rank goes down. *)
Lemma leads : forall d sched, (forall i, iact_ok (sched i)) ->
  forall k i, cls_of (sched (i + k)%nat) = Some (helpful d (after d sched i)) ->
  exists j, (i <= j)%nat /\ (returned (after d sched j) \/ rank d (after d sched j) < rank d (after d sched i)).
Proof.
  intros d sched Hok. induction k as [|k IH]; intros i Hc.
  - rewrite Nat.add_0_r in Hc. destruct (returned_dec (after d sched i)) as [R|R]; [exists i; auto|].
    exists (S i). split; [lia|]. rewrite after_S.
    destruct (moves_step d _ (sched i) (Hok i) (after_J d sched i Hok) R) as [M|[M|(_ & _ & M)]]; auto. congruence.
  - destruct (returned_dec (after d sched i)) as [R|R]; [exists i; auto|].
    destruct (moves_step d _ (sched i) (Hok i) (after_J d sched i Hok) R) as [M|[M|(M1 & M2 & _)]].
    + exists (S i). split; [lia|]. rewrite after_S. auto.
    + exists (S i). split; [lia|]. rewrite after_S. auto.
    + destruct (IH (S i)) as (j & Hj & H).
      * rewrite after_S, M2. rewrite <- Hc. f_equal. f_equal. lia.
      * exists j. split; [lia|]. destruct H as [H|H]; auto. right. rewrite after_S, M1 in H. exact H.
Qed.
Lemma rank_nonneg : forall d s, Inv (s_q s) -> 0 <= rank d s.
Proof. intros d s I. rewrite rank_tail. pose proof (tail_range d s I). assert (0 <= phase (s_q s)) by (unfold phase; destruct (q_host (s_q s)); lia). lia. Qed.
Lemma calls_return : forall d sched, (forall i, iact_ok (sched i)) -> fair sched ->
  forall i, exists j, (i <= j)%nat /\ returned (after d sched j).
Proof.
  intros d sched Hok Hf.
  assert (G : forall n i, rank d (after d sched i) < Z.of_nat n -> exists j, (i <= j)%nat /\ returned (after d sched j)).
  { induction n as [|n IH]; intros i Hr.
    - pose proof (rank_nonneg d _ (j_inv _ _ (after_J d sched i Hok))). lia.
    - destruct (fair_cls sched (helpful d (after d sched i)) i Hf) as (k & Hk).
      destruct (leads d sched Hok k i Hk) as (j & Hj & [H|H]); [eauto|].
      destruct (IH j ltac:(lia)) as (j' & Hj' & H'). exists j'. split; [lia|auto]. }
  intros i. apply (G (S (Z.to_nat (rank d (after d sched i))))).
  pose proof (rank_nonneg d _ (j_inv _ _ (after_J d sched i Hok))). lia.
Qed.

(** ** The queue behaves as [Model_PruQueue] describes it *)
Definition no_stop (acts : list iact) : Prop := ~ In (IPru true) acts.
Lemma same_queue : forall d acts, Forall iact_ok acts ->
  exists qacts, Forall act_ok qacts /\ s_q (i_run d acts) = q_run qacts /\ (no_stop acts -> no_estop qacts).
Proof.
  intros d. induction acts as [|a acts IH] using rev_ind; intros H.
  - exists []. repeat split; auto.
  - apply Forall_app in H. destruct H as [H1 H2]. destruct (IH H1) as (qacts & Q1 & Q2 & Q3).
    assert (Ha : iact_ok a) by now inversion H2.
    assert (G : s_q (i_run d (acts ++ [a])) = s_q (i_run d acts) \/ exists qa, act_ok qa /\
              s_q (i_run d (acts ++ [a])) = q_step (s_q (i_run d acts)) qa /\ (qa = Pru true -> a = IPru true)).
    { unfold i_run at 1 3. rewrite !fold_left_app. cbn [fold_left]. fold (i_run d acts). set (s := i_run d acts).
      destruct a as [op|op|e|]; cbn [i_step iact_ok] in *.
      - unfold host_istep. assert (A : act_ok (Host op)) by (cbn; destruct op; cbn in Ha; tauto).
        destruct (in_wait (s_q s)); [|right; exists (Host op); repeat split; auto; discriminate].
        destruct d, (s_wait s); try destruct (s_count s =? s_seen s); first [left; reflexivity|right; exists (Host op); repeat split; auto; discriminate].
      - unfold fail_istep. assert (A : act_ok (Host op)) by (cbn; destruct op; cbn in Ha; tauto).
        destruct (in_wait (s_q s)); [|left; reflexivity].
        destruct d, (s_wait s); first [left; reflexivity|right; exists (Host op); repeat split; auto; discriminate].
      - unfold pru_istep. destruct (s_raise s); [left; reflexivity|]. right. exists (Pru e). repeat split; auto. congruence.
      - unfold kernel_istep. left. destruct (s_latch s && s_armed s); reflexivity. }
    destruct G as [G|(qa & G1 & G2 & G3)].
    + exists qacts. rewrite G. repeat split; auto. intros N. apply Q3. intros X. apply N. apply in_or_app; auto.
    + exists (qacts ++ [qa]). rewrite G2, Q2, run_snoc. split; [apply Forall_app; auto|]. split; auto.
      intros N X. apply in_app_or in X. destruct X as [X|[X|[]]].
      * revert X. apply Q3. intros Y. apply N. apply in_or_app; auto.
      * apply N. apply in_or_app. right. left. auto.
Qed.
