From Verif Require Import Base Model_MotorOps Model_Pru Model_PruQueue Spec_Queue Model_Irq Spec_Irq.
From Verif Require Import Proofs_PruQueue Proofs_PruQueue2.

(** ** The firmware's steps, seen from the host *)
Definition is_free (v : Z) : bool := (v =? STATE_EMPTY) || (v =? STATE_ABORT).
Definition writes (q : qsys) : bool := match q_pru q with PStore _ | PFinish => true | _ => false end.

Lemma pru_keeps : forall e q, q_host (pru_step e q) = q_host q /\ q_pos (pru_step e q) = q_pos q /\
  accepted (q_log (pru_step e q)) = accepted (q_log q) /\
  (writes q = false -> q_mem (pru_step e q) = q_mem q /\ completed (q_log (pru_step e q)) = completed (q_log q)).
Proof.
  intros e q. unfold writes, pru_step, with_pru, completed. destruct (q_pru q) as [|st dir pp|s'|fr ms t|v| |];
    try destruct (calculate_delay t) as [delay t'];
    repeat match goal with |- context [if ?b then _ else _] => destruct b end; cbn [q_host q_pos q_log q_mem];
    rewrite ?accepted_app, ?count_app; cbn [accepted]; rewrite ?app_nil_r; (split; [reflexivity|]); (split; [reflexivity|]); (split; [reflexivity|]); intros X;
    try discriminate X; (split; [reflexivity|]); try reflexivity; apply Z.add_0_r.
Qed.
Lemma writes_where : forall q, Inv q -> writes q = true ->
  exists s v, seg_at (accepted (q_log q)) (completed (q_log q)) s /\ q_mem q (q_r2 q) = ms_state s /\
    is_free (q_mem q (q_r2 q)) = false /\ (v = STATE_EMPTY \/ v = STATE_ABORT) /\
    q_r2 q = slot_addr (completed (q_log q) mod 16) /\
    forall e, q_mem (pru_step e q) = upd (q_mem q) (q_r2 q) v /\ completed (q_log (pru_step e q)) = completed (q_log q) + 1.
Proof.
  intros q I W. destruct (i_ring _ I) as (R1 & R2 & R3 & R4 & R5).
  destruct (i_pru _ I) as (runs & partial & _ & _ & P).
  assert (G : forall s, seg_at (accepted (q_log q)) (completed (q_log q)) s -> q_r2 q = slot_addr (completed (q_log q) mod 16) ->
    q_mem q (q_r2 q) = ms_state s /\ is_free (q_mem q (q_r2 q)) = false).
  { intros s S E. destruct (R3 _ s (Z.le_refl _) S) as [H _]. rewrite E, H. split; auto.
    assert (K : seg_ok s) by (eapply Forall_forall; [exact R5|]; eapply nth_error_In; exact (proj2 S)).
    destruct K as (K1 & K2 & _). unfold is_free. change STATE_EMPTY with 0 in *. apply orb_false_intro; apply Z.eqb_neq; lia. }
  unfold writes in W. unfold completed.
  destruct (q_pru q) as [|st dir pp|s'|fr ms t|v| |] eqn:E; try discriminate W; cbn [pru_inv] in P.
  - destruct P as (P1 & _ & _ & _ & (s & S & _ & H)). destruct (G s S P1) as [G1 G2]. exists s, v.
    split; [exact S|]. split; [exact G1|]. split; [exact G2|]. split; [destruct H as [[H _]|[H _]]; auto|]. split; [exact P1|].
    intros e. unfold pru_step. rewrite E. cbn [q_mem q_log]. split; auto. rewrite count_app. destruct H as [[-> _]|[-> _]]; reflexivity.
  - destruct P as (P1 & _ & _ & _ & (s & S & _ & H)). destruct (G s S P1) as [G1 G2]. exists s, STATE_EMPTY.
    split; [exact S|]. split; [exact G1|]. split; [exact G2|]. split; [auto|]. split; [exact P1|].
    intros e. unfold pru_step. rewrite E. cbn [q_mem q_log]. split; auto. rewrite count_app. reflexivity.
Qed.
Lemma free_stays : forall e q a, Inv q -> is_free (q_mem q a) = true -> q_mem (pru_step e q) a = q_mem q a.
Proof.
  intros e q a I F. destruct (writes q) eqn:W.
  - destruct (writes_where q I W) as (s & v & _ & _ & N & _ & _ & H). destruct (H e) as [-> _]. apply upd_other. intros ->. congruence.
  - destruct (pru_keeps e q) as (_ & _ & _ & K). now destruct (K W) as [-> _].
Qed.

(** ** The firmware makes progress *)
Definition local (p : pru_pc) (r28 : Z) : Z :=
  match p with
  | PRead => 2 ^ 24 + 100
  | PLoad _ _ pp => 2 ^ 24 + 90 - Z.of_nat (length pp)
  | PInit _ => 2 ^ 24 + 10
  | PStep _ _ _ => low24 r28 + 3
  | PStore _ | PFinish => 2
  | PHalt => 0
  end.
Definition work (q : qsys) : Z :=
  (len (accepted (q_log q)) - completed (q_log q)) * (2 ^ 24 + 101) + local (q_pru q) (q_r28 q).
Lemma low24_range : forall x, 0 <= low24 x < 2 ^ 24.
Proof. intros. unfold low24. apply Z.mod_pos_bound. lia. Qed.

Lemma local_range : forall q, Inv q -> 0 <= local (q_pru q) (q_r28 q) <= 2 ^ 24 + 100.
Proof.
  intros q I. destruct (i_pru _ I) as (runs & partial & _ & _ & P). pose proof (low24_range (q_r28 q)).
  destruct (q_pru q); cbn [pru_inv local] in *; try lia.
  destruct P as (_ & _ & _ & _ & (s & _ & _ & _ & _ & H1 & _)). lia.
Qed.
Lemma work_range : forall q, Inv q -> 0 <= work q <= 2 ^ 30.
Proof.
  intros q I. pose proof (local_range q I). destruct (i_ring _ I) as (R1 & R2 & _). unfold work. lia.
Qed.

Lemma work_down : forall e q, Inv q -> q_pru q <> PHalt -> completed (q_log q) < len (accepted (q_log q)) ->
  work (pru_step e q) < work q.
Proof.
  intros e q I Hp Hd. pose proof (inv_pru e q I) as I'. pose proof (local_range _ I') as L'.
  destruct (pru_keeps e q) as (_ & _ & KA & KC). unfold work. rewrite KA.
  destruct (writes q) eqn:W.
  { destruct (writes_where q I W) as (s & v & _ & _ & _ & _ & _ & H). destruct (H e) as [_ ->].
    unfold writes in W. destruct (q_pru q) eqn:E; try discriminate W; cbn [local]; lia. }
  destruct (KC eq_refl) as [_ ->]. clear KA KC.
  assert (G : local (q_pru (pru_step e q)) (q_r28 (pru_step e q)) < local (q_pru q) (q_r28 q)); [|lia].
  destruct (i_ring _ I) as (R1 & R2 & R3 & R4 & R5).
  destruct (i_pru _ I) as (runs & partial & _ & _ & P).
  unfold writes in W. unfold pru_step, with_pru in *.
  destruct (q_pru q) as [|st dir pp|s'|fr ms t|v| |] eqn:E; try discriminate W; try congruence; cbn [pru_inv] in P.
  - destruct P as (P1 & _). destruct (seg_at_ex _ _ (conj R1 Hd)) as (s & S).
    destruct (R3 _ s (Z.le_refl _) S) as [H _].
    assert (K : seg_ok s) by (eapply Forall_forall; [exact R5|]; eapply nth_error_In; exact (proj2 S)).
    destruct K as (K1 & K2 & _). rewrite P1 in *. rewrite H in *. change STATE_EMPTY with 0 in *.
    destruct (Z.eqb_spec (ms_state s) 0) as [E0|_]; [lia|]. destruct (Z.eqb_spec (ms_state s) STATE_ABORT) as [E0|_]; [contradiction|].
    destruct (ms_state s =? STATE_EXIT); cbn [q_pru q_r28 local length]; lia.
  - destruct P as (_ & _ & _ & _ & (s & _ & _ & _ & _ & H1 & _)).
    destruct (Z.ltb_spec (Z.of_nat (length pp)) (ELEMENT_SIZE - HEADER_SIZE)); cbn [q_pru q_r28 local]; [rewrite app_length; cbn [length]; lia|lia].
  - cbn [q_pru q_r28 local]. pose proof (low24_range (u32 (q_r28 q + total_loops s'))). lia.
  - destruct P as (_ & P2 & _ & _ & (s & rest & fuel & c & _ & _ & H1 & _ & _ & H2 & _)).
    pose proof (low24_range (q_r28 q)) as L.
    destruct e; cbn [q_pru q_r28 local]; [lia|].
    destruct (calculate_delay t) as [delay t'] eqn:Ed. destruct (Z.eqb_spec delay 0) as [E0|E0]; cbn [q_pru q_r28 local]; [lia|].
    assert (L2 : (2 <= length rest)%nat).
    { destruct fuel as [|fuel]; [discriminate H1|]. cbn [step_gen] in H1. rewrite Ed in H1.
      destruct (Z.eqb_spec delay 0); [contradiction|].
      destruct (step_gen fuel fr (fun m => u32 (ms m + fr m)) t' (c - 1)) as [r|] eqn:Er; [|discriminate H1].
      injection H1 as <-. pose proof (step_gen_nonempty _ _ _ _ _ _ Er). cbn [length]. lia. }
    unfold low24 in *. unfold u32. destruct (word_split (q_r28 q)) as [Ws _]. unfold low24, byte3 in Ws.
    assert (X : (q_r28 q - 1) mod 2 ^ 32 mod 2 ^ 24 = q_r28 q mod 2 ^ 24 - 1).
    { replace (2 ^ 32) with (2 ^ 24 * 2 ^ 8) by reflexivity. rewrite Z.rem_mul_r by lia.
      rewrite (Z.mul_comm (2 ^ 24) (_ mod _)), Z.mod_add by lia. rewrite Z.mod_mod by lia.
      symmetry. apply Z.mod_unique with (q := q_r28 q / 2 ^ 24); [left|]; lia. }
    lia.
Qed.

(** ** Where the exit element can be *)
Definition flushing_host (h : host_pc) : Prop :=
  match h with HWait true | HWait2 true | HWaitWait true => True | _ => False end.
Definition wants (h : host_pc) : Prop :=
  match h with
  | HEnq s false | HEnq2 s false | HEnqWait s false | HCopy s _ _ false | HFlip s _ false => ms_state s <> STATE_EXIT
  | _ => True
  end.
Definition exit_inv (q : qsys) : Prop :=
  q_host q <> HOff -> wants (q_host q) /\
  (q_pru q = PHalt -> completed (q_log q) = len (accepted (q_log q)) /\
     exists j s, seg_at (accepted (q_log q)) j s /\ ms_state s = STATE_EXIT) /\
  (forall j s, seg_at (accepted (q_log q)) j s -> ms_state s = STATE_EXIT ->
     j = len (accepted (q_log q)) - 1 /\ flushing_host (q_host q)).

Lemma exit_pru : forall e q, Inv q -> exit_inv q -> exit_inv (pru_step e q).
Proof.
  intros e q I X H. destruct (pru_keeps e q) as (K1 & K2 & K3 & K4). rewrite K1 in *. rewrite K3 in *.
  destruct (X H) as (X1 & X2 & X3). split; auto. split; auto. intros P.
  destruct (writes q) eqn:W.
  - destruct (writes_where q I W) as (s & v & S & _ & _ & _ & _ & Hw). destruct (Hw e) as [_ ->].
    unfold writes in W. destruct (q_pru q) eqn:E; try discriminate W.
    + unfold pru_step in P. rewrite E in P. cbn [q_pru] in P. discriminate P.
    + destruct (i_pru _ I) as (runs & partial & _ & _ & Q). rewrite E in Q. cbn [pru_inv] in Q.
      destruct Q as (_ & _ & _ & _ & (s' & S' & Se & _)). destruct (X3 _ s' S' Se) as [X4 _]. split; [lia|]. eauto.
  - destruct (K4 eq_refl) as [_ ->]. apply X2.
    unfold writes in W. unfold pru_step, with_pru in P.
    destruct (q_pru q) eqn:E; auto; try discriminate W; try (destruct (calculate_delay t) as [delay t']);
      repeat match type of P with context [if ?b then _ else _] => destruct b end; cbn [q_pru] in P; congruence.
Qed.
Lemma exit_host : forall op q, op_ok op -> Inv q -> exit_inv q -> exit_inv (host_step op q).
Proof.
  intros op q Hop I X. unfold host_step, host_start, with_host.
  assert (Z0 : forall q', accepted (q_log q') = accepted (q_log q) -> completed (q_log q') = completed (q_log q) ->
     q_pru q' = q_pru q -> q_host q <> HOff -> wants (q_host q') -> (flushing_host (q_host q) -> flushing_host (q_host q')) -> exit_inv q').
  { intros q' E1 E2 E3 Hn Hw Hf H. rewrite E1, E2, E3. destruct (X Hn) as (X1 & X2 & X3). split; auto. split; auto.
    intros j s S Es. destruct (X3 j s S Es). auto. }
  assert (X' := X). unfold exit_inv in X'.
  destruct (q_host q) as [|s sd|s sd|s sd|sd|s slot i sd|s slot sd|sd|sd|sd|st|] eqn:E;
    try (specialize (X' ltac:(discriminate)); destruct X' as (X1 & X2 & X3); cbn [wants flushing_host] in X1, X3).
  all: repeat match goal with
      | |- exit_inv (if ?b then _ else _) => destruct b
      | |- context [match ?op with OpEnqueue _ => _ | OpWaitEmpty => _ | OpPending => _ | OpShutdown _ => _ end] => destruct op as [?| | |[|]]
      end.
  all: try (intros H; cbn [q_host] in H; congruence).
  all: try solve [apply Z0; cbn [q_log q_pru q_host]; rewrite ?app_nil_r, ?accepted_app; unfold completed; rewrite ?count_app; cbn [accepted];
            rewrite ?app_nil_r; try reflexivity; try discriminate; try (apply Z.add_0_r); cbn [wants flushing_host]; auto; try tauto;
            try (cbn in Hop; tauto); try (destruct sd; cbn in *; tauto)].
  - intros H. cbn [q_host q_log q_pru] in *. rewrite accepted_app. cbn [accepted]. unfold completed. rewrite count_app. cbn [wants].
    cbn [count filter is_end length] .
    assert (N : forall j s', seg_at (accepted (q_log q)) j s' -> ms_state s' <> STATE_EXIT).
    { intros j s' S Es. destruct (X3 j s' S Es) as [_ []]. }
    pose proof (i_host _ I) as HI. rewrite E in HI. cbn [host_inv] in HI. destruct HI as [_ [_ W]].
    split; [destruct sd; exact Logic.I|]. split.
    { intros P. destruct (X2 P) as [_ (j & s' & S & Es)]. now destruct (N j s' S). }
    intros j s' S Es. destruct (seg_at_app_inv _ _ _ _ S) as [S0|[-> ->]]; [now destruct (N j s' S0)|].
    split; [unfold len; rewrite app_length; cbn [length]; lia|]. destruct sd; [exact Logic.I|]. now destruct X1.
Qed.

(** ** The invariant of host, firmware, controller and kernel *)
Definition want (q : qsys) : Z :=
  match q_host q with
  | HWait _ | HWait2 _ | HWaitWait _ => slot_addr (ring_offset (q_pos q) (-1))
  | _ => slot_addr (q_pos q)
  end.
Definition sig (s : isys) : Prop := s_raise s = true \/ s_latch s = true \/ s_count s <> s_seen s.
Definition noticed (s : isys) : Prop :=
  match q_host (s_q s) with
  | HEnq2 _ _ | HWait2 _ => q_mem (s_q s) (want (s_q s)) = STATE_EMPTY -> sig s
  | HEnqWait _ _ | HWaitWait _ => is_free (q_mem (s_q s) (want (s_q s))) = true -> sig s
  | _ => True
  end.
Record J (d : driver) (s : isys) : Prop := {
  j_inv : Inv (s_q s);
  j_exit : exit_inv (s_q s);
  j_seen : s_seen s <= s_count s;
  j_wait : s_wait s = WStart \/ in_wait (s_q s) = true;
  j_pc : match d with Genirq => s_wait s = WStart \/ s_wait s = WRead | Pruss => s_wait s <> WRead end;
  j_armed : s_wait s = (match d with Genirq => WRead | Pruss => WStart end) ->
            s_armed s = true \/ s_count s <> s_seen s;
  j_sig : s_wait s = WStart \/ s_wait s = WRead -> noticed s
}.

Lemma op_ok_act : forall op, op_ok op -> match op with OpEnqueue s => seg_ok s | _ => True end.
Proof. intros [] H; cbn in *; tauto. Qed.

(** After a step of the host's program the new state of its waiting is as claimed. *)
Lemma noticed_host : forall op s latch armed seen, noticed s -> in_wait (s_q s) = false ->
  seen = s_seen s -> latch = s_latch s ->
  noticed (leave_wait op s latch armed seen).
Proof.
  intros op s latch armed seen N W -> ->. unfold noticed, leave_wait, sig in *.
  cbn [s_q s_raise s_latch s_count s_seen] in *. revert N W.
  unfold in_wait, want. unfold host_step, host_start, with_host.
  destruct (q_host (s_q s)) as [|s0 sd|s0 sd|s0 sd|sd|s0 slot i sd|s0 slot sd|sd|sd|sd|st|] eqn:E; intros N W; try discriminate W.
  all: repeat match goal with
      | |- context [if ?b =? ?c then _ else _] => destruct (Z.eqb_spec b c)
      | |- context [if ?b then _ else _] => destruct b
      | |- context [match ?op with OpEnqueue _ => _ | OpWaitEmpty => _ | OpPending => _ | OpShutdown _ => _ end] => destruct op as [?| | |[|]]
      end; cbn [q_host q_mem q_pos q_pru]; try rewrite E; auto.
  all: try (intros; contradiction).
  - intros F. apply N. unfold is_free in F. apply orb_true_iff in F. destruct F as [F|F]; apply Z.eqb_eq in F; [exact F|contradiction].
  - intros F. apply N. unfold is_free in F. apply orb_true_iff in F. destruct F as [F|F]; apply Z.eqb_eq in F; [exact F|contradiction].
Qed.
Lemma noticed_leave : forall op s latch armed seen, in_wait (s_q s) = true -> noticed (leave_wait op s latch armed seen).
Proof.
  intros op s latch armed seen W. unfold noticed, leave_wait, in_wait in *. cbn [s_q]. unfold host_step, with_host.
  destruct (q_host (s_q s)); try discriminate W; exact I.
Qed.
Lemma in_wait_pru : forall e q, in_wait (pru_step e q) = in_wait q /\ want (pru_step e q) = want q.
Proof. intros e q. destruct (pru_keeps e q) as (K1 & K2 & _). unfold in_wait, want. now rewrite K1, K2. Qed.

Lemma J_init : forall d, J d i_init.
Proof.
  intros d. split.
  - exact inv_init.
  - intros _. split; [exact I|]. split; [discriminate|]. intros j s [_ H]. destruct (Z.to_nat j); discriminate H.
  - cbn. lia.
  - now left.
  - destruct d; [now left|discriminate].
  - now left.
  - intros _. exact I.
Qed.

Lemma J_leave : forall d op s latch armed seen, op_ok op -> J d s -> seen <= s_count s ->
  (d = Pruss -> armed = true \/ s_count s <> seen) ->
  (in_wait (s_q s) = false -> seen = s_seen s /\ latch = s_latch s) ->
  J d (leave_wait op s latch armed seen).
Proof.
  intros d op s latch armed seen Ho Js Hs Ha Hn. pose proof (inv_host op _ (op_ok_act _ Ho) (j_inv _ _ Js)) as HI.
  pose proof (exit_host op _ Ho (j_inv _ _ Js) (j_exit _ _ Js)) as HE.
  split; cbn [leave_wait s_q s_wait s_seen s_count s_armed]; auto.
  - destruct d; [now left|discriminate].
  - destruct d; [discriminate|]. auto.
  - intros _. destruct (in_wait (s_q s)) eqn:W.
    + now apply noticed_leave.
    + destruct (Hn eq_refl) as [-> ->]. apply noticed_host; auto. apply (j_sig _ _ Js). left. destruct (j_wait _ _ Js); [auto|congruence].
Qed.

(** The program of the host and of the firmware do not move. *)
Lemma J_same : forall d s w raise latch armed count seen, J d s -> seen <= count ->
  (w = WStart \/ in_wait (s_q s) = true) ->
  match d with Genirq => w = WStart \/ w = WRead | Pruss => w <> WRead end ->
  (w = (match d with Genirq => WRead | Pruss => WStart end) -> armed = true \/ count <> seen) ->
  (w = WStart \/ w = WRead -> (s_wait s = WStart \/ s_wait s = WRead) /\ (sig s -> raise = true \/ latch = true \/ count <> seen)) ->
  J d (mk_isys (s_q s) w raise latch armed count seen).
Proof.
  intros d s w raise latch armed count seen Js H1 H2 H3 H4 H5. destruct Js as [J1 J2 J3 J4 J5 J6 J7].
  split; cbn [s_q s_wait s_seen s_count s_armed]; auto.
  intros Hw. destruct (H5 Hw) as [Hw' Hs]. specialize (J7 Hw'). unfold noticed, sig in *. cbn [s_q s_raise s_latch s_count s_seen].
  destruct (q_host (s_q s)); auto.
Qed.

Lemma J_step : forall d s a, iact_ok a -> J d s -> J d (i_step d s a).
Proof.
  intros d s a Ha Js. pose proof Js as [J1 J2 J3 J4 J5 J6 J7].
  destruct a as [op|op|e|]; cbn [i_step iact_ok] in *.
  - unfold host_istep. destruct (in_wait (s_q s)) eqn:W.
    + destruct d.
      * destruct (s_wait s) eqn:E.
        -- apply J_same; auto.
        -- destruct (Z.eqb_spec (s_count s) (s_seen s)); [auto|]. apply J_leave; auto; try discriminate; try congruence. lia.
        -- destruct J5; discriminate.
        -- destruct J5; discriminate.
      * destruct (s_wait s) eqn:E.
        -- destruct (Z.eqb_spec (s_count s) (s_seen s)); [auto|]. apply J_same; auto; try discriminate; try lia.
           all: try (intros [X|X]; discriminate X).
        -- congruence.
        -- apply J_same; auto; try discriminate. all: try (intros [X|X]; discriminate X).
        -- apply J_leave; auto; congruence.
    + apply J_leave; auto. intros ->. apply J6. destruct J4; [auto|congruence].
  - unfold fail_istep. destruct (in_wait (s_q s)) eqn:W; auto. destruct d.
    + apply J_leave; auto; congruence.
    + destruct (s_wait s) eqn:E; auto. apply J_same; auto; try discriminate. all: try (intros [X|X]; discriminate X).
  - unfold pru_istep. destruct (s_raise s) eqn:R.
    + apply J_same; auto.
    + destruct (pru_keeps e (s_q s)) as (K1 & K2 & K3 & K4). destruct (in_wait_pru e (s_q s)) as [K5 K6].
      split; cbn [s_q s_wait s_seen s_count s_armed]; auto.
      * now apply inv_pru.
      * now apply exit_pru.
      * now rewrite K5.
      * intros Hw. specialize (J7 Hw). unfold noticed, sig in *. cbn [s_q s_raise s_latch s_count s_seen] in *.
        rewrite K1, K6. fold (writes (s_q s)). destruct (writes (s_q s)) eqn:Wr.
        -- destruct (q_host (s_q s)); auto.
        -- destruct (K4 eq_refl) as [-> _]. rewrite R in J7. exact J7.
  - unfold kernel_istep. destruct (s_latch s) eqn:L; cbn [andb]; auto. destruct (s_armed s) eqn:A; auto.
    apply J_same; auto; try lia.
    intros Hw. split; [auto|]. intros _. right. right. lia.
Qed.
Lemma J_run : forall d acts, Forall iact_ok acts -> J d (i_run d acts).
Proof.
  intros d. induction acts as [|a acts IH] using rev_ind; intros H; [apply J_init|].
  apply Forall_app in H. destruct H as [H1 H2]. unfold i_run. rewrite fold_left_app. cbn [fold_left]. apply J_step; [|now apply IH].
  now inversion H2.
Qed.

(** ** What the awaited slot says *)
Definition asks (q : qsys) : bool :=
  match q_host q with
  | HEnq _ _ | HEnq2 _ _ | HEnqWait _ _ | HWait _ | HWait2 _ | HWaitWait _ => true
  | _ => false
  end.
Definition asks_empty (q : qsys) : bool :=
  match q_host q with HWait _ | HWait2 _ | HWaitWait _ => true | _ => false end.
Lemma want_busy : forall q, Inv q -> asks q = true -> is_free (q_mem q (want q)) = false ->
  completed (q_log q) < len (accepted (q_log q)) /\
  (asks_empty q = false -> len (accepted (q_log q)) = completed (q_log q) + 16).
Proof.
  intros q I A F. destruct (i_ring _ I) as (R1 & R2 & R3 & R4 & R5). pose proof (i_host _ I) as HI.
  assert (Fr : forall x, x = STATE_EMPTY \/ x = STATE_ABORT -> is_free x = true).
  { intros x [-> | ->]; reflexivity. }
  assert (GE : q_pos q = len (accepted (q_log q)) mod 16 -> want q = slot_addr (q_pos q) ->
     len (accepted (q_log q)) = completed (q_log q) + 16).
  { intros Hp Hw. destruct (Z.eq_dec (len (accepted (q_log q))) (completed (q_log q) + 16)) as [Y|Y]; [exact Y|exfalso].
    specialize (R4 (len (accepted (q_log q))) ltac:(lia)). rewrite <- Hp, <- Hw in R4. apply Fr in R4. congruence. }
  assert (GW : pos_inv (accepted (q_log q)) (q_pos q) -> want q = slot_addr (ring_offset (q_pos q) (-1)) ->
     completed (q_log q) < len (accepted (q_log q))).
  { intros Hp Hw. destruct (Z.eq_dec (len (accepted (q_log q))) (completed (q_log q))) as [Y|Y]; [exfalso|lia].
    rewrite (ring_offset_last _ _ Hp) in Hw. specialize (R4 (len (accepted (q_log q)) + 15) ltac:(lia)).
    replace ((len (accepted (q_log q)) + 15) mod 16) with ((len (accepted (q_log q)) - 1) mod 16) in R4.
    - rewrite <- Hw in R4. apply Fr in R4. congruence.
    - replace (len (accepted (q_log q)) + 15) with (len (accepted (q_log q)) - 1 + 1 * 16) by lia. symmetry. apply Z.mod_add. lia. }
  unfold asks in A. unfold want, asks_empty in *. destruct (q_host q); try discriminate A; cbn [host_inv] in HI; destruct HI as [H1 H2].
  - specialize (GE H1 eq_refl). split; [lia|auto].
  - specialize (GE H1 eq_refl). split; [lia|auto].
  - specialize (GE H1 eq_refl). split; [lia|auto].
  - split; [now apply GW|discriminate].
  - split; [now apply GW|discriminate].
  - split; [now apply GW|discriminate].
Qed.

(** ** Every call comes to an end *)
Inductive cls := CHost | CPru | CKernel.
Definition cls_of (a : iact) : option cls :=
  match a with IHost _ => Some CHost | IPru _ => Some CPru | IKernel => Some CKernel | IFail _ => None end.

Definition level (s : isys) : Z := if s_count s =? s_seen s then (if s_latch s then 2 else 3) else 1.
Definition hlevel (s : isys) : cls := if s_count s =? s_seen s then (if s_latch s then CKernel else CPru) else CHost.
Definition wrank (d : driver) (s : isys) : Z :=
  match d, s_wait s with
  | Genirq, WStart => 10
  | Genirq, _ => level s
  | Pruss, WStart => 5 + level s
  | Pruss, WClear => 2
  | Pruss, _ => 1
  end.
Definition hwait (d : driver) (s : isys) : cls :=
  match d, s_wait s with
  | Genirq, WStart => CHost
  | Genirq, _ => hlevel s
  | Pruss, WStart => hlevel s
  | Pruss, _ => CHost
  end.
Definition aborted_slot (s : isys) : bool := q_mem (s_q s) (want (s_q s)) =? STATE_ABORT.
Definition hrank (d : driver) (s : isys) : Z :=
  match q_host (s_q s) with
  | HEnq _ _ | HWait _ => if aborted_slot s then 3 else 70
  | HEnq2 _ _ | HWait2 _ => if aborted_slot s then 2 else 100
  | HEnqWait _ _ | HWaitWait _ => 80 + wrank d s
  | HCopy _ _ i _ => 60 - i
  | _ => 1
  end.
Definition phase (q : qsys) : Z :=
  match q_host q with
  | HIdle | HOff => 0
  | HWait _ | HWait2 _ | HWaitWait _ | HPend _ => 1
  | _ => 2
  end.
Definition blocked (s : isys) : bool := asks (s_q s) && negb (is_free (q_mem (s_q s) (want (s_q s)))).
Definition rank (d : driver) (s : isys) : Z :=
  phase (s_q s) * 2 ^ 40 +
  (if blocked s then 2 ^ 34 + (2 * work (s_q s) + (if s_raise s then 1 else 0)) else hrank d s).
Definition helpful (d : driver) (s : isys) : cls :=
  if blocked s then CPru
  else match q_host (s_q s) with HEnqWait _ _ | HWaitWait _ => hwait d s | _ => CHost end.
