From Verif Require Import Base Model_MotorOps Model_Pru Model_PruQueue Spec_Queue Proofs_Pru Proofs_PruQueue.

(** ** Draining *)
Definition iterp (n : nat) (q : qsys) : qsys := fold_left q_step (repeat (Pru false) n) q.
Lemma iterp_add : forall n m q, iterp (n + m) q = iterp m (iterp n q).
Proof. intros. unfold iterp. now rewrite repeat_app, fold_left_app. Qed.
Lemma iterp_1 : forall q, iterp 1 q = pru_step false q.
Proof. reflexivity. Qed.
Lemma iterp_S : forall n q, iterp (S n) q = iterp n (pru_step false q).
Proof. reflexivity. Qed.
Lemma iterp_run : forall acts n, q_run (acts ++ repeat (Pru false) n) = iterp n (q_run acts).
Proof. intros. unfold q_run, iterp. now rewrite fold_left_app. Qed.
Lemma inv_iterp : forall n q, Inv q -> Inv (iterp n q).
Proof. induction n as [|n IH]; intros q H; auto. rewrite iterp_S. apply IH. now apply inv_pru. Qed.
Lemma calm_iterp : forall n q, calm q -> calm (iterp n q).
Proof.
  induction n as [|n IH]; intros q H; auto. rewrite iterp_S. apply IH.
  change (pru_step false q) with (q_step q (Pru false)). apply calm_step; auto. discriminate.
Qed.

(** [q'] follows from [q] by firmware steps, still in the same segment. *)
Definition within (q q' : qsys) : Prop :=
  (exists n, q' = iterp n q) /\ accepted (q_log q') = accepted (q_log q) /\ completed (q_log q') = completed (q_log q).
Lemma within_refl : forall q, within q q.
Proof. intros. split; [exists 0%nat; reflexivity|auto]. Qed.
Lemma within_trans : forall a b c, within a b -> within b c -> within a c.
Proof.
  intros a b c ((n & ->) & H2 & H3) ((m & ->) & G2 & G3). split; [exists (n + m)%nat; symmetry; apply iterp_add|].
  split; congruence.
Qed.
Lemma within_step : forall q ev, q_log (pru_step false q) = q_log q ++ ev -> accepted ev = [] -> count is_end ev = 0 ->
  within q (pru_step false q).
Proof.
  intros q ev E H1 H2. split; [exists 1%nat; reflexivity|]. rewrite E, accepted_app, H1, app_nil_r. split; auto.
  unfold completed. rewrite count_app, H2. lia.
Qed.

Lemma finish_step : forall fuel q fr ms t c rest, q_pru q = PStep fr ms t -> step_gen fuel fr ms t c = Some rest ->
  exists q', within q q' /\ q_pru q' = PStore STATE_EMPTY.
Proof.
  induction fuel as [|fuel IH]; intros q fr ms t c rest Hp Hs; [discriminate|].
  cbn [step_gen] in Hs. destruct (calculate_delay t) as [delay t'] eqn:Ed.
  assert (E : pru_step false q = pru_step false q) by reflexivity. unfold pru_step at 2 in E. rewrite Hp, Ed in E.
  destruct (delay =? 0).
  - exists (pru_step false q). split; [|now rewrite E]. eapply within_step; [rewrite E; cbn; reflexivity|reflexivity|reflexivity].
  - destruct (step_gen fuel fr (fun m => u32 (ms m + fr m)) t' (c - 1)) as [r|] eqn:Er; [|discriminate].
    destruct (IH (pru_step false q) fr (fun m => u32 (ms m + fr m)) t' (c - 1) r) as (q' & W & Hq'); auto.
    { now rewrite E. }
    exists q'. split; auto. eapply within_trans; [|exact W].
    eapply within_step; [rewrite E; cbn; reflexivity|reflexivity|reflexivity].
Qed.

Lemma finish_load : forall k q st dir p, q_pru q = PLoad st dir p -> (length p + k = 52)%nat ->
  exists q' s, within q q' /\ q_pru q' = PInit s.
Proof.
  induction k as [|k IH]; intros q st dir p Hp Hl;
    assert (E : pru_step false q = pru_step false q) by reflexivity; unfold pru_step at 2 in E; rewrite Hp in E;
    unfold ELEMENT_SIZE, HEADER_SIZE in E.
  - destruct (Z.ltb_spec (Z.of_nat (length p)) (54 - 2)); [lia|].
    exists (pru_step false q), (decode st dir p). split; [|now rewrite E].
    eapply within_step; [rewrite E; cbn; reflexivity|reflexivity|reflexivity].
  - destruct (Z.ltb_spec (Z.of_nat (length p)) (54 - 2)); [|lia].
    destruct (IH (pru_step false q) st dir (p ++ [q_mem q (q_r2 q + 2 + Z.of_nat (length p))])) as (q' & s & W & Hq').
    { now rewrite E. } { rewrite app_length. cbn. lia. }
    exists q', s. split; auto. eapply within_trans; [|exact W].
    eapply within_step; [rewrite E; cbn; reflexivity|reflexivity|reflexivity].
Qed.

Lemma finish_segment : forall q, Inv q -> q_pru q <> PHalt ->
  completed (q_log q) < len (accepted (q_log q)) -> (forall s, In s (accepted (q_log q)) -> ms_state s <> STATE_EXIT) ->
  exists n, accepted (q_log (iterp n q)) = accepted (q_log q) /\
    completed (q_log (iterp n q)) = completed (q_log q) + 1 /\ q_pru (iterp n q) = PRead.
Proof.
  intros q0 I0 Hh0 Hd0 Hx0.
  assert (GStore : forall q v, within q0 q -> q_pru q = PStore v -> exists n, accepted (q_log (iterp n q0)) = accepted (q_log q0) /\
    completed (q_log (iterp n q0)) = completed (q_log q0) + 1 /\ q_pru (iterp n q0) = PRead).
  { intros q v ((n & E) & W2 & W3) Hp. exists (n + 1)%nat. rewrite iterp_add, <- E, iterp_1. unfold pru_step. rewrite Hp. cbn [q_log q_pru].
    rewrite accepted_app, W2. unfold completed in *. rewrite count_app, W3.
    destruct (v =? STATE_EMPTY); cbn [accepted]; rewrite app_nil_r; auto. }
  assert (GStep : forall q fr ms t, within q0 q -> q_pru q = PStep fr ms t -> exists n, accepted (q_log (iterp n q0)) = accepted (q_log q0) /\
    completed (q_log (iterp n q0)) = completed (q_log q0) + 1 /\ q_pru (iterp n q0) = PRead).
  { intros q fr ms t W Hp. assert (I : Inv q) by (destruct W as ((n & ->) & _); now apply inv_iterp).
    destruct (i_pru q I) as (runs & partial & _ & _ & P). rewrite Hp in P. cbn [pru_inv] in P.
    destruct P as (_ & _ & _ & _ & (s & rest & fuel & c & _ & _ & S3 & _)).
    destruct (finish_step fuel q fr ms t c rest Hp S3) as (q' & W' & Hq'). eapply GStore; [eapply within_trans; eauto|exact Hq']. }
  assert (GInit : forall q s, within q0 q -> q_pru q = PInit s -> exists n, accepted (q_log (iterp n q0)) = accepted (q_log q0) /\
    completed (q_log (iterp n q0)) = completed (q_log q0) + 1 /\ q_pru (iterp n q0) = PRead).
  { intros q s W Hp.
    assert (E : pru_step false q = pru_step false q) by reflexivity. unfold pru_step at 2 in E. rewrite Hp in E.
    apply (GStep (pru_step false q) (ms_fractions s) (fun _ => 0) (travel_of s)); [|now rewrite E].
    eapply within_trans; [exact W|]. apply (within_step q []); [rewrite E; cbn; now rewrite app_nil_r|reflexivity|reflexivity]. }
  assert (GLoad : forall q st dir p, within q0 q -> q_pru q = PLoad st dir p -> exists n, accepted (q_log (iterp n q0)) = accepted (q_log q0) /\
    completed (q_log (iterp n q0)) = completed (q_log q0) + 1 /\ q_pru (iterp n q0) = PRead).
  { intros q st dir p W Hp. assert (I : Inv q) by (destruct W as ((n & ->) & _); now apply inv_iterp).
    destruct (i_pru q I) as (runs & partial & _ & _ & P). rewrite Hp in P. cbn [pru_inv] in P.
    destruct P as (_ & _ & _ & _ & (s & _ & _ & _ & _ & S5 & _)).
    destruct (finish_load (52 - length p) q st dir p Hp ltac:(lia)) as (q' & s' & W' & Hq').
    eapply GInit; [eapply within_trans; eauto|exact Hq']. }
  destruct (i_ring _ I0) as (R1 & R2 & R3 & R4 & R5).
  destruct (i_pru q0 I0) as (runs & partial & _ & _ & P).
  destruct (q_pru q0) as [|st dir p|s|fr ms t|v| |] eqn:Hp.
  - cbn [pru_inv] in P. destruct P as (P1 & _).
    destruct (seg_at_ex (accepted (q_log q0)) (completed (q_log q0)) ltac:(lia)) as [s Hs].
    destruct (R3 (completed (q_log q0)) s ltac:(lia) Hs) as [G1 G2].
    assert (Hin : In s (accepted (q_log q0))) by (destruct Hs as [_ Hs]; eapply nth_error_In; eauto).
    rewrite Forall_forall in R5. destruct (R5 s Hin) as (K1 & K2 & _). pose proof (Hx0 s Hin) as K3.
    assert (E : pru_step false q0 = pru_step false q0) by reflexivity. unfold pru_step at 2 in E. rewrite Hp, P1, G1 in E.
    destruct (Z.eqb_spec (ms_state s) STATE_EMPTY); [unfold STATE_EMPTY in *; lia|].
    destruct (Z.eqb_spec (ms_state s) STATE_ABORT); [contradiction|].
    destruct (Z.eqb_spec (ms_state s) STATE_EXIT); [contradiction|].
    eapply (GLoad (pru_step false q0)); [|rewrite E; reflexivity].
    eapply within_step; [rewrite E; cbn; reflexivity|reflexivity|reflexivity].
  - eapply GLoad; [apply within_refl|exact Hp].
  - eapply GInit; [apply within_refl|exact Hp].
  - eapply GStep; [apply within_refl|exact Hp].
  - eapply GStore; [apply within_refl|exact Hp].
  - exfalso. cbn [pru_inv] in P. destruct P as (_ & _ & _ & _ & (s & [_ S1] & S2 & _)).
    apply (Hx0 s); auto. eapply nth_error_In; eauto.
  - congruence.
Qed.

Lemma drains : forall k q, Inv q -> q_pru q <> PHalt -> (forall s, In s (accepted (q_log q)) -> ms_state s <> STATE_EXIT) ->
  len (accepted (q_log q)) - completed (q_log q) = Z.of_nat k ->
  exists n, accepted (q_log (iterp n q)) = accepted (q_log q) /\
            completed (q_log (iterp n q)) = len (accepted (q_log q)).
Proof.
  induction k as [|k IH]; intros q I Hh Hx Hk.
  - exists 0%nat. split; [reflexivity|]. change (iterp 0 q) with q. change (Z.of_nat 0) with 0 in Hk. lia.
  - destruct (finish_segment q I Hh ltac:(lia) Hx) as (n & N1 & N2 & N3).
    destruct (IH (iterp n q)) as (m & M1 & M2).
    + now apply inv_iterp.
    + rewrite N3. discriminate.
    + now rewrite N1.
    + rewrite N1, N2. lia.
    + exists (n + m)%nat. rewrite iterp_add, M1, M2, N1. auto.
Qed.

Lemma halted_why : forall acts, Forall act_ok acts -> q_pru (q_run acts) = PHalt ->
  (exists b, In (EvShutdown b) (q_log (q_run acts))) \/
  (exists s, In s (accepted (q_log (q_run acts))) /\ ms_state s = STATE_EXIT).
Proof.
  induction acts as [|a acts IH] using rev_ind; intros Hok H; [discriminate|].
  apply Forall_app in Hok. destruct Hok as [Hok Ha]. pose proof (inv_run acts Hok) as I. specialize (IH Hok).
  rewrite run_snoc in *. set (q := q_run acts) in *.
  assert (Hold : q_pru q = PHalt -> forall ev, q_log (q_step q a) = q_log q ++ ev ->
    (exists b, In (EvShutdown b) (q_log (q_step q a))) \/
    (exists s, In s (accepted (q_log (q_step q a))) /\ ms_state s = STATE_EXIT)).
  { intros E ev E2. rewrite E2. destruct (IH E) as [(b & B)|(s & S1 & S2)].
    - left. exists b. apply in_or_app; auto.
    - right. exists s. rewrite accepted_app. split; auto. apply in_or_app; auto. }
  destruct a as [op|e]; cbn [q_step] in *.
  - unfold host_step, host_start, with_host in *.
    destruct (q_host q) as [|s sd|s sd|s sd|sd|s slot i sd|s slot sd|sd|sd|sd|st|];
      repeat match goal with
      | |- context [if ?b then _ else _] => destruct b
      | |- context [match ?op with OpEnqueue _ => _ | OpWaitEmpty => _ | OpPending => _ | OpShutdown _ => _ end] => destruct op as [?| | |[|]]
      end; cbn [q_pru q_log] in *;
      try (eapply Hold; [exact H|first [reflexivity|symmetry; apply app_nil_r]]);
      try (left; eexists; apply in_or_app; right; cbn; tauto).
  - unfold pru_step, with_pru in *. destruct (q_pru q) as [|st dir pp|s'|fr ms t|v| |] eqn:EP.
    + repeat match type of H with context [if ?b then _ else _] => destruct b end; cbn [q_pru] in H; congruence.
    + repeat match type of H with context [if ?b then _ else _] => destruct b end; cbn [q_pru] in H; congruence.
    + cbn [q_pru] in H; congruence.
    + destruct (calculate_delay t) as [delay t'].
      repeat match type of H with context [if ?b then _ else _] => destruct b end; cbn [q_pru] in H; congruence.
    + cbn [q_pru] in H; congruence.
    + right. destruct (i_pru q I) as (runs & partial & _ & _ & P). rewrite EP in P. cbn [pru_inv] in P.
      destruct P as (_ & _ & _ & _ & (s & [_ S1] & S2 & _)). exists s. cbn [q_log]. rewrite accepted_app. split; auto.
      apply in_or_app. left. eapply nth_error_In; eauto.
    + apply (Hold eq_refl []). now rewrite app_nil_r.
Qed.

(** ** What GetPendingElements reports *)
(** Firmware steps leave what the host owns alone. *)
Lemma pru_steps_keep : forall es q,
  let q' := fold_left q_step (map Pru es) q in
  q_host q' = q_host q /\ q_pos q' = q_pos q /\ accepted (q_log q') = accepted (q_log q).
Proof.
  induction es as [|e es IH]; intros q; cbn [map fold_left]; auto.
  destruct (IH (q_step q (Pru e))) as (H1 & H2 & H3). rewrite H1, H2, H3. clear.
  cbn [q_step]. unfold pru_step, with_pru. destruct (q_pru q) as [|st dir pp|s'|fr ms t|v| |];
    try destruct (calculate_delay t) as [delay t'];
    repeat match goal with |- context [if ?b then _ else _] => destruct b end; cbn [q_host q_pos q_log];
    rewrite ?accepted_app; cbn [accepted]; rewrite ?app_nil_r; auto.
Qed.

(** The number of segments not finished when the status was read, or one more. *)
Definition seen (A : list motion_segment) (d : Z) (p : pru_pc) : Z :=
  len A - match p with PStep _ _ _ | PStore _ => d | _ => if d =? 0 then 0 else d - 1 end.

Lemma pending_value : forall A d p r2 r28 st partial pos, pru_inv A d p r2 r28 st partial -> p <> PHalt ->
  pos_inv A pos -> 0 <= d -> d <= len A <= d + 16 ->
  let len16 := ring_offset pos (- (st / 2 ^ 24)) in
  (if len16 =? 0 then len16 + QUEUE_LEN else len16) =
  (if seen A d p =? 17 then 1 else if seen A d p =? 0 then 16 else seen A d p).
Proof.
  intros A d p r2 r28 st partial pos P Hh [Hp1 Hp2] H0 Hd.
  assert (Hb : byte3 st = (match p with PStep _ _ _ | PStore _ => d | _ => if d =? 0 then 0 else d - 1 end) mod 16).
  { destruct p; try congruence; cbn [pru_inv] in P; destruct P as (_ & _ & _ & P & _);
      try (destruct P as (_ & _ & ->)); try (destruct P as (_ & ->)); destruct (d =? 0); reflexivity. }
  cbv zeta. unfold seen. fold (byte3 st). rewrite Hb. clear Hb P.
  set (i := match p with PStep _ _ _ | PStore _ => d | _ => if d =? 0 then 0 else d - 1 end).
  assert (Hi : d - 1 <= i <= d /\ 0 <= i) by (unfold i; destruct p; try congruence; destruct (Z.eqb_spec d 0); lia).
  unfold ring_offset, u32, QUEUE_LEN.
  pose proof (Z.mod_pos_bound i 16 ltac:(lia)).
  rewrite (Z.mod_small (16 + pos + - (i mod 16))) by lia.
  destruct (Z.eqb_spec (len A - i) 17); [|destruct (Z.eqb_spec (len A - i) 0)];
   destruct (Z.eqb_spec ((16 + pos + - (i mod 16)) mod 16) 0); dlia.
Qed.

Lemma pending_run : forall acts es op, Forall act_ok acts -> no_estop acts -> ~ In true es ->
  let q1 := q_run acts in
  let q2 := q_run (acts ++ Host OpPending :: map Pru es) in
  let q3 := q_run (acts ++ Host OpPending :: map Pru es ++ [Host op]) in
  q_host q1 = HIdle -> q_pru q1 <> PHalt ->
  accepted (q_log q2) = accepted (q_log q1) /\
  q_log q3 = q_log q2 ++ [EvPending
     (if completed (q_log q2) =? len (accepted (q_log q2)) then 0
      else if seen (accepted (q_log q1)) (completed (q_log q1)) (q_pru q1) =? 17 then 1
      else seen (accepted (q_log q1)) (completed (q_log q1)) (q_pru q1))
     (low24 (q_status q1))].
Proof.
  intros acts es op Hok Hno Hes q1 q2 q3 Hh Hp.
  pose proof (inv_run acts Hok) as I1. fold q1 in I1.
  assert (I2 : Inv q2).
  { apply inv_run. apply Forall_app. split; auto. constructor; [exact Logic.I|]. apply Forall_forall. intros a Ha. apply in_map_iff in Ha.
    destruct Ha as (e & <- & _). exact Logic.I. }
  assert (C2 : calm q2).
  { apply calm_run. intros X. apply in_app_or in X. destruct X as [X|[X|X]]; [now apply Hno|discriminate|].
    apply in_map_iff in X. destruct X as (e & E & X). injection E as ->. contradiction. }
  assert (E2 : q2 = fold_left q_step (map Pru es) (with_host q1 (HPend (q_status q1)) [])).
  { unfold q2, q_run. rewrite fold_left_app. cbn [fold_left]. fold (q_run acts). fold q1. f_equal.
    cbn [q_step]. unfold host_step. rewrite Hh. reflexivity. }
  pose proof (pru_steps_keep es (with_host q1 (HPend (q_status q1)) [])) as K. cbv zeta in K. rewrite <- E2 in K.
  cbn [with_host q_host q_pos q_log] in K. rewrite app_nil_r in K. destruct K as (K1 & K2 & K3).
  split; auto.
  assert (E3 : q3 = host_step op q2).
  { unfold q3, q2, q_run. rewrite app_comm_cons, app_assoc, fold_left_app. reflexivity. }
  rewrite E3. unfold host_step. rewrite K1. cbn [with_host q_log]. f_equal. f_equal. f_equal.
  pose proof (i_host q2 I2) as Hi. rewrite K1 in Hi. cbn [host_inv] in Hi.
  pose proof (last_empty_iff q2 I2 C2 Hi) as HL.
  destruct (i_ring q1 I1) as (R1 & R2 & _). destruct (i_pru q1 I1) as (runs & partial & _ & _ & P).
  pose proof (pending_value _ _ _ _ _ _ _ (q_pos q1) P Hp) as V. cbv zeta in V.
  assert (Hi1 : pos_inv (accepted (q_log q1)) (q_pos q1)) by (rewrite <- K3, <- K2; exact Hi).
  specialize (V Hi1 ltac:(lia) ltac:(lia)). rewrite K2.
  assert (Hmono : completed (q_log q1) <= completed (q_log q2)).
  { clear - E2. assert (G : forall es q, completed (q_log q) <= completed (q_log (fold_left q_step (map Pru es) q))).
    { clear. induction es as [|e es IH]; intros q; cbn [map fold_left]; [lia|]. etransitivity; [|apply IH].
      cbn [q_step]. unfold pru_step, with_pru. destruct (q_pru q) as [|st dir pp|s'|fr ms t|v| |];
        try destruct (calculate_delay t) as [delay t'];
        repeat match goal with |- context [if ?b then _ else _] => destruct b end; cbn [q_log]; unfold completed;
        rewrite ?count_app; match goal with |- _ <= _ + count is_end ?l => pose proof (count_nonneg is_end l) | _ => idtac end; lia. }
    rewrite E2. etransitivity; [|apply G]. cbn. rewrite app_nil_r. lia. }
  rewrite K2 in HL. unfold STATE_EMPTY in *.
  destruct (Z.eqb_spec (q_mem q2 (slot_addr (ring_offset (q_pos q1) (-1)))) 0) as [E|E].
  - apply HL in E. destruct (Z.eqb_spec (completed (q_log q2)) (len (accepted (q_log q2)))); [auto|contradiction].
  - destruct (Z.eqb_spec (completed (q_log q2)) (len (accepted (q_log q2)))) as [E'|E']; [exfalso; apply E; now apply HL|].
    rewrite V. destruct (Z.eqb_spec (seen (accepted (q_log q1)) (completed (q_log q1)) (q_pru q1)) 17); auto.
    destruct (Z.eqb_spec (seen (accepted (q_log q1)) (completed (q_log q1)) (q_pru q1)) 0) as [E0|E0]; auto.
    exfalso. destruct (i_ring q2 I2) as (_ & R2' & _). rewrite K3 in *. unfold seen in E0.
    destruct (q_pru q1); try congruence; try (destruct (Z.eqb_spec (completed (q_log q1)) 0)); lia.
Qed.

(** ** Emergency stop *)

Lemma stopped_no_pass : forall acts2 q, ~ In (Pru false) acts2 ->
  exists l, q_log (fold_left q_step acts2 q) = q_log q ++ l /\ count is_pass l = 0.
Proof.
  induction acts2 as [|a acts IH]; intros q H.
  - exists []. cbn. now rewrite app_nil_r.
  - cbn [fold_left]. destruct (IH (q_step q a)) as (l & E & C); [intros X; apply H; now right|].
    assert (G : exists l0, q_log (q_step q a) = q_log q ++ l0 /\ count is_pass l0 = 0).
    { destruct a as [op|[|]]; cbn [q_step].
      - unfold host_step, host_start, with_host.
        destruct (q_host q) as [|s sd|s sd|s sd|sd|s slot i sd|s slot sd|sd|sd|sd|st|];
          repeat match goal with
          | |- context [if ?b then _ else _] => destruct b
          | |- context [match ?op with OpEnqueue _ => _ | OpWaitEmpty => _ | OpPending => _ | OpShutdown _ => _ end] => destruct op as [?| | |[|]]
          end; cbn [q_log];
          try (eexists; split; [reflexivity|reflexivity]); (exists []; split; [now rewrite app_nil_r|reflexivity]).
      - unfold pru_step, with_pru. destruct (q_pru q) as [|st dir pp|s'|fr ms t|v| |];
          repeat match goal with |- context [if ?b then _ else _] => destruct b end; cbn [q_log];
          try (eexists; split; [reflexivity|reflexivity]); (exists []; split; [now rewrite app_nil_r|reflexivity]).
      - exfalso. apply H. now left. }
    destruct G as (l0 & E0 & C0). exists (l0 ++ l). split; [rewrite E, E0; now rewrite app_assoc|].
    rewrite count_app. lia.
Qed.

Lemma ends_app : forall a b, ends (a ++ b) = ends a ++ ends b.
Proof. intros. apply filter_app. Qed.
Lemma ends_length : forall l, Z.of_nat (length (ends l)) = completed l.
Proof. reflexivity. Qed.

Definition told (l : list qevent) : Prop := exists l1 l2, l = l1 ++ EvRefused :: l2 /\ accepted l2 = [].
Lemma told_app : forall l ev, told l -> accepted ev = [] -> told (l ++ ev).
Proof. intros l ev (l1 & l2 & -> & H) E. exists l1, (l2 ++ ev). split; [now rewrite <- app_assoc|]. rewrite accepted_app, H. auto. Qed.

Definition filling (h : host_pc) : Prop := match h with HCopy _ _ _ _ | HFlip _ _ _ => True | _ => False end.
(** Aborted segments whose slot was not used again still mark it, except the
    oldest if the host was told already. *)
Definition marks (q : qsys) : Prop :=
  forall j, 0 <= j -> len (accepted (q_log q)) - 16 <= j -> nth_error (ends (q_log q)) (Z.to_nat j) = Some EvAborted ->
  (q_mem q (slot_addr (j mod 16)) = STATE_ABORT /\ (j = len (accepted (q_log q)) - 16 -> ~ filling (q_host q))) \/
  (j = len (accepted (q_log q)) - 16 /\ told (q_log q)).

Definition told_ok (l : list qevent) (e : qevent) : Prop :=
  match e with
  | EvAccepted _ => 16 <= len (accepted l) ->
      nth_error (ends l) (Z.to_nat (len (accepted l) - 16)) = Some EvAborted -> told l
  | _ => True
  end.

Lemma ends_bound : forall l j e, 0 <= j -> nth_error (ends l) (Z.to_nat j) = Some e -> j < completed l.
Proof. intros l j e Hj H. assert (Z.to_nat j < length (ends l))%nat by (apply nth_error_Some; congruence). rewrite <- ends_length. lia. Qed.

Lemma marks_same : forall q q', marks q -> (forall i, q_mem q' (slot_addr i) = q_mem q (slot_addr i)) ->
  (exists ev, q_log q' = q_log q ++ ev /\ accepted ev = [] /\ ends ev = []) ->
  (filling (q_host q') -> filling (q_host q)) -> marks q'.
Proof.
  intros q q' M Hm (ev & El & Ea & Ee) Hf j H0 Hj Hn. rewrite El, ends_app, Ee, app_nil_r in Hn.
  rewrite El, accepted_app, Ea, app_nil_r in *. destruct (M j H0 Hj Hn) as [[G1 G2]|[G1 G2]].
  - left. rewrite Hm. split; [exact G1|]. intros Ej Hfil. exact (G2 Ej (Hf Hfil)).
  - right. split; auto. apply told_app; auto.
Qed.

Lemma mod_slot : forall j k, j mod 16 = k mod 16 <-> slot_addr (j mod 16) = slot_addr (k mod 16).
Proof. intros. unfold slot_addr, QUEUE_OFFSET, ELEMENT_SIZE. lia. Qed.

Ltac same q M := apply (marks_same q); [exact M|reflexivity|cbn [q_log]; solve [auto|eexists; split; [reflexivity|split; reflexivity]]|cbn [q_host filling]; try contradiction].

Lemma marks_host : forall op q, Inv q -> marks q -> marks (host_step op q).
Proof.
  intros op q I M. pose proof (i_host q I) as Hi. destruct (i_ring q I) as (R1 & R2 & R3 & R4 & R5).
  assert (Hnil : exists ev, q_log q = q_log q ++ ev /\ accepted ev = [] /\ ends ev = []) by (exists []; rewrite app_nil_r; auto).
  assert (Hnil' : exists ev, q_log q ++ [] = q_log q ++ ev /\ accepted ev = [] /\ ends ev = []) by (exists []; auto).
  unfold host_step, host_start, with_host.
  destruct (q_host q) as [|s sd|s sd|s sd|sd|s slot i sd|s slot sd|sd|sd|sd|st|] eqn:Hh; cbn [host_inv] in Hi.
  - destruct op as [s| | |[|]]; (apply (marks_same q); [exact M|reflexivity|cbn [q_log]; solve [auto|eexists; split; [reflexivity|split; reflexivity]]|cbn [q_host filling]; contradiction]).
  - (* the slot is EMPTY: if it was marked, the host was told *)
    destruct (Z.eqb_spec (q_mem q (slot_addr (q_pos q))) STATE_EMPTY) as [E|E].
    + intros j H0 Hj Hn. cbn [q_log q_mem q_host] in *. destruct (M j H0 Hj Hn) as [[G1 G2]|G]; auto.
      left. split; auto. intros Ej. exfalso. destruct Hi as [Hi _].
      assert (E16 : j mod 16 = len (accepted (q_log q)) mod 16) by (subst j; dlia).
      rewrite E16, <- Hi, E in G1. unfold STATE_EMPTY, STATE_ABORT in G1. discriminate.
    + same q M.
  - destruct (q_mem q (slot_addr (q_pos q)) =? STATE_ABORT); (same q M).
  - same q M.
  - (* cleared, and told *)
    intros j H0 Hj Hn. cbn [q_log q_mem q_host] in *. rewrite ends_app, accepted_app in *. cbn [ends filter is_end accepted] in *.
    rewrite app_nil_r in *. destruct Hi as [Hi _].
    destruct (Z.eq_dec j (len (accepted (q_log q)) - 16)) as [Ej|Ej].
    + right. split; auto. exists (q_log q), []. auto.
    + destruct (M j H0 Hj Hn) as [[G1 G2]|[G1 G2]]; [|contradiction]. left. split; [|contradiction].
      pose proof (ends_bound _ _ _ H0 Hn). rewrite upd_other; auto. rewrite Hi. rewrite <- mod_slot. dlia.
  - destruct Hi as [(C1 & C2 & C3 & C4 & C5 & C6 & C7) _]. destruct (Z.ltb_spec i ELEMENT_SIZE) as [Hl|Hl].
    + apply (marks_same q); [exact M| |exact Hnil|rewrite Hh; cbn; auto].
      cbn [q_mem].
      intros x. destruct (Z.eq_dec (slot_addr x) (slot_addr slot + i)) as [E|E]; [|now rewrite upd_other].
      unfold ELEMENT_SIZE in Hl. destruct (slot_addr_inj x slot 0 i) as [-> Hi0]; [lia|lia|lia|]. subst i.
      rewrite Z.add_0_r, upd_same. cbn. auto.
    + same q M. rewrite Hh. cbn. auto.
  - destruct Hi as [(C1 & C2 & C3 & C4 & C5 & C6 & C7) _].
    intros j H0 Hj Hn. cbn [q_log q_mem q_host] in *. rewrite ends_app, accepted_app in *. cbn [ends filter is_end accepted] in *.
    rewrite app_nil_r in Hn. unfold len in Hj. rewrite app_length in Hj. cbn [length] in Hj.
    destruct (M j H0 ltac:(unfold len; lia) Hn) as [[G1 G2]|[G1 G2]]; [|unfold len in *; lia].
    left. split; [|destruct sd; cbn; auto]. pose proof (ends_bound _ _ _ H0 Hn). rewrite upd_other; auto.
    rewrite C2. rewrite <- mod_slot. unfold len in *. dlia.
  - destruct (q_mem q (slot_addr (ring_offset (q_pos q) (-1))) =? STATE_EMPTY); [destruct sd|];
      (apply (marks_same q); [exact M|reflexivity|cbn [q_log]; solve [auto|eexists; split; [reflexivity|split; reflexivity]]|cbn [q_host filling]; contradiction]).
  - destruct (q_mem q (slot_addr (ring_offset (q_pos q) (-1))) =? STATE_ABORT); [destruct sd|];
      (apply (marks_same q); [exact M|reflexivity|cbn [q_log]; solve [auto|eexists; split; [reflexivity|split; reflexivity]]|cbn [q_host filling]; contradiction]).
  - same q M.
  - apply (marks_same q); [exact M|reflexivity|cbn [q_log]; eexists; split; [reflexivity|split; reflexivity]|cbn [q_host filling]; contradiction].
  - auto.
Qed.

Lemma marks_pru : forall e q, Inv q -> marks q -> marks (pru_step e q).
Proof.
  intros e q I M. destruct (i_ring q I) as (R1 & R2 & R3 & R4 & R5). destruct (i_pru q I) as (runs & partial & _ & _ & P).
  assert (Hnil : exists ev, q_log q = q_log q ++ ev /\ accepted ev = [] /\ ends ev = []) by (exists []; rewrite app_nil_r; auto).
  assert (Hend : forall v ev h r28 r2 st p, q_r2 q = slot_addr (completed (q_log q) mod 16) -> completed (q_log q) < len (accepted (q_log q)) ->
    is_end ev = true -> (forall s, ev <> EvAccepted s) -> (ev = EvAborted -> v = STATE_ABORT) -> h = q_host q ->
    marks (mk_qsys (upd (q_mem q) (q_r2 q) v) st (q_pos q) h p r2 r28 (q_log q ++ [ev]))).
  { intros v ev h r28 r2 st p Er Hd He Hna Hv -> j H0 Hj Hn. cbn [q_log q_mem q_host] in *.
    assert (Ea : accepted [ev] = []) by (destruct ev; auto; exfalso; now apply (Hna s)).
    rewrite ends_app, accepted_app, Ea, app_nil_r in *. unfold ends at 2 in Hn. cbn [filter] in Hn. rewrite He in Hn.
    destruct (Z.eq_dec j (completed (q_log q))) as [->|Ej].
    - left. rewrite nth_error_app2 in Hn by (pose proof (ends_length (q_log q)); lia).
      replace (Z.to_nat (completed (q_log q)) - length (ends (q_log q)))%nat with 0%nat in Hn by (pose proof (ends_length (q_log q)); lia).
      cbn in Hn. injection Hn as ->. rewrite Er, upd_same. split; auto. intros Ej Hf.
      pose proof (i_host q I) as Hi. destruct (q_host q); cbn in Hf; try contradiction; cbn [host_inv] in Hi;
        destruct Hi as [(C1 & C2 & C3 & C4 & _) _]; lia.
    - assert (Hlt : j < completed (q_log q)).
      { assert (Z.to_nat j < length (ends (q_log q) ++ [ev]))%nat by (apply nth_error_Some; congruence).
        rewrite app_length in H. cbn in H. pose proof (ends_length (q_log q)). lia. }
      rewrite nth_error_app1 in Hn by (pose proof (ends_length (q_log q)); lia).
      destruct (M j H0 Hj Hn) as [[G1 G2]|[G1 G2]].
      + left. split; auto. rewrite Er, upd_other; auto. rewrite <- mod_slot. dlia.
      + right. split; auto. apply told_app; auto. }
  unfold pru_step, with_pru. destruct (q_pru q) as [|st dir pp|s'|fr ms t|v| |] eqn:EP; cbn [pru_inv] in P.
  - repeat match goal with |- context [if ?b then _ else _] => destruct b end; auto;
      (apply (marks_same q); [exact M|reflexivity|cbn [q_log]; solve [auto|eexists; split; [reflexivity|split; reflexivity]]|auto]).
  - destruct (Z.of_nat (length pp) <? ELEMENT_SIZE - HEADER_SIZE);
      (apply (marks_same q); [exact M|reflexivity|cbn [q_log]; solve [auto|eexists; split; [reflexivity|split; reflexivity]]|auto]).
  - apply (marks_same q); auto.
  - destruct e; [apply (marks_same q); auto|]. destruct (calculate_delay t) as [delay t'].
    destruct (delay =? 0); (apply (marks_same q); [exact M|reflexivity|cbn [q_log]; solve [auto|eexists; split; [reflexivity|split; reflexivity]]|auto]).
  - destruct P as (P1 & _ & _ & _ & (s & S1 & _ & S3)). apply seg_at_lt in S1. cbv zeta.
    apply Hend; auto; try lia.
    + destruct (v =? STATE_EMPTY); reflexivity.
    + intros x. destruct (v =? STATE_EMPTY); discriminate.
    + destruct S3 as [(-> & _)|(-> & _)]; [discriminate|auto].
  - destruct P as (P1 & _ & _ & _ & (s & S1 & _)). apply seg_at_lt in S1. apply Hend; auto; try lia; discriminate.
  - exact M.
Qed.

Lemma told_run : forall acts, Forall act_ok acts -> marks (q_run acts) /\ every told_ok (q_log (q_run acts)).
Proof.
  induction acts as [|a acts IH] using rev_ind; intros Hok.
  { split; [|apply every_nil]. intros j H0 Hj Hn. cbn in Hn. destruct (Z.to_nat j); discriminate. }
  apply Forall_app in Hok. destruct Hok as [Hok Ha]. pose proof (inv_run acts Hok) as I. specialize (IH Hok). destruct IH as [M T].
  rewrite run_snoc. set (q := q_run acts) in *.
  split; [destruct a as [op|e]; cbn [q_step]; [now apply marks_host|now apply marks_pru]|].
  assert (S0 : every told_ok (q_log q ++ [])) by (rewrite app_nil_r; auto).
  assert (Hx : forall e, (forall s, e <> EvAccepted s) -> forall l, every told_ok l -> every told_ok (l ++ [e])).
  { intros e He l Hl. apply every_snoc; auto. destruct e; cbn; auto. exfalso. now apply (He s). }
  destruct a as [op|e]; cbn [q_step].
  - pose proof (i_host q I) as Hi. unfold host_step, host_start, with_host.
    destruct (q_host q) as [|s sd|s sd|s sd|sd|s slot i sd|s slot sd|sd|sd|sd|st|] eqn:Hh;
      repeat match goal with
          | |- context [if ?b then _ else _] => destruct b
          | |- context [match ?op with OpEnqueue _ => _ | OpWaitEmpty => _ | OpPending => _ | OpShutdown _ => _ end] => destruct op as [?| | |[|]]
          end; cbn [q_log]; auto;
      try (apply Hx; [discriminate|auto]);
      try (change [EvEmpty; EvShutdown true] with ([EvEmpty] ++ [EvShutdown true]); rewrite app_assoc; apply Hx; [discriminate|]; apply Hx; [discriminate|auto]).
    all: apply every_snoc; auto; cbn [told_ok]; intros H16 Hn;
      destruct (M (len (accepted (q_log q)) - 16) ltac:(lia) ltac:(lia) Hn) as [[G1 G2]|[G1 G2]]; auto;
      exfalso; apply G2; auto; rewrite Hh; exact Logic.I.
  - unfold pru_step, with_pru. destruct (q_pru q) as [|st dir pp|s'|fr ms t|v| |];
      try destruct (calculate_delay t) as [delay t'];
      repeat match goal with |- context [if ?b then _ else _] => destruct b end; cbn [q_log]; auto; apply Hx; auto; discriminate.
Qed.

Lemma aborts_run : forall acts, Forall act_ok acts ->
  count is_refused (q_log (q_run acts)) <= count is_aborted (q_log (q_run acts)) <= count is_refused (q_log (q_run acts)) + 16.
Proof.
  intros acts Hok. pose proof (i_abort _ (inv_run acts Hok)) as E. rewrite E.
  assert (H : forall (f : Z -> bool) l, (length (filter f l) <= length l)%nat) by (induction l; cbn; [lia|destruct (f a); cbn; lia]).
  specialize (H (fun i => q_mem (q_run acts) (slot_addr i) =? STATE_ABORT) slots). unfold aborted_slots. cbn [slots length] in H. cbn [slots]. lia.
Qed.

Lemma progress_run : forall acts fr ms tr, Forall act_ok acts -> no_estop acts ->
  let q := q_run acts in
  q_pru q = PStep fr ms tr -> Forall full (accepted (q_log q)) ->
  exists s partial rest,
    nth_error (accepted (q_log q)) (Z.to_nat (completed (q_log q))) = Some s /\
    outputs (q_log q) = concat (map seg_events (firstn (Z.to_nat (completed (q_log q))) (accepted (q_log q)))) ++ partial /\
    seg_events s = partial ++ rest /\ low24 (q_status q) = count is_pass rest - 1.
Proof.
  intros acts fr ms tr Hok Hno q Hp Hf.
  destruct (calm_outputs q (inv_run acts Hok) (calm_run acts Hno)) as (partial & E & P).
  rewrite Hp in P. cbn [pru_inv] in P.
  destruct P as (_ & _ & _ & _ & (s & rest & fuel & c & [_ S1] & S2 & S3 & S4 & S5 & S6 & S7)).
  exists s, partial, (map pass_ev rest ++ [EvDone]). split; auto. split; auto. split; auto.
  rewrite S5, (S7 Hf), count_app. change (count is_pass [EvDone]) with 0.
  assert (G : count is_pass (map pass_ev rest) = Z.of_nat (length rest)); [|lia].
  clear. unfold count. induction rest as [|x l IH]; [reflexivity|]. cbn [map filter is_pass pass_ev length] in *. lia.
Qed.
