From Verif Require Import Base Model_MotorOps Model_Pru Model_PruQueue Spec_Queue Proofs_Pru.

Ltac dlia := Z.div_mod_to_equations; lia.

(** ** Encoding *)
Definition seg_eq (a b : motion_segment) : Prop :=
  ms_state a = ms_state b /\ ms_direction_bits a = ms_direction_bits b /\
  ms_loops_accel a = ms_loops_accel b /\ ms_loops_travel a = ms_loops_travel b /\
  ms_loops_decel a = ms_loops_decel b /\ ms_aux a = ms_aux b /\
  ms_accel_series_index a = ms_accel_series_index b /\
  ms_hires_accel_cycles a = ms_hires_accel_cycles b /\
  ms_travel_delay_cycles a = ms_travel_delay_cycles b /\
  (forall m, ms_fractions a m = ms_fractions b m).

Lemma encode_length : forall s, length (encode s) = 54%nat.
Proof. reflexivity. Qed.

Lemma rd16_ok : forall x, 0 <= x < 2 ^ 16 -> x mod 256 + 256 * (x / 256 mod 256) = x.
Proof. intros. change (2 ^ 16) with 65536 in *. dlia. Qed.
Lemma rd32_ok : forall x, 0 <= x < 2 ^ 32 ->
  x mod 256 + 256 * (x / 256 mod 256) + 65536 * (x / 65536 mod 256) + 16777216 * (x / 16777216 mod 256) = x.
Proof.
  intros x Hx. change (2 ^ 32) with 4294967296 in *.
  change 65536 with (256 * 256) at 2. change 16777216 with (256 * 256 * 256) at 2.
  rewrite <- !Z.div_div by lia.
  set (a := x / 256). set (b := a / 256). set (c := b / 256).
  assert (0 <= c < 256) by (unfold c, b, a; dlia).
  rewrite (Z.mod_small c) by auto.
  pose proof (Z.div_mod x 256 ltac:(lia)) as E1. pose proof (Z.div_mod a 256 ltac:(lia)) as E2. pose proof (Z.div_mod b 256 ltac:(lia)) as E3.
  fold a in E1. fold b in E2. fold c in E3. lia.
Qed.

Lemma decode_encode : forall s, seg_ok s ->
  seg_eq (decode (ms_state s) (ms_direction_bits s) (skipn 2 (encode s))) s.
Proof.
  intros s (H1 & H2 & H3 & H4 & H5 & H6 & H7 & H8 & H9 & H10 & H11).
  unfold seg_eq. cbn [decode ms_state ms_direction_bits ms_loops_accel ms_loops_travel ms_loops_decel ms_aux
    ms_accel_series_index ms_hires_accel_cycles ms_travel_delay_cycles ms_fractions].
  split; [reflexivity|]. split; [reflexivity|].
  split; [apply rd16_ok; auto|]. split; [apply rd16_ok; auto|]. split; [apply rd16_ok; auto|]. split; [apply rd16_ok; auto|].
  split; [apply rd32_ok; auto|]. split; [apply rd32_ok; auto|]. split; [apply rd32_ok; auto|].
  intros []; apply rd32_ok; auto.
Qed.

(** ** Execution depends on the field values only *)
Definition pass_ev (l : pru_loop) : qevent := EvPass (map (pl_pins l) all_motors) (pl_delay l).

Lemma map_ext_motors : forall (f g : motor -> bool), (forall m, f m = g m) -> map f all_motors = map g all_motors.
Proof. intros. apply map_ext. auto. Qed.

Lemma step_gen_ext : forall fuel fr fr' ms ms' t c c',
  (forall m, fr m = fr' m) -> (forall m, ms m = ms' m) ->
  match step_gen fuel fr ms t c, step_gen fuel fr' ms' t c' with
  | Some a, Some b => map pass_ev a = map pass_ev b
  | None, None => True
  | _, _ => False
  end.
Proof.
  induction fuel as [|fuel IH]; intros fr fr' ms ms' t c c' Hf Hm; cbn [step_gen]; auto.
  destruct (calculate_delay t) as [delay t'].
  assert (Hm' : forall m, u32 (ms m + fr m) = u32 (ms' m + fr' m)) by (intros; now rewrite Hf, Hm).
  assert (Hp : map (step_pins (fun m => u32 (ms m + fr m))) all_motors = map (step_pins (fun m => u32 (ms' m + fr' m))) all_motors).
  { apply map_ext. intros m. unfold step_pins. now rewrite Hm'. }
  destruct (delay =? 0).
  - cbn [map]. unfold pass_ev. cbn [pl_pins pl_delay]. now rewrite Hp.
  - specialize (IH fr fr' _ _ t' (c - 1) (c' - 1) Hf Hm').
    destruct (step_gen fuel fr (fun m => u32 (ms m + fr m)) t' (c - 1)),
             (step_gen fuel fr' (fun m => u32 (ms' m + fr' m)) t' (c' - 1)); auto.
    cbn [map]. unfold pass_ev at 1 3. cbn [pl_pins pl_delay]. now rewrite Hp, IH.
Qed.

Lemma travel_of_eq : forall a b, seg_eq a b -> travel_of a = travel_of b /\ total_loops a = total_loops b.
Proof.
  intros a b (H1 & H2 & H3 & H4 & H5 & H6 & H7 & H8 & H9 & H10). unfold travel_of, total_loops.
  rewrite H3, H4, H5, H7, H8, H9. auto.
Qed.

Lemma seg_ok_execute : forall s, seg_ok s -> exists ls, pru_execute s = Some ls /\ (1 <= length ls)%nat /\
  Z.of_nat (length ls) <= total_loops s + 1.
Proof.
  intros s (H1 & H2 & H3 & H4 & H5 & H6 & H7 & H8 & H9 & H10 & H11).
  assert (Hok : t_ok (travel_of s)) by (unfold t_ok; cbn; lia).
  assert (H0 : 0 <= total_loops s) by (unfold total_loops; lia).
  unfold pru_execute. replace (Z.to_nat (total_loops s + 1)) with (S (Z.to_nat (total_loops s))) by lia.
  destruct (step_gen_total (ms_fractions s) (Z.to_nat (total_loops s)) (fun _ => 0) (travel_of s) (total_loops s) Hok)
    as (ls & E & Hl).
  { rewrite Z2Nat.id by lia. unfold t_loops, travel_of, total_loops. cbn. reflexivity. }
  exists ls. split; auto. lia.
Qed.

(** ** Log bookkeeping *)
Lemma accepted_app : forall a b, accepted (a ++ b) = accepted a ++ accepted b.
Proof. induction a as [|e a IH]; intros b; auto. cbn [app]. destruct e; cbn [accepted]; rewrite IH; auto. Qed.
Lemma outputs_app : forall a b, outputs (a ++ b) = outputs a ++ outputs b.
Proof. intros. apply filter_app. Qed.
Lemma count_app : forall f a b, count f (a ++ b) = count f a + count f b.
Proof. intros. unfold count. rewrite filter_app, app_length. lia. Qed.
Lemma count_nonneg : forall f l, 0 <= count f l.
Proof. intros. unfold count. lia. Qed.

(** ** Memory *)
Lemma upd_same : forall m a v, upd m a v a = v.
Proof. intros. unfold upd. now rewrite Z.eqb_refl. Qed.
Lemma upd_other : forall m a v x, x <> a -> upd m a v x = m x.
Proof. intros. unfold upd. destruct (Z.eqb_spec x a); [contradiction|auto]. Qed.

Definition seg_at (A : list motion_segment) (j : Z) (s : motion_segment) : Prop :=
  0 <= j /\ nth_error A (Z.to_nat j) = Some s.
Definition holds (mem : Z -> Z) (slot : Z) (s : motion_segment) : Prop :=
  mem (slot_addr slot) = ms_state s /\
  (forall k, 1 <= k < 54 -> mem (slot_addr slot + k) = byte_at (encode s) k).
Definition len (A : list motion_segment) : Z := Z.of_nat (length A).

Lemma seg_at_lt : forall A j s, seg_at A j s -> 0 <= j < len A.
Proof. intros A j s [H1 H2]. assert (Z.to_nat j < length A)%nat by (apply nth_error_Some; congruence). unfold len. lia. Qed.
Lemma seg_at_app : forall A j s x, seg_at A j s -> seg_at (A ++ x) j s.
Proof.
  intros A j s x H. pose proof (seg_at_lt _ _ _ H). destruct H as [H1 H2]. split; auto.
  rewrite nth_error_app1; auto. unfold len in *. lia.
Qed.
Lemma seg_at_app_inv : forall A j s x, seg_at (A ++ [x]) j s -> seg_at A j s \/ (j = len A /\ s = x).
Proof.
  intros A j s x H. pose proof (seg_at_lt _ _ _ H) as Hl. unfold len in Hl. rewrite app_length in Hl. cbn in Hl.
  destruct H as [H1 H2]. destruct (Z.eq_dec j (Z.of_nat (length A))) as [E|E].
  - right. split; auto. rewrite nth_error_app2 in H2 by lia. replace (Z.to_nat j - length A)%nat with 0%nat in H2 by lia.
    cbn in H2. congruence.
  - left. split; auto. rewrite nth_error_app1 in H2; auto. lia.
Qed.
Lemma seg_at_fun : forall A j s s', seg_at A j s -> seg_at A j s' -> s = s'.
Proof. intros A j s s' [_ H1] [_ H2]. congruence. Qed.
Lemma seg_at_ex : forall A j, 0 <= j < len A -> exists s, seg_at A j s.
Proof.
  intros A j Hj. unfold len in *. destruct (nth_error A (Z.to_nat j)) as [s|] eqn:E.
  - exists s. split; auto. lia.
  - apply nth_error_None in E. lia.
Qed.

Definition ring_inv (mem : Z -> Z) (A : list motion_segment) (d : Z) : Prop :=
  0 <= d /\ d <= len A <= d + 16 /\
  (forall j s, d <= j -> seg_at A j s -> holds mem (j mod 16) s) /\
  (forall j, len A <= j < d + 16 -> mem (slot_addr (j mod 16)) = STATE_EMPTY \/ mem (slot_addr (j mod 16)) = STATE_ABORT) /\
  Forall seg_ok A.

(** The host's position and, while it copies, what it has copied. *)
Definition pos_inv (A : list motion_segment) (pos : Z) : Prop := 0 <= pos <= 16 /\ pos mod 16 = len A mod 16.
Definition copy_inv (mem : Z -> Z) (A : list motion_segment) (d pos : Z) (s : motion_segment) (slot i : Z) : Prop :=
  seg_ok s /\ slot = len A mod 16 /\ pos = slot + 1 /\ len A < d + 16 /\ mem (slot_addr slot) = STATE_EMPTY /\
  0 <= i <= 54 /\ (forall k, 1 <= k < i -> mem (slot_addr slot + k) = byte_at (encode s) k).

Definition flushing (A : list motion_segment) (nabort : Z) (sd : bool) : Prop :=
  sd = true -> 0 < nabort \/ exists A', A = A' ++ [exit_element].
Definition wanted (s : motion_segment) (sd : bool) : Prop := seg_ok s /\ (sd = true -> s = exit_element).

Definition host_inv (mem : Z -> Z) (A : list motion_segment) (d nabort pos : Z) (h : host_pc) : Prop :=
  match h with
  | HIdle | HPend _ | HOff => pos_inv A pos
  | HEnq s sd | HEnq2 s sd | HEnqWait s sd => pos = len A mod 16 /\ wanted s sd
  | HClear sd => pos = len A mod 16 /\ mem (slot_addr pos) = STATE_ABORT
  | HCopy s slot i sd => copy_inv mem A d pos s slot i /\ wanted s sd
  | HFlip s slot sd => copy_inv mem A d pos s slot 54 /\ wanted s sd
  | HWait sd | HWait2 sd | HWaitWait sd => pos_inv A pos /\ flushing A nabort sd
  end.

Definition per_slot : Z := 196605.  (* 3 * 65535 *)

(** The firmware: registers, what it has loaded, what it has output so far for
    the segment it is working on ([partial]). *)
Definition pru_inv (A : list motion_segment) (d : Z) (p : pru_pc) (r2 r28 status : Z) (partial : list qevent) : Prop :=
  match p with
  | PHalt => (partial = [] \/ exists s post, seg_at A d s /\ seg_events s = partial ++ post)
  | _ =>
      r2 = slot_addr (d mod 16) /\ 0 <= r28 /\ byte3 r28 = d mod 16 /\
      (match p with
       | PRead | PLoad _ _ _ | PInit _ | PFinish =>
           low24 r28 <= per_slot * (d mod 16) /\
           (Forall full A -> low24 r28 = 0) /\ byte3 status = (if d =? 0 then 0 else (d - 1) mod 16)
       | _ => low24 r28 <= per_slot * (d mod 16 + 1) /\ byte3 status = d mod 16
       end) /\
      match p with
      | PRead => partial = []
      | PLoad st dir pp => exists s, seg_at A d s /\ ms_state s <> STATE_EXIT /\ st = ms_state s /\
          dir = ms_direction_bits s /\ (length pp <= 52)%nat /\
          (forall k, (k < length pp)%nat -> nth k pp 0 = byte_at (encode s) (2 + Z.of_nat k)) /\
          partial = [EvDirections (ms_direction_bits s)]
      | PInit s' => exists s, seg_at A d s /\ ms_state s <> STATE_EXIT /\ seg_eq s' s /\
          partial = [EvDirections (ms_direction_bits s); EvAux (ms_aux s)]
      | PStep fr ms t => exists s rest fuel c, seg_at A d s /\ ms_state s <> STATE_EXIT /\
          step_gen fuel fr ms t c = Some rest /\ seg_events s = partial ++ map pass_ev rest ++ [EvDone] /\
          status = r28 /\ Z.of_nat (length rest) <= low24 r28 + 1 /\
          (Forall full A -> low24 r28 = Z.of_nat (length rest) - 1)
      | PStore v => exists s, seg_at A d s /\
          (Forall full A -> low24 r28 = 0) /\
          ((v = STATE_EMPTY /\ seg_events s = partial ++ [EvDone]) \/
           (v = STATE_ABORT /\ exists post, post <> [] /\ seg_events s = partial ++ post))
      | PFinish => exists s, seg_at A d s /\ ms_state s = STATE_EXIT /\ partial = []
      | PHalt => True
      end
  end.

(** Slots marked as aborted. *)
Definition slots : list Z := [0; 1; 2; 3; 4; 5; 6; 7; 8; 9; 10; 11; 12; 13; 14; 15].
Definition aborted_slots (mem : Z -> Z) : Z :=
  Z.of_nat (length (filter (fun i => mem (slot_addr i) =? STATE_ABORT) slots)).

Record Inv (q : qsys) : Prop := {
  i_ring : ring_inv (q_mem q) (accepted (q_log q)) (completed (q_log q));
  i_host : host_inv (q_mem q) (accepted (q_log q)) (completed (q_log q)) (count is_aborted (q_log q)) (q_pos q) (q_host q);
  i_pru : exists runs partial,
      outputs (q_log q) = concat runs ++ partial /\
      Forall2 seg_run (firstn (Z.to_nat (completed (q_log q))) (accepted (q_log q))) runs /\
      pru_inv (accepted (q_log q)) (completed (q_log q)) (q_pru q) (q_r2 q) (q_r28 q) (q_status q) partial;
  i_abort : count is_aborted (q_log q) = count is_refused (q_log q) + aborted_slots (q_mem q)
}.

Lemma slot_addr_inj : forall i j k l, 0 <= k < 54 -> 0 <= l < 54 ->
  slot_addr i + k = slot_addr j + l -> i = j /\ k = l.
Proof. unfold slot_addr, QUEUE_OFFSET, ELEMENT_SIZE. intros. lia. Qed.

Lemma aborted_upd : forall mem i v, 0 <= i < 16 ->
  aborted_slots (upd mem (slot_addr i) v) =
  aborted_slots mem - (if mem (slot_addr i) =? STATE_ABORT then 1 else 0) + (if v =? STATE_ABORT then 1 else 0).
Proof.
  intros mem i v Hi. unfold aborted_slots.
  assert (G : forall l, NoDup l ->
    Z.of_nat (length (filter (fun x => upd mem (slot_addr i) v (slot_addr x) =? STATE_ABORT) l)) =
    Z.of_nat (length (filter (fun x => mem (slot_addr x) =? STATE_ABORT) l)) +
    (if in_dec Z.eq_dec i l then (if v =? STATE_ABORT then 1 else 0) - (if mem (slot_addr i) =? STATE_ABORT then 1 else 0) else 0)).
  { induction l as [|x l IH]; intros Hn; [reflexivity|]. inversion Hn; subst. specialize (IH H2). cbn [filter].
    destruct (Z.eq_dec x i) as [->|Hx].
    - rewrite upd_same. destruct (in_dec Z.eq_dec i (i :: l)) as [_|N]; [|exfalso; apply N; now left].
      destruct (in_dec Z.eq_dec i l) as [Y|_]; [contradiction|].
      destruct (v =? STATE_ABORT), (mem (slot_addr i) =? STATE_ABORT); cbn [length]; lia.
    - rewrite upd_other by (unfold slot_addr, QUEUE_OFFSET, ELEMENT_SIZE; lia).
      destruct (in_dec Z.eq_dec i (x :: l)) as [Y|N]; destruct (in_dec Z.eq_dec i l) as [Y'|N'].
      + destruct (mem (slot_addr x) =? STATE_ABORT); cbn [length]; lia.
      + destruct Y as [Y|Y]; [congruence|contradiction].
      + exfalso. apply N. now right.
      + destruct (mem (slot_addr x) =? STATE_ABORT); cbn [length]; lia. }
  rewrite G.
  - destruct (in_dec Z.eq_dec i slots) as [_|N]; [lia|]. exfalso. apply N. unfold slots. cbn. lia.
  - unfold slots. repeat constructor; cbn; lia.
Qed.

Lemma aborted_upd_off : forall mem i k v, 0 <= i < 16 -> 1 <= k < 54 ->
  aborted_slots (upd mem (slot_addr i + k) v) = aborted_slots mem.
Proof.
  intros mem i k v Hi Hk. unfold aborted_slots. do 2 f_equal. apply filter_ext. intros x.
  rewrite upd_other; auto. intros E. pose proof (slot_addr_inj x i 0 k ltac:(lia) ltac:(lia)). lia.
Qed.

(** A change to a slot that is not pending leaves the ring invariant alone. *)
Lemma ring_free_upd : forall mem A d k v, ring_inv mem A d -> len A < d + 16 -> 0 <= k < 54 ->
  (k = 0 -> v = STATE_EMPTY \/ v = STATE_ABORT) ->
  ring_inv (upd mem (slot_addr (len A mod 16) + k) v) A d.
Proof.
  intros mem A d k v (H1 & H2 & H3 & H4 & H5) Hl Hk Hv. split; auto. split; auto. split; [|split; auto].
  - intros j s Hj Hs. pose proof (seg_at_lt _ _ _ Hs). destruct (H3 j s Hj Hs) as [G1 G2].
    assert (Hne : j mod 16 <> len A mod 16) by dlia.
    split.
    + rewrite upd_other; auto. intros E. apply Hne. apply (slot_addr_inj _ _ 0 k); lia.
    + intros k' Hk'. rewrite upd_other; auto. intros E. apply Hne. eapply (slot_addr_inj _ _ k' k); try lia.
  - intros j Hj. destruct (Z.eq_dec (slot_addr (j mod 16)) (slot_addr (len A mod 16) + k)) as [E|E].
    + rewrite E, upd_same. apply Hv. pose proof (slot_addr_inj (j mod 16) (len A mod 16) 0 k). lia.
    + rewrite upd_other by auto. auto.
Qed.

Lemma ring_not_full : forall mem A d, ring_inv mem A d ->
  mem (slot_addr (len A mod 16)) = STATE_EMPTY \/ mem (slot_addr (len A mod 16)) = STATE_ABORT -> len A < d + 16.
Proof.
  intros mem A d (H1 & H2 & H3 & H4 & H5) Hm. destruct (Z.eq_dec (len A) (d + 16)) as [E|E]; [|lia]. exfalso.
  destruct (seg_at_ex A d ltac:(lia)) as [s Hs]. destruct (H3 d s ltac:(lia) Hs) as [G _].
  replace (d mod 16) with (len A mod 16) in G by dlia.
  rewrite Forall_forall in H5. assert (Hi : In s A) by (destruct Hs as [_ Hs]; eapply nth_error_In; eauto).
  destruct (H5 s Hi) as (S1 & S2 & _). unfold STATE_EMPTY, STATE_ABORT in *. lia.
Qed.

Lemma exit_ok : seg_ok exit_element.
Proof. unfold seg_ok, exit_element; cbn [ms_state ms_direction_bits ms_loops_accel ms_loops_travel ms_loops_decel ms_aux ms_accel_series_index ms_hires_accel_cycles ms_travel_delay_cycles ms_fractions]. unfold STATE_EXIT, STATE_ABORT. repeat split; intros; lia. Qed.

Lemma pru_inv_app : forall A d p r2 r28 st partial x, Forall full (A ++ [x]) \/ True ->
  pru_inv A d p r2 r28 st partial -> pru_inv (A ++ [x]) d p r2 r28 st partial.
Proof.
  intros A d p r2 r28 st partial x _ H.
  assert (Hf : Forall full (A ++ [x]) -> Forall full A) by (intros F; apply Forall_app in F; apply F).
  destruct p; cbn [pru_inv] in *.
  - destruct H as (H1 & H2 & H3 & (H4 & H5 & H6) & H7). repeat (split; auto).
  - destruct H as (H1 & H2 & H3 & (H4 & H5 & H6) & (s & S1 & S2)). repeat (split; auto). exists s. split; auto. now apply seg_at_app.
  - destruct H as (H1 & H2 & H3 & (H4 & H5 & H6) & (s0 & S1 & S2)). repeat (split; auto). exists s0. split; auto. now apply seg_at_app.
  - destruct H as (H1 & H2 & H3 & (H4 & H5) & (s & rest & fuel & c & S1 & S2 & S3 & S4 & S5 & S6 & S7)).
    split; auto. split; auto. split; auto. split; auto. exists s, rest, fuel, c.
    split; [now apply seg_at_app|]. auto 10.
  - destruct H as (H1 & H2 & H3 & (H4 & H5) & (s & S1 & S2 & S3)).
    split; auto. split; auto. split; auto. split; auto. exists s. split; [now apply seg_at_app|]. auto.
  - destruct H as (H1 & H2 & H3 & (H4 & H5 & H6) & (s & S1 & S2)). repeat (split; auto). exists s. split; auto. now apply seg_at_app.
  - destruct H as [H|(s & post & S1 & S2)]; auto. right. exists s, post. split; auto. now apply seg_at_app.
Qed.

Lemma ring_offset_last : forall A pos, pos_inv A pos -> ring_offset pos (-1) = (len A - 1) mod 16.
Proof.
  intros A pos [H1 H2]. unfold ring_offset, u32, QUEUE_LEN. rewrite (Z.mod_small (16 + pos + -1)) by lia. dlia.
Qed.

(** ** Host steps preserve the invariant *)
Lemma inv_log_neutral : forall l ev, (forall e, In e ev -> is_firmware e = false /\ is_refused e = false /\ (forall s, e <> EvAccepted s)) ->
  accepted (l ++ ev) = accepted l /\ completed (l ++ ev) = completed l /\ outputs (l ++ ev) = outputs l /\
  count is_aborted (l ++ ev) = count is_aborted l /\ count is_refused (l ++ ev) = count is_refused l.
Proof.
  intros l ev H.
  assert (E0 : accepted ev = []).
  { induction ev as [|e ev IH]; auto. destruct (H e (or_introl eq_refl)) as (_ & _ & N).
    destruct e; cbn [accepted]; try (apply IH; intros; apply H; now right). exfalso. now apply (N s). }
  assert (E1 : filter is_firmware ev = []).
  { clear -H. induction ev as [|e ev IH]; auto. cbn. destruct (H e (or_introl eq_refl)) as (-> & _). apply IH. intros; apply H; now right. }
  assert (E2 : filter is_refused ev = []).
  { clear -H. induction ev as [|e ev IH]; auto. cbn. destruct (H e (or_introl eq_refl)) as (_ & -> & _). apply IH. intros; apply H; now right. }
  assert (E3 : filter is_end ev = [] /\ filter is_aborted ev = []).
  { clear -H. induction ev as [|e ev IH]; auto. destruct (H e (or_introl eq_refl)) as (F & _ & _).
    destruct IH as [I1 I2]; [intros; apply H; now right|]. destruct e; cbn in *; try discriminate; auto. }
  destruct E3 as [E3 E4].
  rewrite accepted_app, outputs_app. unfold completed. rewrite !count_app.
  assert (C1 : count is_end ev = 0) by (unfold count; now rewrite E3).
  assert (C2 : count is_aborted ev = 0) by (unfold count; now rewrite E4).
  assert (C3 : count is_refused ev = 0) by (unfold count; now rewrite E2).
  unfold outputs. rewrite E0, E1, C1, C2, C3. rewrite !app_nil_r. repeat split; lia.
Qed.

Lemma inv_host : forall op q, match op with OpEnqueue s => seg_ok s | _ => True end -> Inv q -> Inv (host_step op q).
Proof.
  intros op q Hop [R Hh P Ab]. destruct P as (runs & partial & P1 & P2 & P3).
  pose proof R as R0. destruct R0 as (R1 & R2 & R3 & R4 & R5).
  unfold host_step. destruct (q_host q) as [|s sd|s sd|s sd|sd|s slot i sd|s slot sd|sd|sd|sd|st|] eqn:EH; cbn [host_inv] in Hh.
  - (* HIdle *)
    unfold host_start. destruct op as [s| | |[|]].
    + split; cbn [q_mem q_log q_pos q_host q_pru q_r2 q_r28 q_status]; auto; [|now exists runs, partial].
      cbn [host_inv]. destruct Hh as [_ Hh]. split; auto. split; auto. discriminate.
    + unfold with_host. rewrite app_nil_r. split; cbn [q_mem q_log q_pos q_host q_pru q_r2 q_r28 q_status]; auto; [|now exists runs, partial].
      cbn [host_inv]. split; auto. discriminate.
    + unfold with_host. rewrite app_nil_r. split; cbn [q_mem q_log q_pos q_host q_pru q_r2 q_r28 q_status]; auto. now exists runs, partial.
    + split; cbn [q_mem q_log q_pos q_host q_pru q_r2 q_r28 q_status]; auto; [|now exists runs, partial].
      cbn [host_inv]. destruct Hh as [_ Hh]. split; auto. split; auto. apply exit_ok.
    + destruct (inv_log_neutral (q_log q) [EvShutdown false]) as (L1 & L2 & L3 & L4 & L5).
      { intros e [<-|[]]. split; auto. split; auto. discriminate. }
      split; cbn [q_mem q_log q_pos q_host q_pru q_r2 q_r28 q_status]; rewrite ?L1, ?L2, ?L3, ?L4, ?L5; auto.
      exists runs, partial. split; auto. split; auto. cbn [pru_inv].
      destruct (q_pru q) eqn:EP; cbn [pru_inv] in P3.
      * left. apply P3.
      * right. destruct P3 as (_ & _ & _ & _ & (s & S1 & S2 & S3 & S4 & S5 & S6 & S7)).
        assert (Ho : seg_ok s) by (rewrite Forall_forall in R5; apply R5; destruct S1 as [_ S1]; eapply nth_error_In; eauto).
        destruct (seg_ok_execute s Ho) as (ls & E & _). exists s. unfold seg_events. rewrite E.
        destruct (Z.eqb_spec (ms_state s) STATE_EXIT); [contradiction|]. rewrite S7. eexists. split; [exact S1|reflexivity].
      * right. destruct P3 as (_ & _ & _ & _ & (s0 & S1 & S2 & S3 & S7)).
        assert (Ho : seg_ok s0) by (rewrite Forall_forall in R5; apply R5; destruct S1 as [_ S1]; eapply nth_error_In; eauto).
        destruct (seg_ok_execute s0 Ho) as (ls & E & _). exists s0. unfold seg_events. rewrite E.
        destruct (Z.eqb_spec (ms_state s0) STATE_EXIT); [contradiction|]. rewrite S7. eexists. split; [exact S1|reflexivity].
      * right. destruct P3 as (_ & _ & _ & _ & (s & rest & fuel & c & S1 & S2 & S3 & S4 & S5)). eauto.
      * right. destruct P3 as (_ & _ & _ & _ & (s & S1 & _ & [(S2 & S3)|(S2 & post & S3 & S4)])); eauto.
      * left. destruct P3 as (_ & _ & _ & _ & (s & S1 & S2 & S3)). auto.
      * exact P3.
  - (* HEnq *)
    destruct Hh as [Hp Hs]. destruct (Z.eqb_spec (q_mem q (slot_addr (q_pos q))) STATE_EMPTY) as [E|E].
    + split; cbn [q_mem q_log q_pos q_host q_pru q_r2 q_r28 q_status]; auto; [|now exists runs, partial].
      cbn [host_inv]. split; auto. unfold copy_inv. rewrite <- Hp.
      assert (len (accepted (q_log q)) < completed (q_log q) + 16).
      { eapply ring_not_full; eauto. left. rewrite <- Hp. auto. }
      split; [apply Hs|]. split; auto. split; auto. split; auto. split; auto. split; [lia|]. intros; lia.
    + unfold with_host. rewrite app_nil_r. split; cbn [q_mem q_log q_pos q_host q_pru q_r2 q_r28 q_status]; auto; [|now exists runs, partial].
      cbn [host_inv]. auto.
  - (* HEnq2 *)
    destruct Hh as [Hp Hs]. unfold with_host.
    destruct (Z.eqb_spec (q_mem q (slot_addr (q_pos q))) STATE_ABORT) as [E|E]; rewrite app_nil_r;
      split; cbn [q_mem q_log q_pos q_host q_pru q_r2 q_r28 q_status]; auto; try (now exists runs, partial); cbn [host_inv]; auto.
  - (* HEnqWait *)
    destruct Hh as [Hp Hs]. unfold with_host. rewrite app_nil_r.
    split; cbn [q_mem q_log q_pos q_host q_pru q_r2 q_r28 q_status]; auto; [|now exists runs, partial]. cbn [host_inv]. auto.
  - (* HClear *)
    destruct Hh as [Hp Hm].
    assert (L : accepted (q_log q ++ [EvRefused]) = accepted (q_log q) /\ completed (q_log q ++ [EvRefused]) = completed (q_log q) /\
      outputs (q_log q ++ [EvRefused]) = outputs (q_log q) /\ count is_aborted (q_log q ++ [EvRefused]) = count is_aborted (q_log q) /\
      count is_refused (q_log q ++ [EvRefused]) = count is_refused (q_log q) + 1).
    { rewrite accepted_app, outputs_app. unfold completed. rewrite !count_app. cbn [accepted outputs filter is_firmware]. rewrite !app_nil_r.
      change (count is_end [EvRefused]) with 0. change (count is_aborted [EvRefused]) with 0. change (count is_refused [EvRefused]) with 1. repeat split; lia. }
    destruct L as (L1 & L2 & L3 & L4 & L5).
    set (A := accepted (q_log q)) in *. set (d := completed (q_log q)) in *.
    assert (Hlt : len A < d + 16) by (eapply ring_not_full; eauto; right; rewrite <- Hp; auto).
    assert (Hbnd : 0 <= len A mod 16 < 16) by (apply Z.mod_pos_bound; lia).
    assert (Hnab : 0 < count is_aborted (q_log q)).
    { rewrite Ab. pose proof (count_nonneg is_refused (q_log q)).
      assert (1 <= aborted_slots (q_mem q)); [|lia].
      pose proof (aborted_upd (q_mem q) (q_pos q) STATE_EMPTY ltac:(lia)) as U. rewrite Hm in U. cbn in U.
      assert (0 <= aborted_slots (upd (q_mem q) (slot_addr (q_pos q)) STATE_EMPTY)) by (unfold aborted_slots; lia).
      unfold STATE_EMPTY in *. lia. }
    split; cbn [q_mem q_log q_pos q_host q_pru q_r2 q_r28 q_status]; rewrite ?L1, ?L2, ?L3, ?L4, ?L5.
    + rewrite Hp. replace (slot_addr (len A mod 16)) with (slot_addr (len A mod 16) + 0) by lia.
      apply ring_free_upd; auto. lia.
    + assert (Hpi : pos_inv A (q_pos q)) by (split; [lia|rewrite Hp; apply Z.mod_mod; lia]).
      destruct sd; cbn [host_inv]; auto. split; auto. intros _. now left.
    + exists runs, partial. auto.
    + rewrite aborted_upd by lia. rewrite Hm. cbn. lia.
  - (* HCopy *)
    destruct Hh as [(C1 & C2 & C3 & C4 & C5 & C6 & C7) Hs].
    assert (Hbnd : 0 <= len (accepted (q_log q)) mod 16 < 16) by (apply Z.mod_pos_bound; lia).
    unfold ELEMENT_SIZE. destruct (Z.ltb_spec i 54) as [Hi|Hi].
    + split; cbn [q_mem q_log q_pos q_host q_pru q_r2 q_r28 q_status].
      * rewrite C2. apply ring_free_upd; auto; [lia|]. intros ->. left. reflexivity.
      * cbn [host_inv]. split; auto. unfold copy_inv. split; auto. split; auto. split; auto. split; auto.
        split; [|split; [lia|]].
        -- destruct (Z.eq_dec i 0) as [->|Hne].
           ++ replace (slot_addr slot + 0) with (slot_addr slot) by lia. now rewrite upd_same.
           ++ rewrite upd_other by lia. auto.
        -- intros k Hk. destruct (Z.eq_dec k i) as [->|Hne].
           ++ rewrite upd_same. destruct (Z.eqb_spec i 0); [lia|auto].
           ++ rewrite upd_other by lia. apply C7. lia.
      * exists runs, partial. auto.
      * destruct (Z.eq_dec i 0) as [->|Hne].
        -- replace (slot_addr slot + 0) with (slot_addr slot) by lia. rewrite aborted_upd by lia. rewrite C5. cbn. lia.
        -- rewrite aborted_upd_off by lia. auto.
    + unfold with_host. rewrite app_nil_r. split; cbn [q_mem q_log q_pos q_host q_pru q_r2 q_r28 q_status]; auto; [|now exists runs, partial].
      cbn [host_inv]. split; auto. unfold copy_inv. assert (i = 54) by lia. subst i. auto 10.
  - (* HFlip *)
    destruct Hh as [(C1 & C2 & C3 & C4 & C5 & C6 & C7) Hs].
    set (A := accepted (q_log q)) in *. set (d := completed (q_log q)) in *.
    assert (Hbnd : 0 <= len A mod 16 < 16) by (apply Z.mod_pos_bound; lia).
    assert (L1 : accepted (q_log q ++ [EvAccepted s]) = A ++ [s]) by (now rewrite accepted_app).
    assert (L : completed (q_log q ++ [EvAccepted s]) = d /\ outputs (q_log q ++ [EvAccepted s]) = outputs (q_log q) /\
      count is_aborted (q_log q ++ [EvAccepted s]) = count is_aborted (q_log q) /\ count is_refused (q_log q ++ [EvAccepted s]) = count is_refused (q_log q)).
    { unfold d. rewrite outputs_app. unfold completed. rewrite !count_app. cbn [outputs filter is_firmware]. rewrite app_nil_r.
      change (count is_end [EvAccepted s]) with 0. change (count is_aborted [EvAccepted s]) with 0. change (count is_refused [EvAccepted s]) with 0. repeat split; lia. }
    destruct L as (L2 & L3 & L4 & L5).
    assert (Hlen : len (A ++ [s]) = len A + 1) by (unfold len; rewrite app_length; cbn; lia).
    split; cbn [q_mem q_log q_pos q_host q_pru q_r2 q_r28 q_status]; rewrite ?L1, ?L2, ?L3, ?L4, ?L5.
    + split; auto. rewrite Hlen. split; [lia|]. split; [|split].
      * intros j s' Hj Hs'. destruct (seg_at_app_inv _ _ _ _ Hs') as [Ha|[-> ->]].
        -- pose proof (seg_at_lt _ _ _ Ha). destruct (R3 j s' Hj Ha) as [G1 G2].
           assert (Hne : j mod 16 <> slot) by dlia. split.
           ++ rewrite upd_other; auto. unfold slot_addr, QUEUE_OFFSET, ELEMENT_SIZE. lia.
           ++ intros k Hk. rewrite upd_other; auto. intros E. apply Hne.
              apply (slot_addr_inj _ _ k 0); lia.
        -- rewrite <- C2. split; [now rewrite upd_same|]. intros k Hk. rewrite upd_other by lia. apply C7. lia.
      * intros j Hj. rewrite upd_other; [apply R4; lia|].
        intros E. assert (j mod 16 = slot) by (unfold slot_addr, QUEUE_OFFSET, ELEMENT_SIZE in E; lia). dlia.
      * apply Forall_app. auto.
    + assert (Hpi : pos_inv (A ++ [s]) (q_pos q)) by (split; [lia|rewrite Hlen; dlia]).
      destruct sd; cbn [host_inv]; auto. split; auto. intros _. right. exists A. f_equal. destruct Hs as [_ Hs]. now rewrite Hs.
    + exists runs, partial. split; auto. split.
      * rewrite firstn_app. unfold len in R2. replace (Z.to_nat d - length A)%nat with 0%nat by lia. cbn [firstn]. now rewrite app_nil_r.
      * apply pru_inv_app; auto.
    + rewrite aborted_upd by lia. rewrite C5. destruct Hs as [(S1 & S2 & _) _]. cbn [Z.eqb STATE_EMPTY STATE_ABORT].
      destruct (Z.eqb_spec (ms_state s) STATE_ABORT); [contradiction|]. unfold STATE_EMPTY. lia.
  - (* HWait *)
    destruct Hh as [Hp Hf].
    destruct (q_mem q (slot_addr (ring_offset (q_pos q) (-1))) =? STATE_EMPTY).
    + destruct sd.
      * destruct (inv_log_neutral (q_log q) [EvEmpty; EvShutdown true]) as (L1 & L2 & L3 & L4 & L5).
        { intros e [<-|[<-|[]]]; (split; auto; split; auto; discriminate). }
        split; cbn [q_mem q_log q_pos q_host q_pru q_r2 q_r28 q_status]; rewrite ?L1, ?L2, ?L3, ?L4, ?L5; auto.
        exists runs, partial. split; auto. split; auto. cbn [pru_inv].
        destruct (q_pru q) eqn:EP; cbn [pru_inv] in P3.
        -- left. apply P3.
        -- right. destruct P3 as (_ & _ & _ & _ & (s & S1 & S2 & S3 & S4 & S5 & S6 & S7)).
           assert (Ho : seg_ok s) by (rewrite Forall_forall in R5; apply R5; destruct S1 as [_ S1]; eapply nth_error_In; eauto).
           destruct (seg_ok_execute s Ho) as (ls & E & _). exists s. unfold seg_events. rewrite E.
           destruct (Z.eqb_spec (ms_state s) STATE_EXIT); [contradiction|]. rewrite S7. eexists. split; [exact S1|reflexivity].
        -- right. destruct P3 as (_ & _ & _ & _ & (s0 & S1 & S2 & S3 & S7)).
           assert (Ho : seg_ok s0) by (rewrite Forall_forall in R5; apply R5; destruct S1 as [_ S1]; eapply nth_error_In; eauto).
           destruct (seg_ok_execute s0 Ho) as (ls & E & _). exists s0. unfold seg_events. rewrite E.
           destruct (Z.eqb_spec (ms_state s0) STATE_EXIT); [contradiction|]. rewrite S7. eexists. split; [exact S1|reflexivity].
        -- right. destruct P3 as (_ & _ & _ & _ & (s & rest & fuel & c & S1 & S2 & S3 & S4 & S5)). eauto.
        -- right. destruct P3 as (_ & _ & _ & _ & (s & S1 & _ & [(S2 & S3)|(S2 & post & S3 & S4)])); eauto.
        -- left. destruct P3 as (_ & _ & _ & _ & (s & S1 & S2 & S3)). auto.
        -- exact P3.
      * destruct (inv_log_neutral (q_log q) [EvEmpty]) as (L1 & L2 & L3 & L4 & L5).
        { intros e [<-|[]]; (split; auto; split; auto; discriminate). }
        unfold with_host. split; cbn [q_mem q_log q_pos q_host q_pru q_r2 q_r28 q_status]; rewrite ?L1, ?L2, ?L3, ?L4, ?L5; auto. now exists runs, partial.
    + unfold with_host. rewrite app_nil_r. split; cbn [q_mem q_log q_pos q_host q_pru q_r2 q_r28 q_status]; auto; [|now exists runs, partial]. cbn [host_inv]; auto.
  - (* HWait2 *)
    destruct Hh as [Hp Hf].
    destruct (q_mem q (slot_addr (ring_offset (q_pos q) (-1))) =? STATE_ABORT).
    + destruct sd.
      * destruct (inv_log_neutral (q_log q) [EvEmpty; EvShutdown true]) as (L1 & L2 & L3 & L4 & L5).
        { intros e [<-|[<-|[]]]; (split; auto; split; auto; discriminate). }
        split; cbn [q_mem q_log q_pos q_host q_pru q_r2 q_r28 q_status]; rewrite ?L1, ?L2, ?L3, ?L4, ?L5; auto.
        exists runs, partial. split; auto. split; auto. cbn [pru_inv].
        destruct (q_pru q) eqn:EP; cbn [pru_inv] in P3.
        -- left. apply P3.
        -- right. destruct P3 as (_ & _ & _ & _ & (s & S1 & S2 & S3 & S4 & S5 & S6 & S7)).
           assert (Ho : seg_ok s) by (rewrite Forall_forall in R5; apply R5; destruct S1 as [_ S1]; eapply nth_error_In; eauto).
           destruct (seg_ok_execute s Ho) as (ls & E & _). exists s. unfold seg_events. rewrite E.
           destruct (Z.eqb_spec (ms_state s) STATE_EXIT); [contradiction|]. rewrite S7. eexists. split; [exact S1|reflexivity].
        -- right. destruct P3 as (_ & _ & _ & _ & (s0 & S1 & S2 & S3 & S7)).
           assert (Ho : seg_ok s0) by (rewrite Forall_forall in R5; apply R5; destruct S1 as [_ S1]; eapply nth_error_In; eauto).
           destruct (seg_ok_execute s0 Ho) as (ls & E & _). exists s0. unfold seg_events. rewrite E.
           destruct (Z.eqb_spec (ms_state s0) STATE_EXIT); [contradiction|]. rewrite S7. eexists. split; [exact S1|reflexivity].
        -- right. destruct P3 as (_ & _ & _ & _ & (s & rest & fuel & c & S1 & S2 & S3 & S4 & S5)). eauto.
        -- right. destruct P3 as (_ & _ & _ & _ & (s & S1 & _ & [(S2 & S3)|(S2 & post & S3 & S4)])); eauto.
        -- left. destruct P3 as (_ & _ & _ & _ & (s & S1 & S2 & S3)). auto.
        -- exact P3.
      * destruct (inv_log_neutral (q_log q) [EvEmpty]) as (L1 & L2 & L3 & L4 & L5).
        { intros e [<-|[]]; (split; auto; split; auto; discriminate). }
        unfold with_host. split; cbn [q_mem q_log q_pos q_host q_pru q_r2 q_r28 q_status]; rewrite ?L1, ?L2, ?L3, ?L4, ?L5; auto. now exists runs, partial.
    + unfold with_host. rewrite app_nil_r. split; cbn [q_mem q_log q_pos q_host q_pru q_r2 q_r28 q_status]; auto; [|now exists runs, partial]. cbn [host_inv]; auto.
  - (* HWaitWait *)
    destruct Hh as [Hp Hf]. unfold with_host. rewrite app_nil_r.
    split; cbn [q_mem q_log q_pos q_host q_pru q_r2 q_r28 q_status]; auto; [|now exists runs, partial]. cbn [host_inv]; auto.
  - (* HPend *)
    match goal with |- Inv (with_host q HIdle [EvPending ?n ?c]) => destruct (inv_log_neutral (q_log q) [EvPending n c]) as (L1 & L2 & L3 & L4 & L5) end.
    { intros e [<-|[]]; (split; auto; split; auto; discriminate). }
    unfold with_host. split; cbn [q_mem q_log q_pos q_host q_pru q_r2 q_r28 q_status]; rewrite ?L1, ?L2, ?L3, ?L4, ?L5; auto. now exists runs, partial.
  - (* HOff *)
    split; auto; [now rewrite EH|now exists runs, partial].
Qed.

(** ** Firmware steps preserve the invariant *)
Lemma log_firmware : forall l e, is_firmware e = true ->
  accepted (l ++ [e]) = accepted l /\ outputs (l ++ [e]) = outputs l ++ [e] /\
  completed (l ++ [e]) = completed l + (if is_end e then 1 else 0) /\
  count is_aborted (l ++ [e]) = count is_aborted l + (if is_aborted e then 1 else 0) /\
  count is_refused (l ++ [e]) = count is_refused l.
Proof.
  intros l e H. rewrite accepted_app, outputs_app. unfold completed. rewrite !count_app.
  destruct e; try discriminate; cbn [accepted]; rewrite app_nil_r; repeat split; unfold count; cbn; lia.
Qed.

Lemma step_gen_nonempty : forall fuel fr ms t c rest, step_gen fuel fr ms t c = Some rest -> (1 <= length rest)%nat.
Proof.
  intros [|fuel] fr ms t c rest E; [discriminate|]. cbn [step_gen] in E. destruct (calculate_delay t) as [delay t'].
  destruct (delay =? 0); [inversion E; cbn; lia|].
  destruct (step_gen fuel fr _ t' (c - 1)); [|discriminate]. inversion E. cbn. lia.
Qed.

Lemma host_inv_complete : forall mem A d na na' pos h v, ring_inv mem A d -> d < len A -> na <= na' ->
  host_inv mem A d na pos h -> host_inv (upd mem (slot_addr (d mod 16)) v) A (d + 1) na' pos h.
Proof.
  intros mem A d na na' pos h v R Hd Hna H. pose proof R as R0. destruct R0 as (R1 & R2 & R3 & R4 & R5).
  assert (Hoth : len A < d + 16 -> slot_addr (len A mod 16) <> slot_addr (d mod 16)).
  { intros Hl E. assert (len A mod 16 = d mod 16) by (unfold slot_addr, QUEUE_OFFSET, ELEMENT_SIZE in E; lia). dlia. }
  assert (Hcopy : forall s slot i, copy_inv mem A d pos s slot i -> copy_inv (upd mem (slot_addr (d mod 16)) v) A (d + 1) pos s slot i).
  { intros s slot i (C1 & C2 & C3 & C4 & C5 & C6 & C7). unfold copy_inv. subst slot. specialize (Hoth C4).
    split; auto. split; auto. split; auto. split; [lia|]. split; [rewrite upd_other; auto|]. split; auto.
    intros k Hk. rewrite upd_other; auto. intros E. apply Hoth.
    destruct (slot_addr_inj (len A mod 16) (d mod 16) k 0); lia. }
  assert (Hfl : forall sd, flushing A na sd -> flushing A na' sd).
  { intros sd F Hs. destruct (F Hs) as [G|G]; auto. left. lia. }
  destruct h; cbn [host_inv] in *; auto.
  - destruct H as [H1 H2]. split; auto. rewrite upd_other; auto. subst pos.
    apply Hoth. eapply ring_not_full; eauto.
  - destruct H. auto.
  - destruct H. auto.
  - destruct H. auto.
  - destruct H. auto.
  - destruct H. auto.
Qed.

Lemma ring_complete : forall mem A d v, ring_inv mem A d -> d < len A -> v = STATE_EMPTY \/ v = STATE_ABORT ->
  ring_inv (upd mem (slot_addr (d mod 16)) v) A (d + 1).
Proof.
  intros mem A d v (R1 & R2 & R3 & R4 & R5) Hd Hv. split; [lia|]. split; [lia|]. split; [|split; auto].
  - intros j s Hj Hs. pose proof (seg_at_lt _ _ _ Hs). destruct (R3 j s ltac:(lia) Hs) as [G1 G2].
    assert (Hne : j mod 16 <> d mod 16) by dlia. split.
    + rewrite upd_other; auto. unfold slot_addr, QUEUE_OFFSET, ELEMENT_SIZE. lia.
    + intros k Hk. rewrite upd_other; auto. intros E. apply Hne. apply (slot_addr_inj _ _ k 0); lia.
  - intros j Hj. destruct (Z.eq_dec j (d + 16)) as [->|Hne].
    + replace ((d + 16) mod 16) with (d mod 16) by dlia. rewrite upd_same. auto.
    + rewrite upd_other; [apply R4; lia|]. intros E.
      assert (j mod 16 = d mod 16) by (unfold slot_addr, QUEUE_OFFSET, ELEMENT_SIZE in E; lia). dlia.
Qed.

Lemma firstn_next : forall A d s, seg_at A d s ->
  firstn (Z.to_nat (d + 1)) A = firstn (Z.to_nat d) A ++ [s].
Proof.
  intros A d s [H1 H2]. replace (Z.to_nat (d + 1)) with (S (Z.to_nat d)) by lia.
  revert A H2. generalize (Z.to_nat d) as n. induction n as [|n IH]; intros [|a A] E; try discriminate; cbn in *.
  - congruence.
  - f_equal. now apply IH.
Qed.

Lemma word_parts : forall x b l, 0 <= l < 2 ^ 24 -> x = 2 ^ 24 * b + l -> byte3 x = b /\ low24 x = l.
Proof. intros x b l Hl ->. unfold byte3, low24. change (2 ^ 24) with 16777216 in *. split; dlia. Qed.
Lemma word_split : forall x, x = 2 ^ 24 * byte3 x + low24 x /\ 0 <= low24 x < 2 ^ 24.
Proof. intros x. unfold byte3, low24. change (2 ^ 24) with 16777216 in *. split; dlia. Qed.

Lemma inv_pru : forall e q, Inv q -> Inv (pru_step e q).
Proof.
  intros e q [R Hh P Ab]. destruct P as (runs & partial & P1 & P2 & P3).
  pose proof R as R0. destruct R0 as (R1 & R2 & R3 & R4 & R5).
  assert (Hok : forall j s, seg_at (accepted (q_log q)) j s -> seg_ok s).
  { intros j s [_ Hs]. rewrite Forall_forall in R5. apply R5. eapply nth_error_In; eauto. }
  set (A := accepted (q_log q)) in *. set (d := completed (q_log q)) in *.
  assert (Hbnd : 0 <= d mod 16 < 16) by (apply Z.mod_pos_bound; lia).
  unfold pru_step. destruct (q_pru q) as [|st dir pp|s'|fr ms t|v| |] eqn:EP; cbn [pru_inv] in P3.
  - (* PRead *)
    destruct P3 as (I1 & I2 & I3 & I4 & I5). rewrite I1.
    destruct (Z.eqb_spec (q_mem q (slot_addr (d mod 16))) STATE_EMPTY) as [E0|E0].
    { split; auto. exists runs, partial. split; auto. split; auto. rewrite EP. cbn [pru_inv]. auto. }
    destruct (Z.eqb_spec (q_mem q (slot_addr (d mod 16))) STATE_ABORT) as [E1|E1].
    { split; auto. exists runs, partial. split; auto. split; auto. rewrite EP. cbn [pru_inv]. auto. }
    assert (Hd : d < len A).
    { destruct (Z.eq_dec d (len A)) as [E|E]; [|lia]. destruct (R4 d) as [G|G]; [lia|contradiction|contradiction]. }
    destruct (seg_at_ex A d ltac:(lia)) as [s Hs]. destruct (R3 d s ltac:(lia) Hs) as [G1 G2].
    destruct (Z.eqb_spec (q_mem q (slot_addr (d mod 16))) STATE_EXIT) as [E2|E2].
    + unfold with_pru. rewrite app_nil_r. split; cbn [q_mem q_log q_pos q_host q_pru q_r2 q_r28 q_status]; auto.
      exists runs, partial. fold A d. split; auto. split; auto. cbn [pru_inv].
      split; auto. split; auto. split; auto. split; auto. exists s. split; auto. split; [congruence|]. auto.
    + unfold with_pru. destruct (log_firmware (q_log q) (EvDirections (q_mem q (slot_addr (d mod 16) + 1))) eq_refl) as (L1 & L2 & L3 & L4 & L5).
      cbn [is_end is_aborted] in L3, L4. rewrite Z.add_0_r in L3, L4.
      split; cbn [q_mem q_log q_pos q_host q_pru q_r2 q_r28 q_status]; rewrite ?L1, ?L2, ?L3, ?L4, ?L5; fold A d; auto.
      exists runs, (partial ++ [EvDirections (q_mem q (slot_addr (d mod 16) + 1))]). rewrite P1, <- app_assoc. split; auto. split; auto.
      cbn [pru_inv]. split; auto. split; auto. split; auto. split; auto. exists s. split; auto.
      assert (Hdir : q_mem q (slot_addr (d mod 16) + 1) = ms_direction_bits s).
      { rewrite (G2 1) by lia. cbn. apply Z.mod_small. pose proof (Hok _ _ Hs) as K. apply K. }
      split; [congruence|]. split; auto. split; auto. split; [cbn; lia|]. split; [cbn; intros; lia|]. subst partial. cbn. now rewrite Hdir.
  - (* PLoad *)
    destruct P3 as (I1 & I2 & I3 & I4 & (s & S1 & S2 & S3 & S4 & S5 & S6 & S7)).
    pose proof (seg_at_lt _ _ _ S1) as Hd. destruct (R3 d s ltac:(lia) S1) as [G1 G2].
    unfold ELEMENT_SIZE, HEADER_SIZE. destruct (Z.ltb_spec (Z.of_nat (length pp)) (54 - 2)) as [Hl|Hl].
    + unfold with_pru. rewrite app_nil_r. split; cbn [q_mem q_log q_pos q_host q_pru q_r2 q_r28 q_status]; auto.
      exists runs, partial. fold A d. split; auto. split; auto. cbn [pru_inv].
      split; auto. split; auto. split; auto. split; auto. exists s. split; auto. split; auto. split; auto. split; auto.
      split; [rewrite app_length; cbn; lia|]. split; auto.
      intros k Hk. rewrite app_length in Hk. cbn in Hk. destruct (Nat.eq_dec k (length pp)) as [->|Hne].
      * rewrite app_nth2, Nat.sub_diag by lia. cbn [nth]. rewrite I1.
        replace (slot_addr (d mod 16) + 2 + Z.of_nat (length pp)) with (slot_addr (d mod 16) + (2 + Z.of_nat (length pp))) by lia.
        apply G2. lia.
      * rewrite app_nth1 by lia. apply S6. lia.
    + assert (Hpp : pp = skipn 2 (encode s)).
      { apply (nth_ext _ _ 0 0).
        - rewrite skipn_length, encode_length. lia.
        - intros k Hk. rewrite S6 by auto. unfold byte_at. replace (Z.to_nat (2 + Z.of_nat k)) with (2 + k)%nat by lia.
          rewrite <- (firstn_skipn 2 (encode s)) at 1. rewrite app_nth2; [|rewrite firstn_length, encode_length; lia].
          rewrite firstn_length, encode_length. f_equal. lia. }
      subst st dir. pose proof (decode_encode s (Hok _ _ S1)) as De. rewrite <- Hpp in De.
      assert (Haux : ms_aux (decode (ms_state s) (ms_direction_bits s) pp) = ms_aux s) by apply De.
      rewrite Haux. unfold with_pru.
      destruct (log_firmware (q_log q) (EvAux (ms_aux s)) eq_refl) as (L1 & L2 & L3 & L4 & L5).
      cbn [is_end is_aborted] in L3, L4. rewrite Z.add_0_r in L3, L4.
      split; cbn [q_mem q_log q_pos q_host q_pru q_r2 q_r28 q_status]; rewrite ?L1, ?L2, ?L3, ?L4, ?L5; fold A d; auto.
      exists runs, (partial ++ [EvAux (ms_aux s)]). rewrite P1, <- app_assoc. split; auto. split; auto.
      cbn [pru_inv]. split; auto. split; auto. split; auto. split; auto. exists s. split; auto. split; auto. split; auto. now rewrite S7.
  - (* PInit *)
    destruct P3 as (I1 & I2 & I3 & (I4 & I5 & I6) & (s & S1 & S2 & S3 & S4)).
    destruct (travel_of_eq _ _ S3) as [T1 T2]. pose proof (Hok _ _ S1) as Hs.
    destruct (seg_ok_execute s Hs) as (ls & E & El & El').
    assert (Hrest : exists rest, pru_execute s' = Some rest /\ map pass_ev rest = map pass_ev ls).
    { unfold pru_execute in *. rewrite T2, T1.
      pose proof (step_gen_ext (Z.to_nat (total_loops s + 1)) (ms_fractions s') (ms_fractions s) (fun _ => 0) (fun _ => 0) (travel_of s) (total_loops s) (total_loops s)) as X.
      rewrite E in X. specialize (X ltac:(intros; apply S3) ltac:(auto)).
      destruct (step_gen (Z.to_nat (total_loops s + 1)) (ms_fractions s') (fun _ => 0) (travel_of s) (total_loops s)) as [r|]; [|contradiction].
      exists r. auto. }
    destruct Hrest as (rest & Er & Em).
    assert (Hlen : length rest = length ls) by (rewrite <- (map_length pass_ev rest), Em, map_length; auto).
    assert (Htl : 0 <= total_loops s <= per_slot).
    { destruct Hs as (_ & _ & _ & A1 & A2 & A3 & _). unfold total_loops, per_slot. lia. }
    destruct (word_split (q_r28 q)) as [W1 W2]. rewrite I3 in W1.
    assert (Hsmall : low24 (q_r28 q) + total_loops s < 2 ^ 24) by (unfold per_slot in *; change (2 ^ 24) with 16777216; lia).
    assert (Hu : u32 (q_r28 q + total_loops s') = 2 ^ 24 * (d mod 16) + (low24 (q_r28 q) + total_loops s)).
    { rewrite T2, W1 at 1. unfold u32. rewrite Z.mod_small; [lia|].
      change (2 ^ 32) with 4294967296. change (2 ^ 24) with 16777216 in *. lia. }
    destruct (word_parts _ (d mod 16) (low24 (q_r28 q) + total_loops s) ltac:(lia) Hu) as [B1 B2].
    split; cbn [q_mem q_log q_pos q_host q_pru q_r2 q_r28 q_status]; auto.
    exists runs, partial. fold A d. split; auto. split; auto. cbn [pru_inv].
    split; auto. split; [rewrite Hu; change (2 ^ 24) with 16777216 in *; lia|]. split; auto. split; [split; [rewrite B2; lia|auto]|].
    exists s, rest, (Z.to_nat (total_loops s' + 1)), (total_loops s'). split; auto. split; auto. split; [exact Er|].
    split; [|split; auto; split].
    + unfold seg_events. destruct (Z.eqb_spec (ms_state s) STATE_EXIT); [contradiction|]. rewrite E, S4.
      fold pass_ev. change (map (fun l => EvPass (map (pl_pins l) all_motors) (pl_delay l)) ls) with (map pass_ev ls). now rewrite Em.
    + rewrite B2, Hlen. lia.
    + intros F. rewrite B2, (I5 F), Hlen.
      rewrite Forall_forall in F. destruct (F s) as [X|(ls' & X1 & X2)]; [destruct S1 as [_ S1]; eapply nth_error_In; eauto|contradiction|].
      rewrite E in X1. inversion X1; subst. lia.
  - (* PStep *)
    destruct P3 as (I1 & I2 & I3 & (I4 & I6) & (s & rest & fuel & c & S1 & S2 & S3 & S4 & S5 & S6 & S7)).
    destruct (word_split (q_r28 q)) as [W1 W2]. rewrite I3 in W1.
    destruct e.
    + assert (Hw : 2 ^ 24 * byte3 (q_r28 q) = 2 ^ 24 * (d mod 16) + 0) by (rewrite I3; lia).
      destruct (word_parts _ (d mod 16) 0 ltac:(lia) Hw) as [B1 B2].
      split; cbn [q_mem q_log q_pos q_host q_pru q_r2 q_r28 q_status]; auto.
      exists runs, partial. fold A d. split; auto. split; auto. cbn [pru_inv].
      split; auto. split; [rewrite Hw; change (2 ^ 24) with 16777216; lia|]. split; auto. split; [split; auto; rewrite B2; unfold per_slot; lia|].
      exists s. split; auto. split; auto. right. split; auto. exists (map pass_ev rest ++ [EvDone]). split; auto.
      destruct (map pass_ev rest); discriminate.
    + destruct fuel as [|fuel]; [discriminate|]. cbn [step_gen] in S3.
      destruct (calculate_delay t) as [delay t'].
      destruct (Z.eqb_spec delay 0) as [Ed|Ed].
      * inversion S3; subst rest. cbn [map app] in S4.
        set (ev := EvPass (map (step_pins (fun m => u32 (ms m + fr m))) all_motors) 0).
        unfold with_pru. destruct (log_firmware (q_log q) ev eq_refl) as (L1 & L2 & L3 & L4 & L5).
        cbn [is_end is_aborted ev] in L3, L4. rewrite Z.add_0_r in L3, L4. fold ev in L3, L4.
        split; cbn [q_mem q_log q_pos q_host q_pru q_r2 q_r28 q_status]; fold ev; rewrite ?L1, ?L2, ?L3, ?L4, ?L5; fold A d; auto.
        exists runs, (partial ++ [ev]). rewrite P1, <- app_assoc. split; auto. split; auto.
        cbn [pru_inv]. split; auto. split; auto. split; auto. split; auto. exists s. split; auto.
        split; [intros F; rewrite (S7 F); cbn; lia|]. left. split; auto. rewrite S4, <- app_assoc. reflexivity.
      * destruct (step_gen fuel fr (fun m => u32 (ms m + fr m)) t' (c - 1)) as [rest'|] eqn:Er; [|discriminate].
        inversion S3; subst rest. clear S3. cbn [map app length] in *.
        pose proof (step_gen_nonempty _ _ _ _ _ _ Er) as Hne.
        set (dl := if u32 (delay - 4 / 2) =? 0 then 2 ^ 32 else u32 (delay - 4 / 2)) in *.
        set (ev := EvPass (map (step_pins (fun m => u32 (ms m + fr m))) all_motors) dl).
        destruct (log_firmware (q_log q) ev eq_refl) as (L1 & L2 & L3 & L4 & L5).
        cbn [is_end is_aborted ev] in L3, L4. rewrite Z.add_0_r in L3, L4. fold ev in L3, L4.
        assert (Hu : u32 (q_r28 q - 1) = 2 ^ 24 * (d mod 16) + (low24 (q_r28 q) - 1)).
        { rewrite W1 at 1. unfold u32. rewrite Z.mod_small; [lia|].
          change (2 ^ 32) with 4294967296. change (2 ^ 24) with 16777216 in *. lia. }
        destruct (word_parts _ (d mod 16) (low24 (q_r28 q) - 1) ltac:(lia) Hu) as [B1 B2].
        split; cbn [q_mem q_log q_pos q_host q_pru q_r2 q_r28 q_status]; fold ev; rewrite ?L1, ?L2, ?L3, ?L4, ?L5; fold A d; auto.
        exists runs, (partial ++ [ev]). rewrite P1, <- app_assoc. split; auto. split; auto.
        cbn [pru_inv]. split; auto. split; [rewrite Hu; change (2 ^ 24) with 16777216 in *; lia|]. split; auto.
        split; [split; auto; rewrite B2; lia|].
        exists s, rest', fuel, (c - 1). split; auto. split; auto. split; auto.
        split; [rewrite S4, <- app_assoc; reflexivity|]. split; auto. split; [rewrite B2; lia|].
        intros F. rewrite B2, (S7 F). lia.
  - (* PStore *)
    destruct P3 as (I1 & I2 & I3 & (I4 & I6) & (s & S1 & Sf & S2)).
    pose proof (seg_at_lt _ _ _ S1) as Hd. destruct (R3 d s ltac:(lia) S1) as [G1 G2].
    pose proof (Hok _ _ S1) as Hs.
    set (ev := if v =? STATE_EMPTY then EvDone else EvAborted).
    assert (Hev : is_firmware ev = true /\ is_end ev = true) by (unfold ev; destruct (v =? STATE_EMPTY); auto).
    destruct Hev as [Hev1 Hev2].
    destruct (log_firmware (q_log q) ev Hev1) as (L1 & L2 & L3 & L4 & L5). rewrite Hev2 in L3.
    assert (Hv : v = STATE_EMPTY \/ v = STATE_ABORT) by (destruct S2 as [[? _]|[? _]]; auto).
    rewrite I1. split; cbn [q_mem q_log q_pos q_host q_pru q_r2 q_r28 q_status]; fold ev; rewrite ?L1, ?L2, ?L3, ?L5; fold A d.
    + apply ring_complete; auto. lia.
    + apply host_inv_complete with (na := count is_aborted (q_log q)); auto; [lia|]. rewrite L4. destruct (is_aborted ev); lia.
    + exists (runs ++ [partial ++ [ev]]), []. rewrite P1. split; [|split].
      * rewrite concat_app. cbn [concat]. rewrite !app_nil_r, <- app_assoc. reflexivity.
      * rewrite (firstn_next _ _ _ S1). apply Forall2_app; auto. constructor; [|constructor].
        destruct S2 as [[-> S2]|(-> & post & S2 & S3)].
        -- left. unfold ev. cbn. congruence.
        -- right. exists partial, post. split; auto.
      * cbn [pru_inv]. destruct (word_split (q_r28 q)) as [W1 W2].
        assert (Hwrap : negb (slot_addr (d mod 16) + ELEMENT_SIZE <? QUEUE_LEN * ELEMENT_SIZE) = (d mod 16 =? 15)).
        { unfold slot_addr, ELEMENT_SIZE, QUEUE_LEN, QUEUE_OFFSET. lia. }
        rewrite Hwrap. rewrite I3.
        assert (Hstat : byte3 (q_status q) = (if d + 1 =? 0 then 0 else (d + 1 - 1) mod 16)).
        { destruct (Z.eqb_spec (d + 1) 0); [lia|]. rewrite I6. f_equal. lia. }
        destruct (Z.eqb_spec (d mod 16) 15) as [E15|E15].
        -- assert (Hz : (d + 1) mod 16 = 0) by dlia. rewrite Hz.
           split; [reflexivity|]. split; [lia|]. split; [reflexivity|].
           split; [split; [change (low24 0) with 0; unfold per_slot; lia|split; auto]|reflexivity].
        -- assert (Hz : (d + 1) mod 16 = d mod 16 + 1) by dlia.
           assert (Hw : low24 (q_r28 q) + 2 ^ 24 * u8 (d mod 16 + 1) = 2 ^ 24 * (d mod 16 + 1) + low24 (q_r28 q)).
           { unfold u8. rewrite (Z.mod_small (d mod 16 + 1)); [lia|]. change (2 ^ 8) with 256. lia. }
           destruct (word_parts _ _ _ W2 Hw) as [B1 B2]. rewrite Hz.
           split; [unfold slot_addr, ELEMENT_SIZE, QUEUE_OFFSET; lia|].
           split; [rewrite Hw; change (2 ^ 24) with 16777216 in *; lia|]. split; auto.
           split; [split; [rewrite B2; lia|split; [intros F; rewrite B2; auto|auto]]|reflexivity].
    + rewrite L4, aborted_upd by lia. rewrite G1.
      destruct Hs as (K1 & K2 & _). destruct (Z.eqb_spec (ms_state s) STATE_ABORT); [contradiction|].
      unfold ev. destruct Hv as [-> | ->]; cbn; lia.
  - (* PFinish *)
    destruct P3 as (I1 & I2 & I3 & (I4 & I5 & I6) & (s & S1 & S2 & S3)).
    pose proof (seg_at_lt _ _ _ S1) as Hd. destruct (R3 d s ltac:(lia) S1) as [G1 G2].
    destruct (log_firmware (q_log q) EvHalt eq_refl) as (L1 & L2 & L3 & L4 & L5). cbn [is_end is_aborted] in L3, L4.
    rewrite I1. split; cbn [q_mem q_log q_pos q_host q_pru q_r2 q_r28 q_status]; rewrite ?L1, ?L2, ?L3, ?L5; fold A d.
    + apply ring_complete; auto. lia.
    + apply host_inv_complete with (na := count is_aborted (q_log q)); auto; lia.
    + exists (runs ++ [[EvHalt]]), []. rewrite P1. split; [|split].
      * rewrite concat_app. cbn [concat]. subst partial. now rewrite !app_nil_r.
      * rewrite (firstn_next _ _ _ S1). apply Forall2_app; auto. constructor; [|constructor].
        left. unfold seg_events. rewrite S2. reflexivity.
      * cbn [pru_inv]. now left.
    + rewrite L4, aborted_upd by lia. rewrite G1, S2. cbn. lia.
  - (* PHalt *)
    split; auto. exists runs, partial. rewrite EP. auto.
Qed.

Lemma inv_init : Inv q_init.
Proof.
  split; cbn [q_init q_mem q_log q_pos q_host q_pru q_r2 q_r28 q_status accepted].
  - change (completed []) with 0. split; [lia|]. split; [change (len []) with 0; lia|]. split; [|split; auto].
    intros j s _ Hs. apply seg_at_lt in Hs. change (len []) with 0 in Hs. lia.
  - split; [lia|reflexivity].
  - change (completed []) with 0. exists [], []. split; auto. split; [constructor|]. cbn [pru_inv].
    split; [reflexivity|]. split; [lia|]. split; [reflexivity|]. split; [|reflexivity].
    split; [vm_compute; discriminate|]. split; reflexivity.
  - reflexivity.
Qed.

Lemma inv_run : forall acts, Forall act_ok acts -> Inv (q_run acts).
Proof.
  intros acts. unfold q_run. assert (G : forall q, Inv q -> Forall act_ok acts -> Inv (fold_left q_step acts q)).
  { induction acts as [|a acts IH]; intros q Hq Hf; auto. inversion Hf; subst. cbn [fold_left]. apply IH; auto.
    destruct a as [op|e]; cbn [q_step]; [apply inv_host; auto|apply inv_pru; auto]. }
  apply G. apply inv_init.
Qed.

(** ** Consequences *)
Definition every (P : list qevent -> qevent -> Prop) (l : list qevent) : Prop :=
  forall l1 e l2, l = l1 ++ e :: l2 -> P l1 e.

Lemma every_nil : forall P, every P [].
Proof. intros P [|? ?] e l2 H; discriminate. Qed.
Lemma every_snoc : forall P l e, every P l -> P l e -> every P (l ++ [e]).
Proof.
  intros P l e H He l1 x l2 E. destruct l2 as [|y l2] using rev_ind.
  - apply app_inj_tail in E. destruct E as [<- <-]. exact He.
  - clear IHl2. rewrite app_comm_cons, app_assoc in E. apply app_inj_tail in E. destruct E as [E _]. eapply H; eauto.
Qed.

(** Without an emergency stop nothing is ever aborted. *)
Definition calm (q : qsys) : Prop :=
  count is_aborted (q_log q) = 0 /\ (forall v, q_pru q = PStore v -> v = STATE_EMPTY).

Lemma calm_step : forall a q, calm q -> a <> Pru true -> calm (q_step q a).
Proof.
  intros a q [C1 C2] Ha. unfold calm.
  assert (Hsame : forall q' ev, q_log q' = q_log q ++ ev -> filter is_aborted ev = [] ->
    (forall v, q_pru q' = PStore v -> v = STATE_EMPTY) -> count is_aborted (q_log q') = 0 /\ (forall v, q_pru q' = PStore v -> v = STATE_EMPTY)).
  { intros q' ev E F G. split; auto. rewrite E, count_app, C1. unfold count. now rewrite F. }
  destruct a as [op|e]; cbn [q_step].
  - unfold host_step, host_start, with_host.
    destruct (q_host q) as [|s sd|s sd|s sd|sd|s slot i sd|s slot sd|sd|sd|sd|st|].
    all: repeat match goal with |- context [if ?b then _ else _] => destruct b end.
    all: try (destruct op as [?| | |[|]]).
    all: try (eapply Hsame; [cbn [q_log]; first [reflexivity|symmetry; apply app_nil_r]|reflexivity|cbn [q_pru]; solve [auto|discriminate]]).
    all: eapply Hsame; [cbn [q_log]; symmetry; apply app_nil_r|reflexivity|cbn [q_pru]; auto].
  - destruct e; [congruence|]. unfold pru_step, with_pru. destruct (q_pru q) as [|st dir pp|s'|fr ms t|v| |] eqn:EP.
    + repeat match goal with |- context [if ?b then _ else _] => destruct b end;
        (eapply Hsame; [cbn [q_log]; first [reflexivity|symmetry; apply app_nil_r]|reflexivity|cbn [q_pru]; try rewrite EP; discriminate]).
    + destruct (Z.of_nat (length pp) <? ELEMENT_SIZE - HEADER_SIZE);
        (eapply Hsame; [cbn [q_log]; first [reflexivity|symmetry; apply app_nil_r]|reflexivity|cbn [q_pru]; discriminate]).
    + eapply Hsame; [cbn [q_log]; symmetry; apply app_nil_r|reflexivity|cbn [q_pru]; discriminate].
    + destruct (calculate_delay t) as [delay t']. destruct (delay =? 0).
      * eapply Hsame; [cbn [q_log]; reflexivity|reflexivity|cbn [q_pru]]. intros v E. congruence.
      * eapply Hsame; [cbn [q_log]; reflexivity|reflexivity|cbn [q_pru]; discriminate].
    + rewrite (C2 v eq_refl). eapply Hsame; [cbn [q_log]; reflexivity|reflexivity|cbn [q_pru]; discriminate].
    + eapply Hsame; [cbn [q_log]; reflexivity|reflexivity|cbn [q_pru]; discriminate].
    + split; auto. rewrite EP. discriminate.
Qed.

Lemma run_snoc : forall acts a, q_run (acts ++ [a]) = q_step (q_run acts) a.
Proof. intros. unfold q_run. now rewrite fold_left_app. Qed.

Lemma calm_run : forall acts, no_estop acts -> calm (q_run acts).
Proof.
  induction acts as [|a acts IH] using rev_ind; intros H.
  - split; [reflexivity|discriminate].
  - rewrite run_snoc. apply calm_step.
    + apply IH. intros X. apply H. apply in_or_app; auto.
    + intros ->. apply H. apply in_or_app. right. now left.
Qed.

Lemma count_outputs : forall l, count is_aborted (outputs l) = count is_aborted l.
Proof.
  unfold count, outputs. induction l as [|e l IH]; auto. destruct e; cbn in *; auto; lia.
Qed.

Lemma runs_calm : forall A runs, Forall2 seg_run A runs -> count is_aborted (concat runs) = 0 -> runs = map seg_events A.
Proof.
  induction 1 as [|s evs A runs H HF IH]; intros C; auto. cbn [concat map] in *. rewrite count_app in C.
  pose proof (count_nonneg is_aborted evs). pose proof (count_nonneg is_aborted (concat runs)).
  f_equal; [|apply IH; lia]. destruct H as [->|(pre & post & _ & _ & ->)]; auto.
  exfalso. rewrite count_app in H0. rewrite count_app in C. pose proof (count_nonneg is_aborted pre).
  change (count is_aborted [EvAborted]) with 1 in *. lia.
Qed.

Lemma calm_outputs : forall q, Inv q -> calm q -> exists partial,
  outputs (q_log q) = concat (map seg_events (firstn (Z.to_nat (completed (q_log q))) (accepted (q_log q)))) ++ partial /\
  pru_inv (accepted (q_log q)) (completed (q_log q)) (q_pru q) (q_r2 q) (q_r28 q) (q_status q) partial.
Proof.
  intros q I C. destruct (i_pru q I) as (runs & partial & P1 & P2 & P3). destruct C as [C _].
  exists partial. split; auto. rewrite P1. f_equal. f_equal. apply runs_calm; auto.
  rewrite <- count_outputs, P1, count_app in C. pose proof (count_nonneg is_aborted partial). pose proof (count_nonneg is_aborted (concat runs)). lia.
Qed.

Lemma seg_at_split : forall A d s, seg_at A d s -> exists post, A = firstn (Z.to_nat d) A ++ s :: post.
Proof.
  intros A d s [H1 H2]. destruct (nth_error_split _ _ H2) as (l1 & l2 & E & L). exists l2.
  rewrite E at 2. rewrite <- L, firstn_app, Nat.sub_diag, firstn_all. cbn [firstn]. now rewrite app_nil_r.
Qed.

(** What the firmware has output of its current segment is a beginning of it. *)
Lemma partial_prefix : forall A d p r2 r28 st partial, Forall seg_ok A ->
  pru_inv A d p r2 r28 st partial ->
  partial = [] \/ exists s post, seg_at A d s /\ seg_events s = partial ++ post.
Proof.
  intros A d p r2 r28 st partial Hok P3.
  assert (Hk : forall s, seg_at A d s -> seg_ok s) by (intros s [_ H]; rewrite Forall_forall in Hok; apply Hok; eapply nth_error_In; eauto).
  destruct p; cbn [pru_inv] in P3.
  - left. apply P3.
  - right. destruct P3 as (_ & _ & _ & _ & (s & S1 & S2 & S3 & S4 & S5 & S6 & S7)).
    destruct (seg_ok_execute s (Hk s S1)) as (ls & E & _). exists s. unfold seg_events. rewrite E.
    destruct (Z.eqb_spec (ms_state s) STATE_EXIT); [contradiction|]. rewrite S7. eexists. split; [exact S1|reflexivity].
  - right. destruct P3 as (_ & _ & _ & _ & (s0 & S1 & S2 & S3 & S7)).
    destruct (seg_ok_execute s0 (Hk s0 S1)) as (ls & E & _). exists s0. unfold seg_events. rewrite E.
    destruct (Z.eqb_spec (ms_state s0) STATE_EXIT); [contradiction|]. rewrite S7. eexists. split; [exact S1|reflexivity].
  - right. destruct P3 as (_ & _ & _ & _ & (s & rest & fuel & c & S1 & S2 & S3 & S4 & S5)). eauto.
  - right. destruct P3 as (_ & _ & _ & _ & (s & S1 & _ & [(S2 & S3)|(S2 & post & S3 & S4)])); eauto.
  - left. destruct P3 as (_ & _ & _ & _ & (s & S1 & S2 & S3)). auto.
  - exact P3.
Qed.

Lemma fifo_run : forall acts, Forall act_ok acts -> no_estop acts ->
  exists rest, concat (map seg_events (accepted (q_log (q_run acts)))) = outputs (q_log (q_run acts)) ++ rest.
Proof.
  intros acts Hok Hno. pose proof (inv_run acts Hok) as I. pose proof (calm_run acts Hno) as C.
  destruct (calm_outputs _ I C) as (partial & E & P). destruct (i_ring _ I) as (_ & _ & _ & _ & R5).
  set (A := accepted (q_log (q_run acts))) in *. set (d := completed (q_log (q_run acts))) in *.
  destruct (partial_prefix _ _ _ _ _ _ _ R5 P) as [->|(s & post & S1 & S2)].
  - exists (concat (map seg_events (skipn (Z.to_nat d) A))). rewrite E, app_nil_r.
    rewrite <- concat_app, <- map_app, firstn_skipn. reflexivity.
  - destruct (seg_at_split A d s S1) as (post' & EA). exists (post ++ concat (map seg_events post')).
    rewrite E, EA at 1. rewrite map_app, concat_app. cbn [map concat]. rewrite S2. now rewrite <- !app_assoc.
Qed.

(** Everything done: the queue is empty. *)
Lemma all_done_outputs : forall q, Inv q -> calm q -> completed (q_log q) = len (accepted (q_log q)) ->
  outputs (q_log q) = concat (map seg_events (accepted (q_log q))).
Proof.
  intros q I C E. destruct (calm_outputs q I C) as (partial & Eo & P). destruct (i_ring _ I) as (_ & _ & _ & _ & R5).
  rewrite Eo, E. unfold len. rewrite Nat2Z.id, firstn_all.
  destruct (partial_prefix _ _ _ _ _ _ _ R5 P) as [->|(s & post & S1 & S2)]; [now rewrite app_nil_r|].
  exfalso. apply seg_at_lt in S1. lia.
Qed.

Lemma calm_no_abort_slot : forall q i, Inv q -> calm q -> 0 <= i < 16 -> q_mem q (slot_addr i) <> STATE_ABORT.
Proof.
  intros q i I [C _] Hi E. pose proof (i_abort q I) as Ab. rewrite C in Ab. pose proof (count_nonneg is_refused (q_log q)).
  pose proof (aborted_upd (q_mem q) i STATE_EMPTY Hi) as U. rewrite E in U. cbn in U.
  assert (0 <= aborted_slots (upd (q_mem q) (slot_addr i) STATE_EMPTY)) by (unfold aborted_slots; lia).
  assert (0 <= aborted_slots (q_mem q)) by (unfold aborted_slots; lia). unfold STATE_EMPTY in *. lia.
Qed.

(** The last slot written is empty exactly if everything is completed. *)
Lemma last_empty_iff : forall q, Inv q -> calm q -> pos_inv (accepted (q_log q)) (q_pos q) ->
  (q_mem q (slot_addr (ring_offset (q_pos q) (-1))) = STATE_EMPTY <-> completed (q_log q) = len (accepted (q_log q))).
Proof.
  intros q I C Hp. rewrite (ring_offset_last _ _ Hp). destruct (i_ring _ I) as (R1 & R2 & R3 & R4 & R5).
  set (A := accepted (q_log q)) in *. set (d := completed (q_log q)) in *. split; intros H.
  - destruct (Z.eq_dec d (len A)) as [E|E]; auto. exfalso.
    destruct (seg_at_ex A (len A - 1) ltac:(lia)) as [s Hs]. destruct (R3 (len A - 1) s ltac:(lia) Hs) as [G _].
    rewrite Forall_forall in R5. assert (Hi : In s A) by (destruct Hs as [_ Hs]; eapply nth_error_In; eauto).
    destruct (R5 s Hi) as (K & _). unfold STATE_EMPTY in *. lia.
  - assert (E : (len A - 1) mod 16 = (len A + 15) mod 16) by dlia. rewrite E.
    destruct (R4 (len A + 15)) as [G|G]; [lia|auto|]. exfalso.
    refine (calm_no_abort_slot q _ I C _ G). apply Z.mod_pos_bound. lia.
Qed.

(** C39: what is true whenever WaitQueueEmpty or a flushing Shutdown returns. *)
Definition flush_ok (l : list qevent) (e : qevent) : Prop :=
  match e with
  | EvEmpty => completed l = len (accepted l) /\ outputs l = concat (map seg_events (accepted l))
  | EvShutdown true => outputs l = concat (map seg_events (accepted l)) /\ exists A, accepted l = A ++ [exit_element]
  | _ => True
  end.

Lemma flush_ok_run : forall acts, Forall act_ok acts -> no_estop acts -> every flush_ok (q_log (q_run acts)).
Proof.
  induction acts as [|a acts IH] using rev_ind; intros Hok Hno.
  { apply every_nil. }
  apply Forall_app in Hok. destruct Hok as [Hok Ha].
  assert (Hno' : no_estop acts) by (intros X; apply Hno; apply in_or_app; auto).
  specialize (IH Hok Hno'). pose proof (inv_run acts Hok) as I. pose proof (calm_run acts Hno') as C.
  rewrite run_snoc. set (q := q_run acts) in *.
  assert (S0 : every flush_ok (q_log q ++ [])) by (rewrite app_nil_r; auto).
  assert (S1 : forall e, match e with EvEmpty | EvShutdown true => False | _ => True end -> every flush_ok (q_log q ++ [e])).
  { intros e He. apply every_snoc; auto. destruct e; cbn; auto; try contradiction. destruct flushed; auto; contradiction. }
  assert (Hcase : (exists ev, q_log (q_step q a) = q_log q ++ ev /\
     (ev = [] \/ (exists e, ev = [e] /\ match e with EvEmpty | EvShutdown true => False | _ => True end))) \/
     (exists op sd, a = Host op /\ (q_host q = HWait sd \/ q_host q = HWait2 sd))).
  { destruct a as [op|e]; cbn [q_step].
    - unfold host_step, host_start, with_host.
      destruct (q_host q) as [|s sd|s sd|s sd|sd|s slot i sd|s slot sd|sd|sd|sd|st|]; try (right; exists op, sd; tauto); left;
        repeat match goal with |- context [if ?b then _ else _] => destruct b end; try (destruct op as [?| | |[|]]); cbn [q_log];
        try (exists []; split; [now rewrite ?app_nil_r|now left]); eexists; (split; [reflexivity|right; eexists; split; [reflexivity|exact Logic.I]]).
    - left. unfold pru_step, with_pru. destruct (q_pru q) as [|st dir pp|s'|fr ms t|v| |];
        try destruct (calculate_delay t) as [delay t'];
        repeat match goal with |- context [if ?b then _ else _] => destruct b end; cbn [q_log];
        try (exists []; split; [now rewrite ?app_nil_r|now left]); eexists; (split; [reflexivity|right; eexists; split; [reflexivity|exact Logic.I]]). }
  destruct Hcase as [(ev & E & [->|(e & -> & He)])|(op & sd & -> & Hh)].
  - now rewrite E.
  - rewrite E. auto.
  - pose proof (i_host q I) as Hi.
    assert (Hi' : pos_inv (accepted (q_log q)) (q_pos q) /\ flushing (accepted (q_log q)) (count is_aborted (q_log q)) sd)
      by (destruct Hh as [Hh|Hh]; rewrite Hh in Hi; exact Hi). destruct Hi' as [Hp Hf].
    pose proof (last_empty_iff q I C Hp) as Hlast.
    assert (Hfin : q_mem q (slot_addr (ring_offset (q_pos q) (-1))) = STATE_EMPTY ->
       every flush_ok (q_log q ++ [EvEmpty]) /\ (sd = true -> every flush_ok (q_log q ++ [EvEmpty; EvShutdown true]))).
    { intros E. apply Hlast in E. pose proof (all_done_outputs q I C E) as Eo.
      assert (G : every flush_ok (q_log q ++ [EvEmpty])) by (apply every_snoc; auto; split; auto).
      split; auto. intros Hsd. change [EvEmpty; EvShutdown true] with ([EvEmpty] ++ [EvShutdown true]). rewrite app_assoc.
      apply every_snoc; auto. cbn. rewrite accepted_app, outputs_app. cbn. rewrite !app_nil_r. split; auto.
      destruct (Hf Hsd) as [X|X]; auto. destruct C as [C _]. lia. }
    assert (Hnab : q_mem q (slot_addr (ring_offset (q_pos q) (-1))) =? STATE_ABORT = false).
    { apply Z.eqb_neq. rewrite (ring_offset_last _ _ Hp). apply calm_no_abort_slot; auto. apply Z.mod_pos_bound. lia. }
    cbn [q_step]. unfold host_step, with_host. destruct Hh as [-> | ->].
    + destruct (Z.eqb_spec (q_mem q (slot_addr (ring_offset (q_pos q) (-1)))) STATE_EMPTY) as [E|E].
      * destruct (Hfin E) as [F1 F2]. destruct sd; cbn [q_log]; auto.
      * cbn [q_log]. auto.
    + rewrite Hnab. cbn [q_log]. auto.
Qed.
