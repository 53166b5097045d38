(** C82: the sound of the motors. *)
From Verif Require Import Base Model_Float Model_MotorOps Model_Pru Model_PruQueue Model_Sim Model_Audio Spec_Audio Proofs_Pru Proofs_Audio.

Lemma file_u32 : forall a, 0 <= au_current a -> u32_at 4 (wav_file a) = (4 * au_current a + 36) mod 2 ^ 32 /\ u32_at 40 (wav_file a) = (4 * au_current a) mod 2 ^ 32.
Proof.
  intros a H. rewrite file_is. unfold u32_at. cbn [firstn skipn wav_header le32 app nth Nat.add].
  rewrite !le32_value by apply u32_bound. rewrite u32_add_l. split; reflexivity.
Qed.
Lemma s16_sample : forall p j d, (j = 0 \/ j = 2)%nat ->
  (let z := nth j (sample_bytes p) d + 256 * nth (j + 1) (sample_bytes p) d in if z <? 32768 then z else z - 65536) = if (if Nat.eqb j 0 then p M1 else p M2) then 16000 else -16000.
Proof. intros p j d [->| ->]; cbn [sample_bytes]; unfold sample_bytes; destruct (p M1), (p M2); reflexivity. Qed.

(** The file is a WAV file with the samples of the run: its sizes are those of the data, and
    the sample number [k] shows the pins of the first two motors at its moment. *)
Theorem C82_sound : forall segs a, Forall (fun s => ms_state s <> STATE_EXIT -> playable s) segs -> audio_run segs audio_init = Ok a ->
  let ends := run_ends (S754_zero false) (played segs) in
  let n := samples_of ends in
  let file := wav_file a in
  Z.of_nat (length file) = 44 + 4 * n /\
  wav_format file /\
  (4 * n + 36 < 2 ^ 32 -> u32_at 4 file = Z.of_nat (length file) - 8 /\ u32_at 40 file = Z.of_nat (length file) - 44) /\
  forall k, 0 <= k < n -> exists pins, pins_at k ends = Some pins /\
    s16_at (44 + 4 * Z.to_nat k) file = (if pins M1 then 16000 else -16000) /\ s16_at (46 + 4 * Z.to_nat k) file = (if pins M2 then 16000 else -16000).
Proof.
  intros segs a P E ends n file.
  assert (S : sounds ends a) by (apply (run_sounds segs [] audio_init a P); [split; reflexivity|exact E]). destruct S as [S1 S2]. fold n in S1, S2.
  pose proof (samples_nonneg ends) as N. fold n in N.
  assert (B : forall y, In y (seq 0 (Z.to_nat n)) -> length (bytes_at ends y) = 4%nat) by (intros y Y; apply in_seq in Y; apply bytes_len; fold n; lia).
  assert (L : Z.of_nat (length file) = 44 + 4 * n).
  { unfold file. rewrite file_is. cbn [firstn skipn wav_header le32 app length]. rewrite S2, concat_len, seq_length by exact B. lia. }
  split; [exact L|]. split; [|split].
  - unfold file. rewrite file_is. cbn [firstn skipn wav_header le32 app]. do 10 (split; [reflexivity|]). reflexivity.
  - intros H. destruct (file_u32 a ltac:(lia)) as [F1 F2]. fold file in F1, F2. rewrite S1 in *. rewrite F1, F2, L, !Z.mod_small by lia. lia.
  - intros k K. assert (I : nth_error (seq 0 (Z.to_nat n)) (Z.to_nat k) = Some (Z.to_nat k)) by (rewrite nth_error_nth' with (d := 0%nat) by (rewrite seq_length; lia); rewrite seq_nth by lia; reflexivity).
    assert (J : pins_at k ends <> None) by (unfold pins_at; destruct (find _ ends) eqn:F; [discriminate|]; intros _; apply (find_before ends k ltac:(lia)) in F; [exact F|exact (proj2 K)]).
    destruct (pins_at k ends) as [pins|] eqn:Pk; [|congruence]. exists pins. split; [reflexivity|].
    assert (Y : bytes_at ends (Z.to_nat k) = sample_bytes pins) by (unfold bytes_at; rewrite Z2Nat.id by lia; now rewrite Pk).
    assert (Q : forall j, (j < 4)%nat -> nth (44 + (4 * Z.to_nat k + j)) file 0 = nth j (sample_bytes pins) 0).
    { intros j Hj. unfold file. rewrite file_is. cbn [firstn skipn wav_header le32 app nth Nat.add]. rewrite S2, <- Y. apply nth_blocks; [exact B|exact I|exact Hj]. }
    unfold s16_at. split.
    + replace (44 + 4 * Z.to_nat k)%nat with (44 + (4 * Z.to_nat k + 0))%nat by lia. replace (44 + (4 * Z.to_nat k + 0) + 1)%nat with (44 + (4 * Z.to_nat k + 1))%nat by lia.
      rewrite !Q by lia. exact (s16_sample pins 0 0 (or_introl eq_refl)).
    + replace (46 + 4 * Z.to_nat k)%nat with (44 + (4 * Z.to_nat k + 2))%nat by lia. replace (44 + (4 * Z.to_nat k + 2) + 1)%nat with (44 + (4 * Z.to_nat k + 3))%nat by lia.
      rewrite !Q by lia. exact (s16_sample pins 2 0 (or_intror eq_refl)).
Qed.
Print Assumptions C82_sound.

Lemma countable_target : forall t, countable t -> exists n, target_sample t = Some n.
Proof. intros t (z & E & R). unfold target_sample. rewrite E. replace ((0 <=? z) && (z <? 2 ^ 32)) with true by lia. eexists. reflexivity. Qed.
Lemma play_total : forall l a, Forall (fun e => countable (fst e)) (fst (pass_ends (au_time a) l)) -> exists a', play l a = Ok a' /\ au_time a' = snd (pass_ends (au_time a) l).
Proof.
  induction l as [|[p d] l IH]; intros a F; cbn [play pass_ends] in *.
  - eexists. split; reflexivity.
  - change (f64_div (f64_of_Z 160) (f64_of_Z 1000000000)) with update_time in *. change (f64_div (f64_of_Z d) (f64_of_Z 100000000)) with (wait_time d) in *. set (u := f64_add (f64_add (au_time a) update_time) (wait_time d)) in *.
    destruct (pass_ends u l) as [x e] eqn:X. cbn [fst snd] in *. inversion F as [|? ? F1 F2]; subst. destruct (countable_target u F1) as [n T]. unfold audio_update. rewrite T. cbn [obind].
    match goal with |- exists a', play l ?a1 = _ /\ _ => specialize (IH a1) end. cbn [au_time] in IH. rewrite X in IH. exact (IH F2).
Qed.
(** The file is written for every run of less than 27 hours. *)
Theorem C82_written : forall segs, Forall (fun s => ms_state s <> STATE_EXIT -> playable s) segs ->
  Forall (fun e => countable (fst e)) (run_ends (S754_zero false) (played segs)) -> exists a, audio_run segs audio_init = Ok a.
Proof.
  intros segs P F. change (S754_zero false) with (au_time audio_init) in F. revert F. generalize audio_init as a. unfold played.
  induction P as [|s segs P1 P2 IH]; intros a F; [eexists; reflexivity|]. cbn [audio_run filter] in *. destruct (ms_state s =? STATE_EXIT) eqn:X; cbn [negb map run_ends] in F.
  - replace (audio_enqueue s a) with (Ok a) by (unfold audio_enqueue; now rewrite X). now apply IH.
  - assert (X' : ms_state s <> STATE_EXIT) by lia. rewrite (enqueue_play s a X' (P1 X')).
    destruct (pass_ends (au_time a) (heard s)) as [x e] eqn:Q. apply Forall_app in F. destruct F as [F1 F2].
    destruct (play_total (heard s) a) as (a1 & E1 & T); [rewrite Q; exact F1|]. rewrite E1. cbn [obind]. apply IH. rewrite T, Q. exact F2.
Qed.
Print Assumptions C82_written.

(** One segment of four passes of 50 microseconds: eight samples. *)
Definition audible : motion_segment :=
  {| ms_state := STATE_FILLED; ms_direction_bits := 0; ms_loops_accel := 0; ms_loops_travel := 4; ms_loops_decel := 0; ms_aux := 0;
     ms_accel_series_index := 0; ms_hires_accel_cycles := 0; ms_travel_delay_cycles := 5000; ms_fractions := fun m => match m with M1 => 2 ^ 31 - 1 | _ => 2 ^ 30 end; |}.
Definition playable_b (s : motion_segment) : bool :=
  (0 <=? ms_loops_accel s) && (ms_loops_accel s <? 2 ^ 16) && (0 <=? ms_loops_travel s) && (ms_loops_travel s <? 2 ^ 16) && (0 <=? ms_loops_decel s) && (ms_loops_decel s <? 2 ^ 16) &&
  (0 <=? ms_hires_accel_cycles s) && (ms_hires_accel_cycles s <? 2 ^ 32) && (0 <=? ms_travel_delay_cycles s) && (ms_travel_delay_cycles s <? 2 ^ 32) &&
  match pru_execute s with
  | Some ls => (Nat.eqb (length ls) (S (length (overheads s)))) && forallb (fun '(l, o) => pl_delay l + o <? 2 ^ 32) (combine ls (overheads s))
  | None => false
  end.
Lemma playable_if : forall s, playable_b s = true -> playable s.
Proof.
  intros s H. unfold playable_b in H. destruct (pru_execute s) as [ls|] eqn:E; [|rewrite andb_false_r in H; discriminate]. rewrite !andb_true_iff, Nat.eqb_eq, !Z.leb_le, !Z.ltb_lt, forallb_forall in H.
  unfold playable. destruct H as ((((((((((A1 & A2) & A3) & A4) & A5) & A6) & A7) & A8) & A9) & A10) & A11 & A12). do 5 (split; [lia|]). exists ls. split; [exact E|]. split; [exact A11|].
  apply Forall_forall. intros [l o] I. specialize (A12 _ I). cbn in A12. lia.
Qed.
Example audible_playable : playable audible.
Proof. apply playable_if. vm_compute. reflexivity. Qed.
Example audible_file : (match audio_run [audible] audio_init with
  | Ok a => (Z.of_nat (length (wav_file a)), u32_at 4 (wav_file a), u32_at 40 (wav_file a), map (fun k => s16_at (44 + 4 * k) (wav_file a)) (seq 0 8))
  | Undefined => (0, 0, 0, []) end) = (76, 68, 32, [-16000; -16000; 16000; 16000; -16000; -16000; 16000; 16000]).
Proof. vm_compute. reflexivity. Qed.

(** A run of 7.2 hours: the sizes in the file are smaller than the file. *)
Definition long_segment : motion_segment :=
  {| ms_state := STATE_FILLED; ms_direction_bits := 0; ms_loops_accel := 0; ms_loops_travel := 600; ms_loops_decel := 0; ms_aux := 0;
     ms_accel_series_index := 0; ms_hires_accel_cycles := 0; ms_travel_delay_cycles := 2 ^ 32 - 3; ms_fractions := fun _ => 2 ^ 20 |}.
Definition countable_b (t : fl) : bool := match fl_trunc (f64_mul t (f64_of_Z 44100)) with Some z => (0 <=? z) && (z <? 2 ^ 32) | None => false end.
Lemma too_long : forall segs, Forall (fun s => ms_state s <> STATE_EXIT -> playable s) segs -> forallb (fun e => countable_b (fst e)) (run_ends (S754_zero false) (played segs)) = true ->
  2 ^ 30 <= samples_of (run_ends (S754_zero false) (played segs)) -> exists a, audio_run segs audio_init = Ok a /\ u32_at 40 (wav_file a) <> Z.of_nat (length (wav_file a)) - 44.
Proof.
  intros segs P B N. destruct (C82_written segs P) as [a E].
  { rewrite forallb_forall in B. apply Forall_forall. intros e I. specialize (B e I). unfold countable_b in B. unfold countable. destruct (fl_trunc _) as [z|]; [|discriminate]. exists z. split; [reflexivity|lia]. }
  exists a. split; [exact E|]. destruct (C82_sound _ a P E) as [L _]. cbv zeta in L.
  destruct (run_sounds segs [] audio_init a P ltac:(split; reflexivity) E) as [S _]. cbn [app] in S.
  destruct (file_u32 a) as [_ U]; [rewrite S; apply samples_nonneg|]. rewrite U, L. pose proof (Z.mod_pos_bound (4 * au_current a) (2 ^ 32) ltac:(lia)). lia.
Qed.
Theorem C82_long_refuted : exists segs a, Forall playable segs /\ audio_run segs audio_init = Ok a /\ u32_at 40 (wav_file a) <> Z.of_nat (length (wav_file a)) - 44.
Proof.
  assert (P : playable long_segment) by (apply playable_if; vm_compute; reflexivity).
  destruct (too_long [long_segment]) as (a & E & U).
  - constructor; [intros _; exact P|constructor].
  - vm_compute. reflexivity.
  - apply Z.leb_le. vm_compute. reflexivity.
  - exists [long_segment], a. split; [constructor; [exact P|constructor]|]. split; [exact E|exact U].
Qed.
Print Assumptions C82_long_refuted.
