(** C82: the sound keeps time. *)
From Coq Require Import Reals Lra SpecFloat.
From Verif Require Import Base Model_Float Spec_Real Model_MotorOps Model_Pru Model_PruQueue Model_Sim Model_Audio Spec_Audio Spec_AudioTime Proofs_Real Proofs_Audio Proofs_AudioTime Prop_Audio.

Local Open Scope Z_scope.
Lemma delay_nonneg : forall f fr st t c ls, step_gen f fr st t c = Some ls -> Forall (fun l => 0 <= pl_delay l) ls.
Proof.
  induction f as [|f IH]; intros fr st t c ls H; cbn [step_gen] in H; [discriminate|]. destruct (calculate_delay t) as [d t']. destruct (d =? 0).
  - injection H as <-. constructor; [cbn; lia|constructor].
  - destruct (step_gen f fr _ t' (c - 1)) as [r|] eqn:E; [|discriminate]. injection H as <-. constructor; [|eapply IH; exact E].
    cbn [pl_delay]. pose proof (Proofs_Audio.u32_bound (d - 4 / 2)). destruct (_ =? 0); lia.
Qed.
Lemma heard_ticks : forall s, playable s -> Forall (fun p : (motor -> bool) * Z => 0 <= snd p < 2 ^ 32) (heard s).
Proof.
  intros s (_ & _ & _ & _ & _ & ls & E & _ & F). unfold heard. rewrite E. pose proof (delay_nonneg _ _ _ _ _ _ E) as D. rewrite Forall_map, Forall_forall in *. intros [l o] I.
  specialize (F _ I). cbn in F. pose proof (D _ (in_combine_l _ _ _ _ I)). apply in_combine_r in I. cbn [snd].
  assert (0 <= o) by (unfold overheads in I; rewrite !in_app_iff in I; destruct I as [I|[I|I]]; apply repeat_spec in I; lia). lia.
Qed.
Lemma played_ticks : forall segs, Forall (fun s => ms_state s <> STATE_EXIT -> playable s) segs -> Forall (Forall (fun p : (motor -> bool) * Z => 0 <= snd p < 2 ^ 32)) (played segs).
Proof.
  intros segs P. unfold played. rewrite Forall_map, Forall_forall in *. intros s I. apply filter_In in I. destruct I as [I X]. apply heard_ticks, P; [exact I|]. lia.
Qed.
Local Open Scope R_scope.
(** A run of up to 97000 seconds (27 hours) is written, and every pass ends in it at its exact
    time, up to the roundings of the clock: each addition to it may miss the time by the 2^51st
    part of the length of the run. *)
Theorem C82_time : forall segs, Forall (fun s => ms_state s <> STATE_EXIT -> playable s) segs ->
  let passes := played segs in
  let T := run_length passes in
  let drift := IZR (additions passes) * (T + 1) / 2251799813685248 in
  T <= 97000 -> drift <= 1 / 2 ->
  (exists a, audio_run segs audio_init = Ok a) /\
  Forall2 (fun e r => Rabs (val (fst e) - r) <= drift /\ Rabs (IZR (samples_before (fst e)) - 44100 * r) <= 2 + 44100 * drift)
    (run_ends (S754_zero false) passes) (fst (exact_ends 0 passes)).
Proof.
  intros segs P passes T drift HT HD. pose proof (played_ticks segs P) as F. fold passes in F.
  assert (T0 : 0 <= T) by (apply exact_mono; exact F).
  assert (N : (0 <= additions passes)%Z) by (clear; induction passes; cbn [additions fold_right]; [lia|]; fold (additions passes); lia). apply IZR_le in N.
  assert (Eh : IZR (additions passes) * h T = drift) by (unfold drift, h, u53; field).
  pose proof (run_near T T0 HT passes (S754_zero false) 0 0 (IZR (additions passes)) F) as R.
  assert (R' : Forall2 (near T (IZR (additions passes))) (run_ends (S754_zero false) passes) (fst (exact_ends 0 passes))).
  { assert (Z0 : val (S754_zero false) = 0) by reflexivity. apply R; rewrite ?Z0; try lra; [split; reflexivity|unfold T, run_length; lra|rewrite Rminus_0_r, Rabs_R0; lra]. }
  clear R. split.
  - apply C82_written; [exact P|]. fold passes. clear - R' T0 HT N HD Eh. induction R' as [|e r es rs A B IH]; constructor; [|exact IH].
    apply (near_samples T T0 HT _ e r N ltac:(lra) A).
  - clear - R' T0 HT N HD Eh. induction R' as [|e r es rs A B IH]; constructor; [|exact IH].
    destruct (near_samples T T0 HT _ e r N ltac:(lra) A) as [_ S]. split.
    + destruct A as (_ & _ & _ & A). lra.
    + eapply Rle_trans; [exact S|]. assert (h T <= / 44100) by (unfold h, u53; lra). lra.
Qed.
Print Assumptions C82_time.

(** For example in an hour with ten million passes and segments no sample is wrong by more
    than three. *)
Example C82_hour : forall segs, Forall (fun s => ms_state s <> STATE_EXIT -> playable s) segs ->
  run_length (played segs) <= 3600 -> (additions (played segs) <= 10000000)%Z ->
  Forall2 (fun e r => Rabs (IZR (samples_before (fst e)) - 44100 * r) <= 3) (run_ends (S754_zero false) (played segs)) (fst (exact_ends 0 (played segs))).
Proof.
  intros segs P HT HK. apply IZR_le in HK. pose proof (C82_time segs P) as C. cbv zeta in C.
  assert (T0 : 0 <= run_length (played segs)) by (apply exact_mono, played_ticks, P).
  assert (B : IZR (additions (played segs)) * (run_length (played segs) + 1) / 2251799813685248 <= / 44100).
  { assert (IZR (additions (played segs)) * (run_length (played segs) + 1) <= 10000000 * 3601) by (apply Rmult_le_compat; try lra; apply IZR_le; clear; induction (played segs); cbn [additions fold_right]; [lia|]; fold (additions l); lia). lra. }
  destruct C as [_ C]; [lra|lra|]. revert B C. generalize (IZR (additions (played segs)) * (run_length (played segs) + 1) / 2251799813685248). intros dr B C.
  induction C as [|e r es rs A _ IH]; constructor; [lra|exact IH].
Qed.
