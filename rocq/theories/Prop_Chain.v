(** C73: from the path to the pulses at the motors. *)
From Coq Require Import Reals Lra SpecFloat.
From Flocq Require Import Core.
From Verif Require Import Base Model_Float Model_Axis Model_Hardware Model_Planner Model_MotorOps Model_Speed Model_Pru Model_Chain
  Spec_Real Spec_Motion Spec_Planner Spec_Speeds Spec_Timing Spec_Chain
  Proofs_Real Proofs_Ramp Proofs_MotorOps Proofs_Pru Proofs_Timing Proofs_Delay Proofs_Ticks Proofs_Pace Prop_Motion Prop_Timing Prop_Planner Prop_Speeds.
Open Scope R_scope.

(** ** A constant speed stays as it is when the motion is divided *)
Lemma square64 : forall x v, fin64 x -> val x = v -> generic_format radix2 (FLT_exp (SpecFloat.emin 24 128) 24) v -> Rabs v < bpow radix2 128 ->
  fin64 (sqd x) /\ val (sqd x) = v * v.
Proof.
  intros x v F E G B.
  assert (G2 : rnd64 (v * v) = v * v).
  { apply round_generic; [apply valid_rnd_N|]. apply (FLT_format_generic radix2 (SpecFloat.emin 24 128) 24) in G. destruct G as [f Ef Mf Xf].
    change (generic_format radix2 (FLT_exp (SpecFloat.emin 53 1024) 53) (v * v)). apply generic_format_FLT.
    exists (Float radix2 (Fnum f * Fnum f) (Fexp f + Fexp f)).
    - rewrite Ef. unfold F2R. cbn [Fnum Fexp]. rewrite mult_IZR, bpow_plus. ring.
    - cbn [Fnum]. rewrite Z.abs_mul. change (radix2 ^ 24)%Z with 16777216%Z in Mf. change (radix2 ^ 53)%Z with 9007199254740992%Z. nia.
    - cbn [Fexp]. change (SpecFloat.emin 24 128) with (-149)%Z in Xf. change (SpecFloat.emin 53 1024) with (-1074)%Z. lia. }
  subst v. destruct (mul_val 53 1024 p53 l53 x x F F) as [Fm Vm].
  - change (small 1024 (rnd64 (val x * val x))). rewrite G2. unfold small. rewrite Rabs_mult.
    apply Rlt_le_trans with (bpow radix2 128 * bpow radix2 128); [pose proof (Rabs_pos (val x)); nra|]. rewrite <- bpow_plus. apply bpow_le. lia.
  - split; [exact Fm|]. unfold sqd, f64_mul. rewrite Vm. exact G2.
Qed.

Lemma constant_piece : forall v0 v1 prev total piece v, fin32 v0 -> fin32 v1 -> val v0 = v -> val v1 = v -> 0 < v -> fin64 prev -> val prev = v ->
  (1 <= total <= 2147483647)%Z -> (1 <= piece <= 2147483647)%Z ->
  let w := ieee_piece_speed (f64_of_f32 v0) (f64_of_f32 v1) total prev piece in fin64 w /\ val w = v.
Proof.
  intros v0 v1 prev total piece v F0 F1 E0 E1 P Fp Ep HT HP w. subst w.
  pose proof (fin_format 24 128 v0 F0) as G. rewrite E0 in G. pose proof (fin_small 24 128 v0 F0) as B. rewrite E0 in B.
  destruct (f64_of_f32_val v0 F0) as [D0 W0]. destruct (f64_of_f32_val v1 F1) as [D1 W1].
  destruct (square64 (f64_of_f32 v0) v D0 ltac:(congruence) G B) as [S0 Q0]. destruct (square64 (f64_of_f32 v1) v D1 ltac:(congruence) G B) as [S1 Q1].
  destruct (square64 prev v Fp Ep G B) as [S2 Q2]. unfold ieee_piece_speed.
  assert (Z0 : forall b, small b 0) by (intros b; unfold small; rewrite Rabs_R0; apply bpow_gt_0).
  destruct (sub_val 53 1024 p53 l53 _ _ S1 S0) as [S3 Q3]; [rewrite Q0, Q1, Rminus_diag_eq, (rnd_0 53 1024) by reflexivity; apply Z0|].
  rewrite Q0, Q1, Rminus_diag_eq, (rnd_0 53 1024) in Q3 by reflexivity.
  destruct (f64_of_Z_val 2 ltac:(lia)) as [T2 U2]. destruct (f64_of_Z_val total ltac:(lia)) as [Tt Ut]. destruct (f64_of_Z_val piece ltac:(lia)) as [Tp Up].
  assert (X : rnd64 (IZR (2 * total)) = IZR (2 * total)) by (destruct (f64_of_Z_val (2 * total) ltac:(lia)) as [Ft Vt]; rewrite <- Vt; now apply rnd_fin).
  assert (Xs : small 1024 (IZR (2 * total))) by (destruct (f64_of_Z_val (2 * total) ltac:(lia)) as [Ft Vt]; rewrite <- Vt; now apply (fin_small 53 1024)).
  destruct (mul_val 53 1024 p53 l53 _ _ T2 Tt) as [S4 Q4]; [rewrite U2, Ut, <- mult_IZR, X; exact Xs|]. rewrite U2, Ut, <- mult_IZR, X in Q4.
  assert (N : IZR (2 * total) <> 0) by (apply not_0_IZR; lia).
  assert (Zd : rnd64 (0 / IZR (2 * total)) = 0) by (unfold Rdiv; rewrite Rmult_0_l; apply (rnd_0 53 1024)).
  destruct (div_val 53 1024 p53 l53 _ _ S3 S4) as [S5 Q5]; [now rewrite Q4|rewrite Q3, Q4, Zd; apply Z0|]. rewrite Q3, Q4, Zd in Q5.
  destruct (mul_val 53 1024 p53 l53 _ _ T2 S5) as [S6 Q6]; [rewrite Q5, Rmult_0_r, (rnd_0 53 1024); apply Z0|]. rewrite Q5, Rmult_0_r, (rnd_0 53 1024) in Q6.
  destruct (mul_val 53 1024 p53 l53 _ _ S6 Tp) as [S7 Q7]; [rewrite Q6, Rmult_0_l, (rnd_0 53 1024); apply Z0|]. rewrite Q6, Rmult_0_l, (rnd_0 53 1024) in Q7.
  assert (Xv : rnd64 (v * v) = v * v) by (rewrite <- Q2; now apply rnd_fin).
  destruct (add_val 53 1024 p53 l53 _ _ S2 S7) as [S8 Q8]; [rewrite Q7, Rplus_0_r, rnd_fin by exact S2; now apply (fin_small 53 1024)|].
  rewrite Q7, Q2, Rplus_0_r, Xv in Q8. unfold f64_add, f64_mul, f64_div, f64_sub in *.
  destruct (f64_of_Z_val 0 ltac:(lia)) as [FZ VZ].
  replace (SFltb (f64_of_Z 0) _) with true by (symmetry; apply (ltb_lt 53 1024); [exact FZ|exact S8|]; rewrite Q8, VZ; nra).
  destruct (sqrt_val64 _ S8 ltac:(rewrite Q8; nra)) as [S9 Q9]. split; [exact S9|].
  rewrite Q9, Q8, sqrt_square by lra. rewrite <- Ep. now apply rnd_fin.
Qed.

(** ** A command the motors follow *)
Lemma most_defining : forall s, most s = get_defining_axis_steps s.
Proof.
  intros s. apply Z.le_antisymm.
  - unfold most. assert (H : forall l, (fold_right (fun m n => Z.max (Z.abs (s m)) n) 0 l <= get_defining_axis_steps s)%Z); [|apply H].
    induction l as [|m l IH]; cbn [fold_right]; [apply defining_nonneg|]. pose proof (defining_ge s m). lia.
  - apply defining_le. intros m. unfold most. assert (H : forall l, In m l -> (Z.abs (s m) <= fold_right (fun m n => Z.max (Z.abs (s m)) n) 0 l)%Z).
    { induction l as [|k l IH]; cbn [fold_right In]; [contradiction|]. intros [->|I]; [lia|specialize (IH I); lia]. }
    apply H. destruct m; cbn; tauto.
Qed.

Lemma narrow : forall x v, fin64 x -> val x = v -> generic_format radix2 (FLT_exp (SpecFloat.emin 24 128) 24) v -> Rabs v < bpow radix2 128 ->
  fin32 (f32_of_f64 x) /\ val (f32_of_f64 x) = v.
Proof.
  intros x v F E G B. assert (R : rnd32 v = v) by (apply round_generic; [apply valid_rnd_N|exact G]).
  destruct (f32_of_f64_val x F) as [F2 V2]; [rewrite E, R; exact B|]. split; [exact F2|]. now rewrite V2, E, R.
Qed.

Lemma request_asks : forall x, fin32 (c_v0 x) -> fin32 (c_v1 x) -> asks (request x) (val (c_v0 x)) (val (c_v1 x)).
Proof.
  intros x F0 F1. unfold request, asks. cbn [ls_v0 ls_v1].
  destruct (f64_of_f32_val _ F0) as [D0 W0]. destruct (f64_of_f32_val _ F1) as [D1 W1].
  destruct (narrow _ _ D0 W0 (fin_format 24 128 _ F0) (fin_small 24 128 _ F0)) as [A0 B0].
  destruct (narrow _ _ D1 W1 (fin_format 24 128 _ F1) (fin_small 24 128 _ F1)) as [A1 B1]. auto.
Qed.

Section Accepting.
Context (B : backend) (flip : motor -> bool).
Hypothesis takes_all : forall b s, snd (b_enqueue B b s) = true.

Lemma internal_runs : forall (st : mops B) (p : linear_segment ieee_speed) D seg, mo_shadow st <> [] -> make_segment flip p D = Ok seg ->
  exists st', enqueue_internal flip st p D = Ok (st', true) /\ mo_sent st' = mo_sent st ++ [(seg, true)] /\ mo_shadow st' <> [].
Proof.
  intros st p D seg N E. unfold enqueue_internal. destruct (mo_shadow st) as [|h q] eqn:Q; [congruence|]. cbn [shadow_front obind]. rewrite E. cbn [obind].
  specialize (takes_all (mo_backend st) seg). destruct (b_enqueue B (mo_backend st) seg) as [b ok]. cbn [snd] in takes_all. subst ok.
  eexists. split; [reflexivity|]. cbn [mo_sent mo_shadow]. split; [reflexivity|discriminate].
Qed.

Lemma divide_runs : forall (x : command) v, fin32 (c_v0 x) -> fin32 (c_v1 x) -> val (c_v0 x) = v -> val (c_v1 x) = v -> / 10 <= v ->
  let D := get_defining_axis_steps (c_steps x) in (32767 < D <= 2147483647)%Z ->
  forall n d prev (st : mops B) ret, fin64 prev -> val prev = v -> mo_shadow st <> [] ->
  exists st' ok new, divide_loop flip (request x) D (divisions_of D) n d prev st ret = Ok (st', ok) /\ (n <> O -> ok = true) /\
    mo_sent st' = mo_sent st ++ new /\ Forall no_stop (map fst new) /\ mo_shadow st' <> [].
Proof.
  intros x v F0 F1 E0 E1 P D HD. induction n as [|n IH]; intros d prev st ret Fp Ep N.
  - exists st, ret, []. cbn [divide_loop]. rewrite app_nil_r. split; [reflexivity|]. split; [congruence|]. split; [reflexivity|]. split; [constructor|exact N].
  - cbn [divide_loop]. set (steps := piece_steps (ls_steps (request x)) (divisions_of D) d). set (ds := get_defining_axis_steps steps).
    assert (Hds : (1 <= ds <= 32767)%Z).
    { split.
      - destruct (defining_attained (c_steps x)) as [m Hm]. transitivity (Z.abs (steps m)); [|apply defining_ge].
        unfold steps, piece_steps. cbn [request ls_steps]. apply piece_nonzero; [exact Hm|]. change MAX_STEPS_PER_SEGMENT with 32767%Z. change INT_MAX with 2147483647%Z. lia.
      - apply defining_le. intros m. unfold steps, piece_steps. change 32767%Z with MAX_STEPS_PER_SEGMENT. apply piece_bound.
        split; [apply defining_ge|]. change MAX_STEPS_PER_SEGMENT with 32767%Z. change INT_MAX with 2147483647%Z. lia. }
    set (w := piece_speed ieee_speed (ls_v0 (request x)) (ls_v1 (request x)) D prev ds).
    assert (W : fin64 w /\ val w = v) by (apply (constant_piece (c_v0 x) (c_v1 x) prev D ds v); auto; try lia; lra).
    destruct W as [Fw Vw].
    set (out := {| ls_v0 := prev : spd ieee_speed; ls_v1 := w; ls_aux := ls_aux (request x); ls_steps := steps |}).
    assert (G : generic_format radix2 (FLT_exp (SpecFloat.emin 24 128) 24) v) by (rewrite <- E0; apply (fin_format 24 128 _ F0)).
    assert (Bv : Rabs v < bpow radix2 128) by (rewrite <- E0; apply (fin_small 24 128 _ F0)).
    assert (A : asks out v v).
    { unfold asks, out. cbn [ls_v0 ls_v1]. destruct (narrow prev v Fp Ep G Bv) as [? ?]. destruct (narrow w v Fw Vw G Bv) as [? ?]. auto. }
    destruct (segment_travel flip out ds v A Hds P) as (seg & k & Es & _ & Ns & _).
    destruct (internal_runs st out ds seg N Es) as (st1 & Ei & Se & N1). rewrite Ei. cbn [obind].
    destruct (IH (d + 1)%Z w st1 true Fw Vw N1) as (st2 & ok & new & Ed & Ok2 & Se2 & Ns2 & N2).
    exists st2, ok, ((seg, true) :: new). split; [exact Ed|]. split.
    { intros _. destruct n as [|n]; [cbn [divide_loop] in Ed; congruence|apply Ok2; discriminate]. }
    split; [rewrite Se2, Se, <- app_assoc; reflexivity|]. split; [constructor; [exact Ns|exact Ns2]|exact N2].
Qed.

Lemma shrink_runs : forall st : mops B, mo_sent (shrink st) = mo_sent st /\ mo_shadow (shrink st) <> [].
Proof. intros st. split; [reflexivity|apply shrink_nonempty]. Qed.

Lemma enqueue_runs : forall (st : mops B) x, mo_shadow st <> [] -> follows x ->
  exists st' new, mops_enqueue flip st (request x) = Ok (st', true) /\ mo_sent st' = mo_sent st ++ new /\ Forall no_stop (map fst new) /\ mo_shadow st' <> [].
Proof.
  intros st x N [F0 F1 HI H]. cbv zeta in H. rewrite most_defining in H. unfold mops_enqueue. change (ls_steps (request x)) with (c_steps x).
  set (D := get_defining_axis_steps (c_steps x)) in *.
  assert (HD : (0 <= D <= 2147483647)%Z) by (split; [apply defining_nonneg|apply defining_le; exact HI]).
  destruct (D =? 0)%Z eqn:Z0.
  - destruct (mo_shadow st) as [|h q] eqn:Q; [congruence|]. cbn [shadow_front obind].
    set (e := {| ms_state := STATE_FILLED; ms_direction_bits := 0 |}). pose proof (takes_all (mo_backend st) e) as T.
    destruct (b_enqueue B (mo_backend st) e) as [b ok]. cbn [snd] in T. subst ok. cbn [obind].
    eexists _, [(e, true)]. split; [reflexivity|]. split; [reflexivity|]. split; [|apply shrink_nonempty].
    constructor; [|constructor]. cbn [fst]. unfold no_stop, e, seg_loops. cbn. easy.
  - assert (Hr : (D <= 32767)%Z -> exists seg, make_segment flip (request x) D = Ok seg /\ no_stop seg).
    { intros L. pose proof (request_asks x F0 F1) as A. destruct H as [H|[[Ne Hr]|[Eq Hv]]]; [lia| |].
      - destruct (Rle_lt_dec (val (c_v0 x)) (val (c_v1 x))) as [Lv|Lv].
        + destruct (segment_up flip (request x) D _ _ A ltac:(lra) Hr) as (seg & n & h & a & s & E & _ & _ & S). eauto.
        + destruct (segment_down flip (request x) D _ _ A Lv Hr) as (seg & n & h & a & s & E & _ & _ & _ & S). eauto.
      - rewrite <- Eq in A. destruct (segment_travel flip (request x) D _ A ltac:(lia) Hv) as (seg & k & E & _ & S & _). eauto. }
    change MAX_STEPS_PER_SEGMENT with 32767%Z. destruct (32767 <? D)%Z eqn:L.
    + destruct H as [H|[[Ne Hr']|[Eq Hv]]]; [lia|destruct Hr' as [Hr' _ _ _ _]; lia|].
      destruct (f64_of_f32_val _ F0) as [D0 W0].
      destruct (divide_runs x (val (c_v0 x)) F0 F1 eq_refl (eq_sym Eq) Hv ltac:(fold D; lia) (Z.to_nat (divisions_of D)) 0%Z (f64_of_f32 (c_v0 x)) st false D0 W0 N)
        as (st' & ok & new & E & Ok1 & Se & Ns & N').
      change (ls_v0 (request x)) with (f64_of_f32 (c_v0 x)). fold D in E. rewrite E. cbn [obind].
      assert (Q : divisions_of D <> 0%Z) by (unfold divisions_of; pose proof (Z.div_pos D MAX_STEPS_PER_SEGMENT ltac:(lia) ltac:(reflexivity)); lia).
      assert (ok = true) as -> by (apply Ok1; pose proof (Z.div_pos D MAX_STEPS_PER_SEGMENT ltac:(lia) ltac:(reflexivity)); unfold divisions_of in *; lia).
      exists (shrink st'), new. split; [reflexivity|]. destruct (shrink_runs st') as [-> Ns']. auto.
    + destruct (Hr ltac:(lia)) as (seg & E & S). destruct (internal_runs st (request x) D seg N E) as (st' & Ei & Se & N').
      rewrite Ei. cbn [obind]. exists (shrink st'), [(seg, true)]. split; [reflexivity|]. destruct (shrink_runs st') as [-> Ns'].
      split; [exact Se|]. split; [constructor; [exact S|constructor]|exact Ns'].
Qed.

Lemma pulses_app : forall level l1 l2 m a b, pulses_of level l1 m = Some a -> pulses_of level l2 m = Some b -> pulses_of level (l1 ++ l2) m = Some (a + b)%Z.
Proof.
  intros level l1. induction l1 as [|s l1 IH]; intros l2 m a b H1 H2; cbn [app pulses_of] in *; [now injection H1 as <-|].
  destruct (pru_signed_steps (level s) s m) as [k|]; [|discriminate]. destruct (pulses_of level l1 m) as [j|] eqn:E; [|discriminate]. injection H1 as <-.
  rewrite (IH l2 m j b E H2). f_equal. lia.
Qed.

Lemma all_run : forall xs (st : mops B), mo_shadow st <> [] -> Forall follows xs ->
  exists st' new, enqueue_all flip st xs = Ok st' /\ mo_sent st' = mo_sent st ++ new /\ Forall (fun e => snd e = true) new /\
    forall level m, pulses_of level (map fst new) m = Some (if flip m then (- total (fun x => c_steps x m) xs)%Z else total (fun x => c_steps x m) xs).
Proof.
  induction xs as [|x xs IH]; intros st N H.
  - exists st, []. rewrite app_nil_r. repeat split; [constructor|]. intros level m. cbn. now destruct (flip m).
  - inversion H as [|y l Hx Hxs]; subst. destruct (enqueue_runs st x N Hx) as (s1 & new1 & E1 & S1 & R1 & N1).
    destruct (IH s1 N1 Hxs) as (s2 & new2 & E2 & S2 & A2 & P2). cbn [enqueue_all]. rewrite E1. cbn [obind]. exists s2, (new1 ++ new2).
    assert (I : forall m, is_abs_int (ls_steps (request x) m)) by (intros m; destruct Hx as [_ _ HI _]; specialize (HI m); unfold is_abs_int, INT_MAX; cbn [request ls_steps]; lia).
    split; [exact E2|]. split; [now rewrite S2, S1, app_assoc|]. split.
    + apply Forall_app. split; [|exact A2]. destruct (mops_enqueue_spec flip st s1 (request x) true I E1) as (l & Hl & _ & _ & Ht & _).
      unfold sent_segments in Hl. rewrite S1 in Hl. apply app_inv_head in Hl. subst l. specialize (Ht eq_refl). revert Ht. apply Forall_impl. now intros [s b].
    + intros level m. rewrite map_app. pose proof (C33_end_to_end_steps ieee_speed B flip st s1 (request x) new1 level I E1 S1 R1 m) as Q1. cbn [request ls_steps] in Q1.
      rewrite (pulses_app _ _ _ _ _ _ Q1 (P2 level m)). f_equal. cbn [total fold_right]. fold (total (fun x => c_steps x m) xs). destruct (flip m); lia.
Qed.
End Accepting.

(** ** From the path to the pulses *)

(** If the motors follow every command the planner sends for a path, then every motor of
    an axis makes, in pulses at its step pin counted with the sign of its direction pin, just
    the way from the home position to the end of the path; and a motor of no axis makes none.
    (Mirrored motors turn the other way.) This is for every queue that takes all segments. *)
Theorem C73_pulses : forall c os st (B : backend) b0 mirrored, willing c -> Model_Planner.history c (os ++ [Halt]) = Ok st ->
  Forall (fun o => match o with Drive _ _ _ _ _ | Position _ _ => False | _ => True end) os ->
  (forall b s, snd (b_enqueue B b s) = true) ->
  Forall follows (sent (p_log st)) ->
  exists ms, enqueue_all mirrored (mops_init B b0) (rev (sent (p_log st))) = Ok ms /\
    forall level m,
      (forall a, turns_for c m a -> pulses_of level (map fst (mo_sent ms)) m =
         let way := (ends c (at_home c) os a - at_home c a)%Z in Some (if mirrored m then - way else way)%Z) /\
      ((forall a, Z.testbit (hw_drivers (p_hw c) a) (motor_ix m) = false) -> pulses_of level (map fst (mo_sent ms)) m = Some 0%Z).
Proof.
  intros c os st B b0 mirrored W E F T Fo.
  destruct (all_run B mirrored T (rev (sent (p_log st))) (mops_init B b0)) as (ms & new & E1 & S1 & _ & P).
  { cbn [mops_init mo_shadow]. discriminate. }
  { now apply Forall_rev. }
  exists ms. split; [exact E1|]. intros level m. cbn [mops_init mo_sent app] in S1. rewrite S1. rewrite (P level m). split.
  - intros a Ta. cbv zeta. rewrite total_rev, (C26_total c os st W E F m a Ta). reflexivity.
  - intros N. destruct (halted_all c os st W E) as (gs & G1 & G2). rewrite <- G2.
    assert (Q : total (fun x => c_steps x m) (concat gs) = 0%Z).
    { clear - G1 N. induction G1 as [|g l gs ls H _ IH]; [reflexivity|]. cbn [concat]. rewrite total_app, IH. destruct H as (_ & H & _). rewrite H; [reflexivity|]. intros a. rewrite N. discriminate. }
    rewrite Q. now destruct (mirrored m).
Qed.
Print Assumptions C73_pulses.

(** ** A path on a machine *)
Definition to_x (x : Z) : axis -> fl := fun a => match a with AX => f32_of_f64 (f64_div (f64_of_Z x) (f64_of_Z 100)) | _ => f32_of_Z 0%Z end.
Definition there : list call := [Move (to_x 1000) (f32_of_Z 50) 0%Z].
Definition there_state : planner := outcome_get (Model_Planner.history mill (there ++ [Halt])).
Lemma three_of : forall (l : list command), (Z.of_nat (length l) =? 3)%Z = true -> l = [nth 0 l no_command; nth 1 l no_command; nth 2 l no_command].
Proof. intros [|a [|b [|d [|e l]]]] H; try discriminate H; [reflexivity|]. apply Z.eqb_eq in H. cbn [length] in H. lia. Qed.
Lemma follows_of : forall x v0 v1 n, c_v0 x = v0 -> c_v1 x = v1 -> (forall m, c_steps x m = match m with M1 => n | _ => 0%Z end) -> (1 <= n <= 32767)%Z -> fin32 v0 -> fin32 v1 ->
  val v0 <> val v1 /\ ramp_request (val v0) (val v1) n \/ val v0 = val v1 /\ / 10 <= val v0 -> follows x.
Proof.
  intros x v0 v1 n <- <- E B F0 F1 H. constructor; auto; [intros m; rewrite E; destruct m; lia|]. cbv zeta.
  assert (M : most (c_steps x) = n). { unfold most. cbn [fold_right all_motors]. rewrite !E. cbn [Z.abs]. repeat rewrite Z.max_id. rewrite (Z.abs_eq n), (Z.max_l n 0) by lia. reflexivity. }
  rewrite M. right. exact H.
Qed.
Ltac ramp := unfold accel_of; match goal with |- context [Rabs ?x] => let y := fresh in set (y := x); assert (y <= -10 \/ 10 <= y) by (unfold y; lra); unfold Rabs; destruct (Rcase_abs y); unfold y in *; lra end.
Lemma there_follows : Forall follows (sent (p_log there_state)).
Proof.
  rewrite (three_of (sent (p_log there_state))) by (vm_compute; reflexivity).
  set (top := S754_finite false 10240000 (-11)).
  assert (Ft : fin32 top) by (split; reflexivity). assert (F0 : fin32 (S754_zero false)) by (split; reflexivity).
  assert (Vt : val top = 5000) by (unfold top; rewrite val_finite; change (bpow radix2 (-11)) with (/ 2048); lra). assert (V0 : val (S754_zero false) = 0) by reflexivity.
  apply Forall_cons; [|apply Forall_cons; [|apply Forall_cons; [|apply Forall_nil]]].
  - apply (follows_of _ top (S754_zero false) 125); try (vm_compute; reflexivity); try assumption; [intros m; destruct m; vm_compute; reflexivity|lia|]. left. rewrite Vt, V0. split; [lra|]. constructor; try lia; try lra; ramp.
  - apply (follows_of _ top top 750); try (vm_compute; reflexivity); try assumption; [intros m; destruct m; vm_compute; reflexivity|lia|]. right. rewrite Vt. lra.
  - apply (follows_of _ (S754_zero false) top 125); try (vm_compute; reflexivity); try assumption; [intros m; destruct m; vm_compute; reflexivity|lia|]. left. rewrite Vt, V0. split; [lra|]. constructor; try lia; try lra; ramp.
Qed.
(** The 1000 steps of the way arrive at the motor of the X axis. *)
Example C73_example : exists st ms, Model_Planner.history mill (there ++ [Halt]) = Ok st /\
  enqueue_all (fun _ => false) (mops_init accept_all []) (rev (sent (p_log st))) = Ok ms /\
  (forall level, pulses_of level (map fst (mo_sent ms)) M1 = Some 1000%Z) /\ (forall level, pulses_of level (map fst (mo_sent ms)) M8 = Some 0%Z).
Proof.
  assert (E : Model_Planner.history mill (there ++ [Halt]) = Ok there_state) by (apply outcome_got; vm_compute; reflexivity).
  destruct (C73_pulses mill there there_state accept_all [] (fun _ => false) (fun _ => eq_refl) E) as (ms & E1 & P).
  - constructor; [exact I|constructor].
  - intros b s. reflexivity.
  - exact there_follows.
  - exists there_state, ms. split; [exact E|]. split; [exact E1|]. split; intros level; destruct (P level M1) as [P1 _]; destruct (P level M8) as [_ P8].
    + rewrite (P1 AX (proj1 mill_turns)). vm_compute. reflexivity.
    + apply P8. intros a. destruct a; reflexivity.
Qed.

(** ** The machine stops in mid-motion *)

(** Four legs in one direction. The second one, of 20 steps, speeds up from 5000 steps per
    second to what can be reached in 19 steps, but the third is to be half a thousandth step
    per second slower; so the last step of the second slows down by that. For this the
    motor operations reckon with more than 14 million half steps since the start, for which
    their delay is 0; less the time the firmware needs, that is 43 seconds, for each half step. *)
Definition slow_feed : fl := f32_of_f64 (f64_div (f64_of_Z 53665623) (f64_of_Z 1000000)).
Definition stall_path : list call :=
  [Move (to_x 1000) (f32_of_Z 50) 0%Z; Move (to_x 1020) (f32_of_Z 100) 0%Z; Move (to_x 2020) slow_feed 0%Z; Move (to_x 4020) (f32_of_Z 100) 0%Z; Halt].
Definition stall_state : planner := outcome_get (Model_Planner.history mill stall_path).
Definition stall_sent : list command := rev (sent (p_log stall_state)).
Definition stalled : command := nth 3 stall_sent no_command.
Definition stall_segment : motion_segment := match make_segment (fun _ => false) (request stalled) 1 with Ok s => s | Undefined => ex_segment 0 0 0 0 0 end.
Lemma fourth_of : forall (l : list command), (4 <=? Z.of_nat (length l))%Z = true -> l = firstn 3 l ++ nth 3 l no_command :: skipn 4 l.
Proof. intros [|a [|b [|d [|e l]]]] H; try discriminate H. reflexivity. Qed.
Lemma to_segment : forall o : outcome motion_segment, (match o with Ok _ => true | Undefined => false end) = true -> o = Ok (match o with Ok s => s | Undefined => ex_segment 0 0 0 0 0 end).
Proof. intros [s|] H; [reflexivity|discriminate]. Qed.
Lemma passes_got : forall (o : option (list pru_loop)) l, option_map (map pl_delay) o = Some l -> exists ps, o = Some ps /\ map pl_delay ps = l.
Proof. intros [ps|] l H; [|discriminate]. injection H as <-. eauto. Qed.

Theorem C73_stall_refuted : exists os st before x behind seg passes,
  willing mill /\ drivable mill 100000 /\
  Forall (fun o => match o with Move _ f _ => good_feed f | Halt => True | _ => False end) os /\ Forall (good_leg mill) (legs mill (at_home mill) os) /\
  Model_Planner.history mill os = Ok st /\ rev (sent (p_log st)) = before ++ x :: behind /\
  most (c_steps x) = 1%Z /\ make_segment (fun _ => false) (request x) 1 = Ok seg /\ pru_execute seg = Some passes /\
  exists p, In p passes /\ IZR (pl_delay p) > 42 * clock.
Proof.
  destruct (passes_got (pru_execute stall_segment) [4294967224; 4294967224; 0]%Z ltac:(vm_compute; reflexivity)) as (ps & Ep & Hp).
  exists stall_path, stall_state, (firstn 3 stall_sent), stalled, (skipn 4 stall_sent), stall_segment, ps.
  split; [intros l; reflexivity|]. split; [exact C29_drivable|]. split.
  { unfold stall_path. repeat (apply Forall_cons; [first [apply good_Z; lia|exact I|idtac]|]); [|apply Forall_nil].
    assert (E : slow_feed = S754_finite false 14068121 (-18)) by (vm_compute; reflexivity).
    rewrite E. split; [split; reflexivity|]. rewrite val_finite. change (bpow radix2 (-18)) with (/ 262144). lra. }
  split.
  { assert (G : forall l x, (forall a, l_steps l a = match a with AX => x | _ => 0 end)%Z -> (x <> 0)%Z -> (Z.abs x <= 100000)%Z -> good_leg mill l).
    { intros l x E N Bx. split; [intros a; rewrite E; destruct a; lia|]. split; [intros; apply mill_driven|]. exists M1, AX. split; [apply mill_turns|]. now rewrite E. }
    unfold stall_path. cbn [legs Spec_Planner.asks after]. 
    repeat match goal with |- context [if ?b then _ else _] => let v := eval vm_compute in b in replace b with v by (vm_compute; reflexivity); cbv iota end.
    cbn [app]. constructor; [apply (G _ 1000%Z); [intros a; destruct a; vm_compute; reflexivity|lia|lia]|].
    constructor; [apply (G _ 20%Z); [intros a; destruct a; vm_compute; reflexivity|lia|lia]|].
    constructor; [apply (G _ 1000%Z); [intros a; destruct a; vm_compute; reflexivity|lia|lia]|].
    constructor; [apply (G _ 2000%Z); [intros a; destruct a; vm_compute; reflexivity|lia|lia]|constructor]. }
  split; [apply outcome_got; vm_compute; reflexivity|]. split; [unfold stalled; unfold stall_sent; apply fourth_of; vm_compute; reflexivity|]. split; [vm_compute; reflexivity|].
  split; [unfold stall_segment; apply to_segment; vm_compute; reflexivity|]. split; [exact Ep|].
  destruct ps as [|p ps]; [discriminate Hp|]. exists p. split; [now left|]. injection Hp as -> _. unfold clock. lra.
Qed.
Print Assumptions C73_stall_refuted.
