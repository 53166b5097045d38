(** C80: from the G-code to the pulses at the motors. *)
From Coq Require Import Reals Lra SpecFloat.
From Flocq Require Import Core.
From Verif Require Import Base Text Model_Float Model_Axis Model_Hardware Model_Machine Model_Planner Model_MotorOps Model_Speed Model_Pru Model_Chain Model_Whole
  Spec_Machine Spec_Real Spec_Motion Spec_Planner Spec_Speeds Spec_Timing Spec_Chain Spec_Whole
  Proofs_Real Proofs_Whole Prop_Motion Prop_Planner Prop_Speeds Prop_Chain Prop_Whole.
Open Scope Z_scope.

(** As C80_position, at the step and direction pins: if the motors follow every command the
    planner sends (C73), then from the end of homing to the stop every motor of the axis gets
    just the pulses, counted with the sign of the direction pin, of the way from the
    switch to the last accepted target. Mirrored motors turn the other way. This is for every
    queue that takes all segments. *)
Theorem C80_pulses : forall c h answers s0 p, machine_init c h answers = Some s0 -> plans_for c (m_hw s0) p -> willing p ->
  forall before b between e s s1 s2,
    Model_Machine.perform_all c before s0 = (Some tt, s) -> stop_on s = false -> completes c (GoHome b) s s1 ->
    Model_Machine.perform_all c (between ++ [e]) s1 = (Some tt, s2) ->
    existsb repositions (between ++ [e]) = false -> stops e = true ->
  forall st1 st2 (B : backend) b0 mirrored, plan c (m_hw s0) p s1 = Ok st1 -> plan c (m_hw s0) p s2 = Ok st2 ->
    Forall follows (sent (p_log st1)) -> Forall follows (sent (p_log st2)) -> (forall x y, snd (b_enqueue B x y) = true) ->
  exists new ms1 ms2, m_log s2 = m_log s1 ++ new /\
    enqueue_all mirrored (mops_init B b0) (rev (sent (p_log st1))) = Ok ms1 /\
    enqueue_all mirrored (mops_init B b0) (rev (sent (p_log st2))) = Ok ms2 /\
    forall level m a, In a (axes_to_home c b (c_home_order c)) -> drives (m_hw s0) m a ->
      exists n1 n2, pulses_of level (map fst (mo_sent ms1)) m = Some n1 /\ pulses_of level (map fst (mo_sent ms2)) m = Some n2 /\
        let way := in_steps c p a (last_target (switch_pos c) new a) - in_steps c p a (switch_pos c a) in
        n2 - n1 = (if mirrored m then - way else way).
Proof.
  intros c h answers s0 p I PF W before b between e s s1 s2 E0 S E1 E2 R St st1 st2 B b0 mirrored P1 P2 F1 F2 T.
  destruct (C80_position c h answers s0 p I PF W before b between e s s1 s2 E0 S E1 E2 R St st1 st2 P1 P2) as (new & L & Way & _).
  assert (N0 : mo_shadow (mops_init B b0) <> []) by (cbn [mops_init mo_shadow]; discriminate).
  destruct (all_run B mirrored T (rev (sent (p_log st1))) (mops_init B b0) N0 (Forall_rev F1)) as (ms1 & l1 & Q1 & S1 & _ & Pu1).
  destruct (all_run B mirrored T (rev (sent (p_log st2))) (mops_init B b0) N0 (Forall_rev F2)) as (ms2 & l2 & Q2 & S2 & _ & Pu2).
  exists new, ms1, ms2. split; [exact L|]. split; [exact Q1|]. split; [exact Q2|]. intros level m a Ia D. specialize (Way m a Ia D). unfold sent_steps in Way.
  cbn [mops_init mo_sent app] in S1, S2. rewrite S1, S2, (Pu1 level m), (Pu2 level m), !total_rev. eexists _, _. split; [reflexivity|]. split; [reflexivity|]. cbv zeta. rewrite <- Way. destruct (mirrored m); lia.
Qed.
Print Assumptions C80_pulses.

(** ** A machine that homes X at the near end and moves 10 mm *)
Definition vc : mcfg := mk_mcfg (fun a => match a with AX | AY => f32_of_Z 100 | _ => f32_of_Z 0 end) (fun _ => f32_of_Z 100) (fun _ => f32_of_Z 50) (fun _ => f32_of_Z 1000)
  (fun _ => f32_of_Z 5) (fun _ => f32_of_Z 5) (f32_of_Z 1) (txt "XYZ") (fun a => match a with AX => TrigMin | _ => TrigNone end)
  0 0 0 true true (txt "z") false true wcape.
Definition vh : hw := hw_run wcape [HwConfig (txt "switch-mapping") (txt "switch_1") (txt "min_x"); HwAddMotor AX 1 false; HwAddMotor AY 2 false; HwInit true; HwUpdateOutput OutEstop false].
Definition vp (h : hw) : pcfg :=
  mk_pcfg (Model_Machine.c_steps vc) (c_range vc) (c_feed vc) (c_accel vc) (f32_of_Z 10) (f32_of_Z 0) (fun a => match c_home vc a with TrigMax => true | _ => false end) h
    (fun x => x) (fun x => x) (fun _ => 0) (fun _ => 0) (fun _ => true).
Definition v_answers : list Z := [0; 0; 0; 0; 0; 0; 0; 0; 1; 1; 0; 0; 0; 0; 1; 1; 0; 0; 0].
Definition v0m : machine := match machine_init vc vh v_answers with Some s => s | None => start_state vc vh [] end.
Definition vs1 : machine := snd (Model_Machine.perform vc (GoHome 1) v0m).
Definition vs2 : machine := snd (Model_Machine.perform_all vc [CoordinatedMove (f32_of_Z 50) (w_to 10 0); Dwell] vs1).
Definition vst1 : planner := outcome_get (plan vc (m_hw v0m) (vp (m_hw v0m)) vs1).
Definition vst2 : planner := outcome_get (plan vc (m_hw v0m) (vp (m_hw v0m)) vs2).
Lemma follows_signed : forall x v0 v1 n, c_v0 x = v0 -> c_v1 x = v1 -> (forall m, Model_Planner.c_steps x m = match m with M1 => n | _ => 0 end) -> 1 <= Z.abs n <= 32767 -> fin32 v0 -> fin32 v1 ->
  val v0 <> val v1 /\ ramp_request (val v0) (val v1) (Z.abs n) \/ val v0 = val v1 /\ (/ 10 <= val v0)%R -> follows x.
Proof.
  intros x v0 v1 n <- <- E B F0 F1 H. constructor; auto; [intros m; rewrite E; destruct m; lia|]. cbv zeta.
  assert (M : most (Model_Planner.c_steps x) = Z.abs n).
  { unfold most. cbn [fold_right all_motors]. rewrite !E. change (Z.abs 0) with 0. repeat rewrite Z.max_id. rewrite Z.max_l by lia. reflexivity. }
  rewrite M. right. exact H.
Qed.
Lemma six_of : forall (l : list command), (Z.of_nat (length l) =? 6) = true ->
  l = [nth 0 l no_command; nth 1 l no_command; nth 2 l no_command; nth 3 l no_command; nth 4 l no_command; nth 5 l no_command].
Proof. intros [|a [|b [|d [|e [|f [|g [|i l]]]]]]] H; try discriminate H; [reflexivity|]. apply Z.eqb_eq in H. cbn [length] in H. lia. Qed.
Lemma vst2_follows : Forall follows (sent (p_log vst2)).
Proof.
  rewrite (six_of (sent (p_log vst2))) by (vm_compute; reflexivity).
  set (top := S754_finite false 10240000 (-11)). set (low := S754_finite false 16384000 (-15)).
  assert (Ft : fin32 top) by (split; reflexivity). assert (F0 : fin32 (S754_zero false)) by (split; reflexivity). assert (Fl : fin32 low) by (split; reflexivity).
  assert (Vt : val top = 5000%R) by (unfold top; rewrite val_finite; change (bpow radix2 (-11)) with (/ 2048)%R; lra). assert (V0 : val (S754_zero false) = 0%R) by reflexivity.
  assert (Vl : val low = 500%R) by (unfold low; rewrite val_finite; change (bpow radix2 (-15)) with (/ 32768)%R; lra).
  apply Forall_cons; [|apply Forall_cons; [|apply Forall_cons; [|apply Forall_cons; [|apply Forall_cons; [|apply Forall_cons; [|apply Forall_nil]]]]]].
  - apply (follows_signed _ top (S754_zero false) 125); try (vm_compute; reflexivity); try assumption; [intros m; destruct m; vm_compute; reflexivity|lia|]. left. rewrite Vt, V0. change (Z.abs 125) with 125. split; [lra|]. constructor; try lia; try lra; ramp.
  - apply (follows_signed _ top top 750); try (vm_compute; reflexivity); try assumption; [intros m; destruct m; vm_compute; reflexivity|lia|]. right. rewrite Vt. split; [reflexivity|lra].
  - apply (follows_signed _ (S754_zero false) top 125); try (vm_compute; reflexivity); try assumption; [intros m; destruct m; vm_compute; reflexivity|lia|]. left. rewrite Vt, V0. change (Z.abs 125) with 125. split; [lra|]. constructor; try lia; try lra; ramp.
  - apply (follows_signed _ low low 5); try (vm_compute; reflexivity); try assumption; [intros m; destruct m; vm_compute; reflexivity|lia|]. right. rewrite Vl. split; [reflexivity|lra].
  - apply (follows_signed _ low low (-50)); try (vm_compute; reflexivity); try assumption; [intros m; destruct m; vm_compute; reflexivity|lia|]. right. rewrite Vl. split; [reflexivity|lra].
  - apply (follows_signed _ (S754_zero false) low (-50)); try (vm_compute; reflexivity); try assumption; [intros m; destruct m; vm_compute; reflexivity|lia|]. left. rewrite Vl, V0. change (Z.abs (-50)) with 50. split; [lra|]. constructor; try lia; try lra; ramp.
Qed.
Lemma vst1_follows : Forall follows (sent (p_log vst1)).
Proof.
  rewrite (three_of (sent (p_log vst1))) by (vm_compute; reflexivity).
  set (low := S754_finite false 16384000 (-15)).
  assert (F0 : fin32 (S754_zero false)) by (split; reflexivity). assert (Fl : fin32 low) by (split; reflexivity). assert (V0 : val (S754_zero false) = 0%R) by reflexivity.
  assert (Vl : val low = 500%R) by (unfold low; rewrite val_finite; change (bpow radix2 (-15)) with (/ 32768)%R; lra).
  apply Forall_cons; [|apply Forall_cons; [|apply Forall_cons; [|apply Forall_nil]]].
  - apply (follows_signed _ low low 5); try (vm_compute; reflexivity); try assumption; [intros m; destruct m; vm_compute; reflexivity|lia|]. right. rewrite Vl. split; [reflexivity|lra].
  - apply (follows_signed _ low low (-50)); try (vm_compute; reflexivity); try assumption; [intros m; destruct m; vm_compute; reflexivity|lia|]. right. rewrite Vl. split; [reflexivity|lra].
  - apply (follows_signed _ (S754_zero false) low (-50)); try (vm_compute; reflexivity); try assumption; [intros m; destruct m; vm_compute; reflexivity|lia|]. left. rewrite Vl, V0. change (Z.abs (-50)) with 50. split; [lra|]. constructor; try lia; try lra; ramp.
Qed.
(** The hypotheses hold for this machine, and the motor of X gets 1000 pulses more. *)
Lemma v_done : forall A (r : option A * machine) x, fst r = Some x -> r = (Some x, snd r).
Proof. intros A [r s] x H. cbn in *. now subst. Qed.
Example C80_pulses_example : exists ms1 ms2,
  enqueue_all (fun _ => false) (mops_init accept_all []) (rev (sent (p_log vst1))) = Ok ms1 /\
  enqueue_all (fun _ => false) (mops_init accept_all []) (rev (sent (p_log vst2))) = Ok ms2 /\
  forall level, exists n1 n2, pulses_of level (map fst (mo_sent ms1)) M1 = Some n1 /\ pulses_of level (map fst (mo_sent ms2)) M1 = Some n2 /\ n2 - n1 = 1000.
Proof.
  assert (C1 : completes vc (GoHome 1) v0m vs1) by (apply (v_done _ (Model_Machine.perform vc (GoHome 1) v0m)); vm_compute; reflexivity).
  assert (C2 : Model_Machine.perform_all vc ([CoordinatedMove (f32_of_Z 50) (w_to 10 0)] ++ [Dwell]) vs1 = (Some tt, vs2)).
  { apply (v_done _ (Model_Machine.perform_all vc [CoordinatedMove (f32_of_Z 50) (w_to 10 0); Dwell] vs1)). vm_compute. reflexivity. }
  destruct (C80_pulses vc vh v_answers v0m (vp (m_hw v0m)) eq_refl ltac:(repeat split) (fun _ => eq_refl)
    [] 1 [CoordinatedMove (f32_of_Z 50) (w_to 10 0)] Dwell v0m vs1 vs2 eq_refl ltac:(vm_compute; reflexivity)
    C1 C2 eq_refl eq_refl
    vst1 vst2 accept_all [] (fun _ => false) ltac:(apply outcome_got; vm_compute; reflexivity) ltac:(apply outcome_got; vm_compute; reflexivity)
    vst1_follows vst2_follows (fun _ _ => eq_refl)) as (new & ms1 & ms2 & L & E1 & E2 & P).
  exists ms1, ms2. split; [exact E1|]. split; [exact E2|]. intros level.
  assert (D : drives (m_hw v0m) M1 AX).
  { intros b. split; [|intros ->; vm_compute; reflexivity]. intros H. destruct b; [reflexivity| | | | | | | | |]; vm_compute in H; discriminate H. }
  destruct (P level M1 AX ltac:(vm_compute; auto) D) as (n1 & n2 & Q1 & Q2 & Q3). exists n1, n2. split; [exact Q1|]. split; [exact Q2|]. rewrite Q3. cbv beta iota zeta.
  assert (T : last_target (switch_pos vc) new AX = f32_of_Z 10).
  { assert (X : new = skipn (length (m_log vs1)) (m_log vs2)) by (rewrite L, skipn_app, skipn_all, Nat.sub_diag; reflexivity). rewrite X. vm_compute. reflexivity. }
  rewrite T. vm_compute. reflexivity.
Qed.
