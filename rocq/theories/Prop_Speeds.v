(** C29: the speed does not jump from one command to the next. *)
From Coq Require Import SpecFloat Reals Lra.
From Flocq Require Import Core IEEE754.BinarySingleNaN.
From Verif Require Import Base Model_Float Model_Axis Model_Hardware Model_Planner Spec_Real Spec_Planner Spec_Speeds Proofs_Real Proofs_Profile Proofs_Speeds Proofs_Joints Proofs_Limits Proofs_Corner Proofs_Path Prop_Planner.
Open Scope Z_scope.
Open Scope R_scope.

Lemma drivable_less : forall c A, drivable c A -> drivable c (Rmin A (bpow radix2 44)).
Proof.
  intros c A [D1 D2 D3 D4 D5 D6 D7 D8]. constructor; auto.
  - apply Rmin_glb_lt; [exact D3|apply bpow_gt_0].
  - intros a Da. apply Rmin_glb; [auto|]. destruct (dr_spm _ _ Da) as [_ B1]. destruct (dr_acc _ _ Da) as [_ B2]. change (bpow radix2 44) with 17592186044416. apply Rle_trans with (1073741824 * 16384); [apply Rmult_le_compat; lra|lra].
Qed.
Lemma less_max : forall A, Rmin A (bpow radix2 44) <= bpow radix2 100.
Proof. intros A. eapply Rle_trans; [apply Rmin_r|]. apply bpow_le. lia. Qed.

Lemma history_new : forall c os st, history c os = Ok st -> exists s0, new_planner c = Ok s0 /\ perform_all c os s0 = Ok st.
Proof. intros c os st. unfold history. generalize (new_planner c) as n. intros [s0|] E; [|discriminate E]. exists s0. split; [reflexivity|exact E]. Qed.

(** On a machine with sane limits, the speeds of the commands sent for a path whose legs
    meet follow each other without a jump: at each joint the square of the speed changes by
    at most 5 A, that is by no more than in two and a half steps of an acceleration with A,
    the fastest of all axes. *)
Theorem C29_smooth : forall c A os st, willing c -> drivable c A -> suits c (at_home c) None os -> history c os = Ok st ->
  smooth (5 * A) 0 (rev (sent (p_log st))).
Proof.
  intros c A os st W D S E. apply history_new in E. destruct E as (s0 & N & E).
  pose proof (drivable_less _ _ D) as D'. pose proof (new_on_path c _ D' s0 N) as P.
  destruct (path_all c _ D' (less_max A) W os _ _ _ s0 st P S E) as (? & ? & ts & hd & pend & x & St & _). eapply smooth_more; [apply (y_smooth _ _ _ _ _ _ _ St)|].
  unfold J. pose proof (Rmin_l A (bpow radix2 44)). pose proof (dv_some _ _ D'). lra.
Qed.
Print Assumptions C29_smooth.

(** A halted path ends with the speed of its last steps. *)
Theorem C29_halt : forall c A os st, willing c -> drivable c A -> suits c (at_home c) None os -> history c (os ++ [Halt]) = Ok st ->
  smooth (5 * A) 0 (rev (sent (p_log st))) /\ final 0 (rev (sent (p_log st))) * final 0 (rev (sent (p_log st))) <= 5 / 2 * A.
Proof.
  intros c A os st W D S E. apply history_new in E. destruct E as (s0 & N & E).
  pose proof (drivable_less _ _ D) as D'. pose proof (new_on_path c _ D' s0 N) as P.
  destruct (path_halt c _ D' (less_max A) W os _ _ _ s0 st P S E) as (ts & ps & St & _). pose proof (Rmin_l A (bpow radix2 44)). pose proof (dv_some _ _ D'). split.
  - eapply smooth_more; [apply (y_smooth _ _ _ _ _ _ _ St)|]. unfold J. lra.
  - pose proof (y_close _ _ _ _ _ _ _ St) as C. unfold close, g in C. lra.
Qed.
Print Assumptions C29_halt.

(** ** A machine with 100 steps per mm for all axes, 100 mm/s and 1000 mm/s^2. *)
Definition mill_hw : hw :=
  mk_hw (fun _ => 0%Z) (fun _ => 0%Z) (fun a => match a with AX => 1 | AY => 2 | AZ => 12 | AE => 16 | _ => 0 end)%Z (fun _ => 0%Z) (fun _ => 0%Z) (fun _ => 0%Z)
        (fun _ => false) 0 0 0 0 false false 0 true [].
(** A coarse acos: 1 for cosines up to 0.708, and the angle [x] for all others. *)
Definition coarse_acos (x : fl) (y : fl) : fl := if SFleb y (f64_div (f64_of_Z 708) (f64_of_Z 1000)) then d1 else x.
Definition tenth : fl := f64_div d1 (f64_of_Z 10).
Definition mill : pcfg :=
  mk_pcfg (fun _ => f32_of_Z 100) (fun _ => f32_of_Z 200) (fun _ => f32_of_Z 100) (fun _ => f32_of_Z 1000)
          (f32_of_Z 10) (f32_of_Z 0) (fun _ => false) mill_hw (coarse_acos tenth) (fun _ => d1) (fun _ => 0%Z) (fun _ => 0%Z) (fun _ => true).
Lemma mill_val : forall z, (Z.abs z <= 2 ^ 24)%Z -> fin32 (f32_of_Z z) /\ val (f32_of_Z z) = IZR z.
Proof. exact f32_of_Z_val. Qed.
Lemma mill_driven : forall a, driven mill a.
Proof.
  intros a. destruct (mill_val 100 ltac:(lia)) as [F1 V1]. destruct (mill_val 1000 ltac:(lia)) as [F2 V2]. constructor; cbn [mill p_steps_per_mm p_max_feedrate p_acceleration]; (split; [assumption|]); rewrite ?V1, ?V2; lra.
Qed.
Lemma const_708 : fin64 (f64_div (f64_of_Z 708) (f64_of_Z 1000)) /\ 7075 / 10000 <= val (f64_div (f64_of_Z 708) (f64_of_Z 1000)).
Proof.
  set (x := f64_div (f64_of_Z 708) (f64_of_Z 1000)). vm_compute in x. split; [split; reflexivity|]. unfold x, val, SF2R, F2R. cbn [Fnum Fexp cond_Zopp]. change (bpow radix2 (-53)) with (/ 9007199254740992). lra.
Qed.
Lemma coarse_eighth : forall x y, fin64 y -> 0 <= val y <= 7071 / 10000 -> fin64 (coarse_acos x y) /\ 785405 / 1000000 <= val (coarse_acos x y) <= 2.
Proof.
  intros x y F B. destruct const_708 as [F7 V7]. destruct (f64_of_Z_val 1 ltac:(lia)) as [F5 V5]. unfold coarse_acos. rewrite (leb_val 53 1024) by auto. rewrite Rle_bool_true by lra. split; [exact F5|]. unfold d1. rewrite V5. lra.
Qed.
Example C29_drivable : drivable mill 100000.
Proof.
  destruct (mill_val 100 ltac:(lia)) as [F1 V1]. destruct (mill_val 1000 ltac:(lia)) as [F2 V2]. destruct (mill_val 10 ltac:(lia)) as [F3 V3]. destruct (mill_val 0 ltac:(lia)) as [F4 V4]. destruct (f64_of_Z_val 1 ltac:(lia)) as [F5 V5].
  constructor; cbn [mill p_steps_per_mm p_max_feedrate p_acceleration p_threshold p_tune p_acos p_cos]; intros; rewrite ?V1, ?V2, ?V3, ?V4; auto; try lra.
  - split; [exact F3|]. split; [exact F4|]. split; lra.
  - unfold coarse_acos. destruct (SFleb _ _); reflexivity.
  - split; [exact F5|]. unfold d1. rewrite V5. lra.
  - now apply coarse_eighth.
Qed.
Lemma good_Z : forall z, (1 <= z <= 1048576)%Z -> good_feed (f32_of_Z z).
Proof. intros z H. destruct (mill_val z ltac:(lia)) as [F V]. split; [exact F|]. rewrite V. split; [apply Rle_trans with 1; [lra|]|]; apply IZR_le; lia. Qed.
Lemma mill_turns : turns_for mill M1 AX /\ turns_for mill M2 AY /\ turns_for mill M5 AE.
Proof. repeat split; intros; destruct b; cbn in *; congruence. Qed.

(** A path with a slight turn, a sharp turn and a move that does nothing. *)
Definition mill_path : list call :=
  [Move (to_xyz 10 0 0) (f32_of_Z 50) 1; Move (to_xyz 20 1 0) (f32_of_Z 80) 3; Move (to_xyz 20 1 0) (f32_of_Z 80) 2; Lookahead 2; Move (to_xyz 20 (-9) 0) (f32_of_Z 80) 0; Halt; Move (to_xyz 0 0 0) (f32_of_Z 200) 0]%Z.
Lemma mill_good : forall l x y, (forall a, l_steps l a = match a with AX => x | AY => y | _ => 0 end)%Z -> (x <> 0 \/ y <> 0)%Z -> (Z.abs x <= 100000)%Z -> (Z.abs y <= 100000)%Z -> good_leg mill l.
Proof.
  intros l x y E N Bx By. split; [intros a; rewrite E; destruct a; lia|]. split; [intros; apply mill_driven|]. destruct mill_turns as (T1 & T2 & _). destruct N as [N|N]; [exists M1, AX|exists M2, AY]; (split; [assumption|]); now rewrite E.
Qed.
Lemma mill_leads : forall l x y, (forall a, l_steps l a = match a with AX => x | AY => y | _ => 0 end)%Z -> (Z.abs y <= Z.abs x)%Z -> leads l AX.
Proof. intros l x y E B. exists [], [AY; AZ; AA; AB; AC; AU; AV; AW; AE]. split; [reflexivity|]. split; [intros b []|]. intros b _. rewrite !E. destruct b; lia. Qed.
Lemma mill_sharp : forall p l, (l_steps p AX * l_steps l AX + l_steps p AY * l_steps l AY + l_steps p AZ * l_steps l AZ <= 0)%Z -> sharp mill p l.
Proof.
  intros p l H. unfold sharp, inner, way. change (p_steps_per_mm mill) with (fun _ : axis => f32_of_Z 100). cbv beta. destruct (mill_val 100 ltac:(lia)) as [_ V]. rewrite V. unfold distance.
  apply Rle_trans with 0; [|apply mul_pos; [lra|apply mul_pos; apply sqrt_pos]]. apply IZR_le in H. rewrite !plus_IZR, !mult_IZR in H. lra.
Qed.
Ltac steps := let a := fresh in intros a; destruct a; vm_compute; reflexivity.
Example C29_suits : suits mill (at_home mill) None mill_path.
Proof.
  assert (F : forall o r pos prev, (match o with Drive _ _ _ _ _ => False | Move _ f _ => good_feed f | _ => True end) ->
    match asks mill pos o with
    | [] => suits mill (after mill pos o) (match o with Halt | Position _ _ => None | _ => prev end) r
    | l :: _ => good_leg mill l /\ match prev with None => True | Some p => meet mill p l end /\ suits mill (after mill pos o) (Some l) r
    end -> suits mill pos prev (o :: r)) by (intros; split; assumption).
  unfold mill_path.
  assert (K : forall to f aux pos prev r x y, good_feed f -> (forall a, steps_at mill a (to a) - pos a = match a with AX => x | AY => y | _ => 0 end)%Z -> (x <> 0 \/ y <> 0)%Z -> (Z.abs x <= 100000)%Z -> (Z.abs y <= 100000)%Z ->
    match prev with None => True | Some p => exists u v, (forall a, l_steps p a = match a with AX => u | AY => v | _ => 0 end)%Z /\ ((Z.abs v <= Z.abs u /\ Z.abs y <= Z.abs x) \/ (u * x <= 0 /\ v * y <= 0))%Z end ->
    suits mill (fun a => steps_at mill a (to a)) (Some (mk_leg (fun a => steps_at mill a (to a) - pos a)%Z aux)) r ->
    suits mill pos prev (Move to f aux :: r)).
  { intros to f aux pos prev r x y Gf E N Bx By Pv S. apply F; [exact Gf|]. cbn [asks after].
    destruct (forallb (fun a => steps_at mill a (to a) - pos a =? 0)%Z all_axes) eqn:Q.
    - exfalso. rewrite forallb_forall in Q. assert (QX := Q AX ltac:(cbn; auto)). assert (QY := Q AY ltac:(cbn; auto)). rewrite (E AX) in QX. rewrite (E AY) in QY. lia.
    - split; [eapply mill_good; eauto|]. split; [|exact S]. destruct prev as [p|]; [|exact I]. destruct Pv as (u & v & Ep & [[L1 L2]|[L1 L2]]).
      + left. exists AX. split; eapply mill_leads; eauto.
      + right. apply mill_sharp. cbn [l_steps]. rewrite !Ep, !E. lia. }
  apply (K _ _ _ _ _ _ 1000%Z 0%Z); [apply good_Z; lia|steps|lia|lia|lia|exact I|].
  apply (K _ _ _ _ _ _ 1000%Z 100%Z); [apply good_Z; lia|steps|lia|lia|lia|exists 1000%Z, 0%Z; split; [steps|lia]|].
  apply F; [apply good_Z; lia|]. cbn [asks after].
  replace (forallb _ all_axes) with true by (vm_compute; reflexivity).
  apply F; [exact I|]. cbn [asks after].
  apply (K _ _ _ _ _ _ 0%Z (-1000)%Z); [apply good_Z; lia|steps|lia|lia|lia|exists 1000%Z, 100%Z; split; [steps|lia]|].
  apply F; [exact I|]. cbn [asks after].
  apply (K _ _ _ _ _ _ (-2000)%Z 900%Z); [apply good_Z; lia|steps|lia|lia|lia|exact I|exact I].
Qed.

(** ** Where the axis with most steps changes *)

(** If the next leg has another axis with most steps, its plan begins with the speed of the
    axis that had most steps before: AccelerationPlanSegment takes the factor of its own
    axis, which is 1. Two legs in the same direction with 10 mm, extruding 5 and then 40 mm:
    at the joint the extruder jumps from about 2500 to 5000 steps/s at once, which would take
    more than 90 steps at the acceleration allowed. *)
Definition to_xe (x e : Z) : axis -> fl := fun a => f32_of_Z (match a with AX => x | AE => e | _ => 0 end)%Z.
Definition change_path : list call := [Move (to_xe 10 5) (f32_of_Z 50) 0; Move (to_xe 20 45) (f32_of_Z 50) 0; Halt]%Z.
Definition outcome_get (o : outcome planner) : planner := match o with Ok st => st | Undefined => mk_planner [] 0 0 true true [] end.
Lemma outcome_got : forall o, (match o with Ok _ => true | Undefined => false end) = true -> o = Ok (outcome_get o).
Proof. intros [st|] H; [reflexivity|discriminate]. Qed.
Definition no_command : command := mk_command d0 d0 0 (fun _ => 0%Z).
Lemma two_of : forall (l : list command), (4 <=? Z.of_nat (length l))%Z = true -> l = firstn 1 l ++ nth 1 l no_command :: nth 2 l no_command :: skipn 3 l.
Proof. intros [|a [|b [|c l]]] H; try discriminate H. reflexivity. Qed.
Lemma val_finite : forall m e, val (S754_finite false m e) = IZR (Zpos m) * bpow radix2 e.
Proof. reflexivity. Qed.
Theorem C29_axis_change_refuted : exists os st before a b behind,
  willing mill /\ drivable mill 100000 /\
  Forall (fun o => match o with Move _ f _ => good_feed f | Halt => True | _ => False end) os /\ Forall (good_leg mill) (legs mill (at_home mill) os) /\
  history mill os = Ok st /\ rev (sent (p_log st)) = before ++ a :: b :: behind /\ turns_for mill M5 AE /\
  turning (c_v0 b) (c_steps b) M5 * turning (c_v0 b) (c_steps b) M5 - turning (c_v1 a) (c_steps a) M5 * turning (c_v1 a) (c_steps a) M5 > 180 * 100000.
Proof.
  set (st := outcome_get (history mill change_path)). set (cs := rev (sent (p_log st))).
  exists change_path, st, (firstn 1 cs), (nth 1 cs no_command), (nth 2 cs no_command), (skipn 3 cs).
  split; [intros l; reflexivity|]. split; [exact C29_drivable|]. split; [unfold change_path; repeat (apply Forall_cons; [first [apply good_Z; lia|exact I]|]); apply Forall_nil|]. split.
  { assert (G : forall l x e, (forall a, l_steps l a = match a with AX => x | AE => e | _ => 0 end)%Z -> (x <> 0)%Z -> (Z.abs x <= 100000)%Z -> (Z.abs e <= 100000)%Z -> good_leg mill l).
    { intros l x e E N Bx Be. split; [intros a; rewrite E; destruct a; lia|]. split; [intros; apply mill_driven|]. exists M1, AX. split; [apply mill_turns|]. now rewrite E. }
    unfold change_path. cbn [legs asks after]. destruct (forallb _ all_axes) eqn:Q1; [vm_compute in Q1; discriminate|]. destruct (forallb _ all_axes) eqn:Q2; [vm_compute in Q2; discriminate|].
    cbn [app]. constructor; [apply (G _ 1000%Z 500%Z); [steps|lia|lia|lia]|]. constructor; [apply (G _ 1000%Z 4000%Z); [steps|lia|lia|lia]|constructor]. }
  split; [apply outcome_got; vm_compute; reflexivity|]. split; [apply two_of; vm_compute; reflexivity|]. split; [apply mill_turns|].
  unfold turning. set (a := nth 1 cs no_command). set (b := nth 2 cs no_command).
  assert (E1 : c_v1 a = S754_finite false 10240000 (-11)) by (vm_compute; reflexivity). assert (E2 : c_v0 b = S754_finite false 10240000 (-11)) by (vm_compute; reflexivity).
  assert (E3 : c_steps a M5 = 437%Z) by (vm_compute; reflexivity). assert (E4 : most (c_steps a) = 875%Z) by (vm_compute; reflexivity).
  assert (E5 : c_steps b M5 = 375%Z) by (vm_compute; reflexivity). assert (E6 : most (c_steps b) = 375%Z) by (vm_compute; reflexivity).
  rewrite E1, E2, E3, E4, E5, E6, val_finite. change (bpow radix2 (-11)) with (/ 2048). cbn [Z.abs]. lra.
Qed.
Print Assumptions C29_axis_change_refuted.

(** ** A single step *)

(** A move of one step between halts is planned with the speed 0 at both ends: ramps of
    less than one step are left out. (C31_zero_speed_undefined_refuted shows what becomes of
    such a command in the motor backend: a division by zero.) *)
Definition to_step : axis -> fl := fun a => match a with AX => f32_div (f32_of_Z 1) (f32_of_Z 100) | _ => f32_of_Z 0 end.
Theorem C29_single_step_refuted : exists st a, history mill [Move to_step (f32_of_Z 50) 0; Halt]%Z = Ok st /\
  rev (sent (p_log st)) = [a] /\ c_v0 a = d0 /\ c_v1 a = d0 /\ c_steps a M1 = 1%Z.
Proof.
  set (st := outcome_get (history mill [Move to_step (f32_of_Z 50) 0; Halt]%Z)). exists st, (nth 0 (rev (sent (p_log st))) no_command).
  assert (L : forall l : list command, (Z.of_nat (length l) =? 1)%Z = true -> l = [nth 0 l no_command]) by (intros [|x [|y l]] H; [discriminate H|reflexivity|apply Z.eqb_eq in H; cbn [length] in H; lia]).
  split; [apply outcome_got; vm_compute; reflexivity|]. split; [apply L; vm_compute; reflexivity|]. split; [vm_compute; reflexivity|]. split; vm_compute; reflexivity.
Qed.
Print Assumptions C29_single_step_refuted.
