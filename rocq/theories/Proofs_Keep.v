(** The calls of the planner, one after the other, keep to the limits. *)
From Coq Require Import SpecFloat Reals Lra FunctionalExtensionality.
From Flocq Require Import Core IEEE754.BinarySingleNaN.
From Verif Require Import Base Model_Float Model_Axis Model_Hardware Model_Planner Spec_Real Spec_Planner Spec_Speeds Spec_Limits Proofs_Planner Proofs_Real Proofs_Ramp Proofs_Profile Proofs_Speeds Proofs_Joints Proofs_Limits Proofs_Corner Proofs_Path Proofs_Within Proofs_Sound.
Open Scope Z_scope.
Open Scope R_scope.

(** ** A command for driving directly *)
Lemma near32 : forall r, 0 <= r -> 0 <= rnd32 r <= about * r + / 1048576 /\ r <= about * rnd32 r + / 1048576.
Proof.
  intros r P. assert (N : 0 <= rnd32 r) by (apply rnd_pos; auto with typeclass_instances). unfold about. destruct (Rle_lt_dec (bpow radix2 (-100)) r) as [B|B].
  - destruct (up_rnd32 r) as [U1 U2]; [now rewrite Rabs_pos_eq|]. rewrite !Rabs_pos_eq in * by assumption. apply up_about in U1; [|lia|exact P]. apply up_about in U2; [|lia|exact N]. unfold about in *. lra.
  - assert (L : rnd32 r <= bpow radix2 (-100)). { rewrite <- (Rabs_pos_eq (rnd32 r) N). apply (rnd_abs_le 24 128 _ (-100)); [vm_compute; discriminate|]. rewrite Rabs_pos_eq by exact P. lra. }
    assert (bpow radix2 (-100) <= bpow radix2 (-20)) by (apply bpow_le; lia). change (bpow radix2 (-20)) with (/ 1048576) in H. lra.
Qed.
Section Drive.
Variable c : pcfg.
Variable a : axis.
Hypothesis Da : driven c a.
Lemma capped : forall v, fin32 v -> 0 <= val v <= 1048576 ->
  let w := fmin (f32_mul v (spm c a)) (max_axis_speed c a) in let r := Rmin (val v * val (p_steps_per_mm c a)) (max_speed c a) in
  0 <= val w <= about * r + / 1048576 /\ r <= about * val w + / 1048576 /\ val w <= about * max_speed c a.
Proof.
  intros v F B w r. destruct Da as [[Fs Bs] [Ff Bf] _]. unfold r, w, max_axis_speed, max_speed. clear r w. fold (spm c a) in *.
  destruct (mul_le 24 128 _ _ 20 14 v (spm c a)) as (F1 & V1 & B1); auto; try exps; [rewrite Rabs_pos_eq by lra; change (bpow radix2 20) with 1048576; lra|rewrite Rabs_pos_eq by lra; change (bpow radix2 14) with 16384; lra|].
  destruct (mul_le 24 128 _ _ 20 14 (p_max_feedrate c a) (spm c a)) as (F2 & V2 & B2); auto; try exps; [rewrite Rabs_pos_eq by lra; change (bpow radix2 20) with 1048576; lra|rewrite Rabs_pos_eq by lra; change (bpow radix2 14) with 16384; lra|].
  destruct (min_val 24 128 (f32_mul v (spm c a)) (f32_mul (p_max_feedrate c a) (spm c a)) F1 F2) as [_ Vm]. rewrite Vm. change (SFmul 24 128) with f32_mul in *. rewrite V1, V2.
  assert (P1 : 0 <= val v * val (spm c a)) by (apply mul_pos; lra). assert (P2 : 0 <= val (p_max_feedrate c a) * val (spm c a)) by (apply mul_pos; lra).
  destruct (near32 _ P1) as [N1 N2]. destruct (near32 _ P2) as [M1 M2]. fold rnd32 in *.
  assert (G : rnd32 (val (p_max_feedrate c a) * val (spm c a)) <= about * (val (p_max_feedrate c a) * val (spm c a))).
  { destruct (up_rnd32 (val (p_max_feedrate c a) * val (spm c a))) as [U1 _].
    - rewrite Rabs_pos_eq by assumption. apply Rle_trans with (bpow radix2 (-14)); [apply bpow_le; lia|]. change (bpow radix2 (-14)) with (/ 16384). replace (/ 16384) with (/ 1024 * / 16) by lra. apply Rmult_le_compat; lra.
    - rewrite !Rabs_pos_eq in U1 by (lra || assumption). apply up_about in U1; [exact U1|lia|exact P2]. }
  unfold about in *. set (x := val v * val (spm c a)) in *. set (y := val (p_max_feedrate c a) * val (spm c a)) in *. unfold Rmin. destruct (Rle_dec (rnd32 x) (rnd32 y)), (Rle_dec x y); lra.
Qed.
Lemma drive_within : forall x v0 v1 aux, (forall v, v = v0 \/ v = v1 -> fin32 v /\ 0 <= val v <= 1048576) ->
  let g := [mk_command (fmin (f32_mul v0 (spm c a)) (max_axis_speed c a)) (fmin (f32_mul v1 (spm c a)) (max_axis_speed c a)) aux (assign_motor_steps (p_hw c) a (steps_at c a x) (fun _ => 0%Z))] in
  let o := (mk_leg (fun b => if axis_eqb b a then steps_at c a x else 0)%Z aux, @None fl) in
  in_speed c g o /\ in_accel c g o.
Proof.
  intros x v0 v1 aux G g o. set (l := fst o).
  assert (C : carries_out c g l).
  { split; [|split; [|split; [|split]]].
    - intros m b T. cbn [total fold_right g c_steps l o fst l_steps]. unfold assign_motor_steps. rewrite Z.add_0_r. specialize (T a).
      destruct (Z.testbit (hw_drivers (p_hw c) a) (motor_ix m)) eqn:Tb.
      + rewrite (proj1 T eq_refl). now destruct (axis_eqb_spec b b).
      + destruct (axis_eqb_spec b a) as [->|NE]; [|reflexivity]. destruct T as [_ T]. specialize (T eq_refl). discriminate.
    - intros m T. cbn [total fold_right g c_steps]. unfold assign_motor_steps. specialize (T a). now destruct (Z.testbit _ _).
    - repeat constructor.
    - cbn. lia.
    - exact Logic.I. }
  split; (split; [exact C|]); [split|]; try exact Logic.I. apply Forall_cons; [|apply Forall_nil]. intros b v N E. cbn [o fst l_steps] in *. destruct (axis_eqb_spec b a) as [->|]; [|congruence].
  assert (W : 0 <= val v /\ val v <= about * max_speed c a) by (destruct E as [-> | ->]; cbn [c_v0 c_v1]; [destruct (G v0 (or_introl eq_refl)) as [F B]|destruct (G v1 (or_intror eq_refl)) as [F B]]; destruct (capped _ F B) as (H1 & _ & H2); split; auto; apply H1).
  split; [apply W|]. assert (S1 : share l a = 1).
  { unfold share. assert (E1 : longest l = Z.abs (steps_at c a x)).
    { unfold longest, l, o. cbn [fst l_steps]. clear. generalize (steps_at c a x). intros z. destruct a; cbn; lia. }
    rewrite E1. unfold l, o. cbn [fst l_steps]. destruct (axis_eqb_spec a a); [|congruence]. unfold Rdiv. apply Rinv_r. apply not_0_IZR. lia. }
  unfold l, o in S1. cbn [fst] in S1. rewrite S1. lra.
Qed.
End Drive.

(** ** All calls *)
Section Calls.
Variable c : pcfg.
Variable A : R.
Hypothesis Dv : drivable c A.
Hypothesis Amax : A <= bpow radix2 100.
Hypothesis Will : willing c.
Let A1 := 1001 / 1000 * A.
Definition fits (g : list command) (o : leg * option fl) : Prop := in_speed c g o /\ in_accel c g o.
Notation sound := (sound A1 fits (stems c)).
Definition keeps (pos : axis -> Z) (ord : list (leg * option fl)) (st : planner) : Prop :=
  exists hd pend, sound ord hd pend st /\ (forall a, last_pos (p_buf st) a = pos a) /\ (1 <= p_look st)%Z /\ apt (s_target (last (p_buf st) dummy)).
Lemma makes : forall s o, stems c (s_target s) o -> good A1 s -> fits (group c s) o.
Proof. intros s o. apply leg_within. exact Dv. Qed.

Lemma keeps_step : forall o pos ord st st', keeps pos ord st -> sane_call c pos o -> perform c o st = Ok st' -> keeps (after c pos o) (ord ++ order c pos o) st'.
Proof.
  pose proof (A1_max c A Dv Amax) as AM. fold A1 in AM.
  intros o pos ord st st' (hd & pend & S & P & L & Q) So E. unfold order. destruct o as [to f aux| |a dd v0 v1 aux|a p|n]; cbn [perform] in E.
  - destruct So as [Gf Gl]. destruct (machine_move c to f aux st) as [[ret st1]|] eqn:M; [|discriminate]. injection E as <-.
    destruct (sound_move A1 AM c Will fits (stems c) makes ord hd pend st to f aux ret st1 S L M) as [Lk Cases]. cbv zeta in *.
    set (pv := s_target (last (p_buf st) dummy)) in *. assert (Pv : t_pos pv = pos) by (apply functional_extensionality; exact P).
    set (np := fun a => steps_at c a (to a)) in *. cbn [after asks] in *.
    destruct Cases as [[-> Z0]|[[a Na] Go]].
    + assert (B : forallb (fun a => steps_at c a (to a) - pos a =? 0)%Z all_axes = true). { apply forallb_forall. intros a _. specialize (Z0 a). rewrite Pv in Z0. unfold np in Z0. lia. }
      rewrite B. cbn [map]. rewrite app_nil_r. exists hd, pend. split; [exact S|]. split; [|auto]. intros a. rewrite P. specialize (Z0 a). rewrite Pv in Z0. unfold np in *. lia.
    + assert (B : forallb (fun a => steps_at c a (to a) - pos a =? 0)%Z all_axes = false).
      { apply Bool.not_true_iff_false. intros X. rewrite forallb_forall in X. specialize (X a (all_axes_in a)). rewrite Pv in Na. unfold np in Na. lia. }
      rewrite B in *. apply Forall_inv in Gl. assert (Gl' : good_leg c (mk_leg (fun a => np a - t_pos pv a)%Z aux)) by (rewrite Pv; exact Gl).
      destruct (new_able c A Dv pv np f aux Q Gl' Gf) as [Ab Ap]. cbn [map].
      assert (Fr : stems c (new_target c pv np f aux) (mk_leg (fun a => np a - pos a)%Z aux, Some f)).
      { exists pv, np, f, aux. rewrite Pv in *. repeat (split; [assumption||reflexivity|]). reflexivity. }
      destruct (Go _ Ab Fr) as (hd' & pend' & S' & P' & T'). exists hd', pend'. split; [exact S'|]. split; [exact P'|]. split; [lia|].
      destruct pend' as [|s0 r0] eqn:Ep; [|rewrite <- Ep in *].
      * rewrite (z_buf _ _ _ _ _ _ _ S'), app_nil_r. destruct (z_hd _ _ _ _ _ _ _ S') as [->|[ps ->]]; [apply no_target_apt|apply held_apt].
      * assert (Ne : pend' <> []) by (rewrite Ep; discriminate). specialize (T' Ne). rewrite (z_buf _ _ _ _ _ _ _ S'), last_app by exact Ne. rewrite T'. exact Ap.
  - destruct (sound_halt A1 c Will fits (stems c) makes ord hd pend st S) as (s2 & ps & E2 & S2 & P2 & L2 & _). rewrite E in E2. injection E2 as <-. cbn [asks after map]. rewrite app_nil_r.
    exists [holder ps], []. split; [exact S2|]. rewrite (z_buf _ _ _ _ _ _ _ S2). cbn [app]. split; [intros a; rewrite <- P; exact (P2 a)|]. split; [lia|]. apply held_apt.
  - destruct (direct_drive c a dd v0 v1 aux st) as [[n s1]|] eqn:D; [|discriminate]. injection E as <-. destruct So as [Da Gv]. cbn [asks map after].
    destruct (sound_drive A1 c Will fits (stems c) makes ord hd pend st a dd v0 v1 aux n s1 (mk_leg (fun b => if axis_eqb b a then steps_at c a dd else 0)%Z aux, None) S D) as (ps & S2 & L2 & P2); [now apply drive_within|].
    exists [holder ps], []. split; [exact S2|]. rewrite (z_buf _ _ _ _ _ _ _ S2). cbn [app]. split; [intros b; rewrite <- P; exact (P2 b)|]. split; [lia|]. apply held_apt.
  - destruct (sound_position A1 c fits (stems c) ord hd pend st a p st' S E) as (ps & S2 & L2 & P2). cbn [asks after map]. rewrite app_nil_r.
    exists [holder ps], []. split; [exact S2|]. rewrite (z_buf _ _ _ _ _ _ _ S2). cbn [app]. split; [|split; [lia|apply held_apt]].
    intros b. change (last_pos [holder ps] b) with (ps b). rewrite P2. assert (X : last_pos (p_buf st) = pos) by (apply functional_extensionality; exact P). now rewrite X.
  - cbn [asks after map]. rewrite app_nil_r. injection E as <-. exists hd, pend. unfold set_lookahead. destruct ((n <=? 0) || (PLANNING_BUFFER_CAPACITY <? n))%Z%bool eqn:N; cbn [snd]; [auto|]. cbn [p_buf p_look].
    split; [|split; [exact P|split; [lia|auto]]]. destruct S as [B N0 H C Rd Hlt Sm]. constructor; auto.
Qed.
Lemma keeps_all : forall os pos ord st st', keeps pos ord st -> sane_calls c pos os -> perform_all c os st = Ok st' -> exists pos', keeps pos' (ord ++ orders c pos os) st'.
Proof.
  induction os as [|o os IH]; intros pos ord st st' H S E; cbn [perform_all orders] in *; [injection E as <-; exists pos; now rewrite app_nil_r|]. destruct (perform c o st) as [s1|] eqn:P; [|discriminate].
  destruct S as [So S]. rewrite app_assoc. eapply IH; [|exact S|exact E]. eapply keeps_step; eauto.
Qed.
Lemma keeps_halt : forall os pos ord st st', keeps pos ord st -> sane_calls c pos os -> perform_all c (os ++ [Halt]) st = Ok st' ->
  exists ps, sound (ord ++ orders c pos os) [holder ps] [] st'.
Proof.
  intros os pos ord st st' H S E. assert (X : exists s1, perform_all c os st = Ok s1 /\ bring_to_halt c s1 = Ok st').
  { clear H S. revert st E. induction os as [|o os IH]; intros st E; cbn [app perform_all] in *.
    - cbn [perform] in E. destruct (bring_to_halt c st) eqn:B; [|discriminate]. exists st. split; [reflexivity|]. now rewrite B in *.
    - destruct (perform c o st); [|discriminate]. now apply IH. }
  destruct X as (s1 & E1 & E2). destruct (keeps_all os pos ord st s1 H S E1) as (? & hd & pend & S1 & _).
  destruct (sound_halt A1 c Will fits (stems c) makes _ hd pend s1 S1) as (s2 & ps & E3 & S2 & _). rewrite E2 in E3. injection E3 as <-. eauto.
Qed.
Lemma keeps_home : forall l s0 ps s1, sound [] [holder ps] [] s0 -> p_look s0 = 1024%Z -> fold_left (fun o a => obind o (external_position c a (if p_home_max c a then p_range c a else d0))) l (Ok s0) = Ok s1 ->
    exists ps', sound [] [holder ps'] [] s1 /\ p_look s1 = 1024%Z /\ (forall a, ps' a = if existsb (axis_eqb a) l then at_home c a else ps a).
Proof.
  induction l as [|a l IH]; intros s0 ps s1 S Lk F; cbn [fold_left] in F; [injection F as <-; exists ps; cbn; auto|]. cbn [obind] in F.
    destruct (external_position c a _ s0) as [s2|] eqn:X.
    - destruct (sound_position A1 c fits (stems c) _ _ _ s0 a _ s2 S X) as (ps2 & S2 & L2 & P2). destruct (IH s2 ps2 s1 S2 ltac:(lia) F) as (ps3 & S3 & L3 & P3). exists ps3. split; [exact S3|]. split; [exact L3|].
      intros b. rewrite P3, P2. cbn [existsb]. rewrite (z_buf _ _ _ _ _ _ _ S). change (last_pos ([holder ps] ++ [])) with ps. unfold set_axis. destruct (existsb (axis_eqb b) l); [now rewrite Bool.orb_true_r|]. rewrite Bool.orb_false_r.
      destruct (axis_eqb_spec b a) as [->|]; [|reflexivity]. symmetry. apply home_is.
    - exfalso. clear - F. induction l; [discriminate|]. now apply IHl.
Qed.
Lemma new_keeps : forall st, new_planner c = Ok st -> keeps (at_home c) [] st.
Proof.
  assert (F : sound [] [holder (fun _ => 0%Z)] [] fresh_planner).
  { unfold fresh_planner. constructor; cbn [p_buf p_ready p_log p_halted length app]; auto; try discriminate; try lia; [right; eauto|]. exists [], [], []. repeat split; constructor. }
  intros st E. rewrite new_planner_is in E. destruct (keeps_home all_axes fresh_planner (fun _ => 0%Z) st F eq_refl E) as (ps & S & L & P).
  exists [holder ps], []. split; [exact S|]. rewrite (z_buf _ _ _ _ _ _ _ S). cbn [app]. split; [|split; [lia|apply held_apt]].
  intros a. change (last_pos [holder ps] a) with (ps a). rewrite P, on_every. reflexivity.
Qed.
End Calls.
