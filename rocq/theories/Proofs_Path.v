(** The calls of the planner for a sane path: the targets, the segments and the commands. *)
From Coq Require Import SpecFloat Reals Lra FunctionalExtensionality.
From Flocq Require Import Core IEEE754.BinarySingleNaN.
From Verif Require Import Base Model_Float Model_Axis Model_Planner Spec_Planner Spec_Speeds Proofs_Planner Proofs_Real Proofs_Ramp Proofs_Profile Proofs_Speeds Proofs_Joints Proofs_Limits Proofs_Corner.
Open Scope Z_scope.
Open Scope R_scope.

Section New.
Variable c : pcfg.
Variable A : R.
Hypothesis Dv : drivable c A.

Record made (t : target) : Prop := mk_made {
  m_axis : t_axis t = snd (defining (t_delta t)); m_dx : t_dx t = delta_mm c (t_delta t) AX; m_dy : t_dy t = delta_mm c (t_delta t) AY; m_dz : t_dz t = delta_mm c (t_delta t) AZ; m_len : t_len t = length_mm c (t_delta t)
}.
Lemma new_made : forall prev pos f aux, made (new_target c prev pos f aux).
Proof. intros. constructor; reflexivity. Qed.

Section One.
Variable prev : target.
Variable pos : axis -> Z.
Variable f : fl.
Variable aux : Z.
Hypothesis Ap : apt prev.
Let delta a := (pos a - t_pos prev a)%Z.
Hypothesis Gl : good_leg c (mk_leg delta aux).
Hypothesis Gf : good_feed f.
Let d := snd (defining delta).
Let t := new_target c prev pos f aux.

Lemma few : forall a, (Z.abs (delta a) <= 2 ^ 31)%Z.
Proof. intros a. destruct Gl as [F _]. specialize (F a). cbn [l_steps] in F. lia. Qed.
Lemma drv : forall a, delta a <> 0%Z -> driven c a.
Proof. apply Gl. Qed.
Lemma d_moves : delta d <> 0%Z.
Proof. destruct Gl as (_ & _ & m & a & _ & N). cbn [l_steps] in N. pose proof (defining_most delta a). fold d in H. lia. Qed.

Definition draft : target := mk_target pos delta d (speed0 c delta d f) (speed0 c delta d f) d0 aux (delta_mm c delta AX) (delta_mm c delta AY) (delta_mm c delta AZ) (length_mm c delta).
Lemma draft_apt : apt draft.
Proof.
  assert (M : forall a, fin64 (delta_mm c delta a) /\ Rabs (val (delta_mm c delta a)) <= bpow radix2 35).
  { intros a. split; [apply (delta_mm_mag c A Dv delta few drv)|apply (mm_bound c A Dv delta few drv)]. }
  destruct (speed0_ok c A Dv delta few drv d d_moves f Gf) as [F B].
  constructor; cbn [draft t_delta t_dx t_dy t_dz t_len t_speed]; auto; [exact few|apply (length_ok c A Dv delta few drv)|]. split; [exact F|]. split; [|apply B]. eapply Rle_trans; [apply bpow_ge_0|apply B].
Qed.
Lemma new_is : t = mk_target pos delta d (fmin (joining_speed c prev draft (f64_of_f32 (p_threshold c)) (f64_of_f32 (p_tune c))) (speed0 c delta d f)) (fmin (top c delta d) (speed0 c delta d f)) (acc c delta d) aux
  (delta_mm c delta AX) (delta_mm c delta AY) (delta_mm c delta AZ) (length_mm c delta).
Proof. reflexivity. Qed.

Lemma new_able : able (1001 / 1000 * A) t /\ apt t.
Proof.
  destruct (speed0_ok c A Dv delta few drv d d_moves f Gf) as [F0 B0]. destruct (limits_ok c A Dv delta few drv d d_moves) as (Ft & Fa & Bt & Ba & Rm).
  destruct (joining_ok c A Dv prev draft Ap draft_apt) as (Fj & Pj & _). destruct (min_val 53 1024 _ _ Fj F0) as [F1 V1]. destruct (min_val 53 1024 _ _ Ft F0) as [F2 V2].
  assert (P0 : 0 < val (speed0 c delta d f)) by (eapply Rlt_le_trans; [apply bpow_gt_0|apply B0]). assert (Pt : 0 < val (top c delta d)) by (eapply Rlt_le_trans; [apply bpow_gt_0|apply Bt]).
  pose proof (Rmin_l (val (top c delta d)) (val (speed0 c delta d f))) as R1. assert (R2 : 0 < Rmin (val (top c delta d)) (val (speed0 c delta d f))) by (now apply Rmin_glb_lt).
  rewrite new_is. split.
  - constructor; cbn [t_speed t_accel t_start t_delta t_axis reach]; auto.
    + rewrite V2. apply Rmin_glb; [eapply Rle_trans; [|apply Bt]|eapply Rle_trans; [|apply B0]]; apply bpow_le; lia.
    + rewrite V2. eapply Rle_trans; [exact R1|]. eapply Rle_trans; [apply Bt|]. apply bpow_le. lia.
    + eapply Rle_trans; [|exact Rm]. unfold q. rewrite V2. apply Rmult_le_compat; lra.
    + unfold reach. cbn [t_delta t_axis]. pose proof (few d). pose proof d_moves. lia.
    + intros x. unfold reach. cbn [t_delta t_axis]. apply defining_most.
    + rewrite V1. apply Rmin_glb; lra.
  - destruct draft_apt as [Q1 Q2 Q3 Q4 Q6 Q5]. cbn [draft t_delta t_dx t_dy t_dz t_len t_speed] in *. constructor; cbn [t_delta t_dx t_dy t_dz t_len t_speed]; auto. split; [exact F2|]. rewrite V2. split; [lra|]. eapply Rle_trans; [exact R1|]. eapply Rle_trans; [apply Bt|]. apply bpow_le. lia.
Qed.
Lemma new_moving : moving c t.
Proof. destruct Gl as (_ & _ & m & a & T & N). exists m. change (t_delta t) with delta. now rewrite (assign_turns c delta m a T). Qed.

Lemma new_start : val (joining_speed c prev draft (f64_of_f32 (p_threshold c)) (f64_of_f32 (p_tune c))) = 0 -> val (t_start t) = 0.
Proof.
  intros Z. rewrite new_is. cbn [t_start]. destruct (speed0_ok c A Dv delta few drv d d_moves f Gf) as [F0 B0]. destruct (joining_ok c A Dv prev draft Ap draft_apt) as (Fj & _). destruct (min_val 53 1024 _ _ Fj F0) as [_ V1]. rewrite V1, Z.
  apply Rmin_left. eapply Rle_trans; [apply bpow_ge_0|apply B0].
Qed.
Lemma new_sharp : forall p, made prev -> t_delta prev = l_steps p -> good_leg c p -> sharp c p (mk_leg delta aux) -> val (t_start t) = 0.
Proof.
  intros p [_ Mx My Mz Ml] E Gp Sh. apply new_start. apply (sharp_zero c A Dv prev draft p (mk_leg delta aux) Ap draft_apt Gp Gl); [|repeat split|exact Sh].
  rewrite E in *. repeat split; assumption.
Qed.
Lemma new_from_rest : forall ps, prev = no_target ps -> val (t_start t) = 0.
Proof.
  intros ps E. apply new_start. destruct (joining_ok c A Dv prev draft Ap draft_apt) as (_ & _ & Z). apply Z. destruct (dot_ok prev draft Ap draft_apt) as [_ Dt].
  apply Dt; rewrite E; cbn [no_target t_dx t_dy t_dz]; change (val d0) with 0; lra.
Qed.
Lemma new_alike : forall p, made prev -> t_delta prev = l_steps p -> good_leg c p -> meet c p (mk_leg delta aux) -> alike prev t.
Proof.
  intros p M E Gp [(a & L1 & L2)|Op].
  - left. apply leads_defining in L1. apply leads_defining in L2. destruct M as [Ma _ _ _ _]. rewrite Ma, E, L1. symmetry. exact L2.
  - right. now apply (new_sharp p).
Qed.
End One.
End New.

(** ** All calls *)
Section Calls.
Variable c : pcfg.
Variable A : R.
Hypothesis Dv : drivable c A.
Hypothesis Amax : A <= bpow radix2 100.
Hypothesis Will : willing c.
Let A1 := 1001 / 1000 * A.
Lemma A1_pos : 0 < A1.
Proof. pose proof (dv_some _ _ Dv). unfold A1. lra. Qed.
Lemma A1_max : A1 <= bpow radix2 200.
Proof. assert (bpow radix2 101 <= bpow radix2 200) by (apply bpow_le; lia). change (bpow radix2 101) with (bpow radix2 (1 + 100)) in H. rewrite bpow_plus in H. change (bpow radix2 1) with 2 in H. pose proof (dv_some _ _ Dv). unfold A1. lra. Qed.

(** The targets are for the legs asked for; those behind a sharp corner begin at rest. *)
Definition latest (prev : option leg) (ls : list leg) : option leg := fold_left (fun _ l => Some l) ls prev.
Definition corner (prev : option leg) (l : leg) : Prop := match prev with None => True | Some p => sharp c p l end.
Fixpoint aimed (prev : option leg) (ts : list target) (ls : list leg) : Prop :=
  match ts, ls with
  | [], [] => True
  | t :: ts', l :: ls' => t_delta t = l_steps l /\ t_aux t = l_aux l /\ (corner prev l -> val (t_start t) = 0) /\ aimed (Some l) ts' ls'
  | _, _ => False
  end.
Lemma aimed_snoc : forall ts ls prev t l, aimed prev ts ls -> t_delta t = l_steps l -> t_aux t = l_aux l -> (corner (latest prev ls) l -> val (t_start t) = 0) -> aimed prev (ts ++ [t]) (ls ++ [l]).
Proof.
  induction ts as [|u ts IH]; intros [|k ls] prev t l H D X S; cbn [aimed] in H; try (exfalso; exact H).
  - cbn. auto.
  - destruct H as (H1 & H2 & H3 & H4). cbn [app aimed]. split; [exact H1|]. split; [exact H2|]. split; [exact H3|]. apply IH; auto.
Qed.
Definition on_path (ls : list leg) (pos : axis -> Z) (prev : option leg) (st : planner) : Prop :=
  exists ts hd pend x, steady A1 c ts hd pend x st /\ aimed None ts ls /\ (forall a, last_pos (p_buf st) a = pos a) /\ (1 <= p_look st)%Z /\ apt (s_target (last (p_buf st) dummy)) /\
    (pend = [] \/ exists p, prev = Some p /\ made c (s_target (last pend dummy)) /\ t_delta (s_target (last pend dummy)) = l_steps p /\ good_leg c p /\ latest None ls = Some p).
Lemma last_app : forall (l1 l2 : list pseg) x, l2 <> [] -> last (l1 ++ l2) x = last l2 x.
Proof. intros l1 l2 x N. destruct (exists_last N) as (l' & y & ->). now rewrite app_assoc, !last_last. Qed.
Lemma held_apt : forall pos, apt (s_target (last [holder pos] dummy)).
Proof. intros. apply no_target_apt. Qed.

Lemma path_step : forall o os ls pos prev st st', on_path ls pos prev st -> suits c pos prev (o :: os) -> perform c o st = Ok st' ->
  exists prev', on_path (ls ++ asks c pos o) (after c pos o) prev' st' /\ suits c (after c pos o) prev' os.
Proof.
  intros o os ls pos prev st st' (ts & hd & pend & x & S & Am & P & L & Q & K) Su E. cbn [suits] in Su. destruct Su as [So Su]. destruct o as [to f aux| |a dd v0 v1 aux|a p|n]; cbn [perform] in E.
  - destruct (machine_move c to f aux st) as [[ret st1]|] eqn:M; [|discriminate]. injection E as <-.
    destruct (steady_move A1 A1_max A1_pos c Will ts hd pend x st to f aux ret st1 S L M) as [Lk Cases]. cbv zeta in *.
    set (pv := s_target (last (p_buf st) dummy)) in *. assert (Pv : t_pos pv = pos) by (apply functional_extensionality; exact P).
    set (np := fun a => steps_at c a (to a)) in *. cbn [after] in *. fold np in Su. cbn [asks] in Su |- *.
    destruct Cases as [[-> Z0]|[[a Na] Go]].
    + assert (B : forallb (fun a => steps_at c a (to a) - pos a =? 0)%Z all_axes = true). { apply forallb_forall. intros a _. specialize (Z0 a). rewrite Pv in Z0. unfold np in Z0. lia. }
      rewrite B in Su |- *. rewrite app_nil_r. exists prev. split; [|exact Su]. exists ts, hd, pend, x. split; [exact S|]. split; [exact Am|]. split; [|auto]. intros a. rewrite P. specialize (Z0 a). rewrite Pv in Z0. unfold np in *. lia.
    + assert (B : forallb (fun a => steps_at c a (to a) - pos a =? 0)%Z all_axes = false).
      { apply Bool.not_true_iff_false. intros X. rewrite forallb_forall in X. specialize (X a (all_axes_in a)). rewrite Pv in Na. unfold np in Na. lia. }
      rewrite B in Su |- *. destruct Su as (Gl & Mt & Su). assert (Gl' : good_leg c (mk_leg (fun a => np a - t_pos pv a)%Z aux)) by (rewrite Pv; exact Gl).
      destruct (new_able c A Dv pv np f aux Q Gl' So) as [Ab Ap]. destruct (Go Ab (new_moving c pv np f aux Gl')) as (hd' & pend' & x' & S' & P' & T').
      { destruct K as [K|(p & -> & Md & Ed & Gp & La)]; [now left|]. destruct pend as [|s0 r0] eqn:Ep; [now left|rewrite <- Ep in *; right].
        assert (Ne : pend <> []) by (rewrite Ep; discriminate). assert (El : last pend dummy = last (p_buf st) dummy) by (rewrite (y_buf _ _ _ _ _ _ _ S); symmetry; now apply last_app).
          rewrite El in Md, Ed. eapply (new_alike c A Dv pv np f aux Q Gl' So p Md Ed Gp). rewrite Pv. exact Mt. }
      assert (Td : t_delta (new_target c pv np f aux) = fun a => (np a - pos a)%Z) by (cbn; now rewrite Pv).
      assert (St : corner (latest None ls) (mk_leg (fun a => np a - pos a)%Z aux) -> val (t_start (new_target c pv np f aux)) = 0).
      { intros Co. destruct K as [K|(p & -> & Md & Ed & Gp & La)].
        - assert (X : exists ps, pv = no_target ps).
          { unfold pv. rewrite (y_buf _ _ _ _ _ _ _ S), K, app_nil_r. destruct (y_heads _ _ _ _ _ _ _ S) as [E0|[[ps E0] _]]; rewrite E0; [exists (fun _ => 0%Z)|exists ps]; reflexivity. }
          destruct X as [ps X]. exact (new_from_rest c A Dv pv np f aux Q Gl' So ps X).
        - rewrite La in Co. cbn [corner] in Co. destruct pend as [|s0 r0] eqn:Ep; [|rewrite <- Ep in *].
          + exfalso. cbn in Ed. destruct Gp as (_ & _ & m & a1 & _ & Na1). rewrite <- Ed in Na1. now destruct Na1.
          + assert (Ne : pend <> []) by (rewrite Ep; discriminate). assert (El : last pend dummy = last (p_buf st) dummy) by (rewrite (y_buf _ _ _ _ _ _ _ S); symmetry; now apply last_app).
            rewrite El in Md, Ed. apply (new_sharp c A Dv pv np f aux Q Gl' So p Md Ed Gp). rewrite Pv. exact Co. }
      exists (Some (mk_leg (fun a => np a - pos a)%Z aux)). split; [|exact Su]. exists (ts ++ [new_target c pv np f aux]), hd', pend', x'. split; [exact S'|]. split; [apply aimed_snoc; auto|]. split; [exact P'|]. split; [lia|].
      destruct pend' as [|s0 r0] eqn:Ep; [|rewrite <- Ep in *].
      * split; [|now left]. rewrite (y_buf _ _ _ _ _ _ _ S'), app_nil_r. destruct (y_heads _ _ _ _ _ _ _ S') as [->|[[ps ->] _]]; [apply no_target_apt|apply held_apt].
      * assert (Ne : pend' <> []) by (rewrite Ep; discriminate). specialize (T' Ne). rewrite (y_buf _ _ _ _ _ _ _ S'), last_app by exact Ne. rewrite T'. split; [exact Ap|]. right. eexists. split; [reflexivity|]. split; [apply new_made|]. split; [exact Td|]. split; [exact Gl|]. unfold latest. rewrite fold_left_app. reflexivity.
  - destruct (steady_halt A1 A1_pos c Will ts hd pend x st S) as (s2 & ps & E2 & S2 & P2 & L2). rewrite E in E2. injection E2 as <-. cbn [asks after] in *. rewrite app_nil_r. exists None. split; [|exact Su].
    exists ts, [holder ps], [], 0. split; [exact S2|]. split; [exact Am|]. rewrite (y_buf _ _ _ _ _ _ _ S2). cbn [app]. split; [intros a; rewrite <- P; exact (P2 a)|]. split; [lia|]. split; [apply held_apt|now left].
  - destruct So.
  - destruct (steady_position A1 c ts hd pend x st a p st' S E) as (ps & S2 & L2 & P2). cbn [asks after] in *. rewrite app_nil_r. exists None. split; [|exact Su].
    exists ts, [holder ps], [], 0. split; [exact S2|]. split; [exact Am|]. rewrite (y_buf _ _ _ _ _ _ _ S2). cbn [app]. split; [|split; [lia|split; [apply held_apt|now left]]].
    intros b. change (last_pos [holder ps] b) with (ps b). rewrite P2. assert (X : last_pos (p_buf st) = pos) by (apply functional_extensionality; exact P). now rewrite X.
  - cbn [asks after] in *. rewrite app_nil_r. injection E as <-. exists prev. split; [|exact Su]. exists ts, hd, pend, x. unfold set_lookahead. destruct ((n <=? 0) || (PLANNING_BUFFER_CAPACITY <? n))%Z%bool eqn:N; cbn [snd]; [split; [exact S|]; split; [exact Am|]; auto|]. cbn [p_buf p_look].
    split; [|split; [exact Am|split; [exact P|split; [lia|auto]]]]. destruct S as [B N0 H C Li M Rd Hlt Sm Cl Se]. constructor; auto.
Qed.
Lemma path_all : forall os ls pos prev st st', on_path ls pos prev st -> suits c pos prev os -> perform_all c os st = Ok st' ->
  exists pos' prev', on_path (ls ++ legs c pos os) pos' prev' st'.
Proof.
  induction os as [|o os IH]; intros ls pos prev st st' H S E; cbn [perform_all] in E; [injection E as <-; cbn [legs]; rewrite app_nil_r; eauto|]. destruct (perform c o st) as [s1|] eqn:P; [|discriminate].
  destruct (path_step o os ls pos prev st s1 H S P) as (prev' & H1 & S1). cbn [legs]. rewrite app_assoc. eapply IH; eauto.
Qed.
Lemma path_halt : forall os ls pos prev st st', on_path ls pos prev st -> suits c pos prev os -> perform_all c (os ++ [Halt]) st = Ok st' ->
  exists ts ps, steady A1 c ts [holder ps] [] 0 st' /\ aimed None ts (ls ++ legs c pos os).
Proof.
  intros os ls pos prev st st' H S E. assert (X : exists s1, perform_all c os st = Ok s1 /\ bring_to_halt c s1 = Ok st').
  { clear H S. revert st E. induction os as [|o os IH]; intros st E; cbn [app perform_all] in *.
    - cbn [perform] in E. destruct (bring_to_halt c st) eqn:B; [|discriminate]. exists st. split; [reflexivity|]. now rewrite B in *.
    - destruct (perform c o st); [|discriminate]. now apply IH. }
  destruct X as (s1 & E1 & E2). destruct (path_all os ls pos prev st s1 H S E1) as (? & ? & ts & hd & pend & x & S1 & Am & _). destruct (steady_halt A1 A1_pos c Will ts hd pend x s1 S1) as (s2 & ps & E3 & S2 & _). rewrite E2 in E3. injection E3 as <-. eauto.
Qed.
Lemma home_is : forall a, at_home c a = steps_at c a (if p_home_max c a then p_range c a else d0).
Proof. intros a. unfold at_home. assert (E : f32_of_Z 0 = d0) by reflexivity. now rewrite E. Qed.
Lemma home_fold : forall l s0 ps s1, steady A1 c [] [holder ps] [] 0 s0 -> p_look s0 = 1024%Z -> fold_left (fun o a => obind o (external_position c a (if p_home_max c a then p_range c a else d0))) l (Ok s0) = Ok s1 ->
    exists ps', steady A1 c [] [holder ps'] [] 0 s1 /\ p_look s1 = 1024%Z /\ (forall a, ps' a = if existsb (axis_eqb a) l then at_home c a else ps a).
Proof.
  induction l as [|a l IH]; intros s0 ps s1 S Lk F; cbn [fold_left] in F; [injection F as <-; exists ps; cbn; auto|]. cbn [obind] in F.
    destruct (external_position c a _ s0) as [s2|] eqn:X.
    - destruct (steady_position A1 c _ _ _ _ s0 a _ s2 S X) as (ps2 & S2 & L2 & P2). destruct (IH s2 ps2 s1 S2 ltac:(lia) F) as (ps3 & S3 & L3 & P3). exists ps3. split; [exact S3|]. split; [exact L3|].
      intros b. rewrite P3, P2. cbn [existsb]. rewrite (y_buf _ _ _ _ _ _ _ S). change (last_pos ([holder ps] ++ [])) with ps. unfold set_axis. destruct (existsb (axis_eqb b) l); [now rewrite Bool.orb_true_r|]. rewrite Bool.orb_false_r.
      destruct (axis_eqb_spec b a) as [->|]; [|reflexivity]. symmetry. apply home_is.
    - exfalso. clear - F. induction l; [discriminate|]. now apply IHl.
Qed.
Definition fresh_planner : planner := mk_planner [holder (fun _ => 0%Z)] 0 PLANNING_BUFFER_CAPACITY true true [].
Lemma new_planner_is : new_planner c = fold_left (fun o a => obind o (external_position c a (if p_home_max c a then p_range c a else d0))) all_axes (Ok fresh_planner).
Proof. unfold new_planner, fresh_planner. reflexivity. Qed.
Lemma fresh_steady : steady A1 c [] [holder (fun _ => 0%Z)] [] 0 fresh_planner.
Proof.
  pose proof A1_pos as P1. unfold fresh_planner. constructor; cbn [p_buf p_ready p_log p_halted].
  - reflexivity.
  - discriminate.
  - right. split; [eauto|reflexivity].
  - apply chain_nil.
  - exact I.
  - constructor.
  - cbn [length]. lia.
  - reflexivity.
  - exact I.
  - unfold close, g, final. cbn [sent flat_map rev fold_left]. lra.
  - exists [], []. repeat split.
Qed.
Lemma on_every : forall a, existsb (axis_eqb a) all_axes = true.
Proof. intros a. now destruct a. Qed.
Lemma new_on_path : forall st, new_planner c = Ok st -> on_path [] (at_home c) None st.
Proof.
  intros st E. rewrite new_planner_is in E. destruct (home_fold all_axes fresh_planner (fun _ => 0%Z) st fresh_steady eq_refl E) as (ps & S & L & P).
  exists [], [holder ps], [], 0. split; [exact S|]. split; [exact I|]. rewrite (y_buf _ _ _ _ _ _ _ S). cbn [app]. split; [|split; [lia|split; [apply held_apt|now left]]].
  intros a. change (last_pos [holder ps] a) with (ps a). rewrite P, on_every. reflexivity.
Qed.
End Calls.

Lemma smooth_more : forall j j' cs v, smooth j v cs -> j <= j' -> smooth j' v cs.
Proof. intros j j'. induction cs as [|x cs IH]; intros v S L; [exact I|]. destruct S as (S1 & S2 & S3). split; [exact S1|]. split; [lra|auto]. Qed.
