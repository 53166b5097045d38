(** The speeds of the commands that are sent for the segments. *)
From Coq Require Import SpecFloat Reals Lra.
From Flocq Require Import Core IEEE754.BinarySingleNaN.
From Verif Require Import Base Model_Float Model_Axis Model_Planner Spec_Planner Spec_Speeds Proofs_Planner Proofs_Real Proofs_Ramp Proofs_Profile Proofs_Speeds.
Open Scope Z_scope.
Open Scope R_scope.

Section Joints.
Variable A : R.
Hypothesis Amax : A <= bpow radix2 200.
Hypothesis Apos : 0 < A.
Variable c : pcfg.
Hypothesis Will : willing c.
Notation able := (able A).
Notation good := (good A).
Notation chain := (chain A).
Notation lined := (lined A).
Notation g := (g A).
Notation G2 := (G2 A).

(** Speeds are sent as floats. *)
Lemma sent_speed : forall t v, able t -> fin64 v -> 0 <= val v -> q v <= q (t_speed t) + 16 * slack t -> fin32 (f32_of_f64 v) /\ 0 <= val (f32_of_f64 v) /\ Rabs (q (f32_of_f64 v) - q v) <= 3 / 8 * A.
Proof.
  intros t v Ht F P Q. destruct (h_small A t Ht) as (Hp & H1 & H2 & H3 & H4). pose proof (b_ramp _ _ Ht) as Rm. pose proof (b_acc _ _ Ht) as Ba. pose proof (b_slow _ _ Ht) as Bs. pose proof (b_fast _ _ Ht) as Bf.
  set (W := q (t_speed t)) in *. set (V := val (t_speed t)) in *. set (a := val (t_accel t)) in *.
  assert (Vp : 0 < V) by (eapply Rlt_le_trans; [apply bpow_gt_0|exact Bs]).
  assert (QW : q v <= 513 / 512 * W) by lra.
  assert (P24 : Prec_gt_0 24) by reflexivity.
  assert (v2V : val v <= 2 * V).
  { destruct (Rle_lt_dec (val v) (2 * V)) as [X|X]; [exact X|]. exfalso. assert (2 * V * (2 * V) < val v * val v) by (apply Rmult_le_0_lt_compat; lra). unfold q in QW at 1. unfold W, q in QW. fold V in QW. assert (0 < V * V) by (apply Rmult_lt_0_compat; lra). lra. }
  pose proof (rnd_error 24 128 P24 (val v)) as E. rewrite (Rabs_pos_eq (val v) P) in E. change (bpow radix2 (- (24))) with (/ 16777216) in E.
  set (tau := / 2 * bpow radix2 (SpecFloat.emin 24 128)) in *.
  assert (Tp : 0 < tau) by (unfold tau; apply Rmult_lt_0_compat; [lra|apply bpow_gt_0]).
  assert (TV : tau * bpow radix2 70 <= V).
  { eapply Rle_trans; [|exact Bs]. unfold tau. change (/ 2) with (bpow radix2 (-1)). rewrite <- !bpow_plus. apply bpow_le. unfold SpecFloat.emin. lia. }
  assert (Tv : tau <= V). { eapply Rle_trans; [|exact TV]. rewrite <- (Rmult_1_r tau) at 1. apply Rmult_le_compat_l; [lra|]. change 1 with (bpow radix2 0). apply bpow_le. lia. }
  (* V tau is small against the acceleration *)
  assert (Vt : V * tau * 1048576 <= a).
  { assert (X : V * (tau * bpow radix2 70) <= V * V) by (apply Rmult_le_compat_l; lra). change (V * V) with W in X.
    assert (Y : V * tau * bpow radix2 41 <= V * (tau * bpow radix2 70)).
    { rewrite <- Rmult_assoc. apply Rmult_le_compat_l; [apply Rmult_le_pos; lra|]. apply bpow_le. lia. }
    replace (bpow radix2 41) with (2097152 * 1048576) in Y by (change 2097152 with (bpow radix2 21); change 1048576 with (bpow radix2 20); now rewrite <- bpow_plus). lra. }
  set (r := rnd32 (val v)) in *. set (d := Rabs (r - val v)) in *.
  assert (S : small 128 r).
  { unfold small. assert (X : Rabs r <= 4 * V).
    { replace r with (r - val v + val v) by ring. eapply Rle_trans; [apply Rabs_triang|]. fold d. rewrite (Rabs_pos_eq (val v) P). lra. }
    eapply Rle_lt_trans; [exact X|]. apply Rle_lt_trans with (bpow radix2 2 * bpow radix2 80); [apply Rmult_le_compat; [lra|lra|simpl; lra|exact Bf]|]. rewrite <- bpow_plus. apply bpow_lt. lia. }
  destruct (f32_of_f64_val v F S) as [Fr Vr]. split; [exact Fr|]. rewrite Vr. fold r. split; [unfold r; rewrite <- (rnd_0 24 128); apply rnd_le; auto with typeclass_instances|].
  unfold q at 1. rewrite Vr. fold r. replace (r * r - q v) with ((r - val v) * (2 * val v + (r - val v))) by (unfold q; ring).
  rewrite Rabs_mult. fold d. assert (Dp : 0 <= d) by apply Rabs_pos.
  assert (X : Rabs (2 * val v + (r - val v)) <= 2 * val v + d) by (eapply Rle_trans; [apply Rabs_triang|]; fold d; rewrite Rabs_pos_eq by lra; lra).
  eapply Rle_trans; [apply Rmult_le_compat_l; [exact Dp|exact X]|].
  assert (vd : val v * d <= / 16777216 * q v + val v * tau).
  { eapply Rle_trans; [apply Rmult_le_compat_l; [exact P|exact E]|]. unfold q. lra. }
  assert (vt : val v * tau <= 2 * (V * tau)) by (rewrite <- Rmult_assoc; apply Rmult_le_compat_r; lra).
  assert (dd : d * d <= d * (/ 4194304 * V + tau)) by (apply Rmult_le_compat_l; lra).
  assert (dd2 : d * (/ 4194304 * V + tau) <= (/ 8388608 * V + tau) * (/ 4194304 * V + tau)) by (apply Rmult_le_compat_r; [|]; lra).
  assert (tt : tau * tau <= V * tau) by (apply Rmult_le_compat_r; lra).
  assert (dd3 : (/ 8388608 * V + tau) * (/ 4194304 * V + tau) <= / 35184372088832 * W + 3 * (V * tau)).
  { unfold W, q. fold V. assert (0 <= V * tau) by (apply Rmult_le_pos; lra). assert (0 <= V * V) by (apply Rmult_le_pos; lra). lra. }
  lra.
Qed.

(** ** The commands of a segment *)
Definition J : R := 24 / 5 * A.
Definition close (x w : R) : Prop := x * x - 3 / 8 * A - g <= w * w <= x * x + 2 * A + 3 / 8 * A + g.

Lemma group_smooth : forall s x w, good s -> group c s <> [] -> 0 <= val (f_v0 (s_plan s)) <= x -> x * x <= q (f_v0 (s_plan s)) + 2 * A + G2 -> close x w ->
  smooth J w (group c s) /\ close (val (f_v2 (s_plan s))) (final w (group c s)).
Proof.
  intros [t p] x w [Hb Pl] N [V0 V1] X C. cbn [s_target s_plan] in *. destruct Pl as [F0 F1 F2 P0 P1 P2 Wa Wt Wd Ws Top In1 In2 Out1 Out2].
  destruct (able_small A t Hb) as (S1 & S2 & S3 & S4 & S5 & _).
  destruct (sent_speed t (f_v0 p) Hb F0 P0 ltac:(lra)) as (N0 & N0' & E0). destruct (sent_speed t (f_v1 p) Hb F1 P1 ltac:(lra)) as (N1 & N1' & E1). destruct (sent_speed t (f_v2 p) Hb F2 P2 ltac:(lra)) as (N2 & N2' & E2).
  assert (I0 : is_speed (f32_of_f64 (f_v0 p))) by (split; auto). assert (I1 : is_speed (f32_of_f64 (f_v1 p))) by (split; auto). assert (I2 : is_speed (f32_of_f64 (f_v2 p))) by (split; auto). clear N0 N1 N2.
  apply Rabs_le_inv in E0, E1, E2.
  assert (X0 : q (f_v0 p) <= x * x) by (unfold q; apply Rmult_le_compat; lra).
  unfold group, commands in *. cbn [s_target s_plan] in *.
  set (m1 := subtract_steps (assign_all c (t_delta t)) _) in *. destruct m1 as [m1 b1]. set (m2 := subtract_steps m1 _) in *. destruct m2 as [m2 has].
  unfold close in *. fold (q (f_v2 p)). unfold g in *. unfold G2, J in *.
  destruct (Z.eqb_spec (f_accel p) 0) as [ZA|ZA]; [rewrite ZA in In2|]; (destruct (Z.eqb_spec (f_decel p) 0) as [ZD|ZD]; [rewrite ZD in Out2|]); destruct has; cbn [app] in *; try (now destruct N);
    unfold smooth, final; cbn [fold_left c_v0 c_v1];
    change (val (f32_of_f64 (f_v0 p)) * val (f32_of_f64 (f_v0 p))) with (q (f32_of_f64 (f_v0 p))); change (val (f32_of_f64 (f_v1 p)) * val (f32_of_f64 (f_v1 p))) with (q (f32_of_f64 (f_v1 p)));
    change (val (f32_of_f64 (f_v2 p)) * val (f32_of_f64 (f_v2 p))) with (q (f32_of_f64 (f_v2 p))); repeat (first [exact I0|exact I1|exact I2|exact I|apply Rabs_le; split|split]); lra.
Qed.

(** The speed when the commands begin, that of the last ones, is not above the speed for
    joining the segment. *)
Definition opens (w : R) (g : list command) (t : target) : Prop :=
  w * w <= q (t_start t) + 5 / 2 * A /\ match g with [] => True | y :: _ => val (c_v0 y) * val (c_v0 y) <= q (t_start t) + 5 / 2 * A end.
Lemma group_opens : forall s x w r, good s -> 0 <= val (f_v0 (s_plan s)) <= x -> x * x <= room (s_target s :: r) + G1 A -> close x w -> opens w (group c s) (s_target s).
Proof.
  intros [t p] x w r [Hb Pl] [V0 V1] X C. cbn [s_target s_plan] in *. destruct Pl as [F0 F1 F2 P0 P1 P2 Wa Wt Wd Ws Top In1 In2 Out1 Out2].
  destruct (able_small A t Hb) as (S1 & S2 & S3 & S4 & S5 & _).
  destruct (sent_speed t (f_v0 p) Hb F0 P0 ltac:(lra)) as (_ & _ & E0). destruct (sent_speed t (f_v1 p) Hb F1 P1 ltac:(lra)) as (_ & _ & E1). destruct (sent_speed t (f_v2 p) Hb F2 P2 ltac:(lra)) as (_ & _ & E2).
  apply Rabs_le_inv in E0, E1, E2.
  assert (X0 : q (f_v0 p) <= x * x) by (unfold q; apply Rmult_le_compat; lra).
  assert (X1 : x * x <= q (t_start t) + G1 A) by (rewrite room_cons in X; pose proof (Rmin_r (ceil t r) (q (t_start t))); lra).
  unfold close, Proofs_Speeds.g, G1 in *. split; [lra|].
  unfold group, commands in *. cbn [s_target s_plan] in *.
  set (m1 := subtract_steps (assign_all c (t_delta t)) _) in *. destruct m1 as [m1 b1]. set (m2 := subtract_steps m1 _) in *. destruct m2 as [m2 has].
  destruct (Z.eqb_spec (f_accel p) 0) as [ZA|ZA]; [rewrite ZA in In2|]; destruct (Z.eqb_spec (f_decel p) 0) as [ZD|ZD]; destruct has; cbn [app c_v0]; try exact I;
    change (val (f32_of_f64 (f_v0 p)) * val (f32_of_f64 (f_v0 p))) with (q (f32_of_f64 (f_v0 p))); change (val (f32_of_f64 (f_v1 p)) * val (f32_of_f64 (f_v1 p))) with (q (f32_of_f64 (f_v1 p))); lra.
Qed.

(** ** Sending *)
Lemma smooth_app : forall j a b v, smooth j v (a ++ b) <-> smooth j v a /\ smooth j (final v a) b.
Proof.
  intros j. induction a as [|x a IH]; intros b v; cbn [app smooth]; [unfold final; cbn; tauto|]. rewrite IH. unfold final. cbn [fold_left]. tauto.
Qed.
Lemma final_app : forall a b v, final v (a ++ b) = final (final v a) b.
Proof. intros. unfold final. apply fold_left_app. Qed.

Definition moving (t : target) : Prop := exists m, assign_all c (t_delta t) m <> 0%Z.
Lemma moving_group : forall s, moving (s_target s) -> group c s <> [].
Proof. intros s [m N] E. apply N. rewrite <- group_steps, E. reflexivity. Qed.

(** The groups of commands are for the targets, and their speeds are up to the joints. *)
Fixpoint entered (w : R) (gs : list (list command)) (ts : list target) : Prop :=
  match gs, ts with
  | [], [] => True
  | g :: gs', t :: ts' => (opens w g t /\ exists s, s_target s = t /\ g = group c s) /\ entered (final w g) gs' ts'
  | _, _ => False
  end.
Lemma entered_app : forall a ta w b tb, entered w a ta -> entered (final w (concat a)) b tb -> entered w (a ++ b) (ta ++ tb).
Proof.
  induction a as [|g a IH]; intros [|t ta] w b tb H K; cbn [entered] in H; try (exfalso; exact H).
  - exact K.
  - destruct H as [H1 H2]. cbn [app entered]. split; [exact H1|]. apply IH; [exact H2|]. cbn [concat] in K. now rewrite final_app in K.
Qed.

Lemma chain_send : forall n l x w, chain x l -> Forall (fun s => moving (s_target s)) l -> close x w ->
  let cs := concat (map (group c) (firstn n l)) in let x' := last_exit x (firstn n l) in
  smooth J w cs /\ close x' (final w cs) /\ chain x' (skipn n l) /\ entered w (map (group c) (firstn n l)) (map s_target (firstn n l)).
Proof.
  induction n as [|n IH]; intros l x w C M K; [cbn; auto|]. destruct l as [|s l]; [cbn; auto|].
  destruct C as ((L1 & L2 & L3 & L4 & L5) & Gd & E). inversion Gd as [|? ? G1 G2']; subst. inversion M as [|? ? M1 M2]; subst.
  destruct (group_smooth s x w G1 (moving_group _ M1) L2 L3 K) as [S1 S2]. cbn [last_exit fold_left] in E.
  specialize (IH l (val (f_v2 (s_plan s))) (final w (group c s))). destruct IH as (I1 & I2 & I3 & I4); [split; [exact L5|split; [exact G2'|exact E]]|exact M2|exact S2|].
  cbn [firstn map concat skipn last_exit fold_left]. cbn zeta. rewrite smooth_app, final_app. split; [auto|]. split; [auto|]. split; [auto|]. cbn [entered]. split; [|exact I4].
  split; [exact (group_opens s x w _ G1 L2 L4 K)|]. exists s. auto.
Qed.

(** ** The state of the planner *)
Definition heads (hd : list pseg) (x : R) : Prop := hd = [] \/ (exists pos, hd = [holder pos]) /\ x = 0.
Record steady (ts : list target) (hd pend : list pseg) (x : R) (st : planner) : Prop := mk_steady {
  y_buf : p_buf st = hd ++ pend; y_some : p_buf st <> []; y_heads : heads hd x;
  y_chain : chain x pend; y_lined : lined (map s_target pend); y_moves : Forall (fun s => moving (s_target s)) pend;
  y_ready : (0 <= p_ready st <= Z.of_nat (length (p_buf st)))%Z;
  y_halt : p_halted st = true -> pend = [];
  y_smooth : smooth J 0 (rev (sent (p_log st))); y_close : close x (final 0 (rev (sent (p_log st))));
  y_sent : exists gs done, ts = done ++ map s_target pend /\ concat gs = rev (sent (p_log st)) /\ entered 0 gs done
}.

Lemma issue_ready : forall n ret st r st', issue c n ret st = Ok (r, st') -> (0 <= p_ready st <= Z.of_nat (length (p_buf st)))%Z ->
  (0 <= p_ready st' <= Z.of_nat (length (p_buf st')))%Z.
Proof.
  induction n as [|n IH]; intros ret st r st' E H; cbn [issue] in E; [now injection E as _ <-|].
  destruct (p_buf st) as [|s rest] eqn:B; [discriminate|]. destruct (send c s ret (p_log st)) as [r1 l1]. destruct rest as [|s2 rest].
  - apply IH in E; [exact E|]. cbn. lia.
  - apply IH in E; [exact E|]. cbn [p_ready p_buf]. cbn [length] in *. destruct (Z.ltb_spec 0 (p_ready st)); lia.
Qed.

Lemma heads_silent : forall hd x, heads hd x -> forall n l, exists k, (n <= length hd + k)%nat /\ (k <= n)%nat /\ (n - length hd)%nat = k /\ concat (map (group c) (firstn n (hd ++ l))) = concat (map (group c) (firstn k l)).
Proof.
  intros hd x H n l. exists (n - length hd)%nat. repeat split; try lia. destruct H as [->|[[pos ->] _]].
  - cbn. now rewrite Nat.sub_0_r.
  - destruct n as [|n]; [reflexivity|]. cbn [app firstn length map concat]. rewrite (proj1 (holds_silent c _ (holder_holds pos))). cbn [app]. now rewrite Nat.sub_succ, Nat.sub_0_r.
Qed.
Lemma last_exit_all : forall l x, chain x l -> last_exit x l = 0.
Proof. intros l x C. apply C. Qed.
Lemma chain_nil : chain 0 [].
Proof. split; [exact I|]. split; [constructor|reflexivity]. Qed.
Lemma lined_skip : forall l n, lined l -> lined (skipn n l).
Proof. intros l n H. apply (lined_app A (firstn n l)). now rewrite firstn_skipn. Qed.
Lemma steady_issue : forall ts hd pend x st n, steady ts hd pend x st -> (0 < n <= length (p_buf st))%nat ->
  exists ret st', issue c n true st = Ok (ret, st') /\ p_look st' = p_look st /\ p_known st' = p_known st /\
    ((n = length (p_buf st) /\ ret = false /\ p_halted st' = true /\ exists pos, steady ts [holder pos] [] 0 st' /\ pos = last_pos (p_buf st)) \/
     ((n < length (p_buf st))%nat /\ ret = true /\ p_halted st' = p_halted st /\ exists pend' x', (p_halted st = false -> steady ts [] pend' x' st') /\ (exists k, pend' = skipn k pend) /\
        (forall b, steady ts [] pend' x' (mk_planner (p_buf st') (p_ready st') (p_look st') false b (p_log st'))))).
Proof.
  intros ts hd pend x st n S Hn. destruct S as [B N H C L M Rd Ht Sm Cl (gs & dn & Et & Eg & En)]. destruct (Nat.eq_dec n (length (p_buf st))) as [E|E].
  - destruct (issue_all c (p_buf st) true st eq_refl N) as (log' & E1 & E2). specialize (E2 Will eq_refl). rewrite <- E in E1. eexists _, _. split; [exact E1|]. split; [reflexivity|]. split; [reflexivity|].
    left. split; [exact E|]. split; [reflexivity|]. split; [reflexivity|]. exists (last_pos (p_buf st)). split; [|reflexivity].
    destruct (heads_silent hd x H (length (p_buf st)) pend) as (k & K1 & K2 & K3 & K4). rewrite <- B, firstn_all in K4.
    assert (Fk : firstn k pend = pend) by (apply firstn_all2; rewrite B, app_length in K3; lia).
    destruct (chain_send k pend x _ C M Cl) as (S1 & S2 & _ & S4). rewrite Fk in *. rewrite K4 in E2.
    constructor; cbn [p_buf p_ready p_log p_halted]; auto using chain_nil; try discriminate; try (cbn; lia).
    + right. split; [eauto|reflexivity].
    + rewrite E2, rev_app_distr, rev_involutive. apply smooth_app. auto.
    + rewrite E2, rev_app_distr, rev_involutive, final_app. rewrite (last_exit_all _ _ C) in S2. exact S2.
    + exists (gs ++ map (group c) pend), ts. split; [cbn [map]; now rewrite app_nil_r|]. split; [now rewrite concat_app, Eg, E2, rev_app_distr, rev_involutive|]. rewrite Et. apply entered_app; [exact En|]. now rewrite Eg.
  - destruct (issue_part c n true st ltac:(lia)) as (ret' & ready' & log' & E1 & _ & E2). specialize (E2 Will eq_refl). destruct E2 as [-> E2].
    eexists _, _. split; [exact E1|]. split; [reflexivity|]. split; [reflexivity|]. right. split; [lia|]. split; [reflexivity|]. split; [reflexivity|].
    destruct (heads_silent hd x H n pend) as (k & K1 & K2 & K3 & K4). rewrite <- B in K4.
    destruct (chain_send k pend x _ C M Cl) as (S1 & S2 & S3 & S4). rewrite K4 in E2.
    assert (Sk : skipn n (p_buf st) = skipn k pend).
    { rewrite B, skipn_app, <- K3. destruct H as [->|[[pos ->] _]]; [now rewrite skipn_nil|]. destruct n; [lia|]. now rewrite skipn_cons, skipn_nil. }
    assert (Ne : skipn k pend <> []). { rewrite <- Sk. intros X. apply (f_equal (@length pseg)) in X. rewrite skipn_length in X. cbn in X. lia. }
    pose proof (issue_ready _ _ _ _ _ E1 Rd) as Rd'.
    assert (All : forall b, steady ts [] (skipn k pend) (last_exit x (firstn k pend)) (mk_planner (skipn n (p_buf st)) ready' (p_look st) false b log')).
    { intros b. constructor; cbn [p_buf p_ready p_log p_halted] in *; auto; try discriminate.
      - now rewrite Sk.
      - now left.
      - rewrite <- skipn_map. now apply lined_skip.
      - rewrite <- (firstn_skipn k pend) in M. apply Forall_app in M. apply M.
      - rewrite E2, rev_app_distr, rev_involutive. apply smooth_app. auto.
      - rewrite E2, rev_app_distr, rev_involutive, final_app. exact S2.
      - exists (gs ++ map (group c) (firstn k pend)), (dn ++ map s_target (firstn k pend)). split; [rewrite Et, <- app_assoc, <- map_app, firstn_skipn; reflexivity|]. split; [now rewrite concat_app, Eg, E2, rev_app_distr, rev_involutive|]. apply entered_app; [exact En|]. now rewrite Eg. }
    exists (skipn k pend), (last_exit x (firstn k pend)). split; [|split; [eauto|exact All]].
    intros F. rewrite F. apply All.
Qed.

Definition dummy : pseg := holder (fun _ => 0%Z).
Lemma lined_snoc : forall l t, lined l -> able t -> (l = [] \/ alike (last l t) t) -> lined (l ++ [t]).
Proof.
  induction l as [|u l IH]; intros t L Ht Al; [cbn; auto|]. destruct L as (L1 & L2 & L3). cbn [app]. split; [exact L1|]. destruct Al as [Al|Al]; [discriminate|].
  split.
  - destruct l; cbn [app]; [exact Al|exact L2].
  - apply IH; auto. destruct l; [now left|right; exact Al].
Qed.
Lemma last_map : forall (l : list pseg) d, last (map s_target l) (s_target d) = s_target (last l d).
Proof. induction l as [|s l IH]; intros d; [reflexivity|]. destruct l; [reflexivity|]. apply IH. Qed.
Lemma last_default : forall (T : Type) (l : list T) a b, l <> [] -> last l a = last l b.
Proof. intros T l a b N. destruct (exists_last N) as (l' & x & ->). now rewrite !last_last. Qed.

Lemma steady_move : forall ts hd pend x st to f aux ret st', steady ts hd pend x st -> (1 <= p_look st)%Z -> machine_move c to f aux st = Ok (ret, st') ->
  let prev := s_target (last (p_buf st) dummy) in let pos a := steps_at c a (to a) in let t := new_target c prev pos f aux in
  p_look st' = p_look st /\
  (st' = st /\ (forall a, pos a - t_pos prev a = 0)%Z \/
   ((exists a, pos a - t_pos prev a <> 0)%Z /\
    (able t -> moving t -> (pend = [] \/ alike prev t) ->
     exists hd' pend' x', steady (ts ++ [t]) hd' pend' x' st' /\ (forall a, last_pos (p_buf st') a = pos a) /\ (pend' <> [] -> s_target (last pend' dummy) = t)))).
Proof.
  intros ts hd pend x st to f aux ret st' S LK E prev pos t. unfold machine_move in E. destruct (p_known st) eqn:Kn; [|discriminate]. cbn [negb] in E.
  destruct (Z.ltb_spec (size st) capacity) as [Sz|_]; [|discriminate]. cbn [negb] in E.
  destruct (rev (p_buf st)) as [|s0 r0] eqn:RV; [discriminate|].
  assert (LS : last (p_buf st) dummy = s0). { apply (f_equal (@rev pseg)) in RV. rewrite rev_involutive in RV. rewrite RV. cbn [rev]. apply last_last. }
  assert (PV : prev = s_target s0) by (unfold prev; now rewrite LS). rewrite <- PV in E. change (fun a => lround c (f32_mul (to a) (spm c a))) with pos in E.
  rewrite defining_zero in E. fold t in E. change (fun a => (lround c (f32_mul (to a) (spm c a)) - t_pos prev a =? 0)%Z) with (fun a => (pos a - t_pos prev a =? 0)%Z) in E.
  destruct (forallb (fun a => (pos a - t_pos prev a =? 0)%Z) all_axes) eqn:Z0.
  { injection E as _ <-. split; [reflexivity|]. left. split; [reflexivity|]. intros a. rewrite forallb_forall in Z0. specialize (Z0 a (all_axes_in a)). lia. }
  assert (NZ : exists a, (pos a - t_pos prev a <> 0)%Z).
  { destruct (existsb (fun a => negb (pos a - t_pos prev a =? 0)%Z) all_axes) eqn:X.
    - apply existsb_exists in X. destruct X as (a & _ & X). exists a. lia.
    - exfalso. assert (Y : forallb (fun a => (pos a - t_pos prev a =? 0)%Z) all_axes = true); [|congruence]. apply forallb_forall. intros a I0.
      destruct (pos a - t_pos prev a =? 0)%Z eqn:Q; [reflexivity|]. assert (W : existsb (fun a => negb (pos a - t_pos prev a =? 0)%Z) all_axes = true); [|congruence]. apply existsb_exists. exists a. split; [exact I0|]. now rewrite Q. }
  destruct (update_profile c (p_buf st ++ [mk_pseg t no_plan]) (p_ready st)) as [buf ready] eqn:U.
  assert (Main : able t -> moving t -> pend = [] \/ alike prev t -> exists hd' pend' x', steady (ts ++ [t]) hd' pend' x' (mk_planner buf ready (p_look st) false true (p_log st)) /\ (pend' <> [] /\ s_target (last pend' dummy) = t) /\ length (p_buf st) = length (removelast buf)).
  { intros Ht Mt Al. destruct S as [B N H C L M Rd Hlt Sm Cl (gs & dn & Et & Eg & En)].
    assert (Li : lined (map s_target pend ++ [t])).
    { apply lined_snoc; auto. destruct pend as [|s1 p1] eqn:Ep; [now left|]. right. destruct Al as [Al|Al]; [discriminate|].
      rewrite (last_default _ _ _ (s_target dummy)) by discriminate. rewrite last_map. replace (s_target (last (s1 :: p1) dummy)) with prev; [exact Al|].
      unfold prev. rewrite B. destruct (exists_last (l := s1 :: p1)) as (l' & y & ->); [discriminate|]. now rewrite app_assoc, !last_last. }
    rewrite B, <- app_assoc in U. destruct (update_chain A Amax c hd pend x t (p_ready st) H C Li Apos) as (pend' & ready' & U1 & U2 & U3 & U4).
    - rewrite <- B. exact Rd.
    - unfold size in Sz. rewrite B, app_length in Sz. unfold capacity, PLANNING_BUFFER_CAPACITY in Sz. lia.
    - rewrite U1 in U. injection U as <- <-.
      assert (Pn : pend' <> []). { intros ->. destruct (map s_target pend); discriminate. }
      assert (Lt : s_target (last pend' dummy) = t).
      { rewrite <- last_map, U3. apply last_last. }
      exists hd, pend', x. split; [|split; [split; [exact Pn|exact Lt]|]].
      + constructor; cbn [p_buf p_ready p_log p_halted]; auto; try discriminate.
        * intros X. apply app_eq_nil in X. now destruct X.
        * rewrite U3. exact Li.
        * apply (Forall_map s_target moving). rewrite U3. apply Forall_app. split; [apply (Forall_map s_target moving); exact M|auto].
        * exists gs, dn. split; [now rewrite U3, Et, app_assoc|auto].
      + destruct (exists_last Pn) as (l' & y & ->). rewrite app_assoc, removelast_last, B, !app_length. apply (f_equal (@length target)) in U3. rewrite !map_length, !app_length, map_length in U3. cbn in U3. lia. }
  cbn [obind] in E. destruct (issue_if_possible c false _) as [[ret1 st1]|] eqn:Is; [|discriminate]. cbn [obind] in E. injection E as <- <-.
  unfold issue_if_possible, size in Is. cbn [p_buf p_look] in Is. change (0 =? 0)%Z with true in Is. cbn [andb] in Is. set (extra := (Z.of_nat (length buf) - p_look st)%Z) in *.
  assert (Lk : p_look st1 = p_look st).
  { assert (G : forall n ret s r s', issue c n ret s = Ok (r, s') -> p_look s' = p_look s).
    { clear. induction n as [|n IH]; intros ret s r s' E; cbn [issue] in E; [now injection E as _ <-|]. destruct (p_buf s) as [|u rest]; [discriminate|]. destruct (send c u ret (p_log s)). destruct rest; apply IH in E; exact E. }
    apply G in Is. exact Is. }
  split; [exact Lk|]. right. split; [exact NZ|]. intros Ht Mt Al. destruct (Main Ht Mt Al) as (hd' & pend' & x' & S' & (Pn & Lt) & Le).
  assert (LP : forall l, l <> [] -> s_target (last l dummy) = t -> forall a, last_pos l a = pos a).
  { intros l Nl El a. unfold last_pos. change (holder (fun _ => 0%Z)) with dummy. rewrite El. reflexivity. }
  assert (BP : buf <> [] /\ s_target (last buf dummy) = t).
  { destruct S' as [B' N' _ _ _ _ _ _ _ _ _]. cbn [p_buf] in *. split; [exact N'|]. rewrite B'. destruct (exists_last Pn) as (l' & y & Ey). rewrite Ey in *. rewrite app_assoc, last_last. now rewrite last_last in Lt. }
  destruct (Z.leb_spec 0 extra) as [Ex|Ex].
  - set (st0 := mk_planner buf ready (p_look st) (p_halted st) true (p_log st)) in *.
    assert (S0 : issue c (Z.to_nat (extra + 1)) true st0 = Ok (ret1, st1)) by exact Is.
    (* the halted flag does not matter to issue but for the result *)
    set (st2 := mk_planner buf ready (p_look st) false true (p_log st)) in *.
    assert (I2 : exists h, issue c (Z.to_nat (extra + 1)) true st2 = Ok (ret1, mk_planner (p_buf st1) (p_ready st1) (p_look st1) h (p_known st1) (p_log st1)) /\ (h = p_halted st1 \/ (h = false /\ p_halted st1 = p_halted st))).
    { assert (G : forall n ret s s2 r s', issue c n ret s = Ok (r, s') -> s2 = mk_planner (p_buf s) (p_ready s) (p_look s) false (p_known s) (p_log s) ->
        exists h, issue c n ret s2 = Ok (r, mk_planner (p_buf s') (p_ready s') (p_look s') h (p_known s') (p_log s')) /\ (h = p_halted s' \/ (h = false /\ p_halted s' = p_halted s))).
      { clear. induction n as [|n IH]; intros ret s s2 r s' E ->; cbn [issue] in *; [injection E as <- <-; exists false; auto|]. cbn [p_buf p_log p_ready p_look p_known p_halted] in *. destruct (p_buf s) as [|u rest]; [discriminate|].
        destruct (send c u ret (p_log s)) as [r1 l1]. destruct rest as [|u2 rest].
        - exists (p_halted s'). split; [|now left]. rewrite E. now destruct s'.
        - apply (IH _ _ _ _ _ E). reflexivity. }
      apply (G _ _ st0 st2 _ _ S0). reflexivity. }
    destruct I2 as (hh & I2 & Hh).
    destruct (steady_issue (ts ++ [t]) hd' pend' x' st2 (Z.to_nat (extra + 1)) S') as (r2 & s2 & E2 & L2 & K2 & Cases).
    { cbn [p_buf st2]. unfold extra in *. lia. }
    rewrite I2 in E2. injection E2 as <- <-. cbn [p_look p_known p_buf p_ready p_log p_halted] in *.
    destruct Cases as [(N1 & -> & H1 & pos1 & S1 & P1)|(N1 & -> & H1 & p1 & x1 & _ & (k & ->) & S1)].
    + exists [holder pos1], [], 0. split; [|split; [|intros X; now destruct X]].
      * destruct S1 as [B1 Q1 W1 C1 L1 M1 R1 T1 O1 Y1 V1]. cbn [p_buf p_ready p_log p_halted] in *. constructor; cbn [p_buf p_ready p_log p_halted]; auto.
      * intros a. destruct S1 as [B1 _ _ _ _ _ _ _ _ _ _]. cbn [p_buf] in B1. rewrite B1. cbn [app]. change (last_pos [holder pos1]) with pos1. rewrite P1. apply LP; apply BP.
    + exists [], (skipn k pend'), x1. specialize (S1 (p_known st1)). split; [|].
      * exact S1.
      * destruct S1 as [B1 Q1 _ _ _ _ _ _ _ _ _]. cbn [p_buf app] in B1, Q1. assert (Ls : s_target (last (skipn k pend') dummy) = t).
        { rewrite last_skipn; [exact Lt|]. assert (skipn k pend' <> []) by (now rewrite <- B1). destruct (Nat.lt_ge_cases k (length pend')) as [X|X]; [exact X|]. rewrite skipn_all2 in H by exact X. now destruct H. }
        split; [|auto]. apply LP; [exact Q1|]. now rewrite B1.
  - injection Is as <- <-. cbn [p_buf p_ready p_look p_known p_log]. exists hd', pend', x'. split; [exact S'|]. split; [|auto]. apply LP; apply BP.
Qed.

Lemma steady_halt : forall ts hd pend x st, steady ts hd pend x st -> exists st' pos, bring_to_halt c st = Ok st' /\ steady ts [holder pos] [] 0 st' /\ (forall a, pos a = last_pos (p_buf st) a) /\ p_look st' = p_look st.
Proof.
  intros ts hd pend x st S. unfold bring_to_halt. destruct (p_halted st) eqn:Ht.
  - exists st. destruct S as [B N H C L M Rd Hlt Sm Cl Se]. specialize (Hlt Ht). subst pend. destruct H as [->|[[pos ->] ->]]; [now destruct N|]. exists pos. split; [reflexivity|]. split; [|split; [|reflexivity]].
    + constructor; auto. right. eauto.
    + intros a. rewrite B. reflexivity.
  - unfold issue_if_possible. set (n := if (size st =? 0)%Z && (0 <=? size st - p_look st)%Z then (size st - p_look st + 1)%Z else size st).
    assert (Nn : n = size st). { unfold n. destruct S as [B N _ _ _ _ _ _ _ _ _]. destruct (p_buf st) eqn:X; [now destruct N|]. unfold size. rewrite X. cbn [length]. destruct (Z.eqb_spec (Z.of_nat (S (length l))) 0); [lia|reflexivity]. }
    rewrite Nn. unfold size at 1. rewrite Nat2Z.id.
    destruct (steady_issue ts hd pend x st (length (p_buf st)) S) as (r & s & E & L1 & K1 & Cases).
    { pose proof (y_some _ _ _ _ _ S). destruct (p_buf st); [now destruct H|cbn; lia]. }
    destruct Cases as [(_ & -> & H1 & pos & S1 & P1)|(X & _)]; [|lia]. rewrite E. cbn [obind]. exists s, pos. split; [reflexivity|]. split; [exact S1|]. split; [intros a; now rewrite P1|exact L1].
Qed.

Lemma steady_position : forall ts hd pend x st a p st', steady ts hd pend x st -> external_position c a p st = Ok st' -> exists pos, steady ts [holder pos] [] 0 st' /\ p_look st' = p_look st /\
  forall b, pos b = set_axis (last_pos (p_buf st)) a (steps_at c a p) b.
Proof.
  intros ts hd pend x st a p st' S E. unfold external_position in E. destruct (p_buf st) as [|s [|? ?]] eqn:B; try discriminate. destruct (p_halted st) eqn:Ht; [|discriminate]. set (lg := fold_left _ _ _) in E. assert (SL : sent lg = sent (p_log st)) by apply sent_external. clearbody lg. injection E as <-.
  destruct S as [B0 N H C L M Rd Hlt Sm Cl Se]. specialize (Hlt Ht). subst pend. rewrite app_nil_r in B0. destruct H as [->|[[pos ->] ->]]; [congruence|]. assert (Es : s = holder pos) by congruence. subst s.
  exists (set_axis pos a (steps_at c a p)). split; [|split; [reflexivity|reflexivity]].
  constructor; cbn [p_buf p_ready p_log p_halted]; auto; try discriminate.
  - right. eauto.
  - rewrite B in Rd. cbn in *. exact Rd.
  - rewrite SL. exact Sm.
  - rewrite SL. exact Cl.
  - rewrite SL. exact Se.
Qed.
End Joints.
