(** C83: the range of the picture. *)
From Coq Require Import Reals Lra SpecFloat.
From Flocq Require Import Core IEEE754.BinarySingleNaN.
From Flocq.Prop Require Import Plus_error.
From Verif Require Import Base Model_Float Spec_Real Proofs_Real Model_Axis Model_Gcode Model_Spindle Proofs_Spindle Prop_Stats Model_View Spec_View Prop_View.
Open Scope R_scope.

Section OneAxis.
Variable c : viz_config.
Variable a : axis.
Variable all : list R.
Hypothesis Fo : fin32 (vc_origin c a).
Definition usual : Prop := In (val (vc_origin c a)) all /\ In 0 all /\ forall v, In v all -> Rabs v <= 1000000.
Definition covers (z : viz) (S : list axes) : Prop :=
  fin32 (vz_min z a) /\ fin32 (vz_max z a) /\ forall p, In p S -> val (vz_min z a) <= val (p a) <= val (vz_max z a).
Definition tight (z : viz) : Prop :=
  (val (vz_min z a) = 1000000 /\ val (vz_max z a) = -1000000) \/ (In (val (vz_min z a)) all /\ In (val (vz_max z a)) all).
Lemma update_covers : forall z S p, covers z S -> fin32 (p a) -> covers (range_update p z) (p :: S).
Proof.
  intros z S p (F1 & F2 & C) Fp. unfold covers, range_update, with_range. cbn [vz_min vz_max]. destruct (min_val (p a) (vz_min z a) Fp F1) as [A1 A2]. destruct (max_val (p a) (vz_max z a) Fp F2) as [B1 B2].
  split; [exact A1|]. split; [exact B1|]. rewrite A2, B2. intros q [<-|Q].
  - split; [apply Rmin_l|apply Rmax_l].
  - specialize (C q Q). pose proof (Rmin_r (val (p a)) (val (vz_min z a))). pose proof (Rmax_r (val (p a)) (val (vz_max z a))). lra.
Qed.
Lemma update_tight : forall z S p, usual -> covers z S -> fin32 (p a) -> In (val (p a)) all -> tight z -> tight (range_update p z).
Proof.
  intros z S p (Io & Iz & Ba) (F1 & F2 & _) Fp Ip T. unfold tight, range_update, with_range in *. cbn [vz_min vz_max]. destruct (min_val (p a) (vz_min z a) Fp F1) as [_ ->]. destruct (max_val (p a) (vz_max z a) Fp F2) as [_ ->].
  right. pose proof (Ba _ Ip) as B. apply Rabs_le_inv in B. destruct T as [[-> ->]|[T1 T2]].
  - rewrite Rmin_left, Rmax_left by lra. auto.
  - unfold Rmin, Rmax. destruct (Rle_dec _ _), (Rle_dec _ _); auto.
Qed.
Lemma zero_covers : forall z S, covers z S -> covers (zero_unused z) S.
Proof.
  intros z S (F1 & F2 & C). unfold covers, zero_unused, with_range. cbn [vz_min vz_max]. destruct (SFltb (vz_max z a) (vz_min z a)) eqn:E.
  - apply (ltb_lt 24 128) in E; try assumption. destruct zero_val as [F0 V0]. split; [exact F0|]. split; [exact F0|]. intros p P. specialize (C p P). lra.
  - split; [exact F1|]. split; [exact F2|exact C].
Qed.
Lemma zero_tight : forall z, usual -> tight z -> tight (zero_unused z).
Proof.
  intros z (Io & Iz & Ba) T. unfold tight, zero_unused, with_range in *. cbn [vz_min vz_max]. destruct (SFltb (vz_max z a) (vz_min z a)); [|exact T]. destruct zero_val as [_ ->]. auto.
Qed.
Lemma run_covers : forall evs z S, covers z S -> (forall p, In p (moves evs) -> fin32 (p a)) ->
  let z' := fst (viz_run c PassPreprocess evs z) in
  (exists S', covers z' S' /\ (forall p, In p S \/ In p (moves evs) -> In p S')) /\
  (usual -> (forall p, In p (moves evs) -> In (val (p a)) all) -> tight z -> tight z').
Proof.
  induction evs as [|e evs IH]; intros z S C M; cbn zeta.
  - split; [|auto]. exists S. split; [exact C|]. intros p [P|[]]; exact P.
  - assert (M' : forall p, In p (moves evs) -> fin32 (p a)) by (intros p P; apply M; unfold moves; cbn [flat_map]; apply in_or_app; now right).
    assert (step : forall z1 S1, covers z1 S1 -> (forall p, In p S -> In p S1) -> (forall rapid p, e = VMove rapid p -> In p S1) ->
      (usual -> (forall p, In p (moves (e :: evs)) -> In (val (p a)) all) -> tight z -> tight z1) ->
      let z' := fst (viz_run c PassPreprocess evs z1) in
      (exists S', covers z' S' /\ (forall p, In p S \/ In p (moves (e :: evs)) -> In p S')) /\ (usual -> (forall p, In p (moves (e :: evs)) -> In (val (p a)) all) -> tight z -> tight z')).
    { intros z1 S1 C1 Inc Inm T1 z'. destruct (IH z1 S1 C1 M') as [(S' & C' & I') T']. split.
      - exists S'. split; [exact C'|]. intros p [P|P]; [apply I'; left; auto|]. unfold moves in P. cbn [flat_map] in P. apply in_app_or in P. destruct P as [P|P]; [|apply I'; now right].
        destruct e; cbn in P; try contradiction. destruct P as [<-|[]]. apply I'. left. eapply Inm. reflexivity.
      - intros U A T. apply T'; [exact U| |apply T1; assumption]. intros p P. apply A. unfold moves. cbn [flat_map]. apply in_or_app. now right. }
    cbn [viz_run]. destruct (viz_step c PassPreprocess e z) as [z1 o] eqn:E. destruct (viz_run c PassPreprocess evs z1) as [z2 o'] eqn:R. cbn [fst].
    replace z2 with (fst (viz_run c PassPreprocess evs z1)) by (rewrite R; reflexivity).
    destruct e as [|f|w|rapid p|v]; cbn [viz_step viz_move] in E; injection E as <- <-.
    + apply (step z S C); auto; discriminate.
    + apply (step (zero_unused z) S (zero_covers _ _ C)); auto; try discriminate. intros U _. apply zero_tight, U.
    + apply (step _ (vc_origin c :: S) (update_covers _ _ _ C Fo)); try discriminate; [intros; now right|]. intros U _. apply (update_tight z S); try assumption. apply U.
    + assert (Fp : fin32 (p a)) by (apply M; now left). apply (step _ (p :: S) (update_covers _ _ _ C Fp)); [intros; now right|intros r q Q; injection Q as _ <-; now left|].
      intros U A. apply (update_tight z S); try assumption. apply A. now left.
    + match goal with |- context [viz_run c PassPreprocess evs ?z1] => apply (step z1 S C) end; auto; discriminate.
Qed.
Lemma init_covers : covers viz_init [] /\ tight viz_init.
Proof.
  destruct (f32_of_Z_val 1000000 ltac:(lia)) as [F1 V1]. destruct (f32_of_Z_val (-1000000) ltac:(lia)) as [F2 V2].
  split; [split; [exact F1|split; [exact F2|intros p P; destruct P]]|]. left. split; [exact V1|exact V2].
Qed.
End OneAxis.

Lemma ops_points : forall c evs z p, In (LineTo p) (snd (viz_run c PassOutput evs z)) \/ In (MoveTo p) (snd (viz_run c PassOutput evs z)) -> p = vc_origin c \/ In p (moves evs).
Proof.
  intros c. induction evs as [|e evs IH]; intros z p H; [cbn in H; tauto|]. cbn [viz_run] in H. destruct (viz_step c PassOutput e z) as [z1 o] eqn:E. specialize (IH z1 p). destruct (viz_run c PassOutput evs z1) as [z2 o']. cbn [snd] in *.
  assert (J : In (LineTo p) o' \/ In (MoveTo p) o' -> p = vc_origin c \/ In p (moves (e :: evs))) by (intros J; destruct (IH J) as [Q|Q]; [now left|right; unfold moves; cbn [flat_map]; apply in_or_app; now right]).
  assert (K : In (LineTo p) o \/ In (MoveTo p) o -> p = vc_origin c \/ In p (moves (e :: evs))).
  { intros K. destruct e as [|f|w|rapid q|v]; cbn [viz_step viz_move] in E.
    - injection E as <- <-. destruct K as [[K|[]]|[K|[]]]; [discriminate|]. injection K as <-. now left.
    - injection E as <- <-. destruct f; cbn in K; intuition discriminate.
    - injection E as <- <-. destruct K as [[K|[]]|[K|[]]]; [discriminate|]. injection K as <-. now left.
    - right. unfold moves. cbn [flat_map]. left. unfold change_style, change_intensity in E. destruct (Bool.eqb rapid (vz_rapid z)); destruct (_ && _ && _); injection E as <- <-; cbn in K; intuition congruence.
    - injection E as <- <-. destruct K as [[]|[]]. }
  destruct H as [H|H]; apply in_app_or in H; destruct H as [H|H]; auto.
Qed.

Lemma range_of : forall c evs a all, fin32 (vc_origin c a) -> (forall p, In p (moves evs) -> fin32 (p a)) ->
  let z := fst (picture c evs) in
  (forall p, p = vc_origin c \/ In p (moves evs) -> val (vz_min z a) <= val (p a) <= val (vz_max z a)) /\
  (In 0 all -> In (val (vc_origin c a)) all -> (forall p, In p (moves evs) -> In (val (p a)) all) -> (forall v, In v all -> Rabs v <= 1000000) -> In (val (vz_min z a)) all /\ In (val (vz_max z a)) all).
Proof.
  intros c evs a all Fo Fm z. assert (IC : covers a viz_init []) by (apply (init_covers a [])).
  assert (Rz : z = range_update (vc_origin c) (fst (viz_run c PassPreprocess evs viz_init))).
  { unfold z, picture, reset_events. cbn [viz_run viz_step fst]. reflexivity. }
  rewrite Rz. split.
  - pose proof (run_covers c a) as X. intros p P.
    pose proof (proj1 (X [] Fo evs viz_init [] IC Fm)) as Y. cbn zeta in Y.
    destruct Y as (S' & C & I). destruct (update_covers a _ S' (vc_origin c) C Fo) as (_ & _ & Q). apply Q. destruct P as [->|P]; [now left|right; apply I; now right].
  - intros I0 Io Im B. assert (U : usual c a all) by (split; [exact Io|split; [exact I0|exact B]]). destruct (run_covers c a all Fo evs viz_init [] IC Fm) as [(S' & C & _) T]. specialize (T U Im (proj2 (init_covers a all))).
    pose proof (update_tight c a all _ S' (vc_origin c) U C Fo Io T) as T2. destruct T2 as [[T1 T2]|T2]; [|exact T2]. exfalso.
    destruct (update_covers a _ S' (vc_origin c) C Fo) as (_ & _ & Q). specialize (Q (vc_origin c) (or_introl eq_refl)). lra.
Qed.

(** Whatever the file: everything drawn in the second pass lies in the range found in the first,
    with the origin of the machine. *)
Theorem C83_view : forall c evs, (forall a, shown a -> fin32 (vc_origin c a)) -> (forall p a, In p (moves evs) -> shown a -> fin32 (p a)) ->
  let '(z, ops) := picture c evs in
  (forall a, shown a -> val (vz_min z a) <= val (vc_origin c a) <= val (vz_max z a)) /\
  forall p, In (LineTo p) ops \/ In (MoveTo p) ops -> forall a, shown a -> val (vz_min z a) <= val (p a) <= val (vz_max z a).
Proof.
  intros c evs Fo Fm. destruct (picture c evs) as [z ops] eqn:E.
  assert (R : forall a p, shown a -> p = vc_origin c \/ In p (moves evs) -> val (vz_min z a) <= val (p a) <= val (vz_max z a)).
  { intros a p A P. destruct (range_of c evs a [] (Fo a A) (fun p P => Fm p a P A)) as [X _]. rewrite E in X. exact (X p P). }
  split; [intros a A; apply R; auto|]. intros p P a A. apply R; [exact A|].
  unfold picture in E. injection E as _ <-. eapply ops_points. exact P.
Qed.
Print Assumptions C83_view.

(** And it is no larger than needed: its bounds are coordinates of the file, of the origin, or
    zero (for coordinates up to a kilometre). *)
Theorem C83_tight : forall c evs a, shown a -> fin32 (vc_origin c a) -> (forall p, In p (moves evs) -> fin32 (p a)) ->
  let coordinates := 0 :: val (vc_origin c a) :: map (fun p : axes => val (p a)) (moves evs) in
  (forall v, In v coordinates -> Rabs v <= 1000000) ->
  In (val (vz_min (fst (picture c evs)) a)) coordinates /\ In (val (vz_max (fst (picture c evs)) a)) coordinates.
Proof.
  intros c evs a A Fo Fm coordinates B. destruct (range_of c evs a coordinates Fo Fm) as [_ X]. apply X; try assumption; [now left|right; now left|].
  intros p P. right. right. apply (in_map (fun p : axes => val (p a))). exact P.
Qed.
Print Assumptions C83_tight.

(** The shades of a laser engraving. *)
Lemma small32 : forall r, Rabs r <= bpow radix2 102 -> small 128 (rnd32 r).
Proof.
  intros r H. unfold small. eapply Rle_lt_trans; [|apply (bpow_lt radix2 102 128); lia].
  apply abs_round_le_generic; [apply (fexp_correct 24 128); reflexivity|apply valid_rnd_N| |exact H]. apply generic_format_bpow. vm_compute. discriminate.
Qed.
Lemma difference_pos : forall x y, fin32 x -> fin32 y -> val x < val y -> 0 < rnd32 (val y - val x).
Proof.
  intros x y Fx Fy L. assert (N : rnd32 (val y - val x) <> 0).
  { unfold rnd, Rminus. apply round_plus_neq_0; [apply (fexp_correct 24 128); reflexivity|exact (@monotone_exp_not_FTZ _ (fexp_correct 24 128 (eq_refl : Prec_gt_0 24)) (FLT_exp_monotone (3 - 128 - 24) 24))|apply valid_rnd_N|apply (fin_format 24 128); assumption|apply generic_format_opp, (fin_format 24 128); assumption|lra]. }
  assert (P : rnd32 0 <= rnd32 (val y - val x)) by (apply rnd_le; try reflexivity; lra). rewrite rnd_0 in P. lra.
Qed.
Definition powers_ok (z : viz) : Prop :=
  fin32 (vz_intensity z) /\ fin32 (vz_laser_min z) /\ fin32 (vz_laser_max z) /\
  Rabs (val (vz_laser_min z)) <= bpow radix2 100 /\ Rabs (val (vz_laser_max z)) <= bpow radix2 100 /\
  (val (vz_laser_max z) < val (vz_laser_min z) \/ val (vz_laser_min z) <= val (vz_intensity z) <= val (vz_laser_max z)).
Lemma gray_ok : forall z, powers_ok z -> SFltb (vz_laser_min z) (vz_laser_max z) = true ->
  let g := f32_sub (f32_of_Z 1) (scaled_intensity z) in fin32 g /\ 0 <= val g <= 1.
Proof.
  intros z (Fi & Fl & Fh & Bl & Bh & O) L g. assert (P24 : Prec_gt_0 24) by reflexivity. assert (L24 : Prec_lt_emax 24 128) by reflexivity.
  apply (ltb_lt 24 128) in L; try assumption. destruct O as [O|O]; [lra|]. apply Rabs_le_inv in Bl. apply Rabs_le_inv in Bh.
  assert (B2 : 2 * bpow radix2 100 <= bpow radix2 102) by (change 2 with (bpow radix2 1); rewrite <- bpow_plus; apply bpow_le; lia).
  set (lo := val (vz_laser_min z)) in *. set (hi := val (vz_laser_max z)) in *. set (i := val (vz_intensity z)) in *.
  destruct (sub_val 24 128 P24 L24 (vz_intensity z) (vz_laser_min z) Fi Fl) as [Fn Vn]; [apply small32; fold i lo; apply Rabs_le; lra|]. fold i lo in Vn.
  destruct (sub_val 24 128 P24 L24 (vz_laser_max z) (vz_laser_min z) Fh Fl) as [Fd Vd]; [apply small32; fold hi lo; apply Rabs_le; lra|]. fold hi lo in Vd.
  assert (Dp : 0 < rnd32 (hi - lo)) by (apply difference_pos; assumption).
  assert (N0 : rnd32 0 <= rnd32 (i - lo)) by (apply rnd_le; try reflexivity; lra). rewrite rnd_0 in N0.
  assert (N1 : rnd32 (i - lo) <= rnd32 (hi - lo)) by (apply rnd_le; try reflexivity; lra).
  assert (Q : 0 <= rnd32 (i - lo) / rnd32 (hi - lo) <= 1).
  { split; [apply Rmult_le_pos; [exact N0|apply Rlt_le, Rinv_0_lt_compat; exact Dp]|]. apply (Rmult_le_reg_r (rnd32 (hi - lo))); [exact Dp|]. unfold Rdiv. rewrite Rmult_assoc, Rinv_l by lra. lra. }
  assert (One : bpow radix2 0 <= bpow radix2 102) by (apply bpow_le; lia). change (bpow radix2 0) with 1 in One.
  destruct (div_val 24 128 P24 L24 _ _ Fn Fd) as [Fq Vq]; [rewrite Vd; lra|rewrite Vn, Vd; apply small32; rewrite Rabs_pos_eq; lra|]. rewrite Vn, Vd in Vq.
  destruct (f32_of_Z_val 1 ltac:(lia)) as [F1 V1].
  assert (R1 : rnd32 1 = 1) by (change 1 with (IZR 1); rewrite <- V1; apply rnd_fin; exact F1).
  assert (Q0 : rnd32 0 <= rnd32 (rnd32 (i - lo) / rnd32 (hi - lo))) by (apply rnd_le; try reflexivity; lra). rewrite rnd_0 in Q0.
  assert (Q1 : rnd32 (rnd32 (i - lo) / rnd32 (hi - lo)) <= rnd32 1) by (apply rnd_le; try reflexivity; lra). rewrite R1 in Q1.
  set (q := rnd32 (rnd32 (i - lo) / rnd32 (hi - lo))) in *.
  destruct (sub_val 24 128 P24 L24 _ _ F1 Fq) as [Fg Vg]; [rewrite V1, Vq; apply small32; rewrite Rabs_pos_eq; lra|]. rewrite V1, Vq in Vg.
  split; [exact Fg|]. assert (G0 : rnd32 0 <= rnd32 (1 - q)) by (apply rnd_le; try reflexivity; lra). assert (G1 : rnd32 (1 - q) <= rnd32 1) by (apply rnd_le; try reflexivity; lra). rewrite rnd_0 in G0. rewrite R1 in G1.
  unfold g, scaled_intensity, f32_sub, f32_div. rewrite Vg. lra.
Qed.
Lemma run_powers : forall c pass evs z, powers_ok z -> (forall v, In v (powers evs) -> fin32 v /\ Rabs (val v) <= bpow radix2 100) ->
  powers_ok (fst (viz_run c pass evs z)) /\ forall g, In (Color (Gray g)) (snd (viz_run c pass evs z)) -> fin32 g /\ 0 <= val g <= 1.
Proof.
  intros c pass. induction evs as [|e evs IH]; intros z P H; [split; [exact P|cbn; tauto]|].
  assert (H' : forall v, In v (powers evs) -> fin32 v /\ Rabs (val v) <= bpow radix2 100) by (intros v V; apply H; unfold powers; cbn [flat_map]; apply in_or_app; now right).
  cbn [viz_run]. destruct (viz_step c pass e z) as [z1 o] eqn:E.
  assert (S : powers_ok z1 /\ forall g, In (Color (Gray g)) o -> fin32 g /\ 0 <= val g <= 1).
  { destruct e as [|f|w|rapid p|v]; cbn [viz_step] in E.
    - injection E as <- <-. split; [exact P|]. intros g. destruct pass; cbn; intuition discriminate.
    - injection E as <- <-. split; [destruct pass; exact P|]. intros g. destruct pass, f; cbn; intuition discriminate.
    - injection E as <- <-. split; [exact P|]. intros g. destruct pass; cbn; intuition discriminate.
    - assert (OUT : (let '(z, o1) := change_style rapid z in let '(z, o2) := change_intensity c z in (z, o1 ++ o2 ++ [LineTo p])) = (z1, o) -> powers_ok z1 /\ forall g, In (Color (Gray g)) o -> fin32 g /\ 0 <= val g <= 1).
      { clear E. intros E. assert (S1 : exists zs os, change_style rapid z = (zs, os) /\ powers_ok zs /\ forall g, ~ In (Color (Gray g)) os).
        { unfold change_style. destruct (Bool.eqb rapid (vz_rapid z)); do 2 eexists; (split; [reflexivity|]); (split; [exact P|]); cbn; intuition discriminate. }
        destruct S1 as (zs & os & E1 & Ps & Ns). rewrite E1 in E. unfold change_intensity in E. destruct (_ && _ && _) eqn:L.
        - injection E as <- <-. split; [exact Ps|]. intros g G. apply in_app_or in G. destruct G as [G|G]; [now apply Ns in G|]. cbn in G. destruct G as [G|[G|[]]]; [|discriminate]. injection G as <-.
          apply andb_true_iff in L. destruct L as [L _]. apply andb_true_iff in L. destruct L as [_ L]. apply gray_ok; assumption.
        - injection E as <- <-. split; [exact Ps|]. intros g G. apply in_app_or in G. destruct G as [G|G]; [now apply Ns in G|]. cbn in G. destruct G as [G|[]]; discriminate. }
      unfold viz_move in E. destruct pass; [exact (OUT E)| |exact (OUT E)]. injection E as <- <-. split; [exact P|cbn; tauto].
    - injection E as <- <-. split; [|cbn; tauto]. destruct (H v ltac:(now left)) as [Fv Bv]. destruct P as (Fi & Fl & Fh & Bl & Bh & _).
      destruct (min_val v (vz_laser_min z) Fv Fl) as [F1 V1]. destruct (max_val v (vz_laser_max z) Fv Fh) as [F2 V2].
      unfold powers_ok. cbn [vz_intensity vz_laser_min vz_laser_max]. rewrite V1, V2. split; [exact Fv|]. split; [exact F1|]. split; [exact F2|].
      split; [unfold Rmin; destruct (Rle_dec _ _); assumption|]. split; [unfold Rmax; destruct (Rle_dec _ _); assumption|]. right. split; [apply Rmin_l|apply Rmax_l]. }
  destruct S as [S1 S2]. destruct (IH z1 S1 H') as [I1 I2]. destruct (viz_run c pass evs z1) as [z2 o']. cbn [fst snd] in *. split; [exact I1|]. intros g G. apply in_app_or in G. destruct G as [G|G]; auto.
Qed.
Lemma init_powers : powers_ok viz_init.
Proof.
  destruct (f32_of_Z_val 1000000 ltac:(lia)) as [F1 V1]. destruct (f32_of_Z_val (-1000000) ltac:(lia)) as [F2 V2]. destruct (f32_of_Z_val 1 ltac:(lia)) as [F3 V3].
  unfold powers_ok, viz_init, million. cbn [vz_intensity vz_laser_min vz_laser_max]. change (Z.opp 1000000) with (-1000000)%Z. rewrite V1, V2.
  assert (B : IZR 1000000 <= bpow radix2 100) by (eapply Rle_trans; [|apply (bpow_le radix2 20); lia]; change (bpow radix2 20) with (IZR 1048576); apply IZR_le; lia).
  split; [exact F3|]. split; [exact F1|]. split; [exact F2|]. split; [apply Rabs_le; lra|]. split; [apply Rabs_le; lra|]. left. lra.
Qed.
(** Every shade of a laser engraving is one that the device knows, between black and white:
    there is neither a division by zero nor an overflow. *)
Theorem C83_shades : forall c evs, (forall v, In v (powers evs) -> fin32 v /\ Rabs (val v) <= bpow radix2 100) ->
  forall g, In (Color (Gray g)) (snd (picture c evs)) -> fin32 g /\ 0 <= val g <= 1.
Proof.
  intros c evs H g G. unfold picture in G. cbn [snd] in G. revert G. apply run_powers; [|exact H].
  apply run_powers; [|cbn; tauto]. apply run_powers; [exact init_powers|exact H].
Qed.
Print Assumptions C83_shades.
Example C83_engraving : (forall a, shown a -> fin32 (vc_origin (Prop_View.corner true) a)) /\
  (forall p a, In p (moves Prop_View.engraving) -> shown a -> fin32 (p a)) /\ (forall v, In v (powers Prop_View.engraving) -> fin32 v).
Proof.
  assert (Z : forall n, (Z.abs n <= 1000)%Z -> fin32 (f32_of_Z n)) by (intros n N; apply f32_of_Z_val; lia).
  split; [intros a [->|[->| ->]]; apply Z; lia|]. split.
  - intros p a P A. cbn in P. repeat (destruct P as [<-|P]; [destruct A as [->|[->| ->]]; apply Z; lia|]). destruct P.
  - intros v V. cbn [powers flat_map Prop_View.engraving app] in V. repeat (destruct V as [<-|V]; [apply Z; lia|]). destruct V.
Qed.
