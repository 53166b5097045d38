(** All calls keep to the limits, for any path of sane legs. *)
From Coq Require Import SpecFloat Reals Lra FunctionalExtensionality.
From Flocq Require Import Core IEEE754.BinarySingleNaN.
From Verif Require Import Base Model_Float Model_Axis Model_Hardware Model_Planner Spec_Real Spec_Planner Spec_Speeds Spec_Limits Proofs_Planner Proofs_Real Proofs_Ramp Proofs_Profile Proofs_Speeds Proofs_Joints Proofs_Limits Proofs_Corner Proofs_Path Proofs_Within.
Open Scope Z_scope.
Open Scope R_scope.

Section Sound.
Variable A : R.
Hypothesis Amax : A <= bpow radix2 200.
Hypothesis Apos : 0 < A.
Variable c : pcfg.
Hypothesis Will : willing c.
Notation able := (able A).
Notation good := (good A).

(** ** Planning *)
Definition newly (s : pseg) : Prop := able (s_target s) /\ exists e, fresh (s_target s) e (s_plan s).
Lemma end_speed_fin : forall t next, able t -> match next with None => True | Some n => newly n end -> fin64 (end_speed t next) /\ 0 <= val (end_speed t next).
Proof.
  intros t next Ht Hn. unfold end_speed. destruct next as [n|].
  - destruct Hn as (Hb & e & Fr). destruct Fr as [F1 F2 P2 _ P1 Le _ _ _ _ Top _ _ _ _].
    destruct (fmin_val (f_v1 (s_plan n)) (t_start (s_target n)) F1 (b_start _ _ Hb)) as [Fm Vm]. pose proof (b_join _ _ Hb) as P0.
    assert (D : fin64 d0 /\ 0 <= val d0) by (split; [split; reflexivity|]; change (val d0) with 0; lra).
    set (m := fmin (f_v1 (s_plan n)) (t_start (s_target n))) in *. assert (Pm : 0 <= val m) by (rewrite Vm; apply Rmin_glb; lra).
    assert (Bm : val m <= bpow radix2 82).
    { rewrite Vm. eapply Rle_trans; [apply Rmin_l|]. destruct (h_small A (s_target n) Hb) as (_ & _ & _ & _ & H4). pose proof (V_pos A (s_target n) Hb) as Vp. pose proof (b_fast _ _ Hb) as Bf.
      set (V := val (t_speed (s_target n))) in *. destruct (Rle_dec (val (f_v1 (s_plan n))) (2 * V)) as [L|L].
      - replace 82%Z with (80 + 2)%Z by reflexivity. rewrite bpow_plus. change (bpow radix2 2) with 4. pose proof (bpow_gt_0 radix2 80). lra.
      - exfalso. assert (2 * V * (2 * V) < val (f_v1 (s_plan n)) * val (f_v1 (s_plan n))) by (apply Rmult_le_0_lt_compat; lra). unfold slack, h, q in Top, H4. fold V in Top, H4. change (bpow radix2 (-48)) with (/ 281474976710656) in *. assert (0 < V * V) by (apply Rmult_lt_0_compat; lra). lra. }
    unfold speed_factor. pose proof (b_reach _ _ Ht) as R. unfold reach in R. destruct (Z.eqb_spec (t_delta t (t_axis t)) 0) as [E0|_]; [rewrite E0 in R; cbn in R; lia|].
    destruct (axis_eqb (t_axis (s_target n)) (t_axis t)).
    + change (SFeqb d1 d0) with false. cbv iota. destruct (by_one _ Fm) as [X Y]. rewrite Y. auto.
    + pose proof (b_most _ _ Ht (t_axis (s_target n))) as M. unfold reach in M. set (k := t_delta t (t_axis (s_target n))) in *.
      destruct (quotient_fin k (t_delta t (t_axis t)) ltac:(lia) ltac:(lia)) as [Fq Vq]. destruct (abs_val 53 1024 _ Fq) as [Fa Va]. set (fa := f64_abs _) in *.
      destruct (SFeqb fa d0) eqn:Q; [exact D|]. assert (N0 : val fa <> 0). { intros X. apply Bool.not_true_iff_false in Q. apply Q. apply (eqb_eq_val 53 1024); auto. apply D. }
      assert (Kn : k <> 0%Z). { intros X. apply N0. rewrite Va, Vq, X. unfold Rdiv. rewrite Rmult_0_l, rnd_0. apply Rabs_R0. }
      assert (Mf : mag (-31) 31 (val fa)).
      { rewrite Va. unfold mag. rewrite Rabs_Rabsolu. rewrite Vq. apply rnd_mag; [auto with typeclass_instances|exps|exps|]. change (-31)%Z with (0 - 31)%Z. change 31%Z with (31 - 0)%Z at 2. apply mag_div; apply mag_Z; lia. }
      assert (Bq : Rabs (val m / val fa) <= bpow radix2 113).
      { unfold Rdiv. rewrite Rabs_mult, (Rabs_pos_eq (val m)) by exact Pm. replace 113%Z with (82 + 31)%Z by reflexivity. rewrite bpow_plus. apply Rmult_le_compat; [exact Pm|apply Rabs_pos|exact Bm|]. apply (mag_inv _ _ _ Mf). }
      destruct (div_val 53 1024 _ _ _ _ Fm Fa N0) as [F V]; [apply (small_of 53 1024 _ 113); [exps|exact Bq]|]. split; [exact F|]. unfold f64_div. rewrite V. apply rnd_pos; auto with typeclass_instances. apply div_pos; [exact Pm|].
      destruct (Rle_lt_or_eq_dec 0 (val fa)) as [X|X]; [rewrite Va; apply Rabs_pos|exact X|]. now destruct N0.
  - rewrite (own_factor A t Ht). change (SFeqb d1 d0) with false. cbv iota. destruct (by_one d0) as [X Y]; [split; reflexivity|]. rewrite Y. change (val d0) with 0. split; [apply X|lra].
Qed.
Lemma backward_sound : forall l done done0, Forall able (map s_target l) -> Forall newly done -> Forall2 kin done0 done ->
  exists kept behind0 behind, backward c l done = (kept, behind) /\ rev l ++ done0 = kept ++ behind0 /\ Forall2 kin behind0 behind /\ Forall newly behind /\ (length done <= length behind)%nat /\ (l <> [] -> behind <> []).
Proof.
  induction l as [|s l IH]; intros done done0 L W K.
  - exists [], done0, done. cbn [backward rev app]. repeat split; auto.
  - cbn [map] in L. inversion L as [|? ? Hs Hl]; subst. set (next := match done with [] => None | n :: _ => Some n end).
    destruct (end_speed_fin (s_target s) next Hs) as (E1 & E3); [unfold next; destruct W; auto|]. destruct s as [t p]. cbn [s_target s_plan] in *.
    destruct (decelerate_fresh A Amax c t Hs p next E1 E3) as (go & p' & D & V0 & X). cbn [backward]. fold next. rewrite D. destruct go.
    + destruct (IH (mk_pseg t p' :: done) (mk_pseg t p :: done0) Hl) as (kept & b0 & b & B1 & B2 & B3 & B4 & B5 & B6).
      * constructor; [split; [exact Hs|eauto]|exact W].
      * constructor; [split; [reflexivity|exact V0]|exact K].
      * unfold with_plan. cbn [s_target]. exists kept, b0, b. split; [exact B1|]. split; [cbn [rev]; rewrite <- app_assoc; exact B2|]. split; [exact B3|]. split; [exact B4|].
        cbn [length] in B5. split; [lia|]. intros _ ->. cbn in B5. lia.
    + exists (rev (mk_pseg t p :: l)), done0, done. destruct X as (_ & X & _). repeat split; auto. unfold next in X. intros _ ->. now apply X.
Qed.
Lemma forward_sound : forall l prev ix, Forall newly l ->
  match l with [] => True | s :: r => let x := match prev with None => f_v0 (s_plan s) | Some p => f_v2 (s_plan p) end in fin64 x /\ 0 <= val x end ->
  exists l' first, forward c prev ix l = (l', first) /\ Forall good l' /\ map s_target l' = map s_target l /\
     match first with Some i => (ix <= i < ix + Z.of_nat (length l))%Z | None => True end.
Proof.
  induction l as [|s r IH]; intros prev ix W P.
  - exists [], None. repeat split; constructor.
  - inversion W as [|? ? [Hs [e F]] Wr]; subst. destruct s as [t p]. cbn [s_target s_plan] in *. destruct P as (Fx & Px).
    destruct (accelerate_planned A Amax c t Hs prev p e F Fx Px) as (go & p' & E & Pl & _). cbn [forward]. rewrite E. unfold with_plan. cbn [s_target].
    destruct (IH (Some (mk_pseg t p')) (ix + 1)%Z Wr) as (l' & first & E' & G & T & Fi).
    { destruct r; [exact I|]. cbn [s_plan]. split; [apply (w_f2 _ _ Pl)|apply (w_p2 _ _ Pl)]. }
    rewrite E'. eexists _, _. split; [reflexivity|]. split; [constructor; [split; assumption|exact G]|]. split; [cbn [map s_target]; now rewrite T|]. cbn [length]. destruct go; [lia|]. destruct first; [lia|exact I].
Qed.
Definition begins (s : pseg) : Prop := fin64 (f_v0 (s_plan s)) /\ 0 <= val (f_v0 (s_plan s)).
Lemma good_begins : forall s, good s -> begins s.
Proof. intros s [_ P]. split; [apply (w_f0 _ _ P)|apply (w_p0 _ _ P)]. Qed.

Lemma update_sound : forall hd pend t ready, (hd = [] \/ exists pos, hd = [holder pos]) -> Forall good pend -> able t -> (0 <= ready <= Z.of_nat (length (hd ++ pend)))%Z ->
  exists pend' ready', update_profile c (hd ++ pend ++ [mk_pseg t no_plan]) ready = (hd ++ pend', ready') /\ Forall good pend' /\ map s_target pend' = map s_target pend ++ [t] /\
    (0 <= ready' <= Z.of_nat (length (hd ++ pend')))%Z.
Proof.
  intros hd pend t ready Hh C2 Ht Rr. set (new := mk_pseg t no_plan). set (L := pend ++ [new]).
  assert (LT : map s_target L = map s_target pend ++ [t]) by (unfold L; rewrite map_app; reflexivity).
  assert (Ab : Forall able (map s_target L)).
  { rewrite LT. apply Forall_app. split; [|auto]. apply Forall_map. eapply Forall_impl; [|exact C2]. intros s [H _]. exact H. }
  assert (Bg : Forall begins L).
  { apply Forall_app. split; [eapply Forall_impl; [|exact C2]; apply good_begins|]. constructor; [|constructor]. split; [split; reflexivity|]. change (val (f_v0 (s_plan new))) with 0. lra. }
  assert (LL : length L = S (length pend)) by (unfold L; rewrite app_length; cbn; lia).
  assert (Core : forall k, (k <= length pend)%nat -> exists kept b0 b, backward c (rev (skipn k L)) [] = (kept, b) /\ Forall newly b /\ b <> [] /\
    Forall good (firstn k L ++ kept) /\ map s_target b = map s_target b0 /\ L = (firstn k L ++ kept) ++ b0 /\ match b with [] => True | s :: r => begins s end).
  { intros k Hk. destruct (backward_sound (rev (skipn k L)) [] []) as (kept & b0 & b & B1 & B2 & B3 & B4 & _ & B5).
    - rewrite map_rev. apply Forall_rev. rewrite <- (firstn_skipn k L), map_app in Ab. apply Forall_app in Ab. apply Ab.
    - constructor.
    - constructor.
    - rewrite rev_involutive, app_nil_r in B2. assert (Bn : b <> []).
      { apply B5. intros X. apply (f_equal (@length pseg)) in X. rewrite rev_length, skipn_length in X. cbn in X. lia. }
      assert (LE : L = (firstn k L ++ kept) ++ b0) by (rewrite <- app_assoc, <- B2; symmetry; apply firstn_skipn).
      pose proof (kin_targets _ _ B3) as KT. assert (Lb : length b = length b0) by (rewrite <- (map_length s_target b), KT; apply map_length).
      exists kept, b0, b. split; [exact B1|]. split; [exact B4|]. split; [exact Bn|].
      split; [apply (prefix_Forall _ good _ b0 pend new); [symmetry; exact LE| |exact C2]; intros ->; destruct b; [now apply Bn|discriminate Lb]|].
      split; [exact KT|]. split; [exact LE|]. rewrite LE in Bg. apply Forall_app in Bg. destruct Bg as [_ Bg]. destruct B3 as [|s0 s r0 r [_ K2] _]; [exact I|]. inversion Bg as [|? ? Hs _]; subst. unfold begins in *. now rewrite K2. }
  assert (Fin : forall pre b0 b ix prev, L = pre ++ b0 -> map s_target b = map s_target b0 -> Forall newly b -> Forall good pre -> b <> [] ->
    match b with [] => True | s :: r => let x' := match prev with None => f_v0 (s_plan s) | Some p => f_v2 (s_plan p) end in fin64 x' /\ 0 <= val x' end ->
    exists b' first, forward c prev ix b = (b', first) /\ Forall good (pre ++ b') /\ map s_target (pre ++ b') = map s_target L /\
      match first with Some i => (ix <= i < ix + Z.of_nat (length b'))%Z | None => True end).
  { intros pre b0 b ix prev LE KT Wb Gp Bn P. destruct (forward_sound b prev ix Wb P) as (b' & first & F1 & F2 & F3 & F4).
    exists b', first. split; [exact F1|]. split; [now apply Forall_app|]. split; [rewrite LE, !map_app; congruence|].
    assert (Le : length b' = length b) by (rewrite <- (map_length s_target b'), F3; apply map_length). rewrite Le. exact F4. }
  unfold update_profile. destruct Hh as [->|[pos ->]].
  - cbn [app] in *. fold new L. destruct (Core (Z.to_nat ready) ltac:(lia)) as (kept & b0 & b & B1 & B4 & B5 & B8 & B9 & B10 & B11). rewrite B1.
    destruct (Fin (firstn (Z.to_nat ready) L ++ kept) b0 b (Z.of_nat (length (firstn (Z.to_nat ready) L ++ kept))) None B10 B9 B4 B8 B5 B11) as (b' & first & F1 & F2 & F3 & F4).
    rewrite F1. eexists _, _. split; [reflexivity|]. split; [exact F2|]. split; [rewrite F3; exact LT|]. rewrite app_length in *.
    assert (Lq : (length (firstn (Z.to_nat ready) L ++ kept) + length b')%nat = S (length pend)) by (rewrite <- app_length, <- (map_length s_target), F3, map_length; exact LL). destruct first; rewrite app_length in *; lia.
  - cbn [app]. fold new L. destruct (Z.to_nat ready) as [|k] eqn:K.
    + cbn [firstn skipn rev]. rewrite backward_last. destruct (Core 0%nat ltac:(lia)) as (kept & b0 & b & B1 & B4 & B5 & B8 & B9 & B10 & B11). cbn [skipn firstn app] in *. rewrite B1.
      destruct kept as [|s0 kept].
      * cbn [app length]. cbn [forward]. change (accelerate c None (holder pos)) with (false, no_plan). cbv iota beta. change (with_plan (holder pos) no_plan) with (holder pos).
        destruct (Fin [] b0 b (Z.of_nat 0 + 1)%Z (Some (holder pos)) B10 B9 B4 B8 B5) as (b' & first & F1 & F2 & F3 & F4).
        { destruct b as [|s r]; [exact I|]. cbn [s_plan holder f_v2 no_plan]. change (val d0) with 0. split; [split; reflexivity|lra]. }
        rewrite F1. eexists b', _. split; [reflexivity|]. cbn [app] in F2, F3. split; [exact F2|]. split; [rewrite F3; exact LT|]. cbn [length]. destruct first; lia.
      * cbn [app]. destruct (Fin (s0 :: kept) b0 b (Z.of_nat (length (holder pos :: s0 :: kept))) None B10 B9 B4 B8 B5 B11) as (b' & first & F1 & F2 & F3 & F4).
        rewrite F1. eexists ((s0 :: kept) ++ b'), _. split; [reflexivity|]. split; [exact F2|]. split; [rewrite F3; exact LT|]. cbn [app length] in *. rewrite app_length. destruct first; lia.
    + cbn [firstn skipn]. cbn [app length] in Rr. destruct (Core k ltac:(lia)) as (kept & b0 & b & B1 & B4 & B5 & B8 & B9 & B10 & B11). rewrite B1. cbn [app].
      destruct (Fin (firstn k L ++ kept) b0 b (Z.of_nat (length (holder pos :: firstn k L ++ kept))) None B10 B9 B4 B8 B5 B11) as (b' & first & F1 & F2 & F3 & F4).
      rewrite F1. eexists _, _. split; [reflexivity|]. split; [exact F2|]. split; [rewrite F3; exact LT|]. cbn [length] in *.
      assert (Lq : length ((firstn k L ++ kept) ++ b') = S (length pend)) by (rewrite <- (map_length s_target), F3, map_length; exact LL). rewrite !app_length in *. destruct first; lia.
Qed.

(** ** The state of the planner *)
(** [ok]: what the commands [g] have to be for a leg; [from]: what its target is. *)
Variable ok : list command -> leg * option fl -> Prop.
Variable from : target -> leg * option fl -> Prop.
Hypothesis Makes : forall s o, from (s_target s) o -> good s -> ok (group c s) o.

Definition placed (hd : list pseg) : Prop := hd = [] \/ exists pos, hd = [holder pos].
Record sound (ord : list (leg * option fl)) (hd pend : list pseg) (st : planner) : Prop := mk_sound {
  z_buf : p_buf st = hd ++ pend; z_some : p_buf st <> []; z_hd : placed hd; z_good : Forall good pend;
  z_ready : (0 <= p_ready st <= Z.of_nat (length (p_buf st)))%Z; z_halt : p_halted st = true -> pend = [];
  z_sent : exists gs done rest, ord = done ++ rest /\ concat gs = rev (sent (p_log st)) /\ Forall2 ok gs done /\ Forall2 (fun s o => from (s_target s) o) pend rest
}.
Lemma sent_sound : forall ord pend k log log', (exists gs done rest, ord = done ++ rest /\ concat gs = rev (sent log) /\ Forall2 ok gs done /\ Forall2 (fun s o => from (s_target s) o) pend rest) ->
  Forall good pend -> sent log' = rev (concat (map (group c) (firstn k pend))) ++ sent log ->
  exists gs done rest, ord = done ++ rest /\ concat gs = rev (sent log') /\ Forall2 ok gs done /\ Forall2 (fun s o => from (s_target s) o) (skipn k pend) rest.
Proof.
  intros ord pend k log log' (gs & done & rest & E & C & F & P) Gp S. rewrite <- (firstn_skipn k pend) in P, Gp. apply Forall2_app_inv_l in P. destruct P as (r1 & r2 & P1 & P2 & ->). apply Forall_app in Gp. destruct Gp as [Gp _].
  exists (gs ++ map (group c) (firstn k pend)), (done ++ r1), r2. split; [now rewrite <- app_assoc|]. split; [now rewrite concat_app, C, S, rev_app_distr, rev_involutive|]. split; [|exact P2].
  apply Forall2_app; [exact F|]. clear - Makes P1 Gp. induction P1; cbn [map]; constructor; inversion Gp; subst; auto.
Qed.
Lemma placed_silent : forall hd, placed hd -> forall n l, concat (map (group c) (firstn n (hd ++ l))) = concat (map (group c) (firstn (n - length hd) l)).
Proof.
  intros hd [->|[pos ->]] n l.
  - cbn. now rewrite Nat.sub_0_r.
  - destruct n as [|n]; [reflexivity|]. cbn [app firstn length map concat]. rewrite (proj1 (holds_silent c _ (holder_holds pos))). cbn [app]. now rewrite Nat.sub_succ, Nat.sub_0_r.
Qed.
Lemma sound_issue : forall ord hd pend st n, sound ord hd pend st -> (0 < n <= length (p_buf st))%nat ->
  exists ret st', issue c n true st = Ok (ret, st') /\ p_look st' = p_look st /\ p_known st' = p_known st /\
    ((n = length (p_buf st) /\ ret = false /\ p_halted st' = true /\ exists pos, sound ord [holder pos] [] st' /\ pos = last_pos (p_buf st)) \/
     ((n < length (p_buf st))%nat /\ ret = true /\ exists pend', (exists k, pend' = skipn k pend) /\
        (forall b, sound ord [] pend' (mk_planner (p_buf st') (p_ready st') (p_look st') false b (p_log st'))))).
Proof.
  intros ord hd pend st n S Hn. destruct S as [B N H C Rd Ht Fn]. set (k := (n - length hd)%nat). pose proof (placed_silent hd H n pend) as K4. rewrite <- B in K4. fold k in K4. destruct (Nat.eq_dec n (length (p_buf st))) as [E|E].
  - destruct (issue_all c (p_buf st) true st eq_refl N) as (log' & E1 & E2). specialize (E2 Will eq_refl). rewrite <- E in E1. eexists _, _. split; [exact E1|]. split; [reflexivity|]. split; [reflexivity|].
    left. split; [exact E|]. split; [reflexivity|]. split; [reflexivity|]. exists (last_pos (p_buf st)). split; [|reflexivity].
    assert (Lk : (length pend <= k)%nat) by (unfold k; rewrite E, B, app_length; lia). rewrite E, firstn_all in K4. rewrite K4 in E2.
    constructor; cbn [p_buf p_ready p_log p_halted]; auto; try discriminate; try (cbn; lia).
    + right. eauto.
    + pose proof (sent_sound _ _ k _ log' Fn C E2) as X. rewrite skipn_all2 in X by exact Lk. exact X.
  - destruct (issue_part c n true st ltac:(lia)) as (ret' & ready' & log' & E1 & _ & E2). specialize (E2 Will eq_refl). destruct E2 as [-> E2].
    eexists _, _. split; [exact E1|]. split; [reflexivity|]. split; [reflexivity|]. right. split; [lia|]. split; [reflexivity|]. rewrite K4 in E2.
    assert (Sk : skipn n (p_buf st) = skipn k pend).
    { unfold k. rewrite B, skipn_app. destruct H as [->|[pos ->]]; [now rewrite skipn_nil|]. destruct n; [lia|]. now rewrite skipn_cons, skipn_nil. }
    assert (Ne : skipn k pend <> []). { rewrite <- Sk. intros X. apply (f_equal (@length pseg)) in X. rewrite skipn_length in X. cbn in X. lia. }
    pose proof (issue_ready c _ _ _ _ _ E1 Rd) as Rd'. exists (skipn k pend). split; [eauto|].
    intros b. constructor; cbn [p_buf p_ready p_log p_halted] in *; auto; try discriminate.
    + now rewrite Sk.
    + now left.
    + rewrite <- (firstn_skipn k pend) in C. apply Forall_app in C. apply C.
    + exact (sent_sound _ _ k _ _ Fn C E2).
Qed.

Lemma sound_move : forall ord hd pend st to f aux ret st', sound ord hd pend st -> (1 <= p_look st)%Z -> machine_move c to f aux st = Ok (ret, st') ->
  let prev := s_target (last (p_buf st) dummy) in let pos a := steps_at c a (to a) in let t := new_target c prev pos f aux in
  p_look st' = p_look st /\
  (st' = st /\ (forall a, pos a - t_pos prev a = 0)%Z \/
   ((exists a, pos a - t_pos prev a <> 0)%Z /\
    (forall o, able t -> from t o ->
     exists hd' pend', sound (ord ++ [o]) hd' pend' st' /\ (forall a, last_pos (p_buf st') a = pos a) /\ (pend' <> [] -> s_target (last pend' dummy) = t)))).
Proof.
  intros ord hd pend st to f aux ret st' S LK E prev pos t. unfold machine_move in E. destruct (p_known st) eqn:Kn; [|discriminate]. cbn [negb] in E.
  destruct (Z.ltb_spec (size st) capacity) as [Sz|_]; [|discriminate]. cbn [negb] in E.
  destruct (rev (p_buf st)) as [|s0 r0] eqn:RV; [discriminate|].
  assert (LS : last (p_buf st) dummy = s0). { apply (f_equal (@rev pseg)) in RV. rewrite rev_involutive in RV. rewrite RV. cbn [rev]. apply last_last. }
  assert (PV : prev = s_target s0) by (unfold prev; now rewrite LS). rewrite <- PV in E. change (fun a => lround c (f32_mul (to a) (spm c a))) with pos in E.
  rewrite defining_zero in E. fold t in E. change (fun a => (lround c (f32_mul (to a) (spm c a)) - t_pos prev a =? 0)%Z) with (fun a => (pos a - t_pos prev a =? 0)%Z) in E.
  destruct (forallb (fun a => (pos a - t_pos prev a =? 0)%Z) all_axes) eqn:Z0.
  { injection E as _ <-. split; [reflexivity|]. left. split; [reflexivity|]. intros a. rewrite forallb_forall in Z0. specialize (Z0 a (all_axes_in a)). lia. }
  assert (NZ : exists a, (pos a - t_pos prev a <> 0)%Z).
  { destruct (existsb (fun a => negb (pos a - t_pos prev a =? 0)%Z) all_axes) eqn:X.
    - apply existsb_exists in X. destruct X as (a & _ & X). exists a. lia.
    - exfalso. assert (Y : forallb (fun a => (pos a - t_pos prev a =? 0)%Z) all_axes = true); [|congruence]. apply forallb_forall. intros a I0.
      destruct (pos a - t_pos prev a =? 0)%Z eqn:Q; [reflexivity|]. assert (W : existsb (fun a => negb (pos a - t_pos prev a =? 0)%Z) all_axes = true); [|congruence]. apply existsb_exists. exists a. split; [exact I0|]. now rewrite Q. }
  destruct (update_profile c (p_buf st ++ [mk_pseg t no_plan]) (p_ready st)) as [buf ready] eqn:U.
  assert (Main : forall o, able t -> from t o -> exists hd' pend', sound (ord ++ [o]) hd' pend' (mk_planner buf ready (p_look st) false true (p_log st)) /\ (pend' <> [] /\ s_target (last pend' dummy) = t)).
  { intros o Ht Ft. destruct S as [B N H C Rd Hlt (gs & done & rest & Fn1 & Fn2 & Fn3 & Fn4)].
    rewrite B, <- app_assoc in U. destruct (update_sound hd pend t (p_ready st) H C Ht) as (pend' & ready' & U1 & U2 & U3 & U4); [rewrite <- B; exact Rd|].
    rewrite U1 in U. injection U as <- <-.
    assert (Pn : pend' <> []). { intros ->. destruct (map s_target pend); discriminate. }
    assert (Lt : s_target (last pend' dummy) = t) by (rewrite <- last_map, U3; apply last_last).
    exists hd, pend'. split; [|split; [exact Pn|exact Lt]]. constructor; cbn [p_buf p_ready p_log p_halted]; auto; try discriminate.
    - intros X. apply app_eq_nil in X. now destruct X.
    - exists gs, done, (rest ++ [o]). split; [rewrite Fn1; apply app_assoc_reverse|]. split; [exact Fn2|]. split; [exact Fn3|].
      assert (G : Forall2 from (map s_target pend') (rest ++ [o])).
      { rewrite U3. apply Forall2_app; [|auto]. clear - Fn4. induction Fn4; cbn [map]; constructor; auto. }
      clear - G. revert G. generalize (rest ++ [o]). induction pend' as [|s l IH]; intros r G; inversion G; subst; constructor; auto. }
  cbn [obind] in E. destruct (issue_if_possible c false _) as [[ret1 st1]|] eqn:Is; [|discriminate]. cbn [obind] in E. injection E as <- <-.
  unfold issue_if_possible, size in Is. cbn [p_buf p_look] in Is. change (0 =? 0)%Z with true in Is. cbn [andb] in Is. set (extra := (Z.of_nat (length buf) - p_look st)%Z) in *.
  assert (Lk : p_look st1 = p_look st).
  { assert (G : forall n ret s r s', issue c n ret s = Ok (r, s') -> p_look s' = p_look s).
    { clear. induction n as [|n IH]; intros ret s r s' E; cbn [issue] in E; [now injection E as _ <-|]. destruct (p_buf s) as [|u rest]; [discriminate|]. destruct (send c u ret (p_log s)). destruct rest; apply IH in E; exact E. }
    apply G in Is. exact Is. }
  split; [exact Lk|]. right. split; [exact NZ|]. intros o Ht Ft. destruct (Main o Ht Ft) as (hd' & pend' & S' & (Pn & Lt)).
  assert (LP : forall l, l <> [] -> s_target (last l dummy) = t -> forall a, last_pos l a = pos a).
  { intros l Nl El a. unfold last_pos. change (holder (fun _ => 0%Z)) with dummy. rewrite El. reflexivity. }
  assert (BP : buf <> [] /\ s_target (last buf dummy) = t).
  { destruct S' as [B' N' _ _ _ _ _]. cbn [p_buf] in *. split; [exact N'|]. rewrite B'. destruct (exists_last Pn) as (l' & y & Ey). rewrite Ey in *. rewrite app_assoc, last_last. now rewrite last_last in Lt. }
  destruct (Z.leb_spec 0 extra) as [Ex|Ex].
  - set (st0 := mk_planner buf ready (p_look st) (p_halted st) true (p_log st)) in *.
    assert (S0 : issue c (Z.to_nat (extra + 1)) true st0 = Ok (ret1, st1)) by exact Is.
    set (st2 := mk_planner buf ready (p_look st) false true (p_log st)) in *.
    assert (I2 : exists h, issue c (Z.to_nat (extra + 1)) true st2 = Ok (ret1, mk_planner (p_buf st1) (p_ready st1) (p_look st1) h (p_known st1) (p_log st1)) /\ (h = p_halted st1 \/ (h = false /\ p_halted st1 = p_halted st))).
    { assert (G : forall n ret s s2 r s', issue c n ret s = Ok (r, s') -> s2 = mk_planner (p_buf s) (p_ready s) (p_look s) false (p_known s) (p_log s) ->
        exists h, issue c n ret s2 = Ok (r, mk_planner (p_buf s') (p_ready s') (p_look s') h (p_known s') (p_log s')) /\ (h = p_halted s' \/ (h = false /\ p_halted s' = p_halted s))).
      { clear. induction n as [|n IH]; intros ret s s2 r s' E ->; cbn [issue] in *; [injection E as <- <-; exists false; auto|]. cbn [p_buf p_log p_ready p_look p_known p_halted] in *. destruct (p_buf s) as [|u rest]; [discriminate|].
        destruct (send c u ret (p_log s)) as [r1 l1]. destruct rest as [|u2 rest].
        - exists (p_halted s'). split; [|now left]. rewrite E. now destruct s'.
        - apply (IH _ _ _ _ _ E). reflexivity. }
      apply (G _ _ st0 st2 _ _ S0). reflexivity. }
    destruct I2 as (hh & I2 & Hh).
    destruct (sound_issue (ord ++ [o]) hd' pend' st2 (Z.to_nat (extra + 1)) S') as (r2 & s2 & E2 & L2 & K2 & Cases).
    { cbn [p_buf st2]. unfold extra in *. lia. }
    rewrite I2 in E2. injection E2 as <- <-. cbn [p_look p_known p_buf p_ready p_log p_halted] in *.
    destruct Cases as [(N1 & -> & H1 & pos1 & S1 & P1)|(N1 & -> & p1 & (k & ->) & S1)].
    + exists [holder pos1], []. split; [|split; [|intros X; now destruct X]].
      * destruct S1 as [B1 Q1 W1 C1 R1 T1 Z1]. cbn [p_buf p_ready p_log p_halted] in *. constructor; cbn [p_buf p_ready p_log p_halted]; auto.
      * intros a. destruct S1 as [B1 _ _ _ _ _ _]. cbn [p_buf] in B1. rewrite B1. cbn [app]. change (last_pos [holder pos1]) with pos1. rewrite P1. apply LP; apply BP.
    + exists [], (skipn k pend'). specialize (S1 (p_known st1)). split; [|].
      * exact S1.
      * destruct S1 as [B1 Q1 _ _ _ _ _]. cbn [p_buf app] in B1, Q1. assert (Ls : s_target (last (skipn k pend') dummy) = t).
        { rewrite last_skipn; [exact Lt|]. assert (skipn k pend' <> []) by (now rewrite <- B1). destruct (Nat.lt_ge_cases k (length pend')) as [X|X]; [exact X|]. rewrite skipn_all2 in H by exact X. now destruct H. }
        split; [|auto]. apply LP; [exact Q1|]. now rewrite B1.
  - injection Is as <- <-. cbn [p_buf p_ready p_look p_known p_log]. exists hd', pend'. split; [exact S'|]. split; [|auto]. apply LP; apply BP.
Qed.

Lemma sound_halt : forall ord hd pend st, sound ord hd pend st -> exists st' pos, bring_to_halt c st = Ok st' /\ sound ord [holder pos] [] st' /\ (forall a, pos a = last_pos (p_buf st) a) /\ p_look st' = p_look st /\ p_halted st' = true.
Proof.
  intros ord hd pend st S. unfold bring_to_halt. destruct (p_halted st) eqn:Ht.
  - exists st. destruct S as [B N H C Rd Hlt Fn]. specialize (Hlt Ht). subst pend. destruct H as [->|[pos ->]]; [now destruct N|]. exists pos. split; [reflexivity|]. split; [|split; [|auto]].
    + constructor; auto. right. eauto.
    + intros a. rewrite B. reflexivity.
  - unfold issue_if_possible. set (n := if (size st =? 0)%Z && (0 <=? size st - p_look st)%Z then (size st - p_look st + 1)%Z else size st).
    assert (Nn : n = size st). { unfold n. destruct S as [B N _ _ _ _ _]. destruct (p_buf st) eqn:X; [now destruct N|]. unfold size. rewrite X. cbn [length]. destruct (Z.eqb_spec (Z.of_nat (S (length l))) 0); [lia|reflexivity]. }
    rewrite Nn. unfold size at 1. rewrite Nat2Z.id.
    destruct (sound_issue ord hd pend st (length (p_buf st)) S) as (r & s & E & L1 & K1 & Cases).
    { pose proof (z_some _ _ _ _ S). destruct (p_buf st); [now destruct H|cbn; lia]. }
    destruct Cases as [(_ & -> & H1 & pos & S1 & P1)|(X & _)]; [|lia]. rewrite E. cbn [obind]. exists s, pos. split; [reflexivity|]. split; [exact S1|]. split; [intros a; now rewrite P1|auto].
Qed.
Lemma external_sent : forall a steps l log, sent (fold_left (fun log m => if Z.testbit (hw_drivers (p_hw c) a) (motor_ix m) then External m steps :: log else log) l log) = sent log.
Proof. intros a steps. induction l as [|m l IH]; intros log; [reflexivity|]. cbn [fold_left]. rewrite IH. now destruct (Z.testbit _ _). Qed.
Lemma sound_position : forall ord hd pend st a p st', sound ord hd pend st -> external_position c a p st = Ok st' -> exists pos, sound ord [holder pos] [] st' /\ p_look st' = p_look st /\
  forall b, pos b = set_axis (last_pos (p_buf st)) a (steps_at c a p) b.
Proof.
  intros ord hd pend st a p st' S E. unfold external_position in E. destruct (p_buf st) as [|s [|? ?]] eqn:B; try discriminate. destruct (p_halted st) eqn:Ht; [|discriminate].
  pose proof (external_sent a (lround c (f32_mul p (spm c a))) all_motors (p_log st)) as SL. set (lg := fold_left _ _ _) in E, SL. injection E as <-.
  destruct S as [B0 N H C Rd Hlt Fn]. specialize (Hlt Ht). subst pend. rewrite app_nil_r in B0. destruct H as [->|[pos ->]]; [congruence|]. assert (Es : s = holder pos) by congruence. subst s.
  exists (set_axis pos a (steps_at c a p)). split; [|split; [reflexivity|reflexivity]].
  constructor; cbn [p_buf p_ready p_log p_halted]; auto; try discriminate.
  - right. eauto.
  - rewrite B in Rd. cbn in *. exact Rd.
  - rewrite SL. exact Fn.
Qed.
Lemma sound_drive : forall ord hd pend st a x v0 v1 aux n st' o, sound ord hd pend st -> direct_drive c a x v0 v1 aux st = Ok (n, st') ->
  ok [mk_command (fmin (f32_mul v0 (spm c a)) (max_axis_speed c a)) (fmin (f32_mul v1 (spm c a)) (max_axis_speed c a)) aux (assign_motor_steps (p_hw c) a (steps_at c a x) (fun _ => 0%Z))] o ->
  exists pos, sound (ord ++ [o]) [holder pos] [] st' /\ p_look st' = p_look st /\ forall b, pos b = last_pos (p_buf st) b.
Proof.
  intros ord hd pend st a x v0 v1 aux n st' o S E Hk. unfold direct_drive in E. destruct (sound_halt ord hd pend st S) as (s2 & pos & E2 & S2 & P2 & L2 & H2). rewrite E2 in E. cbn [obind] in E.
  unfold enqueue in E. injection E as _ <-. exists pos. split; [|cbn [p_look]; auto]. destruct S2 as [B N H C Rd Hlt (gs & done & rest & F1 & F2 & F3 & F4)].
  constructor; cbn [p_buf p_ready p_log p_halted]; auto. inversion F4; subst. rewrite app_nil_r.
  match type of Hk with ok [?cm] _ => exists (gs ++ [[cm]]), (done ++ [o]), [] end. split; [now rewrite app_nil_r|]. split; [|split; [apply Forall2_app; auto|constructor]].
  rewrite concat_app, F2. cbn [concat app sent flat_map]. reflexivity.
Qed.
End Sound.
