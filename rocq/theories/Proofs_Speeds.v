(** The speeds of the segments in the planning buffer fit to each other. *)
From Coq Require Import SpecFloat Reals Lra.
From Flocq Require Import Core IEEE754.BinarySingleNaN.
From Verif Require Import Base Model_Float Model_Axis Model_Planner Spec_Planner Proofs_Planner Proofs_Real Proofs_Ramp Proofs_Profile.
Open Scope Z_scope.
Open Scope R_scope.

Section Speeds.
Variable A : R.
Hypothesis Amax : A <= bpow radix2 200.
Variable c : pcfg.

(** The error of one step of planning. *)
Definition g : R := A / 1048576.
Notation able := (able A).
Lemma able_small : forall t, able t -> 0 < slack t /\ 8 * slack t <= g /\ 0 < val (t_accel t) /\ val (t_accel t) <= A /\ 0 < g /\ 0 < val (t_speed t).
Proof.
  intros t Ht. destruct (h_small A t Ht) as (Hp & H1 & H2 & H3 & H4). pose proof (a_pos A t Ht) as Ap. pose proof (b_acc _ _ Ht) as Ba. pose proof (V_pos A t Ht). unfold g. repeat split; try assumption; lra.
Qed.

(** ** The speeds that can be reached *)
Fixpoint room (l : list target) : R :=
  match l with
  | [] => 0
  | t :: r => Rmin (Rmin (q (t_speed t)) (room r + 2 * val (t_accel t) * IZR (reach t))) (q (t_start t))
  end.
Definition ceil (t : target) (r : list target) : R := Rmin (q (t_speed t)) (room r + 2 * val (t_accel t) * IZR (reach t)).
Lemma room_cons : forall t r, room (t :: r) = Rmin (ceil t r) (q (t_start t)).
Proof. reflexivity. Qed.

Lemma room_pos : forall l, Forall able l -> 0 <= room l.
Proof.
  induction 1 as [|t r Ht _ IH]; cbn [room]; [lra|]. pose proof (a_pos A t Ht). pose proof (b_reach _ _ Ht) as R.
  assert (0 <= IZR (reach t)) by (apply IZR_le; lia). pose proof (q_pos (t_speed t)). pose proof (q_pos (t_start t)).
  assert (0 <= 2 * val (t_accel t) * IZR (reach t)) by (apply Rmult_le_pos; lra). repeat apply Rmin_glb; lra.
Qed.
Lemma room_more : forall l t, Forall able l -> able t -> room l <= room (l ++ [t]).
Proof.
  intros l t H Ht. induction H as [|x r Hx _ IH]; cbn [app room]; [apply (room_pos [t]); auto|].
  apply Rle_min_compat_r. apply Rle_min_compat_l. lra.
Qed.

(** Neighbours have the same axis that defines the speed, or they meet at rest. *)
Definition alike (t n : target) : Prop := t_axis t = t_axis n \/ val (t_start n) = 0.
Fixpoint lined (l : list target) : Prop :=
  match l with
  | [] => True
  | t :: r => able t /\ match r with [] => True | n :: _ => alike t n end /\ lined r
  end.
Lemma lined_able : forall l, lined l -> Forall able l.
Proof. induction l as [|t r IH]; intros H; constructor; destruct H as (H1 & H2 & H3); auto. Qed.
Lemma lined_app : forall a b, lined (a ++ b) -> lined b.
Proof. induction a as [|x a IH]; intros b H; [exact H|]. apply IH. apply H. Qed.

(** ** The end speed *)
Definition ev (l : list pseg) : R := match l with [] => 0 | s :: _ => Rmin (val (f_v1 (s_plan s))) (val (t_start (s_target s))) end.

Lemma fmin_val : forall x y, fin64 x -> fin64 y -> fin64 (fmin x y) /\ val (fmin x y) = Rmin (val x) (val y).
Proof.
  intros x y Fx Fy. unfold fmin. rewrite (ltb_val 53 1024) by assumption. unfold Rmin. destruct (Rlt_bool_spec (val y) (val x)), (Rle_dec (val x) (val y)); split; auto; lra.
Qed.
Lemma val_zero : forall x, fin64 x -> val x = 0 -> exists s, x = S754_zero s.
Proof.
  intros [s|s| |s m e] [V F] E; try discriminate F; [eauto|]. exfalso. unfold val in E. cbn [SF2R] in E. apply eq_0_F2R in E. destruct s; discriminate E.
Qed.
Instance P53s : Prec_gt_0 53 := eq_refl.
Instance L53s : Prec_lt_emax 53 1024 := eq_refl.

(** A quotient of step counts. *)
Lemma quotient_fin : forall x y, (Z.abs x <= 2 ^ 40)%Z -> (1 <= Z.abs y <= 2 ^ 40)%Z ->
  fin64 (f64_div (f64_mul d1 (f64_of_Z x)) (f64_of_Z y)) /\ val (f64_div (f64_mul d1 (f64_of_Z x)) (f64_of_Z y)) = rnd64 (IZR x / IZR y).
Proof.
  intros x y Hx Hy. destruct (f64_of_Z_val x ltac:(lia)) as [Fx Vx]. destruct (f64_of_Z_val y ltac:(lia)) as [Fy Vy]. destruct (f64_of_Z_val 1 ltac:(lia)) as [F1 V1].
  assert (M : fin64 (f64_mul d1 (f64_of_Z x)) /\ val (f64_mul d1 (f64_of_Z x)) = IZR x).
  { assert (E : rnd64 (val d1 * val (f64_of_Z x)) = IZR x) by (unfold d1; rewrite V1, Rmult_1_l; rewrite (rnd_fin 53 1024 _ Fx); exact Vx).
    destruct (mul_val 53 1024 _ _ d1 (f64_of_Z x) F1 Fx) as [G V].
    - rewrite E, <- Vx. now apply (fin_small 53 1024).
    - split; [exact G|]. unfold f64_mul. now rewrite V. }
  destruct M as [Fm Vm].
  assert (Y0 : IZR y <> 0) by (apply not_0_IZR; lia).
  destruct (div_val 53 1024 _ _ _ (f64_of_Z y) Fm Fy) as [G V]; [rewrite Vy; exact Y0| |].
  - rewrite Vm, Vy. apply small64. unfold Rdiv. rewrite Rabs_mult, Rabs_inv. rewrite <- !abs_IZR.
    apply Rle_trans with (IZR (2 ^ 40) * 1).
    + apply Rmult_le_compat; [apply IZR_le; lia|left; apply Rinv_0_lt_compat, IZR_lt; lia|apply IZR_le; lia|]. rewrite <- Rinv_1. apply Rinv_le; [lra|apply IZR_le; lia].
    + rewrite Rmult_1_r. change (IZR (2 ^ 40)) with (bpow radix2 40). apply bpow_le. lia.
  - split; [exact G|]. unfold f64_div. rewrite V, Vm, Vy. reflexivity.
Qed.

Lemma end_speed_val : forall t next, able t ->
  match next with None => True | Some n => able (s_target n) /\ alike t (s_target n) /\ fin64 (f_v1 (s_plan n)) /\ 0 < val (f_v1 (s_plan n)) end ->
  fin64 (end_speed t next) /\ val (end_speed t next) = ev (match next with None => [] | Some n => [n] end) /\ 0 <= val (end_speed t next).
Proof.
  intros t next Ht Hn. unfold end_speed. destruct next as [n|].
  - destruct Hn as (Hb & Al & F1 & P1). cbn [ev].
    destruct (fmin_val (f_v1 (s_plan n)) (t_start (s_target n)) F1 (b_start _ _ Hb)) as [Fm Vm]. pose proof (b_join _ _ Hb) as P0.
    assert (Pm : 0 <= Rmin (val (f_v1 (s_plan n))) (val (t_start (s_target n)))) by (apply Rmin_glb; lra).
    destruct Al as [Al|Al].
    + rewrite <- Al, (own_factor A t Ht). change (SFeqb d1 d0) with false. cbv iota. destruct (by_one _ Fm) as [X Y]. rewrite Y, Vm. auto.
    + assert (Z : val (fmin (f_v1 (s_plan n)) (t_start (s_target n))) = 0) by (rewrite Vm, Al, Rmin_right; lra).
      rewrite <- Vm, Z. destruct (val_zero _ Fm Z) as [sg ->].
      assert (D : fin64 d0 /\ val d0 = 0 /\ 0 <= val d0) by (split; [split; reflexivity|]; change (val d0) with 0; lra).
      set (f := speed_factor t (t_axis (s_target n))). assert (Ff : fin64 f).
      { unfold f, speed_factor. destruct (_ =? 0)%Z eqn:E0; [apply D|]. destruct (axis_eqb _ _); [apply f64_of_Z_val; lia|].
        pose proof (b_reach _ _ Ht) as R. pose proof (b_most _ _ Ht (t_axis (s_target n))) as M. unfold reach in *.
        destruct (quotient_fin (t_delta t (t_axis (s_target n))) (t_delta t (t_axis t)) ltac:(lia) ltac:(lia)) as [Q _].
        unfold f64_abs. destruct (f64_div _ _); destruct Q as [Q1 Q2]; split; assumption. }
      destruct (SFeqb f d0) eqn:E; [exact D|]. destruct f as [s|s| |s m e]; try discriminate E; [destruct Ff; discriminate| destruct Ff; discriminate|].
      cbn. split; [split; reflexivity|]. unfold val. cbn. lra.
  - cbn [ev]. rewrite (own_factor A t Ht). change (SFeqb d1 d0) with false. cbv iota. destruct (by_one d0) as [X Y]; [split; reflexivity|]. rewrite Y. change (val d0) with 0. repeat split; try lra; apply X.
Qed.

(** ** The backward pass *)
Fixpoint wave (l : list pseg) : Prop :=
  match l with [] => True | s :: r => fresh (s_target s) (ev r) (s_plan s) /\ wave r end.

Lemma ev_square : forall s r, wave (s :: r) -> able (s_target s) -> ev (s :: r) * ev (s :: r) = Rmin (q (f_v1 (s_plan s))) (q (t_start (s_target s))).
Proof.
  intros s r [F _] Hb. cbn [ev]. pose proof (r_p1 _ _ _ F) as P1. pose proof (b_join _ _ Hb) as P0.
  unfold Rmin at 1 2. destruct (Rle_dec (val (f_v1 (s_plan s))) (val (t_start (s_target s)))) as [L|L].
  - symmetry. apply Rmin_left. apply q_le; lra.
  - symmetry. apply Rmin_right. apply q_le; lra.
Qed.
Lemma wave_ceil : forall l, wave l -> Forall able (map s_target l) -> 0 <= A ->
  match l with
  | [] => True
  | s :: r => ceil (s_target s) (map s_target r) - 2 * A - INR (length l) * g <= q (f_v1 (s_plan s)) <= ceil (s_target s) (map s_target r) + INR (length l) * g
  end /\
  room (map s_target l) - 2 * A - INR (length l) * g <= ev l * ev l <= room (map s_target l) + INR (length l) * g.
Proof.
  induction l as [|s r IH]; intros W H PA.
  - split; [exact I|]. cbn. lra.
  - cbn [map] in H. inversion H as [|? ? Hs Hr]; subst. destruct (IH (proj2 W) Hr PA) as [_ [IL IU]]. clear IH.
    destruct (able_small _ Hs) as (S1 & S2 & S3 & S4 & S5 & _). destruct W as [F W].
    assert (X : ceil (s_target s) (map s_target r) - 2 * A - INR (length (s :: r)) * g <= q (f_v1 (s_plan s)) <= ceil (s_target s) (map s_target r) + INR (length (s :: r)) * g).
    { unfold ceil. replace (INR (length (s :: r)) * g) with (INR (length r) * g + g) by (cbn [length]; rewrite S_INR; ring).
      assert (0 <= INR (length r) * g) by (apply Rmult_le_pos; [apply pos_INR|lra]).
      pose proof (r_top _ _ _ F) as T. pose proof (r_reach _ _ _ F) as Rr. pose proof (r_low _ _ _ F) as L.
      set (Q := q (t_speed (s_target s))) in *. set (B := 2 * val (t_accel (s_target s)) * IZR (reach (s_target s))) in *.
      pose proof (Rmin_l Q (room (map s_target r) + B)) as M1. pose proof (Rmin_r Q (room (map s_target r) + B)) as M2.
      split; [destruct L; lra|]. apply Rle_trans with (Rmin (Q + (INR (length r) * g + g)) (room (map s_target r) + B + (INR (length r) * g + g))).
      - apply Rmin_glb; lra.
      - unfold Rmin. destruct (Rle_dec _ _), (Rle_dec _ _); lra. }
    split; [exact X|]. rewrite (ev_square s r (conj F W) Hs). cbn [map]. rewrite room_cons.
    assert (0 <= INR (length (s :: r)) * g) by (apply Rmult_le_pos; [apply pos_INR|lra]).
    unfold Rmin. destruct (Rle_dec _ _), (Rle_dec _ _); lra.
Qed.

(** The segments are the same but for their profiles, which keep the first speed. *)
Definition kin (s s' : pseg) : Prop := s_target s' = s_target s /\ f_v0 (s_plan s') = f_v0 (s_plan s).
Lemma backward_wave : forall l done done0, lined (rev (map s_target l) ++ map s_target done) -> wave done -> Forall2 kin done0 done ->
  exists kept behind0 behind, backward c l done = (kept, behind) /\ rev l ++ done0 = kept ++ behind0 /\ Forall2 kin behind0 behind /\ wave behind /\ (length done <= length behind)%nat /\ (l <> [] -> behind <> []).
Proof.
  induction l as [|s l IH]; intros done done0 L W K.
  - exists [], done0, done. cbn [backward rev app]. repeat split; auto.
  - cbn [map rev] in L. rewrite <- app_assoc in L. cbn [app] in L. pose proof (lined_app _ _ L) as Ls. destruct Ls as (Hs & Al & Ln).
    set (next := match done with [] => None | n :: _ => Some n end).
    assert (E : fin64 (end_speed (s_target s) next) /\ val (end_speed (s_target s) next) = ev done /\ 0 <= val (end_speed (s_target s) next)).
    { unfold next. destruct done as [|n r]; [apply (end_speed_val _ None Hs I)|]. cbn [map] in Al. destruct W as [F W].
      apply (end_speed_val _ (Some n) Hs). split; [apply Ln|]. split; [exact Al|]. split; [apply (r_f1 _ _ _ F)|apply (r_p1 _ _ _ F)]. }
    destruct E as (E1 & E2 & E3). destruct s as [t p]. cbn [s_target s_plan] in *.
    destruct (decelerate_fresh A Amax c t Hs p next E1 E3) as (go & p' & D & V0 & X). cbn [backward]. fold next. rewrite D. destruct go.
    + rewrite E2 in X. destruct (IH (mk_pseg t p' :: done) (mk_pseg t p :: done0)) as (kept & b0 & b & B1 & B2 & B3 & B4 & B5 & B6).
      * exact L.
      * split; assumption.
      * constructor; [split; [reflexivity|exact V0]|exact K].
      * unfold with_plan. cbn [s_target]. exists kept, b0, b. split; [exact B1|]. split; [cbn [rev]; rewrite <- app_assoc; exact B2|]. split; [exact B3|]. split; [exact B4|].
        cbn [length] in B5. split; [lia|]. intros _ ->. cbn in B5. lia.
    + exists (rev (mk_pseg t p :: l)), done0, done. destruct X as (_ & X & _). repeat split; auto. unfold next in X. intros _ ->. now apply X.
Qed.

(** ** The forward pass *)
Definition G1 : R := A / 1024.
Definition G2 : R := A / 512.
(** The segments follow an exit speed [x]. *)
Fixpoint loose (x : R) (l : list pseg) : Prop :=
  match l with
  | [] => True
  | s :: r =>
      let v0 := f_v0 (s_plan s) in
      fin64 v0 /\ 0 <= val v0 <= x /\ x * x <= q v0 + 2 * A + G2 /\ x * x <= room (s_target s :: map s_target r) + G1 /\
      loose (val (f_v2 (s_plan s))) r
  end.
Definition last_exit (x : R) (l : list pseg) : R := fold_left (fun _ s => val (f_v2 (s_plan s))) l x.
Definition good (s : pseg) : Prop := able (s_target s) /\ planned (s_target s) (s_plan s).
Definition chain (x : R) (l : list pseg) : Prop := loose x l /\ Forall good l /\ last_exit x l = 0.

Lemma ceil_room : forall t r, room (t :: r) <= ceil t r.
Proof. intros. rewrite room_cons. apply Rmin_l. Qed.

Lemma forward_chain : forall l prev ix y, wave l -> Forall able (map s_target l) -> 0 < A -> (length l <= 1024)%nat ->
  match l with
  | [] => y = 0
  | s :: r => let x := match prev with None => f_v0 (s_plan s) | Some p => f_v2 (s_plan p) end in
      fin64 x /\ 0 <= val x <= y /\ y * y <= q x + 2 * A + G2 /\ y * y <= room (s_target s :: map s_target r) + G1
  end ->
  exists l' first, forward c prev ix l = (l', first) /\ chain y l' /\ map s_target l' = map s_target l /\
     match first with Some i => (ix <= i < ix + Z.of_nat (length l))%Z | None => True end.
Proof.
  induction l as [|s r IH]; intros prev ix y W H PA N P.
  - exists [], None. split; [reflexivity|]. split; [|split; [reflexivity|exact I]]. split; [exact I|]. split; [constructor|exact P].
  - cbn [map] in H. inversion H as [|? ? Hs Hr]; subst. pose proof (wave_ceil _ W H ltac:(lra)) as [[CL _] _]. pose proof W as [F Wr]. pose proof (wave_ceil _ Wr Hr ltac:(lra)) as [_ [_ RU]].
    destruct s as [t p]. cbn [s_target s_plan] in *. destruct P as (Fx & Px & Py & Pc).
    destruct (able_small _ Hs) as (S1 & S2 & S3 & S4 & S5 & _).
    assert (LG : INR (length (mk_pseg t p :: r)) * g <= G1).
    { unfold G1. replace (A / 1024) with (1024 * g) by (unfold g; field). apply Rmult_le_compat_r; [lra|]. replace 1024 with (INR 1024) by (rewrite INR_IZR_INZ; reflexivity). now apply le_INR. }
    assert (LG' : INR (length r) * g <= G1).
    { cbn [length] in LG. rewrite S_INR in LG. lra. }
    destruct (accelerate_planned A Amax c t Hs prev p (ev r) F Fx (proj1 Px)) as (go & p' & E & Pl & V2 & V0).
    cbn [forward]. rewrite E. unfold with_plan. cbn [s_target].
    assert (P2 : 0 <= val (f_v2 p')) by apply (w_p2 _ _ Pl). pose proof (r_e _ _ _ F) as Re.
    assert (Sq : val (f_v2 p') * val (f_v2 p') <= ev r * ev r) by (apply Rmult_le_compat; lra).
    destruct (IH (Some (mk_pseg t p')) (ix + 1)%Z (val (f_v2 p')) Wr Hr PA ltac:(cbn in N; lia)) as (l' & first & E' & (C1 & C2 & C3) & T & Fi).
    { destruct r as [|n r]; [cbn [ev] in *; lra|]. cbn [s_plan]. split; [apply (w_f2 _ _ Pl)|]. split; [lra|]. change (q (f_v2 p')) with (val (f_v2 p') * val (f_v2 p')). split; [unfold G2; lra|].
      cbn [map] in RU. lra. }
    rewrite E'. eexists _, _. split; [reflexivity|]. split; [|split].
    + split; [|split].
      * cbn [loose s_plan s_target]. split; [apply (w_f0 _ _ Pl)|]. rewrite T. unfold q. destruct V0 as [[V0 ->]|[V0 ->]].
        -- fold (q (match prev with None => f_v0 p | Some s => f_v2 (s_plan s) end)). repeat split; try assumption; lra.
        -- pose proof (r_p1 _ _ _ F). pose proof (ceil_room t (map s_target r)). fold (q (f_v1 p)). unfold G1, G2 in *. repeat split; try assumption; lra.
      * constructor; [split; assumption|exact C2].
      * cbn [last_exit fold_left s_plan]. exact C3.
    + cbn [map s_target]. now rewrite T.
    + cbn [length]. destruct go; [lia|]. destruct first; [lia|exact I].
Qed.

Lemma loose_split : forall a x b, loose x (a ++ b) -> loose (last_exit x a) b.
Proof. induction a as [|s a IH]; intros x b H; [exact H|]. cbn [app loose] in H. cbn [last_exit fold_left]. apply IH. apply H. Qed.
Lemma loose_join : forall a x b b', loose x (a ++ b) -> map s_target b' = map s_target b -> loose (last_exit x a) b' -> loose x (a ++ b').
Proof.
  induction a as [|s a IH]; intros x b b' H T L; [exact L|]. cbn [app loose] in H |- *. destruct H as (H1 & H2 & H3 & H4 & H5).
  split; [exact H1|]. split; [exact H2|]. split; [exact H3|]. split; [rewrite map_app, T, <- map_app; exact H4|]. now apply IH with b.
Qed.
Lemma last_exit_app : forall a b x, last_exit x (a ++ b) = last_exit (last_exit x a) b.
Proof. intros. unfold last_exit. apply fold_left_app. Qed.
(** A new segment at the end. *)
Lemma loose_more : forall l x t, loose x l -> last_exit x l = 0 -> Forall able (map s_target l) -> able t -> 0 < A -> loose x (l ++ [mk_pseg t no_plan]).
Proof.
  induction l as [|s r IH]; intros x t L E H Ht PA.
  - cbn in E. subst x. cbn [app loose s_plan no_plan f_v0 s_target map]. change (val d0) with 0. pose proof (room_pos [t] ltac:(auto)) as R. pose proof (ceil_room t []). unfold q. change (val d0) with 0. unfold G1, G2.
    split; [split; reflexivity|]. repeat split; try lra.
  - cbn [app loose] in *. destruct L as (L1 & L2 & L3 & L4 & L5). cbn [map] in H. inversion H as [|? ? Hs Hr]; subst.
    split; [exact L1|]. split; [exact L2|]. split; [exact L3|]. split.
    + eapply Rle_trans; [exact L4|]. apply Rplus_le_compat_r. rewrite map_app. cbn [map s_target]. apply (room_more (s_target s :: map s_target r) t); auto.
    + apply IH; auto.
Qed.
Lemma kin_targets : forall a b, Forall2 kin a b -> map s_target b = map s_target a.
Proof. induction 1 as [|x y a b [H _] _ IH]; [reflexivity|]. cbn [map]. now rewrite H, IH. Qed.

Lemma chain_join : forall pre b0 b' x, loose x (pre ++ b0) -> map s_target b' = map s_target b0 -> Forall good pre -> chain (last_exit x pre) b' -> chain x (pre ++ b').
Proof.
  intros pre b0 b' x L T Gd (C1 & C2 & C3). split; [now apply loose_join with b0|]. split; [now apply Forall_app|]. now rewrite last_exit_app.
Qed.
Lemma prefix_Forall : forall (T : Type) (P : T -> Prop) a b l x, a ++ b = l ++ [x] -> b <> [] -> Forall P l -> Forall P a.
Proof.
  intros T P a b l x E N F. destruct (exists_last N) as (b' & y & ->). rewrite app_assoc in E. apply app_inj_tail in E. destruct E as [<- _]. now apply Forall_app in F.
Qed.
Lemma loose_head : forall y b0 b, loose y b0 -> Forall2 kin b0 b -> match b with
  | [] => True
  | s :: r => fin64 (f_v0 (s_plan s)) /\ 0 <= val (f_v0 (s_plan s)) <= y /\ y * y <= q (f_v0 (s_plan s)) + 2 * A + G2 /\ y * y <= room (s_target s :: map s_target r) + G1
  end.
Proof.
  intros y b0 b L K. destruct K as [|s0 s r0 r [K1 K2] K]; [exact I|]. cbn [loose] in L. rewrite K1, K2, (kin_targets _ _ K). tauto.
Qed.

Lemma backward_last : forall l done pos, backward c (l ++ [holder pos]) done = let '(kept, b) := backward c l done in match kept with [] => ([], holder pos :: b) | _ => (holder pos :: kept, b) end.
Proof.
  induction l as [|s l IH]; intros done pos; [reflexivity|]. cbn [app backward]. destruct (decelerate c s _) as [[] p].
  - apply IH. 
  - change (s :: l ++ [holder pos]) with ((s :: l) ++ [holder pos]). rewrite rev_app_distr. cbn [rev app]. destruct (rev l ++ [s]) eqn:E; [|reflexivity]. destruct (rev l); discriminate.
Qed.

(** A new segment is planned. *)
Lemma update_chain : forall hd pend x t ready, (hd = [] \/ (exists pos, hd = [holder pos]) /\ x = 0) -> chain x pend -> lined (map s_target pend ++ [t]) -> 0 < A ->
  (0 <= ready <= Z.of_nat (length (hd ++ pend)))%Z -> (length pend < 1024)%nat ->
  exists pend' ready', update_profile c (hd ++ pend ++ [mk_pseg t no_plan]) ready = (hd ++ pend', ready') /\ chain x pend' /\ map s_target pend' = map s_target pend ++ [t] /\
    (0 <= ready' <= Z.of_nat (length (hd ++ pend')))%Z.
Proof.
  intros hd pend x t ready Hh (C1 & C2 & C3) Li PA Rr N. set (new := mk_pseg t no_plan). set (L := pend ++ [new]).
  assert (LT : map s_target L = map s_target pend ++ [t]) by (unfold L; rewrite map_app; reflexivity).
  assert (Ab : Forall able (map s_target L)) by (rewrite LT; apply lined_able; exact Li).
  assert (Lo : loose x L).
  { rewrite LT in Ab. apply Forall_app in Ab. destruct Ab as [Ab1 Ab2]. inversion Ab2; subst. apply loose_more; auto. }
  assert (LL : length L = S (length pend)) by (unfold L; rewrite app_length; cbn; lia).
  (* the part that is planned again *)
  assert (Core : forall k, (k <= length pend)%nat -> exists kept b0 b, backward c (rev (skipn k L)) [] = (kept, b) /\ skipn k L = kept ++ b0 /\ Forall2 kin b0 b /\ wave b /\ b <> [] /\
    Forall able (map s_target b) /\ (length b <= 1024)%nat /\ Forall good (firstn k L ++ kept) /\ map s_target b = map s_target b0 /\ L = (firstn k L ++ kept) ++ b0 /\
    match b with [] => True | s :: r => let y := last_exit x (firstn k L ++ kept) in fin64 (f_v0 (s_plan s)) /\ 0 <= val (f_v0 (s_plan s)) <= y /\ y * y <= q (f_v0 (s_plan s)) + 2 * A + G2 /\ y * y <= room (s_target s :: map s_target r) + G1 end).
  { intros k Hk. destruct (backward_wave (rev (skipn k L)) [] []) as (kept & b0 & b & B1 & B2 & B3 & B4 & _ & B5).
    - rewrite map_rev, rev_involutive. cbn [map]. rewrite app_nil_r. apply (lined_app (map s_target (firstn k L))). rewrite <- map_app, firstn_skipn, LT. exact Li.
    - exact I.
    - constructor.
    - rewrite rev_involutive, app_nil_r in B2. assert (Bn : b <> []).
      { apply B5. intros X. apply (f_equal (@length pseg)) in X. rewrite rev_length, skipn_length in X. cbn in X. lia. }
      assert (LE : L = (firstn k L ++ kept) ++ b0) by (rewrite <- app_assoc, <- B2; symmetry; apply firstn_skipn).
      pose proof (kin_targets _ _ B3) as KT. assert (Lb : length b = length b0) by (rewrite <- (map_length s_target b), KT; apply map_length).
      exists kept, b0, b. split; [exact B1|]. split; [exact B2|]. split; [exact B3|]. split; [exact B4|]. split; [exact Bn|].
      split; [rewrite KT; rewrite LE, map_app in Ab; apply Forall_app in Ab; apply Ab|].
      split; [rewrite Lb; apply (f_equal (@length pseg)) in LE; rewrite !app_length in LE; lia|].
      split; [apply (prefix_Forall _ good _ b0 pend new); [symmetry; exact LE| |exact C2]; intros ->; destruct b; [now apply Bn|discriminate Lb]|].
      split; [exact KT|]. split; [exact LE|]. apply loose_head with b0; [|exact B3]. apply loose_split. rewrite <- LE. exact Lo. }
  assert (Fin : forall pre b0 b ix prev, L = pre ++ b0 -> map s_target b = map s_target b0 -> wave b -> Forall able (map s_target b) -> (length b <= 1024)%nat -> Forall good pre ->
    b <> [] -> match b with
      | [] => True
      | s :: r => let x' := match prev with None => f_v0 (s_plan s) | Some p => f_v2 (s_plan p) end in let y := last_exit x pre in
          fin64 x' /\ 0 <= val x' <= y /\ y * y <= q x' + 2 * A + G2 /\ y * y <= room (s_target s :: map s_target r) + G1 end ->
    exists b' first, forward c prev ix b = (b', first) /\ chain x (pre ++ b') /\ map s_target (pre ++ b') = map s_target L /\
      match first with Some i => (ix <= i < ix + Z.of_nat (length b'))%Z | None => True end).
  { intros pre b0 b ix prev LE KT Wb Abb Nb Gp Bn P.
    destruct (forward_chain b prev ix (last_exit x pre) Wb Abb PA Nb) as (b' & first & F1 & F2 & F3 & F4); [destruct b; [now destruct Bn|exact P]|].
    exists b', first. split; [exact F1|]. split; [apply chain_join with b0; [rewrite <- LE; exact Lo|congruence|exact Gp|exact F2]|].
    split; [rewrite LE, !map_app; congruence|]. assert (Le : length b' = length b) by (rewrite <- (map_length s_target b'), F3; apply map_length). rewrite Le. exact F4. }
  unfold update_profile. destruct Hh as [->|[[pos ->] ->]].
  - cbn [app] in *. fold new L. destruct (Core (Z.to_nat ready) ltac:(lia)) as (kept & b0 & b & B1 & B2 & B3 & B4 & B5 & B6 & B7 & B8 & B9 & B10 & B11). rewrite B1.
    destruct (Fin (firstn (Z.to_nat ready) L ++ kept) b0 b (Z.of_nat (length (firstn (Z.to_nat ready) L ++ kept))) None B10 B9 B4 B6 B7 B8 B5 B11) as (b' & first & F1 & F2 & F3 & F4).
    rewrite F1. eexists _, _. split; [reflexivity|]. split; [exact F2|]. split; [rewrite F3; exact LT|]. rewrite app_length in *.
    assert (Lq : (length (firstn (Z.to_nat ready) L ++ kept) + length b')%nat = S (length pend)) by (rewrite <- app_length, <- (map_length s_target), F3, map_length; exact LL). destruct first; rewrite app_length in *; lia.
  - cbn [app]. fold new L. destruct (Z.to_nat ready) as [|k] eqn:K.
    + cbn [firstn skipn rev]. rewrite backward_last. destruct (Core 0%nat ltac:(lia)) as (kept & b0 & b & B1 & B2 & B3 & B4 & B5 & B6 & B7 & B8 & B9 & B10 & B11). cbn [skipn firstn app] in *. rewrite B1.
      destruct kept as [|s0 kept].
      * cbn [app length]. cbn [forward]. change (accelerate c None (holder pos)) with (false, no_plan). cbv iota beta. change (with_plan (holder pos) no_plan) with (holder pos).
        destruct (Fin [] b0 b (Z.of_nat 0 + 1)%Z (Some (holder pos)) B10 B9 B4 B6 B7 B8 B5) as (b' & first & F1 & F2 & F3 & F4).
        { destruct b as [|s r]; [exact I|]. cbn [last_exit fold_left] in *. cbn [s_plan holder f_v2 no_plan]. unfold q. change (val d0) with 0. split; [split; reflexivity|]. unfold G2. repeat split; try lra; apply B11. }
        rewrite F1. eexists b', _. split; [reflexivity|]. cbn [app] in F2, F3. split; [exact F2|]. split; [rewrite F3; exact LT|]. cbn [length]. destruct first; lia.
      * cbn [app]. destruct (Fin (s0 :: kept) b0 b (Z.of_nat (length (holder pos :: s0 :: kept))) None B10 B9 B4 B6 B7 B8 B5 B11) as (b' & first & F1 & F2 & F3 & F4).
        rewrite F1. eexists ((s0 :: kept) ++ b'), _. split; [reflexivity|]. split; [exact F2|]. split; [rewrite F3; exact LT|]. cbn [app length] in *. rewrite app_length. destruct first; lia.
    + cbn [firstn skipn]. cbn [app length] in Rr. destruct (Core k ltac:(lia)) as (kept & b0 & b & B1 & B2 & B3 & B4 & B5 & B6 & B7 & B8 & B9 & B10 & B11). rewrite B1. cbn [app].
      destruct (Fin (firstn k L ++ kept) b0 b (Z.of_nat (length (holder pos :: firstn k L ++ kept))) None B10 B9 B4 B6 B7 B8 B5 B11) as (b' & first & F1 & F2 & F3 & F4).
      rewrite F1. eexists _, _. split; [reflexivity|]. split; [exact F2|]. split; [rewrite F3; exact LT|]. cbn [length] in *.
      assert (Lq : length ((firstn k L ++ kept) ++ b') = S (length pend)) by (rewrite <- (map_length s_target), F3, map_length; exact LL). rewrite !app_length in *. destruct first; lia.
Qed.
End Speeds.
