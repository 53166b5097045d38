(** What planning makes of one segment of the path: the speeds as real numbers. *)
From Coq Require Import SpecFloat Reals Lra.
From Flocq Require Import Core IEEE754.BinarySingleNaN.
From Verif Require Import Base Model_Float Model_Axis Model_Planner Proofs_Real Proofs_Ramp.
Open Scope Z_scope.
Open Scope R_scope.

Definition reach (t : target) : Z := Z.abs (t_delta t (t_axis t)).
(** A target that the formulas can plan. *)
Record able (A : R) (t : target) : Prop := mk_able {
  b_speed : fin64 (t_speed t); b_accel : fin64 (t_accel t); b_start : fin64 (t_start t);
  b_slow : bpow radix2 (-80) <= val (t_speed t); b_fast : val (t_speed t) <= bpow radix2 80;
  b_acc : val (t_accel t) <= A; b_ramp : q (t_speed t) <= 2097152 * val (t_accel t);
  b_reach : (1 <= reach t <= 2 ^ 31)%Z; b_most : forall x, (Z.abs (t_delta t x) <= reach t)%Z; b_join : 0 <= val (t_start t)
}.

Lemma by_one : forall x, fin64 x -> fin64 (f64_div x d1) /\ val (f64_div x d1) = val x.
Proof.
  intros x F. destruct (f64_of_Z_val 1 ltac:(lia)) as [F1 V1]. assert (P53 : Prec_gt_0 53) by reflexivity. assert (L53 : Prec_lt_emax 53 1024) by reflexivity.
  assert (E : rnd64 (val x / val d1) = val x) by (unfold d1; rewrite V1; unfold Rdiv; rewrite Rinv_1, Rmult_1_r; now apply rnd_fin).
  destruct (div_val 53 1024 _ _ x d1 F F1) as [G Vx]; [unfold d1; rewrite V1; lra|rewrite E; now apply (fin_small 53 1024)|]. split; [exact G|]. unfold f64_div. now rewrite Vx.
Qed.

Section One.
Variable A : R.
Hypothesis Amax : A <= bpow radix2 200.
Variable c : pcfg.

Section Target.
Variable t : target.
Hypothesis Ht : able A t.
Let W := q (t_speed t).
Let a := val (t_accel t).
Let V := val (t_speed t).
Let n := reach t.
(** Errors of the formulas. *)
Definition slack : R := 8 * h (q (t_speed t)).

Lemma V_pos : 0 < V.
Proof. eapply Rlt_le_trans; [apply bpow_gt_0|apply (b_slow _ _ Ht)]. Qed.
Lemma W_lo : bpow radix2 (-160) <= W.
Proof.
  unfold W, q. replace (-160)%Z with (-80 + -80)%Z by reflexivity. rewrite bpow_plus. pose proof (b_slow _ _ Ht). apply Rmult_le_compat; auto; apply bpow_ge_0.
Qed.
Lemma W_hi : W <= bpow radix2 160.
Proof.
  unfold W, q. replace 160%Z with (80 + 80)%Z by reflexivity. rewrite bpow_plus. pose proof (b_fast _ _ Ht). pose proof V_pos. unfold V in *. apply Rmult_le_compat; auto; lra.
Qed.
Lemma W1 : bpow radix2 (-200) <= W.
Proof. eapply Rle_trans; [|apply W_lo]. apply bpow_le. lia. Qed.
Lemma W2 : W <= bpow radix2 200.
Proof. eapply Rle_trans; [apply W_hi|]. apply bpow_le. lia. Qed.
Lemma a_lo : bpow radix2 (-181) <= a.
Proof.
  pose proof (b_ramp _ _ Ht) as R. fold a W in R. pose proof W_lo as L. change 2097152 with (bpow radix2 21) in R.
  apply Rmult_le_reg_l with (bpow radix2 21); [apply bpow_gt_0|]. rewrite <- bpow_plus. eapply Rle_trans; [exact L|exact R].
Qed.
Lemma a_pos : 0 < a.
Proof. eapply Rlt_le_trans; [apply bpow_gt_0|apply a_lo]. Qed.
Lemma a_ok : bpow radix2 (-200) <= a <= bpow radix2 200.
Proof. split; [eapply Rle_trans; [|apply a_lo]; apply bpow_le; lia|]. eapply Rle_trans; [apply (b_acc _ _ Ht)|exact Amax]. Qed.
Lemma h_small : 0 < h W /\ slack = 8 * h W /\ 0 < slack /\ 1048576 * (64 * h W) <= a /\ 1024 * (64 * h W) <= W.
Proof.
  pose proof (h_pos W W1) as P. split; [exact P|]. split; [reflexivity|]. split; [unfold slack; fold W; lra|]. pose proof (b_ramp _ _ Ht) as R. fold a W in R. pose proof a_pos as Ap. pose proof (h_W W W1) as Hw. pose proof (W_pos W W1). split; [|lra].
  unfold h. replace (bpow radix2 (-48)) with (/ 2097152 * / 134217728) by (change (/ 2097152) with (bpow radix2 (-21)); change (/ 134217728) with (bpow radix2 (-27)); now rewrite <- bpow_plus). lra.
Qed.

Lemma floor_trunc : forall r, 0 <= r -> (0 <= Ztrunc r)%Z /\ IZR (Ztrunc r) <= r < IZR (Ztrunc r) + 1.
Proof.
  intros r P. rewrite Ztrunc_floor by exact P. pose proof (Zfloor_lb r) as L. pose proof (Zfloor_ub r) as U. split; [|lra].
  assert (0 <= Zfloor r)%Z; [|lia]. apply Zfloor_lub. exact P.
Qed.

(** A ramp length as an integer. *)
Lemma steps_of_distance : forall v0 v1, fin64 v0 -> fin64 v1 -> 0 <= val v0 -> val v0 <= val v1 -> q v1 <= 2 * W ->
  exists k, int_from c (ramp_distance v0 v1 (t_accel t)) = k /\ uint_from c (ramp_distance v0 v1 (t_accel t)) = k /\ (0 <= k <= 2 ^ 22)%Z /\
    2 * a * IZR k <= q v1 - q v0 + 2 * h W /\ q v1 - q v0 - 2 * h W < 2 * a * (IZR k + 1).
Proof.
  intros v0 v1 F0 F1 P0 L B. pose proof (W_pos W W1) as Wp. pose proof a_pos as Ap. destruct h_small as (Hp & H1 & H2 & H3 & H4).
  destruct (distance_val W W1 W2 v0 v1 (t_accel t) F0 F1 (b_accel _ _ Ht) P0 L ltac:(lra) a_ok) as (G & P & E). fold a in E.
  set (d := ramp_distance v0 v1 (t_accel t)) in *. apply Rabs_le_inv in E. destruct (floor_trunc (val d) P) as [T0 T1]. pose proof (trunc_val 53 1024 d G) as T.
  pose proof (q_pos v0) as Q0. pose proof (b_ramp _ _ Ht) as R. fold a W in R.
  assert (D : val d <= 4194304). { apply Rmult_le_reg_l with (2 * a); [lra|]. lra. }
  assert (K : (Ztrunc (val d) <= 2 ^ 22)%Z) by (apply le_IZR; change (IZR (2 ^ 22)) with 4194304; lra).
  exists (Ztrunc (val d)). split; [|split; [|split; [lia|]]].
  - unfold int_from, to_int. rewrite T. assert (X : ((- 2 ^ 31 <=? Ztrunc (val d)) && (Ztrunc (val d) <=? 2 ^ 31 - 1))%Z%bool = true) by lia. now rewrite X.
  - unfold uint_from. rewrite T. assert (X : ((0 <=? Ztrunc (val d)) && (Ztrunc (val d) <? 2 ^ 32))%Z%bool = true) by lia. now rewrite X.
  - assert (X : 2 * a * IZR (Ztrunc (val d)) <= 2 * a * val d) by (apply Rmult_le_compat_l; lra).
    assert (Y : 2 * a * val d < 2 * a * (IZR (Ztrunc (val d)) + 1)) by (apply Rmult_lt_compat_l; lra). lra.
Qed.

(** ** DecelerationPlanSegment *)
(** The profile after it, for an end speed. *)
Record fresh (e : R) (p : profile) : Prop := mk_fresh {
  r_f1 : fin64 (f_v1 p); r_f2 : fin64 (f_v2 p); r_p2 : 0 <= val (f_v2 p); r_e : val (f_v2 p) <= e;
  r_p1 : 0 < val (f_v1 p); r_le : val (f_v2 p) <= val (f_v1 p);
  r_acc : f_accel p = 0%Z; r_sum : (f_travel p + f_decel p = n)%Z; r_t : (0 <= f_travel p)%Z; r_d : (0 <= f_decel p)%Z;
  r_top : q (f_v1 p) <= W + slack; r_reach : q (f_v1 p) <= e * e + 2 * a * IZR n + slack;
  r_low : W - 2 * a - slack <= q (f_v1 p) \/ e * e + 2 * a * IZR n - slack <= q (f_v1 p);
  r_ramp1 : 2 * a * IZR (f_decel p) - slack <= q (f_v1 p) - q (f_v2 p);
  r_ramp2 : q (f_v1 p) - q (f_v2 p) <= 2 * a * (IZR (f_decel p) + 1) + slack
}.

Definition end_speed (t : target) (next : option pseg) : fl :=
  let next_axis := match next with None => t_axis t | Some n => t_axis (s_target n) end in
  let next_v0 := match next with None => d0 | Some n => fmin (f_v1 (s_plan n)) (t_start (s_target n)) end in
  if SFeqb (speed_factor t next_axis) d0 then d0 else f64_div next_v0 (speed_factor t next_axis).

Lemma decelerate_fresh : forall p next, let e := end_speed t next in fin64 e -> 0 <= val e ->
  exists go p', decelerate c (mk_pseg t p) next = (go, p') /\ f_v0 p' = f_v0 p /\
    (if go : bool then fresh (val e) p' else p' = p /\ next <> None /\ SFeqb (f_v2 p) e = true).
Proof.
  intros p next e Fe Pe. pose proof V_pos as Vp. pose proof (W_pos W W1) as Wp. pose proof a_pos as Ap. destruct h_small as (Hp & H1 & H2 & H3 & H4).
  pose proof (b_speed _ _ Ht) as Fv. pose proof (b_reach _ _ Ht) as Rn. fold n in Rn.
  assert (NR : 1 <= IZR n) by (apply IZR_le; lia).
  assert (An : 2 * a <= 2 * a * IZR n) by (rewrite <- (Rmult_1_r (2 * a)) at 1; apply Rmult_le_compat_l; lra).
  unfold decelerate. cbn [s_target s_plan]. fold e. change (Z.abs (t_delta t (t_axis t))) with n.
  assert (Z0 : SFeqb (t_speed t) d0 = false).
  { destruct (SFeqb (t_speed t) d0) eqn:X; [|reflexivity]. apply (eqb_eq_val 53 1024) in X; [|exact Fv|split; reflexivity]. unfold V in Vp. change (val d0) with 0 in X. lra. }
  rewrite Z0. fold (end_speed t next). fold e.
  destruct (SFeqb (f_v2 p) e && _) eqn:Br.
  { exists false, p. split; [reflexivity|]. split; [reflexivity|]. apply andb_prop in Br. destruct next; [|destruct Br; discriminate]. repeat split; [discriminate|apply Br]. }
  rewrite (ltb_val 53 1024) by assumption. destruct (Rlt_bool_spec (val e) (val (t_speed t))) as [L|L].
  - destruct (steps_of_distance e (t_speed t) Fe Fv Pe ltac:(lra) ltac:(fold W; lra)) as (k & Ek & _ & Kr & K1 & K2). fold W in K1, K2. rewrite Ek.
    pose proof (q_pos e) as Qe. assert (Qe' : q e <= W) by (apply q_le; lra).
    set (m := if (n <? k)%Z then n else k). assert (Mr : (0 <= m <= n)%Z /\ (m <= k)%Z) by (unfold m; destruct (Z.ltb_spec n k); lia).
    assert (Um : u32 m = m) by (apply Z.mod_small; lia). assert (Ud : u32 (n - u32 m) = (n - m)%Z) by (rewrite Um; apply Z.mod_small; lia).
    destruct (Z.ltb_spec 0 k) as [Kp|Kp].
    + assert (Mk : IZR m <= IZR k) by (apply IZR_le; lia). assert (Mk' : 2 * a * IZR m <= 2 * a * IZR k) by (apply Rmult_le_compat_l; lra).
      assert (M1 : 1 <= IZR m) by (apply IZR_le; unfold m; destruct (Z.ltb_spec n k); lia). assert (M1' : 2 * a <= 2 * a * IZR m) by (rewrite <- (Rmult_1_r (2 * a)) at 1; apply Rmult_le_compat_l; lra).
      destruct (speed_val W W1 W2 m e (t_accel t) Fe (b_accel _ _ Ht) Pe ltac:(lia) a_ok ltac:(fold a; lra)) as (Gs & Ps & Es). fold a in Es. apply Rabs_le_inv in Es.
      rewrite Um. rewrite Um in Ud. rewrite Ud. eexists true, _. split; [reflexivity|]. split; [reflexivity|]. set (v1 := ramp_speed (f64_of_Z m) e (t_accel t)) in *.
      assert (Vv : 0 < val v1). { destruct (Rle_lt_dec (val v1) 0) as [X|X]; [|exact X]. assert (val v1 = 0) by lra. assert (q v1 = 0) by (unfold q; rewrite H; ring). lra. }
      assert (Le : val e <= val v1) by (apply q_inv; lra).
      constructor; cbn [f_v1 f_v2 f_accel f_travel f_decel]; try assumption; try lra; try lia; try reflexivity.
      * change (val e * val e) with (q e). assert (X : 2 * a * IZR m <= 2 * a * IZR n) by (apply Rmult_le_compat_l; [lra|apply IZR_le; lia]). lra.
      * change (val e * val e) with (q e). unfold m in *. destruct (Z.ltb_spec n k); [right|left]; lra.
    + assert (k = 0%Z) by lia. assert (m = 0%Z) by (unfold m; destruct (Z.ltb_spec n k); lia). subst k. rewrite Um. rewrite Um in Ud. rewrite Ud. rewrite H0 in *. rewrite Z.sub_0_r.
      eexists true, _. split; [reflexivity|]. split; [reflexivity|].
      constructor; cbn [f_v1 f_v2 f_accel f_travel f_decel]; fold V W; try assumption; try lra; try lia; try reflexivity; try (left; lra); change (val e * val e) with (q e); unfold V; rewrite ?H in *; lra.
  - assert (Un : u32 n = n) by (apply Z.mod_small; lia). rewrite Un. eexists true, _. split; [reflexivity|]. split; [reflexivity|].
    assert (Q : W <= val e * val e) by (unfold W, q; apply Rmult_le_compat; unfold V in Vp; lra).
    constructor; cbn [f_v1 f_v2 f_accel f_travel f_decel]; fold V W; try assumption; try lra; try lia; try reflexivity.
Qed.

(** ** AccelerationPlanSegment *)
(** The profile after planning. *)
Record planned (p : profile) : Prop := mk_planned {
  w_f0 : fin64 (f_v0 p); w_f1 : fin64 (f_v1 p); w_f2 : fin64 (f_v2 p);
  w_p0 : 0 <= val (f_v0 p); w_p1 : 0 <= val (f_v1 p); w_p2 : 0 <= val (f_v2 p);
  w_a : (0 <= f_accel p)%Z; w_t : (0 <= f_travel p)%Z; w_d : (0 <= f_decel p)%Z; w_sum : (f_accel p + f_travel p + f_decel p = n)%Z;
  w_top : q (f_v1 p) <= W + 8 * slack;
  w_in1 : q (f_v0 p) - 8 * slack <= q (f_v1 p); w_in2 : q (f_v1 p) <= q (f_v0 p) + 2 * a * (IZR (f_accel p) + 1) + 8 * slack;
  w_out1 : q (f_v2 p) - 8 * slack <= q (f_v1 p); w_out2 : q (f_v1 p) <= q (f_v2 p) + 2 * a * (IZR (f_decel p) + 1) + 8 * slack
}.

Lemma own_factor : speed_factor t (t_axis t) = d1.
Proof.
  unfold speed_factor. pose proof (b_reach _ _ Ht) as R. unfold reach in R. destruct (Z.eqb_spec (t_delta t (t_axis t)) 0) as [E|_]; [rewrite E in R; cbn in R; lia|].
  now destruct (t_axis t).
Qed.
Lemma accelerate_planned : forall prev p e, fresh e p ->
  let x := match prev with None => f_v0 p | Some s => f_v2 (s_plan s) end in fin64 x -> 0 <= val x ->
  exists go p', accelerate c prev (mk_pseg t p) = (go, p') /\ planned p' /\ val (f_v2 p') <= val (f_v2 p) /\
    (val x < val (f_v1 p) /\ val (f_v0 p') = val x \/ val (f_v1 p) <= val x /\ val (f_v0 p') = val (f_v1 p)).
Proof.
  intros prev p e Fr x Fx Px. pose proof (W_pos W W1) as Wp. pose proof a_pos as Ap. destruct h_small as (Hp & H1 & H2 & H3 & H4).
  destruct Fr as [F1 F2 P2 _ P1 Le Ac Sum T0 D0 Top _ _ R1 R2]. pose proof (b_reach _ _ Ht) as Rn. fold n in Rn.
  assert (Q21 : q (f_v2 p) <= q (f_v1 p)) by (apply q_le; assumption). pose proof (q_pos (f_v2 p)) as Q2.
  unfold accelerate. cbn [s_target s_plan]. fold x. rewrite own_factor. change (SFeqb d1 d0) with false. cbv iota.
  destruct (by_one x Fx) as [Fs Vs]. set (st := f64_div x d1) in *. rewrite <- Vs in Px |- *.
  assert (Z0 : SFeqb (f_v1 p) d0 = false).
  { destruct (SFeqb (f_v1 p) d0) eqn:X; [|reflexivity]. apply (eqb_eq_val 53 1024) in X; [|exact F1|split; reflexivity]. change (val d0) with 0 in X. lra. }
  rewrite Z0. rewrite (leb_val 53 1024) by assumption.
  assert (DR : 0 <= IZR (f_decel p)) by (apply IZR_le; lia). assert (TR : 0 <= IZR (f_travel p)) by (apply IZR_le; lia).
  assert (AD : 0 <= 2 * a * IZR (f_decel p)) by (apply Rmult_le_pos; lra).
  destruct (Rle_bool_spec (val (f_v1 p)) (val st)) as [L|L].
  { eexists false, _. split; [reflexivity|]. split; [|split; [cbn [f_v2]; lra|right; split; [exact L|reflexivity]]].
    constructor; cbn [f_v0 f_v1 f_v2 f_accel f_travel f_decel]; try assumption; try lra; try lia. }
  assert (Tot : total_steps p = n). { unfold total_steps. rewrite Ac. rewrite Z.add_0_l, Sum. apply Z.mod_small. lia. }
  rewrite Tot. destruct (steps_of_distance st (f_v1 p) Fs F1 Px ltac:(lra) ltac:(lra)) as (k & _ & Ek & Kr & K1 & K2). rewrite Ek.
  pose proof (q_pos st) as Qs. assert (Qs1 : q st <= q (f_v1 p)) by (apply q_le; lra).
  destruct (Z.leb_spec k (f_travel p)) as [KT|KT].
  { eexists true, _. split; [reflexivity|]. split; [|split; [cbn [f_v2]; lra|left; split; [lra|reflexivity]]].
    constructor; cbn [f_v0 f_v1 f_v2 f_accel f_travel f_decel]; try assumption; try lra; try lia. }
  assert (Nsum : IZR n = IZR (f_travel p) + IZR (f_decel p)) by (rewrite <- plus_IZR; f_equal; lia).
  assert (KT' : 2 * a * IZR (f_travel p) <= 2 * a * IZR k) by (apply Rmult_le_compat_l; [lra|apply IZR_le; lia]).
  assert (AT : 0 <= 2 * a * IZR (f_travel p)) by (apply Rmult_le_pos; lra).
  assert (An : 2 * a * IZR n = 2 * a * IZR (f_travel p) + 2 * a * IZR (f_decel p)) by (rewrite Nsum; ring).
  destruct (speed_val W W1 W2 n st (t_accel t) Fs (b_accel _ _ Ht) Px ltac:(lia) a_ok ltac:(fold a; lra)) as (Ge & Pe & Ee). fold a in Ee. set (es := ramp_speed (f64_of_Z n) st (t_accel t)) in *. apply Rabs_le_inv in Ee.
  rewrite (ltb_val 53 1024) by assumption. destruct (Rlt_bool_spec (val (f_v2 p)) (val es)) as [Lx|Lx].
  2: { assert (Qe : q es <= q (f_v2 p)) by (apply q_le; lra).
       eexists true, _. split; [reflexivity|]. split; [|split; [cbn [f_v2]; lra|left; split; [lra|reflexivity]]].
       constructor; cbn [f_v0 f_v1 f_v2 f_accel f_travel f_decel]; try assumption; try lra; try lia. }
  assert (Qe : q (f_v2 p) <= q es) by (apply q_le; lra).
  destruct (crossing_val W W1 W2 st (f_v2 p) (t_accel t) n Fs F2 (b_accel _ _ Ht) Px P2 ltac:(lra) ltac:(lra) a_ok ltac:(lia) ltac:(fold a; lra)) as (Gi & Ei). fold a in Ei. set (I := intersection st (f_v2 p) (t_accel t) (f64_of_Z n)) in *. apply Rabs_le_inv in Ei.
  assert (I1 : -1 < val I). { apply Rmult_lt_reg_l with (2 * a); [lra|]. lra. }
  assert (I2 : val I < IZR n + 1). { apply Rmult_lt_reg_l with (2 * a); [lra|]. rewrite Rmult_plus_distr_l, Rmult_1_r. lra. }
  assert (NR : IZR n <= 2147483648) by (apply (IZR_le n 2147483648); lia).
  assert (J : exists j, fl_trunc I = Some j /\ (0 <= j <= n)%Z /\ (IZR j <= val I \/ j = 0%Z)).
  { exists (Ztrunc (val I)). split; [apply (trunc_val 53 1024); exact Gi|]. destruct (Rle_lt_dec 0 (val I)) as [X|X].
    - destruct (floor_trunc (val I) X) as [Y0 Y1]. split; [|left; lra]. split; [exact Y0|]. assert (Ztrunc (val I) < n + 1)%Z; [|lia]. apply lt_IZR. rewrite plus_IZR. lra.
    - assert (Y : Ztrunc (val I) = 0%Z); [|rewrite Y; split; [lia|now right]]. rewrite Ztrunc_ceil by lra. apply Zceil_imp. change (IZR (0 - 1)) with (-1). lra. }
  destruct J as (j & Tj & Jr & Jc).
  assert (Uj : uint_from c I = j). { unfold uint_from. rewrite Tj. assert (X : ((0 <=? j) && (j <? 2 ^ 32))%Z%bool = true) by lia. now rewrite X. }
  rewrite Uj. assert (Jn : 2 * a * IZR j <= 2 * a * IZR n) by (apply Rmult_le_compat_l; [lra|apply IZR_le; lia]).
  assert (Jp : 0 <= 2 * a * IZR j) by (apply Rmult_le_pos; [lra|apply IZR_le; lia]).
  destruct (speed_val W W1 W2 j st (t_accel t) Fs (b_accel _ _ Ht) Px ltac:(lia) a_ok ltac:(fold a; lra)) as (Gv & Pv & Ev). fold a in Ev. set (v := ramp_speed (f64_of_Z j) st (t_accel t)) in *. apply Rabs_le_inv in Ev.
  (* the ramp up *)
  assert (JJ : 4 * a * IZR j <= 2 * a * IZR n + q (f_v2 p) - q st + 8 * h W \/ j = 0%Z).
  { destruct Jc as [Jc|Jc]; [left|now right]. assert (2 * a * IZR j <= 2 * a * val I) by (apply Rmult_le_compat_l; lra). lra. }
  assert (Top' : q v <= W + 8 * slack). { destruct JJ as [JJ|JJ]; [lra|]. rewrite JJ in Ev. lra. }
  rewrite (leb_val 53 1024) by assumption. destruct (Rle_bool_spec (val v) (val (f_v2 p))) as [Lv|Lv].
  { eexists true, _. split; [reflexivity|]. split; [|split; [cbn [f_v2]; lra|left; split; [lra|reflexivity]]].
    constructor; cbn [f_v0 f_v1 f_v2 f_accel f_travel f_decel]; try assumption; try lra; try lia. }
  assert (Q2v : q (f_v2 p) <= q v) by (apply q_le; lra).
  assert (Ud : u32 (n - j) = (n - j)%Z) by (apply Z.mod_small; lia). rewrite Ud.
  eexists true, _. split; [reflexivity|]. split; [|split; [cbn [f_v2]; lra|left; split; [lra|reflexivity]]].
  constructor; cbn [f_v0 f_v1 f_v2 f_accel f_travel f_decel]; try assumption; try lra; try lia.
  rewrite minus_IZR. destruct JJ as [JJ|JJ]; [lra|]. rewrite JJ in *. lra.
Qed.
End Target.
End One.
