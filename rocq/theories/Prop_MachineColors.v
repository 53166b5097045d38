(** C84: the colours of speeds, and the pieces of a line in different colours. *)
From Coq Require Import Reals Lra SpecFloat.
From Flocq Require Import Core IEEE754.BinarySingleNaN.
From Verif Require Import Base Model_Float Spec_Real Proofs_Real Model_Axis Model_Planner Prop_ViewRange Model_MachineView Spec_MachineView Prop_MachineView.
Open Scope R_scope.

Lemma same_val : forall x y, fin32 x -> fin32 y -> val x = val y -> val x <> 0 -> x = y.
Proof.
  intros x y Fx Fy E N. destruct (fin_b 24 128 x Fx) as (a & <- & Fa & Va). destruct (fin_b 24 128 y Fy) as (b & <- & Fb & Vb). f_equal.
  apply B2R_inj; [| |congruence].
  - destruct a; try discriminate Fa; [|reflexivity]. exfalso. apply N. reflexivity.
  - destruct b; try discriminate Fb; [|reflexivity]. exfalso. apply N. rewrite E. reflexivity.
Qed.
Lemma zero_zero : forall x, fin32 x -> val x = 0 -> exists s, x = S754_zero s.
Proof.
  intros [s|s| |s m e] [V F] E; try discriminate F; [now exists s|]. exfalso. unfold val in E. cbn [SF2R] in E. apply eq_0_F2R in E. destruct s; discriminate E.
Qed.
Lemma round_same : forall x y, fin32 x -> fin32 y -> val x = val y -> fl_round x = fl_round y.
Proof.
  intros x y Fx Fy E. destruct (Req_dec (val x) 0) as [Z|N].
  - destruct (zero_zero x Fx Z) as (s & ->). rewrite E in Z. destruct (zero_zero y Fy Z) as (t & ->). reflexivity.
  - f_equal. apply same_val; assumption.
Qed.
Lemma round_mono : forall x y i j, fin32 x -> fin32 y -> val x <= val y -> fl_round x = Some i -> fl_round y = Some j -> (i <= j)%Z.
Proof.
  intros x y i j Fx Fy L Ei Ej. destruct (round_val 24 128 x Fx) as (i' & Ei' & Bi). destruct (round_val 24 128 y Fy) as (j' & Ej' & Bj).
  assert (i' = i) by congruence. assert (j' = j) by congruence. subst i' j'. apply Rabs_le_inv in Bi. apply Rabs_le_inv in Bj.
  destruct (Z_le_gt_dec i j) as [H|H]; [exact H|]. exfalso. assert (Q : (j + 1 <= i)%Z) by lia. apply IZR_le in Q. rewrite plus_IZR in Q.
  assert (E : val x = val y) by lra. apply round_same in E; try assumption. assert (i = j) by congruence. lia.
Qed.
Lemma exact255 : forall x, fin32 x -> rnd64 (255 * val x) = 255 * val x.
Proof.
  intros x F. apply round_generic; [auto with typeclass_instances|]. pose proof (fin_format 24 128 x F) as G.
  change (SpecFloat.fexp 24 128) with (FLT_exp (-149) 24) in G. apply FLT_format_generic in G; [|reflexivity]. destruct G as [f E B1 B2].
  change (SpecFloat.fexp 53 1024) with (FLT_exp (-1074) 53). apply generic_format_FLT. exists (Float radix2 (255 * Fnum f) (Fexp f)).
  - rewrite E. unfold F2R. cbn [Fnum Fexp]. rewrite mult_IZR. ring.
  - cbn [Fnum]. change (Z.pow radix2 24) with (2 ^ 24)%Z in B1. change (Z.pow radix2 53) with (2 ^ 53)%Z. lia.
  - cbn [Fexp]. lia.
Qed.
Definition part (low high v : fl) : fl := f32_of_f64 (f64_div (f64_mul (f64_of_Z 255) (f64_of_f32 (f32_sub v low))) (f64_of_f32 (f32_sub high low))).
Lemma part_val : forall low high v, fin32 low -> fin32 high -> fin32 v -> val low < val high -> Rabs (val low) <= bpow radix2 100 -> Rabs (val high) <= bpow radix2 100 ->
  val low <= val v <= val high ->
  let a := rnd32 (val v - val low) in let d := rnd32 (val high - val low) in
  fin32 (part low high v) /\ val (part low high v) = rnd32 (rnd64 (255 * a / d)) /\ 0 < d /\ 0 <= a <= d /\ 0 <= val (part low high v) <= 255.
Proof.
  intros low high v Fl Fh Fv L Bl Bh I a d. apply Rabs_le_inv in Bl. apply Rabs_le_inv in Bh.
  assert (B2 : 2 * bpow radix2 100 <= bpow radix2 102) by (change 2 with (bpow radix2 1); rewrite <- bpow_plus; apply bpow_le; lia).
  destruct (sub_val 24 128 prec24 emax128 v low Fv Fl) as [Fa Va]; [apply small32; apply Rabs_le; lra|]. fold a in Va.
  destruct (sub_val 24 128 prec24 emax128 high low Fh Fl) as [Fd Vd]; [apply small32; apply Rabs_le; lra|]. fold d in Vd.
  assert (Dp : 0 < d) by (apply difference_pos; assumption).
  assert (A0 : rnd32 0 <= a) by (apply rnd_le; try reflexivity; lra). rewrite rnd_0 in A0.
  assert (A1 : a <= d) by (apply rnd_le; try reflexivity; lra).
  change (SFsub 24 128 v low) with (f32_sub v low) in *. change (SFsub 24 128 high low) with (f32_sub high low) in *.
  destruct (f64_of_f32_val _ Fa) as [Ga Wa]. destruct (f64_of_f32_val _ Fd) as [Gd Wd]. rewrite Va in Wa. rewrite Vd in Wd.
  destruct (f64_of_Z_val 255 ltac:(lia)) as [G5 W5].
  assert (X : rnd64 (255 * a) = 255 * a) by (rewrite <- Va; apply exact255, Fa).
  assert (Dl : d <= bpow radix2 102).
  { unfold d. eapply Rle_trans; [apply Rle_abs|]. apply abs_round_le_generic; [apply (fexp_correct 24 128); reflexivity|apply valid_rnd_N| |apply Rabs_le; lra]. apply generic_format_bpow. vm_compute. discriminate. }
  destruct (mul_val 53 1024 prec53 emax1024 _ _ G5 Ga) as [Gm Wm].
  { rewrite W5, Wa, X. unfold Proofs_Real.small. rewrite Rabs_pos_eq by lra. apply Rle_lt_trans with (bpow radix2 8 * bpow radix2 102); [apply Rmult_le_compat; try lra; change (bpow radix2 8) with 256; lra|]. rewrite <- bpow_plus. apply bpow_lt. lia. }
  rewrite W5, Wa, X in Wm.
  assert (Q : 0 <= 255 * a / d <= 255).
  { split; [apply Rmult_le_pos; [lra|apply Rlt_le, Rinv_0_lt_compat; exact Dp]|]. apply (Rmult_le_reg_r d); [exact Dp|]. unfold Rdiv. rewrite Rmult_assoc, Rinv_l by lra. lra. }
  destruct (f32_of_Z_val 255 ltac:(lia)) as [H5 Y5].
  assert (R5 : rnd64 255 = 255) by (rewrite <- W5; apply rnd_fin; exact G5). assert (S5 : rnd32 255 = 255) by (rewrite <- Y5; apply rnd_fin; exact H5).
  assert (Q0 : rnd64 0 <= rnd64 (255 * a / d)) by (apply rnd_le; try reflexivity; lra). rewrite rnd_0 in Q0.
  assert (Q1 : rnd64 (255 * a / d) <= rnd64 255) by (apply rnd_le; try reflexivity; lra). rewrite R5 in Q1.
  destruct (div_val 53 1024 prec53 emax1024 _ _ Gm Gd) as [Gq Wq]; [rewrite Wd; lra|rewrite Wm, Wd; apply (small_of_bound 1024 _ 8); [lia|rewrite Rabs_pos_eq by lra; change (2 ^ 8)%Z with 256%Z; lra|lia]|]. rewrite Wm, Wd in Wq.
  assert (P0 : rnd32 0 <= rnd32 (rnd64 (255 * a / d))) by (apply rnd_le; try reflexivity; lra). rewrite rnd_0 in P0.
  assert (P1 : rnd32 (rnd64 (255 * a / d)) <= rnd32 255) by (apply rnd_le; try reflexivity; lra). rewrite S5 in P1.
  destruct (f32_of_f64_val _ Gq) as [F V]; [rewrite Wq; apply (small_of_bound 128 _ 8); [lia|rewrite Rabs_pos_eq by lra; change (2 ^ 8)%Z with 256%Z; lra|lia]|]. rewrite Wq in V.
  unfold part, f64_div, f64_mul. rewrite V. split; [exact F|]. split; [reflexivity|]. split; [exact Dp|]. split; lra.
Qed.
Lemma index_mid : forall low high v, fin32 low -> fin32 high -> fin32 v -> val low < val high -> Rabs (val low) <= bpow radix2 100 -> Rabs (val high) <= bpow radix2 100 ->
  val low <= val v <= val high -> exists i, fl_round (part low high v) = Some i /\ color_index low high v = Ok i /\ (0 <= i <= 255)%Z.
Proof.
  intros low high v Fl Fh Fv L Bl Bh I. destruct (part_val low high v Fl Fh Fv L Bl Bh I) as (F & _ & _ & _ & B).
  destruct (round_val 24 128 _ F) as (i & E & Bi). apply Rabs_le_inv in Bi.
  assert (R : (0 <= i <= 255)%Z). { split. - apply Z.lt_succ_r, lt_IZR. rewrite succ_IZR. lra. - apply Z.lt_succ_r, lt_IZR. rewrite succ_IZR. lra. }
  exists i. split; [exact E|]. split; [|exact R]. unfold color_index.
  destruct (SFltb v low) eqn:C1; [apply (ltb_lt 24 128) in C1; try assumption; lra|]. destruct (SFltb high v) eqn:C2; [apply (ltb_lt 24 128) in C2; try assumption; lra|].
  cbv zeta. fold (part low high v). rewrite E. unfold to_int.
  replace ((- 2 ^ 31 <=? i) && (i <=? 2 ^ 31 - 1))%Z%bool with true by (symmetry; apply andb_true_iff; split; apply Z.leb_le; lia).
  replace ((0 <=? i) && (i <? 256))%Z%bool with true by (symmetry; apply andb_true_iff; split; [apply Z.leb_le|apply Z.ltb_lt]; lia). reflexivity.
Qed.
Lemma index_low : forall low high v, fin32 low -> fin32 v -> val v < val low -> color_index low high v = Ok 0%Z.
Proof. intros low high v Fl Fv L. apply (ltb_lt 24 128) in L; try assumption. unfold color_index. rewrite L. reflexivity. Qed.
Lemma index_high : forall low high v, fin32 low -> fin32 high -> fin32 v -> val low < val high -> val high < val v -> color_index low high v = Ok 255%Z.
Proof.
  intros low high v Fl Fh Fv O L. unfold color_index. destruct (SFltb v low) eqn:C1; [apply (ltb_lt 24 128) in C1; try assumption; lra|].
  apply (ltb_lt 24 128) in L; try assumption. rewrite L. reflexivity.
Qed.

(** Between two different speeds, each speed has one of the 256 colours; a higher speed never has a
    lower one; the lowest and the highest have the first and the last. *)
Theorem C84_colours : forall low high, fin32 low -> fin32 high -> val low < val high -> Rabs (val low) <= bpow radix2 100 -> Rabs (val high) <= bpow radix2 100 ->
  (forall v, fin32 v -> exists i, color_index low high v = Ok i /\ (0 <= i <= 255)%Z) /\
  (forall v w i j, fin32 v -> fin32 w -> val v <= val w -> color_index low high v = Ok i -> color_index low high w = Ok j -> (i <= j)%Z) /\
  color_index low high low = Ok 0%Z /\ color_index low high high = Ok 255%Z.
Proof.
  intros low high Fl Fh L Bl Bh.
  assert (T : forall v, fin32 v -> exists i, color_index low high v = Ok i /\ (0 <= i <= 255)%Z).
  { intros v Fv. destruct (Rlt_or_le (val v) (val low)) as [C|C]; [exists 0%Z; rewrite index_low by assumption; split; [reflexivity|lia]|].
    destruct (Rlt_or_le (val high) (val v)) as [D|D]; [exists 255%Z; rewrite index_high by assumption; split; [reflexivity|lia]|].
    destruct (index_mid low high v) as (i & _ & E & B); try assumption; [lra|]. now exists i. }
  split; [exact T|]. split; [|split].
  - intros v w i j Fv Fw O Ei Ej. destruct (T v Fv) as (i' & Ei' & Bi). destruct (T w Fw) as (j' & Ej' & Bj). assert (i' = i) by congruence. assert (j' = j) by congruence. subst i' j'.
    destruct (Rlt_or_le (val v) (val low)) as [C|C]; [rewrite index_low in Ei by assumption; injection Ei as <-; lia|].
    destruct (Rlt_or_le (val high) (val w)) as [D|D]; [rewrite index_high in Ej by assumption; injection Ej as <-; lia|].
    destruct (index_mid low high v) as (i' & R1 & E1 & _); try assumption; [lra|]. destruct (index_mid low high w) as (j' & R2 & E2 & _); try assumption; [lra|].
    assert (i' = i) by congruence. assert (j' = j) by congruence. subst i' j'.
    destruct (part_val low high v) as (F1 & V1 & Dp & A1 & _); try assumption; [lra|]. destruct (part_val low high w) as (F2 & V2 & _ & A2 & _); try assumption; [lra|].
    eapply round_mono; [exact F1|exact F2| |exact R1|exact R2]. rewrite V1, V2. apply rnd_le; try reflexivity. apply rnd_le; try reflexivity.
    apply Rmult_le_compat_r; [apply Rlt_le, Rinv_0_lt_compat; exact Dp|]. apply Rmult_le_compat_l; [lra|]. apply rnd_le; try reflexivity. lra.
  - destruct (index_mid low high low) as (i & R & E & _); try assumption; [lra|]. rewrite E. f_equal. destruct (part_val low high low) as (F & V & _); try assumption; [lra|].
    replace (val low - val low) with 0 in V by ring. rewrite rnd_0 in V. unfold Rdiv in V. rewrite Rmult_0_r, Rmult_0_l, !rnd_0 in V.
    destruct (zero_zero _ F V) as (s & Z). rewrite Z in R. cbn in R. congruence.
  - destruct (index_mid low high high) as (i & R & E & _); try assumption; [lra|]. rewrite E. f_equal. destruct (part_val low high high) as (F & V & Dp & _); try assumption; [lra|].
    unfold Rdiv in V. rewrite Rmult_assoc, Rinv_r, Rmult_1_r in V by lra.
    destruct (f32_of_Z_val 255 ltac:(lia)) as [H5 Y5]. destruct (f64_of_Z_val 255 ltac:(lia)) as [G5 W5].
    assert (R5 : rnd64 255 = 255) by (rewrite <- W5; apply rnd_fin; exact G5). assert (S5 : rnd32 255 = 255) by (rewrite <- Y5; apply rnd_fin; exact H5).
    rewrite R5, S5, <- Y5 in V. apply round_same in V; try assumption. rewrite V in R. vm_compute in R. congruence.
Qed.
Print Assumptions C84_colours.
Example C84_colours_example : fin32 (f32_of_Z 10) /\ fin32 (f32_of_Z 30) /\ val (f32_of_Z 10) < val (f32_of_Z 30) /\
  map (color_index (f32_of_Z 10) (f32_of_Z 30)) (map f32_of_Z [5; 10; 15; 20; 29; 30; 31]%Z) = map Ok [0; 0; 64; 128; 242; 255; 255]%Z.
Proof.
  destruct (f32_of_Z_val 10 ltac:(lia)) as [F1 V1]. destruct (f32_of_Z_val 30 ltac:(lia)) as [F2 V2]. split; [exact F1|]. split; [exact F2|]. split; [rewrite V1, V2; lra|]. vm_compute. reflexivity.
Qed.

(** A line in pieces of different colours. *)
Lemma index_range : forall low high v i, color_index low high v = Ok i -> (0 <= i <= 255)%Z.
Proof.
  intros low high v i E. unfold color_index in E. destruct (SFltb v low); [injection E as <-; lia|]. destruct (SFltb high v); [injection E as <-; lia|]. cbv zeta in E.
  destruct (to_int _) as [j|]; [|discriminate]. destruct ((0 <=? j) && (j <? 256))%Z%bool eqn:B; [|discriminate]. injection E as <-. lia.
Qed.
Lemma draw_end : forall c k pos low high n t i last l ms, draw_pieces c k pos low high n (S t) i last = Ok (l, ms) ->
  exists x y z, abs_axis c pos (Model_Planner.c_steps k) n (i + Z.of_nat t) M1 = Ok x /\ abs_axis c pos (Model_Planner.c_steps k) n (i + Z.of_nat t) M2 = Ok y /\
    abs_axis c pos (Model_Planner.c_steps k) n (i + Z.of_nat t) M3 = Ok z /\
    (forall p0, fold_left (fun p m => match m with DrawTo q => Some q | GoTo q => Some q | _ => p end) ms p0 = Some (x, y, z)) /\
    (forall pen, length (drawn pen ms) = S t) /\ (forall j, In (SpeedColor j) ms -> (0 <= j <= 255)%Z).
Proof.
  intros c k pos low high n. induction t as [|t IH]; intros i last l ms E; cbn [draw_pieces] in E.
  - destruct (color_index low high _) as [idx|] eqn:Ci; [|discriminate]. cbn [obind] in E.
    destruct (abs_axis c pos _ n i M1) as [x|] eqn:X; [|discriminate]. cbn [obind] in E. destruct (abs_axis c pos _ n i M2) as [y|] eqn:Y; [|discriminate]. cbn [obind] in E.
    destruct (abs_axis c pos _ n i M3) as [z|] eqn:Z; [|discriminate]. cbn [obind] in E. injection E as <- <-. exists x, y, z. rewrite Z.add_0_r. split; [exact X|]. split; [exact Y|]. split; [exact Z|].
    apply index_range in Ci. split; [|split].
    + intros p0. destruct (idx =? last)%Z; reflexivity.
    + intros pen. destruct (idx =? last)%Z; reflexivity.
    + intros j J. apply in_app_or in J. destruct J as [J|J]; [|cbn in J; destruct J as [J|[]]; discriminate J]. destruct (idx =? last)%Z; [destruct J|]. destruct J as [J|[]]. injection J as <-. exact Ci.
  - destruct (color_index low high _) as [idx|] eqn:Ci; [|discriminate]. cbn [obind] in E.
    destruct (abs_axis c pos _ n i M1) as [x0|]; [|discriminate]. cbn [obind] in E. destruct (abs_axis c pos _ n i M2) as [y0|]; [|discriminate]. cbn [obind] in E.
    destruct (abs_axis c pos _ n i M3) as [z0|]; [|discriminate]. cbn [obind] in E.
    match type of E with obind ?d _ = _ => destruct d as [[l' ms']|] eqn:D; [|discriminate E] end. cbn [obind] in E. injection E as <- <-.
    destruct (IH _ _ _ _ D) as (x & y & z & X & Y & Z & En & Le & Co). exists x, y, z. replace (i + Z.of_nat (S t))%Z with (i + 1 + Z.of_nat t)%Z by lia. split; [exact X|]. split; [exact Y|]. split; [exact Z|].
    apply index_range in Ci. split; [|split].
    + intros p0. destruct (idx =? last)%Z; cbn [app fold_left]; apply En.
    + intros pen. destruct (idx =? last)%Z; cbn [app drawn length]; rewrite Le; reflexivity.
    + intros j J. apply in_app_or in J. destruct J as [J|[J|J]]; [|discriminate J|exact (Co j J)]. destruct (idx =? last)%Z; [destruct J|]. destruct J as [J|[]]. injection J as <-. exact Ci.
Qed.
Lemma last_axis : forall c pos s n m x, abs_axis c pos s n (n - 1) m = Ok x -> (1 <= n <= 2 ^ 24)%Z ->
  fin32 (mv_steps c (motor_axis m)) -> val (mv_steps c (motor_axis m)) <> 0 -> (Z.abs (pos m) <= 2 ^ 24)%Z -> (Z.abs (pos m + s m) <= 2 ^ 24)%Z -> (Z.abs (n * s m) <= 2 ^ 24)%Z ->
  val x = val (mm c m (pos m + s m)).
Proof.
  intros c pos s n m x E N Fs Ns B1 B2 B3. unfold abs_axis in E. replace ((n - 1 + 1) * s m)%Z with (n * s m)%Z in E by lia.
  destruct (to_int _) as [p|] eqn:T; [|discriminate]. unfold to_int in T. destruct (_ && _)%bool; [|discriminate]. injection T as <-. injection E as <-.
  assert (Bs : (Z.abs (s m) <= 2 ^ 24)%Z) by (rewrite Z.abs_mul in B3; assert (Z.abs (s m) <= Z.abs n * Z.abs (s m))%Z by (apply Z.le_mul_diag_r with (n := Z.abs (s m)) (m := Z.abs n) || nia); lia).
  destruct (f32_of_Z_val (n * s m) B3) as [Fp Vp]. destruct (f32_of_Z_val n ltac:(lia)) as [Fn Vn]. destruct (f32_of_Z_val (pos m) B1) as [Fc Vc]. destruct (f32_of_Z_val (s m) Bs) as [Fm Vm]. destruct (f32_of_Z_val (pos m + s m) B2) as [Ft Vt].
  assert (Np : 0 < IZR n) by (apply IZR_lt; lia).
  assert (Q : val (f32_of_Z (n * s m)) / val (f32_of_Z n) = val (f32_of_Z (s m))) by (rewrite Vp, Vn, Vm, mult_IZR; field; lra).
  destruct (div_val 24 128 prec24 emax128 _ _ Fp Fn) as [Fd Vd]; [rewrite Vn; lra|rewrite Q, (rnd_fin 24 128) by exact Fm; apply (fin_small 24 128); exact Fm|].
  rewrite Q, (rnd_fin 24 128) in Vd by exact Fm.
  assert (A : val (f32_of_Z (pos m)) + val (SFdiv 24 128 (f32_of_Z (n * s m)) (f32_of_Z n)) = val (f32_of_Z (pos m + s m))) by (rewrite Vd, Vc, Vm, Vt, plus_IZR; reflexivity).
  destruct (add_val 24 128 prec24 emax128 _ _ Fc Fd) as [Fa Va]; [rewrite A, (rnd_fin 24 128) by exact Ft; apply (fin_small 24 128); exact Ft|].
  rewrite A, (rnd_fin 24 128) in Va by exact Ft. unfold mm, spmm, f32_add. unfold f32_div at 2.
  destruct (Req_dec (val (f32_of_Z (pos m + s m))) 0) as [Z|NZ].
  - assert (K : forall y, fin32 y -> val y = 0 -> val (f32_div y (mv_steps c (motor_axis m))) = 0).
    { intros y Fy Vy. assert (D : val y / val (mv_steps c (motor_axis m)) = 0) by (rewrite Vy; unfold Rdiv; ring).
      destruct (div_val 24 128 prec24 emax128 y _ Fy Fs Ns) as [_ V]; [rewrite D, rnd_0; unfold Proofs_Real.small; rewrite Rabs_R0; apply bpow_gt_0|]. unfold f32_div. rewrite V, D. apply rnd_0; reflexivity. }
    rewrite !K; try assumption; [reflexivity|congruence].
  - f_equal. f_equal. apply same_val; try assumption. congruence.
Qed.
(** 30 steps in X and 40 in Y, 5 mm, while the speed doubles: five pieces. *)
Definition ramp : call := to 30 40 100 200.
Definition before : mv := begin_output (first_pass (tens true) [ramp; Place M1 10; Place M2 0] mv_init).
Example C84_pieces_example : match ramp, second_step (tens true) ramp before with
  | Move k, Ok (z', ms) => seen k = true /\ SFeqb (length_mm (tens true) (Model_Planner.c_steps k)) (f32_of_Z 0) = false /\ pieces (tens true) k = Ok 5%Z /\
      map (mv_pos z') [M1; M2; M3] = [40; 40; 0]%Z /\ the_end ms = Some (f32_of_Z 4, f32_of_Z 4, f32_of_Z 0) /\
      flat_map (fun m => match m with SpeedColor i => [i] | _ => [] end) ms = [0; 32; 96; 159; 223]%Z
  | _, _ => False end.
Proof. vm_compute. repeat (split; [reflexivity|]). reflexivity. Qed.

(** The range of speeds. *)
Definition range_of_speeds (z : mv) (l : list R) : Prop :=
  fin32 (mv_min z) /\ fin32 (mv_max z) /\ (forall v, In v l -> val (mv_min z) <= v <= val (mv_max z)) /\
  ((val (mv_min z) = 10000000000 /\ val (mv_max z) = -10000000000) \/ (In (val (mv_min z)) l /\ In (val (mv_max z)) l)).
Lemma range_init : range_of_speeds mv_init [].
Proof.
  assert (F : forall z, fin32 (f32_of_Z z) -> val (f32_of_Z z) = IZR z -> fin32 (f32_of_Z z) /\ val (f32_of_Z z) = IZR z) by auto.
  assert (A : fin32 (f32_of_Z ten_billion) /\ val (f32_of_Z ten_billion) = IZR ten_billion).
  { apply F; [split; vm_compute; reflexivity|]. replace (f32_of_Z ten_billion) with (S754_finite false 9765625 10) by (vm_compute; reflexivity). unfold val, ten_billion. cbn [SF2R cond_Zopp]. unfold F2R. cbn [Fnum Fexp]. change (bpow radix2 10) with 1024. lra. }
  assert (B : fin32 (f32_of_Z (- ten_billion)) /\ val (f32_of_Z (- ten_billion)) = IZR (- ten_billion)).
  { apply F; [split; vm_compute; reflexivity|]. replace (f32_of_Z (- ten_billion)) with (S754_finite true 9765625 10) by (vm_compute; reflexivity). unfold val, ten_billion. cbn [SF2R]. change (cond_Zopp true 9765625) with (-9765625)%Z. unfold F2R. cbn [Fnum Fexp Z.opp]. change (bpow radix2 10) with 1024. change (Z.opp 10000000000) with (-10000000000)%Z. lra. }
  destruct A as [F1 V1]. destruct B as [F2 V2]. split; [exact F1|]. split; [exact F2|]. split; [intros v []|]. left. split; [exact V1|exact V2].
Qed.
Lemma remember_range : forall v z l, range_of_speeds z l -> fin32 v -> Rabs (val v) <= 10000000000 -> range_of_speeds (remember v z) (l ++ [val v]).
Proof.
  intros v z l (F1 & F2 & I & T) Fv B. unfold range_of_speeds, remember. cbn [mv_min mv_max].
  destruct (Proofs_Spindle.min_val v (mv_min z) Fv F1) as [G1 ->]. destruct (Prop_Stats.max_val v (mv_max z) Fv F2) as [G2 ->]. split; [exact G1|]. split; [exact G2|]. apply Rabs_le_inv in B. split.
  - intros w W. apply in_app_or in W. destruct W as [W|[<-|[]]]; [|split; [apply Rmin_l|apply Rmax_l]]. specialize (I w W).
    pose proof (Rmin_r (val v) (val (mv_min z))). pose proof (Rmax_r (val v) (val (mv_max z))). lra.
  - right. destruct T as [[-> ->]|[T1 T2]].
    + rewrite Rmin_left, Rmax_left by lra. split; apply in_or_app; right; now left.
    + unfold Rmin, Rmax. destruct (Rle_dec _ _), (Rle_dec _ _); split; apply in_or_app; first [right; now left|left; assumption].
Qed.
(** The first pass finds the lowest and the highest speed through space. *)
Theorem C84_range : forall c first, geared (mv_steps c) first ->
  (forall v, In v (speeds c first) -> fin32 v /\ Rabs (val v) <= 10000000000) -> speeds c first <> [] ->
  let z := first_pass c first mv_init in
  fin32 (mv_min z) /\ fin32 (mv_max z) /\ (forall v, In v (speeds c first) -> val (mv_min z) <= val v <= val (mv_max z)) /\
  In (val (mv_min z)) (map val (speeds c first)) /\ In (val (mv_max z)) (map val (speeds c first)).
Proof.
  intros c es G H Ne. assert (K : range_of_speeds (first_pass c es mv_init) (map val (speeds c es))).
  { clear Ne. induction es as [|e es IH] using rev_ind; [exact range_init|].
    assert (G' : geared (mv_steps c) es) by (intros k m I; apply G, in_or_app; now left).
    assert (Q : speeds c (es ++ [e]) = speeds c es ++ speeds c [e]) by (unfold speeds; apply flat_map_app). rewrite Q in *.
    specialize (IH G' (fun v V => H v (in_or_app _ _ _ (or_introl V)))). unfold first_pass in *. rewrite fold_left_app. cbn [fold_left]. set (z := fold_left _ es mv_init) in *. rewrite map_app.
    destruct e as [k|m p]; unfold speeds in H at 2; unfold speeds at 2; cbn [flat_map] in *; rewrite ?app_nil_r in *; [|exact IH].
    cbn [first_step]. unfold look_at, long_enough in *. destruct (Z.leb_spec (Z.abs (Model_Planner.c_steps k M1) + Z.abs (Model_Planner.c_steps k M2) + Z.abs (Model_Planner.c_steps k M3)) 3) as [S|S].
    - replace (3 <? _)%Z with false by (symmetry; apply Z.ltb_ge; exact S). cbn [map]. rewrite app_nil_r. destruct (nothing_to_do c _); exact IH.
    - replace (3 <? _)%Z with true in * by (symmetry; apply Z.ltb_lt; exact S).
      assert (Nt : nothing_to_do c (Model_Planner.c_steps k) = false).
      { destruct (nothing_to_do c _) eqn:E; [|reflexivity]. apply (something c k (es ++ [Move k]) G) in E; [|apply in_or_app; right; now left]. unfold seen in E. apply negb_false_iff in E. lia. }
      rewrite Nt. cbv zeta. fold (through_space c k (c_v1 k)). fold (through_space c k (c_v0 k)). cbn [map]. change [val (through_space c k (c_v0 k)); val (through_space c k (c_v1 k))] with ([val (through_space c k (c_v0 k))] ++ [val (through_space c k (c_v1 k))]). rewrite app_assoc.
      apply remember_range; [apply remember_range; [exact IH|..]|..]; apply H, in_or_app; right; cbn; auto. }
  destruct K as (F1 & F2 & I & T). split; [exact F1|]. split; [exact F2|]. split; [intros v V; apply I, in_map, V|].
  destruct T as [[T1 T2]|T]; [|exact T]. exfalso. destruct (speeds c es) as [|v l] eqn:E; [apply Ne; reflexivity|]. specialize (I (val v) ltac:(now left)). rewrite T1, T2 in I. lra.
Qed.
Print Assumptions C84_range.
(** Along the diagonal of 30 and 40 steps the speed is 5/4 of that in Y. *)
Example C84_range_example : map (fun x => SFeqb x x) (speeds (tens true) [ramp; to 20 0 100 100; to 2 1 900 900]) = [true; true; true; true] /\
  let z := first_pass (tens true) [ramp; to 20 0 100 100; to 2 1 900 900] mv_init in (mv_min z, mv_max z) = (f32_of_Z 10, f32_of_Z 25).
Proof. split; vm_compute; reflexivity. Qed.
