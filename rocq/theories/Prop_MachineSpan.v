(** C84: the span of the colours, and the colours along a command. *)
From Coq Require Import Reals Lra SpecFloat.
From Flocq Require Import Core IEEE754.BinarySingleNaN.
From Flocq.Prop Require Import Relative.
From Verif Require Import Base Model_Float Spec_Real Proofs_Real Model_Axis Model_Planner Prop_ViewRange Model_MachineView Spec_MachineView Prop_MachineView Prop_MachineColors Prop_MachineSpeed.
Open Scope R_scope.

Lemma rnd64_rel : forall r, bpow radix2 (-200) <= r -> Rabs (rnd64 r - r) <= r / 1000000.
Proof.
  intros r L. pose proof (bpow_gt_0 radix2 (-200)) as P.
  pose proof (relative_error_N_FLT radix2 (-1074) 53 eq_refl (fun z => negb (Z.even z)) r) as E. change (FLT_exp (-1074) 53) with (SpecFloat.fexp 53 1024) in E.
  assert (N : bpow radix2 (-1074 + 53 - 1) <= Rabs r) by (rewrite Rabs_pos_eq by lra; apply Rle_trans with (bpow radix2 (-200)); [apply bpow_le; lia|exact L]).
  specialize (E N). change (round radix2 (SpecFloat.fexp 53 1024) (Znearest (fun z => negb (Z.even z))) r) with (rnd64 r) in E. rewrite (Rabs_pos_eq r) in E by lra.
  change (bpow radix2 (- (53) + 1)) with (/ 4503599627370496) in E. lra.
Qed.
Lemma rnd32_rel : forall r, bpow radix2 (-111) <= r <= bpow radix2 111 -> Rabs (rnd32 r - r) <= r / 1000000.
Proof.
  intros r B. pose proof (bpow_gt_0 radix2 (-111)) as P. destruct (rnd_near r (or_intror B)) as [_ (_ & _ & A & C)]. cbn [pow] in *. rewrite Rmult_1_r in *. unfold t in *. apply Rabs_le. lra.
Qed.
Lemma small64 : forall r, Rabs r <= bpow radix2 200 -> Proofs_Real.small 1024%Z (rnd64 r).
Proof.
  intros r H. unfold Proofs_Real.small. eapply Rle_lt_trans; [|apply (bpow_lt radix2 200 1024); lia].
  apply abs_round_le_generic; [apply (fexp_correct 53 1024); reflexivity|apply valid_rnd_N| |exact H]. apply generic_format_bpow. vm_compute. discriminate.
Qed.
Lemma tenth_val : fin64 tenth /\ Rabs (val tenth - / 10) <= / 10000000.
Proof.
  destruct (f64_of_Z_val 1 ltac:(lia)) as [F1 V1]. destruct (f64_of_Z_val 10 ltac:(lia)) as [F2 V2].
  assert (L : bpow radix2 (-200) <= 1 / 10) by (apply Rle_trans with (bpow radix2 (-4)); [apply bpow_le; lia|change (bpow radix2 (-4)) with (/ 16); lra]).
  assert (U : 1 / 10 <= bpow radix2 200) by (apply Rle_trans with (bpow radix2 0); [change (bpow radix2 0) with 1; lra|apply bpow_le; lia]).
  destruct (div_val 53 1024 prec53 emax1024 _ _ F1 F2) as [F V]; [rewrite V2; lra|rewrite V1, V2; apply small64; rewrite Rabs_pos_eq; lra|]. rewrite V1, V2 in V.
  split; [exact F|]. unfold tenth, f64_div. rewrite V. pose proof (rnd64_rel (1 / 10) L) as E. apply Rabs_le_inv in E. apply Rabs_le. change (IZR 1) with 1 in *. change (IZR 10) with 10 in *. lra.
Qed.

(** The range of the colours lies in the range of the speeds and is not empty, if the highest speed
    is at least twice the lowest. *)
Theorem C84_span : forall z, fin32 (mv_min z) -> fin32 (mv_max z) -> 0 <= val (mv_min z) -> 2 * val (mv_min z) <= val (mv_max z) ->
  bpow radix2 (-90) <= val (mv_max z) <= bpow radix2 90 ->
  let z' := begin_output z in
  fin32 (mv_low z') /\ fin32 (mv_high z') /\ val (mv_min z) <= val (mv_low z') /\ val (mv_low z') < val (mv_high z') /\ val (mv_high z') <= val (mv_max z).
Proof.
  intros z Fa Fb Pa Q [L U] z'. set (a := val (mv_min z)) in *. set (b := val (mv_max z)) in *. pose proof (bpow_gt_0 radix2 (-90)) as P90.
  assert (H91 : bpow radix2 (-91) = / 2 * bpow radix2 (-90)) by (change (-91)%Z with (-1 + -90)%Z; rewrite bpow_plus; reflexivity).
  assert (H93 : bpow radix2 (-95) = / 32 * bpow radix2 (-90)) by (change (-95)%Z with (-5 + -90)%Z; rewrite bpow_plus; reflexivity).
  assert (W1 : bpow radix2 (-111) <= bpow radix2 (-95)) by (apply bpow_le; lia). assert (W2 : bpow radix2 (-200) <= bpow radix2 (-95)) by (apply bpow_le; lia).
  assert (W3 : 2 * bpow radix2 90 <= bpow radix2 102) by (change 2 with (bpow radix2 1); rewrite <- bpow_plus; apply bpow_le; lia). assert (W4 : bpow radix2 102 <= bpow radix2 111) by (apply bpow_le; lia). assert (W5 : bpow radix2 111 <= bpow radix2 200) by (apply bpow_le; lia).
  destruct (sub_val 24 128 prec24 emax128 (mv_max z) (mv_min z) Fb Fa) as [Fd Vd]; [apply small32; fold a b; apply Rabs_le; lra|]. fold a b in Vd.
  pose proof (rnd32_rel (b - a) ltac:(lra)) as Ed. apply Rabs_le_inv in Ed. set (d := rnd32 (b - a)) in *. change (SFsub 24 128 (mv_max z) (mv_min z)) with (f32_sub (mv_max z) (mv_min z)) in *.
  destruct (f64_of_f32_val _ Fd) as [Gd Wd]. rewrite Vd in Wd. destruct tenth_val as [Ft Et]. apply Rabs_le_inv in Et. set (te := val tenth) in *.
  assert (Bt : 999999 / 10000000 * d <= te * d <= 1000001 / 10000000 * d) by (split; apply Rmult_le_compat_r; lra).
  destruct (mul_val 53 1024 prec53 emax1024 _ _ Ft Gd) as [Fm Vm]; [rewrite Wd; apply small64; fold te; rewrite Rabs_pos_eq; lra|]. rewrite Wd in Vm. fold te in Vm.
  pose proof (rnd64_rel (te * d) ltac:(lra)) as Em. apply Rabs_le_inv in Em. set (x := rnd64 (te * d)) in *.
  destruct (f64_of_f32_val _ Fa) as [Ga Wa]. destruct (f64_of_f32_val _ Fb) as [Gb Wb]. fold a in Wa. fold b in Wb.
  assert (Xb : 99 / 1000 * (b - a) <= x <= 101 / 1000 * (b - a)) by lra.
  destruct (add_val 53 1024 prec53 emax1024 _ _ Ga Fm) as [Fs Vs]; [rewrite Wa, Vm; apply small64; rewrite Rabs_pos_eq; lra|]. rewrite Wa, Vm in Vs.
  destruct (sub_val 53 1024 prec53 emax1024 _ _ Gb Fm) as [Fu Vu]; [rewrite Wb, Vm; apply small64; rewrite Rabs_pos_eq; lra|]. rewrite Wb, Vm in Vu.
  pose proof (rnd64_rel (a + x) ltac:(lra)) as E1. apply Rabs_le_inv in E1. pose proof (rnd64_rel (b - x) ltac:(lra)) as E2. apply Rabs_le_inv in E2.
  assert (Ra : rnd64 a = a) by (rewrite <- Wa; apply rnd_fin; exact Ga). assert (Rb : rnd64 b = b) by (rewrite <- Wb; apply rnd_fin; exact Gb).
  assert (Sa : rnd32 a = a) by (apply (rnd_fin 24 128); exact Fa). assert (Sb : rnd32 b = b) by (apply (rnd_fin 24 128); exact Fb).
  assert (M1 : rnd64 a <= rnd64 (a + x)) by (apply rnd_le; try reflexivity; lra). assert (M2 : rnd64 (b - x) <= rnd64 b) by (apply rnd_le; try reflexivity; lra). rewrite Ra in M1. rewrite Rb in M2.
  set (lo := rnd64 (a + x)) in *. set (hi := rnd64 (b - x)) in *.
  assert (M3 : rnd32 a <= rnd32 lo) by (apply rnd_le; try reflexivity; lra). assert (M4 : rnd32 hi <= rnd32 b) by (apply rnd_le; try reflexivity; lra). rewrite Sa in M3. rewrite Sb in M4.
  pose proof (rnd32_rel lo ltac:(lra)) as E3. apply Rabs_le_inv in E3. pose proof (rnd32_rel hi ltac:(lra)) as E4. apply Rabs_le_inv in E4.
  destruct (f32_of_f64_val _ Fs) as [Fl Vl]; [rewrite Vs; apply small32; rewrite Rabs_pos_eq; lra|]. rewrite Vs in Vl.
  destruct (f32_of_f64_val _ Fu) as [Fh Vh]; [rewrite Vu; apply small32; rewrite Rabs_pos_eq; lra|]. rewrite Vu in Vh.
  unfold z', begin_output. cbn [mv_low mv_high]. cbv zeta. unfold f64_add, f64_sub, f64_mul. split; [exact Fl|]. split; [exact Fh|]. rewrite Vl, Vh. split; [exact M3|]. split; [lra|exact M4].
Qed.
Print Assumptions C84_span.
Lemma span_case : forall z, (mv_min z, mv_max z) = (f32_of_Z 10, f32_of_Z 25) ->
  fin32 (mv_min z) /\ fin32 (mv_max z) /\ 0 <= val (mv_min z) /\ 2 * val (mv_min z) <= val (mv_max z) /\ bpow radix2 (-90) <= val (mv_max z) <= bpow radix2 90.
Proof.
  intros z E. assert (E1 : mv_min z = f32_of_Z 10) by congruence. assert (E2 : mv_max z = f32_of_Z 25) by congruence. rewrite E1, E2.
  destruct (f32_of_Z_val 10 ltac:(lia)) as [F1 V1]. destruct (f32_of_Z_val 25 ltac:(lia)) as [F2 V2]. rewrite V1, V2. split; [exact F1|]. split; [exact F2|]. split; [lra|]. split; [lra|].
  split; [apply Rle_trans with (bpow radix2 0)|apply Rle_trans with (bpow radix2 5)]; try (apply bpow_le; lia); [change (bpow radix2 0) with 1|change (bpow radix2 5) with 32]; lra.
Qed.
Example C84_span_example : let z := first_pass (tens true) [ramp; to 20 0 100 100; to 2 1 900 900] mv_init in
  fin32 (mv_min z) /\ fin32 (mv_max z) /\ 0 <= val (mv_min z) /\ 2 * val (mv_min z) <= val (mv_max z) /\ bpow radix2 (-90) <= val (mv_max z) <= bpow radix2 90.
Proof. apply span_case. vm_compute. reflexivity. Qed.
