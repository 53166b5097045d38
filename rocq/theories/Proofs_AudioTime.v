(** Proofs: the clock of the simulated run keeps time. *)
From Coq Require Import Reals Lra SpecFloat.
From Flocq Require Import Core IEEE754.BinarySingleNaN.
From Verif Require Import Base Model_Float Spec_Real Proofs_Real Proofs_Ramp Model_MotorOps Model_Pru Model_Audio Spec_Audio Spec_AudioTime.
Open Scope Z_scope.
Open Scope R_scope.

Definition u53 : R := / 9007199254740992.
Lemma big_ok : forall r, Rabs r <= 1000000 -> small 1024 (rnd64 r).
Proof. intros r H. apply small64. eapply Rle_trans; [exact H|]. change 1000000 with (IZR 1000000). eapply Rle_trans; [|apply (bpow_le radix2 20); lia]. change (bpow radix2 20) with (IZR 1048576). apply IZR_le. lia. Qed.
Lemma rnd64_pos : forall r, 0 <= r -> 0 <= rnd64 r.
Proof. intros r H. apply round_ge_generic; [apply fexp_correct; reflexivity|apply valid_rnd_N|apply generic_format_0|exact H]. Qed.
Lemma quotient : forall n d, (0 <= n < 2 ^ 32)%Z -> (1 <= d <= 2 ^ 31)%Z -> IZR n / IZR d <= 1000000 ->
  fin64 (f64_div (f64_of_Z n) (f64_of_Z d)) /\ 0 <= val (f64_div (f64_of_Z n) (f64_of_Z d)) /\ Rabs (val (f64_div (f64_of_Z n) (f64_of_Z d)) - IZR n / IZR d) <= u53 * (IZR n / IZR d + 1 / 2).
Proof.
  intros n d Hn Hd B. destruct (f64_of_Z_val n ltac:(lia)) as [Fn Vn]. destruct (f64_of_Z_val d ltac:(lia)) as [Fd Vd].
  assert (P : 1 <= IZR d) by (apply IZR_le; lia). assert (Q : 0 <= IZR n) by (apply IZR_le; lia).
  assert (G : 0 <= IZR n / IZR d) by (apply Rmult_le_pos; [exact Q|apply Rlt_le, Rinv_0_lt_compat; lra]).
  assert (P53 : Prec_gt_0 53) by reflexivity. assert (L53 : Prec_lt_emax 53 1024) by reflexivity.
  destruct (div_val 53 1024 P53 L53 (f64_of_Z n) (f64_of_Z d) Fn Fd) as [F V]; [rewrite Vd; lra|rewrite Vn, Vd; apply big_ok; rewrite Rabs_pos_eq; assumption|].
  fold f64_div in F, V. rewrite Vn, Vd in V. split; [exact F|]. unfold f64_div in *. rewrite V. split; [apply rnd64_pos; exact G|]. pose proof (rnd64_error (IZR n / IZR d)) as E. rewrite (Rabs_pos_eq (IZR n / IZR d)) in E by exact G. unfold u53. lra.
Qed.

Section Clock.
Variable T : R.
Hypothesis T0 : 0 <= T.
Hypothesis T1 : T <= 97000.
Definition h : R := 4 * u53 * (T + 1).
Lemma h_pos : 0 < h. Proof. unfold h, u53. lra. Qed.
Lemma advance : forall t r x y k, fin64 t -> fin64 x -> 0 <= val t -> 0 <= val x -> 0 <= r -> 0 <= y -> r + y <= T -> 0 <= k -> k * h <= 1 ->
  Rabs (val t - r) <= k * h -> Rabs (val x - y) <= u53 * (y + 1 / 2) ->
  fin64 (f64_add t x) /\ 0 <= val (f64_add t x) /\ Rabs (val (f64_add t x) - (r + y)) <= (k + 1) * h.
Proof.
  intros t r x y k Ft Fx Pt Px R0 Y0 L K0 K1 Et Ex. assert (P53 : Prec_gt_0 53) by reflexivity. assert (L53 : Prec_lt_emax 53 1024) by reflexivity.
  apply Rabs_le_inv in Et. apply Rabs_le_inv in Ex.
  assert (U : 0 < u53 <= / 1000000) by (unfold u53; lra). assert (Y1 : u53 * (y + 1 / 2) <= u53 * (T + 1 / 2)) by (apply Rmult_le_compat_l; lra).
  assert (Y2 : u53 * (T + 1 / 2) <= 1) by (unfold u53; lra).
  assert (S : Rabs (val t + val x) <= T + 2) by (apply Rabs_le; lra).
  destruct (add_val 53 1024 P53 L53 t x Ft Fx) as [F V]; [apply big_ok; lra|]. split; [exact F|]. unfold f64_add. rewrite V. split; [apply rnd64_pos; lra|].
  pose proof (rnd64_error (val t + val x)) as E. assert (E2 : Rabs (rnd64 (val t + val x) - (val t + val x)) <= u53 * (T + 5 / 2)).
  { eapply Rle_trans; [exact E|]. replace (u53 * (T + 5 / 2)) with (u53 * (T + 2) + u53 / 2) by field. apply Rplus_le_compat; [apply Rmult_le_compat_l; [lra|exact S]|unfold u53; lra]. }
  apply Rabs_le_inv in E2. apply Rabs_le. unfold h in *. lra.
Qed.
Lemma exact_pass_mono : forall l t, Forall (fun p => 0 <= snd p < 2 ^ 32)%Z l -> t <= snd (exact_pass_ends t l).
Proof.
  induction l as [|[p d] l IH]; intros t F; cbn [exact_pass_ends snd]; [lra|]. inversion F as [|? ? F1 F2]; subst. cbn [snd] in F1. assert (0 <= IZR d) by (apply IZR_le; lia).
  specialize (IH (t + 160 / 1000000000 + IZR d / 100000000) F2). destruct (exact_pass_ends _ l) as [x e]. cbn [snd] in *. lra.
Qed.
Lemma exact_mono : forall ls t, Forall (Forall (fun p => 0 <= snd p < 2 ^ 32)%Z) ls -> t <= snd (exact_ends t ls).
Proof.
  induction ls as [|l ls IH]; intros t F; cbn [exact_ends snd]; [lra|]. inversion F as [|? ? F1 F2]; subst. pose proof (exact_pass_mono l t F1) as A.
  destruct (exact_pass_ends t l) as [x e]. specialize (IH e F2). destruct (exact_ends e ls) as [y f]. cbn [snd] in *. lra.
Qed.
Lemma ticks_small : forall d, (0 <= d < 2 ^ 32)%Z -> IZR d / 100000000 <= 1000000.
Proof. intros d H. assert (IZR d <= IZR (2 ^ 32)) by (apply IZR_le; lia). change (IZR (2 ^ 32)) with 4294967296 in *. lra. Qed.
Definition near (k : R) (e : fl * (motor -> bool)) (r : R) : Prop := fin64 (fst e) /\ 0 <= val (fst e) /\ 0 <= r <= T /\ Rabs (val (fst e) - r) <= k * h.
Lemma pass_near : forall l t r k K, Forall (fun p => 0 <= snd p < 2 ^ 32)%Z l -> fin64 t -> 0 <= val t -> 0 <= r -> snd (exact_pass_ends r l) <= T ->
  0 <= k -> k + 2 * IZR (Z.of_nat (length l)) + 1 <= K -> K * h <= 1 -> Rabs (val t - r) <= k * h ->
  Forall2 (near K) (fst (pass_ends t l)) (fst (exact_pass_ends r l)) /\ fin64 (snd (pass_ends t l)) /\ 0 <= val (snd (pass_ends t l)) /\
  Rabs (val (snd (pass_ends t l)) - snd (exact_pass_ends r l)) <= (k + 2 * IZR (Z.of_nat (length l)) + 1) * h.
Proof.
  pose proof h_pos as Hp.
  induction l as [|[p d] l IH]; intros t r k K F Ft Pt R0 L K0 K1 K2 Et; cbn [pass_ends exact_pass_ends] in *;
    destruct (quotient 160 1000000000 ltac:(lia) ltac:(lia) ltac:(lra)) as (Fu & Pu & Eu); change (IZR 160 / IZR 1000000000) with (160 / 1000000000) in Eu.
  - cbn [fst snd length] in *. change (IZR (Z.of_nat 0)) with 0 in *. assert (k * h <= K * h) by (apply Rmult_le_compat_r; lra). split; [constructor|]. replace (k + 2 * 0 + 1) with (k + 1) by ring. apply advance; try assumption; lra.
  - inversion F as [|? ? F1 F2]; subst. cbn [snd] in F1. assert (D0 : 0 <= IZR d) by (apply IZR_le; lia).
    assert (Ln : IZR (Z.of_nat (length ((p, d) :: l))) = IZR (Z.of_nat (length l)) + 1) by (cbn [length]; rewrite Nat2Z.inj_succ, <- Z.add_1_r, plus_IZR; reflexivity). rewrite Ln in *. assert (0 <= IZR (Z.of_nat (length l))) by (apply IZR_le; lia).
    set (r1 := r + 160 / 1000000000 + IZR d / 100000000) in *. set (t1 := f64_add (f64_add t _) _).
    assert (Lr : r1 <= snd (exact_pass_ends r1 l)) by (apply exact_pass_mono; exact F2).
    specialize (IH t1 r1 (k + 2) K F2). destruct (exact_pass_ends r1 l) as [y f] eqn:Ey. cbn [fst snd] in *.
    assert (A1 : (k + 1) * h <= K * h) by (apply Rmult_le_compat_r; lra). assert (A2 : (k + 2) * h <= K * h) by (apply Rmult_le_compat_r; lra). assert (A3 : (k + 2) * h = (k + 1) * h + h) by ring. assert (A4 : (k + 1) * h = k * h + h) by ring.
    destruct (advance t r _ (160 / 1000000000) k Ft Fu Pt Pu R0 ltac:(lra) ltac:(unfold r1 in *; lra) K0 ltac:(lra) Et Eu) as (Fa & Pa & Ea).
    destruct (quotient d 100000000 F1 ltac:(lia) (ticks_small d F1)) as (Fd & Pd & Ed).
    destruct (advance _ (r + 160 / 1000000000) _ (IZR d / 100000000) (k + 1) Fa Fd Pa Pd ltac:(lra) ltac:(lra) ltac:(unfold r1 in *; lra) ltac:(lra) ltac:(lra) Ea Ed) as (Fb & Pb & Eb).
    replace (k + 1 + 1) with (k + 2) in Eb by ring. fold t1 in Fb, Eb. fold r1 in Eb.
    destruct IH as (I1 & I2 & I2' & I3); try assumption; try (unfold r1; lra); try lra.
    destruct (pass_ends t1 l) as [x e]. cbn [fst snd] in *. split; [|split; [exact I2|split; [exact I2'|]]].
    + constructor; [|exact I1]. split; [exact Fb|]. split; [exact Pb|]. split; [unfold r1 in *; lra|]. cbn [fst]. lra.
    + replace (k + 2 * (IZR (Z.of_nat (length l)) + 1) + 1) with (k + 2 + 2 * IZR (Z.of_nat (length l)) + 1) by ring. exact I3.
Qed.
Lemma run_near : forall ls t r k K, Forall (Forall (fun p => 0 <= snd p < 2 ^ 32)%Z) ls -> fin64 t -> 0 <= val t -> 0 <= r -> snd (exact_ends r ls) <= T ->
  0 <= k -> k + IZR (additions ls) <= K -> K * h <= 1 -> Rabs (val t - r) <= k * h ->
  Forall2 (near K) (run_ends t ls) (fst (exact_ends r ls)).
Proof.
  pose proof h_pos as Hp.
  induction ls as [|l ls IH]; intros t r k K F Ft Pt R0 L K0 K1 K2 Et; cbn [run_ends exact_ends] in *; [constructor|]. inversion F as [|? ? F1 F2]; subst.
  cbn [additions fold_right] in K1. fold (additions ls) in K1. rewrite !plus_IZR, mult_IZR in K1. assert (N : 0 <= IZR (additions ls)) by (apply IZR_le; clear; induction ls; cbn [additions fold_right]; [lia|]; fold (additions ls); lia).
  pose proof (exact_pass_mono l r F1) as M1. pose proof (pass_near l t r k K F1 Ft Pt R0) as P.
  destruct (exact_pass_ends r l) as [x e] eqn:Ex. cbn [fst snd] in *. pose proof (exact_mono ls e F2) as M2. destruct (exact_ends e ls) as [y f] eqn:Ey. cbn [fst snd] in *.
  destruct P as (P1 & P2 & P2' & P3); try assumption; try lra. destruct (pass_ends t l) as [x' e']. cbn [fst snd] in *.
  apply Forall2_app; [exact P1|]. specialize (IH e' e (k + 2 * IZR (Z.of_nat (length l)) + 1) K F2 P2 P2' ltac:(lra)). rewrite Ey in IH. cbn [fst snd] in IH.
  assert (0 <= IZR (Z.of_nat (length l))) by (apply IZR_le; lia). apply IH; try assumption; lra.
Qed.
(** From the clock to the number of samples. *)
Lemma near_samples : forall K e r, 0 <= K -> K * h <= 1 / 2 -> near K e r ->
  countable (fst e) /\ Rabs (IZR (samples_before (fst e)) - 44100 * r) <= 1 + 44100 * ((K + 1) * h).
Proof.
  intros K e r K0 K1 (Fe & Pe & R0 & E). assert (P53 : Prec_gt_0 53) by reflexivity. assert (L53 : Prec_lt_emax 53 1024) by reflexivity. pose proof h_pos as Hp.
  destruct (f64_of_Z_val 44100 ltac:(lia)) as [F4 V4]. apply Rabs_le_inv in E.
  assert (S : Rabs (val (fst e) * IZR 44100) <= 44100 * (T + 1 / 2)) by (apply Rabs_le; split; lra).
  assert (S2 : small 1024 (rnd64 (val (fst e) * IZR 44100))).
  { apply small64. eapply Rle_trans; [exact S|]. eapply Rle_trans; [|apply (bpow_le radix2 33); lia]. change (bpow radix2 33) with (IZR 8589934592). lra. }
  destruct (mul_val 53 1024 P53 L53 (fst e) (f64_of_Z 44100) Fe F4) as [F V]; [rewrite V4; exact S2|]. rewrite V4 in V. fold f64_mul in F, V.
  pose proof (rnd64_error (val (fst e) * IZR 44100)) as D. rewrite <- V in D.
  assert (D2 : Rabs (val (f64_mul (fst e) (f64_of_Z 44100)) - val (fst e) * IZR 44100) <= 44100 * h).
  { unfold f64_mul. eapply Rle_trans; [exact D|]. unfold h, u53. assert (/ 9007199254740992 * Rabs (val (fst e) * IZR 44100) <= / 9007199254740992 * (44100 * (T + 1 / 2))) by (apply Rmult_le_compat_l; lra). lra. }
  assert (Pv : 0 <= val (f64_mul (fst e) (f64_of_Z 44100))) by (rewrite V; apply rnd64_pos; lra).
  apply Rabs_le_inv in D2. set (v := val (f64_mul (fst e) (f64_of_Z 44100))) in *.
  assert (H1 : 44100 * h <= 1 / 2) by (unfold h, u53; lra).
  assert (Tr : fl_trunc (f64_mul (fst e) (f64_of_Z 44100)) = Some (Ztrunc v)) by (apply (trunc_val 53 1024); exact F).
  assert (B : Rabs (IZR (Ztrunc v) - v) <= 1).
  { rewrite Ztrunc_floor by exact Pv. pose proof (Zfloor_lb v). pose proof (Zfloor_ub v). apply Rabs_le. lra. }
  split.
  - exists (Ztrunc v). split; [exact Tr|]. rewrite Ztrunc_floor by exact Pv. split; [apply Zfloor_lub; exact Pv|]. apply lt_IZR. eapply Rle_lt_trans; [apply Zfloor_lb|]. change (IZR (2 ^ 32)) with 4294967296. lra.
  - unfold samples_before. rewrite Tr. apply Rabs_le_inv in B. apply Rabs_le. lra.
Qed.
End Clock.
