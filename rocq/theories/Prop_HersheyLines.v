(** C85: lines go down, and every character is seen. *)
From Coq Require Import Reals Lra SpecFloat.
From Flocq Require Import Core IEEE754.BinarySingleNaN.
From Verif Require Import Base Model_Float Spec_Real Proofs_Real Model_Spindle Prop_MachineRamp Model_Hershey Prop_Hershey.
Open Scope R_scope.

Definition low_glyph (g : glyph) : bool := forallb (fun '(_, cy) => (-7 <=? cy) && (cy <=? 25))%Z%bool (snd g).
Lemma font_low : forall c g, glyph_of c = Some g -> low_glyph g = true.
Proof.
  intros c g E. unfold glyph_of in E. destruct (_ || _)%bool; [discriminate|]. apply nth_error_In in E.
  assert (A : forallb low_glyph font = true) by (vm_compute; reflexivity). rewrite forallb_forall in A. apply A, E.
Qed.

Section Lines.
Variable s : fl.
Hypothesis Fs : fin32 s. Hypothesis Bs : 0 <= val s <= bpow radix2 20.
Definition pitch : R := rnd32 (val s * 30).
Definition at_line (n : Z) (y : fl) : Prop := fin32 y /\ - (IZR n * bpow radix2 25) <= val y <= 0.
Lemma rnd32_opp : forall r, rnd32 (- r) = - rnd32 r. Proof. intros r. unfold rnd. apply round_NE_opp. Qed.
Lemma down : forall n y, at_line n y -> (0 <= n)%Z -> (n + 1 <= 2 ^ 24)%Z ->
  let y' := f32_sub y (f32_mul (f32_of_Z 30) s) in at_line (n + 1) y' /\ val y' <= - pitch.
Proof.
  intros n y [Fy By] N0 N y'. destruct (part s Fs Bs 30 ltac:(lia)) as (F & V & P). fold pitch in V, P. destruct (f32_of_Z_val 30 ltac:(lia)) as [F30 V30].
  destruct (mul_val 24 128 prec24 emax128 _ _ F30 Fs) as [Fm Vm]; [rewrite V30, Rmult_comm; apply (bound_small _ 25); [lia|]|].
  { rewrite Rabs_pos_eq by lra. change 25%Z with (20 + 5)%Z. rewrite bpow_plus. change (bpow radix2 5) with 32. lra. }
  rewrite V30, Rmult_comm in Vm. fold pitch in Vm. change (SFmul 24 128 (f32_of_Z 30) s) with (f32_mul (f32_of_Z 30) s) in *. pose proof (bpow_gt_0 radix2 25) as P25.
  assert (L : - (IZR (n + 1) * bpow radix2 25) <= val y - pitch) by (rewrite plus_IZR; lra).
  assert (T : IZR (n + 1) * bpow radix2 25 <= bpow radix2 49) by (change 49%Z with (24 + 25)%Z; rewrite bpow_plus; apply Rmult_le_compat_r; [lra|change (bpow radix2 24) with (IZR (2 ^ 24)); apply IZR_le; lia]).
  destruct (sub_val 24 128 prec24 emax128 _ _ Fy Fm) as [Fa Va]; [rewrite Vm; apply (bound_small _ 49); [lia|apply Rabs_le; lra]|]. rewrite Vm in Va.
  assert (Rp : rnd32 (- pitch) = - pitch) by (rewrite rnd32_opp; f_equal; rewrite <- Vm; apply (rnd_fin 24 128); exact Fm).
  assert (Up : val y' <= - pitch) by (unfold y', f32_sub; rewrite Va, <- Rp; apply rnd32_le; lra).
  split; [|exact Up]. split; [exact Fa|]. split; [|lra]. unfold y', f32_sub. rewrite Va. rewrite <- multiple, <- rnd32_opp by lia. apply rnd32_le, L.
Qed.
Lemma low_strokes : forall tx dx x y n, at_line n y -> (0 <= n <= 2 ^ 24)%Z -> val y <= - pitch ->
  forall ops, forallb (fun '(_, cy) => (-7 <=? cy) && (cy <=? 25))%Z%bool ops = true ->
  forall up l px py, In (l, px, py) (glyph_strokes s tx (f32_of_Z 0) dx x y up ops) -> fin32 py /\ val py <= 0.
Proof.
  intros tx dx x y n [Fy By] N Lo. induction ops as [|[cx cy] ops IH]; intros A up l px py I; [destruct I|]. cbn [forallb] in A. apply andb_true_iff in A. destruct A as [A1 A2]. cbn [glyph_strokes] in I.
  destruct ((cx =? -1) && (cy =? -1))%Z%bool; [exact (IH A2 _ _ _ _ I)|]. destruct I as [I|I]; [|exact (IH A2 _ _ _ _ I)]. assert (Py : f32_add (f32_add (f32_of_Z 0) y) (f32_mul s (f32_of_Z cy)) = py) by congruence. clear I. subst py.
  destruct (f32_of_Z_val 0 ltac:(lia)) as [F0 V0]. destruct (f32_of_Z_val cy ltac:(lia)) as [Fc Vc]. assert (R0 : rnd32 (0 + val y) = val y) by (rewrite Rplus_0_l; apply (rnd_fin 24 128); exact Fy).
  destruct (add_val 24 128 prec24 emax128 _ _ F0 Fy) as [Fz Vz]; [rewrite V0, R0; apply (fin_small 24 128); exact Fy|]. rewrite V0, R0 in Vz. change (SFadd 24 128 (f32_of_Z 0) y) with (f32_add (f32_of_Z 0) y) in *.
  assert (C : -7 <= IZR cy <= 25) by (split; apply IZR_le; lia).
  assert (M : Rabs (val s * IZR cy) <= bpow radix2 25).
  { rewrite Rabs_mult, (Rabs_pos_eq (val s)) by lra. change 25%Z with (20 + 5)%Z. rewrite bpow_plus. change (bpow radix2 5) with 32. apply Rmult_le_compat; [lra|apply Rabs_pos|lra|apply Rabs_le; lra]. }
  destruct (mul_val 24 128 prec24 emax128 _ _ Fs Fc) as [Fm Vm]; [rewrite Vc; apply (bound_small _ 25); [lia|exact M]|]. rewrite Vc in Vm. pose proof (rnd32_bound _ 25 ltac:(lia) M) as MB. apply Rabs_le_inv in MB.
  assert (T : IZR n * bpow radix2 25 <= bpow radix2 49) by (change 49%Z with (24 + 25)%Z; rewrite bpow_plus; apply Rmult_le_compat_r; [apply bpow_ge_0|change (bpow radix2 24) with (IZR (2 ^ 24)); apply IZR_le; lia]).
  assert (T2 : bpow radix2 25 <= bpow radix2 49) by (apply bpow_le; lia). assert (T3 : bpow radix2 50 = 2 * bpow radix2 49) by (change 50%Z with (1 + 49)%Z; rewrite bpow_plus; reflexivity).
  destruct (add_val 24 128 prec24 emax128 _ _ Fz Fm) as [Fp Vp]; [rewrite Vz, Vm; apply (bound_small _ 50); [lia|apply Rabs_le; lra]|]. rewrite Vz, Vm in Vp. split; [exact Fp|]. unfold f32_add at 1. unfold f32_mul. rewrite Vp.
  rewrite <- rnd32_zero. apply rnd32_le. assert (rnd32 (val s * IZR cy) <= pitch) by (apply rnd32_le, Rmult_le_compat_l; lra). lra.
Qed.
Lemma low_loop : forall tx dx str x y n, at_line n y -> (0 <= n)%Z -> (n + Z.of_nat (length str) <= 2 ^ 24)%Z -> val y <= - pitch ->
  forall l px py, In (l, px, py) (draw_loop s tx (f32_of_Z 0) dx str x y) -> fin32 py /\ val py <= 0.
Proof.
  intros tx dx. induction str as [|c str IH]; intros x y n A N0 N Lo l px py I; [destruct I|]. cbn [draw_loop] in I. cbn [length] in N. destruct (Z.eqb_spec c 10) as [->|Nc].
  - change (glyph_of 10) with (@None glyph) in I. assert (N1 : (n + 1 <= 2 ^ 24)%Z) by lia. destruct (down n y A N0 N1) as [A' Lo']. eapply (IH _ _ (n + 1)%Z A'); [lia|lia|exact Lo'|exact I].
  - destruct (glyph_of c) as [[g ops]|] eqn:E; [|eapply (IH _ _ n A); [lia|lia|exact Lo|exact I]]. apply in_app_iff in I. destruct I as [I|I]; [|eapply (IH _ _ n A); [lia|lia|exact Lo|exact I]].
    apply font_low in E. assert (N' : (0 <= n <= 2 ^ 24)%Z) by lia. exact (low_strokes _ _ _ _ n A N' Lo ops E _ _ _ _ I).
Qed.
Lemma loop_split : forall tx dx b a x y n, at_line n y -> (0 <= n)%Z -> (n + Z.of_nat (length a) <= 2 ^ 24)%Z ->
  exists x' y' m, draw_loop s tx (f32_of_Z 0) dx (a ++ b) x y = draw_loop s tx (f32_of_Z 0) dx a x y ++ draw_loop s tx (f32_of_Z 0) dx b x' y' /\
    at_line m y' /\ (0 <= m <= n + Z.of_nat (length a))%Z /\ (In 10%Z a \/ val y <= - pitch -> val y' <= - pitch).
Proof.
  intros tx dx b. induction a as [|c a IH]; intros x y n A N0 N; cbn [app draw_loop].
  { exists x, y, n. split; [reflexivity|]. split; [exact A|]. split; [cbn [length]; lia|]. intros [[]|L]; exact L. }
  cbn [length] in N. destruct (Z.eqb_spec c 10) as [->|Nc].
  - change (glyph_of 10) with (@None glyph). assert (N1 : (n + 1 <= 2 ^ 24)%Z) by lia. destruct (down n y A N0 N1) as [A' Lo']. cbv zeta in *.
    destruct (IH (f32_of_Z 0) (f32_sub y (f32_mul (f32_of_Z 30) s)) (n + 1)%Z A' ltac:(lia) ltac:(lia)) as (x' & y' & m & E & B & M & L). exists x', y', m. split; [exact E|]. split; [exact B|]. split; [cbn [length]; lia|]. intros _. apply L. now right.
  - assert (K : forall x0, exists x' y' m, draw_loop s tx (f32_of_Z 0) dx (a ++ b) x0 y = draw_loop s tx (f32_of_Z 0) dx a x0 y ++ draw_loop s tx (f32_of_Z 0) dx b x' y' /\ at_line m y' /\ (0 <= m <= n + Z.of_nat (S (length a)))%Z /\ (In 10%Z (c :: a) \/ val y <= - pitch -> val y' <= - pitch)).
    { intros x0. destruct (IH x0 y n A N0 ltac:(lia)) as (x' & y' & m & E & B & M & L). exists x', y', m. split; [exact E|]. split; [exact B|]. split; [lia|]. intros [[Q|Q]|Q]; apply L; [congruence|now left|now right]. }
    destruct (glyph_of c) as [[g ops]|]; [|apply K]. destruct (K (f32_add x (f32_mul s (f32_of_Z g)))) as (x' & y' & m & E & B). exists x', y', m. split; [rewrite E, app_assoc; reflexivity|exact B].
Qed.
End Lines.

(** All lines but the first are drawn below the position of the text: what comes after the end of a
    line, for text at 0, is not above 0. *)
Theorem C85_lines : forall first rest tx size, fin32 size -> 0 <= val size <= bpow radix2 20 -> (Z.of_nat (length (first ++ rest)) <= 2 ^ 24)%Z -> In 10%Z first ->
  exists after, draw_text (first ++ rest) tx (f32_of_Z 0) Left size = draw_text first tx (f32_of_Z 0) Left size ++ after /\
    forall l x y, In (l, x, y) after -> fin32 y /\ val y <= 0.
Proof.
  intros first rest tx size Fz Bz L I10. rewrite app_length in L. destruct (f32_of_Z_val 0 ltac:(lia)) as [F0 V0]. destruct (f32_of_Z_val 25 ltac:(lia)) as [F25 V25]. pose proof (bpow_gt_0 radix2 20) as P20.
  assert (DA : Rabs (val size / 25) <= bpow radix2 20) by (rewrite Rabs_pos_eq; lra).
  destruct (div_val 24 128 prec24 emax128 _ _ Fz F25) as [Fs Vs]; [rewrite V25; lra|rewrite V25; apply (bound_small _ 20); [lia|exact DA]|]. rewrite V25 in Vs.
  assert (Bs : 0 <= val (scale size) <= bpow radix2 20).
  { unfold scale, f32_div. rewrite Vs. split; [rewrite <- rnd32_zero; apply rnd32_le; lra|]. eapply Rle_trans; [apply Rle_abs|apply rnd32_bound; [lia|exact DA]]. }
  assert (A : at_line 0 (f32_of_Z 0)) by (split; [exact F0|rewrite V0; lra]).
  destruct (loop_split (scale size) Fs Bs tx (f32_of_Z 0) rest first (f32_of_Z 0) (f32_of_Z 0) 0 A (Z.le_refl 0) ltac:(lia)) as (x' & y' & m & E & B & M & Lo).
  exists (draw_loop (scale size) tx (f32_of_Z 0) (f32_of_Z 0) rest x' y'). split; [exact E|]. intros l x y I. eapply (low_loop (scale size) Fs Bs tx _ rest x' y' m B); [lia|lia|apply Lo; now left|exact I].
Qed.
Print Assumptions C85_lines.
(** "Hi" and "!" below. *)
Example C85_lines_example : hello = [72; 105; 10]%Z ++ [33]%Z /\ In 10%Z [72; 105; 10]%Z /\
  map snd (skipn 13 (draw_text hello (f32_of_Z 0) (f32_of_Z 0) Left (f32_of_Z 25))) = map f32_of_Z [-9; -23; -28; -29; -30; -29; -28]%Z.
Proof. split; [reflexivity|]. split; [cbn; tauto|]. vm_compute. reflexivity. Qed.

(** Every printable ASCII character apart from the space is drawn. *)
Theorem C85_visible : forall c tx ty a size, (33 <= c <= 126)%Z -> draw_text [c] tx ty a size <> [].
Proof.
  intros c tx ty a size C. unfold draw_text. cbn [draw_loop]. 
  assert (A : forallb (fun i => match glyph_of (33 + Z.of_nat i) with Some (_, (cx, cy) :: _) => negb ((cx =? -1) && (cy =? -1)) | _ => false end)%Z%bool (seq 0 94) = true) by (vm_compute; reflexivity).
  rewrite forallb_forall in A. specialize (A (Z.to_nat (c - 33))). rewrite in_seq in A. replace (33 + Z.of_nat (Z.to_nat (c - 33)))%Z with c in A by lia. specialize (A ltac:(lia)).
  destruct (glyph_of c) as [[g [|[cx cy] ops]]|]; try discriminate A. cbn [glyph_strokes]. apply negb_true_iff in A. rewrite A. discriminate.
Qed.
Print Assumptions C85_visible.
Example C85_visible_example : length (draw_text [126%Z] (f32_of_Z 3) (f32_of_Z 4) Center (f32_of_Z 25)) = 22%nat.
Proof. vm_compute. reflexivity. Qed.
