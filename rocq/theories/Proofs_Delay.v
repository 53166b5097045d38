(** The numbers that describe a ramp to the firmware, as real numbers. *)
From Coq Require Import SpecFloat Reals Lra.
From Flocq Require Import Core IEEE754.BinarySingleNaN.
From Verif Require Import Base Model_Float Model_MotorOps Model_Speed Spec_Real Proofs_Real Proofs_Ramp Proofs_Turn Proofs_Limits.
Open Scope Z_scope.
Open Scope R_scope.

Definition u : R := / 16777216.
Definition w : R := / 1000000000000000000000000000000.
Definition big : R := 1267650600228229401496703205376.
Definition p24 : Prec_gt_0 24 := eq_refl.
Definition l24 : Prec_lt_emax 24 128 := eq_refl.
Definition p53 : Prec_gt_0 53 := eq_refl.
Definition l53 : Prec_lt_emax 53 1024 := eq_refl.

Lemma big_eq : big = bpow radix2 100.
Proof. unfold big. cbn. reflexivity. Qed.

Lemma tiny_w : bpow radix2 (-100) <= w.
Proof. change (-100)%Z with (- (100))%Z. rewrite bpow_opp, <- big_eq. unfold big, w. lra. Qed.

Lemma r32 : forall r, 0 <= r <= big -> small 128 (rnd32 r) /\ 0 <= rnd32 r /\ Rabs (rnd32 r - r) <= u * r + w.
Proof.
  intros r [P B]. split; [apply (small_of 24 128 p24 100); [exps|rewrite Rabs_pos_eq by exact P; now rewrite <- big_eq]|].
  split; [now apply (rnd_pos 24 128 p24)|]. eapply Rle_trans; [apply rnd_error; exact p24|].
  rewrite (Rabs_pos_eq r) by exact P. change (bpow radix2 (- (24))) with u. apply Rplus_le_compat_l.
  apply Rle_trans with (bpow radix2 (-100)); [|exact tiny_w].
  apply Rle_trans with (bpow radix2 (SpecFloat.emin 24 128)); [pose proof (bpow_gt_0 radix2 (SpecFloat.emin 24 128)); lra|]. apply bpow_le. exps.
Qed.
Lemma r64 : forall r, 0 <= r <= big -> small 1024 (rnd64 r) /\ 0 <= rnd64 r /\ Rabs (rnd64 r - r) <= / 100000000 * u * r + w.
Proof.
  intros r [P B]. split; [apply (small_of 53 1024 p53 100); [exps|rewrite Rabs_pos_eq by exact P; now rewrite <- big_eq]|].
  split; [now apply (rnd_pos 53 1024 p53)|]. eapply Rle_trans; [apply rnd_error; exact p53|].
  rewrite (Rabs_pos_eq r) by exact P. change (bpow radix2 (- (53))) with (/ 9007199254740992). 
  apply Rplus_le_compat; [apply Rmult_le_compat_r; [exact P|unfold u; lra]|].
  apply Rle_trans with (bpow radix2 (-100)); [|exact tiny_w].
  apply Rle_trans with (bpow radix2 (SpecFloat.emin 53 1024)); [pose proof (bpow_gt_0 radix2 (SpecFloat.emin 53 1024)); lra|]. apply bpow_le. exps.
Qed.

(** ** Operations *)
Lemma mul32 : forall x y p, fin32 x -> fin32 y -> val x * val y = p -> 0 <= p <= big ->
  fin32 (f32_mul x y) /\ 0 <= val (f32_mul x y) /\ Rabs (val (f32_mul x y) - p) <= u * p + w.
Proof.
  intros x y p Fx Fy <- B. destruct (r32 _ B) as (S & P & E). destruct (mul_val 24 128 p24 l24 x y Fx Fy S) as [F V].
  unfold f32_mul. rewrite V. auto.
Qed.
Lemma sub32 : forall x y p, fin32 x -> fin32 y -> val x - val y = p -> 0 <= p <= big ->
  fin32 (f32_sub x y) /\ 0 <= val (f32_sub x y) /\ Rabs (val (f32_sub x y) - p) <= u * p + w.
Proof.
  intros x y p Fx Fy <- B. destruct (r32 _ B) as (S & P & E). destruct (sub_val 24 128 p24 l24 x y Fx Fy S) as [F V].
  unfold f32_sub. rewrite V. auto.
Qed.
Lemma div32 : forall x y p, fin32 x -> fin32 y -> 0 < val y -> val x / val y = p -> 0 <= p <= big ->
  fin32 (f32_div x y) /\ 0 <= val (f32_div x y) /\ Rabs (val (f32_div x y) - p) <= u * p + w.
Proof.
  intros x y p Fx Fy Y <- B. destruct (r32 _ B) as (S & P & E). destruct (div_val 24 128 p24 l24 x y Fx Fy ltac:(lra) S) as [F V].
  unfold f32_div. rewrite V. auto.
Qed.
Lemma sqrt32 : forall x, fin32 x -> 0 <= val x <= big ->
  fin32 (f32_sqrt x) /\ 0 <= val (f32_sqrt x) /\ Rabs (val (f32_sqrt x) - sqrt (val x)) <= u * sqrt (val x) + w.
Proof.
  intros x Fx B. destruct (sqrt_val32 x Fx (proj1 B)) as [F V]. rewrite V. split; [exact F|].
  assert (Q : 0 <= sqrt (val x) <= big).
  { split; [apply sqrt_pos|]. rewrite <- (sqrt_square big) by (unfold big; lra). apply sqrt_le_1_alt. unfold big in *. lra. }
  destruct (r32 _ Q) as (_ & P & E). auto.
Qed.

Lemma exact32 : forall x y z, fin32 x -> fin32 y -> val x * val y = IZR z -> (Z.abs z <= 2 ^ 24)%Z -> fin32 (f32_mul x y) /\ val (f32_mul x y) = IZR z.
Proof.
  intros x y z Fx Fy E B. assert (G : rnd32 (IZR z) = IZR z).
  { apply round_generic; [apply valid_rnd_N|]. apply IZR_format; try exact p24; try exact l24; lia. }
  destruct (mul_val 24 128 p24 l24 x y Fx Fy) as [F V].
  { rewrite E, G. apply (small_of_bound 128 _ 24); [lia| |lia]. rewrite <- abs_IZR. now apply IZR_le. }
  split; [exact F|]. unfold f32_mul. rewrite V, E. exact G.
Qed.

Lemma timer : fin64 TIMER_FREQUENCY /\ val TIMER_FREQUENCY = 100000000.
Proof.
  destruct (f64_of_Z_val 200000000 ltac:(lia)) as [F1 V1]. destruct (f64_of_Z_val 2 ltac:(lia)) as [F2 V2].
  assert (G : rnd64 (IZR 100000000) = IZR 100000000).
  { apply round_generic; [apply valid_rnd_N|]. apply IZR_format; try exact p53; try exact l53; lia. }
  assert (E : val (f64_of_Z 200000000) / val (f64_of_Z 2) = IZR 100000000) by (rewrite V1, V2; lra).
  destruct (div_val 53 1024 p53 l53 _ _ F1 F2) as [F V].
  { rewrite V2. lra. }
  { rewrite E, G. apply (small_of_bound 1024 _ 27); [lia| |lia]. rewrite <- abs_IZR. apply IZR_le. lia. }
  split; [exact F|]. unfold TIMER_FREQUENCY, f64_div. rewrite V, E. exact G.
Qed.

(** ** Relative errors *)
Definition near (e x y : R) : Prop := (1 - e) * y <= x <= (1 + e) * y.

Lemma near_of : forall e x y, Rabs (x - y) <= e * y -> near e x y.
Proof. intros e x y H. apply Rabs_le_inv in H. unfold near. lra. Qed.
Lemma near_weak : forall e f x y, near e x y -> e <= f -> 0 <= y -> near f x y.
Proof. intros e f x y H L P. unfold near in *. nra. Qed.
Lemma near_step : forall e f x y z, near f x y -> near e y z -> 0 <= z -> 0 <= e <= / 10 -> 0 <= f <= / 10 -> near (e + f + e * f) x z.
Proof. intros e f x y z [A B] [C D] P E F. unfold near. split; nra. Qed.
Lemma near_round : forall x r, / 1000000000 <= r -> Rabs (x - r) <= u * r + w -> near (2 * u) x r.
Proof. intros x r H E. apply near_of. eapply Rle_trans; [exact E|]. unfold u, w in *. lra. Qed.

(** ** The acceleration *)
Lemma accel_value : forall hi lo D H L A, fin32 hi -> fin32 lo -> val hi = H -> val lo = L -> 0 <= L < H -> H <= 300000 -> (1 <= D <= 32767)%Z ->
  A = (H * H - L * L) / (2 * IZR D) -> 10 <= A -> H * H <= 131071 * A ->
  let a := f32_div (f32_sub (sq hi) (sq lo)) (f32_mul (f32_of_Z 2) (f32_of_Z D)) in
  fin32 a /\ Rabs (val a - A) * (2 * IZR D) <= u * (H * H + L * L) + u * (4 * IZR D + 1) * A.
Proof.
  intros hi lo D H L A Fh Fl Vh Vl HL Hm HD EA HA HK a.
  assert (D1 : 1 <= IZR D <= 32767) by (split; apply IZR_le; lia).
  assert (EA2 : H * H - L * L = 2 * IZR D * A) by (rewrite EA; field; lra).
  assert (HH : 0 <= H * H <= 90000000000) by nra. assert (LL : 0 <= L * L <= H * H) by nra.
  destruct (mul32 hi hi (H * H) Fh Fh ltac:(now rewrite Vh) ltac:(unfold big; lra)) as (F1 & P1 & E1). fold (sq hi) in *.
  destruct (mul32 lo lo (L * L) Fl Fl ltac:(now rewrite Vl) ltac:(unfold big; lra)) as (F2 & P2 & E2). fold (sq lo) in *.
  apply Rabs_le_inv in E1, E2. set (s1 := val (sq hi)) in *. set (s2 := val (sq lo)) in *.
  set (DA := IZR D * A) in *. assert (DAp : A <= DA) by (unfold DA; nra). replace (2 * IZR D * A) with (2 * DA) in EA2 by (unfold DA; ring).
  assert (Q : u * (H * H) <= / 100 * A) by (unfold u; lra). assert (Q2 : u * (L * L) <= u * (H * H)) by (unfold u; lra).
  assert (W : w <= / 100000000000000000000 * A) by (unfold w; lra).
  destruct (sub32 (sq hi) (sq lo) (s1 - s2) F1 F2 eq_refl) as (F3 & P3 & E3); [unfold big, u, w in *; lra|].
  apply Rabs_le_inv in E3. set (d := val (f32_sub (sq hi) (sq lo))) in *.
  destruct (f32_of_Z_val 2 ltac:(lia)) as [F4 V4]. destruct (f32_of_Z_val D ltac:(lia)) as [F5 V5].
  destruct (exact32 (f32_of_Z 2) (f32_of_Z D) (2 * D) F4 F5 ltac:(rewrite V4, V5, mult_IZR; reflexivity) ltac:(lia)) as [F6 V6].
  rewrite mult_IZR in V6.
  assert (B7 : 0 <= d / (2 * IZR D) <= big).
  { split; [apply Rmult_le_pos; [exact P3|left; apply Rinv_0_lt_compat; lra]|]. apply Rmult_le_reg_r with (2 * IZR D); [lra|].
    unfold Rdiv. rewrite Rmult_assoc, Rinv_l by lra. assert (big * 2 <= big * (2 * IZR D)) by (apply Rmult_le_compat_l; [unfold big|]; lra). unfold big, u, w in *. lra. }
  destruct (div32 (f32_sub (sq hi) (sq lo)) (f32_mul (f32_of_Z 2) (f32_of_Z D)) (d / (2 * IZR D)) F3 F6 ltac:(rewrite V6; lra) ltac:(now rewrite V6) B7) as (F8 & P8 & E8).
  fold a in F8, P8, E8. split; [exact F8|].
  apply Rabs_le_inv in E8. set (x := val a) in *.
  assert (E9 : - (u * d + w * (2 * IZR D)) <= x * (2 * IZR D) - d <= u * d + w * (2 * IZR D)).
  { set (k := 2 * IZR D) in *. assert (K : 0 < k) by (unfold k; lra). assert (Ed : d = d / k * k) by (field; lra).
    set (q := d / k) in *. rewrite Ed. nra. }
  rewrite <- (Rabs_pos_eq (2 * IZR D)) at 1 by lra. rewrite <- Rabs_mult.
  replace ((x - A) * (2 * IZR D)) with (x * (2 * IZR D) - 2 * DA) by (unfold DA; ring).
  replace (u * (4 * IZR D + 1) * A) with (u * (4 * DA + A)) by (unfold DA; ring).
  assert (W2 : w * (2 * IZR D) <= / 1000000000000000 * A) by (unfold w in *; lra).
  apply Rabs_le. unfold u in *. lra.
Qed.

Lemma accel_error : forall H L A D a, (1 <= D <= 32767)%Z -> 10 <= A -> H * H - L * L = 2 * IZR D * A ->
  (H * H <= 65536 * A \/ L * L <= 65536 * A) -> 0 <= L < H ->
  Rabs (a - A) * (2 * IZR D) <= u * (H * H + L * L) + u * (4 * IZR D + 1) * A -> Rabs (a - A) * (2 * IZR D) <= 2 / 100 * A /\ Rabs (a - A) <= 4 / 1000 * A.
Proof.
  intros H L A D a HD HA EA HK HL E.
  assert (D1 : 1 <= IZR D <= 32767) by (split; apply IZR_le; lia). set (d := IZR D) in *.
  assert (DA : A <= d * A <= 32767 * A) by nra.
  assert (G : Rabs (a - A) * (2 * d) <= u * (131072 * A + 6 * (d * A) + A)).
  { eapply Rle_trans; [exact E|]. assert (S : H * H + L * L <= 131072 * A + 2 * (d * A)) by (destruct HK; lra).
    replace (u * (4 * d + 1) * A) with (u * (4 * (d * A) + A)) by ring. unfold u. lra. }
  split; [eapply Rle_trans; [exact G|]; unfold u; lra|]. pose proof (Rabs_pos (a - A)).
  apply Rmult_le_reg_r with (2 * d); [lra|]. eapply Rle_trans; [exact G|]. replace (4 / 1000 * A * (2 * d)) with (8 / 1000 * (d * A)) by field. unfold u. lra.
Qed.

(** ** The index *)
Lemma two32 : forall a, fin32 a -> 0 <= val a <= 1000000000000 -> 1 <= val a -> fin32 (f32_mul (f32_of_Z 2) a) /\ near (2 * u) (val (f32_mul (f32_of_Z 2) a)) (2 * val a).
Proof.
  intros a F B O. destruct (f32_of_Z_val 2 ltac:(lia)) as [F2 V2].
  destruct (mul32 (f32_of_Z 2) a (2 * val a) F2 F ltac:(now rewrite V2) ltac:(unfold big; lra)) as (G & _ & E). split; [exact G|].
  apply near_round; [lra|exact E].
Qed.

Lemma index_value : forall v0 a X, fin32 v0 -> fin32 a -> val v0 = X -> 0 <= X <= 300000 -> 9 <= val a <= 1000000000000 -> X * X <= 66200 * val a ->
  exists n, round2int (f32_mul (f32_of_Z LOOPS_PER_STEP) (f32_div (sq (f32_sub v0 (f32_of_Z 0))) (f32_mul (f32_of_Z 2) a))) = Some n /\
    Rabs (IZR n * val a - X * X) <= 53 / 100 * val a /\ (0 <= n)%Z.
Proof.
  intros v0 a X Fv Fa Vv BX Ba HK. destruct (f32_of_Z_val 0 ltac:(lia)) as [F0 V0].
  assert (S0 : fin32 (f32_sub v0 (f32_of_Z 0)) /\ val (f32_sub v0 (f32_of_Z 0)) = X).
  { assert (E : val v0 - val (f32_of_Z 0) = val v0) by (rewrite V0; lra). assert (G : rnd32 (val v0) = val v0) by (apply rnd_fin; exact Fv).
    destruct (sub_val 24 128 p24 l24 v0 (f32_of_Z 0) Fv F0) as [F V]; [rewrite E, G; exact (fin_small 24 128 v0 Fv)|].
    split; [exact F|]. unfold f32_sub. rewrite V, E, G. exact Vv. }
  destruct S0 as [Fs Vs]. assert (XX : 0 <= X * X <= 90000000000) by nra.
  destruct (mul32 _ _ (X * X) Fs Fs ltac:(now rewrite Vs) ltac:(unfold big; lra)) as (F1 & P1 & E1). fold (sq (f32_sub v0 (f32_of_Z 0))) in *.
  destruct (two32 a Fa ltac:(lra) ltac:(lra)) as (F2 & N2).
  set (q := sq (f32_sub v0 (f32_of_Z 0))) in *. set (b := f32_mul (f32_of_Z 2) a) in *. set (A := val a) in *.
  assert (Pb : 17 <= val b) by (destruct N2 as [N _]; unfold u in N; nra).
  (* the quotient, as a number [r] with [r * val b = val q] *)
  assert (Bq : 0 <= val q / val b <= big).
  { split; [apply Rmult_le_pos; [exact P1|left; apply Rinv_0_lt_compat; lra]|]. apply Rmult_le_reg_r with (val b); [lra|].
    unfold Rdiv. rewrite Rmult_assoc, Rinv_l by lra. apply Rabs_le_inv in E1. unfold big, u, w in *. nra. }
  destruct (div32 q b _ F1 F2 ltac:(lra) eq_refl Bq) as (F3 & P3 & E3).
  assert (Eq : val q / val b * val b = val q) by (field; lra).
  set (r := val q / val b) in *. set (y := val (f32_div q b)) in *.
  apply Rabs_le_inv in E1, E3. destruct N2 as [N2a N2b].
  (* r against X^2 / (2 A) *)
  assert (Rb : r <= 33200) by (unfold u, w in *; nra).
  assert (R1 : - (15 / 1000 * A) <= r * (2 * A) - X * X <= 15 / 1000 * A).
  { assert (r * val b <= r * ((1 + 2 * u) * (2 * A))) by (apply Rmult_le_compat_l; [apply Bq|exact N2b]).
    assert (r * ((1 - 2 * u) * (2 * A)) <= r * val b) by (apply Rmult_le_compat_l; [apply Bq|exact N2a]).
    assert (rA : r * A <= 33200 * A) by (apply Rmult_le_compat_r; lra). assert (rA0 : 0 <= r * A) by (apply Rmult_le_pos; lra).
    unfold u, w in *. lra. }
  destruct (f32_of_Z_val 2 ltac:(lia)) as [F4 V4].
  destruct (mul32 (f32_of_Z 2) (f32_div q b) (2 * y) F4 F3 ltac:(now rewrite V4) ltac:(unfold big, u, w in *; lra)) as (F5 & P5 & E5).
  change LOOPS_PER_STEP with 2%Z. set (z := f32_mul (f32_of_Z 2) (f32_div q b)) in *. apply Rabs_le_inv in E5.
  destruct (round_val 24 128 z F5) as (n & En & Bn). apply Rabs_le_inv in Bn.
  assert (Z1 : - (/ 100) <= val z - 2 * r <= / 100) by (unfold u, w in *; lra).
  assert (N0 : (0 <= n)%Z). { apply Z.lt_succ_r. unfold Z.succ. apply lt_IZR. rewrite plus_IZR. simpl. lra. }
  assert (N1 : (n <= 100000)%Z) by (apply le_IZR; lra).
  exists n. split; [|split; [|exact N0]].
  - unfold round2int. rewrite En. unfold to_int. replace ((- 2 ^ 31 <=? n)%Z && (n <=? 2 ^ 31 - 1)%Z)%bool with true by lia. reflexivity.
  - apply Rabs_le. nra.
Qed.

(** ** The delay *)
Lemma near_sqrt : forall e x y, 0 <= e <= 1 -> 0 <= y -> near e x (y * y) -> near e (sqrt x) y.
Proof.
  intros e x y E Y [A B]. split.
  - rewrite <- (sqrt_square ((1 - e) * y)) by nra. apply sqrt_le_1_alt. nra.
  - rewrite <- (sqrt_square ((1 + e) * y)) by nra. apply sqrt_le_1_alt. nra.
Qed.
Lemma near_scale : forall e k x y, 0 <= k -> near e x y -> near e (k * x) (k * y).
Proof. intros e k x y K [A B]. unfold near. split; nra. Qed.

Lemma near64 : forall x r, / 1000000000 <= r -> Rabs (x - r) <= / 100000000 * u * r + w -> near u x r.
Proof. intros x r H E. apply near_of. eapply Rle_trans; [exact E|]. unfold u, w in *. lra. Qed.

Lemma factor_value : forall a s, fin32 a -> 9 <= val a <= 1000000000000 -> 0 < s -> s * s = val a ->
  let c := f32_of_f64 (f64_div (f64_mul TIMER_FREQUENCY (f64_of_f32 (f32_sqrt (f32_div (f32_mul (f32_of_Z LOOPS_PER_STEP) (f32_of_Z 2)) a)))) (f64_of_Z LOOPS_PER_STEP)) in
  fin32 c /\ near (10 * u) (val c) (100000000 / s).
Proof.
  intros a s Fa Ba Ps Es c. change LOOPS_PER_STEP with 2%Z in c.
  assert (Bs : 3 <= s <= 1000000) by (split; nra).
  assert (Is : / 1000000 <= / s <= / 3) by (split; apply Rinv_le; lra). set (i := / s) in *. assert (Ei : i * s = 1) by (unfold i; field; lra).
  destruct (f32_of_Z_val 2 ltac:(lia)) as [F2 V2].
  destruct (exact32 _ _ 4 F2 F2 ltac:(rewrite V2; lra) ltac:(lia)) as [F4 V4].
  assert (E4 : 4 / val a = 2 * i * (2 * i)) by (rewrite <- Es; unfold i; field; lra).
  destruct (div32 _ a (2 * i * (2 * i)) F4 Fa ltac:(lra) ltac:(rewrite V4; exact E4) ltac:(unfold big; nra)) as (Fq & Pq & Eq).
  set (q := f32_div (f32_mul (f32_of_Z 2) (f32_of_Z 2)) a) in *.
  assert (Nq : near (2 * u) (val q) (2 * i * (2 * i))).
  { apply near_of. eapply Rle_trans; [exact Eq|]. assert (/ 1000000000000 <= i * i) by nra. unfold u, w. nra. }
  assert (Bq : 0 <= val q <= big) by (split; [exact Pq|]; destruct Nq as [_ N]; unfold big, u in *; nra).
  apply near_sqrt in Nq; [|unfold u; lra|lra].
  destruct (sqrt32 q Fq Bq) as (Fr & Pr & Er). set (r := f32_sqrt q) in *.
  assert (Sr : / 1000000000 <= sqrt (val q)) by (destruct Nq as [N _]; unfold u in N; nra).
  assert (Nr : near (5 * u) (val r) (2 * i)).
  { eapply near_weak; [apply (near_step (2 * u) (2 * u) _ _ _ (near_round _ _ Sr Er) Nq)| |]; unfold u; lra. }
  destruct (f64_of_f32_val r Fr) as [Fd Vd]. destruct timer as [Ft Vt].
  assert (Br : 0 <= val r <= 1) by (destruct Nr as [A B]; unfold u in *; nra).
  destruct (r64 (100000000 * val r) ltac:(unfold big; lra)) as (S1 & P1 & E1).
  destruct (mul_val 53 1024 p53 l53 TIMER_FREQUENCY (f64_of_f32 r) Ft Fd) as [Fm Vm]; [rewrite Vt, Vd; exact S1|].
  rewrite Vt, Vd in Vm. set (m := SFmul 53 1024 TIMER_FREQUENCY (f64_of_f32 r)) in *. rewrite <- Vm in *.
  assert (Lr : / 1000000000 <= 100000000 * val r) by (destruct Nr as [N _]; unfold u in N; nra).
  assert (Nm : near (7 * u) (val m) (100000000 * (2 * i))).
  { eapply near_weak; [apply (near_step (5 * u) u _ _ _ (near64 _ _ Lr E1)); [apply near_scale; [lra|exact Nr]| | |]| |]; unfold u; lra. }
  destruct (f64_of_Z_val 2 ltac:(lia)) as [G2 W2].
  assert (Bm : 0 <= val m / 2 <= big) by (destruct Nm as [A B]; unfold u, big in *; nra).
  destruct (r64 (val m / 2) Bm) as (S2 & P2 & E2).
  destruct (div_val 53 1024 p53 l53 m (f64_of_Z 2) Fm G2 ltac:(rewrite W2; lra)) as [Fx Vx]; [rewrite W2; exact S2|]. rewrite W2 in Vx.
  set (x := SFdiv 53 1024 m (f64_of_Z 2)) in *. rewrite <- Vx in *.
  assert (Lm : / 1000000000 <= val m / 2) by (destruct Nm as [A B]; unfold u in *; nra).
  assert (Nm2 : near (7 * u) (val m / 2) (100000000 * i)) by (destruct Nm as [A B]; unfold near in *; lra).
  assert (Nx : near (805 / 100 * u) (val x) (100000000 * i)).
  { eapply near_weak; [apply (near_step (7 * u) u _ _ _ (near64 _ _ Lm E2) Nm2)| |]; unfold u; lra. }
  assert (Bx : 0 <= val x <= big) by (destruct Nx as [A B]; unfold u, big in *; nra).
  destruct (r32 (val x) Bx) as (S3 & P3 & E3). destruct (f32_of_f64_val x Fx S3) as [Fc Vc].
  change (f32_of_f64 x) with c in Fc, Vc. split; [exact Fc|]. rewrite Vc.
  assert (Lx : 1 <= val x) by (destruct Nx as [A B]; unfold u in *; nra).
  replace (100000000 / s) with (100000000 * i) by (unfold i; field; lra).
  assert (N3 : near (11 / 10 * u) (rnd32 (val x)) (val x)) by (apply near_of; unfold u, w in *; lra).
  eapply near_weak; [apply (near_step (805 / 100 * u) (11 / 10 * u) _ _ _ N3 Nx)| |]; unfold u; lra.
Qed.

Definition K : R := 3200000000.

Lemma round32 : forall x, fin32 x -> 0 <= val x <= 2000000000 -> exists h, round2int x = Some h /\ Rabs (IZR h - val x) <= / 2 /\ (0 <= h)%Z.
Proof.
  intros x F B. destruct (round_val 24 128 x F) as (h & E & R). exists h. pose proof R as R'. apply Rabs_le_inv in R'.
  assert (N0 : (0 <= h)%Z). { apply Z.lt_succ_r. unfold Z.succ. apply lt_IZR. rewrite plus_IZR. simpl. lra. }
  assert (N1 : (h <= 2000000001)%Z) by (apply le_IZR; lra).
  split; [|auto]. unfold round2int. rewrite E. unfold to_int. replace ((- 2 ^ 31 <=? h)%Z && (h <=? 2 ^ 31 - 1)%Z)%bool with true by lia. reflexivity.
Qed.

Lemma mul_near : forall x y e f X Y, fin32 x -> fin32 y -> near e (val x) X -> near f (val y) Y -> 0 <= e <= / 50 -> 0 <= f <= / 50 -> 0 <= X -> 0 <= Y -> / 100000000 <= X * Y <= 1000000000000 ->
  fin32 (f32_mul x y) /\ near (e + f + e * f + 3 * u) (val (f32_mul x y)) (X * Y).
Proof.
  intros x y e f X Y Fx Fy [A B] [C D] E F PX PY BXY.
  assert (P1 : val x * val y <= (1 + e) * X * ((1 + f) * Y)) by (apply Rmult_le_compat; nra).
  assert (P2 : (1 - e) * X * ((1 - f) * Y) <= val x * val y) by (apply Rmult_le_compat; nra).
  assert (N : near (e + f + e * f) (val x * val y) (X * Y)) by (unfold near; split; nra).
  assert (B2 : 0 <= val x * val y <= big) by (split; [nra|unfold big; destruct N; nra]).
  destruct (mul32 x y _ Fx Fy eq_refl B2) as (G & _ & V). split; [exact G|].
  assert (Lo : / 1000000000 <= val x * val y) by (destruct N; nra).
  eapply near_weak; [apply (near_step (e + f + e * f) (2 * u) _ _ _ (near_round _ _ Lo V) N)| |]; try (unfold u; nra); lra.
Qed.

Lemma hires_zero : forall a s, fin32 a -> 9 <= val a <= 1000000000000 -> 0 < s -> s * s = val a ->
  exists h, round2int (f32_mul (f32_of_Z 32) (calcAccelerationCurveValueAt 0 a)) = Some h /\ Rabs (IZR h * s - 67605 / 100000 * K) <= / 1000 * K /\ (0 <= h)%Z.
Proof.
  intros a s Fa Ba Ps Es. destruct (factor_value a s Fa Ba Ps Es) as (Fc & Nc). unfold calcAccelerationCurveValueAt.
  change (0 =? 0)%Z with true. cbv iota. set (c := f32_of_f64 _) in *.
  assert (O : f32_sub (f32_sqrt (f32_of_Z (0 + 1))) (f32_sqrt (f32_of_Z 0)) = f32_of_Z 1) by (vm_compute; reflexivity). rewrite O. clear O.
  assert (Bs : 3 <= s <= 1000000) by (split; nra).
  assert (Is : / 1000000 <= / s <= / 3) by (split; apply Rinv_le; lra).
  replace (100000000 / s) with (100000000 * / s) in Nc by (field; lra). set (i := / s) in *. assert (Ei : i * s = 1) by (unfold i; field; lra).
  destruct (f32_of_Z_val 1 ltac:(lia)) as [F1 V1]. destruct (f32_of_Z_val 32 ltac:(lia)) as [F32 V32].
  destruct (f32_of_Z_val 67605 ltac:(lia)) as [Fn Vn]. destruct (f32_of_Z_val 100000 ltac:(lia)) as [Fd Vd].
  destruct (div32 _ _ (67605 / 100000) Fn Fd ltac:(rewrite Vd; lra) ltac:(now rewrite Vn, Vd) ltac:(unfold big; lra)) as (Fk & _ & Ek).
  apply near_round in Ek; [|lra].
  destruct (mul_near _ _ _ _ _ _ Fc Fk Nc Ek ltac:(unfold u; lra) ltac:(unfold u; lra) ltac:(lra) ltac:(lra) ltac:(lra)) as (Fm & Nm).
  assert (N1 : near 0 (val (f32_of_Z 1)) 1) by (rewrite V1; unfold near; lra).
  apply (near_weak _ (20 * u)) in Nm; [|unfold u; lra|lra].
  destruct (mul_near _ _ _ _ _ _ Fm F1 Nm N1 ltac:(unfold u; lra) ltac:(lra) ltac:(lra) ltac:(lra) ltac:(lra)) as (Fo & No).
  apply (near_weak _ (25 * u)) in No; [|unfold u; lra|lra].
  assert (N2 : near 0 (val (f32_of_Z 32)) 32) by (rewrite V32; unfold near; lra).
  destruct (mul_near _ _ _ _ _ _ F32 Fo N2 No ltac:(lra) ltac:(unfold u; lra) ltac:(lra) ltac:(lra) ltac:(lra)) as (Fp & Np).
  apply (near_weak _ (30 * u)) in Np; [|unfold u; lra|lra].
  set (p := f32_mul (f32_of_Z 32) _) in *. destruct Np as [Na Nb].
  destruct (round32 p Fp ltac:(unfold u in *; lra)) as (h & E & R & P). exists h. split; [exact E|]. split; [|exact P].
  apply Rabs_le_inv in R. unfold K. apply Rabs_le. unfold u in *. nra.
Qed.

Lemma root_diff : forall n, (1 <= n <= 66000)%Z -> let d := f32_sub (f32_sqrt (f32_of_Z (n + 1))) (f32_sqrt (f32_of_Z n)) in
  fin32 d /\ near (158 / 10000) (val d) (/ (sqrt (IZR (n + 1)) + sqrt (IZR n))).
Proof.
  intros n Hn d. assert (In : 1 <= IZR n <= 66000) by (split; apply IZR_le; lia).
  destruct (f32_of_Z_val n ltac:(lia)) as [Fn Vn]. destruct (f32_of_Z_val (n + 1) ltac:(lia)) as [Fm Vm]. rewrite plus_IZR in *.
  destruct (sqrt32 _ Fm ltac:(rewrite Vm; unfold big; simpl; lra)) as (F1 & P1 & E1). destruct (sqrt32 _ Fn ltac:(rewrite Vn; unfold big; lra)) as (F2 & P2 & E2).
  rewrite Vm in E1. rewrite Vn in E2. change (IZR 1) with 1 in *.
  assert (Sp : sqrt (IZR n + 1) * sqrt (IZR n + 1) = IZR n + 1) by (apply sqrt_sqrt; lra).
  assert (Sq : sqrt (IZR n) * sqrt (IZR n) = IZR n) by (apply sqrt_sqrt; lra).
  pose proof (sqrt_pos (IZR n + 1)) as Pp. pose proof (sqrt_pos (IZR n)) as Pq.
  set (p := sqrt (IZR n + 1)) in *. set (q := sqrt (IZR n)) in *.
  assert (Bp : 1 <= p <= 257) by (split; nra). assert (Bq : 1 <= q <= 257) by (split; nra). assert (Dpq : (p - q) * (p + q) = 1) by nra.
  assert (SS : (p + q) * (p + q) <= 264002) by nra.
  assert (Ei : / (p + q) = p - q) by (apply Rmult_eq_reg_r with (p + q); [rewrite Rinv_l by lra; lra|lra]).
  rewrite Ei. assert (Lo : / 514 <= p - q) by (rewrite <- Ei; apply Rinv_le; lra). assert (Up : p - q <= / 2) by (rewrite <- Ei; apply Rinv_le; lra).
  apply Rabs_le_inv in E1, E2. set (x := val (f32_sqrt (f32_of_Z (n + 1)))) in *. set (y := val (f32_sqrt (f32_of_Z n))) in *.
  destruct (sub32 _ _ (x - y) F1 F2 eq_refl ltac:(unfold big, u, w in *; lra)) as (Fd & Pd & Ed). fold d in Fd, Pd, Ed. split; [exact Fd|].
  apply Rabs_le_inv in Ed. set (z := val d) in *.
  (* u (p + q) is at most u 264002 (p - q) *)
  assert (Key : p + q <= 264002 * (p - q)).
  { apply Rmult_le_reg_r with (p + q); [lra|]. rewrite Rmult_assoc, Dpq. lra. }
  unfold near. unfold u, w in *. split; lra.
Qed.

Lemma hires_more : forall n a s, (1 <= n <= 66000)%Z -> fin32 a -> 9 <= val a <= 1000000000000 -> 0 < s -> s * s = val a -> val a * (4 * IZR n + 2) <= 1000000000000 ->
  exists h, round2int (f32_mul (f32_of_Z 32) (calcAccelerationCurveValueAt n a)) = Some h /\
    near (17 / 1000) (IZR h * s * (sqrt (IZR (n + 1)) + sqrt (IZR n))) K /\ (0 <= h)%Z.
Proof.
  intros n a s Hn Fa Ba Ps Es HK. destruct (factor_value a s Fa Ba Ps Es) as (Fc & Nc). unfold calcAccelerationCurveValueAt.
  replace (n =? 0)%Z with false by lia. cbv iota. set (c := f32_of_f64 _) in *.
  destruct (root_diff n Hn) as (Fd & Nd). set (d := f32_sub _ _) in *.
  assert (In : 1 <= IZR n <= 66000) by (split; apply IZR_le; lia). rewrite plus_IZR in *. change (IZR 1) with 1 in *.
  assert (Sp : sqrt (IZR n + 1) * sqrt (IZR n + 1) = IZR n + 1) by (apply sqrt_sqrt; lra).
  assert (Sq : sqrt (IZR n) * sqrt (IZR n) = IZR n) by (apply sqrt_sqrt; lra).
  pose proof (sqrt_pos (IZR n + 1)) as Pp. pose proof (sqrt_pos (IZR n)) as Pq.
  set (p := sqrt (IZR n + 1)) in *. set (q := sqrt (IZR n)) in *. assert (Bp : 1 <= p <= 257) by (split; nra). assert (Bq : 1 <= q <= 257) by (split; nra).
  assert (Bs : 3 <= s <= 1000000) by (split; nra).
  assert (Is : / 1000000 <= / s <= / 3) by (split; apply Rinv_le; lra).
  replace (100000000 / s) with (100000000 * / s) in Nc by (field; lra). set (i := / s) in *. assert (Ei : i * s = 1) by (unfold i; field; lra).
  set (t := p + q) in *. assert (It : / 514 <= / t <= / 2) by (split; apply Rinv_le; unfold t; lra). set (j := / t) in *. assert (Ej : j * t = 1) by (unfold j, t; field; lra).
  assert (Tt : t * t <= 4 * IZR n + 2) by (unfold t; nra).
  assert (St : s * t <= 1000000). { assert (0 <= s * t) by (unfold t; nra). assert ((s * t) * (s * t) <= 1000000000000) by (replace (s * t * (s * t)) with (s * s * (t * t)) by ring; rewrite Es; nra). nra. }
  assert (IJ : 0 <= i * j <= / 6) by (split; nra).
  assert (IJl : / 1000000 <= i * j). { apply Rmult_le_reg_r with (s * t); [unfold t; nra|]. replace (i * j * (s * t)) with (i * s * (j * t)) by ring. rewrite Ei, Ej. lra. }
  destruct (mul_near _ _ _ _ _ _ Fc Fd Nc Nd ltac:(unfold u; lra) ltac:(lra) ltac:(lra) ltac:(lra) ltac:(lra)) as (Fm & Nm).
  apply (near_weak _ (159 / 10000)) in Nm; [|unfold u; lra|lra].
  destruct (f32_of_Z_val 32 ltac:(lia)) as [F32 V32]. assert (N2 : near 0 (val (f32_of_Z 32)) 32) by (rewrite V32; unfold near; lra).
  destruct (mul_near _ _ _ _ _ _ F32 Fm N2 Nm ltac:(lra) ltac:(lra) ltac:(lra) ltac:(lra) ltac:(lra)) as (Fp & Np).
  apply (near_weak _ (16 / 1000)) in Np; [|unfold u; lra|lra].
  set (m := f32_mul (f32_of_Z 32) _) in *. destruct Np as [Na Nb].
  destruct (round32 m Fp ltac:(lra)) as (h & E & R & P). exists h. split; [exact E|]. split; [|exact P].
  apply Rabs_le_inv in R.
  assert (M : near (16 / 1000) (val m * (s * t)) K).
  { assert (E1 : 32 * (100000000 * i * j) * (s * t) = K) by (replace (32 * (100000000 * i * j) * (s * t)) with (3200000000 * (i * s) * (j * t)) by ring; rewrite Ei, Ej; unfold K; lra).
    assert (S0 : 0 <= s * t) by (unfold t; nra). unfold near. rewrite <- E1. split.
    - replace ((1 - 16 / 1000) * (32 * (100000000 * i * j) * (s * t))) with ((1 - 16 / 1000) * (32 * (100000000 * i * j)) * (s * t)) by ring. now apply Rmult_le_compat_r.
    - replace ((1 + 16 / 1000) * (32 * (100000000 * i * j) * (s * t))) with ((1 + 16 / 1000) * (32 * (100000000 * i * j)) * (s * t)) by ring. now apply Rmult_le_compat_r. }
  replace (IZR h * s * t) with (IZR h * (s * t)) by ring.
  assert (Q : - (/ 2 * (s * t)) <= IZR h * (s * t) - val m * (s * t) <= / 2 * (s * t)).
  { assert (0 <= s * t) by (unfold t; nra). split; nra. }
  unfold near, K in *. lra.
Qed.

(** ** All of it *)
Record ramp_ok (X A : R) (D n h : Z) (a s : R) : Prop := {
  ro_s : 0 < s; ro_a : s * s = a; ro_range : 9 <= a <= 50000000000;
  ro_err : Rabs (a - A) * (2 * IZR D) <= 2 / 100 * A;
  ro_n : (0 <= n <= 66000)%Z; ro_h : (0 <= h)%Z;
  ro_index : Rabs (IZR n * a - X * X) <= 53 / 100 * a;
  ro_zero : n = 0%Z -> Rabs (IZR h * s - 67605 / 100000 * K) <= / 1000 * K;
  ro_more : (1 <= n)%Z -> near (17 / 1000) (IZR h * s * (sqrt (IZR (n + 1)) + sqrt (IZR n))) K }.

Lemma ramp_params : forall v0 hi lo D, fin32 v0 -> fin32 hi -> fin32 lo -> 0 <= val lo < val hi -> val hi <= 300000 -> (1 <= D <= 32767)%Z ->
  (val v0 = val hi \/ val v0 = val lo) ->
  let A := (val hi * val hi - val lo * val lo) / (2 * IZR D) in
  10 <= A -> val v0 * val v0 <= 65536 * A ->
  exists n h a s, ieee_ramp v0 hi lo D = Some (n, h) /\ ramp_ok (val v0) A D n h a s /\ (val v0 = val hi -> (2 * D <= n)%Z).
Proof.
  intros v0 hi lo D Fv Fh Fl HL Hm HD HX A HA HK.
  set (X := val v0) in *. set (H := val hi) in *. set (L := val lo) in *.
  assert (D1 : 1 <= IZR D <= 32767) by (split; apply IZR_le; lia).
  assert (EA : H * H - L * L = 2 * IZR D * A) by (unfold A; field; lra).
  assert (DA : A <= IZR D * A <= 32767 * A) by nra.
  assert (HK2 : H * H <= 131071 * A) by (destruct HX as [->| ->] in *; lra).
  assert (HK3 : H * H <= 65536 * A \/ L * L <= 65536 * A) by (destruct HX as [E|E]; rewrite E in HK; auto).
  destruct (accel_value hi lo D H L A Fh Fl eq_refl eq_refl HL Hm HD eq_refl HA HK2) as (Fa & Ea).
  destruct (accel_error H L A D _ HD HA EA HK3 HL Ea) as (Ea1 & Ea2).
  unfold ieee_ramp. set (a := f32_div _ (f32_mul (f32_of_Z 2) (f32_of_Z D))) in *.
  pose proof Ea2 as Ea3. apply Rabs_le_inv in Ea3.
  assert (HH : H * H <= 90000000000) by nra. assert (L2 : 0 <= L * L) by nra.
  assert (Ba : 9 <= val a <= 50000000000) by lra.
  assert (BX : 0 <= X <= 300000) by (destruct HX as [E|E]; rewrite E; lra).
  destruct (index_value v0 a X Fv Fa eq_refl BX ltac:(lra) ltac:(lra)) as (n & En & Rn & Pn). rewrite En.
  assert (XX : X * X <= 90000000000) by nra.
  pose proof Rn as Rn'. apply Rabs_le_inv in Rn'.
  assert (Un : (n <= 66000)%Z).
  { apply le_IZR. apply Rmult_le_reg_r with (val a); [lra|]. lra. }
  pose proof (sqrt_sqrt (val a) ltac:(lra)) as Ss. assert (Ps : 0 < sqrt (val a)) by (apply sqrt_lt_R0; lra).
  assert (G : X = H -> (2 * D <= n)%Z).
  { intros E. rewrite E in Rn'. apply Z.lt_succ_r. unfold Z.succ. apply lt_IZR. rewrite mult_IZR, plus_IZR. change (IZR 1) with 1. change (IZR 2) with 2.
    apply Rmult_lt_reg_r with (val a); [lra|].
    assert (2 * IZR D * (val a - A) <= u * (H * H + L * L) + u * (4 * IZR D + 1) * A).
    { eapply Rle_trans; [|exact Ea]. rewrite (Rmult_comm (Rabs _)). apply Rmult_le_compat_l; [lra|]. apply Rle_abs. }
    replace (u * (4 * IZR D + 1) * A) with (u * (4 * (IZR D * A) + A)) in * by ring.
    unfold u in *. lra. }
  destruct (Z.eq_dec n 0) as [Z0|Z0].
  - subst n. destruct (hires_zero a (sqrt (val a)) Fa ltac:(lra) Ps Ss) as (h & Eh & Rh & Ph). rewrite Eh.
    exists 0%Z, h, (val a), (sqrt (val a)). split; [reflexivity|]. split; [|exact G]. constructor; auto. lia.
  - destruct (hires_more n a (sqrt (val a)) ltac:(lia) Fa ltac:(lra) Ps Ss) as (h & Eh & Rh & Ph); [lra|]. rewrite Eh.
    exists n, h, (val a), (sqrt (val a)). split; [reflexivity|]. split; [|exact G]. constructor; auto. intros; lia.
Qed.
