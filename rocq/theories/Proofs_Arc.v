(** Proofs about arcs and splines. *)
From Coq Require Import Reals Lra SpecFloat.
From Flocq Require Import Core IEEE754.BinarySingleNaN.
From Verif Require Import Base Model_Float Model_Axis Model_Gcode Model_Arc Spec_Real Proofs_Real Spec_Arc Proofs_Circle.
Open Scope Z_scope.

(** ** Delivery *)
Lemma accepted_nil : forall answer h, all_accepted answer h [].
Proof. intros answer h [|] x back E; discriminate. Qed.
Lemma accepted_cons : forall answer h x l, answer (x :: h) = true -> all_accepted answer (x :: h) l -> all_accepted answer h (x :: l).
Proof.
  intros answer h x l A H front y back E. destruct front as [|z front]; cbn [app] in E; injection E as -> E; [exact A|].
  cbn [rev]. rewrite <- app_assoc. cbn [app]. exact (H front y back E).
Qed.
Section Loops.
Variable m : libm.
Variable answer : moves -> bool.
Variable feed : fl.
(** The moves of a loop: all accepted, or the last one refused. *)
Definition loop_result (h : moves) (ok : bool) (l : moves) : Prop :=
  if ok then all_accepted answer h l
  else exists front last, l = front ++ [last] /\ all_accepted answer h front /\ answer (last :: rev front ++ h) = false.
Lemma loop_cons : forall h x l ok, answer (x :: h) = true -> loop_result (x :: h) ok l -> loop_result h ok (x :: l).
Proof.
  intros h x l [] A H; cbn [loop_result] in *; [now apply accepted_cons|]. destruct H as (front & last & -> & H1 & H2).
  exists (x :: front), last. split; [reflexivity|]. split; [now apply accepted_cons|]. cbn [rev]. rewrite <- app_assoc. exact H2.
Qed.
Lemma loop_refused : forall h x, answer (x :: h) = false -> loop_result h false [x].
Proof. intros h x A. exists [], x. repeat split; auto. apply accepted_nil. Qed.
Definition point0 (o0 o1 c0 theta : fl) (i : Z) : fl :=
  f32_add c0 (f32_add (f32_mul (SFopp o0) (m_cos m (f32_mul (f32_of_Z i) theta))) (f32_mul o1 (m_sin m (f32_mul (f32_of_Z i) theta)))).
Definition point1 (o0 o1 c1 theta : fl) (i : Z) : fl :=
  f32_add c1 (f32_sub (f32_mul (SFopp o0) (m_sin m (f32_mul (f32_of_Z i) theta))) (f32_mul o1 (m_cos m (f32_mul (f32_of_Z i) theta)))).
Fixpoint advance (k : nat) (x step : fl) : fl := match k with O => x | S k => advance k (f32_add x step) step end.
Lemma arc_loop_spec : forall p0 p1 p2 o0 o1 c0 c1 theta linear other, (p0, p1, p2) = (AX, AY, AZ) \/ (p0, p1, p2) = (AY, AZ, AX) \/ (p0, p1, p2) = (AX, AZ, AY) ->
  linear = other p2 ->
  forall n i pos h, exists l, snd (arc_loop m answer feed n i p0 p1 p2 o0 o1 c0 c1 theta linear other pos h) = rev l ++ h /\
  loop_result h (fst (arc_loop m answer feed n i p0 p1 p2 o0 o1 c0 c1 theta linear other pos h)) l /\ (length l <= n)%nat /\
  (fst (arc_loop m answer feed n i p0 p1 p2 o0 o1 c0 c1 theta linear other pos h) = true -> length l = n) /\
  forall k x, nth_error l k = Some x -> fst x = feed /\ snd x p0 = point0 o0 o1 c0 theta (i + Z.of_nat k) /\ snd x p1 = point1 o0 o1 c1 theta (i + Z.of_nat k) /\
    forall a, a <> p0 -> a <> p1 -> snd x a = advance (S k) (pos a) (other a).
Proof.
  intros p0 p1 p2 o0 o1 c0 c1 theta linear other HP ->. induction n as [|n IH]; intros i pos h.
  - exists []. cbn [arc_loop fst snd rev app]. split; [reflexivity|]. split; [apply accepted_nil|]. split; [auto|]. split; [auto|]. intros [|k] x; discriminate.
  - cbn [arc_loop]. unfold segment_output at 1 2 3.
    match goal with |- context [(feed, ?p) :: h] => set (pos' := p : axes) end.
    assert (P : pos' p0 = point0 o0 o1 c0 theta i /\ pos' p1 = point1 o0 o1 c1 theta i /\ forall a, a <> p0 -> a <> p1 -> pos' a = f32_add (pos a) (other a)).
    { destruct HP as [E|[E|E]]; injection E as -> -> ->; (split; [reflexivity|]); (split; [reflexivity|]); intros [] N0 N1; try congruence; reflexivity. }
    clearbody pos'. destruct (answer ((feed, pos') :: h)) eqn:A; cbv beta iota.
    + destruct (IH (i + 1) pos' ((feed, pos') :: h)) as (l & E1 & E2 & E3 & E5 & E4). exists ((feed, pos') :: l). split; [rewrite E1; cbn [rev]; now rewrite <- app_assoc|].
      split; [now apply loop_cons|]. split; [cbn [length]; lia|]. split; [intros T; cbn [length]; rewrite (E5 T); reflexivity|]. intros [|k] x K; cbn [nth_error] in K.
      * injection K as <-. cbn [fst snd]. rewrite Z.add_0_r. split; [reflexivity|exact P].
      * destruct (E4 k x K) as (F & A0 & A1 & A2). replace (i + Z.of_nat (S k)) with (i + 1 + Z.of_nat k) by lia. split; [exact F|]. split; [exact A0|]. split; [exact A1|].
        intros a N0 N1. rewrite (A2 a N0 N1), (proj2 (proj2 P) a N0 N1). reflexivity.
    + exists [(feed, pos')]. cbn [fst snd rev app]. split; [reflexivity|]. split; [now apply loop_refused|]. split; [cbn; lia|]. split; [discriminate|].
      intros [|[|k]] x K; cbn [nth_error] in K; try discriminate. injection K as <-. cbn [fst snd]. rewrite Z.add_0_r. split; [reflexivity|exact P].
Qed.
Lemma finish : forall h l goal, all_accepted answer h l -> delivered answer h goal (l ++ [goal]) (answer (goal :: rev l ++ h)).
Proof. intros h l goal H. exists l, goal. repeat split; auto. Qed.

(** ** The loop of a spline *)
Fixpoint times (fuel : nat) (t : fl) : option (list fl) :=
  if SFltb t f1 then match fuel with O => None | S f => option_map (cons t) (times f (f32_add t hundredth)) end else Some [].
Lemma spline_loop_spec : forall start cp1 cp2 target fuel t ts h, times fuel t = Some ts ->
  exists ok l h', spline_loop answer feed fuel t start cp1 cp2 target h = Some (ok, h') /\ h' = rev l ++ h /\ loop_result h ok l /\ (ok = true -> length l = length ts) /\
  forall k x, nth_error l k = Some x -> exists t, nth_error ts k = Some t /\ x = (feed, calc_bezier_point t start cp1 cp2 target).
Proof.
  intros start cp1 cp2 target. induction fuel as [|fuel IH]; intros t ts h T; cbn [times spline_loop] in *.
  - destruct (SFltb t f1); [discriminate|]. injection T as <-. exists true, [], h. split; [reflexivity|]. split; [reflexivity|]. split; [apply accepted_nil|]. split; [auto|]. intros [|k] x; discriminate.
  - destruct (SFltb t f1).
    + destruct (times fuel (f32_add t hundredth)) as [ts'|] eqn:T'; [|discriminate]. cbn [option_map] in T. injection T as <-. unfold segment_output.
      destruct (answer _) eqn:A.
      * destruct (IH _ _ ((feed, calc_bezier_point t start cp1 cp2 target) :: h) T') as (ok & l & h' & E & Eh & L & N & K). rewrite E.
        exists ok, ((feed, calc_bezier_point t start cp1 cp2 target) :: l), h'. split; [reflexivity|]. split; [rewrite Eh; cbn [rev]; now rewrite <- app_assoc|].
        split; [now apply loop_cons|]. split; [intros O; cbn [length]; rewrite N; auto|]. intros [|k] x X; cbn [nth_error] in *; [injection X as <-; eauto|auto].
      * exists false, [(feed, calc_bezier_point t start cp1 cp2 target)]. eexists. split; [reflexivity|]. split; [reflexivity|]. split; [now apply loop_refused|]. split; [discriminate|].
        intros [|[|k]] x X; cbn [nth_error] in *; try discriminate. injection X as <-. eauto.
    + injection T as <-. exists true, [], h. split; [reflexivity|]. split; [reflexivity|]. split; [apply accepted_nil|]. split; [auto|]. intros [|k] x; discriminate.
Qed.
End Loops.

(** ** Rounding errors *)
Section Errors.
Open Scope R_scope.
Definition approx (x : fl) (X B e : R) : Prop := fin32 x /\ Rabs X <= B /\ near e (val x) X.
Lemma approx_bounds : forall x X B e, approx x X B e -> - B <= X <= B /\ X - e <= val x <= X + e.
Proof. intros x X B e (_ & A & N). unfold near in N. apply Rabs_le_inv in A. apply Rabs_le_inv in N. lra. Qed.
Lemma approx_intro : forall x X B e, fin32 x -> - B <= X <= B -> X - e <= val x <= X + e -> approx x X B e.
Proof. intros x X B e F A N. split; [exact F|]. split; [apply Rabs_le; lra|]. unfold near. apply Rabs_le. lra. Qed.
Lemma small_rnd : forall r, Rabs r <= 67108864 -> Rabs (rnd32 r - r) <= / 16777216 * (Rabs r + / 2) /\ small 128 (rnd32 r).
Proof.
  intros r H. pose proof (rnd32_error r) as E. split; [lra|]. apply (small_of_bound 128 _ 27); [lia| |lia]. change (2 ^ 27)%Z with 134217728%Z.
  apply Rabs_le_inv in H. apply Rabs_le_inv in E. assert (Rabs r <= 67108864) by (apply Rabs_le; lra). apply Rabs_le. lra.
Qed.
Lemma mul_abs : forall a b A B, Rabs a <= A -> Rabs b <= B -> Rabs (a * b) <= A * B.
Proof. intros a b A B Ha Hb. rewrite Rabs_mult. apply Rmult_le_compat; auto using Rabs_pos. Qed.
Lemma approx_mul : forall x y X Y BX BY ex ey B e, approx x X BX ex -> approx y Y BY ey -> (BX + ex) * (BY + ey) <= 67108864 -> BX * BY <= B ->
  / 16777216 * ((BX + ex) * (BY + ey) + / 2) + (BX + ex) * ey + BY * ex <= e -> approx (f32_mul x y) (X * Y) B e.
Proof.
  intros x y X Y BX BY ex ey B e (Fx & Bx & Nx) (Fy & By & Ny) L HB He. unfold near in *.
  assert (Vx : Rabs (val x) <= BX + ex) by (replace (val x) with (X + (val x - X)) by lra; eapply Rle_trans; [apply Rabs_triang|lra]).
  assert (Vy : Rabs (val y) <= BY + ey) by (replace (val y) with (Y + (val y - Y)) by lra; eapply Rle_trans; [apply Rabs_triang|lra]).
  pose proof (mul_abs _ _ _ _ Vx Vy) as M. destruct (small_rnd (val x * val y) ltac:(lra)) as (E & S).
  destruct (mul_val 24 128 _ _ x y Fx Fy S) as (F & V). split; [exact F|]. split; [eapply Rle_trans; [apply mul_abs; eassumption|exact HB]|].
  unfold near. unfold f32_mul. rewrite V. replace (rnd32 (val x * val y) - X * Y) with ((rnd32 (val x * val y) - val x * val y) + (val x * (val y - Y) + (val x - X) * Y)) by lra.
  eapply Rle_trans; [apply Rabs_triang|]. pose proof (mul_abs _ _ _ _ Vx Ny) as M1. pose proof (mul_abs _ _ _ _ Nx By) as M2.
  pose proof (Rabs_triang (val x * (val y - Y)) ((val x - X) * Y)) as M3. lra.
Qed.
Lemma approx_add : forall x y X Y BX BY ex ey B e, approx x X BX ex -> approx y Y BY ey -> Rabs (X + Y) <= B -> B + ex + ey <= 67108864 ->
  / 16777216 * (B + ex + ey + / 2) + ex + ey <= e -> approx (f32_add x y) (X + Y) B e.
Proof.
  intros x y X Y BX BY ex ey B e (Fx & Bx & Nx) (Fy & By & Ny) HB L He. unfold near in *.
  assert (M : Rabs (val x + val y) <= B + ex + ey).
  { replace (val x + val y) with ((X + Y) + ((val x - X) + (val y - Y))) by lra. eapply Rle_trans; [apply Rabs_triang|].
    pose proof (Rabs_triang (val x - X) (val y - Y)). lra. }
  destruct (small_rnd (val x + val y) ltac:(lra)) as (E & S). destruct (add_val 24 128 _ _ x y Fx Fy S) as (F & V). split; [exact F|]. split; [exact HB|].
  unfold near. unfold f32_add. rewrite V. replace (rnd32 (val x + val y) - (X + Y)) with ((rnd32 (val x + val y) - (val x + val y)) + ((val x - X) + (val y - Y))) by lra.
  eapply Rle_trans; [apply Rabs_triang|]. pose proof (Rabs_triang (val x - X) (val y - Y)). lra.
Qed.
Lemma approx_sub : forall x y X Y BX BY ex ey B e, approx x X BX ex -> approx y Y BY ey -> Rabs (X - Y) <= B -> B + ex + ey <= 67108864 ->
  / 16777216 * (B + ex + ey + / 2) + ex + ey <= e -> approx (f32_sub x y) (X - Y) B e.
Proof.
  intros x y X Y BX BY ex ey B e (Fx & Bx & Nx) (Fy & By & Ny) HB L He. unfold near in *.
  assert (M : Rabs (val x - val y) <= B + ex + ey).
  { replace (val x - val y) with ((X - Y) + ((val x - X) + - (val y - Y))) by lra. eapply Rle_trans; [apply Rabs_triang|].
    pose proof (Rabs_triang (val x - X) (- (val y - Y))). rewrite Rabs_Ropp in *. lra. }
  destruct (small_rnd (val x - val y) ltac:(lra)) as (E & S). destruct (sub_val 24 128 _ _ x y Fx Fy S) as (F & V). split; [exact F|]. split; [exact HB|].
  unfold near. unfold f32_sub. rewrite V. replace (rnd32 (val x - val y) - (X - Y)) with ((rnd32 (val x - val y) - (val x - val y)) + ((val x - X) + - (val y - Y))) by lra.
  eapply Rle_trans; [apply Rabs_triang|]. pose proof (Rabs_triang (val x - X) (- (val y - Y))). rewrite Rabs_Ropp in *. lra.
Qed.
Lemma approx_opp : forall x X B e, approx x X B e -> approx (SFopp x) (- X) B e.
Proof.
  intros x X B e (F & A & N). destruct (opp_val 24 128 x F) as (F' & V). split; [exact F'|]. split; [now rewrite Rabs_Ropp|]. unfold near in *. rewrite V.
  replace (- val x - - X) with (- (val x - X)) by lra. now rewrite Rabs_Ropp.
Qed.
Lemma approx_exact : forall x B, fin32 x -> Rabs (val x) <= B -> approx x (val x) B 0.
Proof. intros x B F A. split; [exact F|]. split; [exact A|]. unfold near. rewrite Rminus_diag_eq by reflexivity. rewrite Rabs_R0. lra. Qed.
Lemma approx_weak : forall x X B e B' e', approx x X B e -> B <= B' -> e <= e' -> approx x X B' e'.
Proof. intros x X B e B' e' (F & A & N) HB He. split; [exact F|]. unfold near in *. split; lra. Qed.

(** A point of the arc *)
Lemma point_near : forall m (s0 s1 c0 c1 : fl) C S A, metre s0 -> metre s1 -> metre c0 -> metre c1 -> good_trig m ->
  fin32 A -> Rabs (val A) <= 7 -> C = m_cos m A -> S = m_sin m A ->
  let o0 := f32_sub c0 s0 in let o1 := f32_sub c1 s1 in
  turned (/ 100) (val c0) (val c1) (val s0) (val s1) (val A)
    (val (f32_add (f32_add s0 o0) (f32_add (f32_mul (SFopp o0) C) (f32_mul o1 S))))
    (val (f32_add (f32_add s1 o1) (f32_sub (f32_mul (SFopp o0) S) (f32_mul o1 C)))).
Proof.
  intros m s0 s1 c0 c1 C S A (Fs0 & Bs0) (Fs1 & Bs1) (Fc0 & Bc0) (Fc1 & Bc1) (G & _ & _) FA BA -> -> o0 o1.
  destruct (G A FA BA) as (FC & NC & FS & NS). clear G.
  pose proof (approx_exact _ _ Fs0 Bs0) as As0. pose proof (approx_exact _ _ Fs1 Bs1) as As1. pose proof (approx_exact _ _ Fc0 Bc0) as Ac0. pose proof (approx_exact _ _ Fc1 Bc1) as Ac1.
  assert (D : forall a b, Rabs a <= 1024 -> Rabs b <= 1024 -> Rabs (a - b) <= 2048) by (intros a b Ha Hb; apply Rabs_le_inv in Ha, Hb; apply Rabs_le; lra).
  assert (O0 : approx o0 (val c0 - val s0) 2048 (13 / 100000)) by (eapply approx_sub; [exact Ac0|exact As0|auto|lra|lra]).
  assert (O1 : approx o1 (val c1 - val s1) 2048 (13 / 100000)) by (eapply approx_sub; [exact Ac1|exact As1|auto|lra|lra]).
  assert (TC : approx (m_cos m A) (cos (val A)) 1 (/ 1000000)) by (split; [exact FC|]; split; [apply Rabs_le; pose proof (COS_bound (val A)); lra|exact NC]).
  assert (TS : approx (m_sin m A) (sin (val A)) 1 (/ 1000000)) by (split; [exact FS|]; split; [apply Rabs_le; pose proof (SIN_bound (val A)); lra|exact NS]).
  assert (K0 : approx (f32_add s0 o0) (val s0 + (val c0 - val s0)) 1024 (2 / 10000)) by (eapply approx_add; [exact As0|exact O0| |lra|lra]; replace (val s0 + (val c0 - val s0)) with (val c0) by lra; exact Bc0).
  assert (K1 : approx (f32_add s1 o1) (val s1 + (val c1 - val s1)) 1024 (2 / 10000)) by (eapply approx_add; [exact As1|exact O1| |lra|lra]; replace (val s1 + (val c1 - val s1)) with (val c1) by lra; exact Bc1).
  pose proof (approx_opp _ _ _ _ O0) as M0.
  assert (P1 : approx (f32_mul (SFopp o0) (m_cos m A)) (- (val c0 - val s0) * cos (val A)) 2048 (24 / 10000)) by (eapply approx_mul; [exact M0|exact TC|lra|lra|lra]).
  assert (P2 : approx (f32_mul o1 (m_sin m A)) ((val c1 - val s1) * sin (val A)) 2048 (24 / 10000)) by (eapply approx_mul; [exact O1|exact TS|lra|lra|lra]).
  assert (P3 : approx (f32_mul (SFopp o0) (m_sin m A)) (- (val c0 - val s0) * sin (val A)) 2048 (24 / 10000)) by (eapply approx_mul; [exact M0|exact TS|lra|lra|lra]).
  assert (P4 : approx (f32_mul o1 (m_cos m A)) ((val c1 - val s1) * cos (val A)) 2048 (24 / 10000)) by (eapply approx_mul; [exact O1|exact TC|lra|lra|lra]).
  assert (T1 : forall a b A B, Rabs a <= A -> Rabs b <= B -> Rabs (a + b) <= A + B) by (intros; eapply Rle_trans; [apply Rabs_triang|lra]).
  assert (T2 : forall a b A B, Rabs a <= A -> Rabs b <= B -> Rabs (a - b) <= A + B) by (intros; unfold Rminus; eapply Rle_trans; [apply Rabs_triang|rewrite Rabs_Ropp; lra]).
  assert (Q1 : approx (f32_add (f32_mul (SFopp o0) (m_cos m A)) (f32_mul o1 (m_sin m A))) (- (val c0 - val s0) * cos (val A) + (val c1 - val s1) * sin (val A)) 4096 (52 / 10000))
    by (eapply approx_add; [exact P1|exact P2|eapply Rle_trans; [apply T1; [apply P1|apply P2]|lra]|lra|lra]).
  assert (Q2 : approx (f32_sub (f32_mul (SFopp o0) (m_sin m A)) (f32_mul o1 (m_cos m A))) (- (val c0 - val s0) * sin (val A) - (val c1 - val s1) * cos (val A)) 4096 (52 / 10000))
    by (eapply approx_sub; [exact P3|exact P4|eapply Rle_trans; [apply T2; [apply P3|apply P4]|lra]|lra|lra]).
  split.
  - assert (R : approx (f32_add (f32_add s0 o0) (f32_add (f32_mul (SFopp o0) (m_cos m A)) (f32_mul o1 (m_sin m A))))
      (val s0 + (val c0 - val s0) + (- (val c0 - val s0) * cos (val A) + (val c1 - val s1) * sin (val A))) 5120 (/ 100))
      by (eapply approx_add; [exact K0|exact Q1|eapply Rle_trans; [apply T1; [apply K0|apply Q1]|lra]|lra|lra]).
    destruct R as (_ & _ & N). unfold near in *. match goal with |- Rabs (_ - ?b) <= _ => replace b with (val s0 + (val c0 - val s0) + (- (val c0 - val s0) * cos (val A) + (val c1 - val s1) * sin (val A))) by lra end. exact N.
  - assert (R : approx (f32_add (f32_add s1 o1) (f32_sub (f32_mul (SFopp o0) (m_sin m A)) (f32_mul o1 (m_cos m A))))
      (val s1 + (val c1 - val s1) + (- (val c0 - val s0) * sin (val A) - (val c1 - val s1) * cos (val A))) 5120 (/ 100))
      by (eapply approx_add; [exact K1|exact Q2|eapply Rle_trans; [apply T1; [apply K1|apply Q2]|lra]|lra|lra]).
    destruct R as (_ & _ & N). unfold near in *. match goal with |- Rabs (_ - ?b) <= _ => replace b with (val s1 + (val c1 - val s1) + (- (val c0 - val s0) * sin (val A) - (val c1 - val s1) * cos (val A))) by lra end. exact N.
Qed.

(** The angle of a point *)
Lemma two_pi_val : fin64 two_pi64 /\ 628318 / 100000 <= val two_pi64 <= 628319 / 100000.
Proof.
  assert (E : two_pi64 = S754_finite false 7074237752028440 (-50)) by (vm_compute; reflexivity). rewrite E. split; [split; reflexivity|].
  unfold val, SF2R, F2R. cbn [Fnum Fexp cond_Zopp]. replace (bpow radix2 (-50)) with (/ 1125899906842624) by reflexivity. lra.
Qed.
Lemma small_rnd64 : forall r, Rabs r <= 16 -> Rabs (rnd64 r - r) <= / 100000000 /\ small 1024 (rnd64 r).
Proof.
  intros r H. pose proof (rnd64_error r) as E. split; [lra|]. apply (small_of_bound 1024 _ 5); [lia| |lia]. change (2 ^ 5)%Z with 32%Z.
  apply Rabs_le_inv in H. apply Rabs_le_inv in E. assert (Rabs r <= 16) by (apply Rabs_le; lra). apply Rabs_le. lra.
Qed.
Lemma f0_val : fin32 f0 /\ val f0 = 0.
Proof. split; [split; reflexivity|]. reflexivity. Qed.
Lemma atan_range : forall m y x, good_trig m -> fin32 y -> fin32 x -> fin32 (m_atan2 m y x) /\ -(315 / 100) <= val (m_atan2 m y x) <= 315 / 100.
Proof.
  intros m y x (_ & G & _) Fy Fx. destruct (G y x Fy Fx) as (F & a & Ba & _ & _ & N). split; [exact F|]. pose proof pi_bounds. unfold near in N. apply Rabs_le_inv in N. lra.
Qed.
Lemma angle_range : forall m cw r0 r1 rt0 rt1, good_trig m -> (forall x, In x [r0; r1; rt0; rt1] -> fin32 x /\ Rabs (val x) <= 4096) ->
  fin32 (angular_travel m cw r0 r1 rt0 rt1) /\
  if cw then - (63 / 10) <= val (angular_travel m cw r0 r1 rt0 rt1) < 0 else 0 < val (angular_travel m cw r0 r1 rt0 rt1) <= 63 / 10.
Proof.
  intros m cw r0 r1 rt0 rt1 G0 B. pose proof (fun y x => atan_range m y x G0) as G.
  assert (Ap : forall x, In x [r0; r1; rt0; rt1] -> approx x (val x) 4096 0) by (intros x I; destruct (B x I); now apply approx_exact).
  assert (P : forall x y, In x [r0; r1; rt0; rt1] -> In y [r0; r1; rt0; rt1] -> approx (f32_mul x y) (val x * val y) 16777216 2)
    by (intros x y Ix Iy; eapply approx_mul; [apply Ap, Ix|apply Ap, Iy|lra|lra|lra]).
  assert (T1 : forall a b A B, Rabs a <= A -> Rabs b <= B -> Rabs (a + b) <= A + B) by (intros; eapply Rle_trans; [apply Rabs_triang|lra]).
  assert (T2 : forall a b A B, Rabs a <= A -> Rabs b <= B -> Rabs (a - b) <= A + B) by (intros; unfold Rminus; eapply Rle_trans; [apply Rabs_triang|rewrite Rabs_Ropp; lra]).
  assert (I0 : In r0 [r0; r1; rt0; rt1]) by (cbn; auto). assert (I1 : In r1 [r0; r1; rt0; rt1]) by (cbn; auto).
  assert (I2 : In rt0 [r0; r1; rt0; rt1]) by (cbn; auto). assert (I3 : In rt1 [r0; r1; rt0; rt1]) by (cbn; auto).
  assert (F1 : fin32 (f32_sub (f32_mul r0 rt1) (f32_mul r1 rt0))).
  { eapply (approx_sub _ _ _ _ _ _ _ _ 33554432 10); [apply (P r0 rt1)|apply (P r1 rt0)| | |]; auto; try lra. eapply Rle_trans; [apply T2; [apply (P r0 rt1)|apply (P r1 rt0)]|]; auto; lra. }
  assert (F2 : fin32 (f32_add (f32_mul r0 rt0) (f32_mul r1 rt1))).
  { eapply (approx_add _ _ _ _ _ _ _ _ 33554432 10); [apply (P r0 rt0)|apply (P r1 rt1)| | |]; auto; try lra. eapply Rle_trans; [apply T1; [apply (P r0 rt0)|apply (P r1 rt1)]|]; auto; lra. }
  destruct (G _ _ F1 F2) as (FA & BA). unfold angular_travel. set (a := m_atan2 m _ _) in *. clearbody a.
  destruct (f64_of_f32_val a FA) as (Fa & Va). destruct two_pi_val as (Fp & Bp). destruct f0_val as (F0 & V0).
  destruct cw.
  - destruct (SFleb f0 a) eqn:L.
    + apply (leb_le 24 128) in L; [|exact F0|exact FA]. rewrite V0 in L.
      destruct (small_rnd64 (val (f64_of_f32 a) - val two_pi64)) as (E & S); [rewrite Va; apply Rabs_le; lra|].
      destruct (sub_val 53 1024 _ _ _ _ Fa Fp S) as (F & V). fold f64_sub in F, V. apply Rabs_le_inv in E. rewrite <- V, Va in E.
      destruct (small_rnd (val (f64_sub (f64_of_f32 a) two_pi64))) as (E' & S'); [apply Rabs_le; lra|].
      destruct (f32_of_f64_val _ F S') as (F' & V'). split; [exact F'|]. rewrite V'. assert (Rabs (val (f64_sub (f64_of_f32 a) two_pi64)) <= 7) by (apply Rabs_le; lra). apply Rabs_le_inv in E'. lra.
    + split; [exact FA|]. rewrite (leb_val 24 128) in L by assumption. destruct (Rle_bool_spec (val f0) (val a)) as [|Q]; [discriminate|]. rewrite V0 in Q. lra.
  - destruct (SFleb a f0) eqn:L.
    + apply (leb_le 24 128) in L; [|exact FA|exact F0]. rewrite V0 in L.
      destruct (small_rnd64 (val (f64_of_f32 a) + val two_pi64)) as (E & S); [rewrite Va; apply Rabs_le; lra|].
      destruct (add_val 53 1024 _ _ _ _ Fa Fp S) as (F & V). fold f64_add in F, V. apply Rabs_le_inv in E. rewrite <- V, Va in E.
      destruct (small_rnd (val (f64_add (f64_of_f32 a) two_pi64))) as (E' & S'); [apply Rabs_le; lra|].
      destruct (f32_of_f64_val _ F S') as (F' & V'). split; [exact F'|]. rewrite V'. assert (Rabs (val (f64_add (f64_of_f32 a) two_pi64)) <= 7) by (apply Rabs_le; lra). apply Rabs_le_inv in E'. lra.
    + split; [exact FA|]. rewrite (leb_val 24 128) in L by assumption. destruct (Rle_bool_spec (val a) (val f0)) as [|Q]; [discriminate|]. rewrite V0 in Q. lra.
Qed.
Lemma int_val : forall n, (1 <= n < 2 ^ 31)%Z -> fin32 (f32_of_Z n) /\ val (f32_of_Z n) = rnd32 (IZR n) /\ 1 <= rnd32 (IZR n) <= 4294967296.
Proof.
  intros n H. assert (B : 1 <= IZR n <= 2147483648) by (split; apply IZR_le; lia).
  assert (L : 1 <= rnd32 (IZR n)).
  { destruct (f32_of_Z_val 1 ltac:(lia)) as (F & V). rewrite <- V, <- (rnd_fin 24 128 _ F), V. apply rnd_le; auto with typeclass_instances. lra. }
  assert (U : rnd32 (IZR n) <= 4294967296).
  { pose proof (rnd32_error (IZR n)) as E. rewrite (Rabs_pos_eq (IZR n)) in E by lra. apply Rabs_le_inv in E. lra. }
  assert (N : F2R (Float radix2 n 0) = IZR n) by (unfold F2R; cbn [Fnum Fexp bpow]; lra).
  destruct (normalize_val 24 128 _ _ n 0 false) as (F & V).
  - rewrite N. apply (small_of_bound 128 _ 32); [lia| |lia]. change (2 ^ 32)%Z with 4294967296%Z. apply Rabs_le. lra.
  - rewrite N in V. split; [exact F|]. split; [exact V|]. lra.
Qed.
Lemma tiny : / 2 * bpow radix2 (SpecFloat.emin 24 128) <= / 1000000000000000000000.
Proof.
  assert (bpow radix2 (SpecFloat.emin 24 128) <= bpow radix2 (-70)) by (apply bpow_le; unfold SpecFloat.emin; lia).
  replace (bpow radix2 (-70)) with (/ 1180591620717411303424) in H by reflexivity. lra.
Qed.
Lemma segment_angle : forall ang n i, fin32 ang -> Rabs (val ang) <= 63 / 10 -> (1 <= i < n)%Z -> (n < 2 ^ 31)%Z ->
  let A := f32_mul (f32_of_Z i) (f32_div ang (f32_of_Z n)) in
  fin32 A /\ Rabs (val A) <= 64 / 10 /\ val A = rnd32 (rnd32 (IZR i) * rnd32 (val ang / rnd32 (IZR n))).
Proof.
  intros ang n i FA BA Hi Hn A. destruct (int_val n) as (Fn & Vn & Bn); [lia|]. destruct (int_val i) as (Fi & Vi & Bi); [lia|].
  set (N := rnd32 (IZR n)) in *. set (I := rnd32 (IZR i)) in *.
  assert (IN : I <= N) by (apply rnd_le; auto with typeclass_instances; apply IZR_le; lia).
  assert (Q : Rabs (val ang / N) <= 63 / 10 / N).
  { unfold Rdiv. rewrite Rabs_mult, (Rabs_pos_eq (/ N)) by (left; apply Rinv_0_lt_compat; lra). apply Rmult_le_compat_r; [left; apply Rinv_0_lt_compat; lra|exact BA]. }
  assert (Q1 : 63 / 10 / N <= 63 / 10).
  { unfold Rdiv at 1. rewrite <- (Rmult_1_r (63 / 10)) at 2. apply Rmult_le_compat_l; [lra|]. rewrite <- Rinv_1. apply Rinv_le; lra. }
  destruct (small_rnd (val ang / N)) as (_ & S); [lra|].
  destruct (div_val 24 128 _ _ ang (f32_of_Z n) FA Fn) as (Fd & Vd); [rewrite Vn; lra|rewrite Vn; exact S|]. fold f32_div in Fd, Vd. rewrite Vn in Vd.
  pose proof (rnd_error 24 128 _ (val ang / N)) as E. pose proof tiny as T. change (bpow radix2 (- (24))) with (/ 16777216) in E.
  set (D := rnd32 (val ang / N)) in *.
  assert (BD : Rabs D <= 63 / 10 / N * (1 + / 16777216) + / 1000000000000000000000).
  { replace D with ((D - val ang / N) + val ang / N) by lra. eapply Rle_trans; [apply Rabs_triang|]. lra. }
  assert (BID : Rabs (I * D) <= 631 / 100).
  { rewrite Rabs_mult, (Rabs_pos_eq I) by lra. apply Rle_trans with (N * (63 / 10 / N * (1 + / 16777216) + / 1000000000000000000000)).
    - apply Rmult_le_compat; [lra|apply Rabs_pos|exact IN|exact BD].
    - replace (N * (63 / 10 / N * (1 + / 16777216) + / 1000000000000000000000)) with (63 / 10 * (1 + / 16777216) + N * / 1000000000000000000000) by (field; lra). lra. }
  destruct (small_rnd (I * D)) as (E2 & S2); [lra|].
  destruct (mul_val 24 128 _ _ (f32_of_Z i) (f32_div ang (f32_of_Z n)) Fi Fd) as (Fm & Vm); [rewrite Vi, Vd; exact S2|]. fold f32_mul in Fm, Vm. fold A in Fm, Vm. rewrite Vi, Vd in Vm.
  split; [exact Fm|]. split; [|exact Vm]. rewrite Vm. replace (rnd32 (I * D)) with ((rnd32 (I * D) - I * D) + I * D) by lra. eapply Rle_trans; [apply Rabs_triang|]. lra.
Qed.
Lemma angle_order : forall ang n i j, val ang <= 0 -> (1 <= i <= j)%Z -> (j < 2 ^ 31)%Z -> (1 <= n < 2 ^ 31)%Z ->
  rnd32 (rnd32 (IZR j) * rnd32 (val ang / rnd32 (IZR n))) <= rnd32 (rnd32 (IZR i) * rnd32 (val ang / rnd32 (IZR n))) <= 0.
Proof.
  intros ang n i j HA Hij Hj Hn. destruct (int_val n Hn) as (_ & _ & Bn). destruct (int_val i ltac:(lia)) as (_ & _ & Bi). destruct (int_val j ltac:(lia)) as (_ & _ & Bj).
  assert (IJ : rnd32 (IZR i) <= rnd32 (IZR j)) by (apply rnd_le; auto with typeclass_instances; apply IZR_le; lia).
  assert (D0 : rnd32 (val ang / rnd32 (IZR n)) <= 0).
  { rewrite <- (rnd_0 24 128). apply rnd_le; auto with typeclass_instances. unfold Rdiv. assert (0 < / rnd32 (IZR n)) by (apply Rinv_0_lt_compat; lra). nra. }
  set (D := rnd32 (val ang / rnd32 (IZR n))) in *. split; [apply rnd_le; auto with typeclass_instances; nra|].
  rewrite <- (rnd_0 24 128). apply rnd_le; auto with typeclass_instances. nra.
Qed.
Lemma angle_order' : forall ang n i j, 0 <= val ang -> (1 <= i <= j)%Z -> (j < 2 ^ 31)%Z -> (1 <= n < 2 ^ 31)%Z ->
  0 <= rnd32 (rnd32 (IZR i) * rnd32 (val ang / rnd32 (IZR n))) <= rnd32 (rnd32 (IZR j) * rnd32 (val ang / rnd32 (IZR n))).
Proof.
  intros ang n i j HA Hij Hj Hn. destruct (int_val n Hn) as (_ & _ & Bn). destruct (int_val i ltac:(lia)) as (_ & _ & Bi). destruct (int_val j ltac:(lia)) as (_ & _ & Bj).
  assert (IJ : rnd32 (IZR i) <= rnd32 (IZR j)) by (apply rnd_le; auto with typeclass_instances; apply IZR_le; lia).
  assert (D0 : 0 <= rnd32 (val ang / rnd32 (IZR n))).
  { rewrite <- (rnd_0 24 128). apply rnd_le; auto with typeclass_instances. unfold Rdiv. assert (0 < / rnd32 (IZR n)) by (apply Rinv_0_lt_compat; lra). nra. }
  set (D := rnd32 (val ang / rnd32 (IZR n))) in *. split; [|apply rnd_le; auto with typeclass_instances; nra].
  rewrite <- (rnd_0 24 128). apply rnd_le; auto with typeclass_instances. nra.
Qed.

(** The points are evenly spaced. *)
Lemma rnd_rel : forall r, 1 <= r -> exists d, rnd32 r = r * (1 + d) /\ - (/ 8000000) <= d <= / 8000000.
Proof.
  intros r H. exists (rnd32 r / r - 1). split; [field; lra|]. pose proof (rnd_error 24 128 _ r) as E. pose proof tiny as T. change (bpow radix2 (- (24))) with (/ 16777216) in E.
  assert (B : Rabs (rnd32 r - r) <= / 8000000 * r) by (rewrite (Rabs_pos_eq r) in E by lra; lra). apply Rabs_le_inv in B.
  assert (P : 0 < / r) by (apply Rinv_0_lt_compat; lra).
  replace (rnd32 r / r - 1) with ((rnd32 r - r) * / r) by (field; lra). replace (/ 8000000) with (/ 8000000 * r * / r) by (field; lra). split; [|apply Rmult_le_compat_r; lra].
  replace (- (/ 8000000 * r * / r)) with (- (/ 8000000 * r) * / r) by lra. apply Rmult_le_compat_r; lra.
Qed.
Lemma even_spacing : forall a n i, Rabs a <= 63 / 10 -> (1 <= i < n)%Z -> (n < 2 ^ 31)%Z ->
  near (/ 100000) (rnd32 (rnd32 (IZR i) * rnd32 (a / rnd32 (IZR n)))) (IZR i / IZR n * a).
Proof.
  intros a n i Ha Hi Hn. pose proof tiny as T.
  assert (Bi : 1 <= IZR i) by (apply IZR_le; lia). assert (Bn : IZR i <= IZR n <= 2147483648) by (split; apply IZR_le; lia).
  destruct (rnd_rel (IZR n) ltac:(lra)) as (dn & En & Bdn). destruct (rnd_rel (IZR i) ltac:(lra)) as (di & Ei & Bdi). rewrite En, Ei. clear En Ei.
  set (N := IZR n) in *. set (I := IZR i) in *. clearbody N I.
  assert (Q : 0 < I / N <= 1).
  { split; [apply Rdiv_lt_0_compat; lra|]. unfold Rdiv. apply Rmult_le_reg_r with N; [lra|]. rewrite Rmult_assoc, Rinv_l by lra. lra. }
  assert (In : 0 < / N <= 1) by (split; [apply Rinv_0_lt_compat; lra|rewrite <- Rinv_1; apply Rinv_le; lra]).
  set (J := / (1 + dn)). assert (BJ : 1 - / 7000000 <= J <= 1 + / 7000000).
  { assert (E : J * (1 + dn) = 1) by (unfold J; field; lra). assert (0 < J) by (apply Rinv_0_lt_compat; lra). split; nra. }
  set (x := a / (N * (1 + dn))). assert (Ex : x = / N * (a * J)) by (unfold x, J; field; lra).
  pose proof (rnd_error 24 128 _ x) as E. change (bpow radix2 (- (24))) with (/ 16777216) in E.
  set (y := rnd32 x) in *. clearbody y.
  assert (AJ : Rabs (a * J - a) <= 63 / 10 * / 7000000).
  { replace (a * J - a) with (a * (J - 1)) by lra. apply mul_abs; [exact Ha|apply Rabs_le; lra]. }
  assert (Z1 : Rabs (N * y - a) <= / 500000).
  { replace (N * y - a) with (N * (y - x) + (N * x - a)) by lra. replace (N * x - a) with (a * J - a) by (rewrite Ex; field; lra).
    assert (NX : Rabs (N * (y - x)) <= / 16777216 * (Rabs (a * J)) + N * / 1000000000000000000000).
    { rewrite Rabs_mult, (Rabs_pos_eq N) by lra. apply Rle_trans with (N * (/ 16777216 * Rabs x + / 1000000000000000000000)).
      - apply Rmult_le_compat_l; lra.
      - rewrite Ex, Rabs_mult, (Rabs_pos_eq (/ N)) by lra. right. field. lra. }
    assert (Rabs (a * J) <= 64 / 10) by (replace (a * J) with (a + (a * J - a)) by lra; eapply Rle_trans; [apply Rabs_triang|lra]).
    eapply Rle_trans; [apply Rabs_triang|]. lra. }
  assert (E3 : I * (1 + di) * y = I / N * ((1 + di) * (N * y))) by (field; lra). set (w := I * (1 + di) * y) in *. clearbody w.
  assert (Z2 : Rabs (w - I / N * a) <= / 300000).
  { rewrite E3. replace (I / N * ((1 + di) * (N * y)) - I / N * a) with (I / N * ((N * y - a) + di * (N * y))) by (field; lra).
    rewrite Rabs_mult, (Rabs_pos_eq (I / N)) by lra. rewrite <- (Rmult_1_l (/ 300000)). apply Rmult_le_compat; [lra|apply Rabs_pos|lra|].
    assert (Rabs (di * (N * y)) <= / 8000000 * (64 / 10)).
    { apply mul_abs; [apply Rabs_le; lra|]. replace (N * y) with ((N * y - a) + a) by lra. eapply Rle_trans; [apply Rabs_triang|lra]. }
    eapply Rle_trans; [apply Rabs_triang|]. lra. }
  assert (W : Rabs w <= 64 / 10).
  { replace w with ((w - I / N * a) + I / N * a) by lra. assert (Rabs (I / N * a) <= 1 * (63 / 10)) by (apply mul_abs; [rewrite Rabs_pos_eq; lra|exact Ha]). eapply Rle_trans; [apply Rabs_triang|lra]. }
  destruct (small_rnd w ltac:(lra)) as (E4 & _). unfold near. replace (rnd32 w - I / N * a) with ((rnd32 w - w) + (w - I / N * a)) by lra. eapply Rle_trans; [apply Rabs_triang|]. lra.
Qed.
(** The other axes *)
Lemma advance_last : forall k x d, advance (S k) x d = f32_add (advance k x d) d.
Proof. induction k as [|k IH]; intros x d; [reflexivity|]. change (advance (S (S k)) x d) with (advance (S k) (f32_add x d) d). rewrite IH. reflexivity. Qed.
Lemma step_near : forall s t n, metre s -> metre t -> (2 <= n < 2 ^ 31)%Z ->
  approx (f32_div (f32_sub t s) (f32_of_Z n)) ((val t - val s) / IZR n) 1024 (3 / 10000).
Proof.
  intros s t n (Fs & Bs) (Ft & Bt) Hn. assert (Bn : 2 <= IZR n) by (apply IZR_le; lia).
  assert (D0 : Rabs (val t - val s) <= 2048) by (apply Rabs_le; apply Rabs_le_inv in Bs; apply Rabs_le_inv in Bt; lra).
  assert (A : approx (f32_sub t s) (val t - val s) 2048 (125 / 1000000)) by (eapply approx_sub; [apply approx_exact; eassumption|apply approx_exact; eassumption|exact D0|lra|lra]).
  destruct (int_val n ltac:(lia)) as (Fn & Vn & _). destruct (rnd_rel (IZR n) ltac:(lra)) as (dn & En & Bdn). rewrite En in Vn. clear En.
  destruct A as (FA & _ & NA). unfold near in NA. set (v := f32_sub t s) in *. clearbody v. set (D := val t - val s) in *. clearbody D.
  set (N := IZR n) in *. set (J := / (1 + dn)). assert (BJ : 1 - / 7000000 <= J <= 1 + / 7000000).
  { assert (E : J * (1 + dn) = 1) by (unfold J; field; lra). assert (0 < J) by (apply Rinv_0_lt_compat; lra). split; nra. }
  assert (In : 0 < / N <= / 2) by (split; [apply Rinv_0_lt_compat; lra|apply Rinv_le; lra]).
  assert (Q : Rabs (val v / (N * (1 + dn)) - D / N) <= 22 / 100000).
  { replace (val v / (N * (1 + dn)) - D / N) with (/ N * ((val v - D) * J + D * (J - 1))) by (unfold J; field; lra). rewrite Rabs_mult, (Rabs_pos_eq (/ N)) by lra.
    assert (Rabs ((val v - D) * J) <= 125 / 1000000 * (1001 / 1000)) by (apply mul_abs; [exact NA|apply Rabs_le; lra]).
    assert (Rabs (D * (J - 1)) <= 2048 * / 7000000) by (apply mul_abs; [exact D0|apply Rabs_le; lra]).
    pose proof (Rabs_triang ((val v - D) * J) (D * (J - 1))). apply Rle_trans with (/ 2 * (125 / 1000000 * (1001 / 1000) + 2048 * / 7000000)); [apply Rmult_le_compat; lra || apply Rabs_pos|lra]. }
  assert (DN : Rabs (D / N) <= 1024).
  { unfold Rdiv. rewrite Rabs_mult, (Rabs_pos_eq (/ N)) by lra. apply Rle_trans with (2048 * / 2); [apply Rmult_le_compat; lra || apply Rabs_pos|lra]. }
  assert (V1 : Rabs (val v / (N * (1 + dn))) <= 1025) by (replace (val v / (N * (1 + dn))) with ((val v / (N * (1 + dn)) - D / N) + D / N) by lra; eapply Rle_trans; [apply Rabs_triang|lra]).
  destruct (small_rnd (val v / (N * (1 + dn))) ltac:(lra)) as (E & S).
  assert (NZ : N * (1 + dn) <> 0) by nra.
  destruct (div_val 24 128 _ _ v (f32_of_Z n) FA Fn) as (F & V); [rewrite Vn; exact NZ|rewrite Vn; exact S|]. split; [exact F|]. split; [exact DN|]. unfold near, f32_div. rewrite V, Vn.
  match goal with |- Rabs (?a - ?b) <= _ => replace (a - b) with ((a - val v / (N * (1 + dn))) + (val v / (N * (1 + dn)) - b)) by lra end. eapply Rle_trans; [apply Rabs_triang|].
  lra.
Qed.
Lemma advance_near : forall s t n k, metre s -> metre t -> (2 <= n < 2 ^ 31)%Z -> (Z.of_nat k <= n)%Z -> (Z.of_nat k <= 1000000)%Z ->
  approx (advance k s (f32_div (f32_sub t s) (f32_of_Z n))) (val s + INR k * ((val t - val s) / IZR n)) 1024 (INR k * / 2000).
Proof.
  intros s t n k Ms Mt Hn. pose proof (step_near s t n Ms Mt Hn) as D. destruct Ms as (Fs & Bs), Mt as (Ft & Bt).
  assert (Bn : 2 <= IZR n) by (apply IZR_le; lia).
  assert (C : forall k, (Z.of_nat k <= n)%Z -> Rabs (val s + INR k * ((val t - val s) / IZR n)) <= 1024).
  { intros j Hj. assert (L : 0 <= INR j / IZR n <= 1).
    { assert (0 <= INR j) by apply pos_INR. assert (INR j <= IZR n) by (rewrite INR_IZR_INZ; apply IZR_le; exact Hj). split; [apply Rmult_le_pos; [lra|left; apply Rinv_0_lt_compat; lra]|].
      unfold Rdiv. apply Rmult_le_reg_r with (IZR n); [lra|]. rewrite Rmult_assoc, Rinv_l by lra. lra. }
    replace (INR j * ((val t - val s) / IZR n)) with (INR j / IZR n * (val t - val s)) by (field; lra). apply Rabs_le_inv in Bs. apply Rabs_le_inv in Bt. apply Rabs_le. split; nra. }
  set (d := f32_div (f32_sub t s) (f32_of_Z n)) in *. clearbody d. induction k as [|k IH]; intros K1 K2.
  - cbn [advance INR]. replace (val s + 0 * ((val t - val s) / IZR n)) with (val s) by lra. replace (0 * / 2000) with 0 by lra. now apply approx_exact.
  - rewrite advance_last. specialize (IH ltac:(lia) ltac:(lia)). assert (K3 : INR k <= 1000000) by (rewrite INR_IZR_INZ; apply IZR_le; lia).
    pose proof (pos_INR k). assert (A := approx_add _ _ _ _ _ _ _ _ 1024 ((INR k + 1) * / 2000) IH D ltac:(replace (val s + INR k * ((val t - val s) / IZR n) + (val t - val s) / IZR n) with (val s + INR (S k) * ((val t - val s) / IZR n)) by (rewrite S_INR; lra); apply C; lia) ltac:(lra) ltac:(lra)).
    rewrite S_INR. replace (val s + (INR k + 1) * ((val t - val s) / IZR n)) with (val s + INR k * ((val t - val s) / IZR n) + (val t - val s) / IZR n) by lra. exact A.
Qed.
Lemma advance_zero : forall s t n k, fin32 s -> fin32 t -> val t = val s -> (1 <= n < 2 ^ 31)%Z ->
  fin32 (advance k s (f32_div (f32_sub t s) (f32_of_Z n))) /\ val (advance k s (f32_div (f32_sub t s) (f32_of_Z n))) = val s.
Proof.
  intros s t n k Fs Ft E Hn. destruct (int_val n Hn) as (Fn & Vn & Bn).
  assert (Z0 : forall r, r = 0 -> rnd32 r = 0 /\ small 128 (rnd32 r)).
  { intros r ->. rewrite (rnd_0 24 128). split; [reflexivity|]. apply (small_of_bound 128 _ 1); [lia| |lia]. rewrite Rabs_R0. apply IZR_le. lia. }
  assert (S0 : val t - val s = 0) by lra. destruct (sub_val 24 128 _ _ t s Ft Fs (proj2 (Z0 _ S0))) as (F1 & V1). fold f32_sub in F1, V1. rewrite (proj1 (Z0 _ S0)) in V1.
  assert (S1 : val (f32_sub t s) / val (f32_of_Z n) = 0) by (rewrite V1; unfold Rdiv; lra).
  assert (NZ : val (f32_of_Z n) <> 0) by (rewrite Vn; lra).
  destruct (div_val 24 128 _ _ (f32_sub t s) (f32_of_Z n) F1 Fn NZ (proj2 (Z0 _ S1))) as (F2 & V2). fold f32_div in F2, V2. rewrite (proj1 (Z0 _ S1)) in V2.
  set (d := f32_div (f32_sub t s) (f32_of_Z n)) in *. clearbody d. induction k as [|k (F & V)]; [auto|]. rewrite advance_last.
  assert (S2 : val (advance k s d) + val d = val s) by lra.
  destruct (add_val 24 128 _ _ (advance k s d) d F F2) as (F3 & V3).
  - rewrite S2, (rnd_fin 24 128 _ Fs). exact (fin_small 24 128 _ Fs).
  - split; [exact F3|]. unfold f32_add. rewrite V3, S2. apply (rnd_fin 24 128 _ Fs).
Qed.

(** ** Splines *)
Lemma of_Z_approx : forall z, (Z.abs z <= 2 ^ 24)%Z -> approx (f32_of_Z z) (IZR z) (IZR (Z.abs z)) 0.
Proof.
  intros z H. destruct (f32_of_Z_val z H) as (F & V). pose proof (approx_exact (f32_of_Z z) (IZR (Z.abs z)) F) as A. rewrite V in A. apply A. rewrite abs_IZR. lra.
Qed.
Lemma bezier_near : forall t p0 p1 p2 p3, fin32 t -> 0 <= val t <= 1 -> metre p0 -> metre p1 -> metre p2 -> metre p3 ->
  near (/ 100) (val (bezier_coord t p0 p1 p2 p3)) (bezier (val t) (val p0) (val p1) (val p2) (val p3)).
Proof.
  intros t p0 p1 p2 p3 Ft Bt (F0 & B0) (F1 & B1) (F2 & B2) (F3 & B3).
  pose proof (approx_exact _ _ F0 B0) as A0. pose proof (approx_exact _ _ F1 B1) as A1. pose proof (approx_exact _ _ F2 B2) as A2. pose proof (approx_exact _ _ F3 B3) as A3.
  assert (At : approx t (val t) 1 0) by (apply approx_exact; [exact Ft|apply Rabs_le; lra]).
  pose proof (of_Z_approx 1 ltac:(lia)) as One. pose proof (of_Z_approx 3 ltac:(lia)) as Three. change (Z.abs 1) with 1%Z in One. change (Z.abs 3) with 3%Z in Three.
  change (f32_of_Z 1) with f1 in One. unfold bezier_coord.
  set (T := val t) in *. set (U := 1 - T).
  assert (Au : approx (f32_sub f1 t) U 1 (9 / 100000000)) by (eapply approx_sub; [exact One|exact At|apply Rabs_le; unfold T in *; lra|lra|lra]).
  set (u := f32_sub f1 t) in *. clearbody u.
  assert (Auu : approx (f32_mul u u) (U * U) 1 (28 / 100000000)) by (eapply approx_mul; [exact Au|exact Au|lra|lra|lra]).
  assert (Att : approx (f32_mul t t) (T * T) 1 (9 / 100000000)) by (eapply approx_mul; [exact At|exact At|lra|lra|lra]).
  set (uu := f32_mul u u) in *. clearbody uu. set (tt := f32_mul t t) in *. clearbody tt.
  assert (Auuu : approx (f32_mul uu u) (U * U * U) 1 (50 / 100000000)) by (eapply approx_mul; [exact Auu|exact Au|lra|lra|lra]).
  assert (Attt : approx (f32_mul tt t) (T * T * T) 1 (20 / 100000000)) by (eapply approx_mul; [exact Att|exact At|lra|lra|lra]).
  assert (X0 : approx (f32_mul (f32_mul uu u) p0) (U * U * U * val p0) 1024 (7 / 10000)) by (eapply approx_mul; [exact Auuu|exact A0|lra|lra|lra]).
  assert (X3 : approx (f32_mul (f32_mul tt t) p3) (T * T * T * val p3) 1024 (4 / 10000)) by (eapply approx_mul; [exact Attt|exact A3|lra|lra|lra]).
  assert (Y1 : approx (f32_mul (f32_of_Z 3) uu) (3 * (U * U)) 3 (11 / 10000000)) by (eapply approx_mul; [exact Three|exact Auu|lra|lra|lra]).
  assert (Y2 : approx (f32_mul (f32_mul (f32_of_Z 3) uu) t) (3 * (U * U) * T) 3 (14 / 10000000)) by (eapply approx_mul; [exact Y1|exact At|lra|lra|lra]).
  assert (X1 : approx (f32_mul (f32_mul (f32_mul (f32_of_Z 3) uu) t) p1) (3 * (U * U) * T * val p1) 3072 (17 / 10000)) by (eapply approx_mul; [exact Y2|exact A1|lra|lra|lra]).
  assert (Z1 : approx (f32_mul (f32_of_Z 3) u) (3 * U) 3 (5 / 10000000)) by (eapply approx_mul; [exact Three|exact Au|lra|lra|lra]).
  assert (Z2 : approx (f32_mul (f32_mul (f32_of_Z 3) u) tt) (3 * U * (T * T)) 3 (11 / 10000000)) by (eapply approx_mul; [exact Z1|exact Att|lra|lra|lra]).
  assert (X2 : approx (f32_mul (f32_mul (f32_mul (f32_of_Z 3) u) tt) p2) (3 * U * (T * T) * val p2) 3072 (14 / 10000)) by (eapply approx_mul; [exact Z2|exact A2|lra|lra|lra]).
  assert (T1 : forall a b A B, Rabs a <= A -> Rabs b <= B -> Rabs (a + b) <= A + B) by (intros; eapply Rle_trans; [apply Rabs_triang|lra]).
  assert (S1 := approx_add _ _ _ _ _ _ _ _ 4096 (27 / 10000) X0 X1 ltac:(eapply Rle_trans; [apply T1; [apply X0|apply X1]|lra]) ltac:(lra) ltac:(lra)).
  assert (S2 := approx_add _ _ _ _ _ _ _ _ 7168 (46 / 10000) S1 X2 ltac:(eapply Rle_trans; [apply T1; [apply S1|apply X2]|lra]) ltac:(lra) ltac:(lra)).
  assert (S3 := approx_add _ _ _ _ _ _ _ _ 8192 (/ 100) S2 X3 ltac:(eapply Rle_trans; [apply T1; [apply S2|apply X3]|lra]) ltac:(lra) ltac:(lra)).
  destruct S3 as (_ & _ & N). unfold near, bezier in *. fold U.
  match goal with |- Rabs (_ - ?b) <= _ => replace b with (U * U * U * val p0 + 3 * (U * U) * T * val p1 + 3 * U * (T * T) * val p2 + T * T * T * val p3) by lra end. exact N.
Qed.
(** The parameters of the points *)
Definition all_times : list fl := match times 200 f0 with Some l => l | None => [] end.
Lemma all_times_ok : times 200 f0 = Some all_times /\ length all_times = 101%nat.
Proof. split; vm_compute; reflexivity. Qed.
Definition time (k : nat) : R := val (nth k all_times f0).
Definition good_time (t : fl) : bool := valid_binary 24 128 t && is_finite_SF t && SFleb f0 t && SFltb t f1.
Lemma time_ok : forall k, (k < 101)%nat -> fin32 (nth k all_times f0) /\ 0 <= time k < 1.
Proof.
  assert (G : forallb good_time all_times = true) by (vm_compute; reflexivity). intros k H. rewrite forallb_forall in G.
  specialize (G (nth k all_times f0) (nth_In _ _ ltac:(rewrite (proj2 all_times_ok); exact H))). unfold good_time in G. apply andb_prop in G as (G & G4). apply andb_prop in G as (G & G3). apply andb_prop in G as (G1 & G2).
  assert (F : fin32 (nth k all_times f0)) by (split; assumption). split; [exact F|]. destruct f0_val as (F0 & V0). destruct (f32_of_Z_val 1 ltac:(lia)) as (F1 & V1).
  apply (leb_le 24 128) in G3; [|exact F0|exact F]. apply (ltb_lt 24 128) in G4; [|exact F|exact F1]. rewrite V0 in G3. change (f32_of_Z 1) with f1 in V1. rewrite V1 in G4. unfold time. lra.
Qed.
Lemma time_first : time 0 = 0.
Proof. change (nth 0 all_times f0) with f0. apply f0_val. Qed.
Lemma times_step : forall fuel t l k, times fuel t = Some l -> (S k < length l)%nat -> nth (S k) l f0 = f32_add (nth k l f0) hundredth.
Proof.
  induction fuel as [|fuel IH]; intros t l k T L; cbn [times] in T.
  - destruct (SFltb t f1); [discriminate|]. injection T as <-. cbn in L. lia.
  - destruct (SFltb t f1); [|injection T as <-; cbn in L; lia]. destruct (times fuel (f32_add t hundredth)) as [l'|] eqn:T'; [|discriminate]. cbn [option_map] in T. injection T as <-.
    destruct k as [|k].
    + cbn [nth]. destruct fuel as [|fuel]; cbn [times] in T'; destruct (SFltb (f32_add t hundredth) f1); try discriminate; try (injection T' as <-; cbn in L; lia).
      destruct (times fuel _); [|discriminate]. cbn [option_map] in T'. injection T' as <-. reflexivity.
    + cbn [length] in L. change (nth (S (S k)) (t :: l') f0) with (nth (S k) l' f0). change (nth (S k) (t :: l') f0) with (nth k l' f0). apply (IH _ _ _ T'). lia.
Qed.
Lemma time_step : forall k, (S k < 101)%nat -> near (/ 1000000) (time (S k) - time k) (/ 100).
Proof.
  intros k H. destruct (time_ok k ltac:(lia)) as (F & B). unfold time at 1. rewrite (times_step 200 f0 all_times k) by (rewrite ?(proj2 all_times_ok); auto; apply all_times_ok).
  pose proof (of_Z_approx 1 ltac:(lia)) as One. change (Z.abs 1) with 1%Z in One. change (f32_of_Z 1) with f1 in One.
  assert (E : hundredth = S754_finite false 10737418 (-30)) by (vm_compute; reflexivity).
  assert (Fh : fin32 hundredth) by (rewrite E; split; reflexivity).
  assert (Vh : val hundredth = 10737418 * / 1073741824) by (rewrite E; unfold val, SF2R, F2R; cbn [Fnum Fexp cond_Zopp]; replace (bpow radix2 (-30)) with (/ 1073741824) by reflexivity; reflexivity).
  pose proof (approx_exact _ 1 F ltac:(apply Rabs_le; unfold time in B; lra)) as A1. pose proof (approx_exact _ 1 Fh ltac:(rewrite Vh; apply Rabs_le; lra)) as A2.
  assert (A := approx_add _ _ _ _ _ _ _ _ 2 (/ 2000000) A1 A2 ltac:(rewrite Vh; fold (time k); apply Rabs_le; lra) ltac:(lra) ltac:(lra)).
  destruct A as (_ & _ & N). fold (time k) in N. unfold near in *. rewrite Vh in N. apply Rabs_le_inv in N. apply Rabs_le. lra.
Qed.
End Errors.
