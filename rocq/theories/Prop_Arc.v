(** Theorems about arcs and splines: C21, C59, C60. *)
From Coq Require Import Reals Lra SpecFloat.
From Flocq Require Import Core IEEE754.BinarySingleNaN.
From Verif Require Import Base Model_Float Model_Axis Model_Gcode Model_Arc Spec_Real Proofs_Real Spec_Arc Proofs_Circle Proofs_Arc Proofs_Turn.
Open Scope Z_scope.

Lemma loop_end : forall answer h feed target ok l, loop_result answer h ok l ->
  let last := if ok then segment_output answer feed target (rev l ++ h) else (false, rev l ++ h) in
  exists l', snd last = rev l' ++ h /\ delivered answer h (feed, target) l' (fst last) /\ (ok = true -> l' = l ++ [(feed, target)]) /\ (ok = false -> l' = l /\ fst last = false).
Proof.
  intros answer h feed target [] l L last; cbn [loop_result] in L.
  - exists (l ++ [(feed, target)]). unfold last, segment_output. cbn [fst snd]. split; [rewrite rev_app_distr; reflexivity|]. split; [now apply finish|]. split; [auto|discriminate].
  - exists l. unfold last. cbn [fst snd]. split; [reflexivity|]. split; [|split; [discriminate|auto]]. destruct L as (front & x & -> & A & B). exists front, x. repeat split; auto. discriminate.
Qed.
Lemma plane_cases : forall normal p0 p1 p2, plane normal = Some (p0, p1, p2) ->
  ((p0, p1, p2) = (AX, AY, AZ) \/ (p0, p1, p2) = (AY, AZ, AX) \/ (p0, p1, p2) = (AX, AZ, AY)) /\ plane_axes normal = (p0, p1) /\ (normal = AX \/ normal = AY \/ normal = AZ).
Proof. intros [] p0 p1 p2 E; try discriminate E; injection E as <- <- <-; auto 10. Qed.

(** An arc ends exactly at its target; the points before it are made in a loop. *)
Lemma arc_main : forall m answer feed normal cw start center target h p0 p1 p2, plane normal = Some (p0, p1, p2) ->
  let ang := angular_travel m cw (SFopp (f32_sub (center p0) (start p0))) (SFopp (f32_sub (center p1) (start p1)))
                (f32_sub (target p0) (f32_add (start p0) (f32_sub (center p0) (start p0)))) (f32_sub (target p1) (f32_add (start p1) (f32_sub (center p1) (start p1)))) in
  let mm := m_hypot m (f32_mul ang
              (f32_sqrt (f32_add (f32_mul (f32_sub (center p0) (start p0)) (f32_sub (center p0) (start p0))) (f32_mul (f32_sub (center p1) (start p1)) (f32_sub (center p1) (start p1))))))
              (SFabs (f32_sub (target p2) (start p2))) in
  let n := segments_of m mm in
  arc_move m answer feed normal cw start center target h = (true, h) /\ SFltb (f64_of_f32 mm) (decimal64 1 100000) = true \/
  exists ok l, arc_move m answer feed normal cw start center target h = (ok, rev l ++ h) /\ delivered answer h (feed, target) l ok /\
    (ok = true -> length l = S (Z.to_nat (n - 1))) /\
    forall k x, nth_error l k = Some x -> x = (feed, target) \/
      (fst x = feed /\ (k < Z.to_nat (n - 1))%nat /\
       snd x p0 = point0 m (f32_sub (center p0) (start p0)) (f32_sub (center p1) (start p1)) (f32_add (start p0) (f32_sub (center p0) (start p0))) (f32_div ang (f32_of_Z n)) (1 + Z.of_nat k) /\
       snd x p1 = point1 m (f32_sub (center p0) (start p0)) (f32_sub (center p1) (start p1)) (f32_add (start p1) (f32_sub (center p1) (start p1))) (f32_div ang (f32_of_Z n)) (1 + Z.of_nat k) /\
       forall a, a <> p0 -> a <> p1 -> snd x a = advance (S k) (start a) (f32_div (f32_sub (target a) (start a)) (f32_of_Z n))).
Proof.
  intros m answer feed normal cw start center target h p0 p1 p2 P. unfold arc_move, arc_gen. rewrite P.
  set (ang := angular_travel m cw (SFopp (f32_sub (center p0) (start p0))) _ _ _). cbv zeta. set (mm := m_hypot _ _ _).
  destruct (SFltb _ _); [now left|right]. set (n := segments_of m mm).
  set (other := fun a => f32_div (f32_sub (target a) (start a)) (f32_of_Z n)).
  destruct (arc_loop_spec m answer feed p0 p1 p2 (f32_sub (center p0) (start p0)) (f32_sub (center p1) (start p1)) (f32_add (start p0) (f32_sub (center p0) (start p0)))
    (f32_add (start p1) (f32_sub (center p1) (start p1))) (f32_div ang (f32_of_Z n)) (f32_div (f32_sub (target p2) (start p2)) (f32_of_Z n)) other (proj1 (plane_cases _ _ _ _ P)) eq_refl
    (Z.to_nat (n - 1)) 1 start h) as (l & E1 & E2 & E3 & E4 & E5).
  destruct (arc_loop _ _ _ _ _ _ _ _ _ _ _ _ _ _ _ _ _) as [ok h']. cbn [fst snd] in *. subst h'. destruct (loop_end answer h feed target ok l E2) as (l' & F1 & F2 & F3 & F4).
  destruct (if ok then _ else _) as [ok' h'] eqn:E. cbn [fst snd] in *. subst h'. exists ok', l'. split; [reflexivity|]. split; [exact F2|].
  destruct ok.
  - rewrite (F3 eq_refl). rewrite app_length, (E4 eq_refl). split; [intros; cbn [length]; lia|]. intros k x K. destruct (Nat.lt_ge_cases k (length l)) as [L|L].
    + rewrite nth_error_app1 in K by exact L. right. destruct (E5 k x K) as (A & B & C & D). split; [exact A|]. split; [lia|]. auto.
    + rewrite nth_error_app2 in K by exact L. destruct (k - length l)%nat as [|[|j]]; cbn [nth_error] in K; [injection K as <-; now left|discriminate|discriminate].
  - destruct (F4 eq_refl) as (-> & ->). split; [discriminate|]. intros k x K. right. destruct (E5 k x K) as (A & B & C & D). split; [exact A|].
    split; [apply Nat.lt_le_trans with (length l); [apply nth_error_Some; congruence|exact E3]|]. auto.
Qed.

(** ** C21: arcs and splines end exactly at their target *)
(** An arc is carried out as straight moves, all with its feedrate. They are asked for one after the other, up to the first one
    that is refused, which is reported; if none is refused the last one ends exactly at the target on every axis. An arc in no plane or
    without length is skipped. *)
Theorem C21_arc : forall m answer feed normal cw start center target h,
  exists ok l, arc_move m answer feed normal cw start center target h = (ok, rev l ++ h) /\
    (forall x, In x l -> fst x = feed) /\
    (l = [] /\ ok = true \/ delivered answer h (feed, target) l ok).
Proof.
  intros. destruct (plane normal) as [[[p0 p1] p2]|] eqn:P.
  - destruct (arc_main m answer feed normal cw start center target h p0 p1 p2 P) as [(E & _)|(ok & l & E & D & _ & K)].
    + exists true, []. rewrite E. repeat split; auto. intros x [].
    + exists ok, l. split; [exact E|]. split; [|now right]. intros x I. apply In_nth_error in I as (k & I). destruct (K k x I) as [->|(A & _)]; [reflexivity|exact A].
  - exists true, []. unfold arc_move, arc_gen. rewrite P. repeat split; auto. intros x [].
Qed.
Print Assumptions C21_arc.

(** A spline always ends after at most 102 moves. *)
Lemma spline_main : forall answer feed fuel start cp1 cp2 target h, times fuel f0 = Some all_times ->
  exists ok l, spline_move answer feed fuel start cp1 cp2 target h = Some (ok, rev l ++ h) /\ delivered answer h (feed, target) l ok /\ (ok = true -> length l = 102%nat) /\
    forall k x, nth_error l k = Some x -> x = (feed, target) \/ (k < 101)%nat /\ x = (feed, calc_bezier_point (nth k all_times f0) start cp1 cp2 target).
Proof.
  intros answer feed fuel start cp1 cp2 target h T. destruct (spline_loop_spec answer feed start cp1 cp2 target fuel f0 all_times h T) as (ok & l & h' & E & -> & L & N & K).
  pose proof (proj2 all_times_ok) as Len.
  assert (K' : forall k x, nth_error l k = Some x -> (k < 101)%nat /\ x = (feed, calc_bezier_point (nth k all_times f0) start cp1 cp2 target)).
  { intros k x X. destruct (K k x X) as (t & Et & ->). split; [rewrite <- Len; apply nth_error_Some; congruence|]. now rewrite (nth_error_nth _ _ f0 Et). }
  unfold spline_move, spline_gen. rewrite E. destruct (loop_end answer h feed target ok l L) as (l' & F1 & F2 & F3 & F4).
  destruct ok.
  - exists (fst (segment_output answer feed target (rev l ++ h))), l'. split; [rewrite <- F1; reflexivity|]. split; [exact F2|]. rewrite (F3 eq_refl). rewrite app_length, (N eq_refl), Len.
    split; [reflexivity|]. intros k x X. destruct (Nat.lt_ge_cases k (length l)) as [J|J].
    + rewrite nth_error_app1 in X by exact J. right. auto.
    + rewrite nth_error_app2 in X by exact J. destruct (k - length l)%nat as [|[|j]]; cbn [nth_error] in X; [injection X as <-; now left|discriminate|discriminate].
  - destruct (F4 eq_refl) as (-> & E0). exists false, l. split; [reflexivity|]. split; [exact F2|]. split; [discriminate|]. intros k x X. right. auto.
Qed.
Lemma more_times : forall fuel t l, times fuel t = Some l -> forall fuel', (fuel <= fuel')%nat -> times fuel' t = Some l.
Proof.
  induction fuel as [|fuel IH]; intros t l T [|fuel'] Lf; cbn [times] in *; try lia; auto.
  - destruct (SFltb t f1); [discriminate|exact T].
  - destruct (SFltb t f1); [|exact T]. destruct (times fuel (f32_add t hundredth)) as [l'|] eqn:E; [|discriminate]. rewrite (IH _ _ E fuel') by lia. exact T.
Qed.
Lemma times_101 : times 101 f0 = Some all_times.
Proof. vm_compute. reflexivity. Qed.
Theorem C21_spline : forall answer feed start cp1 cp2 target h,
  exists ok l, (forall fuel, (101 <= fuel)%nat -> spline_move answer feed fuel start cp1 cp2 target h = Some (ok, rev l ++ h)) /\
    (forall x, In x l -> fst x = feed) /\ delivered answer h (feed, target) l ok /\ (ok = true -> length l = 102%nat).
Proof.
  intros. destruct (spline_main answer feed 101 start cp1 cp2 target h times_101) as (ok & l & E & D & N & K). exists ok, l.
  split; [|split; [|split; auto]].
  - intros fuel F. destruct (spline_main answer feed fuel start cp1 cp2 target h (more_times _ _ _ times_101 _ F)) as (ok' & l' & E' & _). rewrite E'.
    assert (More : forall f t r, spline_loop answer feed f t start cp1 cp2 target r <> None -> forall f', (f <= f')%nat -> spline_loop answer feed f' t start cp1 cp2 target r = spline_loop answer feed f t start cp1 cp2 target r).
    { clear. induction f as [|f IH]; intros t r Q [|f'] Lf; try lia; auto.
      - cbn [spline_loop] in *. destruct (SFltb t f1); [congruence|reflexivity].
      - cbn [spline_loop] in *. destruct (SFltb t f1); [|reflexivity]. destruct (segment_output _ _ _ _) as [[] r']; [|reflexivity]. apply IH; [exact Q|lia]. }
    unfold spline_move, spline_gen in E, E'. rewrite (More 101%nat) in E'; [|intros Q; rewrite Q in E; discriminate|exact F]. rewrite E in E'. now injection E' as -> ->.
  - intros x I. apply In_nth_error in I as (k & I). destruct (K k x I) as [->|(_ & ->)]; reflexivity.
Qed.
Print Assumptions C21_spline.

(** Arcs are skipped silently although the target is elsewhere if the centre is the start: "G2 X10 I0 J0" moves nowhere, while the
    parser takes the machine to be at X10. *)
Definition some_libm : libm :=
  {| m_atan2 := fun _ _ => f0; m_hypot := fun x y => if SFltb (SFabs x) (SFabs y) then SFabs y else SFabs x;
     m_cos := fun _ => f1; m_sin := fun _ => f0; m_asin := fun _ => f0; m_int := fun _ => 0 |}.
Definition at_x (z : Z) : axes := fun a => match a with AX => f32_of_Z z | _ => f0 end.
Theorem C21_zero_radius_refuted : exists m start center target,
  start AX <> target AX /\ forall answer feed h, arc_move m answer feed AZ true start center target h = (true, h).
Proof.
  exists some_libm, (at_x 0), (at_x 0), (at_x 10). split; [vm_compute; discriminate|]. intros answer feed h.
  unfold arc_move, arc_gen. cbn [plane].
  match goal with |- (if ?b then _ else _) = _ => assert (E : b = true) by (vm_compute; reflexivity); rewrite E end. reflexivity.
Qed.
Print Assumptions C21_zero_radius_refuted.

(** Two accepted moves and then a refused one *)
Example ex_arc : let r := arc_move some_libm (fun h => (length h <=? 2)%nat) f1 AZ true (at_x 0) (at_x 5) (at_x 10) [] in (fst r, length (snd r)) = (false, 3%nat).
Proof. vm_compute. reflexivity. Qed.
Example ex_spline : option_map (fun r => (fst r, length (snd r), snd (hd (f0, at_x 0) (snd r)) AX)) (spline_move (fun _ => true) f1 101 (at_x 0) (at_x 5) (at_x 6) (at_x 10) []) = Some (true, 102%nat, f32_of_Z 10).
Proof. vm_compute. reflexivity. Qed.

(** ** C59: an arc follows its circle *)
Section R.
Local Open Scope R_scope.
Lemma segments_range : forall m mm, (- 2 ^ 31 <= segments_of m mm < 2 ^ 31)%Z.
Proof.
  intros m mm. unfold segments_of. set (x := f32_of_f64 _). unfold to_int. destruct (fl_floor x) as [z|]; [destruct (_ && _)%bool eqn:E|]; lia.
Qed.
Theorem C59_arc : forall m answer feed normal cw start center target h,
  good_trig m -> normal = AX \/ normal = AY \/ normal = AZ ->
  let first := fst (plane_axes normal) in
  let second := snd (plane_axes normal) in
  (forall a, a = first \/ a = second -> metre (start a) /\ metre (center a) /\ metre (target a)) ->
  exists ok l total n (angle : nat -> R),
    arc_move m answer feed normal cw start center target h = (ok, rev l ++ h) /\
    (* the right way round, by at most a turn *)
    (if cw then - (63 / 10) <= total < 0 else 0 < total <= 63 / 10) /\
    (* to the direction of the target: the start turned is the target, if this is on the circle *)
    turned (/ 50 + Rabs (len (val (start first) - val (center first)) (val (start second) - val (center second)) -
                         len (val (target first) - val (center first)) (val (target second) - val (center second))))
      (val (center first)) (val (center second)) (val (start first)) (val (start second)) total (val (target first)) (val (target second)) /\
    (* a piece for each tenth of a millimetre of the way; only arcs without length are skipped *)
    (metre (start normal) -> metre (target normal) ->
       let way := len (total * len (val (start first) - val (center first)) (val (start second) - val (center second))) (val (target normal) - val (start normal)) in
       near (3 / 2) (INR n) (10 * way) /\ (l = [] -> way <= / 50000)) /\
    (* in even steps *)
    (forall k, if cw then angle (S k) <= angle k <= 0 else 0 <= angle k <= angle (S k)) /\
    (forall k, (S k < n)%nat -> near (/ 100000) (angle k) (INR (S k) / INR n * total)) /\
    (l = [] \/ (ok = true -> length l = n)) /\
    (* each point is on the circle, at this angle from the start; the other axes advance evenly *)
    (forall k x, nth_error l k = Some x ->
       x = (feed, target) \/
       (S k < n)%nat /\
       turned (/ 100) (val (center first)) (val (center second)) (val (start first)) (val (start second)) (angle k) (val (snd x first)) (val (snd x second)) /\
       forall a, a <> first -> a <> second -> metre (start a) -> metre (target a) ->
         (val (target a) = val (start a) -> val (snd x a) = val (start a)) /\
         (INR (S k) <= 1000000 -> near (INR (S k) / 2000) (val (snd x a)) (val (start a) + INR (S k) / INR n * (val (target a) - val (start a))))).
Proof.
  intros m answer feed normal cw start center target h G N first second M.
  assert (P : plane normal = Some (first, second, normal)) by (destruct N as [->|[->| ->]]; reflexivity).
  destruct (M first (or_introl eq_refl)) as (Ms0 & Mc0 & Mt0). destruct (M second (or_intror eq_refl)) as (Ms1 & Mc1 & Mt1). clearbody first second.
  pose proof (arc_main m answer feed normal cw start center target h first second normal P) as H.
  cbv zeta in H. set (ang := angular_travel m cw _ _ _ _) in H. set (mm := m_hypot _ _ _) in H. set (n := segments_of m mm) in H.
  assert (R : forall s c, metre s -> metre c -> fin32 (f32_sub c s) /\ Rabs (val (f32_sub c s)) <= 2049 /\ fin32 (f32_add s (f32_sub c s)) /\ Rabs (val (f32_add s (f32_sub c s))) <= 1025).
  { intros s c (Fs & Bs) (Fc & Bc). assert (A : approx (f32_sub c s) (val c - val s) 2048 (125 / 1000000)).
    { eapply approx_sub; [apply approx_exact; eassumption|apply approx_exact; eassumption|apply Rabs_le; apply Rabs_le_inv in Bs; apply Rabs_le_inv in Bc; lra|lra|lra]. }
    assert (A2 : approx (f32_add s (f32_sub c s)) (val s + (val c - val s)) 1024 (3 / 10000)).
    { eapply approx_add; [apply approx_exact; eassumption|exact A|replace (val s + (val c - val s)) with (val c) by lra; exact Bc|lra|lra]. }
    pose proof (approx_bounds _ _ _ _ A) as B1. pose proof (approx_bounds _ _ _ _ A2) as B2. split; [apply A|]. split; [apply Rabs_le; lra|]. split; [apply A2|apply Rabs_le; lra]. }
  destruct (R _ _ Ms0 Mc0) as (Fo0 & Bo0 & Fc0 & Bc0). destruct (R _ _ Ms1 Mc1) as (Fo1 & Bo1 & Fc1 & Bc1).
  assert (Opp : forall x, fin32 x -> Rabs (val x) <= 2049 -> fin32 (SFopp x) /\ Rabs (val (SFopp x)) <= 4096).
  { intros x F B. destruct (opp_val 24 128 x F) as (F' & V). split; [exact F'|]. rewrite V, Rabs_Ropp. lra. }
  assert (Sub : forall t c, metre t -> fin32 c -> Rabs (val c) <= 1025 -> fin32 (f32_sub t c) /\ Rabs (val (f32_sub t c)) <= 4096).
  { intros t c (Ft & Bt) Fc Bc. assert (A : approx (f32_sub t c) (val t - val c) 2049 (2 / 10000)).
    { eapply approx_sub; [apply approx_exact; eassumption|apply approx_exact; eassumption|apply Rabs_le; apply Rabs_le_inv in Bt; apply Rabs_le_inv in Bc; lra|lra|lra]. }
    pose proof (approx_bounds _ _ _ _ A) as B1. split; [apply A|apply Rabs_le; lra]. }
  assert (AR := angle_range m cw (SFopp (f32_sub (center first) (start first))) (SFopp (f32_sub (center second) (start second)))
    (f32_sub (target first) (f32_add (start first) (f32_sub (center first) (start first)))) (f32_sub (target second) (f32_add (start second) (f32_sub (center second) (start second)))) G).
  destruct AR as (Fa & Ba). { intros x [<-|[<-|[<-|[<-|[]]]]]; auto. } fold ang in Fa, Ba.
  assert (Aa : Rabs (val ang) <= 63 / 10) by (apply Rabs_le; destruct cw; lra).
  pose proof (turns_to_target m cw _ _ _ _ _ _ G Ms0 Ms1 Mc0 Mc1 Mt0 Mt1 : turned _ _ _ _ _ (val ang) _ _) as TT.
  assert (Way : metre (start normal) -> metre (target normal) ->
    let way := len (val ang * len (val (start first) - val (center first)) (val (start second) - val (center second))) (val (target normal) - val (start normal)) in
    near (3 / 2) (INR (S (Z.to_nat (n - 1)))) (10 * way) /\ (SFltb (f64_of_f32 mm) (decimal64 1 100000) = true -> way <= / 50000)).
  { intros Msn Mtn way. destruct (travel_near m ang _ _ _ _ _ _ G Fa Aa Ms0 Ms1 Mc0 Mc1 Msn Mtn) as (Fm & Em & BL). fold mm in Fm, Em. change (nrm _ (val (target normal) - val (start normal))) with way in Em, BL.
    apply Rabs_le_inv in Em. destruct (segments_near m mm Fm ltac:(lra)) as (S1 & S2). fold n in S1, S2. split.
    - unfold near. apply Rabs_le. rewrite INR_IZR_INZ. destruct (Z_le_gt_dec n 1) as [Le|Gt].
      + replace (Z.of_nat (S (Z.to_nat (n - 1)))) with 1%Z by lia. assert (IZR n <= 1) by (apply IZR_le; lia). lra.
      + replace (Z.of_nat (S (Z.to_nat (n - 1)))) with n by lia. lra.
    - destruct (f64_of_f32_val mm Fm) as (Fm' & Vm). destruct hundred_thousandth_val as (Fh & Bh). intros Hl. apply (ltb_lt 53 1024) in Hl; auto. lra. }
  pose proof (segments_range m mm : (- 2 ^ 31 <= n < 2 ^ 31)%Z) as Rn. clearbody ang. clearbody n. clearbody mm.
  assert (H' : exists ok l, arc_move m answer feed normal cw start center target h = (ok, rev l ++ h) /\ (l = [] -> SFltb (f64_of_f32 mm) (decimal64 1 100000) = true) /\
    (l = [] \/ (ok = true -> length l = S (Z.to_nat (n - 1)))) /\
    forall k x, nth_error l k = Some x -> x = (feed, target) \/
      (fst x = feed /\ (k < Z.to_nat (n - 1))%nat /\
       snd x first = point0 m (f32_sub (center first) (start first)) (f32_sub (center second) (start second)) (f32_add (start first) (f32_sub (center first) (start first))) (f32_div ang (f32_of_Z n)) (1 + Z.of_nat k) /\
       snd x second = point1 m (f32_sub (center first) (start first)) (f32_sub (center second) (start second)) (f32_add (start second) (f32_sub (center second) (start second))) (f32_div ang (f32_of_Z n)) (1 + Z.of_nat k) /\
       forall a, a <> first -> a <> second -> snd x a = advance (S k) (start a) (f32_div (f32_sub (target a) (start a)) (f32_of_Z n)))).
  { destruct H as [(E & Sk)|(ok & l & E & (fr & la & D & _) & Len & K)].
    - exists true, []. split; [exact E|]. split; [auto|]. split; [now left|]. intros [|k] x X; discriminate.
    - exists ok, l. split; [exact E|]. split; [intros ->; destruct fr; discriminate|]. split; [now right|exact K]. }
  clear H.
  destruct H' as (ok & l & E & Sk & Len & K).
  set (A := fun i => rnd32 (rnd32 (IZR i) * rnd32 (val ang / rnd32 (IZR n)))).
  exists ok, l, (val ang), (S (Z.to_nat (n - 1))), (fun k => if (n <? 2)%Z then 0 else A (Z.min (1 + Z.of_nat k) (n - 1))).
  split; [exact E|]. split; [exact Ba|]. split; [exact TT|]. split; [intros Msn Mtn; destruct (Way Msn Mtn) as (W1 & W2); split; [exact W1|auto]|].
  assert (SN : (2 <= n)%Z -> INR (S (Z.to_nat (n - 1))) = IZR n) by (intros; rewrite INR_IZR_INZ; f_equal; lia).
  assert (SK : forall k, INR (S k) = IZR (1 + Z.of_nat k)) by (intros; rewrite INR_IZR_INZ; f_equal; lia).
  split; [|split; [|split; [exact Len|]]].
  + intros k. destruct (n <? 2)%Z eqn:N2; [destruct cw; lra|]. unfold A. destruct cw.
    * apply angle_order; [lra|lia|lia|lia].
    * apply angle_order'; [lra|lia|lia|lia].
  + intros k Hk. destruct (n <? 2)%Z eqn:N2; [lia|]. rewrite SN, SK by lia. rewrite Z.min_l by lia. apply even_spacing; [exact Aa|lia|lia].
  + intros k x X. destruct (K k x X) as [->|(Fx & Hk & P0 & P1 & Pa)]; [now left|right]. split; [lia|]. destruct (n <? 2)%Z eqn:N2; [lia|].
    rewrite Z.min_l by lia. destruct (segment_angle ang n (1 + Z.of_nat k) Fa Aa ltac:(lia) ltac:(lia)) as (FA & BA & VA). fold (A (1 + Z.of_nat k)%Z) in VA. rewrite <- VA. split.
    * rewrite P0, P1. unfold point0, point1. apply point_near with (m := m); auto. lra.
    * intros a N0 N1 Ma Mt. rewrite (Pa a N0 N1). split.
      -- intros Ev. apply advance_zero; [apply Ma|apply Mt|exact Ev|lia].
      -- intros Hb. rewrite SN by lia. assert (Hk' : (Z.of_nat (S k) <= 1000000)%Z) by (apply le_IZR; rewrite <- INR_IZR_INZ; exact Hb).
         pose proof (advance_near (start a) (target a) n (S k) Ma Mt ltac:(lia) ltac:(lia) Hk') as (_ & _ & Q).
         replace (INR (S k) / IZR n * (val (target a) - val (start a))) with (INR (S k) * ((val (target a) - val (start a)) / IZR n)) by (assert (2 <= IZR n) by (apply IZR_le; lia); field; lra).
         exact Q.
Qed.
(** So no point is more than a fiftieth of a millimetre off the circle through the start. *)
Theorem C59_circle : forall m answer feed normal cw start center target h ok l x,
  good_trig m -> normal = AX \/ normal = AY \/ normal = AZ ->
  let first := fst (plane_axes normal) in
  let second := snd (plane_axes normal) in
  (forall a, a = first \/ a = second -> metre (start a) /\ metre (center a) /\ metre (target a)) ->
  arc_move m answer feed normal cw start center target h = (ok, rev l ++ h) -> In x l -> x <> (feed, target) ->
  near (/ 50) (dist_euc (val (snd x first)) (val (snd x second)) (val (center first)) (val (center second)))
              (dist_euc (val (start first)) (val (start second)) (val (center first)) (val (center second))).
Proof.
  intros m answer feed normal cw start center target h ok l x G N first second M E I Nx.
  destruct (C59_arc m answer feed normal cw start center target h G N M) as (ok' & l' & total & n & angle & E' & _ & _ & _ & _ & _ & _ & K). fold first second in K.
  rewrite E in E'. injection E' as <- El. apply app_inv_tail in El. apply (f_equal (@rev _)) in El. rewrite !rev_involutive in El. subst l'.
  apply In_nth_error in I as (k & I). destruct (K k x I) as [->|(_ & T & _)]; [congruence|]. clear - T. unfold turned in T. destruct T as (T0 & T1).
  set (x0 := val (snd x first)) in *. set (x1 := val (snd x second)) in *. clearbody x0 x1. set (c0 := val (center first)) in *. set (c1 := val (center second)) in *.
  set (s0 := val (start first)) in *. set (s1 := val (start second)) in *. clearbody c0 c1 s0 s1. set (a := angle k) in *. clearbody a.
  set (y0 := c0 + (s0 - c0) * cos a - (s1 - c1) * sin a) in *. set (y1 := c1 + (s0 - c0) * sin a + (s1 - c1) * cos a) in *.
  assert (D : dist_euc y0 y1 c0 c1 = dist_euc s0 s1 c0 c1).
  { unfold dist_euc. f_equal. unfold y0, y1, Rsqr. pose proof (sin2_cos2 a) as Q. unfold Rsqr in Q.
    replace ((s0 - c0) * (s0 - c0) + (s1 - c1) * (s1 - c1)) with (((s0 - c0) * (s0 - c0) + (s1 - c1) * (s1 - c1)) * (sin a * sin a + cos a * cos a)) by (rewrite Q; lra). ring. }
  rewrite <- D. clearbody y0 y1. assert (B : dist_euc x0 x1 y0 y1 <= / 50).
  { unfold near in *. assert (Q : 0 <= / 50) by lra. rewrite <- (sqrt_Rsqr (/ 50) Q). unfold dist_euc. apply sqrt_le_1_alt. apply Rabs_le_inv in T0. apply Rabs_le_inv in T1. unfold Rsqr. nra. }
  pose proof (triangle x0 x1 c0 c1 y0 y1) as T1'. pose proof (triangle y0 y1 c0 c1 x0 x1) as T2. rewrite (distance_symm y0 y1 x0 x1) in T2. unfold near. apply Rabs_le. lra.
Qed.

(** There is such a mathematical library: the nearest floats. *)
Definition nearest (r : R) : fl := SpecFloat.binary_normalize 24 128 (Ztrunc (scaled_mantissa radix2 (SpecFloat.fexp 24 128) (rnd32 r))) (cexp radix2 (SpecFloat.fexp 24 128) (rnd32 r)) false.
Lemma nearest_val : forall r, Rabs r <= 67108864 -> fin32 (nearest r) /\ val (nearest r) = rnd32 r.
Proof.
  intros r B. destruct (small_rnd r B) as (_ & S). assert (P24 : Prec_gt_0 24) by reflexivity. pose proof (fexp_correct 24 128 P24) as VE.
  assert (G : generic_format radix2 (SpecFloat.fexp 24 128) (rnd32 r)) by (apply generic_format_round; auto with typeclass_instances).
  assert (G' : F2R (Float radix2 (Ztrunc (scaled_mantissa radix2 (SpecFloat.fexp 24 128) (rnd32 r))) (cexp radix2 (SpecFloat.fexp 24 128) (rnd32 r))) = rnd32 r) by (symmetry; exact G).
  assert (R2 : rnd32 (rnd32 r) = rnd32 r) by (apply round_generic; auto with typeclass_instances).
  destruct (normalize_val 24 128 _ _ (Ztrunc (scaled_mantissa radix2 (SpecFloat.fexp 24 128) (rnd32 r))) (cexp radix2 (SpecFloat.fexp 24 128) (rnd32 r)) false) as (F & V).
  - rewrite G', R2. exact S.
  - rewrite G', R2 in V. split; [exact F|exact V].
Qed.
(** The direction of a point *)
Definition direction (y x : R) : R :=
  if Rlt_dec 0 x then atan (y / x) else if Rlt_dec x 0 then if Rle_dec 0 y then atan (y / x) + PI else atan (y / x) - PI else if Rle_dec 0 y then PI / 2 else - (PI / 2).
Lemma direction_ok : forall y x, - PI <= direction y x <= PI /\ x = len x y * cos (direction y x) /\ y = len x y * sin (direction y x).
Proof.
  intros y x. unfold direction. change len with nrm. pose proof PI_RGT_0 as P.
  assert (Pos : 0 <> x -> let q := sqrt (1 + (y / x)²) in 0 < q /\ nrm x y = Rabs x * q).
  { intros N q. assert (Q : 0 < 1 + (y / x)²) by (pose proof (Rle_0_sqr (y / x)); lra). split; [now apply sqrt_lt_R0|]. unfold nrm, q. rewrite <- sqrt_Rsqr_abs, <- sqrt_mult_alt by apply Rle_0_sqr. f_equal. unfold Rsqr. field. lra. }
  destruct (Rlt_dec 0 x) as [X|X].
  - destruct (Pos ltac:(lra)) as (Q & E). pose proof (atan_bound (y / x)) as B. split; [lra|]. rewrite cos_atan, sin_atan, E, (Rabs_pos_eq x) by lra. split; field; lra.
  - destruct (Rlt_dec x 0) as [X'|X'].
    + destruct (Pos ltac:(lra)) as (Q & E). pose proof (atan_bound (y / x)) as B. rewrite E, (Rabs_left x) by lra.
      assert (Sg : 0 < - (/ x)) by (apply Ropp_0_gt_lt_contravar, Rinv_lt_0_compat; lra).
      destruct (Rle_dec 0 y) as [Y|Y].
      * assert (A : atan (y / x) <= 0). { rewrite <- atan_0. destruct (Req_dec y 0) as [->|]; [unfold Rdiv; rewrite Rmult_0_l; lra|]. left. apply atan_increasing. unfold Rdiv. nra. }
        split; [lra|]. rewrite neg_cos, neg_sin, cos_atan, sin_atan. split; field; lra.
      * assert (A : 0 < atan (y / x)). { rewrite <- atan_0. apply atan_increasing. unfold Rdiv. nra. }
        split; [lra|]. replace (atan (y / x) - PI) with (- (PI - atan (y / x))) by ring. rewrite cos_neg, sin_neg. replace (PI - atan (y / x)) with (- atan (y / x) + PI) by ring. rewrite neg_cos, neg_sin, cos_neg, sin_neg, cos_atan, sin_atan. split; field; lra.
    + assert (x = 0) as -> by lra. replace (nrm 0 y) with (Rabs y) by (unfold nrm; rewrite <- sqrt_Rsqr_abs; f_equal; unfold Rsqr; ring).
      destruct (Rle_dec 0 y) as [Y|Y]; (split; [lra|]).
      * rewrite cos_PI2, sin_PI2, Rabs_pos_eq by lra. lra.
      * rewrite cos_neg, sin_neg, cos_PI2, sin_PI2, Rabs_left by lra. lra.
Qed.
Definition exact_libm : libm :=
  {| m_atan2 := fun y x => nearest (direction (val y) (val x)); m_hypot := fun x y => nearest (len (val x) (val y));
     m_cos := fun x => nearest (cos (val x)); m_sin := fun x => nearest (sin (val x)); m_asin := fun x => nearest (asin (val x)); m_int := fun _ => 0%Z |}.
Example ex_trig : good_trig exact_libm.
Proof.
  assert (Q : forall r, -4 <= r <= 4 -> fin32 (nearest r) /\ near (/ 1000000) (val (nearest r)) r).
  { intros r B. assert (A : Rabs r <= 4) by (apply Rabs_le; lra). destruct (nearest_val r ltac:(lra)) as (F & V). split; [exact F|]. unfold near. rewrite V. destruct (small_rnd r ltac:(lra)) as (E & _). lra. }
  split; [|split].
  - intros x _ _. cbn [m_cos m_sin exact_libm]. pose proof (COS_bound (val x)). pose proof (SIN_bound (val x)). destruct (Q (cos (val x)) ltac:(lra)). destruct (Q (sin (val x)) ltac:(lra)). auto.
  - intros y x _ _. cbn [m_atan2 exact_libm]. destruct (direction_ok (val y) (val x)) as (D1 & D2 & D3). pose proof pi_bounds. destruct (Q (direction (val y) (val x)) ltac:(lra)) as (F & N).
    split; [exact F|]. exists (direction (val y) (val x)). auto.
  - intros x y _ _ Bx By. cbn [m_hypot exact_libm]. change len with nrm. pose proof (nrm_le _ _ _ Bx By) as B. pose proof (nrm_pos (val x) (val y)) as P. set (h := nrm (val x) (val y)) in *.
    assert (A : Rabs h = h) by (apply Rabs_pos_eq; exact P). destruct (nearest_val h ltac:(lra)) as (F & V). split; [exact F|]. unfold near. rewrite V. destruct (small_rnd h ltac:(lra)) as (E & _). lra.
Qed.
Example ex_asin : good_asin exact_libm.
Proof.
  intros x F B. cbn [m_asin exact_libm]. pose proof (asin_bound (val x)) as A. pose proof pi_bounds as P. assert (A4 : Rabs (asin (val x)) <= 4) by (apply Rabs_le; lra).
  destruct (nearest_val (asin (val x)) ltac:(lra)) as (Fa & V). split; [exact Fa|]. exists (asin (val x)). split; [lra|]. split; [apply sin_asin; exact B|].
  unfold near. rewrite V. destruct (small_rnd (asin (val x)) ltac:(lra)) as (E & _). lra.
Qed.
Example ex_metre : forall a, metre (at_x 0 a) /\ metre (at_x 5 a) /\ metre (at_x 10 a).
Proof.
  assert (Q : forall z, (Z.abs z <= 1000)%Z -> metre (f32_of_Z z)).
  { intros z H. destruct (f32_of_Z_val z ltac:(lia)) as (F & V). split; [exact F|]. rewrite V. rewrite <- abs_IZR. apply IZR_le. lia. }
  assert (Z0 : metre f0) by (apply (Q 0%Z); lia). intros []; cbn [at_x]; auto using Q with zarith; split; try split; apply Q || exact Z0; lia.
Qed.

(** ** C60: a spline follows its Bezier curve *)
(** The k-th point is the curve's point at a parameter that goes from 0 in steps of a hundredth. Axes other than X and Y stay until the
    last move, which takes them to the target at once. *)
Theorem C60_spline : forall answer feed start cp1 cp2 target h,
  (forall a, a = AX \/ a = AY -> metre (start a) /\ metre (cp1 a) /\ metre (cp2 a) /\ metre (target a)) ->
  exists ok l (time : nat -> R),
    spline_move answer feed 101 start cp1 cp2 target h = Some (ok, rev l ++ h) /\
    time 0%nat = 0 /\ (forall k, (k < 100)%nat -> near (/ 1000000) (time (S k) - time k) (/ 100)) /\ (forall k, (k <= 100)%nat -> 0 <= time k < 1) /\
    forall k x, nth_error l k = Some x ->
      x = (feed, target) \/
      (k <= 100)%nat /\
      (forall a, a = AX \/ a = AY -> near (/ 100) (val (snd x a)) (bezier (time k) (val (start a)) (val (cp1 a)) (val (cp2 a)) (val (target a)))) /\
      (forall a, a <> AX -> a <> AY -> snd x a = start a).
Proof.
  intros answer feed start cp1 cp2 target h M. destruct (spline_main answer feed 101 start cp1 cp2 target h times_101) as (ok & l & E & _ & _ & K).
  exists ok, l, time. split; [exact E|]. split; [exact time_first|]. split; [intros k H; apply time_step; lia|]. split; [intros k H; apply time_ok; lia|].
  intros k x X. destruct (K k x X) as [->|(Hk & ->)]; [now left|right]. split; [lia|]. destruct (time_ok k Hk) as (F & B). split.
  - intros a Ha. destruct (M a Ha) as (M0 & M1 & M2 & M3).
    replace (snd (feed, calc_bezier_point (nth k all_times f0) start cp1 cp2 target) a) with (bezier_coord (nth k all_times f0) (start a) (cp1 a) (cp2 a) (target a)) by (destruct Ha as [->| ->]; reflexivity).
    apply bezier_near; auto. unfold time in B. lra.
  - intros a N0 N1. destruct a; try congruence; reflexivity.
Qed.
(** The last of these points is close to the target: the curve ends where the spline does. *)
Example ex_bezier : forall p0 p1 p2 p3, bezier 0 p0 p1 p2 p3 = p0 /\ bezier 1 p0 p1 p2 p3 = p3.
Proof. intros. unfold bezier. split; lra. Qed.
End R.
Print Assumptions C59_arc.
Print Assumptions C59_circle.
Print Assumptions C60_spline.
