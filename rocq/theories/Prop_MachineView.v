(** C84: the picture of the movement of the machine shows where the motors go. *)
From Coq Require Import SpecFloat.
From Verif Require Import Base Model_Float Model_Axis Model_Planner Model_MachineView Spec_MachineView.

Definition agree (p q : mreg) : Prop := forall m, shown_motor m -> p m = q m.
Lemma agree_mm : forall c p q, agree p q -> place c p = at_mm (mv_steps c) q.
Proof. intros c p q A. unfold place, at_mm, mm, spmm. rewrite (A M1), (A M2), (A M3) by (unfold shown_motor; auto). reflexivity. Qed.
Lemma agree_place : forall p q m x, agree p q -> agree (fun y => if motor_eqb y m then x else p y) (fun y => if motor_eqb y m then x else q y).
Proof. intros p q m x A y Y. cbn beta. destruct (motor_eqb y m); [reflexivity|apply A, Y]. Qed.
Lemma agree_add : forall p q k, agree p q -> agree (add_xyz p (Model_Planner.c_steps k)) (after_call q (Move k)).
Proof. intros p q k A y Y. unfold add_xyz, after_call. destruct Y as [-> | [-> | -> ]]; rewrite A by (unfold shown_motor; auto); reflexivity. Qed.
Lemma agree_still : forall p q k, agree p q -> seen k = false -> agree p (after_call q (Move k)).
Proof.
  intros p q k A S y Y. unfold after_call, seen in *. apply negb_false_iff in S. apply andb_true_iff in S. destruct S as [S S3]. apply andb_true_iff in S. destruct S as [S1 S2].
  apply Z.eqb_eq in S1, S2, S3. rewrite (A y Y). destruct Y as [-> | [-> | -> ]]; lia.
Qed.
(** The dominant motor turns whenever one does. *)
Lemma dominant_max : forall s m, Z.abs (s m) <= Z.abs (s (dominant s)).
Proof.
  intros s. assert (G : forall l d, Z.abs (s d) <= Z.abs (s (fold_left (fun d m => if Z.abs (s d) <? Z.abs (s m) then m else d) l d)) /\
    forall m, In m l -> Z.abs (s m) <= Z.abs (s (fold_left (fun d m => if Z.abs (s d) <? Z.abs (s m) then m else d) l d))).
  { induction l as [|x l IH]; intros d; [split; [apply Z.le_refl|intros m []]|]. cbn [fold_left].
    destruct (Z.ltb_spec (Z.abs (s d)) (Z.abs (s x))) as [H|H].
    - destruct (IH x) as [I1 I2]. split; [lia|]. intros m [<-|M]; [exact I1|exact (I2 m M)].
    - destruct (IH d) as [I1 I2]. split; [exact I1|]. intros m [<-|M]; [lia|exact (I2 m M)]. }
  intros m. destruct (G (tl all_motors) M1) as [G1 G2]. unfold dominant. destruct m; [exact G1|apply G2; cbn; tauto..].
Qed.
Lemma something : forall c k es, geared (mv_steps c) es -> In (Move k) es -> nothing_to_do c (Model_Planner.c_steps k) = true -> seen k = false.
Proof.
  intros c k es G I N. unfold nothing_to_do in N. destruct (Z.eq_dec (Model_Planner.c_steps k (dominant (Model_Planner.c_steps k))) 0) as [E|E].
  - unfold seen. apply negb_false_iff. pose proof (dominant_max (Model_Planner.c_steps k)) as D. rewrite E in D. pose proof (D M1). pose proof (D M2). pose proof (D M3). cbn in *. repeat (apply andb_true_iff; split); apply Z.eqb_eq; lia.
  - pose proof (G k _ I E) as Q. unfold spmm in N. rewrite Q in N. apply Z.eqb_neq in E. rewrite E in N. discriminate.
Qed.
Lemma second_ok : forall c es z q, mv_speeds c = false -> geared (mv_steps c) es -> agree (mv_pos z) q ->
  exists z' ms, second_pass c es z = Ok (z', ms) /\
    drawn (Some (at_mm (mv_steps c) q)) ms = map (fun l => (Some (at_mm (mv_steps c) (fst l)), at_mm (mv_steps c) (snd l))) (track q es).
Proof.
  intros c es. induction es as [|e es IH]; intros z q Sp G A; [exists z, []; split; reflexivity|].
  assert (G' : geared (mv_steps c) es) by (intros k m I; apply G; right; exact I).
  destruct e as [k|m p]; cbn [second_pass second_step track].
  - destruct (seen k) eqn:Se.
    + assert (N : nothing_to_do c (Model_Planner.c_steps k) = false) by (destruct (nothing_to_do c _) eqn:E; [|reflexivity]; pose proof (something c k (Move k :: es) G ltac:(now left) E); congruence).
      rewrite N. unfold print_segment. rewrite Sp. apply negb_true_iff in Se. rewrite Se. cbn [obind].
      match goal with |- context [second_pass c es ?z1] => destruct (IH z1 (after_call q (Move k)) Sp G') as (z' & ms & E & D) end; [cbn [mv_pos with_pos]; apply agree_add, A|].
      rewrite E. cbn [obind]. do 2 eexists. split; [reflexivity|].
      rewrite (agree_mm c _ (after_call q (Move k))) by (apply agree_add, A).
      destruct (mv_colored z); cbn [app drawn map fst snd]; rewrite D; reflexivity.
    + assert (Q : (if nothing_to_do c (Model_Planner.c_steps k) then Ok (z, []) else print_segment c k z) = Ok (z, [])).
      { unfold print_segment. apply negb_false_iff in Se. rewrite Se. destruct (nothing_to_do c _); reflexivity. }
      rewrite Q. cbn [obind]. destruct (IH z (after_call q (Move k)) Sp G' (agree_still _ _ _ A Se)) as (z' & ms & E & D). rewrite E. cbn [obind app]. do 2 eexists. split; [reflexivity|].
      rewrite <- (agree_mm c (mv_pos z) _ (agree_still _ _ _ A Se)) in D. rewrite <- (agree_mm c (mv_pos z) q A). exact D.
  - cbn [obind]. match goal with |- context [second_pass c es ?z1] => destruct (IH z1 (after_call q (Place m p)) Sp G') as (z' & ms & E & D) end; [cbn [mv_pos with_pos after_call]; apply agree_place, A|].
    rewrite E. cbn [obind app drawn]. do 2 eexists. split; [reflexivity|]. cbn [drawn]. rewrite (agree_mm c _ (after_call q (Place m p))) by (cbn [after_call]; apply agree_place, A). exact D.
Qed.
Lemma begin_pos : forall z, mv_pos (begin_output z) = mv_pos z.
Proof. reflexivity. Qed.
Lemma first_pos : forall c es m, settled m es -> mv_pos (first_pass c es mv_init) m = stands es (fun _ => 0) m.
Proof.
  intros c es m. induction es as [|e es IH] using rev_ind; intros S; [reflexivity|].
  assert (S' : (forall p, e <> Place m p) -> settled m es).
  { intros N l k r -> T. destruct (S l k (r ++ [e])) as (p & P); [now rewrite <- app_assoc|exact T|]. apply in_app_or in P. destruct P as [P|[P|[]]]; [now exists p|]. exfalso. exact (N p P). }
  unfold first_pass, stands in *. rewrite !fold_left_app. cbn [fold_left]. set (z := fold_left _ es mv_init) in *.
  destruct e as [k|x p].
  - assert (T : Model_Planner.c_steps k m = 0) by (destruct (Z.eq_dec (Model_Planner.c_steps k m) 0) as [Q|Q]; [exact Q|]; destruct (S es k [] eq_refl Q) as (p & [])).
    assert (L : mv_pos (first_step c (Move k) z) = mv_pos z) by (cbn [first_step]; destruct (nothing_to_do c _); [reflexivity|]; unfold look_at; destruct (_ <=? 3); reflexivity).
    rewrite L, IH by (apply S'; discriminate). cbn [after_call]. lia.
  - cbn [first_step with_pos mv_pos after_call]. destruct (motor_eqb m x) eqn:E; [reflexivity|]. apply IH, S'. intros q Q. injection Q as -> ->. unfold motor_eqb in E. rewrite Z.eqb_refl in E. discriminate.
Qed.

(** Without speeds, the picture shows exactly the lines of the motors from where they stand after
    the first pass, one for each command that moves X, Y or Z, if each of these is told where it
    stands after its last move, and if what moves has steps per millimetre. *)
Theorem C84_path : forall c first second, mv_speeds c = false -> geared (mv_steps c) second -> (forall m, shown_motor m -> settled m first) ->
  exists ms, machine_picture c first second = Ok ms /\
    drawn None ms = map (fun l => (Some (at_mm (mv_steps c) (fst l)), at_mm (mv_steps c) (snd l))) (track (stands first (fun _ => 0)) second).
Proof.
  intros c first second Sp G S. assert (A : agree (mv_pos (begin_output (first_pass c first mv_init))) (stands first (fun _ => 0))) by (intros m M; rewrite begin_pos; apply first_pos, S, M).
  destruct (second_ok c second _ _ Sp G A) as (z' & ms & E & D). unfold machine_picture. rewrite E. cbn [obind]. eexists. split; [reflexivity|]. cbn [drawn]. rewrite (agree_mm c _ _ A). exact D.
Qed.
Print Assumptions C84_path.

(** A square of 10 steps, with a homed machine of 10 steps per millimetre. *)
Definition to (x y : Z) (v0 v1 : Z) : call := Move (mk_command (f32_of_Z v0) (f32_of_Z v1) 0 (fun m => match m with M1 => x | M2 => y | _ => 0 end)).
Definition tens (speeds : bool) : mv_config := {| mv_steps := fun _ => f32_of_Z 10; mv_speeds := speeds; mv_length := f32_of_Z 1 |}.
Definition square : list call := [to 10 0 5 5; to 0 10 5 5; to (-10) 0 5 5; to 0 (-10) 5 5].
Definition homing : list call := [Place M1 0; Place M2 20; Place M3 0].
Example C84_example : geared (mv_steps (tens false)) square /\ (forall m, shown_motor m -> settled m (square ++ homing)) /\
  track (stands (square ++ homing) (fun _ => 0)) square <> [].
Proof.
  split; [intros k m _ _; reflexivity|]. split; [|discriminate]. intros m M l k r E T.
  assert (P : exists p, In (Place m p) homing) by (destruct M as [-> | [-> | -> ]]; eexists; cbn; eauto). destruct P as (p & P).
  assert (H : forall hs l r, (forall k, ~ In (Move k) hs) -> forall sq, sq ++ hs = l ++ Move k :: r -> forall p, In (Place m p) hs -> In (Place m p) r).
  { clear. intros hs l. revert hs. induction l as [|x l IH]; intros hs r N sq E p P.
    - destruct sq as [|y sq]; cbn [app] in E; [subst hs; exfalso; apply (N k); now left|]. injection E as -> <-. apply in_or_app. now right.
    - destruct sq as [|y sq]; cbn [app] in E; [subst hs; exfalso; apply (N k); right; apply in_or_app; right; now left|]. injection E as -> E. eapply IH; eauto. }
  exists p. apply (H homing l r) with (sq := square); [|exact E|exact P]. intros q Q. cbn in Q. intuition discriminate.
Qed.
Example C84_example_drawn : match machine_picture (tens false) (square ++ homing) square with
  | Ok ms => drawn None ms = map (fun '(a, b, c, d) => (Some (f32_of_Z a, f32_of_Z b, f32_of_Z 0), (f32_of_Z c, f32_of_Z d, f32_of_Z 0))) [(0, 2, 1, 2); (1, 2, 1, 3); (1, 3, 0, 3); (0, 3, 0, 2)]
  | Undefined => False end.
Proof. vm_compute. reflexivity. Qed.

(** An axis that is not told its place (home_axis returns at once without a homing switch,
    gcode-machine-control.cc:1036-1039) is shown from a wrong place in the second pass: the moves
    of the first pass are forgotten. *)
Theorem C84_unhomed_refuted : exists c first second ms, mv_speeds c = false /\ geared (mv_steps c) (first ++ second) /\ machine_picture c first second = Ok ms /\
  drawn None ms <> map (fun l => (Some (at_mm (mv_steps c) (fst l)), at_mm (mv_steps c) (snd l))) (track (stands first (fun _ => 0)) second).
Proof.
  exists (tens false), [to 100 0 5 5], [to 50 0 5 5]. eexists. split; [reflexivity|]. split; [intros k m _ _; reflexivity|]. split; [vm_compute; reflexivity|]. vm_compute. discriminate.
Qed.
Print Assumptions C84_unhomed_refuted.

(** A machine without Z, with zero steps per millimetre for it, as many laser cutters: the Z of
    every point is not a number. *)
Theorem C84_flat_refuted : exists c first second ms, mv_speeds c = false /\ geared (mv_steps c) (first ++ second) /\ machine_picture c first second = Ok ms /\
  exists x y, drawn None ms = [(Some (f32_of_Z 0, f32_of_Z 2, S754_nan), (x, y, S754_nan))].
Proof.
  exists {| mv_steps := fun a => match a with AX | AY => f32_of_Z 10 | _ => f32_of_Z 0 end; mv_speeds := false; mv_length := f32_of_Z 1 |}, (square ++ homing), [to 50 10 5 5].
  eexists. split; [reflexivity|]. split; [|split; [vm_compute; reflexivity|do 2 eexists; vm_compute; reflexivity]].
  intros k m I T. destruct m; try reflexivity; exfalso; apply T; cbn in I; destruct I as [I|[I|[I|[I|[I|[I|[I|[I|[]]]]]]]]]; try discriminate I; injection I as <-; reflexivity.
Qed.
Print Assumptions C84_flat_refuted.

(** With speeds: if all is moved at one speed, there is no colour for it, 0 / 0 is converted to
    int. *)
Theorem C84_steady_refuted : exists c first second, mv_speeds c = true /\ geared (mv_steps c) (first ++ second) /\ (forall m, shown_motor m -> settled m first) /\
  machine_picture c first second = Undefined.
Proof.
  exists (tens true), (square ++ homing), square. split; [reflexivity|]. split; [intros k m _ _; reflexivity|]. split; [apply C84_example|]. vm_compute. reflexivity.
Qed.
Print Assumptions C84_steady_refuted.
