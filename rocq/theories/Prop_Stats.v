(** C55: the print statistics. *)
From Coq Require Import Reals Lra SpecFloat.
From Flocq Require Import Core IEEE754.BinarySingleNaN.
From Verif Require Import Base Lib_List Model_Float Spec_Real Proofs_Real Model_Spindle Spec_Spindle Proofs_Spindle Model_Stats.

Definition fin_point (p : point) : Prop := fin32 (pt_x p) /\ fin32 (pt_y p) /\ fin32 (pt_z p) /\ fin32 (pt_e p).

(** [m] is the smallest of [start] and the values; [m] is the largest. *)
Definition is_min (start : R) (vs : list R) (m : R) : Prop := (m = start \/ In m vs) /\ (m <= start)%R /\ forall v, In v vs -> (m <= v)%R.
Definition is_max (start : R) (vs : list R) (m : R) : Prop := (m = start \/ In m vs) /\ (start <= m)%R /\ forall v, In v vs -> (v <= m)%R.

Lemma max_val : forall a b, fin32 a -> fin32 b -> fin32 (fl_max a b) /\ val (fl_max a b) = Rmax (val a) (val b).
Proof.
  intros a b Fa Fb. unfold fl_max. destruct (SFltb a b) eqn:E.
  - apply (ltb_lt 24 128) in E; auto. rewrite Rmax_right by lra. auto.
  - apply not_true_iff_false in E. rewrite (ltb_lt 24 128) in E by assumption. rewrite Rmax_left by lra. auto.
Qed.

Section Extremes.
Variable get : point -> fl.
Hypothesis get_fin : forall p, fin_point p -> fin32 (get p).

Lemma fold_min : forall l m, Forall fin_point l -> fin32 m ->
  let r := fold_left (fun m p => fl_min (get p) m) l m in
  fin32 r /\ is_min (val m) (map (fun p => val (get p)) l) (val r).
Proof using get_fin.
  induction l as [|p l IH]; intros m F Fm; cbn [fold_left map].
  - split; auto. repeat split; auto; try lra. intros v [].
  - inversion F; subst. destruct (min_val (get p) m) as [F' V']; auto.
    destruct (IH (fl_min (get p) m)) as (R1 & R2 & R3 & R4); auto. cbv zeta in *. split; auto.
    rewrite V' in R2, R3. pose proof (Rmin_l (val (get p)) (val m)). pose proof (Rmin_r (val (get p)) (val m)).
    repeat split; try lra.
    + destruct R2 as [R2|R2]; [|right; now right]. unfold Rmin in R2. destruct (Rle_dec (val (get p)) (val m)); [right; now left|now left].
    + intros v [<-|I]; [lra|auto].
Qed.

Lemma fold_max : forall l m, Forall fin_point l -> fin32 m ->
  let r := fold_left (fun m p => fl_max (get p) m) l m in
  fin32 r /\ is_max (val m) (map (fun p => val (get p)) l) (val r).
Proof using get_fin.
  induction l as [|p l IH]; intros m F Fm; cbn [fold_left map].
  - split; auto. repeat split; auto; try lra. intros v [].
  - inversion F; subst. destruct (max_val (get p) m) as [F' V']; auto.
    destruct (IH (fl_max (get p) m)) as (R1 & R2 & R3 & R4); auto. cbv zeta in *. split; auto.
    rewrite V' in R2, R3. pose proof (Rmax_l (val (get p)) (val m)). pose proof (Rmax_r (val (get p)) (val m)).
    repeat split; try lra.
    + destruct R2 as [R2|R2]; [|right; now right]. unfold Rmax in R2. destruct (Rle_dec (val (get p)) (val m)); [now left|right; now left].
    + intros v [<-|I]; [lra|auto].
Qed.
End Extremes.

Lemma stats_fold : forall l s,
  fold_left update_stats l s =
  mk_stats (fold_left (fun m p => fl_min (pt_x p) m) l (st_x_min s)) (fold_left (fun m p => fl_max (pt_x p) m) l (st_x_max s))
           (fold_left (fun m p => fl_min (pt_y p) m) l (st_y_min s)) (fold_left (fun m p => fl_max (pt_y p) m) l (st_y_max s))
           (fold_left (fun m p => fl_min (pt_z p) m) l (st_z_min s)) (fold_left (fun m p => fl_max (pt_z p) m) l (st_z_max s))
           (st_last_z (fold_left update_stats l s)) (st_filament (fold_left update_stats l s)).
Proof.
  induction l as [|p l IH]; intros s; cbn [fold_left]; [now destruct s|]. rewrite IH at 1. reflexivity.
Qed.

Lemma big_val : fin32 (f32_of_Z 10000000) /\ val (f32_of_Z 10000000) = 10000000%R.
Proof. apply f32_of_Z_val. lia. Qed.

(** For every sequence of moves to finite positions: the reported minimum of X is the
    smallest of the X coordinates and ten million, the maximum the largest of them and 0;
    same for Y; both extremes of Z are taken together with 0. *)
Theorem C55_extremes : forall moves, Forall fin_point moves ->
  let s := stats_of moves in
  is_min 10000000 (map (fun p => val (pt_x p)) moves) (val (st_x_min s)) /\
  is_max 0 (map (fun p => val (pt_x p)) moves) (val (st_x_max s)) /\
  is_min 10000000 (map (fun p => val (pt_y p)) moves) (val (st_y_min s)) /\
  is_max 0 (map (fun p => val (pt_y p)) moves) (val (st_y_max s)) /\
  is_min 0 (map (fun p => val (pt_z p)) moves) (val (st_z_min s)) /\
  is_max 0 (map (fun p => val (pt_z p)) moves) (val (st_z_max s)).
Proof.
  intros moves F s. unfold s, stats_of. rewrite stats_fold.
  cbn [st_x_min st_x_max st_y_min st_y_max st_z_min st_z_max stats_init].
  destruct zero_val as [F0 V0]. destruct big_val as [Fb Vb].
  assert (forall p, fin_point p -> fin32 (pt_x p)) as Gx by (intros p P; apply P).
  assert (forall p, fin_point p -> fin32 (pt_y p)) as Gy by (intros p P; apply P).
  assert (forall p, fin_point p -> fin32 (pt_z p)) as Gz by (intros p P; apply P).
  pose proof (fold_min pt_x Gx moves _ F Fb) as [_ A1]. pose proof (fold_max pt_x Gx moves _ F F0) as [_ A2].
  pose proof (fold_min pt_y Gy moves _ F Fb) as [_ A3]. pose proof (fold_max pt_y Gy moves _ F F0) as [_ A4].
  pose proof (fold_min pt_z Gz moves _ F F0) as [_ A5]. pose proof (fold_max pt_z Gz moves _ F F0) as [_ A6].
  rewrite ?Vb, ?V0 in *. auto 10.
Qed.
Print Assumptions C55_extremes.

(** So within the usual ranges the box is exact: it holds every commanded X (and Y) and
    both ends are commanded values. *)
Theorem C55_box : forall moves, Forall fin_point moves -> moves <> [] ->
  (forall p, In p moves -> (0 <= val (pt_x p) <= 10000000)%R) ->
  let s := stats_of moves in
  (forall p, In p moves -> (val (st_x_min s) <= val (pt_x p) <= val (st_x_max s))%R) /\
  (exists p, In p moves /\ val (pt_x p) = val (st_x_min s)) /\
  (exists p, In p moves /\ val (pt_x p) = val (st_x_max s)).
Proof.
  intros moves F N B s. destruct (C55_extremes moves F) as ((A1 & A2 & A3) & (B1 & B2 & B3) & _). fold s in A1, A2, A3, B1, B2, B3.
  assert (exists p, In p moves) as [p0 I0] by (destruct moves as [|p l]; [contradiction|exists p; now left]).
  assert (forall p, In p moves -> In (val (pt_x p)) (map (fun p => val (pt_x p)) moves)) as M by (intros p I; now apply (in_map (fun p => val (pt_x p)))).
  split; [|split].
  - intros p I. split; [apply A3|apply B3]; auto.
  - destruct A1 as [A1|A1].
    + exists p0. split; auto. pose proof (A3 _ (M p0 I0)). pose proof (B p0 I0). lra.
    + apply in_map_iff in A1. destruct A1 as (p & E & I). eauto.
  - destruct B1 as [B1|B1].
    + exists p0. split; auto. pose proof (B3 _ (M p0 I0)). pose proof (B p0 I0). lra.
    + apply in_map_iff in B1. destruct B1 as (p & E & I). eauto.
Qed.
Print Assumptions C55_box.

(** The filament length is the last extruder position; the printed height is the Z of the
    last move that raised the extruder position, 0 if there is none. *)
Fixpoint printed_height (e z : R) (moves : list point) : R :=
  match moves with
  | [] => z
  | p :: r => printed_height (val (pt_e p)) (if Rlt_dec e (val (pt_e p)) then val (pt_z p) else z) r
  end.

Lemma last_shift : forall A (l : list A) a d, last (a :: l) d = last l a.
Proof. induction l as [|b l IH]; intros a d; [reflexivity|]. change (last (a :: b :: l) d) with (last (b :: l) d). rewrite IH. symmetry. apply IH. Qed.

Theorem C55_filament : forall moves, Forall fin_point moves ->
  st_filament (stats_of moves) = last (map pt_e moves) (f32_of_Z 0) /\
  val (st_last_z (stats_of moves)) = printed_height 0 0 moves.
Proof.
  intros moves F. destruct zero_val as [F0 V0]. unfold stats_of.
  assert (forall l s, Forall fin_point l -> fin32 (st_filament s) ->
    st_filament (fold_left update_stats l s) = last (map pt_e l) (st_filament s) /\
    val (st_last_z (fold_left update_stats l s)) = printed_height (val (st_filament s)) (val (st_last_z s)) l) as G.
  { induction l as [|p l IH]; intros s Fl Fs; cbn [fold_left map]; [auto|]. inversion Fl; subst.
    destruct (IH (update_stats s p)) as [E1 E2]; auto; [cbn; apply H1|]. rewrite E1, E2. cbn [update_stats st_filament st_last_z printed_height].
    split.
    - symmetry. apply last_shift.
    - f_equal. destruct (Rlt_dec (val (st_filament s)) (val (pt_e p))) as [L|L].
      + replace (SFltb (st_filament s) (pt_e p)) with true; auto. symmetry. apply (ltb_lt 24 128); auto. apply H1.
      + replace (SFltb (st_filament s) (pt_e p)) with false; auto. symmetry. apply not_true_iff_false.
        rewrite (ltb_lt 24 128); auto. apply H1. }
  destruct (G moves stats_init F F0) as [E1 E2]. rewrite E1, E2. cbn [stats_init st_filament st_last_z]. rewrite V0. auto.
Qed.
Print Assumptions C55_filament.

Definition at_ (x y z e : Z) : point := mk_point (f32_of_Z x) (f32_of_Z y) (f32_of_Z z) (f32_of_Z e).
Lemma at_fin : forall x y z e, Z.abs x <= 1000 -> Z.abs y <= 1000 -> Z.abs z <= 1000 -> Z.abs e <= 1000 -> fin_point (at_ x y z e).
Proof. intros. repeat split; cbn [at_ pt_x pt_y pt_z pt_e]; apply f32_of_Z_val; lia. Qed.

Example C55_ex : let s := stats_of [at_ 10 5 1 0; at_ 30 2 1 7; at_ 20 9 8 7] in
  (st_x_min s, st_x_max s, st_y_min s, st_y_max s, st_last_z s, st_filament s) =
  (f32_of_Z 10, f32_of_Z 30, f32_of_Z 2, f32_of_Z 9, f32_of_Z 1, f32_of_Z 7).
Proof. vm_compute. reflexivity. Qed.

(** The reported minimum of Z is 0 although every move is at Z = 5 (its start value was
    forgotten), and the reported maximum of X is 0 although every move has X = -5. *)
Theorem C55_z_min_refuted : let s := stats_of [at_ (-5) 1 5 0] in
  st_z_min s = f32_of_Z 0 /\ st_x_max s = f32_of_Z 0 /\ fin_point (at_ (-5) 1 5 0) /\ val (f32_of_Z 5) = 5%R /\ val (f32_of_Z (-5)) = (-5)%R.
Proof.
  split; [vm_compute; reflexivity|]. split; [vm_compute; reflexivity|]. split; [apply at_fin; lia|].
  split; apply f32_of_Z_val; lia.
Qed.
