(** C63: no axis is driven faster than its limit, and no move faster than asked for.
    C64: no axis is accelerated more than its limit. *)
From Coq Require Import SpecFloat Reals Lra.
From Flocq Require Import Core IEEE754.BinarySingleNaN.
From Verif Require Import Base Model_Float Model_Axis Model_Hardware Model_Planner Spec_Real Spec_Planner Spec_Speeds Spec_Limits Proofs_Real Proofs_Profile Proofs_Speeds Proofs_Joints Proofs_Limits Proofs_Corner Proofs_Path Proofs_Within Proofs_Sound Proofs_Keep Prop_Planner Prop_Speeds.
Open Scope Z_scope.
Open Scope R_scope.

Lemma Forall2_more : forall (X Y : Type) (P Q : X -> Y -> Prop), (forall x y, P x y -> Q x y) -> forall l m, Forall2 P l m -> Forall2 Q l m.
Proof. intros X Y P Q H l m F. induction F; constructor; auto. Qed.
Lemma kept : forall c A os st, willing c -> drivable c A -> sane_calls c (at_home c) os -> history c os = Ok st ->
  exists gs done rest, orders c (at_home c) os = done ++ rest /\ concat gs = rev (sent (p_log st)) /\ Forall2 (fits c) gs done.
Proof.
  intros c A os st W D S E. apply history_new in E. destruct E as (s0 & N & E). pose proof (drivable_less _ _ D) as D'. pose proof (new_keeps c (Rmin A (bpow radix2 44)) s0 N) as P.
  destruct (keeps_all c _ D' (less_max A) W os _ _ s0 st P S E) as (pos & hd & pend & St & _). destruct (z_sent _ _ _ _ _ _ _ St) as (gs & done & rest & F1 & F2 & F3 & _). exists gs, done, rest. auto.
Qed.
Lemma kept_all : forall c A os st, willing c -> drivable c A -> sane_calls c (at_home c) os -> history c (os ++ [Halt]) = Ok st ->
  exists gs, concat gs = rev (sent (p_log st)) /\ Forall2 (fits c) gs (orders c (at_home c) os).
Proof.
  intros c A os st W D S E. apply history_new in E. destruct E as (s0 & N & E). pose proof (drivable_less _ _ D) as D'. pose proof (new_keeps c (Rmin A (bpow radix2 44)) s0 N) as P.
  destruct (keeps_halt c _ D' (less_max A) W os _ _ s0 st P S E) as (ps & St). destruct (z_sent _ _ _ _ _ _ _ St) as (gs & done & rest & F1 & F2 & F3 & F4). inversion F4; subst. rewrite app_nil_r in F1. cbn [app] in F1.
  exists gs. rewrite F1. auto.
Qed.

(** The commands sent are those of the first legs asked for, in order: each leg is carried
    out, no axis moves faster than its limit, and the way in X, Y and Z (or, without one, the
    axis with most steps) is not made faster than the move's feedrate. *)
Theorem C63_speed_limits : forall c A os st, willing c -> drivable c A -> sane_calls c (at_home c) os -> history c os = Ok st ->
  exists gs done rest, orders c (at_home c) os = done ++ rest /\ concat gs = rev (sent (p_log st)) /\ Forall2 (in_speed c) gs done.
Proof.
  intros c A os st W D S E. destruct (kept c A os st W D S E) as (gs & done & rest & F1 & F2 & F3). exists gs, done, rest. split; [exact F1|]. split; [exact F2|]. eapply Forall2_more; [|exact F3]. intros g o [H _]. exact H.
Qed.
Print Assumptions C63_speed_limits.
Theorem C63_halted : forall c A os st, willing c -> drivable c A -> sane_calls c (at_home c) os -> history c (os ++ [Halt]) = Ok st ->
  exists gs, concat gs = rev (sent (p_log st)) /\ Forall2 (in_speed c) gs (orders c (at_home c) os).
Proof.
  intros c A os st W D S E. destruct (kept_all c A os st W D S E) as (gs & F1 & F2). exists gs. split; [exact F1|]. eapply Forall2_more; [|exact F2]. intros g o [H _]. exact H.
Qed.
Print Assumptions C63_halted.

(** An axis driven directly gets the speeds asked for, cut at its limit. *)
Theorem C63_drive : forall c os a x v0 v1 aux st, driven c a ->
  fin32 v0 -> 0 <= val v0 <= 1048576 -> fin32 v1 -> 0 <= val v1 <= 1048576 -> history c (os ++ [Drive a x v0 v1 aux]) = Ok st ->
  exists before y, rev (sent (p_log st)) = before ++ [y] /\ c_aux y = aux /\ (forall m, turns_for c m a -> c_steps y m = steps_at c a x) /\
    let cut v := Rmin (val v * val (p_steps_per_mm c a)) (max_speed c a) in
    Rabs (val (c_v0 y) - cut v0) <= / 1000 * cut v0 + / 1000000 /\ Rabs (val (c_v1 y) - cut v1) <= / 1000 * cut v1 + / 1000000.
Proof.
  intros c os a x v0 v1 aux st Da F0 B0 F1 B1 E. apply history_new in E. destruct E as (s0 & N & E).
  assert (X : exists s1 n, perform_all c os s0 = Ok s1 /\ direct_drive c a x v0 v1 aux s1 = Ok (n, st)).
  { clear N. revert s0 E. induction os as [|o os IH]; intros s0 E; cbn [app perform_all] in *.
    - cbn [perform] in E. destruct (direct_drive c a x v0 v1 aux s0) as [[n s2]|] eqn:B; [|discriminate]. exists s0, n. split; [reflexivity|]. cbn [obind] in E. now injection E as <-.
    - destruct (perform c o s0); [|discriminate]. now apply IH. }
  destruct X as (s1 & n & _ & X). unfold direct_drive in X. destruct (bring_to_halt c s1) as [s2|]; [|discriminate]. cbn [obind] in X. unfold enqueue in X. injection X as _ <-. cbn [p_log sent flat_map app rev]. fold (sent (p_log s2)).
  eexists (rev (sent (p_log s2))), _. split; [reflexivity|]. cbn [c_aux c_steps c_v0 c_v1]. split; [reflexivity|]. split.
  - intros m T. unfold assign_motor_steps. now rewrite (proj2 (T a) eq_refl).
  - cbv zeta. destruct (capped c a Da v0 F0 B0) as ([H1 H2] & H3 & _). destruct (capped c a Da v1 F1 B1) as ([H4 H5] & H6 & _). unfold about in *.
    set (k0 := Rmin (val v0 * _) _) in *. set (k1 := Rmin (val v1 * _) _) in *. split; apply Rabs_le; lra.
Qed.
Print Assumptions C63_drive.

(** The speeds change no faster than the accelerations allow in the steps of the command and
    one and a half steps more. *)
Theorem C64_acceleration_limits : forall c A os st, willing c -> drivable c A -> sane_calls c (at_home c) os -> history c os = Ok st ->
  exists gs done rest, orders c (at_home c) os = done ++ rest /\ concat gs = rev (sent (p_log st)) /\ Forall2 (in_accel c) gs done.
Proof.
  intros c A os st W D S E. destruct (kept c A os st W D S E) as (gs & done & rest & F1 & F2 & F3). exists gs, done, rest. split; [exact F1|]. split; [exact F2|]. eapply Forall2_more; [|exact F3]. intros g o [_ H]. exact H.
Qed.
Print Assumptions C64_acceleration_limits.
Theorem C64_halted : forall c A os st, willing c -> drivable c A -> sane_calls c (at_home c) os -> history c (os ++ [Halt]) = Ok st ->
  exists gs, concat gs = rev (sent (p_log st)) /\ Forall2 (in_accel c) gs (orders c (at_home c) os).
Proof.
  intros c A os st W D S E. destruct (kept_all c A os st W D S E) as (gs & F1 & F2). exists gs. split; [exact F1|]. eapply Forall2_more; [|exact F2]. intros g o [_ H]. exact H.
Qed.
Print Assumptions C64_halted.

(** ** A path with all kinds of calls *)
Definition limit_path : list call :=
  [Move (to_xyz 10 0 0) (f32_of_Z 50) 1; Move (to_xyz 20 1 0) (f32_of_Z 80) 3; Move (to_xyz 0 1 0) (f32_of_Z 900) 2; Lookahead 2; Drive AX (f32_of_Z 5) (f32_of_Z 1) (f32_of_Z 500) 0;
   Position AX (f32_of_Z 3); Move (to_xyz 10 10 0) (f32_of_Z 200) 0]%Z.
Example C63_sane : sane_calls mill (at_home mill) limit_path.
Proof.
  assert (K : forall to f aux pos x y, good_feed f -> (forall a, steps_at mill a (to a) - pos a = match a with AX => x | AY => y | _ => 0 end)%Z -> (x <> 0 \/ y <> 0)%Z -> (Z.abs x <= 100000)%Z -> (Z.abs y <= 100000)%Z -> sane_call mill pos (Move to f aux)).
  { intros to f aux pos x y Gf E N Bx By. split; [exact Gf|]. cbn [asks]. destruct (forallb _ all_axes); constructor; [|constructor]. eapply mill_good; eauto. }
  unfold limit_path.
  split; [apply (K _ _ _ _ 1000%Z 0%Z); [apply good_Z; lia|steps|lia|lia|lia]|].
  split; [apply (K _ _ _ _ 1000%Z 100%Z); [apply good_Z; lia|steps|lia|lia|lia]|].
  split; [apply (K _ _ _ _ (-2000)%Z 0%Z); [apply good_Z; lia|steps|lia|lia|lia]|].
  split; [exact I|]. split; [split; [apply mill_driven|]|].
  { intros v [->| ->]; [destruct (mill_val 1 ltac:(lia)) as [F V]|destruct (mill_val 500 ltac:(lia)) as [F V]]; rewrite V; (split; [exact F|lra]). }
  split; [exact I|]. split; [|exact I]. apply (K _ _ _ _ 700%Z 900%Z); [apply good_Z; lia|steps|lia|lia|lia].
Qed.
Example C63_happens : exists st, history mill (limit_path ++ [Halt]) = Ok st /\ length (sent (p_log st)) = 11%nat.
Proof.
  exists (outcome_get (history mill (limit_path ++ [Halt]))). split; [apply outcome_got; vm_compute; reflexivity|]. vm_compute. reflexivity.
Qed.

(** ** Without the additional steps *)

(** AccelerationPlanSegment cuts the ramp up to the speed of the segment to whole steps, and
    keeps the speed. A leg with 49.65 mm/s and then one with 50 mm/s: the speed changes from
    4965 to 5000 steps/s in one step, which takes 1.74 times the acceleration configured. *)
Definition faster_path : list call := [Move (to_xyz 10 0 0) (f32_div (f32_of_Z 993) (f32_of_Z 20)) 0; Move (to_xyz 20 0 0) (f32_of_Z 50) 0; Halt]%Z.
Lemma third_of : forall (l : list command), (3 <=? Z.of_nat (length l))%Z = true -> l = firstn 2 l ++ nth 2 l no_command :: skipn 3 l.
Proof. intros [|a [|b [|c l]]] H; try discriminate H. reflexivity. Qed.
Theorem C64_whole_steps_refuted : exists os st before x behind,
  willing mill /\ drivable mill 100000 /\ sane_calls mill (at_home mill) os /\ history mill os = Ok st /\ rev (sent (p_log st)) = before ++ x :: behind /\
  turns_for mill M1 AX /\ max_accel mill AX = 100000 /\ (forall m, m <> M1 -> c_steps x m = 0%Z) /\
  val (c_v1 x) * val (c_v1 x) - val (c_v0 x) * val (c_v0 x) > 174 / 100 * (2 * max_accel mill AX * IZR (Z.abs (c_steps x M1))).
Proof.
  set (st := outcome_get (history mill faster_path)). set (cs := rev (sent (p_log st))). exists faster_path, st, (firstn 2 cs), (nth 2 cs no_command), (skipn 3 cs).
  split; [intros l; reflexivity|]. split; [exact C29_drivable|]. split.
  { assert (K : forall to f aux pos x y, good_feed f -> (forall a, steps_at mill a (to a) - pos a = match a with AX => x | AY => y | _ => 0 end)%Z -> (x <> 0 \/ y <> 0)%Z -> (Z.abs x <= 100000)%Z -> (Z.abs y <= 100000)%Z -> sane_call mill pos (Move to f aux)).
    { intros to f aux pos x y Gf E N Bx By. split; [exact Gf|]. cbn [asks]. destruct (forallb _ all_axes); constructor; [|constructor]. eapply mill_good; eauto. }
    split; [apply (K _ _ _ _ 1000%Z 0%Z); [|steps|lia|lia|lia]|].
    - assert (E : f32_div (f32_of_Z 993) (f32_of_Z 20) = S754_finite false 13015450 (-18)) by (vm_compute; reflexivity). rewrite E. split; [split; reflexivity|]. rewrite val_finite. change (bpow radix2 (-18)) with (/ 262144). lra.
    - split; [apply (K _ _ _ _ 1000%Z 0%Z); [apply good_Z; lia|steps|lia|lia|lia]|]. split; exact I. }
  split; [apply outcome_got; vm_compute; reflexivity|]. split; [apply third_of; vm_compute; reflexivity|]. split; [apply mill_turns|].
  assert (Ma : max_accel mill AX = 100000). { unfold max_accel. cbn [mill p_acceleration p_steps_per_mm]. destruct (mill_val 1000 ltac:(lia)) as [_ ->]. destruct (mill_val 100 ltac:(lia)) as [_ ->]. lra. }
  split; [exact Ma|]. rewrite Ma. set (x := nth 2 cs no_command). split; [intros m Hm; destruct m; try congruence; vm_compute; reflexivity|].
  assert (E1 : c_v0 x = S754_finite false 10168320 (-11)) by (vm_compute; reflexivity). assert (E2 : c_v1 x = S754_finite false 10240000 (-11)) by (vm_compute; reflexivity). assert (E3 : c_steps x M1 = 1%Z) by (vm_compute; reflexivity).
  rewrite E1, E2, E3, !val_finite. change (bpow radix2 (-11)) with (/ 2048). cbn [Z.abs]. lra.
Qed.
Print Assumptions C64_whole_steps_refuted.
