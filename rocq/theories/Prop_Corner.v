(** C72: the machine slows down at the sharp corners of the path. *)
From Coq Require Import SpecFloat Reals Lra.
From Flocq Require Import Core IEEE754.BinarySingleNaN.
From Verif Require Import Base Model_Float Model_Axis Model_Hardware Model_Planner Spec_Real Spec_Planner Spec_Speeds Spec_Corner Proofs_Real Proofs_Planner Proofs_Ramp Proofs_Profile Proofs_Speeds Proofs_Joints Proofs_Limits Proofs_Corner Proofs_Path Prop_Planner Prop_Speeds.
Open Scope Z_scope.
Open Scope R_scope.

Lemma entered_slow : forall c A j gs dn rest ls w prev, 5 / 2 * A <= j -> entered A c w gs dn -> aimed c prev (dn ++ rest) ls -> slow_corners c j w prev gs ls.
Proof.
  intros c A j. induction gs as [|g gs IH]; intros dn rest ls w prev L H Am; [exact I|].
  destruct dn as [|t dn]; cbn [entered] in H; [exfalso; exact H|]. destruct H as [[O (s & Es & Eg)] H]. destruct ls as [|l ls]; cbn [app aimed] in Am; [exfalso; exact Am|]. destruct Am as (D & X & Z0 & Am).
  cbn [slow_corners]. split; [|split].
  - rewrite Eg. apply (carries_same c _ (leg_of s) l); [apply group_carries|]. unfold leg_of. rewrite Es. split; cbn [l_steps l_aux]; [intros; now rewrite D|exact X].
  - intros C. specialize (Z0 C). destruct O as [O1 O2]. unfold Proofs_Ramp.q in O1, O2. rewrite Z0 in O1, O2. split; [lra|]. destruct g as [|x r]; [exact I|]. lra.
  - eapply IH; eauto.
Qed.

(** For each path whose legs meet, the commands sent are groups, one for each leg, and at
    a sharp corner the square of the speed is at most 13/5 A before and after the corner:
    the speed of one and a third steps of an acceleration with A. *)
Theorem C72_corner : forall c A os st, willing c -> drivable c A -> suits c (at_home c) None os -> history c os = Ok st ->
  exists gs, concat gs = rev (sent (p_log st)) /\ slow_corners c (13 / 5 * A) 0 None gs (legs c (at_home c) os).
Proof.
  intros c A os st W D S E. apply history_new in E. destruct E as (s0 & N & E).
  pose proof (drivable_less _ _ D) as D'. pose proof (new_on_path c _ D' s0 N) as P.
  destruct (path_all c _ D' (less_max A) W os _ _ _ s0 st P S E) as (? & ? & ts & hd & pend & x & St & Am & _). destruct (y_sent _ _ _ _ _ _ _ St) as (gs & dn & Et & Eg & En). exists gs. split; [exact Eg|].
  cbn [app] in Am. rewrite Et in Am. eapply entered_slow; [|exact En|exact Am]. pose proof (Rmin_l A (bpow radix2 44)). pose proof (dv_some _ _ D). lra.
Qed.
Print Assumptions C72_corner.

(** With a halt at the end no leg is left out. *)
Theorem C72_halted : forall c A os st, willing c -> drivable c A -> suits c (at_home c) None os -> history c (os ++ [Halt]) = Ok st ->
  exists gs, concat gs = rev (sent (p_log st)) /\ length gs = length (legs c (at_home c) os) /\ slow_corners c (13 / 5 * A) 0 None gs (legs c (at_home c) os).
Proof.
  intros c A os st W D S E. apply history_new in E. destruct E as (s0 & N & E).
  pose proof (drivable_less _ _ D) as D'. pose proof (new_on_path c _ D' s0 N) as P.
  destruct (path_halt c _ D' (less_max A) W os _ _ _ s0 st P S E) as (ts & ps & St & Am). destruct (y_sent _ _ _ _ _ _ _ St) as (gs & dn & Et & Eg & En). exists gs. split; [exact Eg|].
  cbn [app] in Am. rewrite Et in Am. split.
  - cbn [map] in Am. rewrite app_nil_r in Am. transitivity (length dn).
    + clear - En. revert En. generalize 0 as w. revert dn. induction gs as [|g gs IH]; intros [|t dn] w H; cbn [entered] in H; try (exfalso; exact H); [reflexivity|]. cbn [length]. f_equal. eapply IH. exact (proj2 H).
    + clear - Am. revert Am. generalize (@None leg) as p. generalize (legs c (at_home c) os) as ls. induction dn as [|t dn IH]; intros [|l ls] p H; cbn [aimed] in H; try (exfalso; exact H); [reflexivity|]. cbn [length]. f_equal. eapply IH. exact (proj2 (proj2 (proj2 H))).
  - eapply entered_slow; [|exact En|exact Am]. pose proof (Rmin_l A (bpow radix2 44)). pose proof (dv_some _ _ D). lra.
Qed.
Print Assumptions C72_halted.

(** The path of [mill_path] has sharp corners: from (10, 1) mm to (0, -10) mm, and behind it
    to (-20, 9) mm. *)
Example C72_mill : exists l1 l2 l3 l4, legs mill (at_home mill) mill_path = [l1; l2; l3; l4] /\ ~ sharp mill l1 l2 /\ sharp mill l2 l3 /\ sharp mill l3 l4.
Proof.
  set (at_ x y := fun a => match a with AX => x | AY => y | _ => 0 end%Z).
  assert (L : exists l1 l2 l3 l4, legs mill (at_home mill) mill_path = [l1; l2; l3; l4] /\ (forall a, l_steps l1 a = at_ 1000 0 a)%Z /\ (forall a, l_steps l2 a = at_ 1000 100 a)%Z /\ (forall a, l_steps l3 a = at_ 0 (-1000) a)%Z /\ (forall a, l_steps l4 a = at_ (-2000) 900 a)%Z).
  { unfold mill_path. cbn [legs asks after]. repeat match goal with |- context [if ?b then _ else _] => let v := eval vm_compute in b in replace b with v by (vm_compute; reflexivity); cbv iota end. cbn [app]. do 4 eexists. split; [reflexivity|]. repeat split; steps. }
  destruct L as (l1 & l2 & l3 & l4 & E & E1 & E2 & E3 & E4). exists l1, l2, l3, l4. split; [exact E|]. split; [|split; apply mill_sharp; rewrite ?E2, ?E3, ?E4; cbn; lia].
  unfold sharp, distance, inner, way. change (p_steps_per_mm mill) with (fun _ : axis => f32_of_Z 100). cbv beta. destruct (mill_val 100 ltac:(lia)) as [_ V]. rewrite V, !E1, !E2. unfold at_. intros H.
  match type of H with _ <= _ * (sqrt ?a * sqrt ?b) => assert (S1 : sqrt a <= 10) by (rewrite <- (sqrt_square 10) by lra; apply sqrt_le_1_alt; lra); assert (S2 : sqrt b <= 11) by (rewrite <- (sqrt_square 11) by lra; apply sqrt_le_1_alt; lra); pose proof (sqrt_pos a) as P1; pose proof (sqrt_pos b) as P2; set (x := sqrt a) in *; set (y := sqrt b) in * end.
  assert (x * y <= 10 * 11) by (apply Rmult_le_compat; assumption). lra.
Qed.

(** ** Corners between the threshold and 45 degrees *)

(** Here the speeds of the axes should agree on both sides, or the machine should halt. But
    the first axis that moves is not compared: its speed may be another. With slope 0.8 and
    then 0.4 and twice the speed in x, the speed in y agrees, and so the planner takes the
    speed in x before the corner for the joint. Behind the corner that is the speed in x: the
    speed in y drops to one half at once, from 4000 to 2000 steps/s, which takes 60 steps
    with the acceleration allowed. *)
Definition steep : pcfg :=
  mk_pcfg (fun _ => f32_of_Z 100) (fun _ => f32_of_Z 200) (fun _ => f32_of_Z 100) (fun _ => f32_of_Z 1000)
          (f32_of_Z 10) (f32_of_Z 0) (fun _ => false) mill_hw (coarse_acos (f64_div (f64_of_Z 295) (f64_of_Z 1000))) (fun _ => d1) (fun _ => 0%Z) (fun _ => 0%Z) (fun _ => true).
Definition slope_path : list call := [Move (to_xyz 100 80 0) (f32_div (f32_of_Z 640312424) (f32_of_Z 10000000)) 0; Move (to_xyz 200 120 0) (f32_div (f32_of_Z 1077032961) (f32_of_Z 10000000)) 0; Halt]%Z.
Lemma steep_drivable : drivable steep 100000.
Proof.
  destruct C29_drivable as [D1 D2 D3 D4 D5 D6 D7 D8].
  assert (T : forall a, driven steep a -> driven mill a) by (intros a [H1 H2 H3]; constructor; assumption).
  constructor; cbn [steep mill p_steps_per_mm p_max_feedrate p_acceleration p_threshold p_tune p_acos p_cos] in *; auto.
  - intros a b Ha Hb. apply (D2 a b); apply T; assumption.
  - intros a Ha. apply (D4 a), T, Ha.
  - intros x _. unfold coarse_acos. destruct (SFleb _ _); reflexivity.
  - intros x. apply coarse_eighth.
Qed.
Theorem C72_threshold_refuted : exists os l1 l2 st before a b behind,
  willing steep /\ drivable steep 100000 /\ suits steep (at_home steep) None os /\
  legs steep (at_home steep) os = [l1; l2] /\ val (p_threshold steep) = 10 /\ inner steep l1 l2 <= 958 / 1000 * (distance steep l1 * distance steep l2) /\
  history steep os = Ok st /\ rev (sent (p_log st)) = before ++ a :: b :: behind /\ turns_for steep M2 AY /\
  turning (c_v1 a) (c_steps a) M2 * turning (c_v1 a) (c_steps a) M2 - turning (c_v0 b) (c_steps b) M2 * turning (c_v0 b) (c_steps b) M2 > 115 * 100000.
Proof.
  set (at_ x y := fun a => match a with AX => x | AY => y | _ => 0 end%Z).
  assert (L : exists l1 l2, legs steep (at_home steep) slope_path = [l1; l2] /\ (forall a, l_steps l1 a = at_ 10000 8000 a)%Z /\ (forall a, l_steps l2 a = at_ 10000 4000 a)%Z /\ (good_leg steep l1 -> good_leg steep l2 -> meet steep l1 l2 -> suits steep (at_home steep) None slope_path)).
  { assert (G1 : good_feed (f32_div (f32_of_Z 640312424) (f32_of_Z 10000000))).
    { set (x := f32_div _ _). vm_compute in x. split; [split; reflexivity|]. unfold x. rewrite val_finite. change (bpow radix2 (-17)) with (/ 131072). lra. }
    assert (G2 : good_feed (f32_div (f32_of_Z 1077032961) (f32_of_Z 10000000))).
    { set (x := f32_div _ _). vm_compute in x. split; [split; reflexivity|]. unfold x. rewrite val_finite. change (bpow radix2 (-17)) with (/ 131072). lra. }
    unfold slope_path. cbn [legs suits asks after]. repeat match goal with |- context [if ?b then _ else _] => let v := eval vm_compute in b in replace b with v by (vm_compute; reflexivity); cbv iota end.
    cbn [app]. do 2 eexists. split; [reflexivity|]. split; [steps|]. split; [steps|]. intros H1 H2 H3. auto 10. }
  destruct L as (l1 & l2 & E & E1 & E2 & Su).
  assert (Gd : forall l x y, (forall a, l_steps l a = at_ x y a) -> (x <> 0)%Z -> (Z.abs x <= 100000)%Z -> (Z.abs y <= 100000)%Z -> good_leg steep l).
  { intros l x y El N Bx By. destruct (mill_good l x y El ltac:(auto) Bx By) as (K1 & K2 & K3). split; [exact K1|]. split; [|exact K3]. intros a H. destruct (K2 a H) as [M1' M2' M3']. constructor; assumption. }
  set (st := outcome_get (history steep slope_path)). set (cs := rev (sent (p_log st))).
  exists slope_path, l1, l2, st, (firstn 1 cs), (nth 1 cs no_command), (nth 2 cs no_command), (skipn 3 cs).
  split; [intros l; reflexivity|]. split; [exact steep_drivable|]. split.
  { apply Su; [apply (Gd l1 10000 8000)%Z; auto; lia|apply (Gd l2 10000 4000)%Z; auto; lia|]. left. exists AX. split; eapply mill_leads; eauto; lia. }
  split; [exact E|]. split; [destruct (mill_val 10 ltac:(lia)) as [_ V]; exact V|]. split.
  { unfold distance, inner, way. change (p_steps_per_mm steep) with (fun _ : axis => f32_of_Z 100). cbv beta. destruct (mill_val 100 ltac:(lia)) as [_ V]. rewrite V, !E1, !E2. unfold at_.
    match goal with |- _ <= _ * (sqrt ?a * sqrt ?b) => assert (S1 : 12806 / 100 <= sqrt a) by (rewrite <- (sqrt_square (12806 / 100)) by lra; apply sqrt_le_1_alt; lra); assert (S2 : 1077 / 10 <= sqrt b) by (rewrite <- (sqrt_square (1077 / 10)) by lra; apply sqrt_le_1_alt; lra); set (x := sqrt a) in *; set (y := sqrt b) in * end.
    assert (12806 / 100 * (1077 / 10) <= x * y) by (apply Rmult_le_compat; lra). lra. }
  split; [apply outcome_got; vm_compute; reflexivity|]. split; [apply two_of; vm_compute; reflexivity|]. split; [apply mill_turns|].
  unfold turning. set (a := nth 1 cs no_command). set (b := nth 2 cs no_command).
  assert (H1 : c_v1 a = S754_finite false 10240000 (-11)) by (vm_compute; reflexivity). assert (H2 : c_v0 b = S754_finite false 10240000 (-11)) by (vm_compute; reflexivity).
  assert (H3 : c_steps a M2 = 7901%Z) by (vm_compute; reflexivity). assert (H4 : most (c_steps a) = 9876%Z) by (vm_compute; reflexivity).
  assert (H5 : c_steps b M2 = 150%Z) by (vm_compute; reflexivity). assert (H6 : most (c_steps b) = 374%Z) by (vm_compute; reflexivity).
  rewrite H1, H2, H3, H4, H5, H6, val_finite. change (bpow radix2 (-11)) with (/ 2048). cbn [Z.abs]. lra.
Qed.
Print Assumptions C72_threshold_refuted.
