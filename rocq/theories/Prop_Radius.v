(** Theorems about arcs given by their radius: C65. *)
From Coq Require Import Reals Lra SpecFloat.
From Flocq Require Import Core IEEE754.BinarySingleNaN.
From Verif Require Import Base Model_Float Model_Axis Model_Gcode Model_Arc Spec_Real Spec_Arc Proofs_Real Proofs_Circle Proofs_Arc Proofs_Turn Proofs_Radius Prop_Arc.
Import ListNotations.
Open Scope Z_scope.
Open Scope R_scope.

(** ** C65: an arc given by its radius *)
(** The offset from the start to the centre, for an arc from (s1, s2) to (e1, e2). The centre is at the distance of the radius from the
    start and from the end, to a fiftieth of a millimetre. [d1 * j - d2 * i] is positive if the centre is on the left of the way from the
    start to the end: for a positive radius (the short way round) it is on the left when going counterclockwise and on the right when going
    clockwise; for a negative radius (the long way round) on the other side. The arc is refused only if the ends are equal or farther apart
    than the diameter, to a fiftieth of a millimetre, and is always refused if they are farther apart than this. *)
Theorem C65_centre : forall m s1 s2 e1 e2 radius cw,
  good_trig m -> good_asin m -> metre s1 -> metre s2 -> metre e1 -> metre e2 -> metre radius -> / 1000 <= Rabs (val radius) ->
  let d1 := val e1 - val s1 in
  let d2 := val e2 - val s2 in
  match arc_radius_to_center m s1 s2 e1 e2 radius cw with
  | None => d1 = 0 /\ d2 = 0 \/ 2 * Rabs (val radius) <= len d1 d2 + / 50
  | Some (i, j) =>
      fin32 i /\ fin32 j /\ ~ (d1 = 0 /\ d2 = 0) /\ len d1 d2 <= 2 * Rabs (val radius) + / 50 /\
      near (/ 50) (len (val i) (val j)) (Rabs (val radius)) /\
      near (/ 50) (len (val i - d1) (val j - d2)) (Rabs (val radius)) /\
      (0 < val radius -> if cw then d1 * val j - d2 * val i <= / 50 * len d1 d2 else - / 50 * len d1 d2 <= d1 * val j - d2 * val i) /\
      (val radius < 0 -> if cw then - / 50 * len d1 d2 <= d1 * val j - d2 * val i else d1 * val j - d2 * val i <= / 50 * len d1 d2)
  end.
Proof.
  intros m s1 s2 e1 e2 radius cw G Ga Ms1 Ms2 Me1 Me2 Mr Lr d1 d2. pose proof (radius_centre m s1 s2 e1 e2 radius cw G Ga Ms1 Ms2 Me1 Me2 Mr Lr) as C. cbv zeta in C. fold d1 d2 in C. change nrm with len in C.
  assert (Z : val e1 = val s1 /\ val e2 = val s2 <-> d1 = 0 /\ d2 = 0) by (unfold d1, d2; split; intros (A & B); split; lra).
  destruct (arc_radius_to_center m s1 s2 e1 e2 radius cw) as [(i, j)|]; [|destruct C as [C|C]; [left; apply Z; exact C|right; exact C]].
  destruct C as (Fi & Fj & N & D & E1 & E2 & S). split; [exact Fi|]. split; [exact Fj|]. split; [intros Q; apply N, Z, Q|]. split; [exact D|]. split; [exact E1|]. split; [exact E2|].
  destruct f0_val as (F0 & V0). pose proof (ltb_lt 24 128 _ _ F0 (proj1 Mr)) as L1. pose proof (ltb_lt 24 128 _ _ (proj1 Mr) F0) as L2. rewrite V0 in L1, L2.
  split; intros P.
  - rewrite (proj2 L1 P) in S. destruct (SFltb radius f0); [exfalso; assert (val radius < 0) by (apply L2; reflexivity); lra|]. destruct cw; cbn [andb negb orb] in S; lra.
  - rewrite (proj2 L2 P) in S. destruct (SFltb f0 radius); [exfalso; assert (0 < val radius) by (apply L1; reflexivity); lra|]. destruct cw; cbn [andb negb orb] in S; lra.
Qed.
Print Assumptions C65_centre.

(** A radius smaller than half of the way reaches nothing: 10 mm apart with a radius of 4 mm; and one that is large enough is taken. *)
Example ex_radius : forall cw,
  arc_radius_to_center exact_libm f0 f0 (f32_of_Z 10) f0 (f32_of_Z 4) cw = None /\ arc_radius_to_center exact_libm f0 f0 (f32_of_Z 10) f0 (f32_of_Z 6) cw <> None.
Proof.
  intros cw. assert (Q : forall z, (Z.abs z <= 1000)%Z -> metre (f32_of_Z z) /\ val (f32_of_Z z) = IZR z).
  { intros z H. destruct (f32_of_Z_val z ltac:(lia)) as (F & V). split; [|exact V]. split; [exact F|]. rewrite V. rewrite <- abs_IZR. apply IZR_le. lia. }
  assert (Z0 : metre f0 /\ val f0 = 0) by (apply (Q 0%Z); lia). destruct Z0 as (M0 & V0). destruct (Q 10%Z ltac:(lia)) as (M10 & V10). destruct (Q 4%Z ltac:(lia)) as (M4 & V4). destruct (Q 6%Z ltac:(lia)) as (M6 & V6).
  assert (L : len (val (f32_of_Z 10) - val f0) (val f0 - val f0) = 10).
  { rewrite V10, V0. unfold len. replace ((10 - 0) * (10 - 0) + (0 - 0) * (0 - 0)) with (10 * 10) by ring. apply sqrt_square. lra. }
  assert (D : val (f32_of_Z 10) - val f0 <> 0) by (rewrite V10, V0; lra).
  split.
  - pose proof (C65_centre exact_libm f0 f0 (f32_of_Z 10) f0 (f32_of_Z 4) cw ex_trig ex_asin M0 M0 M10 M0 M4) as C. rewrite V4, Rabs_pos_eq in C by lra. specialize (C ltac:(lra)). cbv zeta in C. rewrite L in C.
    destruct (arc_radius_to_center _ _ _ _ _ _ _) as [(i, j)|]; [|reflexivity]. destruct C as (_ & _ & _ & C & _). lra.
  - pose proof (C65_centre exact_libm f0 f0 (f32_of_Z 10) f0 (f32_of_Z 6) cw ex_trig ex_asin M0 M0 M10 M0 M6) as C. rewrite V6, Rabs_pos_eq in C by lra. specialize (C ltac:(lra)). cbv zeta in C. rewrite L in C.
    intros E. rewrite E in C. destruct C as [(C & _)|C]; [exact (D C)|lra].
Qed.
