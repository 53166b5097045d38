(** C83: the picture of a G-code file shows the path. *)
From Coq Require Import SpecFloat.
From Verif Require Import Base Model_Float Model_Axis Model_Gcode Model_Spindle Model_View Spec_View.

Definition same_line (c : viz_config) (d : ink * option axes * axes) (w : bool * axes * axes) : Prop :=
  let '(i, pen, target) := d in let '(rapid, from, to) := w in
  (exists q, pen = Some q /\ forall a, shown a -> q a = from a) /\ target = to /\ (vc_laser c = false -> i = Style rapid).

Lemma path_from : forall c evs z i q pos,
  (forall e, In e evs -> starts e = false) -> (forall w, In (VHome w) evs -> forall a, shown a -> w a = true) ->
  (forall a, shown a -> q a = pos a) -> (vc_laser c = false -> i = Style (vz_rapid z)) ->
  Forall2 (same_line c) (lines i (Some q) (snd (viz_run c PassOutput evs z))) (way (vc_origin c) pos evs).
Proof.
  intros c. induction evs as [|e evs IH]; intros z i q pos S H Q I; [constructor|].
  assert (S' : forall e, In e evs -> starts e = false) by (intros; apply S; now right).
  assert (H' : forall w, In (VHome w) evs -> forall a, shown a -> w a = true) by (intros w W; apply H; now right).
  cbn [viz_run]. destruct e as [|fin|w|rapid p|v]; cbn [viz_step].
  - now specialize (S VStart (or_introl eq_refl)).
  - specialize (IH z i q pos S' H' Q I). destruct (viz_run c PassOutput evs z) as [z' o]. cbn [snd way] in *. destruct fin; exact IH.
  - cbn [way]. match goal with |- context [viz_run c PassOutput evs ?z1] => specialize (IH z1 i (vc_origin c) (fun a => if w a then vc_origin c a else pos a) S' H'); destruct (viz_run c PassOutput evs z1) as [z' o] end.
    cbn [snd app lines] in *. apply IH; [|exact I]. intros a A. now rewrite (H w (or_introl eq_refl) a A).
  - cbn [viz_move way]. unfold change_style, change_intensity.
    destruct (Bool.eqb rapid (vz_rapid z)) eqn:E.
    + apply eqb_prop in E. subst rapid. destruct (vc_laser c && _ && _) eqn:L.
      * match goal with |- context [viz_run c PassOutput evs ?z1] => specialize (fun i => IH z1 i p p S' H'); destruct (viz_run c PassOutput evs z1) as [z' o] end.
        cbn [snd app lines vz_rapid] in *. constructor; [|apply IH; auto]. 
        -- split; [exists q; auto|]. split; [reflexivity|]. intros N. rewrite N in L. discriminate.
        -- intros N. rewrite N in L. discriminate.
      * specialize (IH z i p p S' H'). destruct (viz_run c PassOutput evs z) as [z' o]. cbn [snd app lines] in *. constructor; [|apply IH; auto]. split; [exists q; auto|]. split; [reflexivity|exact I].
    + cbn [vz_laser_min vz_laser_max vz_intensity vz_last_intensity vz_min vz_max vz_rapid]. destruct (vc_laser c && _ && _) eqn:L.
      * match goal with |- context [viz_run c PassOutput evs ?z1] => specialize (fun i => IH z1 i p p S' H'); destruct (viz_run c PassOutput evs z1) as [z' o] end.
        cbn [snd app lines vz_rapid] in *. constructor; [|apply IH; auto].
        -- split; [exists q; auto|]. split; [reflexivity|]. intros N. rewrite N in L. discriminate.
        -- intros N. rewrite N in L. discriminate.
      * match goal with |- context [viz_run c PassOutput evs ?z1] => specialize (fun i => IH z1 i p p S' H'); destruct (viz_run c PassOutput evs z1) as [z' o] end.
        cbn [snd app lines vz_rapid] in *. constructor; [|apply IH; auto]. split; [exists q; auto|]. split; reflexivity.
  - match goal with |- context [viz_run c PassOutput evs ?z1] => specialize (IH z1 i q pos S' H' Q I); destruct (viz_run c PassOutput evs z1) as [z' o] end. exact IH.
Qed.
Lemma pre_rapid : forall c evs z, vz_rapid (fst (viz_run c PassPreprocess evs z)) = vz_rapid z.
Proof.
  intros c. induction evs as [|e evs IH]; intros z; [reflexivity|]. cbn [viz_run]. destruct (viz_step c PassPreprocess e z) as [z1 o] eqn:E. specialize (IH z1).
  destruct (viz_run c PassPreprocess evs z1) as [z2 o']. cbn [fst] in *. rewrite IH. destruct e; cbn [viz_step viz_move] in E; injection E as <- <-; reflexivity.
Qed.
(** The lines of the picture are those of the path, one for each move, each from where the one
    before ended; without laser each has the colour of its kind of move. *)
Theorem C83_path : forall c evs,
  (forall e, In e evs -> starts e = false) -> (forall w, In (VHome w) evs -> forall a, shown a -> w a = true) ->
  Forall2 (same_line c) (lines (Style false) None (snd (picture c (VStart :: evs)))) (way (vc_origin c) (vc_origin c) evs).
Proof.
  intros c evs S H. unfold picture. set (z := fst (viz_run c PassInit _ _)). cbn [viz_run viz_step snd].
  pose proof (path_from c evs z (Style false) (vc_origin c) (vc_origin c) S H ltac:(auto)) as P.
  destruct (viz_run c PassOutput evs z) as [z' o]. cbn [snd app lines] in *. apply P. intros _. f_equal. unfold z, reset_events. cbn [viz_run viz_step fst vz_rapid range_update with_range]. symmetry. exact (pre_rapid c (VStart :: evs) viz_init).
Qed.
Print Assumptions C83_path.

Definition pt (x y z : Z) : axes := fun a => match a with AX => f32_of_Z x | AY => f32_of_Z y | AZ => f32_of_Z z | _ => f32_of_Z 0 end.
Definition corner (laser : bool) : viz_config := {| vc_origin := pt 0 0 0; vc_laser := laser |}.
Example C83_path_case : length (way (pt 0 0 0) (pt 0 0 0) [VHome (fun _ => true); VMove true (pt 10 20 0); VMove false (pt 30 20 (-1))]) = 2%nat.
Proof. reflexivity. Qed.

(** Homing only X: the picture goes on from the origin of all axes. *)
Definition half_home : list viz_event := [VMove true (pt 10 20 0); VHome (fun a => match a with AX => true | _ => false end); VMove false (pt 30 20 0)].
Theorem C83_home_refuted : ~ Forall2 (same_line (corner false)) (lines (Style false) None (snd (picture (corner false) (VStart :: half_home)))) (way (pt 0 0 0) (pt 0 0 0) half_home).
Proof.
  intros H. inversion H as [|d w ds ws _ H2]; subst. inversion H2 as [|d w ds ws H3 _]; subst. destruct H3 as ((q & Q & E) & _). injection Q as <-. specialize (E AY (or_intror (or_introl eq_refl))). discriminate E.
Qed.
Print Assumptions C83_home_refuted.

(** The ink of a line drawn with the laser at the power [v] between [lo] and [hi]. *)
Definition shade (lo hi v : fl) : ink := Gray (f32_sub (f32_of_Z 1) (f32_div (f32_sub v lo) (f32_sub hi lo))).
(** The second of two coordinated moves with the same power of the laser: after a rapid move it
    is drawn black instead of in the shade of its power. *)
Definition engraving : list viz_event :=
  [VSpindle (f32_of_Z 50); VMove false (pt 10 0 0); VSpindle (f32_of_Z 100); VMove false (pt 20 0 0);
   VSpindle (f32_of_Z 75); VMove false (pt 30 0 0); VMove true (pt 0 1 0); VMove false (pt 30 1 0)].
Theorem C83_laser_refuted :
  map (fun l => fst (fst l)) (lines (Style false) None (snd (picture (corner true) (VStart :: engraving)))) =
  [shade (f32_of_Z 50) (f32_of_Z 100) (f32_of_Z 50); shade (f32_of_Z 50) (f32_of_Z 100) (f32_of_Z 100); shade (f32_of_Z 50) (f32_of_Z 100) (f32_of_Z 75);
   Style true; Style false] /\
  shade (f32_of_Z 50) (f32_of_Z 100) (f32_of_Z 75) = Gray (f32_div (f32_of_Z 1) (f32_of_Z 2)).
Proof. split; vm_compute; reflexivity. Qed.
Print Assumptions C83_laser_refuted.
