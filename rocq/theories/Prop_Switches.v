(** C44: which switch is which, and at what level it answers, from the configuration. *)
From Verif Require Import Base Text Model_Axis Model_StringUtil Model_Hardware Spec_Hardware Proofs_Hardware Proofs_Config2 Prop_Hardware.
Open Scope Z_scope.

Definition end_word (pre : text) (a : axis) : text := pre ++ [to_lower (axis_letter a)].
Definition tracks (h : hw) (l : list (Z * text)) : Prop :=
  (forall x, 1 <= x <= 9 -> hw_level h (x - 1) = level_for x l) /\
  hw_estop_in h = switch_for (txt "e-stop") l /\ hw_pause_in h = switch_for (txt "pause") l /\
  hw_start_in h = switch_for (txt "start") l /\ hw_probe_in h = switch_for (txt "probe") l /\
  forall a, hw_min h a = switch_for (end_word (txt "min_") a) l /\ hw_max h a = switch_for (end_word (txt "max_") a) l.
Lemma switch_for_snoc : forall w l i x, switch_for w (l ++ [(i, x)]) = if text_eqb x w then i else switch_for w l.
Proof. intros. unfold switch_for. now rewrite fold_left_app. Qed.
Lemma level_for_snoc : forall sw l i x, level_for sw (l ++ [(i, x)]) =
  if negb (i =? sw) then level_for sw l else if text_eqb x (txt "active:low") then false else if text_eqb x (txt "active:high") then true else level_for sw l.
Proof. intros. unfold level_for. now rewrite fold_left_app. Qed.
Lemma letter_lower : forall ch a, letter_axis (to_lower ch) = Some a -> to_lower ch = to_lower (axis_letter a).
Proof. intros [[] [] [] [] [] [] [] []] a H; vm_compute in H; try discriminate H; injection H as <-; reflexivity. Qed.
Lemma lower_letters : forall a b, Ascii.eqb (to_lower (axis_letter a)) (to_lower (axis_letter b)) = axis_eqb b a.
Proof. intros [] []; reflexivity. Qed.
Lemma prefix4 : forall o0 o1 o2 o3 e u0 u1 u2 u3, existsb (Ascii.eqb NUL) [u0; u1; u2; u3] = false -> has_prefix [o0; o1; o2; o3; e] [u0; u1; u2; u3] = true -> [o0; o1; o2; o3; e] = [u0; u1; u2; u3] ++ [e].
Proof.
  intros o0 o1 o2 o3 e u0 u1 u2 u3 N H. unfold has_prefix in H. cbn [length Nat.ltb Nat.leb strncmp_eq existsb] in H, N.
  destruct (Ascii.eqb_spec NUL u0), (Ascii.eqb_spec NUL u1), (Ascii.eqb_spec NUL u2), (Ascii.eqb_spec NUL u3); try discriminate N.
  destruct (Ascii.eqb_spec o0 u0); [subst|discriminate]. destruct (Ascii.eqb_spec u0 NUL); [congruence|].
  destruct (Ascii.eqb_spec o1 u1); [subst|discriminate]. destruct (Ascii.eqb_spec u1 NUL); [congruence|].
  destruct (Ascii.eqb_spec o2 u2); [subst|discriminate]. destruct (Ascii.eqb_spec u2 NUL); [congruence|].
  destruct (Ascii.eqb_spec o3 u3); [now subst|discriminate].
Qed.
Lemma option_tracks : forall c sw w h h' l, set_switch_option c sw w h = (true, h') -> tracks h l -> tracks h' (l ++ [(sw, to_lower_text w)]).
Proof.
  intros c sw w h h' l E (T1 & T2 & T3 & T4 & T5 & T6). unfold set_switch_option in E.
  assert (N : forall k, nth 4 (to_lower_text w) NUL = k -> length (to_lower_text w) = 5%nat -> exists ch, k = to_lower ch).
  { intros k Hk Hl. unfold to_lower_text in *. rewrite map_length in Hl. do 6 (destruct w as [|? w]; try discriminate Hl). cbn in Hk. eauto. }
  set (o := to_lower_text w) in *. clearbody o.
  assert (S : forall x, o = x -> (forall x0, 1 <= x0 <= 9 -> hw_level h' (x0 - 1) = if negb (sw =? x0) then level_for x0 l else if text_eqb x (txt "active:low") then false else if text_eqb x (txt "active:high") then true else level_for x0 l) ->
     hw_estop_in h' = (if text_eqb x (txt "e-stop") then sw else switch_for (txt "e-stop") l) ->
     hw_pause_in h' = (if text_eqb x (txt "pause") then sw else switch_for (txt "pause") l) ->
     hw_start_in h' = (if text_eqb x (txt "start") then sw else switch_for (txt "start") l) ->
     hw_probe_in h' = (if text_eqb x (txt "probe") then sw else switch_for (txt "probe") l) ->
     (forall a, hw_min h' a = (if text_eqb x (end_word (txt "min_") a) then sw else switch_for (end_word (txt "min_") a) l) /\
                hw_max h' a = (if text_eqb x (end_word (txt "max_") a) then sw else switch_for (end_word (txt "max_") a) l)) -> tracks h' (l ++ [(sw, o)])).
  { intros x -> H1 H2 H3 H4 H5 H6. unfold tracks. rewrite !switch_for_snoc. split; [intros y Hy; rewrite level_for_snoc; now apply H1|]. do 4 (split; [assumption|]). intros a. rewrite !switch_for_snoc. apply H6. }
  assert (A : forall b pre a, text_eqb b (end_word pre a) = true -> b = end_word pre a) by (intros; now apply text_eqb_eq).
  destruct o as [|o0 o'] eqn:Eo.
  - injection E as <-. apply (S []); auto; intros; try (rewrite T1 by assumption; now destruct (negb _)).
  - rewrite <- Eo in *. clear o0 o' Eo.
    Ltac known W T1 T6 := match goal with S : _ |- _ => apply (S W); [assumption|..]; cbn [set_switches hw_level hw_min hw_max hw_estop_in hw_pause_in hw_start_in hw_probe_in];
      [intros y Hy; rewrite T1 by assumption; now destruct (negb _)|assumption || reflexivity..|intros a; destruct (T6 a) as [-> ->]; split; destruct a; reflexivity] end.
    destruct (text_eqb o (txt "e-stop")) eqn:X1; [apply text_eqb_eq in X1; injection E as <-; known (txt "e-stop") T1 T6|].
    destruct (text_eqb o (txt "pause")) eqn:X2; [apply text_eqb_eq in X2; injection E as <-; known (txt "pause") T1 T6|].
    destruct (text_eqb o (txt "start")) eqn:X3; [apply text_eqb_eq in X3; injection E as <-; known (txt "start") T1 T6|].
    destruct (text_eqb o (txt "probe")) eqn:X4; [apply text_eqb_eq in X4; injection E as <-; known (txt "probe") T1 T6|].
    destruct (Nat.eqb_spec (length o) 5) as [L|L].
    + destruct (letter_axis (nth 4 o NUL)) as [a|] eqn:La; [|discriminate]. destruct (switch_gpio c sw =? GPIO_NOT_MAPPED); [discriminate|].
      destruct (N _ eq_refl L) as (ch & Ech). rewrite Ech in La. apply letter_lower in La. rewrite La in Ech.
      destruct o as [|o0 [|o1 [|o2 [|o3 [|o4 [|]]]]]]; try discriminate L. cbn [nth] in Ech. subst o4.
      pose proof (fun u0 u1 u2 u3 => prefix4 o0 o1 o2 o3 (to_lower (axis_letter a)) u0 u1 u2 u3) as P.
      match type of E with (if ?b then _ else _) = _ => destruct b eqn:B1 end; [|match type of E with (if ?b then _ else _) = _ => destruct b eqn:B2 end; [|discriminate]].
      * injection E as <-. apply P in B1; [|reflexivity]. eapply S; [exact B1|..]; cbn [set_switches hw_level hw_min hw_max hw_estop_in hw_pause_in hw_start_in hw_probe_in].
        -- intros y Hy. rewrite T1 by assumption. destruct (negb _); [reflexivity|]. now destruct a.
        -- rewrite T2. now destruct a.
        -- rewrite T3. now destruct a.
        -- rewrite T4. now destruct a.
        -- rewrite T5. now destruct a.
        -- intros b. destruct (T6 b) as [Q1 Q2]. unfold set_axis. rewrite Q1, Q2. split; destruct a, b; reflexivity.
      * injection E as <-. apply P in B2; [|reflexivity]. eapply S; [exact B2|..]; cbn [set_switches hw_level hw_min hw_max hw_estop_in hw_pause_in hw_start_in hw_probe_in].
        -- intros y Hy. rewrite T1 by assumption. destruct (negb _); [reflexivity|]. now destruct a.
        -- rewrite T2. now destruct a.
        -- rewrite T3. now destruct a.
        -- rewrite T4. now destruct a.
        -- rewrite T5. now destruct a.
        -- intros b. destruct (T6 b) as [Q1 Q2]. unfold set_axis. rewrite Q1, Q2. split; destruct a, b; reflexivity.
    + destruct (text_eqb o (txt "active:low")) eqn:X5; [|destruct (text_eqb o (txt "active:high")) eqn:X6; [|discriminate]].
      * apply text_eqb_eq in X5. injection E as <-. apply (S _ X5); cbn [set_switches hw_level hw_min hw_max hw_estop_in hw_pause_in hw_start_in hw_probe_in]; try assumption.
        -- intros y Hy. destruct (Z.eqb_spec (y - 1) (sw - 1)), (Z.eqb_spec sw y); try lia; cbn [negb]; [reflexivity|now apply T1].
      * apply text_eqb_eq in X6. injection E as <-. apply (S _ X6); cbn [set_switches hw_level hw_min hw_max hw_estop_in hw_pause_in hw_start_in hw_probe_in]; try assumption.
        -- intros y Hy. destruct (Z.eqb_spec (y - 1) (sw - 1)), (Z.eqb_spec sw y); try lia; cbn [negb]; [reflexivity|now apply T1].
Qed.
Lemma options_track : forall c sw ws h h' l, set_switch_options c sw ws h = (true, h') -> tracks h l -> tracks h' (l ++ map (fun w => (sw, to_lower_text w)) ws).
Proof.
  intros c sw. induction ws as [|w ws IH]; intros h h' l E T; cbn [set_switch_options map] in *; [injection E as <-; now rewrite app_nil_r|].
  destruct (set_switch_option c sw w h) as [[] h1] eqn:E1; [|discriminate]. change ((sw, to_lower_text w) :: ?r) with ([(sw, to_lower_text w)] ++ r). rewrite app_assoc. exact (IH h1 h' _ E (option_tracks _ _ _ _ _ _ E1 T)).
Qed.
(** Everything else leaves the switches alone. *)
Definition same_switches (h h' : hw) : Prop :=
  hw_level h' = hw_level h /\ hw_estop_in h' = hw_estop_in h /\ hw_pause_in h' = hw_pause_in h /\ hw_start_in h' = hw_start_in h /\ hw_probe_in h' = hw_probe_in h /\
  hw_min h' = hw_min h /\ hw_max h' = hw_max h.
Lemma same_refl : forall h, same_switches h h. Proof. repeat split. Qed.
Lemma same_tracks : forall h h' l, same_switches h h' -> tracks h l -> tracks h' l.
Proof. unfold same_switches, tracks. intros h h' l (-> & -> & -> & -> & -> & -> & ->). auto. Qed.
Ltac same := unfold same_switches; repeat match goal with |- context [if ?b then _ else _] => destruct b end; repeat split.
Lemma aux_same : forall c o n h, same_switches h (snd (add_aux_mapping c o n h)). Proof. intros. unfold add_aux_mapping. same. Qed.
Lemma pwm_same : forall c o n h, same_switches h (snd (add_pwm_mapping c o n h)). Proof. intros. unfold add_pwm_mapping. same. Qed.
Lemma motor_same : forall a m f h, same_switches h (snd (add_motor_mapping a m f h)). Proof. intros. unfold add_motor_mapping. same. Qed.
Lemma outputs_same : forall c h, same_switches h (set_aux_outputs c h). Proof. intros. unfold set_aux_outputs. same. Qed.
Lemma same_trans : forall a b c, same_switches a b -> same_switches b c -> same_switches a c.
Proof. unfold same_switches. intros a b c H1 H2. decompose [and] H1. decompose [and] H2. repeat split; congruence. Qed.
Lemma reset_same : forall c h, same_switches h (reset_hardware c h).
Proof. intros. unfold reset_hardware, enable_motors, set_aux_outputs. cbn [negb]. destruct (negb (hw_ready h)) eqn:R; [apply same_refl|]. cbn [set_state hw_ready]. rewrite R. cbn [set_state hw_ready]. try rewrite R. repeat split. Qed.
Lemma init_same : forall c m h, same_switches h (initialize_hardware c m h).
Proof.
  intros. unfold initialize_hardware. destruct m; cbn [negb]; try apply same_refl; try (same; fail).
  all: eapply same_trans; [|apply reset_same]; repeat split.
Qed.
Lemma number_find : forall n, number_of (txt "switch_") n (upto 9) = find (fun i => text_eqb n (txt "switch_" ++ [ascii_of_nat (48 + Z.to_nat i)])) [1; 2; 3; 4; 5; 6; 7; 8; 9].
Proof. intros n. cbn [number_of upto map seq find Z.of_nat]. reflexivity. Qed.
Lemma step_tracks : forall c h op l, tracks h l -> (match op with HwConfig s n v => fst (hw_name_value c s n v h) = true | _ => True end) -> tracks (hw_step c h op) (l ++ switch_lines op).
Proof.
  intros c h op l T A.
  assert (O : switch_lines op = [] -> same_switches h (hw_step c h op) -> tracks (hw_step c h op) (l ++ switch_lines op)) by (intros -> S; rewrite app_nil_r; exact (same_tracks _ _ _ S T)).
  destruct op as [o n|o n|a m f|s n v|m|b|p b|o b| | |o b]; try (apply O; [reflexivity|]; cbn [hw_step]).
  - apply aux_same.
  - apply pwm_same.
  - apply motor_same.
  - cbn [hw_step switch_lines] in *. unfold hw_name_value in *.
    destruct (text_eqb s (txt "aux-mapping")) eqn:S1; [apply text_eqb_eq in S1; subst; apply O; [reflexivity|]|].
    { destruct (number_of _ _ _); [|apply same_refl]. unfold set_aux_mapping. destruct (name_to_output v); [|apply same_refl]. destruct (_ || _); [apply same_refl|]. destruct (_ && _); [apply same_refl|]. destruct (_ && _); [apply same_refl|]. apply aux_same. }
    destruct (text_eqb s (txt "pwm-mapping")) eqn:S2; [apply text_eqb_eq in S2; subst; apply O; [reflexivity|]|].
    { destruct (number_of _ _ _); [|apply same_refl]. unfold set_pwm_mapping. destruct (name_to_output v); [|apply same_refl]. apply pwm_same. }
    destruct (text_eqb s (txt "motor-mapping")) eqn:S3; [apply text_eqb_eq in S3; subst; apply O; [reflexivity|]|].
    { destruct (number_of _ _ _); [|apply same_refl]. unfold set_motor_axis. destruct (split_string v separators); [apply same_refl|]. destruct (has_prefix _ _); [|apply same_refl]. destruct (skipn 5 _) as [|d r]; [apply same_refl|].
      destruct (if Ascii.eqb d "-" then (true, r) else (false, d :: r)) as [mi [|lt ?]]; [apply same_refl|]. destruct (letter_axis lt); [|apply same_refl]. apply motor_same. }
    destruct (text_eqb s (txt "switch-mapping")) eqn:S4; [|discriminate].
    rewrite number_find in *. destruct (find _ _) as [i|]; [|discriminate].
    destruct (set_switch_options c i (split_string v separators) h) as [ok h1] eqn:E. cbn [fst snd] in *. subst ok. exact (options_track _ _ _ _ _ _ E T).
  - apply init_same.
  - unfold enable_motors. same.
  - unfold update_aux_bits. same.
  - unfold update_aux_bitmap. same.
  - apply outputs_same.
  - unfold aux_outputs_off. eapply same_trans; [|apply outputs_same]. repeat split.
  - unfold set_pwm_output. same.
Qed.

(** C44: after any history of accepted configuration lines and other calls, the inputs for
    emergency stop, pause, start and probe and those at the ends of the axes are the switches
    given these words last, and every switch answers at the level said last about it. *)
Theorem C44_configured : forall c ops, accepted c ops ->
  let h := hw_run c ops in let said := said_in ops in
  (forall sw, 1 <= sw <= 9 -> hw_level h (sw - 1) = level_for sw said) /\
  hw_estop_in h = switch_for (txt "e-stop") said /\ hw_pause_in h = switch_for (txt "pause") said /\
  hw_start_in h = switch_for (txt "start") said /\ hw_probe_in h = switch_for (txt "probe") said /\
  forall a, hw_min h a = switch_for (txt "min_" ++ [to_lower (axis_letter a)]) said /\ hw_max h a = switch_for (txt "max_" ++ [to_lower (axis_letter a)]) said.
Proof.
  intros c ops. induction ops as [|op ops IH] using rev_ind; intros A; cbv zeta.
  - split; [reflexivity|]. repeat split.
  - rewrite hw_run_snoc. unfold said_in. rewrite flat_map_app. cbn [flat_map]. rewrite app_nil_r. apply step_tracks.
    + apply IH. intros pre s n v post ->. apply (A pre s n v (post ++ [op])). now rewrite <- app_assoc.
    + destruct op; auto. apply (A ops section name value []). reflexivity.
Qed.
Print Assumptions C44_configured.
(** Together with C44_debounced: the answer about the switch [sw]. *)
Theorem C44_answer : forall c ops sw default readings, accepted c ops -> 1 <= sw <= 9 ->
  hw_ready (hw_run c ops) = true -> switch_gpio c sw <> GPIO_NOT_MAPPED ->
  test_switch c (hw_run c ops) sw default readings =
    match first_stable readings with Some level => Some (Bool.eqb level (level_for sw (said_in ops))) | None => None end.
Proof. intros c ops sw default readings A Hs R G. rewrite <- (proj1 (C44_configured c ops A) sw Hs). now apply Prop_Hardware.C44_debounced. Qed.
Print Assumptions C44_answer.

(** An emergency stop can be put on a switch that the cape does not have: this is accepted,
    and the emergency stop never answers. *)
Theorem C44_unconnected_refuted : exists c ops, accepted c ops /\ hw_ready (hw_run c ops) = true /\ hw_estop_in (hw_run c ops) = 9 /\
  forall readings, test_switch c (hw_run c ops) (hw_estop_in (hw_run c ops)) false readings = Some false.
Proof.
  exists (mk_cape (fun i => 100 + i) (fun i => 200 + i) (fun i => if i =? 9 then GPIO_NOT_MAPPED else 300 + i) 99 false),
    [HwConfig (txt "switch-mapping") (txt "switch_9") (txt "e-stop"); HwInit true].
  split; [|split; [reflexivity|split; [reflexivity|intros readings; reflexivity]]].
  intros [|x [|y pre]] s n v post E; cbn [app] in E.
  - injection E as <- <- <- _. reflexivity.
  - discriminate E.
  - destruct pre; discriminate E.
Qed.
Print Assumptions C44_unconnected_refuted.

Definition sw_cape : cape := mk_cape (fun i => 100 + i) (fun i => 200 + i) (fun i => 300 + i) 99 false.
Definition sw_ops : list hw_op :=
  [HwConfig (txt "switch-mapping") (txt "switch_2") (txt "min_x, active:high"); HwConfig (txt "switch-mapping") (txt "switch_3") (txt "E-Stop active:low");
   HwInit true; HwConfig (txt "switch-mapping") (txt "switch_4") (txt "max_x  Min_Y")].
Example C44_example :
  accepted sw_cape sw_ops /\ hw_ready (hw_run sw_cape sw_ops) = true /\ length (said_in sw_ops) = 8%nat /\ level_for 2 (said_in sw_ops) = true /\ level_for 3 (said_in sw_ops) = false /\
  switch_for (txt "e-stop") (said_in sw_ops) = 3 /\ hw_min (hw_run sw_cape sw_ops) AX = 2 /\ hw_min (hw_run sw_cape sw_ops) AY = 4 /\ hw_max (hw_run sw_cape sw_ops) AX = 4.
Proof.
  split; [|vm_compute; repeat split]. intros pre s n v post E. destruct pre as [|x1 [|x2 [|x3 [|x4 [|]]]]]; cbn [app sw_ops] in E; try discriminate E; injection E as; subst; vm_compute; reflexivity.
Qed.
