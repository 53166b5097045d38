(** Properties of the hardware mapping (C41-C45), for every cape and every history
    of calls and configuration lines. *)
From Verif Require Import Base Text Model_Axis Model_StringUtil Model_Hardware Spec_Hardware Proofs_Hardware.

(** C41: no motor connector ever belongs to two axes. *)
Theorem C41_motor_exclusive : forall c ops m a b,
  Z.testbit (hw_drivers (hw_run c ops) a) (motor_ix m) = true ->
  Z.testbit (hw_drivers (hw_run c ops) b) (motor_ix m) = true -> a = b.
Proof. intros c ops m a b. apply (mi_one _ (motor_run c ops)). destruct m; cbn; lia. Qed.
Print Assumptions C41_motor_exclusive.

(** C41: the first mapping of a connector is the one that counts, for axis and
    direction. *)
Theorem C41_first_mapping_counts : forall calls m, 1 <= m <= 8 ->
  let h := map_motors calls hw_init in
  match first_call calls m with
  | Some (a, _, mirrored) => is_motor_flipped h (m - 1) = mirrored /\
                             forall b, Z.testbit (hw_drivers h b) (m - 1) = true <-> b = a
  | None => is_motor_flipped h (m - 1) = false /\ forall b, Z.testbit (hw_drivers h b) (m - 1) = false
  end.
Proof.
  intros calls m Hm h. pose proof (map_motors_spec calls m Hm) as S. cbv zeta in S. fold h in S.
  unfold is_motor_flipped. destruct (first_call calls m) as [[[a n] f]|]; destruct S as [-> S].
  - split; [destruct f; reflexivity|]. intros b. rewrite S. destruct (axis_eqb_spec b a); split; congruence.
  - auto.
Qed.
Print Assumptions C41_first_mapping_counts.

(** C41: a mapping is accepted exactly if the number is 0 (no motor) or a connector
    that was not mapped before, and a refused mapping changes nothing. *)
Theorem C41_second_mapping_refused : forall calls a n mirrored,
  let h := map_motors calls hw_init in
  (fst (add_motor_mapping a n mirrored h) = true <-> n = 0 \/ (1 <= n <= 8 /\ first_call calls n = None)) /\
  (fst (add_motor_mapping a n mirrored h) = false -> snd (add_motor_mapping a n mirrored h) = h).
Proof.
  intros calls a n f h. split; [apply add_motor_result|].
  destruct (add_motor_cases a n f h) as [(R & Hn & E)|[(R & E & Hn)|[(R & E & Hn & Hf)|(R & Hn & Hf & E)]]]; rewrite R; auto; discriminate.
Qed.
Print Assumptions C41_second_mapping_refused.

(** C41: the motor chosen automatically is the lowest one not mapped; 0 only if all
    are mapped. *)
Theorem C41_free_motor : forall calls,
  let n := get_first_free_motor (map_motors calls hw_init) in
  (1 <= n <= 8 /\ first_call calls n = None /\ forall m, 1 <= m < n -> first_call calls m <> None) \/
  (n = 0 /\ forall m, 1 <= m <= 8 -> first_call calls m <> None).
Proof.
  intros calls n.
  assert (G : forall m, 1 <= m <= 8 -> (hw_flip (map_motors calls hw_init) (m - 1) = 0 <-> first_call calls m = None)).
  { intros m Hm. pose proof (map_motors_spec calls m Hm) as S. cbv zeta in S.
    destruct (first_call calls m) as [[[a n0] f]|]; destruct S as [S _]; rewrite S; destruct n as [| |]; try destruct f; split; intros; congruence. }
  destruct (first_free (map_motors calls hw_init)) as [(H1 & H2 & H3)|(H1 & H2)]; [left|right].
  - split; auto. split; [now apply G|]. intros m Hm E. apply (H3 m Hm). apply G; [fold n in Hm, H1; lia|auto].
  - split; auto. intros m Hm E. apply (H2 m Hm). now apply G.
Qed.
Print Assumptions C41_free_motor.

(** C41: a configuration line motor_<n> = axis:[-]<letter> is that mapping call. *)
Theorem C41_config_line : forall c n a (mirrored : bool) h, 1 <= n <= 8 ->
  hw_name_value c (txt "motor-mapping") (numbered (txt "motor_") n)
    (txt "axis:" ++ (if mirrored then txt "-" else []) ++ [axis_letter a]) h =
  add_motor_mapping a n mirrored h.
Proof.
  intros c n a f h Hn.
  assert (H : n = 1 \/ n = 2 \/ n = 3 \/ n = 4 \/ n = 5 \/ n = 6 \/ n = 7 \/ n = 8) by lia.
  repeat destruct H as [->|H]; try subst n; destruct a, f; reflexivity.
Qed.
Print Assumptions C41_config_line.

(** C42: assigning steps to an axis sets the motors mapped to it and no others. *)
Theorem C42_assign : forall h a steps out m,
  (Z.testbit (hw_drivers h a) (motor_ix m) = true -> assign_motor_steps h a steps out m = steps) /\
  (Z.testbit (hw_drivers h a) (motor_ix m) = false -> assign_motor_steps h a steps out m = out m).
Proof. intros. unfold assign_motor_steps. destruct (Z.testbit _ _); split; congruence. Qed.
Print Assumptions C42_assign.

(** C42: reading an axis gives the position of one of its motors; 0 if it has none. *)
Theorem C42_read_back : forall c ops a pos,
  let h := hw_run c ops in
  (exists m, Z.testbit (hw_drivers h a) (motor_ix m) = true /\ get_axis_steps h a pos = pos m) \/
  (has_motor_for h a = false /\ get_axis_steps h a pos = 0).
Proof.
  intros c ops a pos h. destruct (motor_run c ops) as [R _ _ _ _]. fold h in R. specialize (R a).
  pose proof (axis_motor_spec (hw_drivers h a) ltac:(lia)) as S. unfold get_axis_steps.
  destruct (axis_motor (hw_drivers h a) all_motors) as [m|].
  - left. exists m. tauto.
  - right. split; auto. unfold has_motor_for. apply negb_false_iff, Z.eqb_eq. apply zero_bits; [lia|]. intros i Hi.
    destruct (Z_lt_le_dec i 8) as [H8|H8].
    + assert (E : exists m, motor_ix m = i).
      { assert (H : i = 0 \/ i = 1 \/ i = 2 \/ i = 3 \/ i = 4 \/ i = 5 \/ i = 6 \/ i = 7) by lia.
        destruct H as [->|[->|[->|[->|[->|[->|[->| ->]]]]]]]; [exists M1|exists M2|exists M3|exists M4|exists M5|exists M6|exists M7|exists M8]; reflexivity. }
      destruct E as [m <-]. apply S.
    + rewrite <- (Z.mod_small (hw_drivers h a) (2 ^ 8)) by lia. apply Z.mod_pow2_bits_high. lia.
Qed.
Print Assumptions C42_read_back.

(** C42: what was assigned to a mapped axis is read back, whatever is assigned to
    other axes before or after. *)
Theorem C42_round_trip : forall c ops a b s t out,
  let h := hw_run c ops in
  has_motor_for h a = true -> a <> b ->
  get_axis_steps h a (assign_motor_steps h a s (assign_motor_steps h b t out)) = s /\
  get_axis_steps h a (assign_motor_steps h b t (assign_motor_steps h a s out)) = s.
Proof.
  intros c ops a b s t out h Ha Hab.
  destruct (motor_run c ops) as [R _ _ _ O]. fold h in R, O.
  assert (G : exists m, axis_motor (hw_drivers h a) all_motors = Some m /\ Z.testbit (hw_drivers h a) (motor_ix m) = true).
  { pose proof (axis_motor_spec (hw_drivers h a) ltac:(specialize (R a); lia)) as S.
    destruct (axis_motor (hw_drivers h a) all_motors) as [m|] eqn:E; [exists m; tauto|]. exfalso.
    destruct (C42_read_back c ops a (fun _ => 0)) as [(m & B & _)|(B & _)]; fold h in B; [now rewrite S in B|congruence]. }
  destruct G as (m & E & B). unfold get_axis_steps. rewrite E. unfold assign_motor_steps. rewrite B.
  destruct (Z.testbit (hw_drivers h b) (motor_ix m)) eqn:B'; auto.
  exfalso. apply Hab. apply (O (motor_ix m)); auto. destruct m; cbn; lia.
Qed.
Print Assumptions C42_round_trip.

(** C43: an auxiliary pin reads as the value given by the last call that switches
    it, directly or through an output it is mapped to. *)
Theorem C43_last_switch_counts : forall c pre op post pin on, 1 <= pin <= 16 -> Forall pin_ok (pre ++ op :: post) ->
  switches (hw_run c pre) op pin on ->
  (forall post1 op' post2, post = post1 ++ op' :: post2 -> leaves (hw_run c (pre ++ op :: post1)) op' pin) ->
  get_aux_bit (hw_run c (pre ++ op :: post)) pin = on.
Proof. exact aux_last_write. Qed.
Print Assumptions C43_last_switch_counts.

(** C43: a call changes no pin it does not switch. *)
Theorem C43_others_untouched : forall c h op pin, 1 <= pin <= 16 -> pin_ok op ->
  leaves h op pin -> get_aux_bit (hw_step c h op) pin = get_aux_bit h pin.
Proof. intros c h op pin H1 H2. apply aux_step; auto. Qed.
Print Assumptions C43_others_untouched.

(** C43: an output drives exactly the pins it was mapped to and that the cape has. *)
Theorem C43_mapping : forall c ops o pin, 1 <= pin <= 16 -> existsb is_config ops = false ->
  (drives (hw_run c ops) o pin <-> In (HwAddAux o pin) ops /\ aux_gpio c pin <> GPIO_NOT_MAPPED).
Proof.
  intros c ops o pin Hp Hc. unfold drives. rewrite drives_spec by auto. rewrite existsb_exists. split.
  - intros (op & Hin & E). destruct op; try discriminate. cbn [connects] in E. apply andb_prop in E. destruct E as [E E3].
    apply andb_prop in E. destruct E as [E1 E2]. destruct (output_eqb_spec o o0); [|discriminate]. apply Z.eqb_eq in E2. subst.
    split; auto. intros X. rewrite X in E3. discriminate.
  - intros [Hin Hg]. exists (HwAddAux o pin). split; auto. cbn [connects]. destruct (output_eqb_spec o o); [|congruence].
    rewrite Z.eqb_refl. cbn [andb]. apply negb_true_iff, Z.eqb_neq. auto.
Qed.
Print Assumptions C43_mapping.

(** C43: when the outputs are written, every connector gets the value of its pin. *)
Theorem C43_outputs_written : forall c h, hw_ready h = true ->
  hw_log (set_aux_outputs c h) = hw_log h ++
    map (fun pin => if get_aux_bit h pin then GpioSet (aux_gpio c pin) else GpioClr (aux_gpio c pin))
        [1; 2; 3; 4; 5; 6; 7; 8; 9; 10; 11; 12; 13; 14; 15; 16].
Proof. intros c h H. unfold set_aux_outputs. rewrite H. reflexivity. Qed.
Print Assumptions C43_outputs_written.

(** C44: the answer is taken from the first level seen three times in a row, for
    every sequence of raw readings; as long as there is none, reading goes on. *)
Theorem C44_debounced : forall c h sw default readings,
  hw_ready h = true -> switch_gpio c sw <> GPIO_NOT_MAPPED ->
  test_switch c h sw default readings =
    match first_stable readings with Some level => Some (Bool.eqb level (hw_level h (sw - 1))) | None => None end.
Proof.
  intros c h sw default readings Hr Hg. unfold test_switch. rewrite Hr. cbn [negb].
  destruct (Z.eqb_spec (switch_gpio c sw) GPIO_NOT_MAPPED); [contradiction|].
  destruct readings as [|r l]; auto. now rewrite (proj1 (debounce_spec l r)).
Qed.
Print Assumptions C44_debounced.

Theorem C44_three_equal : forall readings level,
  (first_stable readings = Some level ->
     exists pre post, readings = pre ++ level :: level :: level :: post /\ first_stable (pre ++ [level; level]) = None) /\
  (forall pre post, readings = pre ++ level :: level :: level :: post -> first_stable readings <> None).
Proof. intros. split; [apply stable_sound|intros pre post ->; apply stable_complete]. Qed.
Print Assumptions C44_three_equal.

(** C44: without hardware, or without a connector, the default is the answer. *)
Theorem C44_default : forall c h sw default readings,
  hw_ready h = false \/ switch_gpio c sw = GPIO_NOT_MAPPED -> test_switch c h sw default readings = Some default.
Proof.
  intros c h sw default readings [H|H]; unfold test_switch; rewrite H; auto. destruct (negb (hw_ready h)); auto.
Qed.
Print Assumptions C44_default.

(** C45: the software emergency stop is set by initialising the hardware and by
    setting the estop output, and cleared only by clearing that output. *)
Theorem C45_estop_state : forall c ops, hw_estop (hw_run c ops) = stopped ops.
Proof. exact estop_run. Qed.
Print Assumptions C45_estop_state.

(** C45: the level that enables the motors is put on the enable pin only by
    EnableMotors(true) while the stop is not set (on capes where no aux output
    shares the enable pin). *)
Theorem C45_no_enable_in_estop : forall c ops op, (forall i, aux_gpio c i <> cape_enable c) ->
  exists new, hw_log (hw_step c (hw_run c ops) op) = hw_log (hw_run c ops) ++ new /\
    (In (motors_on c) new -> op = HwEnableMotors true /\ stopped ops = false).
Proof. exact enable_event. Qed.
Print Assumptions C45_no_enable_in_estop.

Theorem C45_enabled_only_without_estop : forall c ops op,
  hw_enabled (hw_run c ops) = false -> hw_enabled (hw_run c (ops ++ [op])) = true ->
  op = HwEnableMotors true /\ stopped ops = false.
Proof.
  intros c ops op H1 H2. rewrite hw_run_snoc in H2. destruct (enabled_flag c ops op H2) as [E|E]; [congruence|auto].
Qed.
Print Assumptions C45_enabled_only_without_estop.

(** Concrete cases. *)
Definition ex_cape : cape := mk_cape (fun i => if i =? 3 then 0 else 100 + i) (fun i => 200 + i) (fun i => if i =? 7 then 0 else 300 + i) 99 false.
Definition ex_calls : list motor_call := [(AX, 2, false); (AY, 3, true); (AZ, 2, true); (AX, 5, false); (AE, 9, false)].
Example ex_motors : let h := map_motors ex_calls hw_init in
  map (hw_drivers h) [AX; AY; AZ; AE] = [18; 4; 0; 0] /\ get_first_free_motor h = 1 /\
  fst (add_motor_mapping AZ 2 true h) = false /\ fst (add_motor_mapping AZ 6 true h) = true.
Proof. vm_compute. auto. Qed.
Definition ex_ops : list hw_op :=
  [HwAddMotor AX 2 false; HwAddMotor AY 1 false; HwAddMotor AX 4 true; HwAddAux OutFan 5; HwAddAux OutMist 5; HwAddAux OutMist 3; HwAddAux OutMist 6;
   HwInit true; HwUpdateOutput OutMist true; HwUpdateAux 6 false; HwEnableMotors true; HwUpdateOutput OutEstop false; HwEnableMotors true].
Example ex_hw : let h := hw_run ex_cape ex_ops in
  has_motor_for h AX = true /\ get_axis_steps h AX (fun m => 10 * motor_ix m) = 10 /\
  get_aux_bit h 5 = true /\ get_aux_bit h 6 = false /\ get_aux_bit h 3 = false /\ hw_enabled h = true /\
  hw_enabled (hw_run ex_cape (firstn 11 ex_ops)) = false.
Proof. vm_compute. repeat split; reflexivity. Qed.
Example ex_debounce : first_stable [true; false; false; true; true; true; false] = Some true.
Proof. reflexivity. Qed.
Example ex_enable : (forall i, aux_gpio ex_cape i <> cape_enable ex_cape) /\ motors_on ex_cape = GpioClr 99.
Proof. split; auto. intros i. unfold aux_gpio. cbn [ex_cape cape_aux cape_enable GPIO_NOT_MAPPED]. unfold GPIO_NOT_MAPPED. destruct ((1 <=? i) && (i <=? 16)) eqn:E; [destruct (i =? 3) eqn:E3|]; lia. Qed.
