From Verif Require Import Base Text Model_Axis Model_StringUtil Model_Hardware Spec_Hardware.

Lemma axis_eqb_spec : forall a b, reflect (a = b) (axis_eqb a b).
Proof. intros a b. unfold axis_eqb. destruct (Z.eqb_spec (axis_ix a) (axis_ix b)) as [E|E]; constructor; destruct a, b; cbn in E; congruence. Qed.
Lemma output_eqb_spec : forall a b, reflect (a = b) (output_eqb a b).
Proof. intros a b. unfold output_eqb. destruct (Z.eqb_spec (output_ix a) (output_ix b)) as [E|E]; constructor; destruct a, b; cbn in E; congruence. Qed.

(** ** Bits *)
Lemma bit1 : forall k i, 0 <= k -> 0 <= i -> Z.testbit (Z.shiftl 1 k) i = (i =? k).
Proof.
  intros k i Hk Hi. rewrite Z.shiftl_1_l. destruct (Z.eqb_spec i k) as [->|E].
  - now rewrite Z.pow2_bits_true.
  - apply Z.pow2_bits_false. congruence.
Qed.
Lemma u8_bits : forall x i, 0 <= i < 8 -> Z.testbit (u8 x) i = Z.testbit x i.
Proof. intros. unfold u8. apply Z.mod_pow2_bits_low. lia. Qed.
Lemma u16_bits : forall x i, 0 <= i < 16 -> Z.testbit (u16 x) i = Z.testbit x i.
Proof. intros. unfold u16. apply Z.mod_pow2_bits_low. lia. Qed.
Lemma u8_bits_high : forall x i, 8 <= i -> Z.testbit (u8 x) i = false.
Proof. intros. unfold u8. apply Z.mod_pow2_bits_high. lia. Qed.
Lemma u8_bits_all : forall x i, 0 <= i -> Z.testbit (u8 x) i = Z.testbit x i && (i <? 8).
Proof. intros. destruct (Z.ltb_spec i 8); [rewrite u8_bits by lia; now rewrite andb_true_r|rewrite u8_bits_high by lia; now rewrite andb_false_r]. Qed.

Lemma zero_bits : forall x, 0 <= x -> (forall i, 0 <= i -> Z.testbit x i = false) -> x = 0.
Proof. intros x Hx H. apply Z.bits_inj'. intros n Hn. rewrite H by auto. now rewrite Z.bits_0. Qed.

(** ** Motors *)
Lemma add_motor_cases : forall a n f h,
  let r := add_motor_mapping a n f h in
  (fst r = true /\ n = 0 /\ snd r = h) \/
  (fst r = false /\ snd r = h /\ (n < 0 \/ 8 < n)) \/
  (fst r = false /\ snd r = h /\ 1 <= n <= 8 /\ hw_flip h (n - 1) <> 0) \/
  (fst r = true /\ 1 <= n <= 8 /\ hw_flip h (n - 1) = 0 /\
   snd r = set_driver h a (u8 (Z.lor (hw_drivers h a) (Z.shiftl 1 (n - 1)))) (n - 1) (if f then -1 else 1)).
Proof.
  intros a n f h. unfold add_motor_mapping, NUM_MOTORS. destruct (Z.eqb_spec n 0); [left; auto|]. right.
  destruct (Z.ltb_spec n 1); [left; cbn [orb fst snd]; split; [reflexivity|split; [reflexivity|lia]]|]. destruct (Z.ltb_spec 8 n); [left; cbn [orb fst snd]; split; [reflexivity|split; [reflexivity|lia]]|]. right. cbn [orb].
  destruct (Z.eqb_spec (hw_flip h (n - 1)) 0) as [E|E]; cbn [negb]; [right|left]; repeat split; auto; lia.
Qed.

Record motor_inv (h : hw) : Prop := {
  mi_range : forall a, 0 <= hw_drivers h a < 256;
  mi_flip : forall m, 0 <= m < 8 -> hw_flip h m = 0 \/ hw_flip h m = 1 \/ hw_flip h m = -1;
  mi_free : forall m, 0 <= m < 8 -> hw_flip h m = 0 -> forall a, Z.testbit (hw_drivers h a) m = false;
  mi_used : forall m, 0 <= m < 8 -> hw_flip h m <> 0 -> exists a, Z.testbit (hw_drivers h a) m = true;
  mi_one : forall m a b, 0 <= m < 8 -> Z.testbit (hw_drivers h a) m = true -> Z.testbit (hw_drivers h b) m = true -> a = b
}.

Lemma motor_init : motor_inv hw_init.
Proof.
  constructor; cbn; intros; try lia.
  - now rewrite Z.bits_0.
  - now rewrite Z.bits_0 in H0.
Qed.

Lemma driver_bits : forall h a n fl b i, 1 <= n <= 8 -> 0 <= i < 8 ->
  Z.testbit (hw_drivers (set_driver h a (u8 (Z.lor (hw_drivers h a) (Z.shiftl 1 (n - 1)))) (n - 1) fl) b) i =
  Z.testbit (hw_drivers h b) i || ((i =? n - 1) && axis_eqb b a).
Proof.
  intros h a n fl b i Hn Hi. cbn [hw_drivers set_driver]. unfold set_axis. destruct (axis_eqb_spec b a) as [->|E].
  - rewrite u8_bits, Z.lor_spec, bit1 by lia. now rewrite andb_true_r.
  - now rewrite andb_false_r, orb_false_r.
Qed.

Lemma motor_add : forall a n f h, motor_inv h -> motor_inv (snd (add_motor_mapping a n f h)).
Proof.
  intros a n f h [R F Z0 U O]. destruct (add_motor_cases a n f h) as [(_ & _ & ->)|[(_ & -> & _)|[(_ & -> & _)|(_ & Hn & Hf & ->)]]]; [constructor; auto..|].
  constructor.
  - intros b. cbn [hw_drivers set_driver]. unfold set_axis. destruct (axis_eqb b a); auto. unfold u8. apply Z.mod_pos_bound. lia.
  - intros m Hm. cbn [hw_flip set_driver]. destruct (m =? n - 1); [destruct f; lia|auto].
  - intros m Hm Hz b. rewrite driver_bits by lia. cbn [hw_flip set_driver] in Hz. destruct (Z.eqb_spec m (n - 1)); [destruct f; lia|].
    rewrite Z0 by auto. reflexivity.
  - intros m Hm Hz. cbn [hw_flip set_driver] in Hz. destruct (Z.eqb_spec m (n - 1)) as [->|E].
    + exists a. rewrite driver_bits by lia. rewrite Z.eqb_refl. destruct (axis_eqb_spec a a); [|congruence]. now rewrite orb_true_r.
    + destruct (U m Hm Hz) as [b Hb]. exists b. rewrite driver_bits by lia. now rewrite Hb.
  - intros m b b' Hm Hb Hb'. rewrite driver_bits in Hb, Hb' by lia. destruct (Z.eqb_spec m (n - 1)) as [->|E].
    + rewrite Z0 in Hb, Hb' by auto. cbn in Hb, Hb'. destruct (axis_eqb_spec b a), (axis_eqb_spec b' a); congruence.
    + rewrite orb_false_r in Hb, Hb'. eauto.
Qed.

(** Other calls do not touch the motor mapping. *)
Definition same_motors (h h' : hw) : Prop := hw_drivers h' = hw_drivers h /\ hw_flip h' = hw_flip h.
Lemma motor_inv_same : forall h h', same_motors h h' -> motor_inv h -> motor_inv h'.
Proof. intros h h' [E1 E2] [R F Z0 U O]. constructor; rewrite ?E1, ?E2; auto. Qed.

Lemma aux_same_motors : forall c o n h, same_motors h (snd (add_aux_mapping c o n h)).
Proof. intros. unfold add_aux_mapping. repeat match goal with |- context [if ?b then _ else _] => destruct b end; split; reflexivity. Qed.
Lemma pwm_same_motors : forall c o n h, same_motors h (snd (add_pwm_mapping c o n h)).
Proof. intros. unfold add_pwm_mapping. repeat match goal with |- context [if ?b then _ else _] => destruct b end; split; reflexivity. Qed.
Lemma switch_same_motors : forall c sw opts h, same_motors h (snd (set_switch_options c sw opts h)).
Proof.
  intros c sw opts. induction opts as [|o opts IH]; intros h; [split; reflexivity|]. cbn [set_switch_options].
  assert (E : same_motors h (snd (set_switch_option c sw o h))).
  { unfold set_switch_option. destruct (to_lower_text o); [split; reflexivity|].
    repeat match goal with |- context [if ?b then _ else _] => destruct b end; try (split; reflexivity).
    all: destruct (letter_axis _); split; reflexivity. }
  destruct (set_switch_option c sw o h) as [[|] h']; cbn [snd] in *; auto.
  destruct (IH h') as [H1 H2]. destruct E as [E1 E2]. split; congruence.
Qed.

Lemma set_motor_axis_cases : forall n v h, snd (set_motor_axis n v h) = h \/
  exists a f, set_motor_axis n v h = add_motor_mapping a n f h.
Proof.
  intros n v h. unfold set_motor_axis. destruct (split_string v separators) as [|o r]; [now left|].
  destruct (has_prefix (to_lower_text o) (txt "axis:")); [|now left].
  destruct (skipn 5 (to_lower_text o)) as [|d r']; [now left|].
  destruct (Ascii.eqb d "-").
  - destruct r' as [|l r'']; [now left|]. destruct (letter_axis l); [right; eauto|now left].
  - destruct (letter_axis d); [right; eauto|now left].
Qed.

Lemma set_aux_outputs_same : forall c h, same_motors h (set_aux_outputs c h).
Proof. intros. unfold set_aux_outputs. destruct (negb _); split; reflexivity. Qed.

Lemma motor_step : forall c h op, motor_inv h -> motor_inv (hw_step c h op).
Proof.
  intros c h op H. destruct op; cbn [hw_step].
  - eapply motor_inv_same; [apply aux_same_motors|auto].
  - eapply motor_inv_same; [apply pwm_same_motors|auto].
  - now apply motor_add.
  - unfold hw_name_value. repeat match goal with |- context [if ?b then _ else _] => destruct b end; auto.
    + destruct (number_of _ _ _) as [i|]; auto. unfold set_aux_mapping. destruct (name_to_output value) as [o|]; auto.
      repeat match goal with |- context [if ?b then _ else _] => destruct b end; auto. eapply motor_inv_same; [apply aux_same_motors|auto].
    + destruct (number_of _ _ _) as [i|]; auto. unfold set_pwm_mapping. destruct (name_to_output value) as [o|]; auto.
      eapply motor_inv_same; [apply pwm_same_motors|auto].
    + destruct (number_of _ _ _) as [i|]; auto. destruct (set_motor_axis_cases i value h) as [->|(a & f & ->)]; auto. now apply motor_add.
    + destruct (number_of _ _ _) as [i|]; auto. eapply motor_inv_same; [apply switch_same_motors|auto].
  - eapply motor_inv_same; [|exact H]. unfold initialize_hardware, reset_hardware, enable_motors, set_aux_outputs.
    destruct (negb mapped); split; reflexivity.
  - eapply motor_inv_same; [|exact H]. unfold enable_motors. destruct (negb _); split; reflexivity.
  - eapply motor_inv_same; [|exact H]. split; reflexivity.
  - eapply motor_inv_same; [|exact H]. split; reflexivity.
  - eapply motor_inv_same; [|exact H]. apply set_aux_outputs_same.
  - eapply motor_inv_same; [|exact H]. unfold aux_outputs_off, set_aux_outputs. destruct (negb _); split; reflexivity.
  - eapply motor_inv_same; [|exact H]. unfold set_pwm_output. destruct (negb _); split; reflexivity.
Qed.

Lemma hw_run_snoc : forall c ops op, hw_run c (ops ++ [op]) = hw_step c (hw_run c ops) op.
Proof. intros. unfold hw_run. now rewrite fold_left_app. Qed.
Lemma motor_run : forall c ops, motor_inv (hw_run c ops).
Proof.
  intros c ops. induction ops as [|op ops IH] using rev_ind; [exact motor_init|]. rewrite hw_run_snoc. now apply motor_step.
Qed.

(** The first call wins. *)
Lemma first_call_snoc : forall calls a n f m, first_call (calls ++ [(a, n, f)]) m =
  match first_call calls m with Some x => Some x | None => if n =? m then Some (a, n, f) else None end.
Proof.
  intros. unfold first_call. induction calls as [|[[a' n'] f'] calls IH]; cbn [app find]; auto.
  destruct (n' =? m); auto.
Qed.

Lemma map_motors_spec : forall calls m, 1 <= m <= 8 ->
  let h := map_motors calls hw_init in
  match first_call calls m with
  | Some (a, _, f) => hw_flip h (m - 1) = (if f then -1 else 1) /\ forall b, Z.testbit (hw_drivers h b) (m - 1) = axis_eqb b a
  | None => hw_flip h (m - 1) = 0 /\ forall b, Z.testbit (hw_drivers h b) (m - 1) = false
  end.
Proof.
  intros calls m Hm. induction calls as [|[[a n] f] calls IH] using rev_ind; cbv zeta in *.
  - cbn. split; auto. intros. apply Z.bits_0.
  - rewrite first_call_snoc. unfold map_motors in *. rewrite fold_left_app. cbn [fold_left map_motor].
    set (h := fold_left map_motor calls hw_init) in *.
    assert (Hsame : forall h', h' = h -> n <> m \/ first_call calls m <> None -> match match first_call calls m with Some x => Some x | None => if n =? m then Some (a, n, f) else None end with
      | Some (a0, _, f0) => hw_flip h' (m - 1) = (if f0 then -1 else 1) /\ forall b, Z.testbit (hw_drivers h' b) (m - 1) = axis_eqb b a0
      | None => hw_flip h' (m - 1) = 0 /\ forall b, Z.testbit (hw_drivers h' b) (m - 1) = false end).
    { intros h' -> Hx. destruct (first_call calls m) as [[[a0 n0] f0]|]; auto. destruct (Z.eqb_spec n m); auto. destruct Hx; congruence. }
    destruct (add_motor_cases a n f h) as [(_ & Hn & E)|[(_ & E & Hn)|[(_ & E & Hn & Hf)|(_ & Hn & Hf & E)]]].
    + apply Hsame; auto. left. lia.
    + apply Hsame; auto. left. lia.
    + apply Hsame; auto. destruct (Z.eq_dec n m) as [->|]; auto. right. destruct (first_call calls m) as [[[a0 n0] f0]|]; [discriminate|tauto].
    + rewrite E. destruct (Z.eqb_spec n m) as [->|Hne].
      * destruct (first_call calls m) as [[[a0 n0] f0]|]; [destruct IH as [IH _]; rewrite Hf in IH; destruct f0; discriminate|].
        destruct IH as [_ IH]. split.
        -- cbn [hw_flip set_driver]. now rewrite Z.eqb_refl.
        -- intros b. rewrite driver_bits by lia. now rewrite IH, Z.eqb_refl.
      * assert (G : hw_flip (set_driver h a (u8 (Z.lor (hw_drivers h a) (Z.shiftl 1 (n - 1)))) (n - 1) (if f then -1 else 1)) (m - 1) = hw_flip h (m - 1)).
        { cbn [hw_flip set_driver]. destruct (Z.eqb_spec (m - 1) (n - 1)); [lia|auto]. }
        assert (G' : forall b, Z.testbit (hw_drivers (set_driver h a (u8 (Z.lor (hw_drivers h a) (Z.shiftl 1 (n - 1)))) (n - 1) (if f then -1 else 1)) b) (m - 1) = Z.testbit (hw_drivers h b) (m - 1)).
        { intros b. rewrite driver_bits by lia. destruct (Z.eqb_spec (m - 1) (n - 1)); [lia|]. now rewrite orb_false_r. }
        rewrite G. destruct (first_call calls m) as [[[a0 n0] f0]|]; destruct IH as [I1 I2]; (split; [exact I1|]); intros b; rewrite G'; auto.
Qed.

Lemma add_motor_result : forall calls a n f,
  fst (add_motor_mapping a n f (map_motors calls hw_init)) = true <->
  n = 0 \/ (1 <= n <= 8 /\ first_call calls n = None).
Proof.
  intros calls a n f. set (h := map_motors calls hw_init).
  destruct (add_motor_cases a n f h) as [(R & Hn & E)|[(R & E & Hn)|[(R & E & Hn & Hf)|(R & Hn & Hf & E)]]]; rewrite R.
  - tauto.
  - split; [discriminate|]. intros [H|[H _]]; lia.
  - split; [discriminate|]. pose proof (map_motors_spec calls n Hn) as S. cbv zeta in S. fold h in S.
    intros [H|[_ H]]; [lia|]. rewrite H in S. tauto.
  - split; auto. intros _. right. split; auto. pose proof (map_motors_spec calls n Hn) as S. cbv zeta in S. fold h in S.
    destruct (first_call calls n) as [[[a0 n0] f0]|]; auto. destruct S as [S _]. destruct f0; lia.
Qed.

Lemma first_free : forall h, let n := get_first_free_motor h in
  (1 <= n <= 8 /\ hw_flip h (n - 1) = 0 /\ forall m, 1 <= m < n -> hw_flip h (m - 1) <> 0) \/
  (n = 0 /\ forall m, 1 <= m <= 8 -> hw_flip h (m - 1) <> 0).
Proof.
  intros h. unfold get_first_free_motor. cbn [find].
  destruct (Z.eqb_spec (hw_flip h 0) 0) as [E0|E0]; [left; split; [lia|]; split; [exact E0|intros; lia]|].
  destruct (Z.eqb_spec (hw_flip h 1) 0) as [E1|E1]; [left; split; [lia|]; split; [exact E1|intros m Hm; assert (m = 1) by lia; now subst]|].
  assert (D : forall k, 0 <= k -> (forall m, 1 <= m <= k -> hw_flip h (m - 1) <> 0) -> hw_flip h k <> 0 -> forall m, 1 <= m <= k + 1 -> hw_flip h (m - 1) <> 0).
  { intros k Hk H1 H2 m Hm. destruct (Z.eq_dec m (k + 1)) as [->|]; [now replace (k + 1 - 1) with k by lia|apply H1; lia]. }
  assert (D2 : forall m, 1 <= m <= 2 -> hw_flip h (m - 1) <> 0) by (apply (D 1); try lia; intros m Hm; assert (m = 1) by lia; now subst).
  destruct (Z.eqb_spec (hw_flip h 2) 0) as [E2|E2]; [left; split; [lia|]; split; [exact E2|intros; apply D2; lia]|].
  pose proof (D 2 ltac:(lia) D2 E2) as D3.
  destruct (Z.eqb_spec (hw_flip h 3) 0) as [E3|E3]; [left; split; [lia|]; split; [exact E3|intros; apply D3; lia]|].
  pose proof (D 3 ltac:(lia) D3 E3) as D4.
  destruct (Z.eqb_spec (hw_flip h 4) 0) as [E4|E4]; [left; split; [lia|]; split; [exact E4|intros; apply D4; lia]|].
  pose proof (D 4 ltac:(lia) D4 E4) as D5.
  destruct (Z.eqb_spec (hw_flip h 5) 0) as [E5|E5]; [left; split; [lia|]; split; [exact E5|intros; apply D5; lia]|].
  pose proof (D 5 ltac:(lia) D5 E5) as D6.
  destruct (Z.eqb_spec (hw_flip h 6) 0) as [E6|E6]; [left; split; [lia|]; split; [exact E6|intros; apply D6; lia]|].
  pose proof (D 6 ltac:(lia) D6 E6) as D7.
  destruct (Z.eqb_spec (hw_flip h 7) 0) as [E7|E7]; [left; split; [lia|]; split; [exact E7|intros; apply D7; lia]|].
  pose proof (D 7 ltac:(lia) D7 E7) as D8. right. split; auto.
Qed.

(** ** Steps of an axis *)
Lemma axis_motor_spec : forall mask, 0 <= mask ->
  match axis_motor mask all_motors with
  | Some m => Z.testbit mask (motor_ix m) = true /\ forall m', motor_ix m' < motor_ix m -> Z.testbit mask (motor_ix m') = false
  | None => forall m, Z.testbit mask (motor_ix m) = false
  end.
Proof.
  intros mask Hm. unfold all_motors. cbn [axis_motor].
  assert (S : forall k x, 0 <= k -> Z.testbit (Z.shiftr x k) 0 = Z.testbit x k) by (intros; rewrite Z.shiftr_spec by lia; now rewrite Z.add_0_l).
  assert (C : forall k x, 0 <= k -> Z.shiftr (Z.shiftr x k) 1 = Z.shiftr x (k + 1)) by (intros; now rewrite Z.shiftr_shiftr by lia).
  rewrite !C by lia. rewrite !S by lia. cbn [Z.add].
  destruct (Z.testbit mask 0) eqn:B0; [split; [exact B0|intros []; cbn; intros; try lia; auto]|].
  destruct (Z.testbit mask 1) eqn:B1; [split; [exact B1|intros []; cbn; intros; try lia; auto]|].
  destruct (Z.testbit mask (1 + 1)) eqn:B2; [split; [exact B2|intros []; cbn; intros; try lia; auto]|].
  destruct (Z.testbit mask (1 + 1 + 1)) eqn:B3; [split; [exact B3|intros []; cbn; intros; try lia; auto]|].
  destruct (Z.testbit mask (1 + 1 + 1 + 1)) eqn:B4; [split; [exact B4|intros []; cbn; intros; try lia; auto]|].
  destruct (Z.testbit mask (1 + 1 + 1 + 1 + 1)) eqn:B5; [split; [exact B5|intros []; cbn; intros; try lia; auto]|].
  destruct (Z.testbit mask (1 + 1 + 1 + 1 + 1 + 1)) eqn:B6; [split; [exact B6|intros []; cbn; intros; try lia; auto]|].
  destruct (Z.testbit mask (1 + 1 + 1 + 1 + 1 + 1 + 1)) eqn:B7; [split; [exact B7|intros []; cbn; intros; try lia; auto]|].
  intros []; auto.
Qed.

(** ** What configuration calls leave alone *)
Definition same_state (h h' : hw) : Prop :=
  hw_estop h' = hw_estop h /\ hw_enabled h' = hw_enabled h /\ hw_aux h' = hw_aux h /\ hw_ready h' = hw_ready h /\ hw_log h' = hw_log h.
Lemma same_state_refl : forall h, same_state h h.
Proof. intros. unfold same_state. auto. Qed.
Lemma add_aux_state : forall c o n h, same_state h (snd (add_aux_mapping c o n h)).
Proof. intros. unfold add_aux_mapping. repeat match goal with |- context [if ?b then _ else _] => destruct b end; unfold same_state; auto. Qed.
Lemma add_pwm_state : forall c o n h, same_state h (snd (add_pwm_mapping c o n h)).
Proof. intros. unfold add_pwm_mapping. repeat match goal with |- context [if ?b then _ else _] => destruct b end; unfold same_state; auto. Qed.
Lemma add_motor_state : forall a n f h, same_state h (snd (add_motor_mapping a n f h)).
Proof. intros. unfold add_motor_mapping. repeat match goal with |- context [if ?b then _ else _] => destruct b end; unfold same_state; auto. Qed.
Lemma switch_state : forall c sw opts h, same_state h (snd (set_switch_options c sw opts h)).
Proof.
  intros c sw opts. induction opts as [|o opts IH]; intros h; [apply same_state_refl|]. cbn [set_switch_options].
  assert (E : same_state h (snd (set_switch_option c sw o h))).
  { unfold set_switch_option, same_state. destruct (to_lower_text o); auto.
    repeat match goal with |- context [if ?b then _ else _] => destruct b end; auto.
    all: destruct (letter_axis _); auto. }
  destruct (set_switch_option c sw o h) as [[|] h']; cbn [snd] in *; auto.
  specialize (IH h'). unfold same_state in *. intuition congruence.
Qed.
Lemma config_state : forall c s n v h, same_state h (snd (hw_name_value c s n v h)).
Proof.
  intros. unfold hw_name_value. repeat match goal with |- context [if ?b then _ else _] => destruct b end; try apply same_state_refl.
  - destruct (number_of _ _ _) as [i|]; try apply same_state_refl. unfold set_aux_mapping. destruct (name_to_output v) as [o|]; try apply same_state_refl.
    repeat match goal with |- context [if ?b then _ else _] => destruct b end; try apply same_state_refl. apply add_aux_state.
  - destruct (number_of _ _ _) as [i|]; try apply same_state_refl. unfold set_pwm_mapping. destruct (name_to_output v) as [o|]; try apply same_state_refl.
    apply add_pwm_state.
  - destruct (number_of _ _ _) as [i|]; try apply same_state_refl. destruct (set_motor_axis_cases i v h) as [->|(a & f & ->)]; try apply same_state_refl. apply add_motor_state.
  - destruct (number_of _ _ _) as [i|]; try apply same_state_refl. apply switch_state.
Qed.

(** ** Auxiliary pins *)
Lemma aux_step : forall c h op p, 1 <= p <= 16 -> pin_ok op ->
  (forall on, switches h op p on -> get_aux_bit (hw_step c h op) p = on) /\
  (leaves h op p -> get_aux_bit (hw_step c h op) p = get_aux_bit h p).
Proof.
  intros c h op p Hp Hok. unfold get_aux_bit, leaves.
  assert (Keep : forall h', same_state h h' -> Z.testbit (hw_aux h') (p - 1) = Z.testbit (hw_aux h) (p - 1)) by (intros h' (_ & _ & -> & _); auto).
  destruct op; cbn [hw_step switches].
  - split; [tauto|]. intros _. apply Keep, add_aux_state.
  - split; [tauto|]. intros _. apply Keep, add_pwm_state.
  - split; [tauto|]. intros _. apply Keep, add_motor_state.
  - split; [tauto|]. intros _. apply Keep, config_state.
  - destruct mapped; cbn [switches].
    + split; [|intros H; exfalso; eapply (H false); reflexivity]. intros on ->. unfold initialize_hardware. cbn. apply Z.bits_0.
    + split; [tauto|]. intros _. reflexivity.
  - split; [tauto|]. intros _. unfold enable_motors. destruct (negb _); reflexivity.
  - cbn [pin_ok] in Hok. cbn [update_aux_bits set_state hw_aux].
    assert (E : Z.testbit (if on then u16 (Z.lor (hw_aux h) (Z.shiftl 1 (pin - 1))) else u16 (Z.land (hw_aux h) (Z.lnot (Z.shiftl 1 (pin - 1))))) (p - 1) =
      if p =? pin then on else Z.testbit (hw_aux h) (p - 1)).
    { destruct on; rewrite u16_bits by lia.
      - rewrite Z.lor_spec, bit1 by lia. destruct (Z.eqb_spec (p - 1) (pin - 1)), (Z.eqb_spec p pin); lia.
      - rewrite Z.land_spec, Z.lnot_spec, bit1 by lia. destruct (Z.eqb_spec (p - 1) (pin - 1)), (Z.eqb_spec p pin); lia. }
    rewrite E. split.
    + intros on' [-> ->]. now rewrite Z.eqb_refl.
    + intros H. destruct (Z.eqb_spec p pin) as [->|]; auto. exfalso. apply (H on). auto.
  - cbn [update_aux_bitmap set_state hw_aux].
    assert (E : Z.testbit (if on then u16 (Z.lor (hw_aux h) (hw_aux_of h o)) else u16 (Z.land (hw_aux h) (Z.lnot (hw_aux_of h o)))) (p - 1) =
      if Z.testbit (hw_aux_of h o) (p - 1) then on else Z.testbit (hw_aux h) (p - 1)).
    { destruct on; rewrite u16_bits by lia.
      - rewrite Z.lor_spec. destruct (Z.testbit (hw_aux_of h o) (p - 1)); [apply orb_true_r|apply orb_false_r].
      - rewrite Z.land_spec, Z.lnot_spec by lia. destruct (Z.testbit (hw_aux_of h o) (p - 1)); [apply andb_false_r|apply andb_true_r]. }
    rewrite E. unfold drives. split.
    + intros on' [-> ->]. reflexivity.
    + intros H. destruct (Z.testbit (hw_aux_of h o) (p - 1)) eqn:B; auto. exfalso. apply (H on). auto.
  - split; [tauto|]. intros _. unfold set_aux_outputs. destruct (negb _); reflexivity.
  - split; [|intros H; exfalso; eapply (H false); reflexivity]. intros on ->. unfold aux_outputs_off, set_aux_outputs. cbn. destruct (negb _); cbn; apply Z.bits_0.
  - split; [tauto|]. intros _. unfold set_pwm_output. destruct (negb _); reflexivity.
Qed.

Lemma aux_last_write : forall c pre op post p on, 1 <= p <= 16 -> Forall pin_ok (pre ++ op :: post) ->
  switches (hw_run c pre) op p on ->
  (forall post1 op' post2, post = post1 ++ op' :: post2 -> leaves (hw_run c (pre ++ op :: post1)) op' p) ->
  get_aux_bit (hw_run c (pre ++ op :: post)) p = on.
Proof.
  intros c pre op post p on Hp Hok Hs. induction post as [|x post IH] using rev_ind; intros Hl.
  - rewrite hw_run_snoc. apply aux_step; auto. apply Forall_app in Hok. destruct Hok as [_ Hok]. now inversion Hok.
  - replace (pre ++ op :: post ++ [x]) with ((pre ++ op :: post) ++ [x]) in * by (rewrite <- app_assoc; reflexivity).
    apply Forall_app in Hok. destruct Hok as [Hok Hx]. inversion Hx; subst.
    rewrite hw_run_snoc. rewrite (proj2 (aux_step c (hw_run c (pre ++ op :: post)) x p Hp H1)).
    + apply IH; auto. intros post1 op' post2 E. apply (Hl post1 op' (post2 ++ [x])). rewrite E, <- app_assoc. reflexivity.
    + apply (Hl post x []). reflexivity.
Qed.

(** Which pins an output drives. *)
Definition connects (c : cape) (o : output) (p : Z) (op : hw_op) : bool :=
  match op with HwAddAux o' p' => output_eqb o o' && (p =? p') && negb (aux_gpio c p' =? GPIO_NOT_MAPPED) | _ => false end.
Definition is_config (op : hw_op) : bool := match op with HwConfig _ _ _ => true | _ => false end.

Lemma aux_of_frame : forall c h op, match op with HwAddAux _ _ | HwConfig _ _ _ => False | _ => True end -> hw_aux_of (hw_step c h op) = hw_aux_of h.
Proof.
  intros c h op H. destruct op; try contradiction; cbn [hw_step].
  - unfold add_pwm_mapping. repeat match goal with |- context [if ?b then _ else _] => destruct b end; auto.
  - unfold add_motor_mapping. repeat match goal with |- context [if ?b then _ else _] => destruct b end; auto.
  - unfold initialize_hardware, reset_hardware, enable_motors, set_aux_outputs. destruct (negb mapped); reflexivity.
  - unfold enable_motors. destruct (negb _); reflexivity.
  - reflexivity.
  - reflexivity.
  - unfold set_aux_outputs. destruct (negb _); reflexivity.
  - unfold aux_outputs_off, set_aux_outputs. destruct (negb _); reflexivity.
  - unfold set_pwm_output. destruct (negb _); reflexivity.
Qed.

Lemma drives_spec : forall c ops o p, 1 <= p <= 16 -> existsb is_config ops = false ->
  Z.testbit (hw_aux_of (hw_run c ops) o) (p - 1) = existsb (connects c o p) ops.
Proof.
  intros c ops o p Hp. induction ops as [|op ops IH] using rev_ind; intros Hc.
  - cbn. apply Z.bits_0.
  - rewrite existsb_app in *. apply orb_false_iff in Hc. destruct Hc as [Hc Hc']. cbn [existsb] in *. rewrite orb_false_r in *.
    rewrite hw_run_snoc. specialize (IH Hc). set (h := hw_run c ops) in *.
    destruct op; try discriminate; try (rewrite aux_of_frame by exact Logic.I; cbn [connects]; rewrite orb_false_r; exact IH).
    cbn [hw_step connects]. unfold add_aux_mapping, NUM_BOOL_OUTPUTS.
    destruct (Z.eqb_spec aux 0) as [->|H0]; [cbn [snd]; rewrite IH; destruct (Z.eqb_spec p 0); [lia|]; rewrite andb_false_r; now rewrite orb_false_r|].
    destruct (Z.ltb_spec aux 1); [cbn [orb snd]; rewrite IH; destruct (Z.eqb_spec p aux); [lia|]; rewrite andb_false_r; now rewrite orb_false_r|].
    destruct (Z.ltb_spec 16 aux); [cbn [orb snd]; rewrite IH; destruct (Z.eqb_spec p aux); [lia|]; rewrite andb_false_r; now rewrite orb_false_r|].
    cbn [orb]. destruct (aux_gpio c aux =? GPIO_NOT_MAPPED); cbn [snd negb].
    + now rewrite IH, andb_false_r, orb_false_r.
    + rewrite andb_true_r. cbn [set_aux_of hw_aux_of]. destruct (output_eqb_spec o o0) as [->|E].
      * rewrite u16_bits, Z.lor_spec, bit1 by lia. rewrite IH. cbn [andb]. f_equal. destruct (Z.eqb_spec (p - 1) (aux - 1)), (Z.eqb_spec p aux); lia.
      * cbn [andb]. now rewrite IH, orb_false_r.
Qed.

(** ** Motor enable *)
Lemma stopped_snoc : forall ops op, stopped (ops ++ [op]) = stop_after (stopped ops) op.
Proof. intros. unfold stopped. now rewrite fold_left_app. Qed.

Lemma estop_run : forall c ops, hw_estop (hw_run c ops) = stopped ops.
Proof.
  intros c ops. induction ops as [|op ops IH] using rev_ind; auto. rewrite hw_run_snoc, stopped_snoc, <- IH.
  set (h := hw_run c ops). destruct op; cbn [hw_step stop_after].
  - apply add_aux_state.
  - apply add_pwm_state.
  - apply add_motor_state.
  - apply config_state.
  - unfold initialize_hardware. destruct mapped; reflexivity.
  - unfold enable_motors. destruct (negb _); reflexivity.
  - reflexivity.
  - cbn [update_aux_bitmap set_state hw_estop]. destruct o; reflexivity.
  - unfold set_aux_outputs. destruct (negb _); reflexivity.
  - unfold aux_outputs_off, set_aux_outputs. destruct (negb _); reflexivity.
  - unfold set_pwm_output. destruct (negb _); reflexivity.
Qed.

Lemma enable_event : forall c ops op, (forall i, aux_gpio c i <> cape_enable c) ->
  exists new, hw_log (hw_step c (hw_run c ops) op) = hw_log (hw_run c ops) ++ new /\
    (In (motors_on c) new -> op = HwEnableMotors true /\ stopped ops = false).
Proof.
  intros c ops op Hg. set (h := hw_run c ops).
  assert (Hs : hw_estop h = stopped ops) by apply estop_run.
  assert (Keep : forall h', same_state h h' -> exists new, hw_log h' = hw_log h ++ new /\ (In (motors_on c) new -> op = HwEnableMotors true /\ stopped ops = false)).
  { intros h' (_ & _ & _ & _ & ->). exists []. split; [now rewrite app_nil_r|]. intros []. }
  assert (Haux : forall bits, ~ In (motors_on c) (map (fun i => if Z.testbit bits i then GpioSet (aux_gpio c (i + 1)) else GpioClr (aux_gpio c (i + 1))) [0; 1; 2; 3; 4; 5; 6; 7; 8; 9; 10; 11; 12; 13; 14; 15])).
  { intros bits X. apply in_map_iff in X. destruct X as (i & E & _). unfold motors_on in E.
    destruct (Z.testbit bits i), (cape_enable_high c); try discriminate; injection E as E; now apply (Hg (i + 1)). }
  assert (Hoff : ~ In (motors_on c) [if xorb false (cape_enable_high c) then GpioClr (cape_enable c) else GpioSet (cape_enable c)]).
  { unfold motors_on. destruct (cape_enable_high c); cbn; intros [X|[]]; discriminate. }
  destruct op; cbn [hw_step].
  - apply Keep, add_aux_state.
  - apply Keep, add_pwm_state.
  - apply Keep, add_motor_state.
  - apply Keep, config_state.
  - destruct mapped.
    + unfold initialize_hardware, reset_hardware, enable_motors, set_aux_outputs. cbn [negb set_state hw_ready hw_log hw_estop hw_enabled hw_aux andb].
      eexists. split; [rewrite <- !app_assoc; reflexivity|]. intros X. exfalso.
      rewrite !in_app_iff in X. destruct X as [X|[X|[X|[X|X]]]].
      * apply in_map_iff in X. destruct X as (i & E & _). unfold motors_on in E. destruct (cape_enable_high c); discriminate.
      * apply in_map_iff in X. destruct X as (i & E & _). unfold motors_on in E. destruct (cape_enable_high c); discriminate.
      * revert X. apply Haux.
      * revert X. exact Hoff.
      * apply in_map_iff in X. destruct X as (i & E & _). unfold motors_on in E. destruct (cape_enable_high c); discriminate.
    + exists []. split; [cbn; now rewrite app_nil_r|]. intros [].
  - unfold enable_motors. destruct (negb (hw_ready h)); [exists []; split; [now rewrite app_nil_r|]; intros []|].
    cbn [set_state hw_log]. eexists. split; [reflexivity|]. rewrite Hs.
    destruct on; cbn [andb].
    + destruct (stopped ops); [intros X; now apply Hoff in X|auto].
    + intros X. now apply Hoff in X.
  - exists []. split; [cbn; now rewrite app_nil_r|]. intros [].
  - exists []. split; [cbn; now rewrite app_nil_r|]. intros [].
  - unfold set_aux_outputs. destruct (negb (hw_ready h)); [exists []; split; [now rewrite app_nil_r|]; intros []|].
    cbn [set_state hw_log]. eexists. split; [reflexivity|]. intros X. now apply Haux in X.
  - unfold aux_outputs_off, set_aux_outputs. cbn [set_state hw_ready hw_log]. destruct (negb (hw_ready h)); [exists []; split; [cbn; now rewrite app_nil_r|]; intros []|].
    cbn [set_state hw_log]. eexists. split; [reflexivity|]. intros X. now apply Haux in X.
  - unfold set_pwm_output. destruct (negb (hw_ready h)); [exists []; split; [now rewrite app_nil_r|]; intros []|].
    cbn [set_state hw_log]. eexists. split; [reflexivity|]. intros X. exfalso. unfold motors_on in X.
    destruct positive, (cape_enable_high c); cbn in X; repeat destruct X as [X|X]; try discriminate; contradiction.
Qed.

Lemma enabled_flag : forall c ops op, hw_enabled (hw_step c (hw_run c ops) op) = true ->
  hw_enabled (hw_run c ops) = true \/ (op = HwEnableMotors true /\ stopped ops = false).
Proof.
  intros c ops op. pose proof (estop_run c ops) as Hs. set (h := hw_run c ops) in *.
  assert (Keep : forall h', same_state h h' -> hw_enabled h' = true -> hw_enabled h = true \/ (op = HwEnableMotors true /\ stopped ops = false)).
  { intros h' (_ & -> & _); auto. }
  destruct op; cbn [hw_step]; intros H.
  - eapply Keep; [apply add_aux_state|exact H].
  - eapply Keep; [apply add_pwm_state|exact H].
  - eapply Keep; [apply add_motor_state|exact H].
  - eapply Keep; [apply config_state|exact H].
  - unfold initialize_hardware in H. destruct mapped; [discriminate H|]. left. exact H.
  - unfold enable_motors in H. destruct (negb _); [now left|]. cbn [set_state hw_enabled] in H. rewrite Hs in H.
    destruct on; [|discriminate]. right. split; auto. destruct (stopped ops); [discriminate H|auto].
  - now left.
  - now left.
  - left. revert H. unfold set_aux_outputs. destruct (negb _); auto.
  - left. revert H. unfold aux_outputs_off, set_aux_outputs. cbn. destruct (negb _); auto.
  - left. revert H. unfold set_pwm_output. destruct (negb _); auto.
Qed.

(** ** Switches *)
Lemma debounce_spec : forall l s,
  debounce s 0 l = first_stable (s :: l) /\ debounce s 1 l = first_stable (s :: s :: l).
Proof.
  induction l as [|r l IH]; intros s; [split; reflexivity|].
  destruct (IH s) as [I1 I2]. destruct (IH r) as [J1 J2].
  split.
  - cbn [debounce]. destruct (Bool.eqb r s) eqn:E.
    + apply eqb_prop in E. subst r. exact I2.
    + rewrite J1. cbn [first_stable]. destruct l as [|x l]; auto.
      assert (E' : Bool.eqb s r = false) by (destruct r, s; auto). now rewrite E'.
  - cbn [debounce]. destruct (Bool.eqb r s) eqn:E.
    + apply eqb_prop in E. subst r. cbn [first_stable]. now rewrite Bool.eqb_reflx.
    + rewrite J1. assert (E' : Bool.eqb s r = false) by (destruct r, s; auto).
      cbn [first_stable]. rewrite E', andb_false_r. destruct l as [|x l]; auto. 
Qed.
Lemma stable_sound : forall l v, first_stable l = Some v ->
  exists pre post, l = pre ++ v :: v :: v :: post /\ first_stable (pre ++ [v; v]) = None.
Proof.
  induction l as [|a l IH]; intros v H; [discriminate|]. destruct l as [|b [|x l]]; try discriminate.
  cbn [first_stable] in H. destruct (Bool.eqb a b && Bool.eqb b x) eqn:E.
  - apply andb_prop in E. destruct E as [E1 E2]. apply eqb_prop in E1, E2. injection H as ->. subst. exists [], l. auto.
  - destruct (IH v) as (pre & post & El & Hn); [exact H|]. exists (a :: pre), post. rewrite El. split; auto.
    destruct pre as [|b' pre].
    + cbn in El. injection El as -> -> ->. cbn [app first_stable]. now rewrite E.
    + cbn in El. injection El as <- El. destruct pre as [|x' pre].
      * cbn in El. injection El as <- ->. cbn [app]. cbn [first_stable]. rewrite E. exact Hn.
      * cbn in El. injection El as <- El. cbn [app] in *. cbn [first_stable] in *. rewrite E. exact Hn.
Qed.
Lemma stable_complete : forall pre v post, first_stable (pre ++ v :: v :: v :: post) <> None.
Proof.
  induction pre as [|a pre IH]; intros v post.
  - cbn [app first_stable]. rewrite Bool.eqb_reflx. discriminate.
  - cbn [app]. specialize (IH v post). destruct (pre ++ v :: v :: v :: post) as [|b [|x l]] eqn:E; try (destruct pre as [|? [|? [|? ?]]]; discriminate).
    change (first_stable (a :: b :: x :: l)) with (if Bool.eqb a b && Bool.eqb b x then Some a else first_stable (b :: x :: l)).
    destruct (Bool.eqb a b && Bool.eqb b x); [discriminate|exact IH].
Qed.
