From Verif Require Import Base Text Model_Axis Model_Float Model_Hardware Model_Machine Spec_Machine Spec_Commands.
From Verif Require Import Proofs_Machine Proofs_Machine2 Proofs_Machine3.

Lemma does_app : forall l1 a1 l2 a2, does l1 a1 -> does l2 a2 -> does (l1 ++ l2) (a1 ++ a2).
Proof.
  intros l1 a1 l2 a2 H H2. induction H; cbn [app]; try (constructor; auto; fail); auto.
  rewrite <- app_assoc. now constructor.
Qed.
(** Registers other than the homing state. *)
Definition regs (s : machine) := (m_feed s, m_factor s, m_off_motor s, m_off_fan s).
Definition steps (s s' : machine) (acts : list action) (p : bool) : Prop :=
  (exists new, m_log s' = m_log s ++ new /\ does new acts) /\ regs s' = regs s /\ m_pause s' = p.
Definition doing {A} (m : M A) (acts : list action) : Prop := forall s x s', m s = (Some x, s') -> steps s s' acts (m_pause s).
Lemma doing_bind : forall A B (m : M A) (f : A -> M B) a1 a2, doing m a1 -> (forall x, doing (f x) a2) -> doing (bind m f) (a1 ++ a2).
Proof.
  intros A B m f a1 a2 H1 H2 s y s' E. apply bind_some in E. destruct E as (x & s1 & E1 & E2).
  destruct (H1 _ _ _ E1) as ((n1 & L1 & D1) & R1 & P1). destruct (H2 _ _ _ _ E2) as ((n2 & L2 & D2) & R2 & P2).
  split; [|split; congruence]. exists (n1 ++ n2). split; [now rewrite L2, L1, app_assoc|now apply does_app].
Qed.
Lemma doing_ret : forall A (x : A), doing (ret x) [].
Proof. intros A x s y s' E. injection E as <- <-. repeat split. exists []. rewrite app_nil_r. split; [auto|constructor]. Qed.
Lemma doing_get : doing get [].
Proof. intros s y s' E. injection E as <- <-. repeat split. exists []. rewrite app_nil_r. split; [auto|constructor]. Qed.
Lemma doing_act : forall c a, a <> DoHalt -> doing (act c a) [a].
Proof. intros c a N s y s' E. injection E as <- <-. repeat split. eexists. split; [reflexivity|]. apply does_act; [exact N|constructor]. Qed.
Lemma doing_ask : forall q, q <> QFlush -> doing (ask q) [].
Proof.
  intros q N s z s' E. unfold ask in E. destruct (m_in s); [discriminate|]. injection E as <- <-. repeat split.
  eexists. split; [reflexivity|]. apply does_ask; [exact N|constructor].
Qed.
Lemma doing_homing : forall h, doing (set_homing h) [].
Proof. intros h s y s' E. injection E as <- <-. repeat split. exists []. cbn. rewrite app_nil_r. split; [auto|constructor]. Qed.
Lemma doing_halt : forall c, doing (halt c) [DoHalt].
Proof.
  intros c s y s' E. unfold halt, bind, act, ask in E. cbn in E. destruct (m_in s) as [|n r]; [discriminate|]. cbn in E.
  unfold when in E. destruct (0 <? n) eqn:N; injection E as <- <-; (repeat split);
    (eexists; split; [cbn [m_log]; rewrite <- !app_assoc; reflexivity|]); pose proof (does_halt n [] [] does_nothing) as D; rewrite N in D; exact D.
Qed.
Lemma doing_int : forall z, doing (int_of z) [].
Proof. intros z. unfold int_of. destruct (to_int z); [apply doing_ret|apply doing_ask; discriminate]. Qed.
Lemma doing_when : forall (b : bool) m acts, (b = true -> doing m acts) -> doing (when b m) (if b then acts else []).
Proof. intros [] m acts H; cbn; [auto|apply doing_ret]. Qed.
Lemma doing_set : forall c o on, doing (set_output_flags c o on) [output o on].
Proof. intros. apply doing_act. discriminate. Qed.
Lemma doing_motor : forall c on, doing (motors_enable c on) (power on).
Proof.
  intros c on. unfold motors_enable, power. change [DoHalt; DoMotors on; DoHw (HwEnableMotors on)] with ([DoHalt] ++ [DoMotors on; DoHw (HwEnableMotors on)] ++ []).
  apply doing_bind; [apply doing_halt|intros []]. apply doing_bind.
  - unfold motor_enable. change [DoMotors on; DoHw (HwEnableMotors on)] with ([DoMotors on] ++ [DoHw (HwEnableMotors on)]).
    apply doing_bind; [apply doing_act; discriminate|intros []]. apply doing_act. discriminate.
  - intros []. change (@nil action) with (@nil action ++ []). apply doing_bind; [apply doing_get|intros s]. unfold when. destruct (_ && _); [apply doing_homing|apply doing_ret].
Qed.
Lemma doing_spindle_off : forall c, doing (set_spindle_off c) (spindle_stop c).
Proof.
  intros c. unfold set_spindle_off, spindle_stop. destruct (c_has_spindle c); [|apply doing_ret].
  change [DoHalt; DoSpindleOff] with ([DoHalt] ++ [DoSpindleOff]). apply doing_bind; [apply doing_halt|intros []; apply doing_act; discriminate].
Qed.
Lemma doing_fan : forall c f, doing (set_fanspeed c f) (fan f).
Proof.
  intros c f. unfold set_fanspeed, fan. destruct (_ || _); [apply doing_ret|]. cbv zeta.
  match goal with |- doing _ [?a; ?b] => change [a; b] with ([a] ++ [b]) end. apply doing_bind; [apply doing_set|intros []; apply doing_act; discriminate].
Qed.
Lemma doing_estop : forall c, doing (set_estop c) (spindle_stop c ++ [DoHw HwAuxOff; output OutEstop true] ++ power false).
Proof.
  intros c. unfold set_estop. apply doing_bind; [apply doing_spindle_off|intros []].
  change ([DoHw HwAuxOff; output OutEstop true] ++ power false) with ([DoHw HwAuxOff] ++ [output OutEstop true] ++ power false ++ []).
  apply doing_bind; [apply doing_act; discriminate|intros []]. apply doing_bind; [apply doing_set|intros []].
  apply doing_bind; [apply doing_motor|intros []]. apply doing_homing.
Qed.

(** ** Words *)
(** With readable values the loops over the words compute, and change nothing. *)
Definition pure {A} (m : M A) (x : A) : Prop := forall s, m s = (Some x, s).
Lemma pure_int : forall v z, fl_round v = Some z -> - 2 ^ 31 <= z <= 2 ^ 31 - 1 -> pure (int_of (fl_round v)) z.
Proof. intros v z E R s. unfold int_of, to_int. rewrite E. replace ((- 2 ^ 31 <=? z) && (z <=? 2 ^ 31 - 1)) with true by lia. reflexivity. Qed.
Lemma pure_trunc : forall v z, fl_trunc v = Some z -> - 2 ^ 31 <= z <= 2 ^ 31 - 1 -> pure (int_of (fl_trunc v)) z.
Proof. intros v z E R s. unfold int_of, to_int. rewrite E. replace ((- 2 ^ 31 <=? z) && (z <=? 2 ^ 31 - 1)) with true by lia. reflexivity. Qed.
Lemma pure_bind : forall A B (m : M A) (f : A -> M B) x y, pure m x -> pure (f x) y -> pure (bind m f) y.
Proof. intros A B m f x y H1 H2 s. unfold bind. rewrite H1. apply H2. Qed.
Definition all_int (ps : pairs) : Prop := Forall (fun w => int_value (snd w)) ps.
Lemma number_cons : forall l ch v z r d, fl_round v = Some z -> all_int r ->
  number_of l ((ch, v) :: r) d = number_of l r (if Ascii.eqb ch l then z else d).
Proof.
  intros l ch v z r d E F. unfold number_of. cbn [last_of]. destruct (last_of l r) as [w|] eqn:L.
  - assert (W : int_value w).
    { clear E. induction F as [|[c' v'] r Hw F IH]; cbn [last_of] in L; [discriminate|]. destruct (last_of l r); [now apply IH|].
      destruct (Ascii.eqb c' l); [|discriminate]. injection L as <-. exact Hw. }
    destruct W as [(y & W & _) _]. now rewrite W.
  - destruct (Ascii.eqb ch l); [now rewrite E|reflexivity].
Qed.
Lemma lead_int : forall ls ps, all_int ps -> all_int (leading ls ps).
Proof.
  intros ls ps F. induction F as [|[ch v] r Hw F IH]; cbn [leading]; [constructor|]. destruct (existsb _ _); [constructor; auto|constructor].
Qed.
Lemma speed_pure : forall ps d, all_int ps -> pure (spindle_speed ps d) (number_of "S" (leading ["S"%char] ps) d).
Proof.
  induction ps as [|[ch v] ps IH]; intros d F; [intros s; reflexivity|]. inversion_clear F as [|x y Hw F']. cbn [leading existsb].
  destruct (Ascii.eqb_spec ch "S"%char) as [->|N]; cbn [orb].
  - destruct Hw as [(z & E & R) _]. rewrite (number_cons _ _ _ _ _ _ E (lead_int _ _ F')). rewrite Ascii.eqb_refl.
    cbn [spindle_speed]. eapply pure_bind; [apply (pure_int v _ E R)|]. now apply IH.
  - replace (spindle_speed ((ch, v) :: ps) d) with (@ret Z d); [intros s; reflexivity|].
    cbn [spindle_speed]. destruct ch as [[] [] [] [] [] [] [] []]; try reflexivity; try (destruct N; reflexivity).
Qed.
Lemma light_pure : forall ps d, all_int ps -> pure (light_value ps d) (number_of "S" (leading ["S"%char] ps) d).
Proof.
  induction ps as [|[ch v] ps IH]; intros d F; [intros s; reflexivity|]. inversion_clear F as [|x y Hw F']. cbn [leading existsb].
  destruct (Ascii.eqb_spec ch "S"%char) as [->|N]; cbn [orb].
  - destruct Hw as [(z & E & R) _]. rewrite (number_cons _ _ _ _ _ _ E (lead_int _ _ F')). rewrite Ascii.eqb_refl.
    cbn [light_value]. eapply pure_bind; [apply (pure_int v _ E R)|]. now apply IH.
  - replace (light_value ((ch, v) :: ps) d) with (@ret Z d); [intros s; reflexivity|].
    cbn [light_value]. destruct ch as [[] [] [] [] [] [] [] []]; try reflexivity; try (destruct N; reflexivity).
Qed.
Lemma pin_pure : forall (m42 : bool) ps p d, all_int ps -> let ws := leading (if m42 then ["P"%char; "S"%char] else ["P"%char]) ps in
  pure (pin_and_value m42 ps p d) (number_of "P" ws p, number_of "S" ws d).
Proof.
  intros m42. induction ps as [|[ch v] ps IH]; intros p d F ws; [intros s; unfold ws; destruct m42; reflexivity|]. inversion_clear F as [|x y Hw F'].
  destruct Hw as [(z & E & R) _]. unfold ws. cbn [leading].
  destruct (Ascii.eqb_spec ch "P"%char) as [->|N]; [|destruct (Ascii.eqb_spec ch "S"%char) as [->|N2]].
  - replace (existsb (Ascii.eqb "P"%char) (if m42 then ["P"%char; "S"%char] else ["P"%char])) with true by (destruct m42; reflexivity).
    rewrite !(number_cons _ _ _ _ _ _ E (lead_int _ _ F')). cbn [Ascii.eqb Bool.eqb]. cbn [pin_and_value]. eapply pure_bind; [apply (pure_int v _ E R)|].
    apply (IH z d F').
  - cbn [pin_and_value]. destruct m42.
    + cbn [existsb orb]. replace (Ascii.eqb "S" "P" || (Ascii.eqb "S" "S" || false)) with true by reflexivity.
      rewrite !(number_cons _ _ _ _ _ _ E (lead_int _ _ F')). cbn [Ascii.eqb Bool.eqb]. eapply pure_bind; [apply (pure_int v _ E R)|]. apply (IH p z F').
    + intros s. reflexivity.
  - replace (existsb (Ascii.eqb ch) (if m42 then ["P"%char; "S"%char] else ["P"%char])) with false
      by (symmetry; apply not_true_is_false; intros X; apply existsb_exists in X; destruct X as (x & I & X); apply Ascii.eqb_eq in X; subst x;
          destruct m42; cbn in I; intuition congruence).
    replace (pin_and_value m42 ((ch, v) :: ps) p d) with (@ret (Z * Z) (p, d)); [intros s; reflexivity|].
    cbn [pin_and_value]. destruct ch as [[] [] [] [] [] [] [] []]; try reflexivity; try (destruct N; reflexivity); destruct N2; reflexivity.
Qed.
Lemma doing_pure : forall A B (m : M A) (f : A -> M B) x acts, pure m x -> doing (f x) acts -> doing (bind m f) acts.
Proof. intros A B m f x acts P D s y s' E. unfold bind in E. rewrite P in E. now apply D in E. Qed.
Lemma doing_spindle_on : forall c ccw ps, all_int ps -> doing (set_spindle_on c ccw ps) (spindle_start c ccw ps).
Proof.
  intros c ccw ps F. unfold set_spindle_on, spindle_start. destruct (c_has_spindle c); cbn [negb]; [|apply doing_ret]. cbv zeta.
  match goal with |- doing _ (DoHalt :: ?r) => change (DoHalt :: r) with ([DoHalt] ++ r) end.
  apply doing_bind; [apply doing_halt|intros []]. eapply doing_pure; [now apply speed_pure|]. apply doing_when. intros _. apply doing_act. discriminate.
Qed.
Lemma doing_pin : forall c code ps, all_int ps ->
  let ws := leading (if code =? 42 then ["P"%char; "S"%char] else ["P"%char]) ps in
  let value := if (code =? 62) || (code =? 64) then 1 else if (code =? 63) || (code =? 65) then 0 else number_of "S" ws (-1) in
  doing (set_pin c code ps) (pin_request (number_of "P" ws (-1)) value ((code =? 64) || (code =? 65))).
Proof.
  intros c code ps F ws value. unfold set_pin. eapply doing_pure; [apply pin_pure, F|]. cbn iota beta. fold ws. unfold pin_request, NUM_BOOL_OUTPUTS.
  change (if (code =? 62) || (code =? 64) then 1 else if (code =? 63) || (code =? 65) then 0 else number_of "S" ws (-1)) with value.
  set (pin := number_of "P" ws (-1)). replace (0 <? pin) with (1 <=? pin) by lia. destruct (_ && _); [|apply doing_ret].
  match goal with |- doing _ (?a :: ?r) => change (a :: r) with ([a] ++ r) end.
  apply doing_bind; [apply doing_act; discriminate|intros []]. apply doing_when. intros _. apply doing_act. discriminate.
Qed.
Lemma doing_lookahead : forall c ps, all_int ps -> doing (handle_set_lookahead c ps) (lookahead ps).
Proof.
  intros c ps F. unfold handle_set_lookahead, lookahead, max_lookahead.
  destruct ps as [|[ch v] ps].
  - change [DoWait; DoLookahead 1024] with ([DoWait] ++ [DoLookahead 1024]). apply doing_bind; [apply doing_act; discriminate|intros []; apply doing_act; discriminate].
  - inversion_clear F as [|x y Hw F']. destruct Hw as [_ (z & E & R)]. cbn [snd] in E.
    destruct (Ascii.eqb_spec ch "S"%char) as [->|N].
    + eapply doing_pure; [apply (pure_trunc v _ E R)|]. rewrite E. replace ((z <=? 0) || (1024 <? z)) with (negb ((1 <=? z) && (z <=? 1024))) by lia.
      destruct (_ && _); cbn [negb]; [|apply doing_ret].
      change [DoWait; DoLookahead z] with ([DoWait] ++ [DoLookahead z]). apply doing_bind; [apply doing_act; discriminate|intros []; apply doing_act; discriminate].
    + destruct ch as [[] [] [] [] [] [] [] []]; try apply doing_ret; destruct N; reflexivity.
Qed.

(** ** All documented calls *)
Lemma special_none : forall c code ps,
  ~ In code [0; 3; 4; 5; 7; 8; 9; 10; 11; 42; 62; 63; 64; 65; 80; 81; 120; 121; 181; 245; 246; 355; 400; 999] ->
  special_commands c code ps = ret tt /\ documented_code c code ps = Some [].
Proof.
  intros c code ps N. split.
  - unfold special_commands. repeat match goal with |- (match ?x with _ => _ end) = _ => is_var x; destruct x end; try reflexivity; destruct N; cbn; tauto.
  - unfold documented_code. repeat match goal with |- (match ?x with _ => _ end) = _ => is_var x; destruct x end; try reflexivity; destruct N; cbn; tauto.
Qed.
Lemma doing_code : forall c code ps acts, all_int ps -> documented_code c code ps = Some acts -> code <> 120 -> code <> 121 ->
  doing (special_commands c code ps) acts.
Proof.
  intros c code ps acts F H N1 N2.
  assert (Known : code = 0 \/ code = 3 \/ code = 4 \/ code = 5 \/ code = 7 \/ code = 8 \/ code = 9 \/ code = 10 \/ code = 11 \/ code = 42 \/ code = 62 \/
    code = 63 \/ code = 64 \/ code = 65 \/ code = 80 \/ code = 81 \/ code = 181 \/ code = 245 \/ code = 246 \/ code = 355 \/
    (special_commands c code ps = ret tt /\ acts = [])).
  { destruct (in_dec Z.eq_dec code [0; 3; 4; 5; 7; 8; 9; 10; 11; 42; 62; 63; 64; 65; 80; 81; 181; 245; 246; 355]) as [I|I]; [cbn in I; intuition auto; fail|].
    do 20 right. destruct (Z.eq_dec code 400) as [->|N3]; [discriminate H|]. destruct (Z.eq_dec code 999) as [->|N4]; [discriminate H|].
    destruct (special_none c code ps) as [X Y]; [intros J; cbn in I, J; repeat (destruct J as [J|J]; [try congruence; tauto|]); exact J|]. split; [exact X|]. congruence. }
  repeat (destruct Known as [->|Known]); try (destruct Known as [-> ->]; apply doing_ret);
    cbn [documented_code special_commands aux_bit_commands] in *; injection H as <-.
  all: try apply doing_set.
  - apply doing_estop.
  - now apply doing_spindle_on.
  - now apply doing_spindle_on.
  - apply doing_spindle_off.
  - match goal with |- doing _ [?a; ?b] => change [a; b] with ([a] ++ [b]) end. apply doing_bind; [apply doing_set|intros []; apply doing_set].
  - apply (doing_pin c 42 ps F).
  - apply (doing_pin c 62 ps F).
  - apply (doing_pin c 63 ps F).
  - apply (doing_pin c 64 ps F).
  - apply (doing_pin c 65 ps F).
  - match goal with |- doing _ [?a; ?b] => change [a; b] with ([a] ++ [b]) end. apply doing_bind; [apply doing_set|intros []; apply doing_act; discriminate].
  - match goal with |- doing _ [?a; ?b] => change [a; b] with ([a] ++ [b]) end. apply doing_bind; [apply doing_set|intros []; apply doing_act; discriminate].
  - now apply doing_lookahead.
  - eapply doing_pure; [now apply light_pure|]. apply doing_set.
Qed.
Lemma documented_done : forall c e s s' acts, documented c e = Some acts -> readable e -> completes c e s s' ->
  (exists new, m_log s' = m_log s ++ new /\ does new acts) /\ m_pause s' = pause_after e (m_pause s) /\
  ((forall f, e <> SetSpeedFactor f) -> regs s' = regs s).
Proof.
  intros c e s s' acts H F E. unfold completes in E.
  assert (G : forall p, steps s s' acts p -> p = pause_after e (m_pause s) ->
    (exists new, m_log s' = m_log s ++ new /\ does new acts) /\ m_pause s' = pause_after e (m_pause s) /\ ((forall f, e <> SetSpeedFactor f) -> regs s' = regs s)).
  { intros p (X & Y & Z) ->. auto. }
  destruct e; cbn [documented perform] in *; try discriminate H.
  - injection H as <-. apply (G (m_pause s)); [|reflexivity]. unfold gcode_start in E. destruct (0 <? _); [apply doing_fan in E; exact E|apply doing_ret in E; exact E].
  - injection H as <-. apply (G (m_pause s)); [|reflexivity]. revert E. unfold gcode_finished. generalize s, tt, s'.
    match goal with |- forall s x s', _ -> steps _ _ (DoHalt :: ?r) _ => change (DoHalt :: r) with ([DoHalt] ++ r) end. apply doing_bind; [apply doing_halt|intros []].
    apply doing_bind; [apply doing_spindle_off|intros []]. apply doing_when. intros _. apply doing_motor.
  - injection H as <-. unfold set_speed_factor in E. cbv zeta in E.
    assert (Z : exists f, s' = s \/ s' = mk_machine (m_homing s) (m_feed s) f (m_off_motor s) (m_off_fan s) (m_pause s) (m_hw s) (m_in s) (m_log s)).
    { revert E. set (f1 := if SFltb f fzero then f32_add (f32_of_Z 1) f else f). destruct (SFltb f1 _); intros E; injection E as <-; exists f1; auto. }
    destruct Z as (f1 & [->| ->]); cbn [m_log m_pause]; (split; [exists []; rewrite app_nil_r; split; [auto|constructor]|]); (split; [reflexivity|]); intros N; destruct (N f); reflexivity.
  - injection H as <-. apply (G (m_pause s)); [|reflexivity]. now apply doing_fan in E.
  - injection H as <-. apply (G (m_pause s)); [|reflexivity]. now apply doing_motor in E.
  - destruct (Z.eqb_spec code 120) as [->|N1]; [|destruct (Z.eqb_spec code 121) as [->|N2]].
    + injection H as <-. cbn in E. injection E as <-. cbn. split; [exists []; rewrite app_nil_r; split; [auto|constructor]|auto].
    + injection H as <-. cbn in E. injection E as <-. cbn. split; [exists []; rewrite app_nil_r; split; [auto|constructor]|auto].
    + apply (G (m_pause s)); [now apply (doing_code _ _ _ _ F H N1 N2) in E|].
      cbn [pause_after]. destruct code as [|p|p]; try reflexivity.
      repeat (destruct p as [p|p|]; try reflexivity); congruence.
Qed.

(** ** M999 and M400 *)
Lemma release_done : forall c s s' ps, completes c (MCode 999 ps) s s' -> exists new, m_log s' = m_log s ++ new /\
  (stop_on s = false -> new = []) /\
  (stop_on s = true -> exists z, (z <> 0 /\ new = [Ask QEstop z]) \/ (z = 0 /\ new = [Ask QEstop 0; Did (output OutEstop false); Did (DoHw HwSetAux)])).
Proof.
  intros c s s' ps E. unfold completes in E. cbn [perform special_commands] in E. unfold clear_estop, test, bind, in_estop, ask, ret, stop_on in *. cbn in E.
  destruct (hw_estop (m_hw s)).
  - destruct (m_in s) as [|z r]; cbn in E; [discriminate E|]. destruct (Z.eqb_spec z 0) as [->|N]; cbn in E; injection E as <-; cbn [m_log].
    + eexists. rewrite <- !app_assoc. split; [reflexivity|]. split; [discriminate|]. intros _. exists 0. right. auto.
    + eexists. split; [reflexivity|]. split; [discriminate|]. intros _. exists z. left. auto.
  - injection E as <-. exists []. rewrite app_nil_r. split; [auto|]. split; [auto|discriminate].
Qed.
Lemma dwell_done : forall c s x s', dwell c s = (Some x, s') -> exists new, m_log s' = m_log s ++ new /\
  (no_stop_read new -> (forall z, In (Ask QPause z) new -> z = 0) -> does new [DoHalt; DoWait]).
Proof.
  intros c s x s' E. unfold dwell in E. apply bind_some in E. destruct E as ([] & s1 & E1 & E). destruct (doing_halt _ _ _ _ E1) as ((n1 & L1 & D1) & _).
  apply bind_some in E. destruct E as ([] & s2 & E2 & E). destruct (doing_act c DoWait ltac:(discriminate) _ _ _ E2) as ((n2 & L2 & D2) & _).
  apply bind_some in E. destruct E as (e & s3 & E3 & E). pose proof (does_app _ _ _ _ D1 D2) as D12. cbn [app] in D12.
  assert (L12 : m_log s2 = m_log s ++ n1 ++ n2) by (rewrite L2, L1, app_assoc; reflexivity).
  unfold check_for_estop, test, bind, in_estop, ask, ret in E3. cbn in E3.
  assert (After : forall n3, m_log s3 = m_log s2 ++ n3 -> does n3 [] -> e = false ->
    exists new, m_log s' = m_log s ++ new /\ (no_stop_read new -> (forall z, In (Ask QPause z) new -> z = 0) -> does new [DoHalt; DoWait])).
  { intros n3 L3 D3 ->. pose proof (does_app _ _ _ _ D12 D3) as D123. cbn [app] in D123. unfold bind at 1, get at 1 in E. cbn iota beta in E.
    destruct (m_pause s3).
    - apply bind_some in E. destruct E as (p & s4 & E4 & E). unfold test in E4. apply bind_some in E4. destruct E4 as (z & s5 & E4 & E5). injection E5 as <- <-.
      unfold ask in E4. destruct (m_in s3) as [|z' r]; [discriminate|]. injection E4 as -> <-.
      destruct (Z.eqb_spec z 0) as [->|N]; cbn [negb] in E.
      + injection E as <- <-. exists ((n1 ++ n2) ++ n3 ++ [Ask QPause 0]). cbn [m_log]. split; [rewrite L3, L12, !app_assoc; reflexivity|]. intros _ _.
        rewrite (app_assoc (n1 ++ n2) n3). change [DoHalt; DoWait] with ([DoHalt; DoWait] ++ []). apply does_app; [exact D123|]. constructor; [discriminate|constructor].
      + assert (U : uses c (fun _ => True) (wait_for_start c)) by (eapply uses_weaken; [|apply ep_wait]; auto).
        pose proof (any_grows _ _ _ U) as G. match type of E with _ ?st = _ => specialize (G st) end. rewrite E in G. destruct G as (n & L & _). cbn [snd m_log] in L.
        exists (((n1 ++ n2) ++ n3 ++ [Ask QPause z]) ++ n). split; [rewrite L, L3, L12, !app_assoc; reflexivity|]. intros _ Q. destruct N. apply (Q z).
        apply in_or_app. left. apply in_or_app. right. apply in_or_app. right. now left.
    - apply bind_some in E. destruct E as (p & s4 & E4 & E). injection E4 as <- <-. injection E as <- <-.
      exists ((n1 ++ n2) ++ n3). split; [now rewrite L3, L12, !app_assoc|]. intros _ _. exact D123. }
  destruct (hw_estop (m_hw s2)); [injection E3 as <- <-; apply (After []); [now rewrite app_nil_r|constructor|reflexivity]|].
  destruct (m_in s2) as [|z r]; cbn in E3; [discriminate E3|]. destruct (Z.eqb_spec z 0) as [->|N]; cbn [negb] in E3.
  - injection E3 as <- <-. apply (After [Ask QEstop 0]); [reflexivity|constructor; [discriminate|constructor]|reflexivity].
  - destruct (set_estop c _) as [[[]|] s4] eqn:E4 in E3; [|discriminate]. injection E3 as <- <-. injection E as <- <-.
    destruct (doing_estop _ _ _ _ E4) as ((n4 & L4 & _) & _). cbn [m_log] in L4.
    exists ((n1 ++ n2) ++ [Ask QEstop z] ++ n4). split; [rewrite L4, L12, !app_assoc; reflexivity|]. intros Q. destruct N. apply (Q z).
    apply in_or_app. right. now left.
Qed.

(** ** The log tells what happened to the hardware *)
Definition follows (c : mcfg) (s s' : machine) : Prop :=
  exists new, m_log s' = m_log s ++ new /\ m_hw s' = fold_left (hw_step (c_cape c)) (hw_ops new) (m_hw s).
Lemma hw_ops_app : forall a b, hw_ops (a ++ b) = hw_ops a ++ hw_ops b.
Proof. intros. apply flat_map_app. Qed.
Lemma follows_pre : forall c, preorder (follows c).
Proof.
  intros c. split.
  - intros s. exists []. rewrite app_nil_r. auto.
  - intros a b d (n1 & L1 & H1) (n2 & L2 & H2). exists (n1 ++ n2). split; [now rewrite L2, L1, app_assoc|].
    now rewrite hw_ops_app, fold_left_app, <- H1.
Qed.
Lemma prim_follows : forall c p, hold (follows c) (run_prim c p).
Proof.
  intros c p s. destruct p; cbn [run_prim]; try (exists []; rewrite app_nil_r; auto; fail).
  - unfold bind, ask, ret. destruct (m_in s); cbn [snd]; [exists []; rewrite app_nil_r; auto|]. eexists. split; [reflexivity|reflexivity].
  - eexists. split; [reflexivity|]. destruct a; reflexivity.
Qed.
Lemma all_follows : forall c es s s', perform_all c es s = (Some tt, s') -> follows c s s'.
Proof.
  intros c es. induction es as [|e es IH]; intros s s' E; cbn [perform_all] in E; [injection E as <-; apply follows_pre|].
  apply bind_some in E. destruct E as ([] & s1 & E1 & E). eapply (proj2 (follows_pre c)); [|apply IH, E].
  pose proof (uses_perform c e) as U. specialize (U _ (follows_pre c) (fun p _ => prim_follows c p) s). now rewrite E1 in U.
Qed.

(** ** The spindle *)
Definition sp (s : machine) : option (bool * Z) := spindle_of (m_log s).
Lemma sp_app : forall s s' new, m_log s' = m_log s ++ new -> sp s' = fold_left spindle_step new (sp s).
Proof. intros s s' new E. unfold sp, spindle_of. now rewrite E, fold_left_app. Qed.
(** Nothing starts it, and entering the stop stops it. *)
Definition slows (c : mcfg) (s s' : machine) : Prop :=
  (sp s' = sp s \/ sp s' = None) /\ (c_has_spindle c = true -> stop_on s = false -> stop_on s' = true -> sp s' = None).
Lemma slows_pre : forall c, preorder (slows c).
Proof.
  intros c. split.
  - intros s. split; [auto|congruence].
  - intros a b d (H1 & S1) (H2 & S2). split.
    + destruct H2 as [->|H2]; auto.
    + intros Hs A D. destruct (stop_on b) eqn:B; [|auto]. rewrite (S1 Hs A eq_refl) in H2. tauto.
Qed.
Definition slow_prim (p : prim) : Prop := match p with PAct (DoSpindleOn _ _) => False | _ => still_prim p end.
Lemma prim_slows : forall A c (m : M A), uses c slow_prim m -> holdS (slows c) m.
Proof.
  intros A c m U. apply hold_S. apply U; [apply slows_pre|]. intros p Ho s. assert (Hp : still_prim p) by (destruct p; auto; destruct a; auto; contradiction). split.
  - destruct p; cbn [run_prim]; auto.
    + unfold bind, ask, ret. destruct (m_in s); cbn [snd]; auto. left. apply (sp_app s _ [Ask q z]). reflexivity.
    + unfold act. cbn [snd]. erewrite (sp_app s) by reflexivity. cbn [fold_left spindle_step]. destruct a; auto; contradiction.
  - intros _ H0 H1. exfalso. destruct p; cbn [run_prim] in H1; try (cbn in H1; unfold stop_on in *; cbn in *; congruence).
    + unfold bind, ask, ret in H1. destruct (m_in s); cbn in H1; unfold stop_on in *; cbn in *; congruence.
    + destruct a; try (unfold stop_on in *; cbn in *; congruence). destruct (match op with HwUpdateOutput OutEstop _ => true | _ => false end) eqn:X.
      * destruct op; try discriminate. destruct o; try discriminate. cbn [still_prim] in Hp. subst. unfold stop_on in *; cbn in *; congruence.
      * assert (Q : quiet_op op) by (destruct op; cbn in *; auto; destruct o; auto; discriminate).
        pose proof (q_stop _ _ (quiet_hw c s op Q)) as Y. unfold stop_on in *. cbn in *. congruence.
Qed.
Lemma does_spindle : forall new acts st, does new acts -> fold_left spindle_step new st = fold_left spindle_step (map Did acts) st.
Proof.
  intros new acts st H. revert st. induction H; intros st; cbn [fold_left map spindle_step]; auto.
  - destruct (0 <? n); cbn [app fold_left spindle_step]; auto.
Qed.
Lemma sp_does : forall s s' new acts, m_log s' = m_log s ++ new -> does new acts -> sp s' = fold_left spindle_step (map Did acts) (sp s).
Proof. intros s s' new acts E D. rewrite (sp_app _ _ _ E). now apply does_spindle. Qed.
Lemma estop_slows : forall c, holdS (slows c) (set_estop c).
Proof.
  intros c s x s' E. destruct (doing_estop _ _ _ _ E) as ((new & L & D) & _). pose proof (sp_does _ _ _ _ L D) as X. unfold spindle_stop in X.
  destruct (c_has_spindle c) eqn:Hs; cbn in X; split; auto. congruence.
Qed.
Ltac foot_hook ::= fail.
Lemma check_slows : forall c, holdS (slows c) (check_for_estop c).
Proof.
  intros c. unfold check_for_estop. apply holdS_bind; [apply slows_pre|apply (prim_slows _ c); foot|]. intros e.
  destruct e; [apply (prim_slows _ c); apply uses_ret|]. apply holdS_bind; [apply slows_pre|apply (prim_slows _ c); unfold test; foot|]. intros [].
  - apply holdS_bind; [apply slows_pre|apply estop_slows|]. intros []. apply (prim_slows _ c). apply uses_ret.
  - apply (prim_slows _ c). apply uses_ret.
Qed.
Lemma sl_wait : forall c, uses c slow_prim (wait_for_start c).
Proof.
  intros c. unfold wait_for_start. foot; try (apply uses_wait_unpaused; cbn; auto).
  match goal with |- uses _ _ (wait_started _ ?k) => generalize k end.
  intros n. induction n as [|n IH]; cbn [wait_started]; foot.
Qed.
Lemma sl_to_probe : forall c a neg v1 mx n v0 tot, uses c slow_prim (drive_to_probe c a neg v1 mx n v0 tot).
Proof. intros c a neg v1 mx n. induction n as [|n IH]; intros v0 tot; cbn [drive_to_probe]; foot. Qed.
Lemma sl_pin_value : forall c b ps p r, uses c slow_prim (pin_and_value b ps p r).
Proof. intros c b ps. induction ps as [|[ch v] ps IH]; intros p r; cbn [pin_and_value]; foot. Qed.
Lemma sl_light_value : forall c ps r, uses c slow_prim (light_value ps r).
Proof. intros c ps. induction ps as [|[ch v] ps IH]; intros r; cbn [light_value]; foot. Qed.
Lemma sl_to_switch : forall c a t v1 n v0, uses c slow_prim (drive_to_switch c a t v1 n v0).
Proof. intros c a t v1 n. induction n as [|n IH]; intros v0; cbn [drive_to_switch]; foot. Qed.
Lemma sl_off_switch : forall c a t v0 v1 n, uses c slow_prim (drive_off_switch c a t v0 v1 n).
Proof. intros c a t v0 v1 n. induction n as [|n IH]; cbn [drive_off_switch]; foot. Qed.
Lemma sl_home_axis : forall c a, uses c slow_prim (home_axis c a).
Proof. intros c a. unfold home_axis, move_to_endstop. foot; try apply sl_to_switch; try apply sl_off_switch. Qed.
Lemma sl_home_axes : forall c m order, uses c slow_prim (home_axes c m order).
Proof. intros c m order. induction order as [|ch r IH]; cbn [home_axes]; foot. all: apply sl_home_axis. Qed.
Ltac foot_hook ::=
  match goal with
  | |- uses _ _ (wait_for_start _) => apply sl_wait
  | |- uses _ _ (drive_to_probe _ _ _ _ _ _ _ _) => apply sl_to_probe
  | |- uses _ _ (pin_and_value _ _ _ _) => apply sl_pin_value
  | |- uses _ _ (light_value _ _) => apply sl_light_value
  | |- uses _ _ (home_axes _ _ _) => apply sl_home_axes
  end.
Ltac footE c :=
  repeat match goal with
    | |- holdS _ (check_for_estop _) => apply check_slows
    | |- holdS _ (set_estop _) => apply estop_slows
    | |- holdS _ (bind _ _) => apply holdS_bind; [apply slows_pre| |intros ?]
    | |- holdS _ (if ?b then _ else _) => destruct b
    | |- holdS _ (when ?b _) => unfold when; destruct b
    | |- holdS _ (match ?x with _ => _ end) => destruct x
    | |- holdS _ _ => apply (prim_slows _ c); foot; fail
    end.
Lemma perform_slows : forall c e, (forall ps, e <> MCode 3 ps) -> (forall ps, e <> MCode 4 ps) -> holdS (slows c) (perform c e).
Proof.
  intros c [| | | |b|f a|f|f| |on|f pos|f pos|n ps] H3 H4; cbn [perform].
  - unfold gcode_start. footE c.
  - unfold gcode_finished. footE c.
  - unfold input_idle. footE c.
  - footE c.
  - unfold go_home. footE c.
  - unfold probe_axis, move_to_probe. footE c.
  - unfold set_speed_factor. footE c.
  - footE c.
  - unfold dwell. footE c.
  - footE c.
  - unfold coordinated_move. footE c.
  - unfold rapid_move. footE c.
  - unfold special_commands.
    repeat match goal with |- holdS _ (match ?x with _ => _ end) => destruct x end.
    all: try (destruct (H3 ps); reflexivity). all: try (destruct (H4 ps); reflexivity).
    all: unfold aux_bit_commands, set_pin, handle_set_lookahead, dwell; cbv iota beta; footE c.
Qed.
(** What M3 and M4 do, whatever the words: nothing, or start with some speed that is
    the one given if it is readable. *)
Lemma spindle_on_done : forall c ccw ps s s', set_spindle_on c ccw ps s = (Some tt, s') ->
  (sp s' = sp s /\ (c_has_spindle c = true -> all_int ps -> number_of "S" (leading ["S"%char] ps) (-1) < 0)) \/
  exists rpm, sp s' = Some (ccw, rpm) /\ 0 <= rpm /\ (all_int ps -> rpm = number_of "S" (leading ["S"%char] ps) (-1)).
Proof.
  intros c ccw ps s s' E. unfold set_spindle_on in E. destruct (c_has_spindle c); cbn [negb] in E; [|injection E as <-; left; split; [reflexivity|discriminate]].
  apply bind_some in E. destruct E as ([] & s1 & E1 & E). destruct (doing_halt _ _ _ _ E1) as ((n1 & L1 & D1) & _). pose proof (sp_does _ _ _ _ L1 D1) as X1. cbn in X1.
  apply bind_some in E. destruct E as (rpm & s2 & E2 & E).
  assert (X2 : sp s2 = sp s1).
  { assert (U : uses c (fun p => match p with PAsk _ => True | _ => False end) (spindle_speed ps (-1))).
    { clear. generalize (-1). induction ps as [|[ch v] ps IH]; intros r; cbn [spindle_speed]; foot. }
    specialize (U (fun a b => sp b = sp a)). assert (P : preorder (fun a b => sp b = sp a)) by (split; congruence).
    specialize (U P). assert (Q : forall p, match p with PAsk _ => True | _ => False end -> hold (fun a b => sp b = sp a) (run_prim c p)).
    { intros [] Hp st; try contradiction. cbn [run_prim]. unfold bind, ask, ret. destruct (m_in st); cbn [snd]; auto. apply (sp_app st _ [Ask q z]). reflexivity. }
    specialize (U Q s1). now rewrite E2 in U. }
  unfold when in E. destruct (Z.leb_spec 0 rpm) as [R|R]; [|injection E as <-; left; split; [congruence|intros _ F; rewrite (speed_pure ps (-1) F s1) in E2; injection E2 as <- _; exact R]].
  right. exists rpm. split; [|split; [exact R|]].
  - injection E as <-. erewrite sp_app by reflexivity. reflexivity.
  - intros F. rewrite (speed_pure ps (-1) F s1) in E2. now injection E2 as <-.
Qed.
Lemma spindle_stopped : forall c e s s', c_has_spindle c = true -> completes c e s s' -> stops_spindle e = true -> sp s' = None.
Proof.
  intros c e s s' Hs E H. assert (F : readable e \/ exists n ps, e = MCode n ps) by (destruct e; cbn; eauto).
  destruct e as [|b| | | | | | | | | | |n ps]; try discriminate H.
  - destruct (documented_done c (GcodeFinished b) s s' _ eq_refl I E) as ((new & L & D) & _). rewrite (sp_does _ _ _ _ L D). unfold spindle_stop. rewrite Hs.
    cbn [map fold_left app spindle_step]. destruct (b && _); reflexivity.
  - cbn [stops_spindle] in H. unfold completes in E. cbn [perform] in E. destruct (Z.eqb_spec n 0) as [->|N].
    + cbn [special_commands] in E. destruct (doing_estop _ _ _ _ E) as ((new & L & D) & _). rewrite (sp_does _ _ _ _ L D). unfold spindle_stop. rewrite Hs. reflexivity.
    + cbn [orb] in H. apply Z.eqb_eq in H. subst n. cbn [special_commands aux_bit_commands] in E.
      destruct (doing_spindle_off _ _ _ _ E) as ((new & L & D) & _). rewrite (sp_does _ _ _ _ L D). unfold spindle_stop. rewrite Hs. reflexivity.
Qed.
Ltac foot_hook ::= fail.
Definition spin_prim (p : prim) : Prop :=
  match p with PAsk _ | PAct DoHalt | PAct (DoSpindleOn _ _) | PAct (DoHw (HwEnableMotors _)) => True | _ => False end.
Lemma spindle_on_stop : forall c ccw ps s s', set_spindle_on c ccw ps s = (Some tt, s') -> stop_on s' = stop_on s.
Proof.
  intros c ccw ps s s' E.
  assert (V : uses c spin_prim (spindle_speed ps (-1))).
  { clear. generalize (-1). induction ps as [|[ch v] ps IH]; intros r; cbn [spindle_speed]; foot. }
  assert (U : uses c spin_prim (set_spindle_on c ccw ps)) by (unfold set_spindle_on; foot).
  specialize (U (fun a b => stop_on b = stop_on a)). assert (P : preorder (fun a b => stop_on b = stop_on a)) by (split; congruence). specialize (U P).
  assert (Q : forall p, spin_prim p -> hold (fun a b => stop_on b = stop_on a) (run_prim c p)).
  { intros [] Hp st; try contradiction; cbn [run_prim].
    - unfold bind, ask, ret. destruct (m_in st); reflexivity.
    - destruct a; try contradiction; try reflexivity. destruct op; try contradiction. apply (q_stop _ _ (quiet_hw c st (HwEnableMotors on) I)). }
  specialize (U Q s). now rewrite E in U.
Qed.
Lemma stop_stops : forall c e s s', c_has_spindle c = true -> completes c e s s' -> stop_on s = false -> stop_on s' = true -> sp s' = None.
Proof.
  intros c e s s' Hs E A B. unfold completes in E.
  destruct (match e with MCode n _ => (n =? 3) || (n =? 4) | _ => false end) eqn:X.
  - destruct e as [| | | | | | | | | | | |n ps]; try discriminate. assert (S : stop_on s' = stop_on s); [|congruence].
    destruct (Z.eqb_spec n 3) as [->|N]; [exact (spindle_on_stop _ _ _ _ _ E)|]. cbn in X. apply Z.eqb_eq in X. subst. exact (spindle_on_stop _ _ _ _ _ E).
  - assert (N3 : forall ps, e <> MCode 3 ps) by (intros ps ->; discriminate). assert (N4 : forall ps, e <> MCode 4 ps) by (intros ps ->; discriminate).
    apply (perform_slows c e N3 N4 _ _ _ E); auto.
Qed.
Lemma spindle_history : forall c h answers es s, c_has_spindle c = true -> perform_all c es (start_state c h answers) = (Some tt, s) ->
  forall ccw rpm, sp s = Some (ccw, rpm) -> exists es1 ps es2, es = es1 ++ MCode (if ccw then 4 else 3) ps :: es2 /\
    Forall idle_spindle es2 /\ 0 <= rpm /\ (all_int ps -> rpm = number_of "S" (leading ["S"%char] ps) (-1)).
Proof.
  intros c h answers es s Hs. revert es s. apply (history_ind c (fun es s => forall ccw rpm, sp s = Some (ccw, rpm) -> exists es1 ps es2, es = es1 ++ MCode (if ccw then 4 else 3) ps :: es2 /\
    Forall idle_spindle es2 /\ 0 <= rpm /\ (all_int ps -> rpm = number_of "S" (leading ["S"%char] ps) (-1)))).
  - intros ccw rpm E. discriminate.
  - intros es e s s' _ IH E ccw rpm H.
    assert (Keep : (forall n ps, e = MCode n ps -> n = 3 \/ n = 4 -> readable e -> number_of "S" (leading ["S"%char] ps) (-1) < 0) -> sp s' = sp s -> exists es1 ps es2, es ++ [e] = es1 ++ MCode (if ccw then 4 else 3) ps :: es2 /\
      Forall idle_spindle es2 /\ 0 <= rpm /\ (all_int ps -> rpm = number_of "S" (leading ["S"%char] ps) (-1))).
    { intros W K. rewrite K in H. destruct (IH _ _ H) as (es1 & ps & es2 & -> & F & R). exists es1, ps, (es2 ++ [e]). rewrite <- app_assoc. split; [reflexivity|]. split; [|exact R].
      apply Forall_app. split; [exact F|]. constructor; [|constructor]. split; [|exact W]. destruct (stops_spindle e) eqn:X; auto.
      pose proof (spindle_stopped _ _ _ _ Hs E X). congruence. }
    destruct (match e with MCode n _ => (n =? 3) || (n =? 4) | _ => false end) eqn:X.
    + destruct e as [| | | | | | | | | | | |n ps]; try discriminate. unfold completes in E. cbn [perform] in E.
      assert (G : forall d, set_spindle_on c d ps s = (Some tt, s') -> n = (if d then 4 else 3) -> exists es1 ps0 es2, es ++ [MCode n ps] = es1 ++ MCode (if ccw then 4 else 3) ps0 :: es2 /\
        Forall idle_spindle es2 /\ 0 <= rpm /\ (all_int ps0 -> rpm = number_of "S" (leading ["S"%char] ps0) (-1))).
      { intros d Ed ->. destruct (spindle_on_done _ _ _ _ _ Ed) as [[K W]|(r & K & R)]; [apply Keep; [|exact K]; intros n0 ps0 Y _ F; injection Y as <- <-; apply W; [exact Hs|exact F]|]. rewrite K in H. injection H as <- <-.
        exists es, ps, []. split; [reflexivity|]. split; [constructor|exact R]. }
      destruct (Z.eqb_spec n 3) as [->|N]; [exact (G false E eq_refl)|]. cbn in X. apply Z.eqb_eq in X. subst n. exact (G true E eq_refl).
    + assert (N3 : forall ps, e <> MCode 3 ps) by (intros ps ->; discriminate). assert (N4 : forall ps, e <> MCode 4 ps) by (intros ps ->; discriminate).
      destruct (perform_slows c e N3 N4 _ _ _ E) as ([K|K] & _); [|congruence]. apply Keep; [|exact K]. intros n ps -> [->| ->]; [destruct (N3 ps)|destruct (N4 ps)]; reflexivity.
Qed.
