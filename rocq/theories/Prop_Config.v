(** C10, C11, C57: the configuration file. *)
From Coq Require Import SpecFloat.
From Verif Require Import Text Model_StringUtil Spec_Text Model_Float Model_Number Model_Axis Model_Hardware
  Model_Machine Model_Config Spec_Config Proofs_Config Proofs_Config2.

(** ** C10 *)
(** Every line (without its LF) has one and only one meaning. *)
Theorem C10_every_line_means_something : forall line, exists i, means line i /\ forall j, means line j -> j = i.
Proof.
  intro l. destruct (means_total l) as (i & H). exists i. split; auto. intros j Hj. eapply means_unique; eauto.
Qed.
Print Assumptions C10_every_line_means_something.

(** For every text made of lines ended by LF and every reader, the reader is told
    exactly what the lines mean, in order, with their numbers; and the result is the
    verdict of the specification. *)
Theorem C10_lines_delivered : forall R (rd : reader R) lines items r,
  (forall l, In l lines -> ~ In LF l) -> Forall2 means lines items ->
  emit_config_values rd (lf_lines lines) r = deliver rd 1 items false r.
Proof.
  intros R rd lines items r HLF H. destruct (emit_lines R rd lines items [] r H HLF) as [[_ E]|[D _]].
  - now rewrite app_nil_r in E.
  - congruence.
Qed.
Print Assumptions C10_lines_delivered.

(** The verdict is good exactly if every line has a proper form and every setting
    that was delivered has been accepted. *)
Inductive notice := Told (n : Z) (name value : text) (accepted : bool) | Trouble (n : Z).

Theorem C10_verdict : forall R (sec : R -> Z -> text -> R * bool) (pair : R -> Z -> text -> text -> R * bool) items n b r log,
  let rd := mk_reader (R * list notice)
    (fun x k s => let '(r, a) := sec (fst x) k s in ((r, snd x), a))
    (fun x k a v => let '(r, ok) := pair (fst x) k a v in ((r, Told k a v ok :: snd x), ok))
    (fun x k => (fst x, Trouble k :: snd x)) in
  let '(x, good) := deliver rd n items b (r, log) in
  exists new, snd x = new ++ log /\
  (good = true <-> (forall k, ~ In (Trouble k) new) /\ (forall k a v, ~ In (Told k a v false) new)).
Proof.
  intros R sec pair items n b r log rd. revert n b r log.
  induction items as [|i items IH]; intros n b r log.
  - cbn. exists []. cbn. split; auto. split; auto.
  - assert (forall n b r log e, (forall k a v, e <> Told k a v true) ->
      exists new, snd (fst (deliver rd n items b (r, e :: log))) = new ++ log /\ In e new) as BAD.
    { intros n0 b0 r0 l0 e He. specialize (IH n0 b0 r0 (e :: l0)).
      destruct (deliver rd n0 items b0 (r0, e :: l0)) as [x g]. destruct IH as (new & E & _).
      exists (new ++ [e]). cbn. rewrite E, <- app_assoc. split; auto. apply in_or_app. right. now left. }
    destruct i; cbn [deliver].
    + apply IH.
    + cbn [rd_section rd fst snd]. destruct (sec r n name) as [r' a]. apply IH.
    + cbn [rd_error rd fst snd]. destruct (BAD (n + 1) false r log (Trouble n)) as (new & E & Hin); [discriminate|].
      exists new. split; [exact E|]. split; [discriminate|]. intros [H _]. destruct (H n Hin).
    + destruct b; [|apply IH]. cbn [rd_pair rd fst snd].
      destruct (pair r n name value) as [r' ok]. destruct ok.
      * specialize (IH (n + 1) true r' (Told n name value true :: log)).
        destruct (deliver rd (n + 1) items true (r', Told n name value true :: log)) as [x g].
        destruct IH as (new & E & I). exists (new ++ [Told n name value true]). rewrite E, <- app_assoc.
        split; auto. rewrite I. split; intros [H1 H2]; split; intros.
        -- intro K. apply in_app_or in K. destruct K as [K|[K|[]]]; [apply (H1 _ K)|discriminate].
        -- intro K. apply in_app_or in K. destruct K as [K|[K|[]]]; [apply (H2 _ _ _ K)|discriminate].
        -- intro K. apply (H1 k). apply in_or_app. now left.
        -- intro K. apply (H2 k a v). apply in_or_app. now left.
      * cbn [rd_error rd fst snd].
        destruct (BAD (n + 1) true r' (Told n name value false :: log) (Trouble n)) as (new & E & Hin); [discriminate|].
        exists (new ++ [Told n name value false]). cbn in E. cbn. rewrite E, <- app_assoc. split; auto.
        split; [discriminate|]. intros [H _]. destruct (H n). apply in_or_app. now left.
    + cbn [rd_error rd fst snd]. destruct (BAD (n + 1) b r log (Trouble n)) as (new & E & Hin); [discriminate|].
      exists new. split; [exact E|]. split; [discriminate|]. intros [H _]. destruct (H n Hin).
Qed.
Print Assumptions C10_verdict.

(** A last line without LF is delivered like the others if it has no comment and no CR... *)
Theorem C10_unterminated_last_line : forall R (rd : reader R) lines items last i r,
  (forall l, In l lines -> ~ In LF l) -> Forall2 means lines items ->
  last <> [] -> ~ In LF last -> ~ In CR last -> ~ In "#"%char last -> means last i ->
  emit_config_values rd (lf_lines lines ++ last) r = deliver rd 1 (items ++ [i]) false r.
Proof.
  intros R rd lines items last i r HLF H Hne HL HC HH Hm.
  destruct (emit_lines R rd lines items last r H HLF) as [[D _]|[_ E]]; [congruence|].
  apply E; auto. exists []. rewrite app_nil_r. auto.
Qed.
Print Assumptions C10_unterminated_last_line.

(** ... otherwise its comment becomes part of the value. *)
Definition hearing : reader (list (text * text)) :=
  mk_reader _ (fun r _ _ => (r, true)) (fun r _ n v => (r ++ [(n, v)], true)) (fun r _ => r).

Theorem C10_last_comment_refuted :
  means (txt "range = 7 # mm") (Pair (txt "range") (txt "7")) /\
  fst (emit_config_values hearing (lf_lines [txt "[x]"] ++ txt "range = 7 # mm") []) = [(txt "range", txt "7 # mm")].
Proof.
  split; [|vm_compute; reflexivity].
  apply (m_pair _ (txt "range ") (txt " 7 ") (txt "range") (txt "7")).
  - exists (txt "# mm"). split; [reflexivity|]. split; [|split; [|right; exists "#"%char, (txt " mm"); auto]];
      cbn; intro H; repeat destruct H as [H|H]; try discriminate; contradiction.
  - cbn. intro H; repeat destruct H as [H|H]; try discriminate; contradiction.
  - change (is_trimmed (txt "range ") (trim_whitespace (txt "range "))). apply Proofs_StringUtil.trim_whitespace_trimmed.
  - discriminate.
  - change (txt "7") with (trim_whitespace (txt " 7 ")). apply Proofs_StringUtil.trim_whitespace_trimmed.
Qed.
Print Assumptions C10_last_comment_refuted.

(** A CR in the middle hides the rest of the line up to the LF. *)
Example C10_cr_example :
  fst (emit_config_values hearing (txt "[x]" ++ [LF] ++ txt "a=1" ++ [CR] ++ txt "b=2" ++ [LF] ++ txt "C = x y " ++ [LF]) [])
  = [(txt "a", txt "1"); (txt "c", txt "x y")].
Proof. vm_compute. reflexivity. Qed.

Example C10_hypotheses_example :
  emit_config_values hearing (lf_lines [txt " [ General ] # s"; txt "Foo = Bar"; txt ""; txt "oops"]) []
  = ([(txt "foo", txt "Bar")], false).
Proof. vm_compute. reflexivity. Qed.

(** ** C11 *)
(** For every way the C library may read numbers: a value that is a product (with
    blanks around it) is read as the left-to-right value of that product; it is
    refused only if it is negative. *)
Theorem C11_products : forall strtod s v w w', takes_prefix strtod ->
  product strtod s v -> all_white w -> all_white w' -> ~ In NUL (w ++ s ++ w') ->
  parse_float_expr strtod (w ++ s ++ w') = (Some (f32_of_f64 v), negb (SFltb (f32_of_f64 v) (f32_of_Z 0))).
Proof.
  intros strtod s v w w' T P Hw Hw' N. unfold parse_float_expr.
  assert (forall t, ~ In NUL t -> cstr t = t) as C.
  { induction t as [|c t IH]; intro H; auto. cbn.
    destruct (Ascii.eqb c NUL) eqn:E; [apply Ascii.eqb_eq in E; destruct H; now left|].
    rewrite IH; auto. intro. apply H. now right. }
  rewrite C by assumption.
  pose proof (parse_whole strtod T s v w w' [] P Hw Hw') as E. rewrite app_nil_r in E.
  cbn zeta in E. rewrite E; auto.
  - destruct w' as [|c w']; [now left|]. right. exists c, w'. split; auto. left. apply Hw'. now left.
  - discriminate.
Qed.
Print Assumptions C11_products.

(** Whatever follows the product makes it be refused, without a value. *)
Theorem C11_rest_refused : forall strtod s v w w' c r, takes_prefix strtod ->
  product strtod s v -> all_white w -> all_white w' -> (w' <> [] \/ c = ")"%char) ->
  ~ white c -> c <> "*"%char -> c <> "/"%char -> ~ In NUL (w ++ s ++ w' ++ c :: r) ->
  parse_float_expr strtod (w ++ s ++ w' ++ c :: r) = (None, false).
Proof.
  intros strtod s v w w' c r T P Hw Hw' Hc W N1 N2 N. unfold parse_float_expr.
  assert (forall t, ~ In NUL t -> cstr t = t) as C.
  { induction t as [|x t IH]; intro H; auto. cbn.
    destruct (Ascii.eqb x NUL) eqn:E; [apply Ascii.eqb_eq in E; destruct H; now left|].
    rewrite IH; auto. intro. apply H. now right. }
  rewrite C by assumption.
  pose proof (parse_whole strtod T s v w w' (c :: r) P Hw Hw') as E. cbn zeta in E. rewrite E; auto.
  - destruct w' as [|x w'].
    + destruct Hc as [D|D]; [congruence|]. right. exists c, r. auto.
    + right. exists x, (w' ++ c :: r). split; auto. left. apply Hw'. now left.
  - intros c' r' D. injection D as <- <-. auto.
Qed.
Print Assumptions C11_rest_refused.

(** Plain decimal numbers are numbers of the decimal reader. *)
Theorem C11_decimals : takes_prefix strtod_decimal /\
  (forall s m, decimal s m -> numeral strtod_decimal s (decimal_value 53 1024 false (10 * m) 0)) /\
  (forall s m t m', decimal s m -> decimal t m' ->
     numeral strtod_decimal (s ++ "."%char :: t)
       (decimal_value 53 1024 false (10 * (m * 10 ^ Z.of_nat (length t) + m')) (length t))).
Proof. split; [apply read_decimal_takes|]. split; [apply numeral_integer|apply numeral_fraction]. Qed.
Print Assumptions C11_decimals.

(** A missing operand or a missing closing parenthesis is not refused: the value is 1. *)
Theorem C11_malformed_refuted :
  parse_float_expr strtod_decimal (txt "200 *") = (Some (f32_of_Z 1), true) /\
  parse_float_expr strtod_decimal (txt "200 * (3") = (Some (f32_of_Z 1), true) /\
  parse_float_expr strtod_decimal (txt "") = (Some (f32_of_Z 1), true).
Proof. repeat split; vm_compute; reflexivity. Qed.
Print Assumptions C11_malformed_refuted.

Example C11_example : parse_float_expr strtod_decimal (txt " 200 * 16/(2 * 20 )") = (Some (f32_of_Z 80), true).
Proof. vm_compute. reflexivity. Qed.

Example C11_hypotheses_example : exists v, product strtod_decimal (txt "8/(2*2)*3") v /\ f32_of_f64 v = f32_of_Z 6.
Proof.
  assert (forall d, 0 <= d <= 9 -> numeral strtod_decimal [ascii_of_N (Z.to_N (48 + d))] (decimal_value 53 1024 false (10 * d) 0)) as D.
  { intros d H. apply numeral_integer. now constructor. }
  eexists. split.
  - change (txt "8/(2*2)*3") with ((txt "8" ++ [] ++ "/"%char :: [] ++ ("("%char :: [] ++ (txt "2" ++ [] ++ "*"%char :: [] ++ txt "2") ++ [] ++ [")"%char])) ++ [] ++ "*"%char :: [] ++ txt "3").
    repeat first [apply p_mul | apply p_div | apply f_paren | apply p_one | apply f_num]; try (intros ? []).
    all: first [apply (D 8); lia | apply (D 2); lia | apply (D 3); lia].
  - vm_compute. reflexivity.
Qed.

(** ** C57 *)
(** The machine configuration read from any text of lines: each number of an axis is
    that of the last setting with that name in the section of that axis that could be
    read, or as before if there is none. *)
Theorem C57_axis_settings : forall strtod lines items c garbage a,
  (forall l, In l lines -> ~ In LF l) -> Forall2 means lines items ->
  let c' := fst (configure_from_file strtod (lf_lines lines) c garbage) in
  let value := fun v => fst (parse_float_expr strtod v) in
  let last := last_setting value (axis_section a) in
  let all := settings [] items in
  mc_steps c' a = last [txt "steps-per-mm"; txt "steps-per-degree"] all (mc_steps c a) /\
  mc_feed c' a = last [txt "max-feedrate"; txt "max-anglerate"] all (mc_feed c a) /\
  mc_homefeed c' a = last [txt "home-feedrate"] all (mc_homefeed c a) /\
  mc_probefeed c' a = last [txt "max-probe-feedrate"] all (mc_probefeed c a) /\
  mc_accel c' a = last [txt "max-acceleration"] all (mc_accel c a) /\
  mc_range c' a = last [txt "range"] all (mc_range c a) /\
  mc_home c' a = settings_effect first_home (axis_section a) [txt "home-pos"] all (mc_home c a).
Proof.
  intros strtod lines items c g a HLF H c' value last all.
  assert (axis_section a = txt "general" \/ exists b, axis_section a = axis_section b) as S by (right; eauto).
  repeat split; unfold c', last, all, value.
  - apply (follows_file strtod _ (fun c => mc_steps c a) _ _ _ lines items c g (follows_steps strtod a)); auto.
  - apply (follows_file strtod _ (fun c => mc_feed c a) _ _ _ lines items c g (follows_feed strtod a)); auto.
  - apply (follows_file strtod _ (fun c => mc_homefeed c a) _ _ _ lines items c g (follows_homefeed strtod a)); auto.
  - apply (follows_file strtod _ (fun c => mc_probefeed c a) _ _ _ lines items c g (follows_probefeed strtod a)); auto.
  - apply (follows_file strtod _ (fun c => mc_accel c a) _ _ _ lines items c g (follows_accel strtod a)); auto.
  - apply (follows_file strtod _ (fun c => mc_range c a) _ _ _ lines items c g (follows_range strtod a)); auto.
  - apply (follows_file strtod _ (fun c => mc_home c a) _ _ _ lines items c g (follows_home strtod a)); auto.
Qed.
Print Assumptions C57_axis_settings.

Theorem C57_general_settings : forall strtod lines items c garbage,
  (forall l, In l lines -> ~ In LF l) -> Forall2 means lines items ->
  let c' := fst (configure_from_file strtod (lf_lines lines) c garbage) in
  let last {A} (read : text -> option A) name := last_setting read (txt "general") [txt name] (settings [] items) in
  mc_home_order c' = last Some "home-order"%string (mc_home_order c) /\
  mc_clamp c' = last Some "clamp-to-range"%string (mc_clamp c) /\
  mc_require_homing c' = last parse_bool "require-homing"%string (mc_require_homing c) /\
  mc_range_check c' = last parse_bool "range-check"%string (mc_range_check c) /\
  mc_synchronous c' = last parse_bool "synchronous"%string (mc_synchronous c) /\
  mc_enable_pause c' = last parse_bool "enable-pause"%string (mc_enable_pause c) /\
  mc_auto_motor c' = last parse_int "auto-motor-disable-seconds"%string (mc_auto_motor c) /\
  mc_auto_fan c' = last parse_int "auto-fan-disable-seconds"%string (mc_auto_fan c) /\
  mc_auto_fan_pwm c' = last parse_int "auto-fan-pwm"%string (mc_auto_fan_pwm c).
Proof.
  intros strtod lines items c g HLF H c' last.
  assert (txt "general" = txt "general" \/ exists b, txt "general" = axis_section b) as S by auto.
  repeat split; unfold c', last.
  - apply (follows_file strtod _ _ _ _ _ lines items c g (follows_home_order strtod)); auto.
  - apply (follows_file strtod _ _ _ _ _ lines items c g (follows_clamp strtod)); auto.
  - apply (follows_file strtod _ _ _ _ _ lines items c g (follows_require_homing strtod)); auto.
  - apply (follows_file strtod _ _ _ _ _ lines items c g (follows_range_check strtod)); auto.
  - apply (follows_file strtod _ _ _ _ _ lines items c g (follows_synchronous strtod)); auto.
  - apply (follows_file strtod _ _ _ _ _ lines items c g (follows_enable_pause strtod)); auto.
  - apply (follows_file strtod _ _ _ _ _ lines items c g (follows_auto_motor strtod)); auto.
  - apply (follows_file strtod _ _ _ _ _ lines items c g (follows_auto_fan strtod)); auto.
  - apply (follows_file strtod _ _ _ _ _ lines items c g (follows_auto_fan_pwm strtod)); auto.
Qed.
Print Assumptions C57_general_settings.

(** A configuration that is accepted contains no negative number. *)
Theorem C57_accepted_not_negative : forall strtod lines items c garbage,
  (forall l, In l lines -> ~ In LF l) -> Forall2 means lines items -> no_negative c ->
  let (c', ok) := configure_from_file strtod (lf_lines lines) c garbage in
  ok = true -> no_negative c'.
Proof.
  intros strtod lines items c g HLF H N. unfold configure_from_file.
  rewrite (C10_lines_delivered _ _ lines items) by assumption.
  pose proof (deliver_no_negative strtod items 1 false (mk_mreader c [] g) N) as K.
  destruct (deliver (mc_reader strtod) 1 items false (mk_mreader c [] g)) as [r ok]. cbn [fst snd] in K. exact K.
Qed.
Print Assumptions C57_accepted_not_negative.

Example C57_example :
  let (c, ok) := configure_from_file strtod_decimal
     (lf_lines [txt "[General]"; txt "require-homing = no"; txt "[ X-Axis ]"; txt "steps-per-mm = 200*16/ 40 # belt";
                txt "[Y-axis]"; txt "steps-per-mm=3"; txt "range = 5"; txt "[spindle]"; txt "range = 9"]) mconf_init None in
  mc_steps c AX = f32_of_Z 80 /\ mc_steps c AY = f32_of_Z 3 /\ mc_range c AY = f32_of_Z 5 /\ mc_range c AX = fzero /\
  mc_require_homing c = false /\ ok = true.
Proof. vm_compute. repeat split; reflexivity. Qed.
