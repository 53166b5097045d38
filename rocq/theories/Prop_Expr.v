(** Theorems about G-code expressions: C12, C13. *)
From Coq Require Import SpecFloat.
From Verif Require Import Base Text Model_StringUtil Model_Float Model_Lexer Model_Axis Model_Number Model_Gcode
  Proofs_Lexer
  Spec_Expr Proofs_Expr Spec_Line Proofs_Value Proofs_Fuel.

(** C12: the text of an expression that has a reading by the grammar of Spec_Expr (operators
    by precedence, equal ones from the left, a minus sign over the powers behind it) and ends
    with a closing bracket is evaluated to the value of that reading, with everything up to
    behind the bracket consumed and nothing else changed; if the value is not defined it is
    refused and an error is reported. The number of operands to be kept at the same time
    must not exceed six. [n]: enough rounds of evaluation. *)
Theorem C12_expression_value : forall c s o d m t r t' rest,
  level c s 2 o d m (skip_spaces t) r t' -> closing t' rest -> (d <= 6)%nat ->
  exists n, forall f, (n <= f)%nat ->
    match r with
    | Some v => expression c f t s = Done (Some (v, rest)) s
    | None => exists s', expression c f t s = Done None s' /\ g_errors s < g_errors s'
    end.
Proof. exact expression_value. Qed.
Print Assumptions C12_expression_value.

(** Operands between operators, without minus signs before them, always have a reading, and
    the limit of six never matters. *)
Theorem C12_every_sequence : forall c s t t' rest,
  sequence c s false (skip_spaces t) t' -> closing t' rest ->
  exists o d r, level c s 2 o d false (skip_spaces t) r t' /\
  exists n, forall f, (n <= f)%nat ->
    match r with
    | Some v => expression c f t s = Done (Some (v, rest)) s
    | None => exists s', expression c f t s = Done None s' /\ g_errors s < g_errors s'
    end.
Proof.
  intros c s t t' rest H Hc. destruct (sequence_level c s _ _ _ H) as (o & d & r & L). exists o, d, r. split; [exact L|].
  eapply C12_expression_value; eauto. pose proof (level_slots c s _ _ _ _ _ _ _ L eq_refl ltac:(lia)). lia.
Qed.
Print Assumptions C12_every_sequence.

(** With minus signs there is a reading as well. *)
Theorem C12_every_signed_sequence : forall c s m t rest,
  sequence c s m t rest -> exists o d r, level c s 2 o d m t r rest.
Proof. exact sequence_level. Qed.
Print Assumptions C12_every_signed_sequence.

(** Two readings of the same text have the same value. *)
Theorem C12_unambiguous : forall c s o1 d1 m1 t r1 t1 o2 d2 m2 r2 t2 rest1 rest2,
  level c s 2 o1 d1 m1 (skip_spaces t) r1 t1 -> closing t1 rest1 -> (d1 <= 6)%nat ->
  level c s 2 o2 d2 m2 (skip_spaces t) r2 t2 -> closing t2 rest2 -> (d2 <= 6)%nat -> r1 = r2.
Proof.
  intros c s o1 d1 m1 t r1 t1 o2 d2 m2 r2 t2 rest1 rest2 L1 C1 D1 L2 C2 D2.
  destruct (C12_expression_value _ _ _ _ _ _ _ _ _ L1 C1 D1) as (n1 & E1).
  destruct (C12_expression_value _ _ _ _ _ _ _ _ _ L2 C2 D2) as (n2 & E2).
  specialize (E1 (n1 + n2)%nat ltac:(lia)). specialize (E2 (n1 + n2)%nat ltac:(lia)).
  destruct r1 as [v1|], r2 as [v2|].
  - congruence.
  - destruct E2 as (s' & E2 & _). congruence.
  - destruct E1 as (s' & E1 & _). congruence.
  - reflexivity.
Qed.
Print Assumptions C12_unambiguous.

(** ** Example *)
Definition ex_reply := mk_reply true (f32_of_Z 0) (fun p => p) 0 (Some 0%nat) (fun m => m).
Definition ex_cfg := mk_gcfg (fun _ => f0) true strtof_decimal (fun _ x => x) f32_mul (fun x _ => x) (fun x _ => x)
  (fun _ _ _ _ _ _ => None) (fun _ => 0) (fun _ => ex_reply).
Definition ex_state := match new_parser ex_cfg (Some []) with Done _ s => s | _ => fresh ex_cfg (Some []) end.

(** 1 + 2 * 3 * 2 LT 14: the product first, then the sum, then the comparison. *)
Example C12_example_reading : exists o d,
  level ex_cfg ex_state 2 o d false (txt "1 + 2*3*2 lt 14 ]X") (Some (f32_of_Z 1)) (txt " ]X").
Proof.
  assert (N : forall t v rest x r, t = x :: r -> is_space x || is_alpha x || Ascii.eqb x "[" || Ascii.eqb x "#" = false ->
     gc_number ex_cfg t = Some (v, rest) -> Nat.ltb (length rest) (length t) = true -> operand ex_cfg ex_state t (Some v) rest).
  { intros t v rest x r Ht Hx Hn Hl. apply orb_false_elim in Hx as [Hx H4]. apply orb_false_elim in Hx as [Hx H3].
    apply orb_false_elim in Hx as [H1 H2]. apply Nat.ltb_lt in Hl. eapply op_number; eauto.
    - intros ->. discriminate.
    - intros ->. discriminate. }
  assert (O : forall name w r t op rest, In name (spellings op) -> map to_upper w = name -> skip_spaces t = w ++ r ->
     rest = skip_spaces r -> starts "*" r = false -> starts "=" r = false -> operator_at t op rest).
  { intros name w r t op rest Hi Hw Ht Hr H1 H2. exists name, r. repeat split; auto. exists w. auto. }
  assert (B : forall k op o1 d1 t1 x t2 t3 o2 d2 y rest v, k <= binds op ->
     level ex_cfg ex_state (binds op) o1 d1 false t1 (Some x) t2 -> (op = Power -> o1 = false) -> operator_at t2 op t3 ->
     level ex_cfg ex_state (binds op + 1) o2 d2 false t3 (Some y) rest -> apply2 ex_cfg op x y = Some v ->
     level ex_cfg ex_state k o2 (Nat.max d1 (S d2)) false t1 (Some v) rest).
  { intros k op o1 d1 t1 x t2 t3 o2 d2 y rest v Hk H1 Hp Ho H2 <-.
    exact (lv_binary ex_cfg ex_state k op o1 d1 false t1 (Some x) t2 t3 o2 d2 false (Some y) rest Hk H1 Hp Ho H2). }
  eexists _, _.
  eapply (B 2 Less _ _ _ (f32_of_Z 13) (txt " lt 14 ]X") (txt "14 ]X") _ _ (f32_of_Z 14)); [cbn; lia| |discriminate| | |vm_compute; reflexivity].
  - eapply (B _ Plus _ _ _ (f32_of_Z 1) (txt " + 2*3*2 lt 14 ]X") (txt "2*3*2 lt 14 ]X") _ _ (f32_of_Z 12));
      [cbn; lia| |discriminate| | |vm_compute; reflexivity].
    + apply lv_operand. eapply N; vm_compute; reflexivity.
    + eapply (O _ (txt "+")); try (vm_compute; reflexivity). left. reflexivity.
    + eapply (B _ Times _ _ _ (f32_of_Z 6) (txt "*2 lt 14 ]X") (txt "2 lt 14 ]X") _ _ (f32_of_Z 2));
        [cbn; lia| |discriminate| | |vm_compute; reflexivity].
      * eapply (B _ Times _ _ _ (f32_of_Z 2) (txt "*3*2 lt 14 ]X") (txt "3*2 lt 14 ]X") _ _ (f32_of_Z 3));
          [cbn; lia| |discriminate| | |vm_compute; reflexivity].
        -- apply lv_operand. eapply N; vm_compute; reflexivity.
        -- eapply (O _ (txt "*")); try (vm_compute; reflexivity). left. reflexivity.
        -- apply lv_operand. eapply N; vm_compute; reflexivity.
      * eapply (O _ (txt "*")); try (vm_compute; reflexivity). left. reflexivity.
      * apply lv_operand. eapply N; vm_compute; reflexivity.
  - eapply (O _ (txt "lt")); try (vm_compute; reflexivity). left. reflexivity.
  - apply lv_operand. eapply N; vm_compute; reflexivity.
Qed.
(** The parser's answers for some expressions. *)
Definition answer (t : text) : option (option (fl * text)) :=
  match expression ex_cfg 100 t ex_state with Done r _ => Some r | _ => None end.
Example C12_example_values :
  answer (txt "1 + 2*3*2 lt 14 ]X") = Some (Some (f32_of_Z 1, txt "X")) /\
  answer (txt "8 - 4 - 2 ]") = Some (Some (f32_of_Z 2, [])) /\
  answer (txt "2 - -[3] ** 2 ]") = Some (Some (f32_of_Z 8, [])) /\
  answer (txt "1 / 0 ]") = Some None.
Proof. vm_compute. repeat split; reflexivity. Qed.

(** ** C13 *)
(** C13: for every text in which each pair of brackets has at most one minus sign behind an
    operator and not before a digit, the evaluation never leaves the six places of its stack
    (that would be [Bad]), and it ends: there is one result, whatever the number of rounds
    beyond three for every character. *)
Theorem C13_stack_bound : forall c line s, reads_numbers c -> ~ In NUL line -> one_minus "[" [false] line = true ->
  (forall f, expression c f line s <> Bad) /\
  exists r s', forall f, (3 * length line + 3 <= f)%nat -> expression c f line s = Done r s'.
Proof.
  intros c line s N Hn Hm.
  assert (E : exists r s', expression c (3 * length line + 3) line s = Done r s').
  { destruct (evaluation_ok c N (3 * length line + 3)) as (_ & HE & _).
    destruct (ok_done _ _ _ _ (HE (skip_spaces line) [] s "["%char false [] (NUL_skip _ Hn)
      ltac:(pose proof (skip_spaces_length line); lia) ltac:(now rewrite one_minus_spaces) eq_refl (skip_spaces_idem _) (stack_empty _)))
      as (r & s' & E & _). unfold expression. eauto. }
  destruct E as (r & s' & E).
  assert (A : forall f, (3 * length line + 3 <= f)%nat -> expression c f line s = Done r s').
  { intros f Hf. eapply more_done; [apply more_expression; exact Hf|exact E]. }
  split; [|eauto]. intros f Hb.
  assert (B := more_bad _ _ _ _ (more_expression c f (f + (3 * length line + 3)) line ltac:(lia)) Hb).
  rewrite A in B by lia. discriminate.
Qed.
Print Assumptions C13_stack_bound.

(** The same for a value in a line, outside brackets. *)
Theorem C13_value_bound : forall c line s, reads_numbers c -> ~ In NUL line -> one_minus " " [] line = true ->
  skip_spaces line = line ->
  (forall f, value c f line s <> Bad) /\
  exists r s', forall f, (3 * length line + 2 <= f)%nat -> value c f line s = Done r s'.
Proof.
  intros c line s N Hn Hm Hs.
  assert (E : exists r s', value c (3 * length line + 2) line s = Done r s').
  { destruct (evaluation_ok c N (3 * length line + 2)) as (HV & _).
    destruct (ok_done _ _ _ _ (HV line s " "%char [] Hn ltac:(lia) Hm Hs)) as (r & s' & E & _). eauto. }
  destruct E as (r & s' & E).
  assert (A : forall f, (3 * length line + 2 <= f)%nat -> value c f line s = Done r s').
  { intros f Hf. eapply more_done; [apply more_value; exact Hf|exact E]. }
  split; [|eauto]. intros f Hb.
  assert (B := more_bad _ _ _ _ (more_value c f (f + (3 * length line + 2)) line ltac:(lia)) Hb).
  rewrite A in B by lia. discriminate.
Qed.
Print Assumptions C13_value_bound.

(** The reader of decimal numbers used in the examples meets what is expected of one. *)
Lemma digits_consumed : forall t m, exists w, t = w ++ snd (digits_loop m t) /\ Forall (fun x => is_digit x = true) w.
Proof.
  induction t as [|x t IH]; intros m; cbn [digits_loop]; [exists []; auto|]. destruct (is_digit x) eqn:E; [|exists []; auto].
  destruct (IH (10 * m + (code x - 48))) as (w & E1 & E2). exists (x :: w). cbn [app]. rewrite <- E1. auto.
Qed.
Lemma digits_plain : forall w, Forall (fun x => is_digit x = true) w -> ~ In "["%char w /\ ~ In "]"%char w.
Proof. intros w F. rewrite Forall_forall in F. split; intros H; specialize (F _ H); discriminate. Qed.

Lemma decimal_reads : forall c, gc_number c = strtof_decimal -> reads_numbers c.
Proof.
  intros c Hc. split; rewrite Hc; unfold strtof_decimal, read_decimal.
  - intros t v rest. destruct (sign_of (skip_spaces t)) as [neg r] eqn:Es. destruct (scan_decimal r) as [[[m k] ok] rest'] eqn:Er.
    destruct ok; [|discriminate]. intros E. injection E as _ ->.
    assert (A : exists w, t = w ++ r /\ ~ In "["%char w /\ ~ In "]"%char w).
    { destruct (skip_spaces_spec t) as (sp & E & Hsp & _).
      assert (P : ~ In "["%char sp /\ ~ In "]"%char sp) by (split; intros H; specialize (Hsp _ H); discriminate).
      unfold sign_of in Es. destruct (skip_spaces t) as [|x u]; [injection Es as <- <-; exists sp; auto|].
      destruct (Ascii.eqb_spec x "-") as [->|]; [|destruct (Ascii.eqb_spec x "+") as [->|]]; injection Es as <- <-.
      - exists (sp ++ ["-"%char]). rewrite <- app_assoc. split; [exact E|]. rewrite !in_app_iff. cbn. intuition discriminate.
      - exists (sp ++ ["+"%char]). rewrite <- app_assoc. split; [exact E|]. rewrite !in_app_iff. cbn. intuition discriminate.
      - exists sp. auto. }
    assert (B : exists w, r = w ++ rest /\ w <> [] /\ ~ In "["%char w /\ ~ In "]"%char w).
    { unfold scan_decimal in Er. destruct (digits_consumed r 0) as (w & E & F). destruct (digits_loop 0 r) as [m1 r1]. cbn [snd] in E.
      pose proof (digits_plain w F) as P.
      assert (Hw : negb (Nat.eqb (length r1) (length r)) = true -> w <> []).
      { intros H ->. cbn in E. subst r1. rewrite Nat.eqb_refl in H. discriminate. }
      destruct r1 as [|x r1]; [injection Er as _ _ Ho <-; exists w; auto|].
      destruct (Ascii.eqb_spec x ".") as [->|]; [|injection Er as _ _ Ho <-; exists w; auto].
      destruct (digits_consumed r1 m1) as (w2 & E2 & F2). destruct (digits_loop m1 r1) as [m2 r2]. cbn [snd] in E2.
      destruct (_ || _); [|discriminate]. injection Er as _ _ <-. exists (w ++ "."%char :: w2). rewrite <- app_assoc. cbn [app].
      rewrite <- E2. split; [exact E|]. split; [destruct w; discriminate|]. pose proof (digits_plain w2 F2).
      rewrite !in_app_iff. cbn. intuition discriminate. }
    destruct A as (w1 & -> & A1 & A2), B as (w2 & -> & Bn & B1 & B2). exists (w1 ++ w2). rewrite <- app_assoc. split; [reflexivity|].
    split; [destruct w1; [assumption|discriminate]|]. rewrite !in_app_iff. tauto.
  - intros t x Hx. change (sign_of (skip_spaces ("-"%char :: x :: t))) with (true, x :: t). unfold scan_decimal. cbn [digits_loop]. rewrite Hx.
    destruct (digits_consumed t (10 * 0 + (code x - 48))) as (w & E & _). destruct (digits_loop (10 * 0 + (code x - 48)) t) as [m r].
    cbn [snd] in E.
    assert (S : negb (Nat.eqb (length r) (length (x :: t))) = true).
    { rewrite E. cbn [length]. rewrite app_length. apply negb_true_iff, Nat.eqb_neq. lia. }
    rewrite S. cbn [orb]. destruct r as [|y r]; [discriminate|]. destruct (Ascii.eqb y "."); [|discriminate].
    destruct (digits_loop m r). discriminate.
Qed.
Lemma ex_reads : reads_numbers ex_cfg.
Proof. now apply decimal_reads. Qed.

(** So the hypotheses hold for this text with its nested brackets and several minus signs. *)
Example C13_example_text :
  one_minus "[" [false] (txt "1 EQ 1 + 2 ** -#1 * [-#2 - -5] / sin[-[3]]]") = true /\
  answer (txt "1 EQ 1 + 2 ** -#1 * [-#2 - -5] / sin[-[3]]]") <> None.
Proof. split; [vm_compute; reflexivity|vm_compute; discriminate]. Qed.

(** Without the condition it fails: two minus signs fill the stack beyond its end. *)
Theorem C13_overflow_refuted : ~ (forall c line s f, ~ In NUL line -> expression c f line s <> Bad).
Proof.
  intros H. apply (H ex_cfg (txt "1 EQ 1 + 2 ** -#1 ** -#1 ]") ex_state 60%nat).
  - intros Hi. vm_compute in Hi. repeat (destruct Hi as [Hi|Hi]; [discriminate|]). exact Hi.
  - vm_compute. reflexivity.
Qed.
Print Assumptions C13_overflow_refuted.
