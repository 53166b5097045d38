(** The events of a G-code parser. *)
From Coq Require Import SpecFloat.
From Verif Require Import Base Text Model_StringUtil Model_Float Model_Lexer Model_Axis Model_Gcode Spec_Lexer Proofs_Lexer
  Spec_Expr Proofs_Expr Spec_Line Proofs_Value Proofs_Total Proofs_Progress Spec_Events Proofs_Run.

(** ** Words of a line: only completed assignments are reported. *)
Definition is_assignment (e : event) : Prop := exists v, e = ECommandDone "#" v.
(** All but the parameters, the errors, the loop and its condition stays. *)
Definition reading (s s' : gst) : Prop :=
  g_running s' = g_running s /\ g_iterating s' = g_iterating s /\ exists l, g_events s' = l ++ g_events s /\ Forall is_assignment l.
Definition assigning (s s' : gst) : Prop := reading s s' /\ g_do_while s' = g_do_while s.
Lemma reading_refl : forall s, reading s s.
Proof. intros s. repeat split. exists []. auto. Qed.
Lemma reading_trans : forall a b d, reading a b -> reading b d -> reading a d.
Proof.
  intros a b d (H2 & H3 & l & E & F) (H2' & H3' & l' & E' & F'). repeat split; try congruence.
  exists (l' ++ l). rewrite E', E, app_assoc. split; [reflexivity|]. apply Forall_app. auto.
Qed.
Lemma assigning_refl : forall s, assigning s s.
Proof. intros s. split; [apply reading_refl|reflexivity]. Qed.
Lemma assigning_trans : forall a b d, assigning a b -> assigning b d -> assigning a d.
Proof. intros a b d (H & E) (H' & E'). split; [eapply reading_trans; eauto|congruence]. Qed.
Definition assigns {A} (m : G A) : Prop := forall s, yields m s (fun _ s' => assigning s s').
Lemma a_keeps : forall A (m : G A), keeps m -> assigns m.
Proof. intros A m H s. eapply y_weaken; [apply H|]. intros a s' (e & -> & _). split; [|reflexivity]. repeat split. exists []. auto. Qed.
Lemma a_bind : forall A B (m : G A) (f : A -> G B), assigns m -> (forall a, assigns (f a)) -> assigns (bind m f).
Proof.
  intros A B m f H I s. eapply y_bind; [apply H|]. intros a s1 Q1. cbv beta in Q1. eapply y_weaken; [apply I|].
  intros b s2 Q2. cbv beta in Q2. eapply assigning_trans; eauto.
Qed.
Section Words.
Variable c : gcfg.
Lemma a_done : forall v, assigns (tell c (ECommandDone "#" v)).
Proof. intros v s. split; [|reflexivity]. repeat split. exists [ECommandDone "#" v]. split; [reflexivity|]. constructor; [now exists v|constructor]. Qed.
Ltac astep :=
  match goal with
  | |- forall _, _ => intros
  | |- assigns (bind _ _) => apply a_bind
  | H : _ |- assigns _ => apply H
  | |- assigns (ret _) => apply a_keeps, k_ret
  | |- assigns (get _) => apply a_keeps, k_get
  | |- assigns bad => apply a_keeps, k_bad
  | |- assigns out => apply a_keeps, k_out
  | |- assigns err => apply a_keeps, k_err
  | |- assigns fail => apply a_keeps, k_fail
  | |- assigns (value _ _ _) => apply a_keeps, k_evaluation
  | |- assigns (param_name _ _ _) => apply a_keeps, k_evaluation
  | |- assigns (expression _ _ _) => apply a_keeps, k_evaluation
  | |- assigns (read_parameter _) => apply a_keeps, k_read
  | |- assigns (execute_binary _ _ _ _) => apply a_keeps, k_binary
  | |- assigns (expect _ _) => apply a_keeps, k_expect
  | |- assigns (tell _ _) => apply a_done
  | |- assigns (if ?b then _ else _) => destruct b
  | |- assigns (match ?x with _ => _ end) => destruct x
  end.
Ltac atac := repeat astep.
Lemma a_store : forall n v, assigns (store_parameter n v).
Proof. intros. unfold store_parameter. cbv zeta. atac. intros s. split; [|reflexivity]. repeat split. exists []. auto. Qed.
Lemma a_assigned : forall f n l o, assigns (assigned c f n l o).
Proof. intros. unfold assigned. atac. Qed.
Lemma a_set_parameter : forall f l, assigns (set_parameter c f l).
Proof. intros. unfold set_parameter. pose proof a_store. pose proof a_assigned. atac. Qed.
Lemma a_conditional : forall f l, assigns (conditional c f l).
Proof. pose proof a_set_parameter. induction f as [|f IH]; intros; cbn [conditional]; atac. Qed.

Lemma upper_sharp : forall x, Ascii.eqb x "#" = false -> to_upper x <> "#"%char.
Proof.
  intros x H E. assert (A := all_ascii (fun x => negb (Ascii.eqb (to_upper x) "#") || Ascii.eqb x "#") ltac:(vm_compute; reflexivity) x).
  cbv beta in A. rewrite E, Ascii.eqb_refl, H in A. discriminate.
Qed.

Lemma y_reading : forall A (m : G A) s s0 (Q : A -> gst -> Prop), assigns m -> assigning s0 s ->
  (forall a s', assigning s0 s' -> Q a s') -> yields m s Q.
Proof. intros A m s s0 Q H Hs I. eapply y_weaken; [apply H|]. intros a s' R. cbv beta in R. apply I. eapply assigning_trans; eauto. Qed.

Lemma y_fail : forall A s s0 (Q : option A -> gst -> Prop), assigning s0 s -> (forall s', assigning s0 s' -> Q None s') -> yields fail s Q.
Proof.
  intros A s s0 Q H I. unfold fail. eapply y_bind; [apply (y_reading _ _ s s0 (fun _ s' => assigning s0 s')); [apply a_keeps, k_err|exact H|auto]|].
  intros u s' H'. apply y_ret. auto.
Qed.

(** Outside a loop no line of a loop is executed. *)
Definition word_read (s : gst) (r : option (ascii * fl * text)) (s' : gst) : Prop :=
  reading s s' /\ match r with Some (l, _, _) => calm s' /\ l <> "#"%char | None => True end.
Lemma y_parse_pair : forall f pb line s, calm s -> yields (parse_pair c f pb line) s (word_read s).
Proof.
  induction f as [|f IH]; intros pb line0 s Hc; [exact I|]. cbn [parse_pair]. cbv zeta. set (line := skip_spaces line0).
  assert (None_ : forall s', reading s s' -> word_read s None s') by (intros s' H; split; [exact H|exact I]).
  destruct (_ || _ || _); [apply y_ret, None_, reading_refl|].
  eapply y_bind with (P := fun b s' => b = false /\ s' = s); [split; [exact Hc|reflexivity]|]. intros b s1 (-> & ->).
  eapply y_bind; [apply (y_reading _ _ s s (fun _ s' => assigning s s')); [|apply assigning_refl|auto]; atac|].
  intros l s1 A1. cbv beta in A1. destruct (same_place l []); [apply y_ret, None_, A1|].
  eapply y_bind; [apply (y_reading _ _ s1 s (fun _ s' => assigning s s')); [|exact A1|auto]; atac|].
  intros [is_if l1] s2 A2. cbv beta in A2. destruct is_if.
  { eapply y_bind; [apply (y_reading _ _ s2 s (fun _ s' => assigning s s')); [apply a_conditional|exact A2|auto]|].
    intros u s3 A3. apply y_ret, None_, A3. }
  eapply y_bind; [apply (y_reading _ _ s2 s (fun _ s' => assigning s s')); [|exact A2|auto]; atac|].
  intros [is_while l2] s3 A3. cbv beta in A3. destruct is_while.
  { eapply y_bind with (P := fun _ s' => reading s s'); [|intros u s4 A4; apply y_ret, None_, A4]. unfold while_start.
    destruct (negb _); [apply (y_reading _ _ s3 s); [atac|exact A3|intros ? ? A; apply A]|].
    eapply y_bind; [apply (y_reading _ _ s3 s (fun _ s' => assigning s s')); [atac|exact A3|auto]|]. intros b s4 (A4 & _).
    destruct b; [exact I|]. exact A4. }
  destruct l2 as [|x r]; [apply y_ret, None_, A3|]. destruct (Ascii.eqb x "#") eqn:Ex.
  { eapply y_bind; [apply (y_reading _ _ s3 s (fun _ s' => assigning s s')); [apply a_set_parameter|exact A3|auto]|].
    intros [l3|] s4 A4; [|apply y_ret, None_, A4]. eapply y_weaken; [apply IH; unfold calm; destruct A4 as (_ & ->); exact Hc|].
    intros a s5 (R & H). split; [eapply reading_trans; [apply A4|exact R]|exact H]. }
  destruct r as [|y r'] eqn:Er.
  { apply (y_fail _ s3 s); [exact A3|]. intros s4 A4. apply None_, A4. }
  rewrite <- Er. destruct (Ascii.eqb x "*"); [apply y_ret, None_, A3|].
  eapply y_bind; [apply (y_reading _ _ s3 s (fun _ s' => assigning s s')); [|exact A3|auto]; atac|].
  intros [[v rest]|] s4 A4.
  - apply y_ret. split; [apply A4|]. split; [unfold calm; destruct A4 as (_ & ->); exact Hc|now apply upper_sharp].
  - apply (y_fail _ s4 s); [exact A4|]. intros s5 A5. apply None_, A5.
Qed.

(** ** The protocol *)
Definition fits (s : gst) : Prop := legal c (g_events s) /\ in_program (g_events s) = g_running s.
Lemma in_program_other : forall e h, match e with EStart _ | EFinished false => False | _ => True end -> in_program (e :: h) = in_program h.
Proof. intros e h H. destruct e as [| [|] | | | | | | | | | | | | | | | | | | | |]; try contradiction; reflexivity. Qed.
Lemma action_other : forall e h, action e = true -> in_program (e :: h) = in_program h.
Proof. intros e h H. apply in_program_other. destruct e as [| [|] | | | | | | | | | | | | | | | | | | | |]; try discriminate; exact I. Qed.
Lemma fits_same : forall s s', g_events s' = g_events s -> g_running s' = g_running s -> fits s -> fits s'.
Proof. unfold fits. intros s s' -> ->. auto. Qed.
Lemma fits_reading : forall s s', reading s s' -> fits s -> fits s'.
Proof.
  intros s s' (Hr & _ & l & E & F) (H1 & H2). unfold fits. rewrite E, Hr. clear E. induction F as [|e l (v & ->) F IH]; [auto|].
  destruct IH as (I1 & I2). split; [apply lg_assignment, I1|exact I2].
Qed.
Lemma fits_mild : forall s s', mild s s' -> fits s /\ g_running s = true -> fits s' /\ g_running s' = true.
Proof.
  intros s s' (_ & Hr & _ & l & E & F) ((H1 & H2) & H3). unfold fits. rewrite E, Hr. clear E. split; [|exact H3].
  induction F as [|e l He F (I1 & I2)]; [auto|]. cbn [app]. rewrite action_other by exact He. split; [|exact I2].
  apply lg_action; auto. congruence.
Qed.
Lemma fits_done : forall letter v s s', fits s /\ g_running s = true -> ends_program c letter v = false ->
  s' = with_events s (ECommandDone letter v :: g_events s) -> fits s'.
Proof.
  intros letter v s s' ((H1 & H2) & H3) He ->. split; [|exact H2]. cbn [g_events with_events].
  apply lg_command; auto. congruence.
Qed.
Lemma finish_events : forall v s, exists s' o,
  (finish_program c ;;; tell c (ECommandDone "M" v)) s = Done tt s' /\ g_running s' = false /\ g_do_while s' = false /\ g_iterating s' = g_iterating s /\
  g_events s' = ECommandDone "M" v :: reset o ++ EFinished false :: g_events s.
Proof. intros v s. eexists _, _. split; [reflexivity|]. split; [reflexivity|]. split; [reflexivity|]. split; [reflexivity|]. reflexivity. Qed.
Lemma fits_end : forall v s, fits s /\ g_running s = true -> ends_program c "M" v = true ->
  yields (finish_program c ;;; tell c (ECommandDone "M" v)) s (fun _ s' => fits s').
Proof.
  intros v s ((H1 & H2) & H3) He. destruct (finish_events v s) as (s' & o & E & Hr & _ & _ & Ev).
  unfold yields. rewrite E. unfold fits. rewrite Ev, Hr. split; [|reflexivity]. apply lg_end; auto. congruence.
Qed.

Section Loop.
Variable pb : text -> G unit.
Hypothesis Pb : forall l s, fits s -> yields (pb l) s (fun _ s' => fits s').
Lemma y_each : forall l s, fits s -> yields (each pb l) s (fun _ s' => fits s').
Proof.
  induction l as [|x l IH]; intros s Hs; cbn [each]; [exact Hs|]. eapply y_bind; [apply Pb, Hs|]. intros u s1 H1. apply IH, H1.
Qed.
Lemma y_keep : forall A (m : G A) s, keeps m -> fits s -> yields m s (fun _ s' => fits s').
Proof. intros A m s H Hs. eapply y_weaken; [apply H|]. intros a s' (e & -> & _). exact Hs. Qed.
Lemma y_while_end : forall f s, fits s -> yields (while_end c f pb) s (fun _ s' => fits s').
Proof.
  induction f as [|f IH]; intros s Hs; [exact I|]. cbn [while_end].
  eapply y_bind; [apply y_keep; [apply k_get|exact Hs]|]. intros condition s1 H1.
  eapply y_bind; [apply y_keep; [apply k_evaluation|exact H1]|]. intros [[v line]|] s2 H2; [|apply y_keep; [apply k_err|exact H2]].
  destruct (SFeqb v f0); [exact H2|]. eapply y_bind; [apply y_keep; [apply k_expect|exact H2]|]. intros [[|] line'] s3 H3;
    [|apply y_keep; [apply k_err|exact H3]].
  eapply y_bind; [apply y_keep; [apply k_get|exact H3]|]. intros body s4 H4.
  eapply y_bind with (P := fun _ s' => fits s'); [exact H4|]. intros u s5 H5.
  eapply y_bind; [apply y_each, H5|]. intros u' s6 H6.
  eapply y_bind with (P := fun _ s' => fits s'); [exact H6|]. intros u'' s7 H7. apply IH, H7.
Qed.
Lemma y_while_do : forall f line s, fits s -> yields (while_do c f pb line) s (fun _ s' => fits s').
Proof.
  intros f line s Hs. unfold while_do. eapply y_bind; [apply y_keep; [apply k_expect|exact Hs]|]. intros [[|] line'] s1 H1; [|exact H1].
  eapply y_bind with (P := fun _ s' => fits s'); [exact H1|]. intros u s2 H2. apply y_while_end, H2.
Qed.
Lemma y_word : forall f line s, fits s ->
  yields (parse_pair c f pb line) s (fun r s' => fits s' /\ match r with Some (l, _, _) => calm s' /\ l <> "#"%char | None => True end).
Proof.
  intros f line s Hs. destruct (g_do_while s) eqn:Hc.
  - destruct f as [|f]; [exact I|]. cbn [parse_pair]. cbv zeta. destruct (_ || _ || _); [apply y_ret; split; [exact Hs|exact I]|].
    eapply y_bind with (P := fun b s' => b = true /\ s' = s); [split; [exact Hc|reflexivity]|]. intros b s1 (-> & ->).
    eapply y_bind; [apply y_while_do, Hs|]. intros u s1 H1. apply y_ret. split; [exact H1|exact I].
  - eapply y_weaken; [apply y_parse_pair, Hc|]. intros r s' (R & H). split; [eapply fits_reading; eauto|exact H].
Qed.
End Loop.

Lemma y_block_loop : forall f gp,
  (forall line s, fits s -> yields (gp line) s (fun r s' => fits s' /\ match r with Some (l, _, _) => calm s' /\ l <> "#"%char | None => True end)) ->
  (forall line s, calm s -> yields (gp line) s (word_read s)) ->
  forall line s, fits s -> yields (block_loop c f gp line) s (fun _ s' => fits s').
Proof.
  intros f gp Gp Gp'. induction f as [|f IH]; intros line s Hs; [exact I|]. cbn [block_loop].
  destruct line as [line|]; [|exact Hs]. eapply y_bind; [apply Gp, Hs|]. intros [[[letter v] rest]|] s1 (H1 & H1'); [|exact H1].
  destruct H1' as (C1 & Hl).
  eapply y_bind with (P := fun b s' => b = g_running s1 /\ s' = s1); [split; reflexivity|]. intros b s2 (-> & ->).
  eapply y_bind with (P := fun _ s' => fits s' /\ g_running s' = true /\ calm s').
  { destruct (g_running s1) eqn:Er; cbn [negb when]; [apply y_ret; auto|].
    unfold yields, bind, get, tell, emit, ret, upd. destruct H1 as (I1 & I2). split; [split|split]; [|reflexivity|reflexivity|exact C1].
    apply lg_start; [exact I1|]. cbn. congruence. }
  intros u s2 (H2 & R2 & C2).
  eapply y_bind with (P := fun _ s' => s' = s2); [reflexivity|]. intros last s3 ->.
  eapply y_bind with (P := fun _ s' => fits s' /\ g_running s' = true /\ calm s'); [split; [exact H2|split; [exact R2|exact C2]]|].
  intros u' s3 H3.
  eapply y_bind with (P := fun _ s' => fits s').
  - eapply y_weaken; [apply (y_run_command c (fun s => fits s /\ g_running s = true /\ calm s) (fun s => fits s /\ g_running s = true) fits (fun _ => True))|].
    + intros s4 s5 M (F & R & C). pose proof (fits_mild _ _ M (conj F R)) as (F' & R'). repeat split; auto; try apply F'. unfold calm in *. destruct M as (M & _). congruence.
    + intros s4 s5 M H. eapply fits_mild; eauto.
    + tauto.
    + tauto.
    + intros l w s4 s5 H He _ E. eapply fits_done; eauto.
    + intros w s4 (F & R & _) He. apply fits_end; auto.
    + intros l s4 _ (F & R & C). eapply y_weaken; [apply Gp', C|].
      intros [[[? ?] ?]|] s5 (Rd & H5); [destruct H5; split; [split; [eapply fits_reading; eauto|split; [|assumption]]|exact I]|split; [eapply fits_reading; eauto|]].
      all: destruct Rd as (-> & _); exact R.
    + exact I.
    + exact Hl.
    + exact H3.
    + intros r s4 (F & _). exact F.
  - intros l s4 H4. apply IH, H4.
Qed.

Lemma y_parse_block : forall f line s, fits s -> yields (parse_block c f line) s (fun _ s' => fits s').
Proof.
  induction f as [|f IH]; intros line s Hs; [exact I|]. cbn [parse_block].
  eapply y_bind; [apply y_block_loop; [|intros; apply y_parse_pair; assumption|exact Hs]|].
  - intros l s' H'. apply y_word; auto.
  - intros u s' (H1 & H2). split; [apply lg_line, H1|exact H2].
Qed.

(** ** A line without WHILE *)
Lemma expect_no_while : forall line, ~ In NUL line -> no_while line -> expect line CK_WHILE = ret (false, line).
Proof.
  intros line Hn Hw. destruct (expect_ok line CK_WHILE Hn ltac:(reflexivity)) as ([|] & rest & E & H1 & H2).
  - exfalso. destruct (H2 eq_refl) as (_ & _ & k & p & r & Hi & Hs & Hp).
    destruct (skip_spaces_spec line) as (sp & El & _). apply (Hw sp (skip_spaces line) r El).
    exists p. split; [|exact Hs]. rewrite Hp. cbn in Hi.
    repeat (destruct Hi as [Hi|Hi]; [first [discriminate | injection Hi as <-; reflexivity]|]). destruct Hi.
  - rewrite E, (H1 eq_refl). reflexivity.
Qed.
Lemma no_while_sub : forall a b, sub_of a b -> no_while b -> no_while a.
Proof. intros a b (w & ->) H x y rest ->. apply (H (w ++ x)). now rewrite app_assoc. Qed.
Lemma NUL_sub : forall a b, sub_of a b -> ~ In NUL b -> ~ In NUL a.
Proof. intros a b (w & ->) H Hi. apply H. apply in_or_app. auto. Qed.

Hypothesis N : reads_numbers c.
Lemma y_parse_calm : forall f pb line s, ~ In NUL line -> no_while line -> calm s ->
  yields (parse_pair c f pb line) s (fun _ s' => calm s').
Proof.
  induction f as [|f IH]; intros pb line0 s Hn Hw Hc; [exact I|]. cbn [parse_pair]. cbv zeta. set (line := skip_spaces line0).
  assert (Sl : sub_of line line0) by (unfold line; auto).
  assert (As : forall A (m : G A) s, assigns m -> calm s -> yields m s (fun _ s' => calm s')).
  { intros A m s1 Hm H1. eapply y_weaken; [apply Hm|]. intros a s2 (_ & E). unfold calm in *. congruence. }
  destruct (_ || _ || _); [exact Hc|].
  eapply y_bind with (P := fun b s' => b = false /\ s' = s); [split; [exact Hc|reflexivity]|]. intros b s1 (-> & ->).
  eapply y_bind with (P := fun l s' => sub_of l line /\ calm s').
  { destruct (starts "(" line); [|apply y_ret; auto].
    assert (K : forall t, match skip_comment t with Some r => sub_of r t | None => True end).
    { induction t as [|x t IHt]; [exact I|]. cbn [skip_comment]. destruct (Ascii.eqb x ")"); [exists [x]; reflexivity|].
      destruct (skip_comment t); [|exact I]. eapply sub_trans; [exact IHt|]. exists [x]. reflexivity. }
    specialize (K line). destruct (skip_comment line); [apply y_ret; auto|exact I]. }
  intros l s2 (Hl & C2). assert (Sl0 : sub_of l line0) by (eapply sub_trans; eauto).
  assert (Hnl := NUL_sub _ _ Sl0 Hn). assert (Hwl := no_while_sub _ _ Sl0 Hw).
  destruct (same_place l []); [exact C2|].
  eapply y_bind; [apply (y_expect l CK_IF s2 (fun r s' => (fst r = true \/ snd r = l) /\ calm s')); [exact Hnl|reflexivity|]|].
  { intros [|] rest H _; (split; [|exact C2]); [left; reflexivity|right; cbn; auto]. }
  intros [is_if l1] s3 (H1 & C3). cbn [fst snd] in H1. destruct is_if.
  { eapply y_bind; [apply As; [apply a_conditional|exact C3]|]. intros u s4 C4. exact C4. }
  destruct H1 as [H1| ->]; [discriminate|]. rewrite expect_no_while by assumption.
  eapply y_bind with (P := fun r s' => r = (false, l) /\ s' = s3); [split; reflexivity|]. intros r0 s4 (-> & ->).
  destruct l as [|x r]; [exact C3|]. assert (Sr : sub_of r line0) by (eapply sub_trans; [|exact Sl0]; exists [x]; reflexivity).
  destruct (Ascii.eqb x "#").
  { pose proof (a_set_parameter f r s3) as A. pose proof (reads_set_parameter c N f r s3 (NUL_sub _ _ Sr Hn)) as R.
    unfold yields, bind in *. destruct (set_parameter c f r s3) as [[l3|] s5| |]; [|unfold ret; unfold calm in *; destruct A; congruence|exact I..].
    assert (S3 : sub_of l3 line0) by (eapply sub_trans; [|exact Sr]; auto).
    apply (IH pb l3 s5); [eapply NUL_sub; eauto|eapply no_while_sub; eauto|unfold calm in *; destruct A; congruence]. }
  destruct r as [|y r'] eqn:Er; [exact C3|]. rewrite <- Er in *. destruct (Ascii.eqb x "*"); [exact C3|].
  eapply y_bind; [apply As; [|exact C3]; atac|]. intros [[v rest]|] s5 C5; [exact C5|]. exact C5.
Qed.

(** What a line adds to the events. *)
Definition in_line (e : event) : Prop :=
  match e with EBlockDone => False | EFinished true => False | EStart b => b = true | _ => True end.
Definition added (P : event -> Prop) (s0 s : gst) : Prop := exists l, g_events s = l ++ g_events s0 /\ Forall P l.
Definition outside (s0 s : gst) : Prop := calm s /\ g_iterating s = false /\ added in_line s0 s.
Lemma added_more : forall (P Q : event -> Prop) s0 s s', (forall e, Q e -> P e) -> added P s0 s -> added Q s s' -> added P s0 s'.
Proof.
  intros P Q s0 s s' H (l & E & F) (l' & E' & F'). exists (l' ++ l). rewrite E', E, app_assoc. split; [reflexivity|]. apply Forall_app. split; [|exact F].
  eapply Forall_impl; eauto.
Qed.
Lemma added_one : forall (P : event -> Prop) e s0 s, P e -> added P s0 s -> added P s0 (with_events s (e :: g_events s)).
Proof. intros P e s0 s He (l & E & F). exists (e :: l). cbn. rewrite E. auto. Qed.

Lemma y_block_outside : forall f gp line0 s0, ~ In NUL line0 ->
  (forall l s, sub_of l line0 -> outside s0 s ->
     yields (gp l) s (fun r s' => outside s0 s' /\ match r with Some (a, _, rest) => sub_of rest line0 /\ a <> "#"%char | None => True end)) ->
  forall line s, match line with Some l => sub_of l line0 | None => True end -> outside s0 s ->
  yields (block_loop c f gp line) s (fun _ s' => outside s0 s').
Proof.
  intros f gp line0 s0 Hn Gp. induction f as [|f IH]; intros line s Hl Hs; [exact I|]. cbn [block_loop].
  destruct line as [line|]; [|exact Hs]. eapply y_bind; [apply Gp; auto|]. intros [[[letter v] rest]|] s1 (H1 & H1'); [|exact H1].
  destruct H1' as (Hr & Hletter).
  eapply y_bind with (P := fun b s' => b = g_running s1 /\ s' = s1); [split; reflexivity|]. intros b s2 (-> & ->).
  eapply y_bind with (P := fun _ s' => outside s0 s').
  { destruct (g_running s1) eqn:Er; cbn [negb when]; [exact H1|].
    unfold yields, bind, get, tell, emit, ret, upd. destruct H1 as (C1 & J1 & A1). rewrite J1. split; [exact C1|split; [exact J1|]].
    destruct A1 as (l & E & F). exists (EStart true :: l). cbn. rewrite E. split; [reflexivity|]. constructor; [reflexivity|exact F]. }
  intros u s2 H2.
  eapply y_bind with (P := fun _ s' => s' = s2); [reflexivity|]. intros last s3 ->.
  eapply y_bind with (P := fun _ s' => outside s0 s'); [exact H2|]. intros u' s3 H3.
  assert (M : forall s s', mild s s' -> outside s0 s -> outside s0 s').
  { intros s4 s5 (M1 & _ & M3 & M4) (C & J & A). split; [unfold calm in *; congruence|]. split; [congruence|].
    eapply added_more; [|exact A|exact M4]. intros [| [|] | | | | | | | | | | | | | | | | | | | |] He; try discriminate; exact I. }
  eapply y_bind.
  - apply (y_run_command c (outside s0) (outside s0) (outside s0) (fun l => sub_of l line0)); auto.
    + intros l w s4 s5 (C & J & A) _ _ ->. split; [exact C|]. split; [exact J|]. now apply added_one.
    + intros w s4 (C & J & A) _. destruct (finish_events w s4) as (s' & o & E & _ & Hc & Hj & Ev). unfold yields. rewrite E.
      split; [exact Hc|]. split; [congruence|]. destruct A as (l & El & F). exists (ECommandDone "M" w :: reset o ++ EFinished false :: l).
      rewrite Ev, El. cbn. split; [reflexivity|]. repeat (constructor; [exact I|]). exact F.
    + intros l s4 Hl4 H4. eapply y_weaken; [apply Gp; auto|]. intros [[[? ?] ?]|] s5 (H5 & H5'); tauto.
  - intros l s4 (H4 & P4). apply IH; [exact P4|exact H4].
Qed.

Lemma y_line : forall f line s, ~ In NUL line -> no_while line -> calm s -> g_iterating s = false ->
  yields (parse_block c f line) s (fun _ s' => calm s' /\ g_iterating s' = false /\
    exists l, g_events s' = EBlockDone :: l ++ g_events s /\ Forall in_line l).
Proof.
  intros [|f] line s Hn Hw Hc Hi; [exact I|]. cbn [parse_block].
  eapply y_bind; [apply (y_block_outside f _ line s Hn)|].
  - intros l s1 Hl (C1 & J1 & A1). pose proof (y_parse_pair f (parse_block c f) l s1 C1) as Y1.
    pose proof (y_parse_calm f (parse_block c f) l s1 (NUL_sub _ _ Hl Hn) (no_while_sub _ _ Hl Hw) C1) as Y2.
    pose proof (reads_parse_pair c N f (parse_block c f) l s1 (NUL_sub _ _ Hl Hn)) as Y3.
    unfold yields in *. destruct (parse_pair c f (parse_block c f) l s1) as [r s2| |]; [|exact I..].
    destruct Y1 as ((_ & J & A) & Y1). split; [split; [exact Y2|split; [congruence|]]|].
    + eapply added_more; [|exact A1|exact A]. intros e (v & ->). exact I.
    + destruct r as [[[a v] rest]|]; [|exact I]. split; [eapply sub_trans; [|exact Hl]; auto|apply Y1].
  - cbn. auto.
  - split; [exact Hc|]. split; [exact Hi|]. exists []. auto.
  - intros u s1 (C1 & J1 & l & E & F). split; [exact C1|]. split; [exact J1|]. exists l. cbn. rewrite E. auto.
Qed.
End Words.
