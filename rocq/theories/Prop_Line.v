(** Theorems about the words and lines of G-code: C14. *)
From Coq Require Import SpecFloat.
From Verif Require Import Base Text Model_StringUtil Model_Float Model_Lexer Model_Axis Model_Number Model_Gcode
  Spec_Expr Spec_Line Proofs_Expr Proofs_Value Proofs_Fuel Proofs_Total Proofs_Progress Prop_Expr.

(** ** C14 *)
(** C14: a word that has been read from a line (any C string) leaves a proper end of that
    line, so at least one character is consumed and the reader is still within the line.
    [pb]: what is done with the lines of a loop. *)
Theorem C14_word_progress : forall c f pb line s letter v rest s', reads_numbers c -> ~ In NUL line ->
  parse_pair c f pb line s = Done (Some (letter, v, rest)) s' ->
  exists w, line = w ++ rest /\ w <> [].
Proof.
  intros c f pb line s letter v rest s' N Hn E. pose proof (reads_parse_pair c N f pb line s Hn) as Y.
  unfold yields in Y. rewrite E in Y. exact Y.
Qed.
Print Assumptions C14_word_progress.

(** A harmless line without WHILE, outside a loop, is executed to its end: nothing outside
    an object is touched, whatever the number of rounds, and beyond three rounds for every
    character and seven more there is one result. *)
Theorem C14_line_ends : forall c line s, reads_numbers c -> harmless line -> no_while line -> g_do_while s = false ->
  (forall f, parse_block c f line s <> Bad) /\
  exists s', g_do_while s' = false /\ forall f, (3 * length line + 7 <= f)%nat -> parse_block c f line s = Done tt s'.
Proof.
  intros c line s N Hl Hw Hs.
  destruct (ok_done _ _ _ _ (ok_parse_block c N (3 * length line + 7) line s (conj Hl Hw) (le_n _) Hs)) as ([] & s' & E & C).
  assert (A : forall f, (3 * length line + 7 <= f)%nat -> parse_block c f line s = Done tt s').
  { intros f Hf. eapply more_done; [apply more_parse_block; exact Hf|exact E]. }
  split; [|exists s'; split; [exact C|exact A]]. intros f Hb.
  assert (B := more_bad _ _ _ _ (more_parse_block c f (f + (3 * length line + 7)) line ltac:(lia)) Hb).
  rewrite A in B by lia. discriminate.
Qed.
Print Assumptions C14_line_ends.

(** So is every file of such lines, and the end is reported to the receiver. *)
Theorem C14_file_ends : forall c lines s, reads_numbers c -> (forall line, In line lines -> harmless line /\ no_while line) ->
  g_do_while s = false ->
  (forall f, read_file c f lines s <> Bad) /\
  exists n s', (forall f, (n <= f)%nat -> read_file c f lines s = Done tt s') /\
    exists l, g_events s' = EFinished true :: l.
Proof.
  intros c lines s N. unfold read_file. revert s. induction lines as [|line lines IH]; intros s Hl Hs.
  - split; [intros f H; discriminate|]. exists 0%nat. eexists. split; [intros; reflexivity|]. eexists. reflexivity.
  - destruct (Hl line (or_introl eq_refl)) as (H1 & H2). destruct (C14_line_ends c line s N H1 H2 Hs) as (Hb & s1 & Hs1 & E).
    destruct (IH s1 ltac:(intros l Hi; apply Hl; now right) Hs1) as (Hb' & n & s' & E' & Ev). cbn [each].
    assert (U : forall f, (3 * length line + 7 <= f)%nat ->
       bind (bind (parse_block c f line) (fun _ => each (parse_block c f) lines)) (fun _ => tell c (EFinished true)) s
       = bind (each (parse_block c f) lines) (fun _ => tell c (EFinished true)) s1).
    { intros f Hf. unfold bind at 1 2. rewrite E by exact Hf. reflexivity. }
    split.
    + intros f B. destruct (le_lt_dec (3 * length line + 7) f) as [Hf|Hf]; [rewrite U in B by exact Hf; now apply (Hb' f)|].
      unfold bind at 1 2 in B. specialize (Hb f). destruct (parse_block c f line s) as [u s2| |] eqn:Ep; [|congruence|discriminate].
      assert (A := more_done _ _ _ _ _ _ (more_parse_block c f (f + (3 * length line + 7)) line ltac:(lia)) Ep).
      rewrite E in A by lia. injection A as <- <-. apply (Hb' f). exact B.
    + exists (n + (3 * length line + 7))%nat, s'. split; [|exact Ev]. intros f Hf. rewrite U by lia. apply E'. lia.
Qed.
Print Assumptions C14_file_ends.

(** ** Example *)
(** Whether a line is harmless can be computed. *)
Fixpoint closed_comments (line : text) : bool :=
  match line with
  | [] => true
  | x :: r => (negb (Ascii.eqb x "(") || existsb (Ascii.eqb ")") r) && closed_comments r
  end.
Fixpoint has_while (line : text) : bool :=
  match line with [] => false | _ :: r => has_prefix (map to_upper line) (txt "WHILE") || has_while r end.
Definition harmless_text (line : text) : bool :=
  negb (existsb (Ascii.eqb NUL) line) && closed_comments line && negb (existsb (Ascii.eqb "?") line) && one_minus " " [] line.
Definition harmless_line (line : text) : bool := harmless_text line && negb (has_while line).
Lemma existsb_char : forall x line, existsb (Ascii.eqb x) line = true <-> In x line.
Proof.
  intros x line. rewrite existsb_exists. split; [intros (y & H & E); apply Ascii.eqb_eq in E; now subst|].
  intros H. exists x. now rewrite Ascii.eqb_refl.
Qed.
Lemma harmless_text_right : forall line, harmless_text line = true -> harmless line.
Proof.
  intros line H. unfold harmless_text in H. rewrite !andb_true_iff, !negb_true_iff in H. destruct H as (((H1 & H2) & H3) & H4).
  split.
  - intros Hi. apply existsb_char in Hi. congruence.
  - intros a b E. subst line. clear - H2. induction a as [|x a IH].
    + cbn [app closed_comments] in H2. apply andb_prop in H2 as [H2 _]. cbn in H2. now apply existsb_char.
    + cbn [app closed_comments] in H2. apply andb_prop in H2 as [_ H2]. auto.
  - intros Hi. apply existsb_char in Hi. congruence.
  - exact H4.
Qed.
Lemma harmless_line_right : forall line, harmless_line line = true -> harmless line /\ no_while line.
Proof.
  intros line H. unfold harmless_line in H. rewrite andb_true_iff, negb_true_iff in H. destruct H as (H & H5).
  split; [now apply harmless_text_right|].
  - intros a b rest E (w & Ec & Ew). subst line. clear - H5 Ew Ec. induction a as [|x a IH].
    + cbn [app] in H5. subst b.
      assert (P : has_prefix (map to_upper (w ++ rest)) (txt "WHILE") = true).
      { rewrite map_app, Ec. generalize (map to_upper rest). intros r. unfold has_prefix. rewrite app_length. destruct r; reflexivity. }
      destruct w as [|y w]; [discriminate|]. cbn [app has_while] in H5. cbn [app] in P. rewrite P in H5. discriminate.
    + cbn [app has_while] in H5. apply orb_false_elim in H5 as [_ H5]. auto.
Qed.
Example C14_example_line :
  let line := txt "N10 #<depth> = [1 + 2 * -#1] G1 (cut) X[#depth - -2] Y-3 F[sqrt[16] * 60] IF [#1 EQ 1] THEN #2=3 ELSE #2=4" in
  harmless line /\ no_while line /\ g_do_while ex_state = false /\
  match parse_block ex_cfg 400 line ex_state with
  | Done _ s => length (g_events s) = 13%nat /\ g_errors s = 0
  | _ => False
  end.
Proof.
  cbv zeta. destruct (harmless_line_right (txt "N10 #<depth> = [1 + 2 * -#1] G1 (cut) X[#depth - -2] Y-3 F[sqrt[16] * 60] IF [#1 EQ 1] THEN #2=3 ELSE #2=4"))
    as (H1 & H2); [vm_compute; reflexivity|].
  split; [exact H1|]. split; [exact H2|]. vm_compute. repeat split; reflexivity.
Qed.

(** ** Without the conditions it fails. *)
(** The reader runs past the end of a line in which a comment is not closed. *)
Theorem C14_unclosed_comment_refuted : ~ (forall c line s f, reads_numbers c -> ~ In NUL line -> no_while line ->
  ~ In "?"%char line -> one_minus " " [] line = true -> g_do_while s = false -> parse_block c f line s <> Bad).
Proof.
  intros H. apply (H ex_cfg (txt "G1 (X1") ex_state 60%nat ex_reads); try (vm_compute; reflexivity).
  - intros Hi. apply existsb_char in Hi. discriminate.
  - intros a b rest E (w & Ec & Ew).
    assert (X : In "W"%char (map to_upper (txt "G1 (X1"))).
    { rewrite E, Ew, !map_app, Ec, !in_app_iff. right. left. cbn. auto. }
    apply existsb_char in X. discriminate.
  - intros Hi. apply existsb_char in Hi. discriminate.
Qed.
Print Assumptions C14_unclosed_comment_refuted.

(** A choice without its second value ends in a message whose text is taken from nowhere. *)
Theorem C14_choice_refuted : ~ (forall c line s f, reads_numbers c -> ~ In NUL line -> no_while line ->
  comments_closed line -> one_minus " " [] line = true -> g_do_while s = false -> parse_block c f line s <> Bad).
Proof.
  intros H. apply (H ex_cfg (txt "#1=1?") ex_state 60%nat ex_reads); try (vm_compute; reflexivity).
  - intros Hi. apply existsb_char in Hi. discriminate.
  - intros a b rest E (w & Ec & Ew).
    assert (X : In "W"%char (map to_upper (txt "#1=1?"))).
    { rewrite E, Ew, !map_app, Ec, !in_app_iff. right. left. cbn. auto. }
    apply existsb_char in X. discriminate.
  - intros a b E. assert (X : In "("%char (txt "#1=1?")) by (rewrite E; apply in_or_app; right; now left).
    apply existsb_char in X. discriminate.
Qed.
Print Assumptions C14_choice_refuted.

(** A WHILE in the lines of a WHILE changes them while they are being read. *)
Definition nested := [txt "#1=0"; txt "WHILE [#1 LT 1] DO"; txt "WHILE [#2 LT 1] DO" ++ [LF]; txt "#2=1"; txt "END"; txt "END"].
Theorem C14_nested_while_refuted : ~ (forall c lines f, reads_numbers c -> (forall line, In line lines -> harmless line) ->
  match new_parser c (Some []) with Done _ s => read_file c f lines s <> Bad | _ => True end).
Proof.
  intros H. specialize (H ex_cfg nested 60%nat ex_reads).
  assert (X : forall line, In line nested -> harmless line).
  { intros line Hi. apply harmless_text_right. assert (F : forallb harmless_text nested = true) by (vm_compute; reflexivity).
    rewrite forallb_forall in F. now apply F. }
  specialize (H X).
  assert (B : match new_parser ex_cfg (Some []) with Done _ s => match read_file ex_cfg 60 nested s with Bad => true | _ => false end | _ => false end = true)
    by (vm_compute; reflexivity).
  destruct (new_parser ex_cfg (Some [])) as [u s| |]; [|discriminate|discriminate].
  destruct (read_file ex_cfg 60 nested s); [discriminate|congruence|discriminate].
Qed.
Print Assumptions C14_nested_while_refuted.
