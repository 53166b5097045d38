(** Every harmless line without WHILE is processed to its end. *)
From Coq Require Import SpecFloat.
From Verif Require Import Base Text Model_StringUtil Model_Float Model_Lexer Model_Axis Model_Gcode Spec_Lexer Proofs_Lexer
  Spec_Expr Proofs_Expr Spec_Line Proofs_Value.

(** ** Rests of harmless lines *)
Inductive below : list bool -> list bool -> Prop :=
| below_nil l : below [] l
| below_cons a b l l' : (a = true -> b = true) -> below l l' -> below (a :: l) (b :: l').
Lemma below_refl : forall l, below l l.
Proof. induction l; constructor; auto. Qed.

Lemma one_minus_mono : forall t p p' l l', one_minus p l t = true -> (ends_operator p' = true -> ends_operator p = true) ->
  below l' l -> one_minus p' l' t = true.
Proof.
  induction t as [|x t IH]; intros p p' l l' H Hp Hl; [reflexivity|]. cbn [one_minus] in *.
  destruct (is_space x); [eapply IH; eauto|].
  destruct (Ascii.eqb x "["); [eapply IH; eauto; constructor; auto; discriminate|].
  destruct (Ascii.eqb x "]").
  { eapply IH; eauto. inversion Hl; subst; [constructor|assumption]. }
  destruct (Ascii.eqb x "-"); cbn [andb] in *; [|eapply IH; eauto].
  destruct (ends_operator p') eqn:E'.
  - rewrite (Hp eq_refl) in H. cbn [andb] in *. destruct (negb (digit_next t)); [|eapply IH; eauto].
    inversion Hl as [l0|a b l1 l2 Hab Hl']; subst.
    + destruct l as [|[|] l]; [eapply IH; eauto|discriminate|]. eapply IH; eauto. constructor.
    + destruct b; [discriminate|]. destruct a; [specialize (Hab eq_refl); discriminate|]. eapply IH; eauto. constructor; auto.
  - cbn [andb]. destruct (ends_operator p && negb (digit_next t)); [|eapply IH; eauto].
    destruct l as [|[|] l]; [eapply IH; eauto|discriminate|]. eapply IH; eauto. inversion Hl; subst; constructor; auto.
Qed.

Lemma one_minus_tail : forall w p l t, one_minus p l (w ++ t) = true -> one_minus " " [] t = true.
Proof.
  induction w as [|x w IH]; intros p l t H.
  - eapply one_minus_mono; eauto; [discriminate|constructor].
  - cbn [app one_minus] in H.
    repeat match type of H with
           | (if ?b then _ else _) = true => destruct b
           | match ?l with _ => _ end = true => destruct l
           end; eauto; discriminate.
Qed.

(** A harmless line without WHILE. *)
Definition tame (line : text) : Prop := harmless line /\ no_while line.
Definition sub_of (rest line : text) : Prop := exists w, line = w ++ rest.
Lemma sub_refl : forall a, sub_of a a.
Proof. intros a. exists []. reflexivity. Qed.
Lemma sub_trans : forall a b d, sub_of a b -> sub_of b d -> sub_of a d.
Proof. intros a b d (w & ->) (v & ->). exists (v ++ w). now rewrite app_assoc. Qed.
Lemma tail_sub : forall a b, tail_of a b -> sub_of a b.
Proof. intros a b (w & -> & _). exists w. reflexivity. Qed.
Lemma sub_skip : forall a b, sub_of a b -> sub_of (skip_spaces a) b.
Proof. intros a b (w & ->). destruct (skip_spaces_spec a) as (sp & E & _). exists (w ++ sp). rewrite <- app_assoc, <- E. reflexivity. Qed.
Lemma sub_tail : forall a b d, tail_of a b -> sub_of b d -> tail_of a d.
Proof. intros a b d (w & -> & H) (v & ->). exists (v ++ w). rewrite app_assoc. split; [reflexivity|]. destruct v; [assumption|discriminate]. Qed.
Lemma tail_sub_trans : forall a b d, sub_of a b -> tail_of b d -> tail_of a d.
Proof. intros a b d (w & ->) (v & -> & H). exists (v ++ w). rewrite app_assoc. split; [reflexivity|]. destruct v; [congruence|discriminate]. Qed.
Lemma sub_length : forall a b, sub_of a b -> (length a <= length b)%nat.
Proof. intros a b (w & ->). rewrite app_length. lia. Qed.
Lemma sub_tl : forall a b, sub_of a b -> sub_of (tl a) b.
Proof. intros [|x a] b H; [exact H|]. cbn [tl]. eapply sub_trans; [|exact H]. exists [x]. reflexivity. Qed.
Lemma sub_skipn : forall n a b, sub_of a b -> sub_of (skipn n a) b.
Proof. intros n a b H. eapply sub_trans; [|exact H]. exists (firstn n a). symmetry. apply firstn_skipn. Qed.
Global Hint Resolve sub_refl sub_skip sub_tl tail_sub sub_skipn : core.

Lemma tame_sub : forall a b, sub_of a b -> tame b -> tame a.
Proof.
  intros a b (w & ->) [[H1 H2 H3 H4] H5]. split; [split|].
  - intros H. apply H1. apply in_or_app. auto.
  - intros x y ->. apply (H2 (w ++ x)). now rewrite app_assoc.
  - intros H. apply H3. apply in_or_app. auto.
  - eapply one_minus_tail; eauto.
  - intros x y rest ->. apply (H5 (w ++ x)). now rewrite app_assoc.
Qed.

Section Total.
Variables (c : gcfg) (N : reads_numbers c).
Definition calm (s : gst) : Prop := g_do_while s = false.

Lemma calm_quiet : forall s s', quiet s s' -> calm s -> calm s'.
Proof. intros s s' (e & -> & _) H. exact H. Qed.
Definition calmly {A} (m : G A) : Prop := forall s, calm s -> ok m s (fun _ s' => calm s').
Lemma calmly_bind : forall A B (m : G A) (f : A -> G B), calmly m -> (forall a, calmly (f a)) -> calmly (bind m f).
Proof. intros A B m f H I s Hs. eapply ok_bind; [apply H, Hs|]. intros a s' Hs'. apply I, Hs'. Qed.
Lemma calmly_ret : forall A (a : A), calmly (ret a).
Proof. intros A a s H. exact H. Qed.
Lemma calmly_get : forall A (f : gst -> A), calmly (get f).
Proof. intros A f s H. exact H. Qed.
Lemma calmly_upd : forall f, (forall s, calm s -> calm (f s)) -> calmly (upd f).
Proof. intros f H s Hs. apply H, Hs. Qed.
Lemma calmly_emit : forall e, calmly (emit c e).
Proof. intros e s H. exact H. Qed.
Lemma calmly_when : forall b m, calmly m -> calmly (when b m).
Proof. intros [|] m H; [exact H|apply calmly_ret]. Qed.
Ltac calmly_tac :=
  repeat match goal with
  | |- calmly (bind _ _) => apply calmly_bind; [|intros]
  | |- calmly (ret _) => apply calmly_ret
  | |- calmly (get _) => apply calmly_get
  | |- calmly (emit _ _) => apply calmly_emit
  | |- calmly (when _ _) => apply calmly_when
  | |- calmly (if ?b then _ else _) => destruct b
  | |- calmly (match ?x with _ => _ end) => destruct x
  | |- calmly (upd _) => apply calmly_upd; intros; unfold calm in *; cbn; try assumption; try reflexivity
  | H : calmly ?m |- calmly ?m => exact H
  end.
Lemma calmly_err : calmly err.
Proof. unfold err. calmly_tac. Qed.
Lemma calmly_fail : forall A, calmly (fail (A := A)).
Proof. intros. unfold fail. apply calmly_bind; [apply calmly_err|intros; apply calmly_ret]. Qed.
Lemma calmly_tell : forall e, calmly (tell c e).
Proof. intros. unfold tell. calmly_tac. Qed.
Lemma calmly_store : forall n v, calmly (store_parameter n v).
Proof. intros. unfold store_parameter. cbv zeta. calmly_tac; apply calmly_err. Qed.
Lemma calmly_inform : forall n, calmly (inform_origin c n).
Proof. intros. unfold inform_origin. calmly_tac. apply calmly_tell. Qed.
Lemma calmly_offset : forall b n, calmly (set_current_offset c b n).
Proof. intros. unfold set_current_offset. calmly_tac. apply calmly_inform. Qed.

(** ** Assignments and conditions *)
Lemma ok_value_tame : forall f line s, tame line -> skip_spaces line = line -> (3 * length line + 2 <= f)%nat ->
  ok (value c f line) s (fun r s' => quiet s s' /\ match r with Some (_, rest) => tail_of rest line | None => True end).
Proof.
  intros f line s [H _] Hs Hf. destruct (evaluation_ok c N f) as (HV & _).
  eapply ok_weaken; [apply (HV line s " "%char [] (hl_string _ H) Hf (hl_minus _ H) Hs)|].
  intros [[v rest]|] s' [[Hq Hr] _]; (split; [exact Hq|]); [apply Hr|exact I].
Qed.
Lemma ok_name_tame : forall f line s, tame line -> (3 * length line + 3 <= f)%nat ->
  ok (param_name c f line) s (fun r s' => quiet s s' /\ match r with Some (_, rest) => tail_of rest line | None => True end).
Proof.
  intros f line s [H _] Hf. destruct (evaluation_ok c N f) as (_ & _ & HN & _).
  eapply ok_weaken; [apply (HN line s " "%char [] (hl_string _ H) Hf (hl_minus _ H))|].
  intros [[v rest]|] s' [Hq Hr]; (split; [exact Hq|]); [apply Hr|exact I].
Qed.
Lemma ok_expression_tame : forall f line s, tame ("["%char :: line) -> (3 * length line + 3 <= f)%nat ->
  ok (expression c f line) s (fun r s' => quiet s s' /\ match r with Some (_, rest) => tail_of rest line | None => True end).
Proof.
  intros f line s [H _] Hf. destruct (evaluation_ok c N f) as (_ & HE & _). unfold expression.
  pose proof (skip_spaces_length line). pose proof (hl_string _ H) as Hn. pose proof (hl_minus _ H) as Hm.
  eapply ok_weaken; [apply (HE (skip_spaces line) [] s "["%char false [])|].
  - apply NUL_skip. intros Hi. apply Hn. now right.
  - lia.
  - eapply step_bracket. exact Hm.
  - reflexivity.
  - apply skip_spaces_idem.
  - apply stack_empty.
  - intros [[v rest]|] s' [Hq Hr]; (split; [exact Hq|]); [apply skip_tail, Hr|exact I].
Qed.

Lemma assign_sub : forall line op rest, assign_op line = Some (op, rest) -> tail_of rest line.
Proof.
  intros line op rest. unfold assign_op. destruct line as [|x [|y r]]; [discriminate| |].
  - destruct (Ascii.eqb x "="); [|discriminate]. intros E. injection E as <- <-. exists [x]. split; [reflexivity|discriminate].
  - intros E. assert (A : rest = r \/ rest = y :: r).
    { repeat match type of E with (if ?b then _ else _) = _ => destruct b end; try discriminate; injection E as _ <-; auto. }
    destruct A as [->| ->]; [exists [x; y]|exists [x]]; (split; [reflexivity|discriminate]).
Qed.
Lemma no_choice : forall line, tame line -> starts "?" line = false.
Proof.
  intros line [H _]. destruct (starts "?" line) eqn:E; [|reflexivity]. apply starts_true in E as (r & ->).
  exfalso. apply (hl_choice _ H). now left.
Qed.

Lemma ok_failing : forall A s (Q : option A -> gst -> Prop), (forall s', quiet s s' -> Q None s') -> ok fail s Q.
Proof. intros A s Q H. eapply ok_fail; [apply quiet_refl|exact H]. Qed.

Definition leaves (line : text) (r : option text) (s' : gst) : Prop :=
  calm s' /\ match r with Some rest => tail_of rest line | None => True end.
Lemma leaves_fail : forall line s, calm s -> ok fail s (leaves line).
Proof. intros line s H. apply ok_failing. intros s' Hq. split; [eapply calm_quiet; eauto|exact I]. Qed.

Lemma ok_set_parameter : forall f line s, tame line -> (3 * length line + 3 <= f)%nat -> calm s ->
  ok (set_parameter c f line) s (leaves line).
Proof.
  intros f line s Ht Hf Hc. unfold set_parameter.
  eapply ok_bind; [apply (ok_name_tame f line s Ht Hf)|]. intros [[name r]|] s1 [Hq Hr];
    [|apply ok_ret; split; [eapply calm_quiet; eauto|exact I]].
  pose proof (calm_quiet _ _ Hq Hc) as Hc1. clear Hq Hc s.
  assert (Inc : forall (g : fl -> fl), ok ('(_, v) <- read_parameter name ;; store_parameter name (g v) ;;;
            ret (Some (skip_spaces (tl (tl r))))) s1 (leaves line)).
  { intros g. eapply ok_bind; [apply ok_read_parameter|]. intros [b v] s2 ->.
    eapply ok_bind; [apply calmly_store; exact Hc1|]. intros u s3 Hc3. apply ok_ret. split; [exact Hc3|].
    eapply tail_sub_trans; [|exact Hr]. auto. }
  destruct (_ && _); [apply (Inc (fun v => f32_add v f1))|]. destruct (_ && _); [apply (Inc (fun v => f32_sub v f1))|].
  clear Inc. destruct (assign_op r) as [[op rest]|] eqn:Ea; [|destruct r; [apply ok_ret; split; auto|now apply leaves_fail]].
  apply assign_sub in Ea. pose proof (tail_trans _ _ _ Ea Hr) as T.
  assert (Ht' : tame (skip_spaces rest)) by (eapply tame_sub; [|exact Ht]; auto).
  pose proof (tail_length _ _ T). pose proof (skip_spaces_length rest).
  assert (K : ok (assigned c f name (skip_spaces rest) op) s1
     (fun r s' => calm s' /\ match r with Some (_, l) => tail_of l line | None => True end)).
  { unfold assigned. eapply ok_bind; [apply (ok_value_tame f _ s1 Ht' (skip_spaces_idem _)); lia|].
    intros [[v l]|] s2 [Hq Hl].
    2:{ apply ok_failing. intros s' Hq'. split; [|exact I]. exact (calm_quiet _ _ Hq' (calm_quiet _ _ Hq Hc1)). }
    pose proof (calm_quiet _ _ Hq Hc1) as Hc2.
    assert (Tl : tail_of l line) by (eapply tail_trans; [apply skip_tail; exact Hl|exact T]).
    destruct op as [op|].
    - eapply ok_bind; [apply ok_read_parameter|]. intros [b lv] s3 ->. eapply ok_bind; [apply ok_execute_binary|].
      intros [w|] s3 Hq3; apply ok_ret; (split; [eapply calm_quiet; eauto|auto]).
    - rewrite no_choice by (eapply tame_sub; [|exact Ht]; auto). apply ok_ret. auto. }
  eapply ok_bind; [exact K|]. intros [[v l]|] s2 [Hc2 Hl]; [|apply ok_ret; split; auto].
  eapply ok_bind; [apply calmly_store; exact Hc2|]. intros u s3 Hc3. cbv beta in Hc3.
  eapply ok_bind; [apply calmly_tell; exact Hc3|]. intros u' s4 Hc4. apply ok_ret. split; [exact Hc4|exact Hl].
Qed.

Lemma expect_ok : forall line e, ~ In NUL line -> 0 < e ->
  exists b rest, expect line e = ret (b, rest) /\ (b = false -> rest = line) /\
    (b = true -> tail_of rest line /\ skip_spaces rest = rest /\
       exists k p r, In (k, e) control_keywords /\ skip_spaces line = p ++ r /\ map to_upper p = map to_upper k).
Proof.
  intros line e Hn He.
  destruct (match_next_longest control_keywords _ line control_built (keywords_ok control_keywords eq_refl) Hn) as (t & r & E & w & Hw & L).
  exists (t =? e), (if t =? e then r else line). unfold expect, expect_next. rewrite E. cbn [obind].
  destruct (Z.eqb_spec t e) as [->|Hne]; (split; [reflexivity|]); (split; [discriminate || reflexivity|]); [|discriminate].
  intros _. destruct L as [(L & _)|(k & q & r' & Hi & -> & Hq & _ & Hr)]; [lia|].
  destruct Hw as (sp & -> & Hsp & Hh). destruct Hr as (sp' & -> & Hsp' & Hh').
  assert (Ne : q <> []).
  { intros ->. symmetry in Hq. apply map_eq_nil in Hq. subst k. cbn in Hi. repeat (destruct Hi as [Hi|Hi]; [discriminate|]). exact Hi. }
  split; [exists (sp ++ q ++ sp'); rewrite <- !app_assoc; split; [reflexivity|destruct sp, q; try discriminate; congruence]|].
  split.
  { destruct r as [|x r]; [reflexivity|]. apply skip_spaces_keep. eapply Hh'; eauto. }
  exists k, q, (sp' ++ r). split; [exact Hi|]. split; [|exact Hq].
  destruct q as [|x q]; [congruence|]. clear - Hsp Hh. induction sp as [|y sp IH].
  - cbn [app]. apply skip_spaces_keep. eapply Hh. reflexivity.
  - cbn [app skip_spaces]. rewrite (Hsp y (or_introl eq_refl)). apply IH. intros z Hz. apply Hsp. now right.
Qed.

Lemma expect_while : forall line, tame line -> expect line CK_WHILE = ret (false, line).
Proof.
  intros line [H Hw]. destruct (expect_ok line CK_WHILE (hl_string _ H) ltac:(reflexivity)) as ([|] & rest & E & H1 & H2).
  - exfalso. destruct (H2 eq_refl) as (_ & _ & k & p & r & Hi & Hs & Hp).
    destruct (skip_spaces_spec line) as (sp & El & _). apply (Hw sp (skip_spaces line) r El).
    exists p. split; [|exact Hs]. rewrite Hp. cbn in Hi.
    repeat (destruct Hi as [Hi|Hi]; [first [discriminate | injection Hi as <-; reflexivity]|]). destruct Hi.
  - rewrite E, (H1 eq_refl). reflexivity.
Qed.

Lemma find_else_sub : forall line rest, find_else line = Some rest -> sub_of rest line.
Proof.
  induction line as [|x line IH]; intros rest E; cbn [find_else] in E; [discriminate|].
  destruct (has_prefix _ _).
  - injection E as <-. change (sub_of (skip_spaces (skipn 4 (x :: line))) (x :: line)). auto.
  - eapply sub_trans; [apply IH; exact E|]. exists [x]. reflexivity.
Qed.

Lemma ok_err : forall s (Q : unit -> gst -> Prop), (forall s', quiet s s' -> Q tt s') -> ok err s Q.
Proof. intros s Q H. unfold ok, err, upd. apply H. apply quiet_err. Qed.

Lemma ok_conditional : forall f line s, tame line -> (3 * length line + 4 <= f)%nat -> calm s ->
  ok (conditional c f line) s (fun _ s' => calm s').
Proof.
  induction f as [|f IH]; intros line s Ht Hf Hc; [lia|]. cbn [conditional].
  assert (Err : forall s', calm s' -> ok err s' (fun _ s'' => calm s'')).
  { intros s' Hs'. apply ok_err. intros s'' Hq. eapply calm_quiet; eauto. }
  destruct (starts "[" line) eqn:Es; cbn [negb]; [|auto]. apply starts_true in Es as (r & ->). cbn [tl length] in *.
  eapply ok_bind; [apply (ok_expression_tame f r s Ht); lia|]. intros [[v r1]|] s1 [Hq Hr];
    [|apply ok_ret; eapply calm_quiet; eauto].
  pose proof (calm_quiet _ _ Hq Hc) as Hc1. clear Hq Hc s.
  assert (T1 : tail_of (skip_spaces r1) ("["%char :: r)) by (apply tail_skip; eapply tail_trans; [exact Hr|apply tail_cons]).
  assert (Ht1 : tame (skip_spaces r1)) by (eapply tame_sub; [|exact Ht]; auto).
  destruct (expect_ok (skip_spaces r1) CK_THEN (hl_string _ (proj1 Ht1)) ltac:(reflexivity)) as (b & r2 & E & _ & H).
  rewrite E. eapply ok_bind; [apply ok_ret with (Q := fun a s' => a = (b, r2) /\ s' = s1); auto|]. intros a s' (-> & ->).
  destruct b; cbn [negb]; [|auto]. destruct (H eq_refl) as (T2 & Hs2 & _). rewrite Hs2.
  pose proof (tail_trans _ _ _ T2 T1) as T3.
  assert (Set_ : forall l s, sub_of l r2 -> calm s -> ok (if starts "#" l then set_parameter c f (tl l) ;;; ret tt else err) s (fun _ s' => calm s')).
  { intros l s Hl Hs. destruct (starts "#" l); [|auto]. eapply ok_bind; [apply ok_set_parameter|]; auto.
    - eapply tame_sub; [|exact Ht]. apply tail_sub. eapply tail_sub_trans; [|exact T3]. auto.
    - assert (Tt : tail_of (tl l) ("["%char :: r)) by (eapply tail_sub_trans; [|exact T3]; auto).
      apply tail_length in Tt. cbn [length] in Tt. lia.
    - intros u s'' [Hc'' _]. apply ok_ret. exact Hc''. }
  destruct (SFeqb v f1); [apply Set_; auto|].
  destruct (find_else r2) as [r3|] eqn:Ef; [|apply ok_ret; exact Hc1]. apply find_else_sub in Ef.
  destruct (has_prefix _ _); [|apply Set_; auto].
  assert (T4 : tail_of (skip_spaces (skipn 2 r3)) ("["%char :: r)).
  { eapply tail_sub_trans; [|exact T3]. auto. }
  apply IH; auto.
  - eapply tame_sub; [|exact Ht]. auto.
  - apply tail_length in T4. cbn [length] in T4. lia.
Qed.

(** ** Words *)
Lemma skip_comment_sub : forall line, In ")"%char line -> exists r, skip_comment line = Some r /\ tail_of r line.
Proof.
  induction line as [|x line IH]; intros H; [destruct H|]. cbn [skip_comment]. destruct (Ascii.eqb_spec x ")") as [->|Hx].
  - exists line. split; [reflexivity|apply tail_cons].
  - destruct H as [H|H]; [congruence|]. destruct (IH H) as (r & E & T). exists r. split; [exact E|].
    eapply tail_trans; [exact T|apply tail_cons].
Qed.

Definition word_of (line : text) (r : option (ascii * fl * text)) (s' : gst) : Prop :=
  calm s' /\ match r with Some (_, _, rest) => tail_of rest line | None => True end.

Lemma ok_parse_pair : forall f pb line s, tame line -> (3 * length line + 5 <= f)%nat -> calm s ->
  ok (parse_pair c f pb line) s (word_of line).
Proof.
  induction f as [|f IH]; intros pb line0 s Ht0 Hf Hc; [lia|]. cbn [parse_pair]. cbv zeta.
  set (line := skip_spaces line0).
  assert (Sl : sub_of line line0) by (unfold line; auto).
  assert (None_ : forall s', calm s' -> word_of line0 None s') by (intros; split; auto).
  destruct (_ || _ || _); [apply ok_ret; auto|].
  apply ok_get. unfold calm in Hc. rewrite Hc. fold (calm s) in Hc.
  assert (Ht : tame line) by (eapply tame_sub; eauto).
  eapply ok_bind with (P := fun l s' => s' = s /\ sub_of l line /\ skip_spaces l = l).
  { destruct (starts "(" line) eqn:Es; [|apply ok_ret; split; [reflexivity|]; split; [auto|apply skip_spaces_idem]].
    apply starts_true in Es as (r & Er). destruct (skip_comment_sub line) as (r' & E & T).
    - rewrite Er. right. apply (hl_comments _ (proj1 Ht) [] r). rewrite Er. reflexivity.
    - rewrite E. apply ok_ret. split; [reflexivity|]. split; [auto|apply skip_spaces_idem]. }
  intros l s' (-> & Hl & Hsl). assert (Htl : tame l) by (eapply tame_sub; eauto).
  destruct (same_place l []); [apply ok_ret; auto|].
  destruct (expect_ok l CK_IF (hl_string _ (proj1 Htl)) ltac:(reflexivity)) as (b & l2 & E & H1 & H2).
  rewrite E. eapply ok_bind; [apply ok_ret with (Q := fun a s' => a = (b, l2) /\ s' = s); auto|]. intros a s' (-> & ->).
  assert (L0 : (length l <= length line0)%nat) by (eapply sub_length, sub_trans; eauto).
  destruct b.
  { destruct (H2 eq_refl) as (T & _). assert (Sc : sub_of (skip_spaces l2) l) by auto.
    eapply ok_bind; [apply ok_conditional; auto|].
    - eapply tame_sub; [exact Sc|exact Htl].
    - apply sub_length in Sc. lia.
    - intros u s' Hs'. apply ok_ret. auto. }
  rewrite (H1 eq_refl) in *. clear H1 H2 l2 E. rewrite (expect_while l Htl).
  eapply ok_bind; [apply ok_ret with (Q := fun a s' => a = (false, l) /\ s' = s); auto|]. intros a s' (-> & ->). cbv iota.
  destruct l as [|x r] eqn:El; [apply ok_ret; auto|]. rewrite <- El in *.
  assert (Tr : tail_of r l) by (rewrite El; apply tail_cons).
  assert (Trl : tail_of r line0) by (eapply sub_tail; [exact Tr|eapply sub_trans; eauto]).
  pose proof (tail_length _ _ Tr) as Lr.
  destruct (Ascii.eqb x "#").
  { eapply ok_bind; [apply ok_set_parameter; auto|].
    - eapply tame_sub; [|exact Htl]. auto.
    - lia.
    - intros [l3|] s1 [Hc1 Hl3]; [|apply ok_ret; auto].
      assert (T3 : tail_of l3 line0) by (eapply tail_trans; eauto).
      eapply ok_weaken; [apply IH; auto|].
      + eapply tame_sub; [|exact Ht0]. auto.
      + apply tail_length in T3. lia.
      + intros [[[? ?] rest]|] s2 [Hc2 Hr]; [|auto]. split; [exact Hc2|]. eapply tail_trans; eauto. }
  destruct r as [|y r'] eqn:Er; [|].
  { apply ok_failing. intros s' Hq. apply None_. eapply calm_quiet; eauto. }
  rewrite <- Er in *. destruct (Ascii.eqb x "*"); [apply ok_ret; auto|].
  eapply ok_bind; [apply (ok_value_tame f (skip_spaces r) s)|].
  - eapply tame_sub; [|exact Htl]. auto.
  - apply skip_spaces_idem.
  - pose proof (skip_spaces_length r). lia.
  - intros [[v rest]|] s1 [Hq Hr].
    + apply ok_ret. split; [eapply calm_quiet; eauto|]. eapply tail_trans; [apply skip_tail; exact Hr|exact Trl].
    + apply ok_failing. intros s' Hq'. apply None_. exact (calm_quiet _ _ Hq' (calm_quiet _ _ Hq Hc)).
Qed.

(** ** Commands *)
Definition done_of (line : text) (r : option text) (s' : gst) : Prop :=
  calm s' /\ match r with Some rest => sub_of rest line | None => True end.
Definition lands (line : text) (m : G (option text)) : Prop := forall s, calm s -> ok m s (done_of line).
Lemma lands_bind : forall A line (m : G A) f, calmly m -> (forall a, lands line (f a)) -> lands line (bind m f).
Proof. intros A line m f H I s Hs. eapply ok_bind; [apply H, Hs|]. intros a s' Hs'. apply I, Hs'. Qed.
Lemma lands_ret : forall line r, (forall rest, r = Some rest -> sub_of rest line) -> lands line (ret r).
Proof. intros line r H s Hs. apply ok_ret. split; [exact Hs|]. destruct r; auto. Qed.
Lemma lands_fail : forall line, lands line fail.
Proof. intros line s Hs. apply ok_failing. intros s' Hq. split; [eapply calm_quiet; eauto|exact I]. Qed.
Lemma lands_then : forall line (m : G (option text)) f, lands line m -> (forall r, (forall rest, r = Some rest -> sub_of rest line) -> lands line (f r)) ->
  lands line (bind m f).
Proof.
  intros line m f H I s Hs. eapply ok_bind; [apply H, Hs|]. intros a s' [Hs' Ha]. apply I; [|exact Hs'].
  intros rest ->. exact Ha.
Qed.

Section Words.
Variables (M fuel : nat) (gp : text -> G (option (ascii * fl * text))).
Hypothesis Gp : forall line s, tame line -> (length line <= M)%nat -> calm s -> ok (gp line) s (word_of line).
Hypothesis Hfuel : (M < fuel)%nat.

Lemma ok_args : forall A (step : A -> ascii -> fl -> G (bool * A)), (forall acc l v, calmly (step acc l v)) ->
  forall n acc line s, tame line -> (length line <= M)%nat -> (length line < n)%nat -> calm s ->
  ok (args n gp step acc line) s (fun r s' => calm s' /\ sub_of (snd r) line).
Proof.
  intros A step Hst. induction n as [|n IH]; intros acc line s Ht HM Hn Hc; [lia|]. cbn [args].
  eapply ok_bind; [apply Gp; auto|]. intros [[[l v] rest]|] s1 [Hc1 Hr]; [|apply ok_ret; cbn; auto].
  eapply ok_bind; [apply Hst; exact Hc1|]. intros [go acc'] s2 Hc2. cbv beta in Hc2. destruct go; [|apply ok_ret; cbn; auto].
  pose proof (tail_length _ _ Hr). eapply ok_weaken; [apply IH; auto; try lia|].
  - eapply tame_sub; [|exact Ht]. auto.
  - intros a s3 [Hc3 Ha]. split; [exact Hc3|]. eapply sub_trans; eauto.
Qed.

Lemma lands_args : forall A (step : A -> ascii -> fl -> G (bool * A)) acc line k, tame line -> (length line <= M)%nat ->
  (forall acc l v, calmly (step acc l v)) -> (forall a rest, sub_of rest line -> lands line (k (a, rest))) ->
  lands line (bind (args fuel gp step acc line) k).
Proof.
  intros A step acc line k Ht HM Hst Hk s Hs. eapply ok_bind; [apply ok_args; auto; lia|].
  intros [a rest] s' [Hs' Hr]. apply Hk; auto.
Qed.

Ltac cstep :=
  match goal with
  | |- forall _, _ => intros
  | |- lands _ (bind (args _ _ _ _ _) _) => apply lands_args; auto
  | |- lands _ (bind (if _ then _ else _) _) => fail 1
  | |- lands _ (bind _ _) => apply lands_bind
  | |- lands _ (ret _) => apply lands_ret; intros ? Heq; try discriminate Heq; try (injection Heq as <-; auto; fail)
  | |- lands _ fail => apply lands_fail
  | |- lands _ (if ?b then _ else _) => destruct b
  | |- lands _ (match ?x with _ => _ end) => destruct x
  | |- calmly (bind _ _) => apply calmly_bind
  | |- calmly (ret _) => apply calmly_ret
  | |- calmly (get _) => apply calmly_get
  | |- calmly (emit _ _) => apply calmly_emit
  | |- calmly (tell _ _) => apply calmly_tell
  | |- calmly err => apply calmly_err
  | |- calmly fail => apply calmly_fail
  | |- calmly (store_parameter _ _) => apply calmly_store
  | |- calmly (inform_origin _ _) => apply calmly_inform
  | |- calmly (set_current_offset _ _ _) => apply calmly_offset
  | |- calmly (when _ _) => apply calmly_when
  | |- calmly (if ?b then _ else _) => destruct b
  | |- calmly (match ?x with _ => _ end) => destruct x
  | |- calmly ((match ?x with _ => _ end) _ _) => destruct x
  | |- calmly ((fun _ => _) _) => cbv beta
  | |- calmly (upd _) => apply calmly_upd; intros; unfold calm in *; cbn; try assumption; try reflexivity
  end.
Ltac ctac := repeat cstep.

Variable line : text.
Hypothesis Hline : tame line.
Hypothesis Hlen : (length line <= M)%nat.

Lemma lands_move : forall b, lands line (handle_move c fuel gp line b).
Proof. intros. unfold handle_move. ctac. Qed.
Lemma lands_arc : forall b, lands line (handle_arc c fuel gp line b).
Proof. intros. unfold handle_arc. cbv zeta. ctac. Qed.
Lemma lands_spline : forall v, lands line (handle_spline c fuel gp v line).
Proof. intros. unfold handle_spline. cbv zeta. repeat (cstep || (apply lands_bind; [|intros])). Qed.
Lemma calmly_each_axis : forall f l, (forall a, calmly (f a)) -> calmly (each_axis f l).
Proof. induction l; intros; cbn [each_axis]; ctac; auto. Qed.
Lemma lands_G10 : lands line (handle_G10 c fuel gp line).
Proof. unfold handle_G10. cbv zeta. ctac. apply calmly_each_axis. ctac. Qed.
Lemma lands_home : lands line (handle_home c fuel gp line).
Proof. unfold handle_home. cbv zeta. ctac. Qed.
Lemma lands_probe : lands line (handle_z_probe c fuel gp line).
Proof. unfold handle_z_probe. ctac. Qed.
Lemma lands_scale : lands line (set_xyz_scale fuel gp line).
Proof. unfold set_xyz_scale. ctac. Qed.
Lemma lands_G92 : forall v, lands line (handle_G92 c fuel gp v line).
Proof. intros. unfold handle_G92. ctac. Qed.
Lemma lands_M111 : lands line (handle_M111 c fuel gp line).
Proof. unfold handle_M111. ctac. Qed.
Lemma lands_param : forall a b d, lands line (set_param c gp a b d line).
Proof.
  intros a b d s Hs. unfold set_param. eapply ok_bind; [apply Gp; auto|]. intros [[[l v] rest]|] s1 [Hc1 Hr].
  - assert (L : lands line (if Ascii.eqb l a then tell c (b (f32_mul d v)) ;;; ret (Some rest) else ret (Some line))) by ctac.
    apply L, Hc1.
  - apply ok_ret. split; auto.
Qed.
Lemma ok_read_pairs : forall n l s, sub_of l line -> calm s ->
  ok (read_pairs gp n l) s (fun r s' => calm s' /\ Forall (fun x => sub_of x line) r).
Proof.
  induction n as [|n IH]; intros l s Hl Hs; cbn [read_pairs]; [apply ok_ret; auto|].
  eapply ok_bind; [apply Gp|].
  - eapply tame_sub; eauto.
  - apply sub_length in Hl. lia.
  - exact Hs.
  - intros [[[x v] rest]|] s1 [Hc1 Hr]; [|apply ok_ret; auto].
    eapply ok_bind; [apply (IH rest s1); [eapply sub_trans; [apply tail_sub; exact Hr|exact Hl]|exact Hc1]|]. intros r s2 [Hc2 F]. apply ok_ret. auto.
Qed.
Lemma lands_unprocessed : forall a v, lands line (unprocessed c gp a v line).
Proof.
  intros a v s Hs. unfold unprocessed. eapply ok_bind; [apply calmly_emit; exact Hs|]. intros r s1 Hc1. cbv beta in Hc1.
  assert (Ne : forall n l s, match read_pairs gp n l s with Done r _ => r <> [] | _ => True end).
  { induction n as [|n IH]; intros l s'; cbn [read_pairs]; [cbn; discriminate|]. unfold bind.
    destruct (gp l s') as [[[[? ?] rest]|] s2| |]; [|cbn; discriminate|exact I|exact I].
    destruct (read_pairs gp n rest s2); cbn; auto. discriminate. }
  pose proof (ok_read_pairs (r_parse r) line s1 (sub_refl _) Hc1) as K. specialize (Ne (r_parse r) line s1).
  unfold ok, bind in *. destruct (read_pairs gp (r_parse r) line s1) as [l s2| |]; [|contradiction..].
  destruct K as [Hc2 F]. cbn. split; [exact Hc2|]. destruct (r_keep r) as [k|]; [|exact I].
  rewrite Forall_forall in F. destruct (Nat.lt_ge_cases k (length l)) as [Hk|Hk].
  - apply F. now apply nth_In.
  - rewrite nth_overflow by exact Hk. apply F. destruct (exists_last Ne) as (x & y & ->). rewrite last_last. apply in_or_app. right. now left.
Qed.

Lemma calmly_defaults : calmly (init_program_defaults c).
Proof. unfold init_program_defaults, set_all_absolute, set_ijk_absolute. ctac. Qed.
Lemma lands_line_is : forall m, calmly m -> lands line (line_is line m).
Proof. intros m H. unfold line_is. apply lands_bind; [exact H|]. ctac. Qed.

Lemma lands_run_G : forall v b, lands line (run_G c fuel gp v line b).
Proof.
  intros. unfold run_G. cbv zeta.
  repeat match goal with |- lands _ (if ?b then _ else _) => destruct b end;
    try (apply lands_line_is; unfold change_coord_system, handle_G90_G91, set_all_absolute, set_ijk_absolute; cbv zeta; ctac; fail);
    try first [ apply lands_arc | apply lands_param | apply lands_G10 | apply lands_home
      | apply lands_probe | apply lands_scale | apply lands_G92 | apply lands_unprocessed ];
    (apply lands_bind; [ctac|intros; first [apply lands_move | apply lands_spline]]).
Qed.

Lemma lands_run_M : forall v, lands line (run_M c fuel gp v line).
Proof.
  intros. unfold run_M. cbv zeta.
  repeat match goal with |- lands _ (if ?b then _ else _) => destruct b end.
  all: try apply lands_param.
  all: try apply lands_unprocessed.
  all: try apply lands_M111.
  all: try (apply lands_line_is; unfold finish_program; ctac; apply calmly_defaults).
  - apply lands_then; [apply lands_param|]. intros r Hr. apply lands_bind; [apply calmly_tell|]. intros. now apply lands_ret.
  - apply lands_bind; [apply calmly_emit|]. intros. apply lands_line_is. ctac.
Qed.

Lemma lands_run_command : forall letter v b, lands line (run_command c fuel gp letter v line b).
Proof.
  intros. unfold run_command.
  assert (F : forall m a w, lands line m -> lands line (l <- m ;; tell c (ECommandDone a w) ;;; ret l)).
  { intros m a w H. apply lands_then; [exact H|]. intros r Hr. apply lands_bind; [apply calmly_tell|]. intros. now apply lands_ret. }
  destruct (Ascii.eqb letter "G"); [apply F, lands_run_G|]. destruct (Ascii.eqb letter "M"); [apply F, lands_run_M|].
  destruct (Ascii.eqb letter "F"); [ctac|]. destruct (Ascii.eqb letter "N"); [ctac|].
  destruct (letter_axis letter); [|apply F, lands_unprocessed].
  apply lands_bind; [ctac|]. intros. apply lands_then; [apply lands_move|]. intros r Hr. ctac. auto.
Qed.
End Words.

Lemma ok_block_loop : forall f M gp, 
  (forall line s, tame line -> (length line <= M)%nat -> calm s -> ok (gp line) s (word_of line)) ->
  forall n line s, (M + n + 1 <= f)%nat ->
  match line with Some l => tame l /\ (length l <= M)%nat /\ (length l < n)%nat | None => True end -> calm s ->
  ok (block_loop c f gp line) s (fun _ s' => calm s').
Proof.
  induction f as [|f IH]; intros M gp Gp n line s Hf Hl Hs; [lia|]. cbn [block_loop].
  destruct line as [line|]; [|apply ok_ret; exact Hs]. destruct Hl as (Ht & HM & Hn).
  eapply ok_bind; [apply Gp; auto|]. intros [[[letter v] rest]|] s1 [Hc1 Hr]; [|apply ok_ret; exact Hc1].
  apply ok_get. assert (W : calmly (when (negb (g_running s1)) (it <- get g_iterating ;; tell c (EStart (negb it)) ;;; upd (fun s => with_running s true)))).
  { apply calmly_when. apply calmly_bind; [apply calmly_get|]. intros it. apply calmly_bind; [apply calmly_tell|]. intros. apply calmly_upd. auto. }
  eapply ok_bind; [apply W, Hc1|]. intros u s2 Hc2. cbv beta in Hc2. apply ok_get.
  eapply ok_bind with (P := fun _ s' => calm s'); [exact Hc2|]. intros u' s3 Hc3.
  assert (Htr : tame rest) by (eapply tame_sub; [|exact Ht]; auto). pose proof (tail_length _ _ Hr) as Lr.
  assert (L : lands rest (run_command c f gp letter v rest (g_first_spline s2))).
  { apply (lands_run_command M f gp); auto; lia. }
  eapply ok_bind; [apply L, Hc3|]. intros l s4 [Hc4 Hl4].
  apply (IH M gp Gp (n - 1)%nat); [lia| |exact Hc4].
  destruct l as [l|]; [|exact I]. split; [eapply tame_sub; eauto|]. apply sub_length in Hl4. lia.
Qed.

Lemma ok_parse_block : forall f line s, tame line -> (3 * length line + 7 <= f)%nat -> calm s ->
  ok (parse_block c f line) s (fun _ s' => calm s').
Proof.
  intros [|f] line s Ht Hf Hs; [lia|]. cbn [parse_block].
  eapply ok_bind; [apply (ok_block_loop f (length line)) with (n := S (length line)); auto; try lia|].
  - intros l s' Htl Hl Hs'. apply ok_parse_pair; auto. lia.
  - intros u s' Hs'. cbv beta in Hs'. eapply ok_weaken; [apply calmly_tell; exact Hs'|]. auto.
Qed.
End Total.
