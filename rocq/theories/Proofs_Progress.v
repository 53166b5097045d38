(** What is read from a line: partial correctness. *)
From Coq Require Import SpecFloat.
From Verif Require Import Base Text Model_StringUtil Model_Float Model_Lexer Model_Axis Model_Gcode Spec_Lexer Proofs_Lexer
  Spec_Expr Proofs_Expr Spec_Line Proofs_Value Proofs_Total.

(** ** Partial correctness *)
Definition yields {A} (m : G A) (s : gst) (Q : A -> gst -> Prop) : Prop :=
  match m s with Done a s' => Q a s' | _ => True end.
Lemma y_bind : forall A B (m : G A) (f : A -> G B) s Q P, yields m s P -> (forall a s', P a s' -> yields (f a) s' Q) -> yields (bind m f) s Q.
Proof. unfold yields, bind. intros A B m f s Q P H I. destruct (m s); [|exact Logic.I..]. apply I. exact H. Qed.
Lemma y_ret : forall A (a : A) s (Q : A -> gst -> Prop), Q a s -> yields (ret a) s Q.
Proof. intros. exact H. Qed.
Lemma y_weaken : forall A (m : G A) s (P Q : A -> gst -> Prop), yields m s P -> (forall a s', P a s' -> Q a s') -> yields m s Q.
Proof. unfold yields. intros A m s P Q H I. destruct (m s); auto. Qed.
Lemma y_any : forall A (m : G A) s, yields m s (fun _ _ => True).
Proof. intros. unfold yields. destruct (m s); exact I. Qed.
Lemma y_then : forall A B (m : G A) (f : A -> G B) s Q, (forall a s', yields (f a) s' Q) -> yields (bind m f) s Q.
Proof. intros. eapply y_bind; [apply y_any|]. auto. Qed.
Lemma ok_yields : forall A (m : G A) s Q, ok m s Q -> yields m s Q.
Proof. unfold ok, yields. intros A m s Q H. destruct (m s); auto. Qed.

Section Progress.
Variables (c : gcfg) (N : reads_numbers c).

(** A successful result leaves a proper rest of the line. *)
Definition reads {A} (m : G (option (A * text))) (line : text) : Prop :=
  forall s, yields m s (fun r _ => match r with Some (_, rest) => tail_of rest line | None => True end).
Lemma r_fail : forall A line, reads (fail (A := A * text)) line.
Proof. intros A line s. exact I. Qed.
Lemma r_none : forall A line, reads (ret (None (A := A * text))) line.
Proof. intros A line s. exact I. Qed.
Lemma r_err_fail : forall A line, reads (bind err (fun _ => fail (A := A * text))) line.
Proof. intros A line s. exact I. Qed.
Lemma r_some : forall A (a : A) rest line, tail_of rest line -> reads (ret (Some (a, rest))) line.
Proof. intros A a rest line H s. exact H. Qed.
Lemma r_then : forall A B (m : G B) f line, (forall b, reads (f b) line) -> reads (bind m f) (A := A) line.
Proof. intros A B m f line H s. apply y_then. intros. apply H. Qed.
Lemma r_bind : forall A B (m : G (option (B * text))) f line line', reads m line' ->
  (forall r, match r with Some (_, rest) => tail_of rest line' | None => True end -> reads (f r) line) -> reads (bind m f) (A := A) line.
Proof. intros A B m f line line' H I s. eapply y_bind; [apply H|]. intros a s' Ha. apply I. exact Ha. Qed.

Lemma reads_evaluation : forall f,
  (forall line, ~ In NUL line -> reads (value c f line) line) /\
  (forall line st, ~ In NUL line -> reads (expr_loop c f line st) line) /\
  (forall line, ~ In NUL line -> reads (param_name c f line) line) /\
  (forall line, ~ In NUL line -> reads (unary c f line) line).
Proof.
  induction f as [|f (HV & HE & HN & HU)]; [repeat split; intros; intros s; exact I|].
  split; [|split; [|split]].
  - intros line Hn. rewrite value_S. destruct line as [|x r]; [apply r_none|].
    eapply r_bind with (line' := x :: r).
    + destruct (is_alpha _); [apply HU; exact Hn|].
      assert (Hr : ~ In NUL r) by (intros H; apply Hn; now right).
      destruct (Ascii.eqb x "[").
      { intros s. eapply y_weaken; [apply HE; now apply NUL_skip|]. intros [[v rest]|] s' T; [|exact I].
        eapply tail_trans; [apply skip_tail; exact T|apply tail_cons]. }
      destruct (Ascii.eqb x "#").
      { eapply r_bind; [apply HN; exact Hr|]. intros [[n rest]|] T; [|apply r_none]. apply r_then. intros [b v]. apply r_some.
        eapply tail_trans; [exact T|apply tail_cons]. }
      unfold number. cbv zeta. destruct (gc_number c _) as [[v rest]|] eqn:E; [|destruct (same_place _ _); [apply r_none|intros s; exact I]].
      apply r_some. apply skip_tail. destruct (rn_consumes c N _ _ _ E) as (w & Ew & Hw & _). exists w. auto.
    + intros [[v rest]|] T; [|apply r_none]. destruct (same_place _ _); [apply r_none|]. apply r_some. auto.
  - intros line st Hn. rewrite expr_loop_S. cbv zeta. destruct (Nat.leb _ _); [intros s; exact I|].
    eapply r_bind; [apply HV; exact Hn|]. intros [[v r1]|] T1.
    + pose proof (NUL_tail _ _ T1 Hn) as Hn1. destruct (lex_operator r1 Hn1) as (op & r2 & E & H).
      assert (E' : operation r1 = if (NO_OPERATION <? op) && (op <? UNARY_OP_START) then ret (Some (op, r2)) else ret None)
        by (unfold operation; rewrite E; reflexivity).
      rewrite E'. destruct (Z.ltb_spec NO_OPERATION op) as [Ho1|]; cbn [andb]; [|intros s; exact I].
      destruct (op <? UNARY_OP_START); [|intros s; exact I].
      destruct (H Ho1) as (T2 & Hs2 & _). pose proof (NUL_tail _ _ T2 Hn1) as Hn2. pose proof (tail_trans _ _ _ T2 T1) as T.
      assert (Go : forall st, reads (expr_loop c f r2 st) line).
      { intros st' s. eapply y_weaken; [apply HE; exact Hn2|]. intros [[v' rest]|] s' T'; [|exact I]. eapply tail_trans; eauto. }
      intros s. change (bind (ret (Some (op, r2))) ?k s) with (k (Some (op, r2)) s). cbv beta iota.
      match goal with |- yields (bind (ret ?a) ?k) s ?Q => change (yields (k a) s Q) end. cbv beta iota. rewrite Hs2. revert s.
      match goal with |- forall s, yields ?m s _ => change (reads m line) end.
      destruct st as [|[u q] st].
      * destruct (op =? RIGHT_BRACKET); [now apply r_some|apply Go].
      * destruct (_ <? _); [destruct (Nat.leb _ _); [apply r_fail|apply Go]|].
        apply r_then. intros [st'|]; [|apply r_none]. destruct (last st' _) as [v0 o0].
        destruct (o0 =? RIGHT_BRACKET); [now apply r_some|apply Go].
    + destruct line as [|x r]; [apply r_fail|]. destruct (Ascii.eqb x "-"); [|apply r_fail].
      destruct (starts _ _); [apply r_fail|]. intros s. eapply y_weaken; [apply HE, NUL_skip; intros H; apply Hn; now right|].
      intros [[v rest]|] s' T; [|exact I]. eapply tail_trans; [apply skip_tail; exact T|apply tail_cons].
  - intros line0 Hn0. rewrite param_name_S. cbv zeta. set (line := skip_spaces line0).
    assert (K : forall rest, tail_of rest line -> tail_of rest line0) by (intros; now apply skip_tail).
    assert (Hn : ~ In NUL line) by (now apply NUL_skip).
    destruct line as [|x r] eqn:El; [apply r_fail|]. rewrite <- El in *.
    destruct (Ascii.eqb_spec x "<") as [->|Hx].
    + destruct (match r with y :: _ => _ | [] => false end); [apply r_fail|]. cbn [andb].
      intros s. match goal with |- yields (bind (ret ?a) ?k) s ?Q => change (yields (k a) s Q) end. cbv beta iota.
      destruct (scan_name_rest true r) as (w & Ew & _). destruct (scan_name true r) as [n rest]. cbn [snd] in Ew.
      destruct (starts ">" rest) eqn:Es; [|exact I]. apply starts_true in Es as (rest' & ->). cbn [tl].
      destruct n as [|y n]; [exact I|]. apply K. apply tail_skip. rewrite El. exists ("<"%char :: w ++ [">"%char]).
      rewrite Ew. cbn [app]. rewrite <- app_assoc. split; [reflexivity|discriminate].
    + rewrite andb_false_r. intros s.
      eapply y_bind with (P := fun r _ => match r with Some (n, rest) => n <> [] -> tail_of rest line | None => True end).
      * destruct (match line with y :: _ => _ | [] => false end).
        -- eapply y_bind; [apply HV; exact Hn|]. intros [[v rest]|] s' T; [apply y_ret; auto|exact I].
        -- apply y_ret. destruct (scan_name_rest false line) as (w & Ew & _ & L). destruct (scan_name false line) as [n rest].
           cbn [fst snd] in *. intros Hne. exists w. split; [exact Ew|]. destruct w; [|discriminate]. destruct n; [congruence|cbn in L; lia].
      * intros [[n rest]|] s' T; [|exact I]. destruct n as [|y n]; [exact I|]. apply y_ret. apply K. apply tail_skip, T. discriminate.
  - intros line Hn. rewrite unary_S. destruct (lex_operator line Hn) as (op & rest & E & H). rewrite E.
    intros s. match goal with |- yields (bind (ret ?a) ?k) s ?Q => change (yields (k a) s Q) end. cbv beta iota. revert s.
    match goal with |- forall s, yields ?m s _ => change (reads m line) end.
    destruct (Z.ltb_spec UNARY_OP_START op) as [Hop|]; cbn [negb]; [|apply r_fail].
    assert (Hop' : 18 < op) by exact Hop. destruct H as (T1 & _); [lia|].
    destruct (starts "[" rest) eqn:Es; cbn [negb]; [|apply r_fail]. apply starts_true in Es as (r1 & ->). cbn [tl].
    pose proof (NUL_tail _ _ T1 Hn) as Hn1.
    eapply r_bind; [apply HE, NUL_skip; intros Hi; apply Hn1; now right|]. intros [[v r2]|] T2; [|apply r_fail]. cbv zeta.
    assert (T2' : tail_of (skip_spaces r2) line).
    { apply tail_skip. eapply tail_trans; [apply skip_tail; exact T2|]. eapply tail_trans; [apply tail_cons|exact T1]. }
    destruct (op =? ATAN).
    + destruct (starts "/" (skip_spaces r2)) eqn:Es; cbn [negb]; [|apply r_err_fail]. apply starts_true in Es as (r3 & Es). rewrite Es in *. cbn [tl].
      destruct (starts "[" r3) eqn:Es'; cbn [negb]; [|apply r_err_fail]. apply starts_true in Es' as (r4 & ->). cbn [tl].
      pose proof (NUL_tail _ _ T2' Hn) as Hn2.
      eapply r_bind; [apply HE, NUL_skip; intros Hi; apply Hn2; right; now right|]. intros [[v2 r5]|] T3; [|apply r_err_fail].
      apply r_some. apply tail_skip. eapply tail_trans; [apply skip_tail; exact T3|]. eapply tail_trans; [|exact T2'].
      exists ["/"%char; "["%char]. split; [reflexivity|discriminate].
    + apply r_then. intros [w|]; [now apply r_some|apply r_fail].
Qed.

Lemma reads_set_parameter : forall f line s, ~ In NUL line ->
  yields (set_parameter c f line) s (fun r _ => match r with Some rest => tail_of rest line | None => True end).
Proof.
  intros f line s Hn. unfold set_parameter. eapply y_bind; [apply reads_evaluation; exact Hn|].
  intros [[name r]|] s1 T; [|exact I]. pose proof (NUL_tail _ _ T Hn) as Hn1.
  destruct (_ && _); [apply y_then; intros [b v] s2; apply y_then; intros; apply y_ret; eapply tail_sub_trans; [|exact T]; auto|].
  destruct (_ && _); [apply y_then; intros [b v] s2; apply y_then; intros; apply y_ret; eapply tail_sub_trans; [|exact T]; auto|].
  destruct (assign_op r) as [[op rest]|] eqn:Ea; [|destruct r; exact I]. apply assign_sub in Ea.
  pose proof (tail_trans _ _ _ Ea T) as T2. pose proof (NUL_tail _ _ T2 Hn) as Hn2.
  assert (K : forall s, yields (assigned c f name (skip_spaces rest) op) s
     (fun r _ => match r with Some (_, l) => tail_of l line | None => True end)).
  { intros s'. unfold assigned. eapply y_bind; [apply reads_evaluation; now apply NUL_skip|]. intros [[v l]|] s2 T3; [|exact I].
    assert (T4 : tail_of l line) by (eapply tail_trans; [apply skip_tail; exact T3|exact T2]).
    destruct op as [op|].
    - apply y_then. intros [b lv] s3. apply y_then. intros [w|] s4; apply y_ret; auto.
    - destruct (starts "?" l) eqn:Es; [|apply y_ret; exact T4]. apply starts_true in Es as (l' & ->). cbn [tl].
      pose proof (NUL_tail _ _ T4 Hn) as Hn4. eapply y_bind; [apply reads_evaluation, NUL_skip; intros H; apply Hn4; now right|].
      intros [[tv l2]|] s3 T5; [|exact I]. destruct (starts ":" l2) eqn:Es; [|exact I]. apply starts_true in Es as (l3 & ->). cbn [tl].
      assert (T6 : tail_of l3 line).
      { eapply tail_trans; [apply tail_cons|]. eapply tail_trans; [apply skip_tail; exact T5|]. eapply tail_trans; [apply tail_cons|exact T4]. }
      eapply y_bind; [apply reads_evaluation, NUL_skip; eapply NUL_tail; eauto|].
      intros [[fv l4]|] s4 T7; [|exact I]. apply y_ret. eapply tail_trans; [apply skip_tail; exact T7|exact T6]. }
  eapply y_bind; [apply K|]. intros [[v l]|] s2 T3; [|exact I]. apply y_then. intros. apply y_then. intros. apply y_ret. exact T3.
Qed.

Lemma y_expect : forall line e s (Q : bool * text -> gst -> Prop), ~ In NUL line -> 0 < e ->
  (forall b rest, (b = false -> rest = line) -> (b = true -> tail_of rest line) -> Q (b, rest) s) -> yields (expect line e) s Q.
Proof.
  intros line e s Q Hn He H. destruct (expect_ok line e Hn He) as (b & rest & E & H1 & H2). rewrite E. apply y_ret. apply H; [exact H1|].
  intros Hb. apply H2, Hb.
Qed.

Lemma reads_parse_pair : forall f pb line s, ~ In NUL line ->
  yields (parse_pair c f pb line) s (fun r _ => match r with Some (_, _, rest) => tail_of rest line | None => True end).
Proof.
  induction f as [|f IH]; intros pb line0 s Hn0; [exact I|]. cbn [parse_pair]. cbv zeta. set (line := skip_spaces line0).
  assert (Sl : sub_of line line0) by (unfold line; auto). assert (Hn : ~ In NUL line) by (now apply NUL_skip).
  destruct (_ || _ || _); [exact I|]. apply y_then. intros [|] s1; [apply y_then; intros; exact I|].
  eapply y_bind with (P := fun l _ => sub_of l line).
  { destruct (starts "(" line); [|apply y_ret; auto].
    assert (K : forall t, match skip_comment t with Some r => sub_of r t | None => True end).
    { induction t as [|x t IHt]; [exact I|]. cbn [skip_comment]. destruct (Ascii.eqb x ")"); [exists [x]; reflexivity|].
      destruct (skip_comment t); [|exact I]. eapply sub_trans; [exact IHt|]. exists [x]. reflexivity. }
    specialize (K line). destruct (skip_comment line); [apply y_ret; auto|exact I]. }
  intros l s2 Hl. assert (Hnl : ~ In NUL l). { intros H. apply Hn. destruct Hl as (w & ->). apply in_or_app. auto. }
  destruct (same_place l []); [exact I|].
  eapply y_bind; [apply (y_expect l CK_IF s2 (fun r _ => fst r = true \/ snd r = l)); [exact Hnl|reflexivity|]|].
  { intros [|] rest H _; [left; reflexivity|right; cbn; auto]. }
  intros [is_if l1] s3 H1. cbn [fst snd] in H1. destruct is_if; [apply y_then; intros; exact I|]. destruct H1 as [H1| ->]; [discriminate|].
  eapply y_bind; [apply (y_expect l CK_WHILE s3 (fun r _ => fst r = true \/ snd r = l)); [exact Hnl|reflexivity|]|].
  { intros [|] rest H _; [left; reflexivity|right; cbn; auto]. }
  intros [is_while l1] s4 H1. cbn [fst snd] in H1. destruct is_while; [apply y_then; intros; exact I|]. destruct H1 as [H1| ->]; [discriminate|].
  destruct l as [|x r]; [exact I|]. assert (Hnr : ~ In NUL r) by (intros H; apply Hnl; now right).
  assert (Tr : tail_of r line0) by (eapply sub_tail; [apply tail_cons|eapply sub_trans; eauto]).
  destruct (Ascii.eqb x "#").
  { eapply y_bind; [apply reads_set_parameter; exact Hnr|]. intros [l3|] s5 T; [|exact I].
    eapply y_weaken; [apply IH; eapply NUL_tail; eauto|]. intros [[[? ?] rest]|] s6 T2; [|exact I].
    eapply tail_trans; [exact T2|]. eapply tail_trans; eauto. }
  destruct r as [|y r'] eqn:Er; [exact I|]. rewrite <- Er in *. destruct (Ascii.eqb x "*"); [exact I|].
  eapply y_bind; [apply reads_evaluation; now apply NUL_skip|]. intros [[v rest]|] s5 T; [|exact I].
  apply y_ret. eapply tail_trans; [apply skip_tail; exact T|exact Tr].
Qed.
End Progress.
