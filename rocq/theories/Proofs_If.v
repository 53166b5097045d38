(** IF ... THEN ... ELSE *)
From Coq Require Import SpecFloat.
From Verif Require Import Base Text Model_StringUtil Model_Float Model_Axis Model_Lexer Model_Gcode Spec_Text Spec_Lexer Spec_Expr Spec_Line Spec_Words Spec_Params Spec_Loop Spec_If
  Proofs_StringUtil Proofs_Lexer Proofs_Expr Proofs_Value Proofs_Fuel Proofs_Total Proofs_Progress Proofs_Words Proofs_Moves Proofs_Params Proofs_While.

Lemma strncmp_prefix : forall p t, ~ In NUL p -> strncmp_eq t p (length p) = true <-> exists r, t = p ++ r.
Proof.
  induction p as [|x p IH]; intros t H; [split; [exists t; reflexivity|destruct t; reflexivity]|]. cbn [length strncmp_eq]. destruct t as [|y t]; [split; [intros h; discriminate h|intros (r & E); discriminate E]|]. cbn [strncmp_eq].
  destruct (Ascii.eqb y x) eqn:Q; [apply Ascii.eqb_eq in Q as ->|apply Ascii.eqb_neq in Q; split; [intros h; discriminate h|intros (r & E); injection E as E1 E2; congruence]].
  destruct (Ascii.eqb_spec x NUL) as [->|_]; [exfalso; apply H; now left|]. rewrite IH by (intros h; apply H; now right). split; intros (r & E); exists r; [cbn; congruence|injection E as E; exact E].
Qed.
Lemma prefix_written : forall k t, ~ In NUL k -> has_prefix (map to_upper t) k = true <-> exists r, written k t r.
Proof.
  intros k t Hk. unfold has_prefix.
  assert (E : has_prefix (map to_upper t) k = strncmp_eq (map to_upper t) k (length k)).
  { unfold has_prefix. destruct (Nat.ltb_spec (length (map to_upper t)) (length k)) as [L|L]; [|reflexivity].
    destruct (strncmp_eq _ _ _) eqn:E; [|reflexivity]. apply strncmp_prefix in E as (r & E); [|exact Hk]. rewrite E, app_length in L. lia. }
  fold (has_prefix (map to_upper t) k). rewrite E, strncmp_prefix by exact Hk. split.
  - intros (r & Er). exists (skipn (length k) t), (firstn (length k) t). rewrite firstn_skipn. split; [|reflexivity]. rewrite <- firstn_map, Er, firstn_app, Nat.sub_diag, firstn_all, firstn_O, app_nil_r. reflexivity.
  - intros (r & w & Hw & ->). exists (map to_upper r). rewrite map_app, Hw. reflexivity.
Qed.
Lemma written_skip : forall k t r, written k t r -> skipn (length k) t = r.
Proof. intros k t r (w & <- & ->). rewrite map_length, skipn_app, Nat.sub_diag, skipn_all. reflexivity. Qed.
Lemma else_string : ~ In NUL (txt "ELSE"). Proof. intros H. repeat (destruct H as [H|H]; [discriminate H|]). exact H. Qed.
Lemma if_string : ~ In NUL (txt "IF"). Proof. intros H. repeat (destruct H as [H|H]; [discriminate H|]). exact H. Qed.
Lemma find_first : forall t e, first_else t e -> find_else t = Some e.
Proof.
  induction t as [|x t IH]; intros e (a & b & r & E & W & -> & M).
  - exfalso. symmetry in E. apply app_eq_nil in E as (-> & ->). destruct W as ([|] & Hw & E); [discriminate Hw|discriminate E].
  - cbn [find_else]. destruct (has_prefix (map to_upper (x :: t)) (txt "ELSE")) eqn:P.
    + apply (prefix_written _ _ else_string) in P as (r' & W'). pose proof (M [] (x :: t) r' eq_refl W') as L. destruct a; [|cbn in L; lia]. cbn [app] in E. subst b.
      change 4%nat with (length (txt "ELSE")). rewrite (written_skip _ _ _ W). reflexivity.
    + destruct a as [|y a].
      * exfalso. cbn [app] in E. subst b. assert (X : has_prefix (map to_upper (x :: t)) (txt "ELSE") = true) by (apply (prefix_written _ _ else_string); eauto). congruence.
      * injection E as <- ->. apply IH. exists a, b, r. repeat split; auto. intros a' b' r' E' W'. pose proof (M (x :: a') b' r') as L. cbn [app length] in L. apply le_S_n, L; [|exact W']. f_equal. exact E'.
Qed.
Lemma find_none : forall t, no_else t -> find_else t = None.
Proof.
  induction t as [|x t IH]; intros H; [reflexivity|]. cbn [find_else]. destruct (has_prefix (map to_upper (x :: t)) (txt "ELSE")) eqn:P.
  - exfalso. apply (prefix_written _ _ else_string) in P as (r & W). exact (H [] _ _ eq_refl W).
  - apply IH. intros a b r -> W. exact (H (x :: a) b r eq_refl W).
Qed.
Lemma first_sub : forall t e, first_else t e -> forall x, In x e -> In x t.
Proof.
  intros t e (a & b & r & -> & (w & _ & ->) & -> & _) x H. apply skip_spaces_In in H. apply in_or_app. right. apply in_or_app. right. exact H.
Qed.
Lemma is_one_dec : forall v, {is_one v} + {~ is_one v}.
Proof. intros v. unfold is_one. destruct (SFeqb v (f32_of_Z 1)); [left; reflexivity|right; discriminate]. Qed.

Section If.
Variables (c : gcfg) (s : gst).
Hypothesis N : reads_numbers c.

(** What is done with the chosen part *)
Definition part_done (p : option text) (s' : gst) : Prop :=
  match p with
  | None => s' = s
  | Some t => exists n, forall f, (n <= f)%nat -> (if starts "#" t then set_parameter c f (tl t) ;;; ret tt else err) s = Done tt s'
  end.
Lemma conditional_right : forall t p s', chooses c s t p -> ~ In NUL t -> part_done p s' -> exists n, forall f, (n <= f)%nat -> conditional c f (skip_spaces t) s = Done tt s'.
Proof.
  intros t p s' C. 
  assert (K : forall t v rest body, condition c s t v rest -> keyword (txt "THEN") rest body -> ~ In NUL t ->
    ~ In NUL body /\ skip_spaces body = body /\ exists r n, skip_spaces t = "["%char :: r /\ forall f, (n <= f)%nat -> expression c f r s = Done (Some (v, rest)) s /\ expect (skip_spaces rest) CK_THEN = ret (true, body)).
  { clear - N. intros t v rest body (r & o & d & m & t' & E & L & D & Cl) (r1 & (w & Hw & Er) & Eb) Hn.
    destruct (expression_value c s o d m r (Some v) t' rest L Cl D) as (n & H).
    assert (Hr : ~ In NUL r) by (intros h; apply Hn, skip_spaces_In; rewrite E; now right).
    assert (Hrest : ~ In NUL rest).
    { destruct (reads_evaluation c N n) as (_ & R & _). pose proof (H n (le_n _)) as X. unfold expression in X.
      assert (Hn' : ~ In NUL (skip_spaces r)) by (intros h; apply Hr, skip_spaces_In, h). pose proof (R (skip_spaces r) [] Hn' s) as Y. unfold yields in Y. rewrite X in Y.
      destruct Y as (w1 & Ew & _). intros h. apply Hn'. rewrite Ew. apply in_or_app. now right. }
    split; [|split; [subst body; apply skip_spaces_idem|]].
    { subst body. intros h. apply skip_spaces_In in h. apply Hrest, skip_spaces_In. rewrite Er. apply in_or_app. now right. }
    exists r, n. split; [exact E|]. intros f Hf. split; [exact (H f Hf)|].
    rewrite (expect_yes (skip_spaces rest) CK_THEN (txt "then") w r1); [subst body; reflexivity|intros h; apply Hrest, skip_spaces_In, h|right; left; reflexivity|discriminate|rewrite skip_spaces_idem; exact Er|exact Hw]. }
  induction C as [t v rest body Hc Hk H1|t v rest body Hc Hk H1 He|t v rest body other Hc Hk H1 He Hi|t v rest body other r res Hc Hk H1 He Hi Hr IH]; intros Hn P;
    destruct (K _ _ _ _ Hc Hk Hn) as (Hb & Sb & r0 & n & E & X).
  - destruct P as (m & P). exists (S (n + m)). intros [|f] Hf; [lia|]. destruct (X f ltac:(lia)) as (X1 & X2). cbn [conditional]. rewrite E. cbn [starts tl]. change (Ascii.eqb "[" "[") with true. cbn [negb].
    rewrite (bind_done _ _ _ _ _ _ _ X1). cbv iota beta. rewrite X2, bind_ret. cbv iota beta zeta. cbn [negb]. rewrite Sb. change f1 with (f32_of_Z 1). unfold is_one in H1. rewrite H1. apply P. lia.
  - exists (S n). intros [|f] Hf; [lia|]. destruct (X f ltac:(lia)) as (X1 & X2). cbn [conditional]. rewrite E. cbn [starts tl]. change (Ascii.eqb "[" "[") with true. cbn [negb].
    rewrite (bind_done _ _ _ _ _ _ _ X1). cbv iota beta. rewrite X2, bind_ret. cbv iota beta zeta. cbn [negb]. rewrite Sb. change f1 with (f32_of_Z 1). unfold is_one in H1. destruct (SFeqb v (f32_of_Z 1)); [now destruct H1|].
    rewrite (find_none _ He). cbn in P. subst s'. reflexivity.
  - destruct P as (m & P). exists (S (n + m)). intros [|f] Hf; [lia|]. destruct (X f ltac:(lia)) as (X1 & X2). cbn [conditional]. rewrite E. cbn [starts tl]. change (Ascii.eqb "[" "[") with true. cbn [negb].
    rewrite (bind_done _ _ _ _ _ _ _ X1). cbv iota beta. rewrite X2, bind_ret. cbv iota beta zeta. cbn [negb]. rewrite Sb. change f1 with (f32_of_Z 1). unfold is_one in H1. destruct (SFeqb v (f32_of_Z 1)); [now destruct H1|].
    rewrite (find_first _ _ He). destruct (has_prefix (map to_upper other) (txt "IF")) eqn:Pi.
    + exfalso. apply (prefix_written _ _ if_string) in Pi as (q & W). exact (Hi q W).
    + apply P. lia.
  - assert (Hn2 : ~ In NUL r).
    { destruct Hi as (w & _ & Ew). intros h. apply Hb, (first_sub _ _ He). rewrite Ew. apply in_or_app. now right. }
    destruct (IH Hn2 P) as (m & Q). exists (S (n + m)). intros [|f] Hf; [lia|]. destruct (X f ltac:(lia)) as (X1 & X2). cbn [conditional]. rewrite E. cbn [starts tl]. change (Ascii.eqb "[" "[") with true. cbn [negb].
    rewrite (bind_done _ _ _ _ _ _ _ X1). cbv iota beta. rewrite X2, bind_ret. cbv iota beta zeta. cbn [negb]. rewrite Sb. change f1 with (f32_of_Z 1). unfold is_one in H1. destruct (SFeqb v (f32_of_Z 1)); [now destruct H1|].
    rewrite (find_first _ _ He). destruct (has_prefix (map to_upper other) (txt "IF")) eqn:Pi.
    + change 2%nat with (length (txt "IF")). rewrite (written_skip _ _ _ Hi). apply Q. lia.
    + exfalso. assert (Y : has_prefix (map to_upper other) (txt "IF") = true) by (apply (prefix_written _ _ if_string); eauto). congruence.
Qed.

Lemma if_line : forall line l t p s', ~ In NUL line -> opens line l -> written (txt "IF") l t -> g_do_while s = false -> chooses c s t p -> part_done p s' ->
  outcome c line s (Done tt (seen [EBlockDone] s')).
Proof.
  intros line l t p s' Hn Ho (w & Hw & El) Hd C P.
  pose proof (opens_sub _ _ Ho) as Sb. pose proof (opens_skip _ _ Ho) as Sk. pose proof (NUL_sub' _ _ Sb Hn) as Hx.
  assert (Ht : ~ In NUL t) by (intros h; apply Hx; rewrite El; apply in_or_app; now right).
  destruct (conditional_right t p s' C Ht P) as (n & X). exists (S (S (S n))). intros f Hf. destruct f as [|[|[|f]]]; [lia..|].
  apply no_word. cbn [parse_pair]. cbv zeta. destruct w as [|x w]; [discriminate Hw|]. cbn [app] in El.
  assert (Hc : to_upper x = "I"%char) by (injection Hw as Hc _; exact Hc).
  assert (E : same_place (skip_spaces line) [] || starts ";" (skip_spaces line) || starts "%" (skip_spaces line) = false /\
     (if starts "(" (skip_spaces line) then match skip_comment (skip_spaces line) with None => bad | Some r => ret (skip_spaces r) end
      else ret (skip_spaces line)) = @ret text l).
  { destruct Ho as [->|(w0 & r0 & E & Hw0 & E2)].
    - subst l. cbn [starts]. assert (Hx' : x = "I"%char \/ x = "i"%char) by (clear - Hc; destruct x as [[] [] [] [] [] [] [] []]; vm_compute in Hc; try discriminate Hc; auto).
      destruct Hx' as [-> | ->]; split; reflexivity.
    - rewrite E. split; [reflexivity|]. cbn [starts]. rewrite Ascii.eqb_refl.
      change ("("%char :: w0 ++ ")"%char :: r0) with (("("%char :: w0) ++ ")"%char :: r0). rewrite skip_comment_closed; [now rewrite E2|].
      intros [Y|Y]; [discriminate|contradiction]. }
  destruct E as (-> & ->). unfold bind at 1. unfold get at 1. rewrite Hd. rewrite bind_ret.
  assert (Sl : same_place l [] = false) by (subst l; reflexivity). rewrite Sl.
  rewrite (expect_yes l CK_IF (txt "if") (x :: w) t Hx); [|left; reflexivity|discriminate|rewrite Sk; exact El|exact Hw]. rewrite bind_ret. cbv iota beta. rewrite skip_spaces_idem.
  rewrite (bind_done _ _ _ _ _ _ _ (X (S f) ltac:(lia))). reflexivity.
Qed.
End If.
