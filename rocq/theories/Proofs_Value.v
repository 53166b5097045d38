(** Values and expressions of harmless lines: the evaluation ends and stays within its
    stack. *)
From Coq Require Import SpecFloat.
From Verif Require Import Base Text Model_StringUtil Model_Float Model_Lexer Model_Axis Model_Gcode Spec_Lexer Proofs_Lexer
  Spec_Expr Proofs_Expr Spec_Line.

(** ** Total correctness *)
Definition ok {A} (m : G A) (s : gst) (Q : A -> gst -> Prop) : Prop :=
  match m s with Done a s' => Q a s' | _ => False end.
Lemma ok_ret : forall A (a : A) s (Q : A -> gst -> Prop), Q a s -> ok (ret a) s Q.
Proof. intros. exact H. Qed.
Lemma ok_weaken : forall A (m : G A) s (P Q : A -> gst -> Prop), ok m s P -> (forall a s', P a s' -> Q a s') -> ok m s Q.
Proof. unfold ok. intros A m s P Q H I. destruct (m s); auto. Qed.
Lemma ok_bind : forall A B (m : G A) (f : A -> G B) s Q P, ok m s P -> (forall a s', P a s' -> ok (f a) s' Q) -> ok (bind m f) s Q.
Proof. unfold ok, bind. intros A B m f s Q P H I. destruct (m s); [|contradiction..]. apply I. exact H. Qed.
Lemma ok_get : forall A B (f : gst -> A) (g : A -> G B) s Q, ok (g (f s)) s Q -> ok (bind (get f) g) s Q.
Proof. intros. exact H. Qed.
Lemma ok_done : forall A (m : G A) s Q, ok m s Q -> exists a s', m s = Done a s' /\ Q a s'.
Proof. unfold ok. intros A m s Q H. destruct (m s); [eauto|contradiction..]. Qed.

(** Only errors were counted. *)
Definition quiet (s s' : gst) : Prop := exists e, s' = with_errors s e /\ g_errors s <= e.
Lemma quiet_refl : forall s, quiet s s.
Proof. intros s. exists (g_errors s). split; [destruct s; reflexivity|lia]. Qed.
Lemma quiet_trans : forall a b d, quiet a b -> quiet b d -> quiet a d.
Proof. intros a b d (x & -> & H) (y & -> & H'). exists y. split; [destruct a; reflexivity|]. cbn in H'. lia. Qed.
Lemma quiet_err : forall s, quiet s (with_errors s (g_errors s + 1)).
Proof. intros s. exists (g_errors s + 1). split; [reflexivity|lia]. Qed.
Global Hint Resolve quiet_refl quiet_err : core.
Lemma ok_fail : forall A s s0 (Q : option A -> gst -> Prop), quiet s0 s -> (forall s', quiet s0 s' -> Q None s') -> ok fail s Q.
Proof. intros A s s0 Q H I. unfold ok, fail, err, upd, bind, ret. apply I. eapply quiet_trans; eauto. Qed.

(** ** The texts consumed *)
Lemma one_minus_spaces : forall t p l, one_minus p l (skip_spaces t) = one_minus p l t.
Proof. induction t as [|x t IH]; intros p l; cbn [skip_spaces one_minus]; [reflexivity|]. destruct (is_space x) eqn:E; [auto|].
  cbn [one_minus]. rewrite E. reflexivity. Qed.

Definition grown (l l' : list bool) : Prop :=
  match l, l' with
  | [], [] => True
  | b :: r, b' :: r' => r = r' /\ (b = true -> b' = true)
  | _, _ => False
  end.
Lemma grown_refl : forall l, grown l l.
Proof. destruct l; cbn; auto. Qed.
Lemma grown_trans : forall a b d, grown a b -> grown b d -> grown a d.
Proof. intros [|x a] [|y b] [|z d]; cbn; try tauto. intros [-> H] [-> H']. auto. Qed.
Global Hint Resolve grown_refl : core.

Definition plain (x : ascii) : Prop := x <> "["%char /\ x <> "]"%char.
Lemma one_minus_plain : forall w p l rest, Forall plain w -> one_minus p l (w ++ rest) = true ->
  exists p' l', one_minus p' l' rest = true /\ grown l l' /\ (forall a x, w = a ++ [x] -> is_space x = false -> p' = x).
Proof.
  induction w as [|x w IH]; intros p l rest F H.
  - exists p, l. split; [exact H|]. split; [auto|]. intros a x E. destruct a; discriminate.
  - inversion F as [|? ? [Hx1 Hx2] F']; subst. cbn [app one_minus] in H.
    assert (last : forall p', (exists l1, grown l l1 /\ (is_space x = false -> p' = x) /\ one_minus p' l1 (w ++ rest) = true) ->
      exists p'' l', one_minus p'' l' rest = true /\ grown l l' /\
        (forall a y, x :: w = a ++ [y] -> is_space y = false -> p'' = y)).
    { intros p' (l1 & G1 & Hp & H1). destruct w as [|y w].
      - exists p', l1. split; [exact H1|]. split; [exact G1|]. intros [|z a] y E Hy; [|destruct a; discriminate].
        injection E as <-. auto.
      - destruct (IH p' l1 rest F' H1) as (p2 & l2 & A & B & D). exists p2, l2. split; [exact A|].
        split; [eapply grown_trans; eauto|]. intros [|z a] y' E Hy; [discriminate|]. injection E as <- E. eapply D; eauto. }
    destruct (is_space x) eqn:Es; [apply (last p); exists l; repeat split; auto; discriminate|].
    destruct (Ascii.eqb_spec x "["); [congruence|]. destruct (Ascii.eqb_spec x "]"); [congruence|].
    apply (last x). destruct (_ && _ && _).
    + destruct l as [|[|] l]; [|discriminate|].
      * exists []. auto.
      * exists (true :: l). cbn. auto.
    + exists l. auto.
Qed.

Lemma one_minus_char : forall x p l rest, plain x -> one_minus p l (x :: rest) = true ->
  exists p' l', one_minus p' l' rest = true /\ grown l l'.
Proof.
  intros x p l rest H E. destruct (one_minus_plain [x] p l rest (Forall_cons x H (Forall_nil _)) E) as (p' & l' & A & B & _). eauto.
Qed.

(** A proper rest of a line. *)
Definition tail_of (rest line : text) : Prop := exists w, line = w ++ rest /\ w <> [].
Lemma tail_trans : forall a b d, tail_of a b -> tail_of b d -> tail_of a d.
Proof. intros a b d (w & -> & H) (v & -> & H'). exists (v ++ w). rewrite app_assoc. split; [reflexivity|]. destruct v; [congruence|discriminate]. Qed.
Lemma tail_cons : forall x a, tail_of a (x :: a).
Proof. intros x a. exists [x]. split; [reflexivity|discriminate]. Qed.
Lemma tail_length : forall a b, tail_of a b -> (length a < length b)%nat.
Proof. intros a b (w & -> & H). rewrite app_length. destruct w; [congruence|cbn; lia]. Qed.
Lemma tail_In : forall a b x, tail_of a b -> In x a -> In x b.
Proof. intros a b x (w & -> & _) H. apply in_or_app. auto. Qed.
Lemma tail_skip : forall a b, tail_of a b -> tail_of (skip_spaces a) b.
Proof.
  intros a b (w & -> & H). destruct (skip_spaces_spec a) as (sp & E & _). exists (w ++ sp). rewrite <- app_assoc, <- E.
  split; [reflexivity|]. destruct w; [congruence|discriminate].
Qed.
Lemma skip_tail : forall a b, tail_of a (skip_spaces b) -> tail_of a b.
Proof.
  intros a b (w & E & H). destruct (skip_spaces_spec b) as (sp & E' & _). exists (sp ++ w). rewrite E', E, app_assoc.
  split; [reflexivity|]. destruct sp; [assumption|discriminate].
Qed.
Global Hint Resolve tail_cons tail_skip : core.

(** ** Keywords *)
Lemma keywords_ok : forall kws, existsb (fun kv : text * Z => existsb (Ascii.eqb NUL) (fst kv)) kws = false ->
  forall k v, In (k, v) kws -> ~ In NUL k.
Proof.
  intros kws H k v Hi Hn. assert (A : existsb (fun kv : text * Z => existsb (Ascii.eqb NUL) (fst kv)) kws = true).
  { apply existsb_exists. exists (k, v). split; [exact Hi|]. apply existsb_exists. exists NUL. split; [exact Hn|reflexivity]. }
  congruence.
Qed.

Lemma lex_ok : forall kws line, add_keywords lexer_init kws = Ok (lexer_of kws) ->
  existsb (fun kv : text * Z => existsb (Ascii.eqb NUL) (fst kv)) kws = false -> ~ In NUL line ->
  exists t rest, lex kws line = ret (t, rest) /\ longest_match kws line t rest.
Proof.
  intros kws line Hb Hk Hn. destruct (match_next_longest kws _ line Hb (keywords_ok _ Hk) Hn) as (t & r & E & L).
  exists t, r. unfold lex. rewrite E. auto.
Qed.
Lemma op_built : add_keywords lexer_init op_keywords = Ok (lexer_of op_keywords).
Proof. vm_compute. reflexivity. Qed.
Lemma control_built : add_keywords lexer_init control_keywords = Ok (lexer_of control_keywords).
Proof. vm_compute. reflexivity. Qed.

(** The text consumed by an operator. *)
Definition op_word (k : text) (v : Z) : bool :=
  if v =? RIGHT_BRACKET then text_eqb k (txt "]")
  else negb (existsb (fun x => Ascii.eqb x "[" || Ascii.eqb x "]" || is_space x) k) &&
       (negb (v <? UNARY_OP_START) || (ends_operator (last k " "%char) && (2 <=? precedence v) && (precedence v <=? 5))) &&
       negb (text_eqb k []).
Lemma op_words : forallb (fun kv => op_word (map to_upper (fst kv)) (snd kv)) op_keywords = true.
Proof. vm_compute. reflexivity. Qed.

Lemma upper_fix : forall x y, to_upper x = y -> is_alpha y = false -> x = y.
Proof.
  intros x y H Hy. assert (A : forall z, is_alpha (to_upper z) || Ascii.eqb (to_upper z) z = true)
    by (apply all_ascii; vm_compute; reflexivity).
  specialize (A x). rewrite H, Hy in A. cbn in A. apply Ascii.eqb_eq in A. auto.
Qed.
Lemma upper_space : forall x, is_space (to_upper x) = is_space x.
Proof.
  intros x. assert (A : forall z, Bool.eqb (is_space (to_upper z)) (is_space z) = true) by (apply all_ascii; vm_compute; reflexivity).
  specialize (A x). now apply eqb_prop in A.
Qed.
Lemma upper_upper : forall x, to_upper (to_upper x) = to_upper x.
Proof.
  intros x. assert (A : forall z, Ascii.eqb (to_upper (to_upper z)) (to_upper z) = true) by (apply all_ascii; vm_compute; reflexivity).
  specialize (A x). now apply Ascii.eqb_eq in A.
Qed.
Lemma text_eqb_eq : forall a b, text_eqb a b = true <-> a = b.
Proof.
  induction a as [|x a IH]; destruct b as [|y b]; cbn; try (split; [discriminate|congruence]); [split; auto|].
  rewrite andb_true_iff, IH, Ascii.eqb_eq. split; [intros [-> ->]; reflexivity|]. intros E. injection E as -> ->. auto.
Qed.
Lemma spaces_plain : forall sp : text, (forall x, In x sp -> is_space x = true) -> Forall plain sp.
Proof. intros sp H. apply Forall_forall. intros x Hx. specialize (H x Hx). split; intros ->; discriminate. Qed.

(** Lexing an operator: where it ends and what it means for the minus signs. *)
Lemma lex_operator : forall line, ~ In NUL line ->
  exists t rest, lex op_keywords line = ret (t, rest) /\
    (0 < t -> tail_of rest line /\ skip_spaces rest = rest /\
      (t = RIGHT_BRACKET -> forall p b l, one_minus p (b :: l) line = true -> exists p', one_minus p' l rest = true) /\
      (t <> RIGHT_BRACKET -> forall p l, one_minus p l line = true -> exists p' l', one_minus p' l' rest = true /\ grown l l' /\
         (t < UNARY_OP_START -> ends_operator p' = true)) /\
      (t < UNARY_OP_START -> t <> RIGHT_BRACKET -> 2 <= precedence t <= 5)).
Proof.
  intros line Hn. destruct (lex_ok op_keywords line op_built eq_refl Hn) as (t & rest & E & w & Hw & H).
  exists t, rest. split; [exact E|]. intros Ht. destruct H as [(H & _)|(k & q & r & Hi & -> & Hq & _ & Hr)]; [lia|].
  destruct Hw as (sp & -> & Hsp & Hh). destruct Hr as (sp' & -> & Hsp' & Hh').
  assert (W : op_word (map to_upper q) t = true).
  { rewrite Hq. pose proof op_words as A. rewrite forallb_forall in A. exact (A _ Hi). }
  assert (Hrest : skip_spaces rest = rest). { destruct rest as [|x rest]; [reflexivity|]. apply skip_spaces_keep. eapply Hh'; eauto. }
  unfold op_word in W. destruct (Z.eqb_spec t RIGHT_BRACKET) as [->|Hb].
  - apply text_eqb_eq in W. destruct q as [|x [|? ?]]; [discriminate| |discriminate]. injection W as W.
    apply upper_fix in W; [|reflexivity]. subst x.
    split; [exists (sp ++ "]"%char :: sp'); rewrite <- !app_assoc; split; [reflexivity|destruct sp; discriminate]|].
    split; [exact Hrest|]. split; [|split; congruence]. intros _ p b l H.
    destruct (one_minus_plain sp p (b :: l) _ (spaces_plain sp Hsp) H) as (p1 & l1 & A & B & _).
    cbn [app one_minus] in A. change (is_space "]") with false in A. change (Ascii.eqb "]" "[") with false in A.
    change (Ascii.eqb "]" "]") with true in A. cbv iota in A. destruct l1 as [|b1 l1]; [destruct B|].
    cbn in B. destruct B as [<- _]. cbn [tl] in A.
    destruct (one_minus_plain sp' _ l _ (spaces_plain sp' Hsp') A) as (p2 & l2 & A2 & B2 & _).
    assert (M : one_minus "]" l (skip_spaces (sp' ++ rest)) = true) by (rewrite one_minus_spaces; exact A).
    exists "]"%char. assert (S' : skip_spaces (sp' ++ rest) = rest).
    { clear - Hsp' Hrest. induction sp' as [|x sp' IH]; [exact Hrest|]. cbn [app skip_spaces]. rewrite (Hsp' x (or_introl eq_refl)).
      apply IH. intros c Hc. apply Hsp'. now right. }
    rewrite S' in M. exact M.
  - apply andb_prop in W as [W We]. apply andb_prop in W as [W1 W2].
    assert (Pq : Forall plain q).
    { apply Forall_forall. intros x Hx. apply negb_true_iff in W1. 
      assert (N : (Ascii.eqb (to_upper x) "[" || Ascii.eqb (to_upper x) "]" || is_space (to_upper x)) = false).
      { destruct (_ || _ || _) eqn:N; [|reflexivity]. rewrite <- W1. symmetry. apply existsb_exists. exists (to_upper x).
        split; [now apply in_map|exact N]. }
      split; intros ->; discriminate. }
    assert (Ps : forall x, In x q -> is_space x = false).
    { intros x Hx. apply negb_true_iff in W1. destruct (is_space x) eqn:N; [|reflexivity]. rewrite <- W1. symmetry.
      apply existsb_exists. exists (to_upper x). split; [now apply in_map|]. rewrite upper_space, N. now rewrite orb_true_r. }
    assert (Ne : q <> []) by (intros ->; discriminate).
    split; [exists (sp ++ q ++ sp'); rewrite <- !app_assoc; split; [reflexivity|destruct sp, q; try discriminate; congruence]|].
    split; [exact Hrest|]. split; [congruence|]. split.
    + intros _ p l H. rewrite app_assoc in H.
      destruct (one_minus_plain (sp ++ q) p l (sp' ++ rest)) as (p1 & l1 & A & B & D); [|exact H|].
      { apply Forall_app. split; [now apply spaces_plain|exact Pq]. }
      exists p1, l1. rewrite <- one_minus_spaces in A. assert (S' : skip_spaces (sp' ++ rest) = rest).
      { clear - Hsp' Hrest. induction sp' as [|x sp' IH]; [exact Hrest|]. cbn [app skip_spaces]. rewrite (Hsp' x (or_introl eq_refl)).
        apply IH. intros c Hc. apply Hsp'. now right. }
      rewrite S' in A. split; [exact A|]. split; [exact B|]. intros Hu.
      destruct (exists_last Ne) as (a & x & ->). assert (Hx : is_space x = false) by (apply Ps, in_or_app; right; now left).
      rewrite (D (sp ++ a) x) by (rewrite ?app_assoc; auto).
      destruct (Z.ltb_spec t UNARY_OP_START); [|lia]. cbn [negb orb] in W2. apply andb_prop in W2 as [W2 _]. apply andb_prop in W2 as [W2 _].
      rewrite map_app in W2. cbn [map] in W2. rewrite last_last in W2. unfold ends_operator in *. rewrite upper_upper in W2. exact W2.
    + intros Hu _. destruct (Z.ltb_spec t UNARY_OP_START); [|lia]. cbn [negb orb] in W2. apply andb_prop in W2 as [W2 W3].
      apply andb_prop in W2 as [_ W2]. lia.
Qed.

(** ** Evaluation *)
Section Evaluation.
Variables (c : gcfg) (N : reads_numbers c).

Definition after (line : text) (l : list bool) (rest : text) : Prop :=
  tail_of rest line /\ skip_spaces rest = rest /\ exists p' l', one_minus p' l' rest = true /\ grown l l'.
Definition after_bracket (line : text) (l : list bool) (rest : text) : Prop :=
  tail_of rest line /\ skip_spaces rest = rest /\ exists p', one_minus p' l rest = true.
Definition post {A} (R : text -> Prop) (s : gst) (r : option (A * text)) (s' : gst) : Prop :=
  quiet s s' /\ match r with Some (_, rest) => R rest | None => True end.

Lemma post_none : forall A R s s', quiet s s' -> post (A := A) R s None s'.
Proof. split; auto. Qed.
Lemma ok_fail_post : forall A R s0 s, quiet s0 s -> ok fail s (post (A := A) R s0).
Proof. intros. eapply ok_fail; eauto. intros. now apply post_none. Qed.
Lemma ok_err_fail_post : forall A R s0 s, quiet s0 s -> ok (bind err (fun _ => fail)) s (post (A := A) R s0).
Proof.
  intros A R s0 s H. apply ok_bind with (P := fun _ s' => quiet s0 s').
  - unfold ok, err, upd. eapply quiet_trans; eauto.
  - intros _ s' H'. now apply ok_fail_post.
Qed.

(** Computations that end and only count errors. *)
Lemma ok_execute_binary : forall x o y s, ok (execute_binary c x o y) s (fun _ s' => quiet s s').
Proof.
  intros. unfold execute_binary. cbv zeta. 
  repeat match goal with |- ok (if ?b then _ else _) _ _ => destruct b end;
    try (apply ok_ret; apply quiet_refl); eapply ok_fail; eauto.
Qed.
Lemma ok_execute_unary : forall x o s, ok (execute_unary c x o) s (fun _ s' => quiet s s').
Proof.
  intros. unfold execute_unary. cbv zeta.
  repeat match goal with |- ok (if ?b then _ else _) _ _ => destruct b end;
    try (apply ok_ret; apply quiet_refl); eapply ok_fail; eauto.
Qed.
Lemma ok_read_parameter : forall n s, ok (read_parameter n) s (fun _ s' => s' = s).
Proof. intros. destruct (read_param s n) as (b & E). unfold ok. rewrite E. reflexivity. Qed.

Definition prec_ok (e : fl * Z) : Prop := 2 <= precedence (snd e) <= 5.
Fixpoint strict (st : stack_t) : Prop :=
  match st with
  | (_, o) :: r => match r with (_, p) :: _ => precedence p < precedence o | [] => True end /\ strict r
  | [] => True
  end.
Definition stack_ok (st : stack_t) (b : bool) : Prop := (length st <= 5)%nat /\ Forall prec_ok st /\ (b = false -> strict st).
Lemma strict_tail : forall a b, strict (a ++ b) -> strict b.
Proof. induction a as [|[u o] a IH]; intros b H; [exact H|]. cbn [app strict] in H. apply IH, H. Qed.

Lemma strict_length : forall st, Forall prec_ok st -> strict st -> (length st <= 4)%nat.
Proof.
  intros st F S. assert (A : match st with (_, o) :: _ => Z.of_nat (length st) <= precedence o - 1 | [] => True end).
  { induction st as [|[u o] st IH]; [exact I|]. inversion F as [|? ? Fo F']; subst. cbn [strict] in S. destruct S as [S1 S2].
    specialize (IH F' S2). unfold prec_ok in Fo. cbn [snd] in Fo. destruct st as [|[u' o'] st]; cbn [length] in *; lia. }
  destruct st as [|[u o] st]; [cbn; lia|]. inversion F as [|? ? Fo _]; subst. unfold prec_ok in Fo. cbn [snd] in Fo. lia.
Qed.

Lemma ok_reduce : forall st v o s, st <> [] ->
  ok (reduce c st v o) s (fun r s' => quiet s s' /\ match r with
    | None => True
    | Some st' => exists u a rest, st' = (u, o) :: rest /\ tl st = a ++ rest /\
                    match rest with (_, p) :: _ => precedence p < precedence o | [] => True end end).
Proof.
  induction st as [|[u p] st IH]; intros v o s Hne; [congruence|]. cbn [reduce].
  apply ok_bind with (P := fun _ s' => quiet s s'); [apply ok_execute_binary|].
  intros [u'|] s' Hq; [|apply ok_ret; auto].
  destruct st as [|[u2 p2] st].
  - apply ok_ret. split; [auto|]. exists u', [], []. auto.
  - destruct (Z.leb_spec (precedence o) (precedence p2)).
    + eapply ok_weaken; [apply IH; discriminate|]. intros r s'' (Hq' & H'). split; [eapply quiet_trans; eauto|].
      destruct r as [st'|]; [|exact I]. destruct H' as (u3 & a & rest & -> & E & F). exists u3, ((u2, p2) :: a), rest.
      cbn [tl] in *. split; [reflexivity|]. split; [now rewrite E|exact F].
    + apply ok_ret. split; [auto|]. exists u', [], ((u2, p2) :: st). split; [reflexivity|]. split; [reflexivity|lia].
Qed.

Lemma scan_name_rest : forall b t, exists w, t = w ++ snd (scan_name b t) /\ Forall plain w /\
  (length (fst (scan_name b t)) <= length w)%nat.
Proof.
  induction t as [|x t (w & E & F & L)]; [exists []; cbn; auto|]. cbn [scan_name].
  destruct (is_name_char x) eqn:Hx.
  - destruct (scan_name b t) as [n r]. cbn [fst snd] in *. exists (x :: w). cbn [app length]. rewrite <- E. split; [reflexivity|]. split; [|lia].
    constructor; [split; intros ->; discriminate|exact F].
  - destruct (b && is_space x) eqn:Hs.
    + exists (x :: w). cbn [app length]. rewrite <- E. split; [reflexivity|]. split; [|lia]. constructor; [|exact F].
      apply andb_prop in Hs as [_ Hs]. split; intros ->; discriminate.
    + exists []. cbn. auto.
Qed.

Definition value_ok (f : nat) : Prop := forall line s p l, ~ In NUL line -> (3 * length line + 2 <= f)%nat ->
  one_minus p l line = true -> skip_spaces line = line ->
  ok (value c f line) s (fun r s' => post (after line l) s r s' /\
    (r = None -> forall t, line = "-"%char :: t -> digit_next t = false)).
Definition expr_ok (f : nat) : Prop := forall line st s p b l, ~ In NUL line -> (3 * length line + 3 <= f)%nat ->
  one_minus p (b :: l) line = true -> ends_operator p = true -> skip_spaces line = line -> stack_ok st b ->
  ok (expr_loop c f line st) s (post (after_bracket line l) s).
Definition name_ok (f : nat) : Prop := forall line s p l, ~ In NUL line -> (3 * length line + 3 <= f)%nat ->
  one_minus p l line = true -> ok (param_name c f line) s (post (after line l) s).
Definition unary_ok (f : nat) : Prop := forall line s p l, ~ In NUL line -> (3 * length line + 1 <= f)%nat ->
  one_minus p l line = true -> ok (unary c f line) s (post (after line l) s).

Lemma NUL_tail : forall a b, tail_of a b -> ~ In NUL b -> ~ In NUL a.
Proof. intros a b H Hn Hi. apply Hn. eapply tail_In; eauto. Qed.
Lemma NUL_skip : forall a, ~ In NUL a -> ~ In NUL (skip_spaces a).
Proof. intros a Hn Hi. apply Hn. now apply skip_spaces_In. Qed.

Lemma step_bracket : forall p l r, one_minus p l ("["%char :: r) = true -> one_minus "[" (false :: l) (skip_spaces r) = true.
Proof. intros p l r H. rewrite one_minus_spaces. exact H. Qed.
Lemma stack_empty : forall b, stack_ok [] b.
Proof. intros b. split; [cbn; lia|]. split; [constructor|]. intros _. exact I. Qed.

Lemma value_step : forall f, unary_ok f -> expr_ok f -> name_ok f -> value_ok (S f).
Proof.
  intros f HU HE HN line s p l Hn Hf Hm Hs. rewrite value_S. destruct line as [|x r].
  { apply ok_ret. split; [split; auto|]. discriminate. }
  assert (Hx : is_space x = false) by (eapply skip_spaces_head; eauto).
  set (line := x :: r) in *.
  assert (K : ok (if is_alpha (to_upper x) then unary c f line
                else if Ascii.eqb x "[" then expr_loop c f (skip_spaces r) []
                else if Ascii.eqb x "#" then
                  n <- param_name c f r ;;
                  match n with
                  | None => ret None
                  | Some (name, rest) => '(_, v) <- read_parameter name ;; ret (Some (v, rest))
                  end
                else number c line) s (fun r s' => quiet s s' /\
     match r with Some (_, rest) => tail_of rest line /\ exists p' l', one_minus p' l' rest = true /\ grown l l'
     | None => forall t, line = "-"%char :: t -> digit_next t = false end)).
  { rewrite upper_alpha. destruct (is_alpha x) eqn:Ha.
    { eapply ok_weaken; [eapply HU; eauto; lia|]. intros [[v rest]|] s' [Hq H]; (split; [exact Hq|]).
      - destruct H as (H1 & _ & H2). auto.
      - intros t E. injection E as -> ->. discriminate. }
    destruct (Ascii.eqb_spec x "[") as [->|Hb].
    { eapply ok_weaken; [eapply HE with (p := "["%char) (b := false) (l := l)|].
      - apply NUL_skip. intros H. apply Hn. now right.
      - pose proof (skip_spaces_length r). cbn [line length] in Hf. lia.
      - eapply step_bracket; eauto.
      - reflexivity.
      - apply skip_spaces_idem.
      - apply stack_empty.
      - intros [[v rest]|] s' [Hq H]; (split; [exact Hq|]).
        + destruct H as (H1 & _ & p' & H2). split; [|eauto]. eapply tail_trans; [exact H1|]. apply tail_skip. apply tail_cons.
        + intros t E. discriminate. }
    destruct (Ascii.eqb_spec x "#") as [->|Hh].
    { destruct (one_minus_char "#" p l r) as (p' & l' & A & B); [split; discriminate|exact Hm|].
      apply ok_bind with (P := post (after r l') s); [eapply HN; eauto|].
      - intros H. apply Hn. now right.
      - cbn [line length] in Hf. lia.
      - intros [[name rest]|] s' [Hq H].
        + eapply ok_bind; [apply ok_read_parameter|]. intros [? v] s'' ->. apply ok_ret. split; [exact Hq|].
          destruct H as (H1 & _ & p2 & l2 & A2 & B2). split; [eapply tail_trans; [exact H1|apply tail_cons]|]. exists p2, l2. split; [exact A2|].
          eapply grown_trans; eauto.
        + apply ok_ret. split; [exact Hq|]. intros t E. discriminate. }
    unfold number. cbv zeta. rewrite Hs. destruct (gc_number c line) as [[v rest]|] eqn:En.
    - apply ok_ret. split; [auto|]. destruct (rn_consumes c N _ _ _ En) as (w & E & Hw & Hb1 & Hb2). split; [exists w; auto|].
      rewrite E in Hm. destruct (one_minus_plain w p l rest) as (p' & l' & A & B & _); [|exact Hm|eauto].
      apply Forall_forall. intros y Hy. split; intros ->; contradiction.
    - replace (same_place line line) with true by (unfold same_place; now rewrite Nat.eqb_refl). apply ok_ret.
      split; [auto|]. intros t E. rewrite E in En. destruct t as [|y t]; [reflexivity|]. cbn.
      destruct (is_digit y) eqn:Ey; [|reflexivity]. exfalso. exact (rn_minus c N t y Ey En). }
  eapply ok_bind; [exact K|]. intros [[v rest]|] s' [Hq H].
  - destruct H as (H1 & p' & l' & A & B). rewrite same_place_false by (apply tail_length in H1; exact H1).
    apply ok_ret. split; [split; [exact Hq|]|discriminate]. split; [now apply tail_skip|]. split; [apply skip_spaces_idem|].
    exists p', l'. rewrite one_minus_spaces. auto.
  - apply ok_ret. split; [split; auto|]. intros _. exact H.
Qed.

Lemma name_step : forall f, value_ok f -> name_ok (S f).
Proof.
  intros f HV line0 s p l Hn Hf Hm. rewrite param_name_S. cbv zeta.
  rewrite <- one_minus_spaces in Hm. apply NUL_skip in Hn. pose proof (skip_spaces_length line0) as Hlen.
  assert (T0 : forall rest, after (skip_spaces line0) l rest -> after line0 l rest).
  { intros rest (A & B & D). split; [now apply skip_tail|]. auto. }
  pose proof (skip_spaces_idem line0) as Hi.
  destruct (skip_spaces line0) as [|x r] eqn:El; [apply ok_fail_post; auto|]. set (line := x :: r) in *.
  destruct (Ascii.eqb_spec x "<") as [->|Hx].
  - destruct (match r with y :: _ => _ | [] => false end); cbn [andb]; [apply ok_fail_post; auto|].
    destruct (one_minus_char "<" p l r) as (p' & l' & A & B); [split; discriminate|exact Hm|].
    destruct (scan_name_rest true r) as (w & E & F & L). destruct (scan_name true r) as [n rest]. cbn [fst snd] in *.
    eapply ok_bind; [apply ok_ret with (Q := fun a s' => a = Some (n, rest) /\ s' = s); auto|]. intros a s' (-> & ->).
    destruct (starts ">" rest) eqn:Es; [|apply ok_fail_post; auto].
    apply starts_true in Es as (rest' & ->). cbn [tl].
    destruct n as [|y n]; apply ok_ret; [split; auto|]. split; [auto|]. apply T0. 
    rewrite E in A. destruct (one_minus_plain w p' l' _ F A) as (p2 & l2 & A2 & B2 & _).
    destruct (one_minus_char ">" p2 l2 rest') as (p3 & l3 & A3 & B3); [split; discriminate|exact A2|].
    split; [|split; [apply skip_spaces_idem|]].
    + apply tail_skip. exists ("<"%char :: w ++ [">"%char]). unfold line. rewrite E. cbn [app]. rewrite <- app_assoc. split; [reflexivity|discriminate].
    + exists p3, l3. rewrite one_minus_spaces. split; [exact A3|]. eapply grown_trans; [eapply grown_trans|]; eauto.
  - rewrite andb_false_r.
    assert (K : ok (if match line with y :: _ => Ascii.eqb y "#" || is_digit y | [] => false end
                    then v <- value c f line ;; match v with None => fail
                         | Some (index, rest) => ret (Some (show_int (int_of c index), rest)) end
                    else ret (Some (scan_name false line))) s
       (fun r s' => quiet s s' /\ match r with
          | Some (n, rest) => n <> [] -> tail_of rest line /\ exists p' l', one_minus p' l' rest = true /\ grown l l'
          | None => True end)).
    { destruct (match line with y :: _ => _ | [] => false end).
      - eapply ok_bind; [eapply HV; eauto|].
        + cbn [line length] in *. lia.
        + intros [[v rest]|] s' [[Hq H] _].
          * apply ok_ret. split; [exact Hq|]. intros _. destruct H as (H1 & _ & H2). auto.
          * eapply ok_fail; eauto.
      - apply ok_ret. split; [auto|]. destruct (scan_name_rest false line) as (w & E & F & L).
        destruct (scan_name false line) as [n rest]. cbn [fst snd] in *. intros Hne.
        rewrite E in Hm. destruct (one_minus_plain w p l _ F Hm) as (p2 & l2 & A2 & B2 & _). split; [|eauto].
        exists w. split; [exact E|]. destruct w; [|discriminate]. destruct n; [congruence|cbn in L; lia]. }
    eapply ok_bind; [exact K|]. intros [[n rest]|] s' [Hq H]; [|apply ok_ret; split; auto].
    destruct n as [|y n]; apply ok_ret; [split; auto|]. split; [exact Hq|]. apply T0.
    destruct H as (H1 & p2 & l2 & A & B); [discriminate|]. split; [auto|]. split; [apply skip_spaces_idem|].
    exists p2, l2. rewrite one_minus_spaces. auto.
Qed.

Lemma unary_step : forall f, expr_ok f -> unary_ok (S f).
Proof.
  intros f HE line s p l Hn Hf Hm. rewrite unary_S.
  destruct (lex_operator line Hn) as (op & rest & E & H). rewrite E.
  eapply ok_bind; [apply ok_ret with (Q := fun a s' => a = (op, rest) /\ s' = s); auto|]. intros a s' (-> & ->).
  destruct (Z.ltb_spec UNARY_OP_START op) as [Hop|]; cbn [negb]; [|apply ok_fail_post; auto].
  assert (Hop' : 18 < op) by exact Hop.
  destruct H as (T1 & Hs1 & _ & H & _); [lia|].
  destruct (H ltac:(unfold RIGHT_BRACKET; lia) p l Hm) as (p1 & l1 & A1 & B1 & _).
  destruct (starts "[" rest) eqn:Es; cbn [negb]; [|apply ok_fail_post; auto]. apply starts_true in Es as (r1 & ->). cbn [tl].
  pose proof (tail_length _ _ T1) as L1. cbn [length] in L1. pose proof (skip_spaces_length r1) as L2.
  pose proof (NUL_tail _ _ T1 Hn) as Hn1.
  eapply ok_bind; [eapply (HE (skip_spaces r1) [] s "["%char false l1)|].
  - apply NUL_skip. intros Hi. apply Hn1. now right.
  - lia.
  - eapply step_bracket; eauto.
  - reflexivity.
  - apply skip_spaces_idem.
  - apply stack_empty.
  - intros [[v r2]|] s1 [Hq1 H2]; [|apply ok_fail_post; auto]. cbv zeta. destruct H2 as (T2 & Hs2 & p2 & A2). rewrite Hs2.
    assert (T2' : tail_of r2 line).
    { eapply tail_trans; [apply skip_tail; exact T2|]. eapply tail_trans; [apply tail_cons|exact T1]. }
    destruct (op =? ATAN).
    + destruct (starts "/" r2) eqn:Es; cbn [negb]; [|apply ok_err_fail_post; auto]. apply starts_true in Es as (r3 & ->). cbn [tl].
      destruct (starts "[" r3) eqn:Es; cbn [negb]; [|apply ok_err_fail_post; auto]. apply starts_true in Es as (r4 & ->). cbn [tl].
      destruct (one_minus_char "/" p2 l1 _ ltac:(split; discriminate) A2) as (p3 & l3 & A3 & B3).
      pose proof (tail_length _ _ T2') as L3. cbn [length] in L3. pose proof (skip_spaces_length r4) as L4.
      eapply ok_bind; [eapply (HE (skip_spaces r4) [] s1 "["%char false l3)|].
      * apply NUL_skip. intros Hi. apply (NUL_tail _ _ T2' Hn). right. now right.
      * lia.
      * eapply step_bracket; eauto.
      * reflexivity.
      * apply skip_spaces_idem.
      * apply stack_empty.
      * intros [[v2 r5]|] s2 [Hq2 H3]; [|apply ok_err_fail_post; eapply quiet_trans; eauto].
        apply ok_ret. split; [eapply quiet_trans; eauto|]. destruct H3 as (T3 & Hs3 & p4 & A4). rewrite Hs3.
        split; [|split; [exact Hs3|]].
        -- eapply tail_trans; [apply skip_tail; exact T3|]. eapply tail_trans; [|exact T2'].
           exists ["/"%char; "["%char]. split; [reflexivity|discriminate].
        -- exists p4, l3. split; [exact A4|]. eapply grown_trans; eauto.
    + eapply ok_bind; [apply ok_execute_unary|]. intros [v'|] s2 Hq2; [|apply ok_fail_post; eapply quiet_trans; eauto].
      apply ok_ret. split; [eapply quiet_trans; eauto|]. split; [exact T2'|]. split; [exact Hs2|]. eauto.
Qed.

Lemma expr_step : forall f, value_ok f -> expr_ok f -> expr_ok (S f).
Proof.
  intros f HV HE line st s p b l Hn Hf Hm Hp Hs Hst. rewrite expr_loop_S.
  destruct Hst as (Hlen & Hprec & Hstrict).
  destruct (Nat.leb_spec MAX_STACK (length st)) as [Hl|_]; [unfold MAX_STACK in Hl; lia|].
  eapply ok_bind; [eapply HV; eauto; lia|]. intros [[v r1]|] s1 [[Hq1 H1] Hd].
  - clear Hd. destruct H1 as (T1 & Hs1 & p1 & l1 & A1 & B1). pose proof (NUL_tail _ _ T1 Hn) as Hn1. pose proof (tail_length _ _ T1) as L1.
    destruct (lex_operator r1 Hn1) as (op & r2 & E & H).
    destruct l1 as [|b1 l1]; [destruct B1|]. cbn in B1. destruct B1 as [<- Hb1].
    assert (E' : operation r1 = if (NO_OPERATION <? op) && (op <? UNARY_OP_START) then ret (Some (op, r2)) else ret None)
      by (unfold operation; rewrite E; reflexivity).
    rewrite E'. destruct (Z.ltb_spec NO_OPERATION op) as [Ho1|]; cbn [andb];
      [|eapply ok_bind; [apply ok_ret with (Q := fun a s' => a = None /\ s' = s1); auto|];
        intros a s' (-> & ->); apply ok_fail_post; auto].
    destruct (Z.ltb_spec op UNARY_OP_START) as [Ho2|];
      [|eapply ok_bind; [apply ok_ret with (Q := fun a s' => a = None /\ s' = s1); auto|];
        intros a s' (-> & ->); apply ok_fail_post; auto].
    eapply ok_bind; [apply ok_ret with (Q := fun a s' => a = Some (op, r2) /\ s' = s1); auto|]. intros a s' (-> & ->).
    cbv zeta. destruct (H Ho1) as (T2 & Hs2 & HR & HN & HP). rewrite Hs2. pose proof (NUL_tail _ _ T2 Hn1) as Hn2.
    pose proof (tail_length _ _ T2) as L2.
    assert (Close : op = RIGHT_BRACKET -> after_bracket line l r2).
    { intros Hr. destruct (HR Hr _ _ _ A1) as (p' & A'). split; [eapply tail_trans; eauto|]. eauto. }
    assert (Go : forall st', op <> RIGHT_BRACKET -> (length st' <= 5)%nat -> Forall prec_ok st' -> (b1 = false -> strict st') ->
      forall s2, quiet s s2 -> ok (expr_loop c f r2 st') s2 (post (after_bracket line l) s)).
    { intros st' Hr Hl' Hf' Hst'. destruct (HN Hr _ _ A1) as (p2 & l2 & A2 & B2 & Hp2). specialize (Hp2 Ho2).
      destruct l2 as [|b2 l2]; [destruct B2|]. cbn in B2. destruct B2 as [<- Hb2].
      { intros s2 Hq2. eapply ok_weaken; [apply (HE r2 st' s2 p2 b2 l); auto; [lia|]|].
        - split; [exact Hl'|]. split; [exact Hf'|]. intros Hb. apply Hst'. destruct b1; [|reflexivity]. rewrite Hb2 in Hb; auto.
        - intros r s3 [Hq3 H3]. split; [eapply quiet_trans; eauto|]. destruct r as [[? rest]|]; [|exact I].
          destruct H3 as (T3 & H3). split; [|exact H3]. eapply tail_trans; [exact T3|]. eapply tail_trans; eauto. } }
    assert (Hst1 : b1 = false -> strict st).
    { intros Hb. apply Hstrict. destruct b; [|reflexivity]. rewrite Hb1 in Hb; auto. }
    destruct st as [|[u q] st].
    + destruct (Z.eqb_spec op RIGHT_BRACKET) as [Hr|Hr]; [apply ok_ret; split; auto|].
      apply Go; [exact Hr|cbn; lia|constructor; [|constructor]; apply HP; auto| |exact Hq1]. intros _. cbn. auto.
    + inversion Hprec as [|? ? Hq Hprec']; subst. unfold prec_ok in Hq. cbn [snd] in Hq.
      assert (Rb : precedence RIGHT_BRACKET = 1) by reflexivity.
      destruct (Z.ltb_spec (precedence q) (precedence op)) as [Hgt|Hle].
      * assert (Hr : op <> RIGHT_BRACKET) by (intros ->; lia).
        destruct (Nat.leb_spec MAX_STACK (S (length ((u, q) :: st)))) as [_|Hl]; [apply ok_fail_post; auto|].
        unfold MAX_STACK in Hl. apply Go; [exact Hr|cbn [length] in *; lia|constructor; [apply HP; auto|auto]| |exact Hq1].
        intros Hb. cbn [strict]. split; [exact Hgt|]. apply (Hst1 Hb).
      * eapply ok_bind; [apply ok_reduce; discriminate|]. intros [st'|] s2 [Hq2 H2];
          [|apply ok_ret; split; [eapply quiet_trans; eauto|exact I]].
        destruct H2 as (u' & a & rest & -> & Et & Htop). cbn [tl] in Et.
        assert (Fr : Forall prec_ok rest) by (rewrite Et in Hprec'; apply Forall_app in Hprec'; apply Hprec').
        assert (Lr : (length rest <= length st)%nat) by (rewrite Et, app_length; lia).
        destruct (Z.eq_dec op RIGHT_BRACKET) as [Hr|Hr].
        -- destruct rest as [|[u3 o3] rest].
           ++ cbn [last]. rewrite Hr. change (RIGHT_BRACKET =? RIGHT_BRACKET) with true. cbv iota. apply ok_ret.
              split; [eapply quiet_trans; eauto|]. auto.
           ++ inversion Fr as [|? ? F3 _]; subst. unfold prec_ok in F3. cbn [snd] in F3. lia.
        -- assert (Ft : Forall prec_ok ((u', op) :: rest)) by (constructor; [apply HP; auto|exact Fr]).
           assert (Hlast : prec_ok (last ((u', op) :: rest) (f0, NO_OPERATION))).
           { rewrite Forall_forall in Ft. apply Ft. destruct (@exists_last _ ((u', op) :: rest)) as (x & y & Ey); [discriminate|].
             rewrite Ey, last_last. apply in_or_app. right. now left. }
           destruct (last ((u', op) :: rest) (f0, NO_OPERATION)) as [v0 o0] eqn:El.
           unfold prec_ok in Hlast. cbn [snd] in Hlast.
           destruct (Z.eqb_spec o0 RIGHT_BRACKET) as [->|_]; [lia|].
           apply Go; [exact Hr| |exact Ft| |].
           ++ cbn [length] in *. lia.
           ++ intros Hb. specialize (Hst1 Hb). cbn [strict] in Hst1. destruct Hst1 as [_ Hst1]. rewrite Et in Hst1.
              apply strict_tail in Hst1. cbn [strict]. auto.
           ++ eapply quiet_trans; eauto.
  - destruct line as [|x r]; [apply ok_fail_post; auto|]. destruct (Ascii.eqb_spec x "-") as [->|]; [|apply ok_fail_post; auto].
    cbv zeta. destruct (starts "-" (skip_spaces r)); [apply ok_fail_post; auto|].
    specialize (Hd eq_refl r eq_refl).
    cbn [one_minus] in Hm. change (is_space "-") with false in Hm. change (Ascii.eqb "-" "[") with false in Hm.
    change (Ascii.eqb "-" "]") with false in Hm. change (Ascii.eqb "-" "-") with true in Hm. rewrite Hp, Hd in Hm.
    cbn [andb negb] in Hm. destruct b; [discriminate|].
    pose proof (strict_length st Hprec (Hstrict eq_refl)) as L4. pose proof (skip_spaces_length r) as L5. cbn [length] in Hf.
    eapply ok_weaken; [eapply (HE (skip_spaces r) _ s1 "-"%char true l)|].
    + apply NUL_skip. intros Hi. apply Hn. now right.
    + lia.
    + rewrite one_minus_spaces. exact Hm.
    + reflexivity.
    + apply skip_spaces_idem.
    + split; [cbn [length]; lia|]. split; [|discriminate]. constructor; [|exact Hprec]. unfold prec_ok. cbn [snd]. change (precedence TIMES) with 4. lia.
    + intros ro s3 [Hq3 H3]. split; [eapply quiet_trans; eauto|]. destruct ro as [[? rest]|]; [|exact I].
      destruct H3 as (T3 & H3). split; [|exact H3]. eapply tail_trans; [apply skip_tail; exact T3|apply tail_cons].
Qed.

Theorem evaluation_ok : forall f, value_ok f /\ expr_ok f /\ name_ok f /\ unary_ok f.
Proof.
  induction f as [|f (HV & HE & HN & HU)].
  - split; [|split; [|split]]; red; intros; lia.
  - split; [now apply value_step|]. split; [now apply expr_step|]. split; [now apply name_step|]. now apply unary_step.
Qed.
End Evaluation.
