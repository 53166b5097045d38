From Verif Require Import Text Lib_List Model_StringUtil Spec_Text.

Lemma code_range : forall c, 0 <= code c <= 255.
Proof.
  intros c. unfold code.
  assert (N_of_ascii c < 256)%N by apply N_ascii_bounded. lia.
Qed.

Lemma code_inj : forall a b, code a = code b -> a = b.
Proof.
  intros a b H. unfold code in H. apply N2Z.inj in H.
  rewrite <- (ascii_N_embedding a), <- (ascii_N_embedding b). now rewrite H.
Qed.

Lemma code_of_ascii_of_N : forall n, (n < 256)%N -> code (ascii_of_N n) = Z.of_N n.
Proof. intros. unfold code. now rewrite N_ascii_embedding. Qed.

Lemma is_space_white : forall c, is_space c = true <-> white c.
Proof.
  intros c. unfold is_space, white. split.
  - intros H.
    assert (Hc : code c = 32 \/ code c = 9 \/ code c = 10 \/ code c = 11 \/ code c = 12 \/ code c = 13) by lia.
    destruct Hc as [E|[E|[E|[E|[E|E]]]]];
      [left|right;left|right;right;left|right;right;right;left|right;right;right;right;left|right;right;right;right;right];
      apply code_inj; rewrite E; reflexivity.
  - intros [E|[E|[E|[E|[E|E]]]]]; subst; reflexivity.
Qed.

Lemma contains_In : forall s c, contains s c = true <-> In c s.
Proof.
  intros s c. unfold contains. rewrite existsb_exists. split.
  - intros (x & Hi & He). apply Ascii.eqb_eq in He. now subst.
  - intros H. exists c. split; auto. apply Ascii.eqb_refl.
Qed.

(** ** SplitString *)
Lemma split_loop_split : forall seps s cur,
  no_char_of seps cur -> is_split (cur ++ s) seps (split_loop seps cur s).
Proof.
  intros seps s. induction s as [|c r IH]; intros cur Hc; cbn [split_loop].
  - exists []. rewrite app_nil_r. repeat split.
    + intros ? [].
    + intros p [E|[]]; subst; auto.
  - destruct (contains seps c) eqn:Ec.
    + assert (Hn : no_char_of seps []) by (intros ? []).
      destruct (IH [] Hn) as (bt & Hl & Hg & Hb & Hp).
      exists (c :: bt). repeat split.
      * cbn [length]. lia.
      * cbn [glue]. cbn [app] in Hg. now rewrite Hg.
      * intros x [E|Hx]; [subst; now apply contains_In|auto].
      * intros p [E|Hx]; [subst; auto|auto].
    + replace (cur ++ c :: r) with ((cur ++ [c]) ++ r) by (rewrite <- app_assoc; reflexivity).
      apply IH. intros x Hx. apply in_app_or in Hx. destruct Hx as [Hx|[E|[]]]; auto.
      subst. intros Hs. apply contains_In in Hs. congruence.
Qed.

Lemma split_string_split : forall s seps, is_split s seps (split_string s seps).
Proof. intros. apply (split_loop_split seps s []). intros ? []. Qed.

Lemma nosep_head_unique : forall seps p p' c c' (r r' : text),
  no_char_of seps p -> no_char_of seps p' -> In c seps -> In c' seps ->
  p ++ c :: r = p' ++ c' :: r' -> p = p' /\ c = c' /\ r = r'.
Proof.
  intros seps p. induction p as [|x p IH]; intros p' c c' r r' Hp Hp' Hc Hc' E.
  - destruct p' as [|y p']; cbn in E; inversion E; subst; auto.
    exfalso. apply (Hp' y); cbn; auto.
  - destruct p' as [|y p']; cbn in E; inversion E; subst.
    + exfalso. apply (Hp c'); cbn; auto.
    + destruct (IH p' c c' r r') as (A & B & C); auto.
      * intros z Hz. apply Hp. now right.
      * intros z Hz. apply Hp'. now right.
      * subst; auto.
Qed.

Lemma is_split_unique : forall seps pieces pieces' s,
  is_split s seps pieces -> is_split s seps pieces' -> pieces = pieces'.
Proof.
  intros seps pieces. induction pieces as [|p ps IH]; intros pieces' s
    (bt & Hl & Hg & Hb & Hp) (bt' & Hl' & Hg' & Hb' & Hp').
  - discriminate.
  - destruct pieces' as [|p' ps']; [discriminate|].
    destruct bt as [|c bt], bt' as [|c' bt']; cbn [length] in *; cbn [glue] in *.
    + destruct ps; [|discriminate]. destruct ps'; [|discriminate]. congruence.
    + exfalso. subst p. apply (Hp s (or_introl eq_refl) c').
      * rewrite <- Hg'. apply in_or_app. right. now left.
      * apply Hb'. now left.
    + exfalso. subst p'. apply (Hp' s (or_introl eq_refl) c).
      * rewrite <- Hg. apply in_or_app. right. now left.
      * apply Hb. now left.
    + destruct (nosep_head_unique seps p p' c c' (glue ps bt) (glue ps' bt')) as (A & B & C).
      * apply Hp; now left.
      * apply Hp'; now left.
      * apply Hb; now left.
      * apply Hb'; now left.
      * congruence.
      * subst p' c'. f_equal. apply (IH ps' (glue ps bt)).
        -- exists bt. repeat split; auto; try lia.
           ++ intros x Hx. apply Hb. now right.
           ++ intros q Hq. apply Hp. now right.
        -- exists bt'. repeat split; auto; try lia.
           ++ intros x Hx. apply Hb'. now right.
           ++ intros q Hq. apply Hp'. now right.
Qed.

(** ** TrimWhitespace *)
Lemma trim_start_spec : forall s, (trim_start s <= length s)%nat /\
  all_white (firstn (trim_start s) s) /\
  (forall c t, skipn (trim_start s) s = c :: t -> ~ white c).
Proof.
  induction s as [|c r (H1 & H2 & H3)]; cbn [trim_start].
  - split; [cbn; lia|]. split; [intros ? []|]. intros. discriminate.
  - destruct (is_space c) eqn:E.
    + split; [cbn [length]; lia|]. split.
      * intros x [Ex|Hx]; [subst; now apply is_space_white|now apply H2].
      * intros x t Hs. cbn [skipn] in Hs. now apply (H3 x t).
    + split; [cbn; lia|]. split; [intros ? []|].
      intros x t Hs. cbn in Hs. inversion Hs; subst. intros Hw. apply is_space_white in Hw. congruence.
Qed.

Lemma trim_end_spec : forall s start n, (start <= n)%nat -> (n <= length s)%nat ->
  (start <= trim_end s start n)%nat /\ (trim_end s start n <= n)%nat /\
  all_white (firstn (n - trim_end s start n) (skipn (trim_end s start n) s)) /\
  (forall e, trim_end s start n = S e -> (start < e)%nat -> ~ white (nth e s NUL)).
Proof.
  intros s start n. induction n as [|n IH]; intros H1 H2; cbn [trim_end].
  - split; [lia|]. split; [lia|]. split; [intros ? []|]. intros; discriminate.
  - destruct ((start <? n)%nat && is_space (nth n s NUL)) eqn:E.
    + apply andb_true_iff in E. destruct E as [E1 E2]. apply Nat.ltb_lt in E1.
      destruct IH as (A & B & C & D); [lia|lia|].
      split; [lia|]. split; [lia|]. split; [|exact D].
      set (e := trim_end s start n) in *.
      replace (S n - e)%nat with ((n - e) + 1)%nat by lia.
      intros x Hx.
      assert (Hsplit : firstn (n - e + 1) (skipn e s) = firstn (n - e) (skipn e s) ++ [nth n s NUL]).
      { clear -B H2. assert (Hl : (n - e < length (skipn e s))%nat) by (rewrite skipn_length; lia).
        assert (Hn : nth n s NUL = nth (n - e) (skipn e s) NUL).
        { rewrite <- (firstn_skipn e s) at 1. rewrite app_nth2; rewrite firstn_length_le by lia; [reflexivity|lia]. }
        rewrite Hn. revert Hl. generalize (n - e)%nat (skipn e s). clear.
        intros k l. revert k. induction l as [|a l IH]; intros k Hl; cbn [length] in Hl; [lia|].
        destruct k; cbn; [reflexivity|]. rewrite IH by lia. reflexivity. }
      rewrite Hsplit in Hx. apply in_app_or in Hx. destruct Hx as [Hx|[Ex|[]]]; [now apply C|].
      subst. now apply is_space_white.
    + split; [lia|]. split; [lia|]. split.
      * rewrite Nat.sub_diag. intros ? [].
      * intros e He Hlt. inversion He; subst e. apply andb_false_iff in E. destruct E as [E|E].
        -- apply Nat.ltb_ge in E. lia.
        -- intros Hw. apply is_space_white in Hw. congruence.
Qed.

Lemma nth_last_app : forall (t : text) c d, nth (length t) (t ++ [c]) d = c.
Proof. intros. rewrite app_nth2; [|lia]. now rewrite Nat.sub_diag. Qed.

Lemma trim_whitespace_trimmed : forall s, is_trimmed s (trim_whitespace s).
Proof.
  intros s. unfold trim_whitespace.
  destruct (trim_start_spec s) as (S1 & S2 & S3).
  set (st := trim_start s) in *.
  destruct (trim_end_spec s st (length s) S1 (le_n _)) as (E1 & E2 & E3 & E4).
  set (en := trim_end s st (length s)) in *.
  assert (Hdec : s = firstn st s ++ firstn (en - st) (skipn st s) ++ skipn en s).
  { rewrite <- (firstn_skipn st s) at 1. f_equal.
    rewrite <- (firstn_skipn (en - st) (skipn st s)) at 1. f_equal.
    rewrite skipn_skipn. f_equal. lia. }
  assert (Hw : all_white (skipn en s)).
  { rewrite firstn_all2 in E3; auto. rewrite skipn_length. lia. }
  split; [|split].
  - exists (firstn st s), (skipn en s). repeat split; auto.
  - intros c t' Ht. destruct (skipn st s) as [|c0 r0] eqn:Es.
    + rewrite firstn_nil in Ht. discriminate.
    + destruct (en - st)%nat; [discriminate|]. cbn [firstn] in Ht. inversion Ht; subst.
      eapply S3. reflexivity.
  - intros c t' Ht.
    assert (Hl : length (firstn (en - st) (skipn st s)) = (en - st)%nat).
    { rewrite firstn_length_le; auto. rewrite skipn_length. lia. }
    assert (Hl2 : (en - st = S (length t'))%nat).
    { rewrite <- Hl, Ht, app_length. cbn. lia. }
    destruct (Nat.eq_dec (en - st) 1) as [E|E].
    + assert (t' = []) by (destruct t'; [auto|cbn in Hl2; lia]). subst t'.
      destruct (skipn st s) as [|c0 r0] eqn:Es; [rewrite firstn_nil in Ht; discriminate|].
      rewrite E in Ht. cbn in Ht. inversion Ht; subst. eapply S3; reflexivity.
    + assert (Hn : nth (en - 1) s NUL = c).
      { rewrite Hdec. rewrite app_nth2; rewrite firstn_length_le by lia; [|lia].
        rewrite Ht. rewrite app_nth1 by (rewrite app_length; cbn; lia).
        replace (en - 1 - st)%nat with (length t') by lia. apply nth_last_app. }
      rewrite <- Hn. apply E4; lia.
Qed.

Lemma all_white_cons_inv : forall c s, all_white (c :: s) -> white c /\ all_white s.
Proof. intros c s H. split; [apply H; now left|intros x Hx; apply H; now right]. Qed.

Lemma trimmed_prefix_unique : forall l l' (a b : text),
  all_white l -> all_white l' -> l ++ a = l' ++ b ->
  (forall c t, a = c :: t -> ~ white c) -> (forall c t, b = c :: t -> ~ white c) -> a = b.
Proof.
  induction l as [|x l IH]; intros l' a b Hl Hl' E Ha Hb.
  - destruct l' as [|y l']; [exact E|]. exfalso. cbn in E.
    apply (Ha y (l' ++ b)); auto. apply Hl'. now left.
  - destruct l' as [|y l'].
    + exfalso. cbn in E. apply (Hb x (l ++ a)); auto. apply Hl. now left.
    + cbn in E. inversion E; subst. apply (IH l'); auto.
      * now apply all_white_cons_inv in Hl.
      * now apply all_white_cons_inv in Hl'.
Qed.

Lemma all_white_app : forall a b, all_white (a ++ b) <-> all_white a /\ all_white b.
Proof.
  intros a b. split.
  - intros H. split; intros x Hx; apply H; apply in_or_app; auto.
  - intros [H1 H2] x Hx. apply in_app_or in Hx. destruct Hx; auto.
Qed.

Lemma all_white_rev : forall a, all_white a -> all_white (rev a).
Proof. intros a H x Hx. apply H. now apply in_rev. Qed.

Lemma is_trimmed_unique : forall s t t', is_trimmed s t -> is_trimmed s t' -> t = t'.
Proof.
  intros s t t' ((l & r & E & Hl & Hr) & Hb & He) ((l' & r' & E' & Hl' & Hr') & Hb' & He').
  (* a text of white space only trims to nothing; otherwise first and last characters decide *)
  assert (Hcase : forall t l r, s = l ++ t ++ r -> all_white l -> all_white r ->
            (forall c t0, t = c :: t0 -> ~ white c) -> t = [] -> all_white s).
  { intros t0 l0 r0 H1 H2 H3 _ H5. subst t0. rewrite H1. apply all_white_app. split; [exact H2|exact H3]. }
  destruct t as [|c t].
  - assert (Hs : all_white s) by (apply (Hcase [] l r); auto).
    destruct t' as [|c' t']; auto. exfalso. apply (Hb' c' t'); auto.
    apply Hs. rewrite E'. apply in_or_app. right. now left.
  - destruct t' as [|c' t'].
    + assert (Hs : all_white s) by (apply (Hcase [] l' r'); auto).
      exfalso. apply (Hb c t); auto. apply Hs. rewrite E. apply in_or_app. right. now left.
    + assert (H1 : (c :: t) ++ r = (c' :: t') ++ r').
      { apply (trimmed_prefix_unique l l'); auto; try congruence.
        - intros x y Hx. cbn in Hx. inversion Hx; subst. now apply (Hb x t).
        - intros x y Hx. cbn in Hx. inversion Hx; subst. now apply (Hb' x t'). }
      assert (H2 : rev (c :: t) = rev (c' :: t')).
      { apply (trimmed_prefix_unique (rev r) (rev r')); auto using all_white_rev.
        - rewrite <- !rev_app_distr. now rewrite H1.
        - intros x y Hx. apply (He x (rev y)). rewrite <- (rev_involutive (c :: t)), Hx. reflexivity.
        - intros x y Hx. apply (He' x (rev y)). rewrite <- (rev_involutive (c' :: t')), Hx. reflexivity. }
      rewrite <- (rev_involutive (c :: t)), H2. apply rev_involutive.
Qed.

(** ** Integer conversion *)
Lemma is_digit_code : forall c, is_digit c = true <-> 48 <= code c <= 57.
Proof. intros. unfold is_digit. lia. Qed.

Lemma decimal_char : forall d, 0 <= d <= 9 -> code (ascii_of_N (Z.to_N (48 + d))) = 48 + d.
Proof. intros. rewrite code_of_ascii_of_N by lia. lia. Qed.

Lemma digits_loop_app : forall s acc r, (forall c, In c s -> is_digit c = true) ->
  digits_loop acc (s ++ r) = digits_loop (fst (digits_loop acc s)) r.
Proof.
  induction s as [|c s IH]; intros acc r Hs; [reflexivity|].
  cbn [digits_loop app]. rewrite (Hs c (or_introl eq_refl)). apply IH. intros; apply Hs; now right.
Qed.

Lemma decimal_digits : forall s v, decimal s v -> forall c, In c s -> is_digit c = true.
Proof.
  induction 1 as [d Hd|s v d Hs IH Hd]; intros c Hc.
  - destruct Hc as [E|[]]. subst. apply is_digit_code. rewrite decimal_char; lia.
  - apply in_app_or in Hc. destruct Hc as [Hc|[E|[]]]; auto.
    subst. apply is_digit_code. rewrite decimal_char; lia.
Qed.

Lemma decimal_loop : forall s v, decimal s v -> digits_loop 0 s = (v, []).
Proof.
  induction 1 as [d Hd|s v d Hs IH Hd].
  - cbn [digits_loop]. replace (is_digit _) with true by (symmetry; apply is_digit_code; rewrite decimal_char; lia).
    rewrite decimal_char by lia. f_equal. lia.
  - rewrite digits_loop_app by (eapply decimal_digits; eauto). rewrite IH. cbn [fst digits_loop].
    replace (is_digit _) with true by (symmetry; apply is_digit_code; rewrite decimal_char; lia).
    rewrite decimal_char by lia. f_equal. lia.
Qed.

Lemma decimal_loop_rest : forall s v r, decimal s v -> ~ starts_with_digit r ->
  digits_loop 0 (s ++ r) = (v, r).
Proof.
  intros s v r Hs Hr. rewrite digits_loop_app by (eapply decimal_digits; eauto).
  rewrite (decimal_loop s v Hs). cbn [fst].
  destruct r as [|c r]; [reflexivity|]. cbn [digits_loop].
  destruct (is_digit c) eqn:E; auto. exfalso. apply Hr. exists c, r. split; auto. now apply is_digit_code.
Qed.

Lemma decimal_nonempty : forall s v, decimal s v ->
  exists c r, s = c :: r /\ is_digit c = true.
Proof.
  intros s v H. destruct s as [|c r].
  - exfalso. inversion H. destruct s; discriminate.
  - exists c, r. split; auto. apply (decimal_digits _ _ H). now left.
Qed.

Lemma decimal_nonneg : forall s v, decimal s v -> 0 <= v.
Proof. induction 1; lia. Qed.

Definition sign_of (neg : bool) : text := if neg then ["-"%char] else [].

Lemma digit_not_space : forall c, is_digit c = true -> is_space c = false.
Proof. intros c H. apply is_digit_code in H. unfold is_space. lia. Qed.

Lemma digit_not_sign : forall c x, is_digit c = true -> x = "+"%char \/ x = "-"%char -> Ascii.eqb c x = false.
Proof.
  intros c x H Hx. apply is_digit_code in H. destruct (Ascii.eqb c x) eqn:E; auto.
  apply Ascii.eqb_eq in E. subst. destruct Hx; subst; unfold code in H; cbn in H; lia.
Qed.

Lemma from_chars_decimal : forall bits neg s v r,
  decimal s v -> ~ starts_with_digit r ->
  from_chars_int bits (sign_of neg ++ s ++ r) =
  (let x := if neg then - v else v in
   if (- 2 ^ (bits - 1) <=? x) && (x <=? 2 ^ (bits - 1) - 1) then Some (x, r) else None).
Proof.
  intros bits neg s v r Hs Hr.
  destruct (decimal_nonempty s v Hs) as (c & t & E & Hc).
  unfold from_chars_int.
  assert (Hd : digits_loop 0 (s ++ r) = (v, r)) by now apply decimal_loop_rest.
  destruct neg; cbn [sign_of app].
  - change (Ascii.eqb "-" "-") with true. cbn iota.
    rewrite E in *. cbn [app]. rewrite Hc. cbn [app] in Hd. rewrite Hd. reflexivity.
  - rewrite E in *. cbn [app]. rewrite (digit_not_sign c "-" Hc) by auto.
    rewrite Hc. cbn [app] in Hd. rewrite Hd. reflexivity.
Qed.

Lemma skip_spaces_white : forall w s, all_white w ->
  (forall c t, s = c :: t -> ~ white c) -> skip_spaces (w ++ s) = s.
Proof.
  induction w as [|c w IH]; intros s Hw Hs; cbn [app].
  - destruct s as [|c t]; auto. cbn. destruct (is_space c) eqn:E; auto.
    exfalso. apply (Hs c t); auto. now apply is_space_white.
  - cbn [skip_spaces]. apply all_white_cons_inv in Hw. destruct Hw as [Hc Hw].
    apply is_space_white in Hc. rewrite Hc. auto.
Qed.

Lemma convert_decimal : forall bits w plus neg s v r,
  all_white w -> decimal s v -> ~ starts_with_digit r ->
  convert_strto_num bits (w ++ (if plus : bool then ["+"%char] else []) ++ sign_of neg ++ s ++ r) =
  (let x := if neg then - v else v in
   if (- 2 ^ (bits - 1) <=? x) && (x <=? 2 ^ (bits - 1) - 1) then Some (x, r) else None).
Proof.
  intros bits w plus neg s v r Hw Hs Hr.
  destruct (decimal_nonempty s v Hs) as (c & t & E & Hc).
  unfold convert_strto_num. rewrite skip_spaces_white; auto.
  - destruct plus.
    + cbn [app]. change (Ascii.eqb "+" "+") with true. cbn iota. now apply from_chars_decimal.
    + cbn [app]. pose proof (from_chars_decimal bits neg s v r Hs Hr) as Hf.
      cbv zeta in *. rewrite <- Hf. clear Hf.
      destruct neg; cbn [sign_of app].
      * change (Ascii.eqb "-" "+") with false. reflexivity.
      * rewrite E. cbn [app]. rewrite (digit_not_sign c "+" Hc) by auto. reflexivity.
  - intros x y Hx Hwx. apply is_space_white in Hwx.
    destruct plus; cbn [app] in Hx; [inversion Hx; subst; discriminate|].
    destruct neg; cbn [sign_of app] in Hx; [inversion Hx; subst; discriminate|].
    rewrite E in Hx. cbn in Hx. inversion Hx; subst. apply digit_not_space in Hc. congruence.
Qed.

(** Without a digit (after white space, '+', '-') nothing is converted. *)
Lemma from_chars_none : forall bits s neg, ~ starts_with_digit s ->
  (neg = false -> forall r, s <> "-"%char :: r) ->
  from_chars_int bits (sign_of neg ++ s) = None.
Proof.
  intros bits s neg Hs Hn. unfold from_chars_int.
  assert (Hd : forall c r, s = c :: r -> is_digit c = false).
  { intros c r E. destruct (is_digit c) eqn:Ed; auto. exfalso. apply Hs. exists c, r. split; auto. now apply is_digit_code. }
  destruct neg; cbn [sign_of app].
  - change (Ascii.eqb "-" "-") with true. cbn iota. destruct s; auto. now rewrite (Hd a s).
  - destruct s as [|c r]; auto. destruct (Ascii.eqb c "-") eqn:E.
    + apply Ascii.eqb_eq in E. subst. exfalso. now apply (Hn eq_refl r).
    + now rewrite (Hd c r).
Qed.
