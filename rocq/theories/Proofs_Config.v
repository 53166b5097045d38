From Coq Require Import SpecFloat.
From Verif Require Import Text Lib_List Model_StringUtil Spec_Text Proofs_StringUtil Model_Float Model_Axis
  Model_Hardware Model_Machine Model_Config Spec_Config.

(** ** Lines *)
Lemma next_line_result : forall s cur l rest, ~ In LF s ->
  next_line_loop cur (Some l) (s ++ LF :: rest) = (l, rest).
Proof.
  induction s as [|c s IH]; intros cur l rest H; cbn [app next_line_loop].
  - reflexivity.
  - destruct (Ascii.eqb c LF) eqn:E.
    + apply Ascii.eqb_eq in E. subst. destruct H. now left.
    + apply IH. intro. apply H. now right.
Qed.

Lemma next_line_content : forall t cur tail rest, ~ In LF (t ++ tail) -> ~ In "#"%char t -> ~ In CR t ->
  (tail = [] \/ exists c r, tail = c :: r /\ (c = "#"%char \/ c = CR)) ->
  next_line_loop cur None (t ++ tail ++ LF :: rest) = (cur ++ t, rest).
Proof.
  induction t as [|c t IH]; intros cur tail rest H Hh Hc Ht.
  - cbn [app] in *. destruct Ht as [->|(c & r & -> & Hc')].
    + cbn. now rewrite app_nil_r.
    + cbn [app next_line_loop].
      assert (Ascii.eqb c LF = false) as EL.
      { apply Ascii.eqb_neq. intros ->. destruct Hc'; discriminate. }
      rewrite EL.
      replace (Ascii.eqb c "#" || Ascii.eqb c CR || false) with true by (destruct Hc' as [-> | ->]; reflexivity).
      rewrite next_line_result by (intro; apply H; now right). now rewrite app_nil_r.
  - cbn [app next_line_loop].
    assert (Ascii.eqb c "#" = false) as E1 by (apply Ascii.eqb_neq; intros ->; apply Hh; now left).
    assert (Ascii.eqb c CR = false) as E2 by (apply Ascii.eqb_neq; intros ->; apply Hc; now left).
    assert (Ascii.eqb c LF = false) as E3 by (apply Ascii.eqb_neq; intros ->; apply H; now left).
    rewrite E1, E2, E3. cbn [orb].
    rewrite IH; [now rewrite <- app_assoc | | | |exact Ht].
    + intro. apply H. now right.
    + intro. apply Hh. now right.
    + intro. apply Hc. now right.
Qed.

Lemma next_line_of : forall l t rest, ~ In LF l -> content_of l t ->
  next_line (l ++ LF :: rest) = Some (t, rest).
Proof.
  intros l t rest H (tail & -> & H1 & H2 & H3).
  assert (next_line_loop [] None ((t ++ tail) ++ LF :: rest) = (t, rest)) as E.
  { rewrite <- app_assoc. rewrite next_line_content; auto. }
  unfold next_line. destruct ((t ++ tail) ++ LF :: rest) eqn:D; [|now rewrite E].
  destruct (t ++ tail); discriminate.
Qed.

(** An unterminated last line without comment *)
Lemma next_line_last : forall s cur, ~ In LF s -> next_line_loop cur None s = (cur ++ s, []).
Proof.
  assert (forall s cur x, ~ In LF s -> next_line_loop cur x s = (cur ++ s, [])) as G.
  { induction s as [|c s IH]; intros cur x H; cbn [next_line_loop].
    - now rewrite app_nil_r.
    - destruct (Ascii.eqb c LF) eqn:E; [apply Ascii.eqb_eq in E; subst; destruct H; now left|].
      rewrite IH by (intro; apply H; now right). now rewrite <- app_assoc. }
  intros; apply G; auto.
Qed.

Lemma cut_at_some : forall c a b, ~ In c a -> cut_at c (a ++ c :: b) = Some (a, b).
Proof.
  induction a as [|x a IH]; intros b H; cbn [app cut_at].
  - now rewrite Ascii.eqb_refl.
  - replace (Ascii.eqb x c) with false by (symmetry; apply Ascii.eqb_neq; intros ->; apply H; now left).
    rewrite IH by (intro; apply H; now right). reflexivity.
Qed.

Lemma cut_at_none : forall c a, ~ In c a -> cut_at c a = None.
Proof.
  induction a as [|x a IH]; intros H; cbn [cut_at]; auto.
  replace (Ascii.eqb x c) with false by (symmetry; apply Ascii.eqb_neq; intros ->; apply H; now left).
  rewrite IH by (intro; apply H; now right). reflexivity.
Qed.

Lemma white_not : forall c, white c -> c <> "["%char /\ c <> "]"%char /\ c <> "="%char /\ c <> "("%char /\ c <> ")"%char
  /\ c <> "*"%char /\ c <> "/"%char.
Proof.
  unfold white. intros c H.
  repeat destruct H as [-> | H]; [..| rewrite H]; repeat split; discriminate.
Qed.

Lemma trim_is : forall s t, is_trimmed s t -> trim_whitespace s = t.
Proof. intros. eapply is_trimmed_unique; [apply trim_whitespace_trimmed | assumption]. Qed.

Lemma trimmed_white : forall t, all_white t -> is_trimmed t [].
Proof.
  intros t H. split; [|split; intros; [discriminate|destruct t'; discriminate]].
  exists t, []. split; [now rewrite app_nil_r|]. split; [assumption|intros ? []].
Qed.

(** Trimming only one side *)
Lemma trimmed_frame : forall w s t w', all_white w -> all_white w' -> is_trimmed s t -> is_trimmed (w ++ s ++ w') t.
Proof.
  intros w s t w' H H' ((l & r & -> & Hl & Hr) & H1 & H2). split; [|split; assumption].
  exists (w ++ l), (r ++ w'). split; [now rewrite <- !app_assoc|]. split; apply all_white_app; auto.
Qed.

Lemma trimmed_bracket : forall b, is_trimmed ("["%char :: b ++ ["]"%char]) ("["%char :: b ++ ["]"%char]).
Proof.
  intros b. split; [|split].
  - exists [], []. cbn. rewrite app_nil_r. split; auto. split; intros ? [].
  - intros c t' E. injection E as <- _. intro W. apply white_not in W. tauto.
  - intros c t' E W. apply white_not in W.
    change ("["%char :: b ++ ["]"%char]) with (("["%char :: b) ++ ["]"%char]) in E.
    apply app_inj_tail in E. destruct E as [_ <-]. tauto.
Qed.

(** The value side of a pair: the trimmed line cut at '=' *)
Lemma trimmed_exists : forall s, exists t, is_trimmed s t.
Proof. intro s. exists (trim_whitespace s). apply trim_whitespace_trimmed. Qed.

Lemma not_white_dec : forall c, white c \/ ~ white c.
Proof.
  intro c. destruct (is_space c) eqn:E; [left; now apply is_space_white|].
  right. intro W. apply is_space_white in W. congruence.
Qed.

(** Trim at the left only *)
Lemma left_trim : forall s, exists w t, s = w ++ t /\ all_white w /\ (forall c r, t = c :: r -> ~ white c).
Proof.
  induction s as [|c s (w & t & -> & Hw & Ht)].
  - exists [], []. split; auto. split; [intros ? []|discriminate].
  - destruct (not_white_dec c) as [W|W].
    + exists (c :: w), t. split; auto. split; auto. intros x [<-|Hx]; auto.
    + exists [], (c :: w ++ t). split; auto. split; [intros ? []|]. intros ? ? E. injection E as <- _. assumption.
Qed.

Lemma right_trim : forall s, exists t w, s = t ++ w /\ all_white w /\ (forall c r, t = r ++ [c] -> ~ white c).
Proof.
  intro s. destruct (left_trim (rev s)) as (w & t & E & Hw & Ht).
  exists (rev t), (rev w). split; [rewrite <- rev_app_distr, <- E; now rewrite rev_involutive|].
  split; [now apply all_white_rev|].
  intros c r E2. apply (Ht c (rev r)). apply (f_equal (@rev ascii)) in E2.
  rewrite rev_involutive, rev_app_distr in E2. exact E2.
Qed.

Lemma left_trimmed : forall w l n, all_white w -> (forall c r, l = c :: r -> ~ white c) ->
  is_trimmed (w ++ l) n ->
  is_trimmed l n /\ ((l = [] /\ n = []) \/ exists x l' n', l = x :: l' /\ n = x :: n').
Proof.
  intros w l n Hw Hl ((a & b & E & Ha & Hb) & H1 & H2).
  destruct l as [|c l].
  - rewrite app_nil_r in E.
    assert (n = []) as ->.
    { destruct n as [|c n]; auto. exfalso. apply (H1 c n eq_refl). apply Hw. rewrite E.
      apply in_or_app. right. now left. }
    split; [|now left]. apply trimmed_white. intros ? [].
  - destruct n as [|c' n].
    + exfalso. apply (Hl c l eq_refl). cbn [app] in E.
      assert (In c (a ++ b)) as Hc by (rewrite <- E; apply in_or_app; right; now left).
      apply in_app_or in Hc. destruct Hc; auto.
    + assert (c :: l = c' :: n ++ b) as E'.
      { revert a E Ha. induction w as [|x w IH]; intros a E Ha.
        - destruct a as [|y a]; [exact E|]. exfalso. cbn in E. injection E as -> _.
          apply (Hl y l eq_refl). apply Ha. now left.
        - destruct a as [|y a].
          + exfalso. cbn in E. injection E as -> _. apply (H1 c' n eq_refl). apply Hw. now left.
          + cbn in E. injection E as -> E. apply (IH (fun z Hz => Hw z (or_intror Hz)) a E (fun z Hz => Ha z (or_intror Hz))). }
      split.
      * split; [|split; assumption]. exists [], b. split; [exact E'|]. split; [intros ? []|assumption].
      * right. injection E' as -> ->. eauto.
Qed.

Lemma trim_pair : forall name value n, is_trimmed name n ->
  exists l r, is_trimmed (name ++ "="%char :: value) (l ++ "="%char :: r) /\ is_trimmed l n /\
    is_trimmed value (trim_whitespace r) /\ (~ In "="%char name -> ~ In "="%char l) /\
    ((l = [] /\ n = []) \/ exists x l' n', l = x :: l' /\ n = x :: n').
Proof.
  intros name value n H.
  destruct (left_trim name) as (w & l & -> & Hw & Hl).
  destruct (right_trim value) as (r & w' & -> & Hw' & Hr).
  exists l, r. destruct (left_trimmed w l n Hw Hl H) as [Hn Hc].
  split; [|split; [exact Hn|split; [|split; [|exact Hc]]]].
  - split; [|split].
    + exists w, w'. split; [now rewrite <- !app_assoc|]. auto.
    + intros c t' E. destruct l as [|x l]; cbn in E; injection E as <- _.
      * intro W. apply white_not in W. tauto.
      * now apply (Hl x l).
    + intros c t' E W. destruct (exists_last (l := "="%char :: r)) as (r' & z & E2); [discriminate|].
      rewrite E2, app_assoc in E. apply app_inj_tail in E. destruct E as [_ ->].
      destruct r as [|y r].
      * destruct r' as [|? [|? ?]]; cbn in E2; try discriminate. injection E2 as <-. apply white_not in W. tauto.
      * destruct r' as [|y' r']; [discriminate|]. cbn in E2. injection E2 as _ E2.
        apply (Hr c r' E2 W).
  - pose proof (trim_whitespace_trimmed r) as T.
    pose proof (trimmed_frame [] r _ w' (fun x (F : In x []) => match F with end) Hw' T). assumption.
  - intros Hno Hin. apply Hno. apply in_or_app. now right.
Qed.

(** The trimmed form of a section line *)
Lemma trim_section : forall w name w', all_white w -> all_white w' ->
  trim_whitespace (w ++ "["%char :: name ++ "]"%char :: w') = "["%char :: name ++ ["]"%char].
Proof.
  intros w name w' H H'. apply trim_is.
  replace (w ++ "["%char :: name ++ "]"%char :: w') with (w ++ ("["%char :: name ++ ["]"%char]) ++ w')
    by (cbn; now rewrite <- app_assoc).
  apply trimmed_frame; auto. apply trimmed_bracket.
Qed.

Lemma trim_bad_section : forall w rest, all_white w ->
  (forall name w', rest = name ++ "]"%char :: w' -> ~ all_white w') ->
  exists b, trim_whitespace (w ++ "["%char :: rest) = "["%char :: b /\ last ("["%char :: b) NUL <> "]"%char.
Proof.
  intros w rest H Hbad. destruct (right_trim rest) as (b & w' & -> & Hw' & Hb).
  exists b. split.
  - apply trim_is. split; [|split].
    + exists w, w'. auto.
    + intros c t' E. injection E as <- _. intro W. apply white_not in W. tauto.
    + intros c t' E W. destruct t' as [|x t'].
      * cbn in E. injection E as <- _. apply white_not in W. tauto.
      * cbn in E. injection E as _ E. apply (Hb c t' E W).
  - destruct b as [|z b] using rev_ind; [cbn; discriminate|].
    rewrite app_comm_cons, last_last. intros ->.
    apply (Hbad b w'); [now rewrite <- app_assoc|assumption].
Qed.

(** Cases of a trimmed text of a given kind *)
Definition effect {R} (rd : reader R) (n : Z) (i : item) (st : emit_state R) : emit_state R :=
  match i with
  | Blank => st
  | Section s => let '(r, ans) := rd_section rd (em_reader st) n s in mk_emit r (em_success st) ans
  | BadSection => mk_emit (rd_error rd (em_reader st) n) false false
  | NoPair => mk_emit (rd_error rd (em_reader st) n) false (em_interested st)
  | Pair name value =>
      if em_interested st then
        let '(r, ok) := rd_pair rd (em_reader st) n name value in
        mk_emit (if ok : bool then r else rd_error rd r n) (em_success st && ok) true
      else st
  end.

(** The meaning of a line without comment *)
Lemma emit_line_means : forall R (rd : reader R) n l i st t, means l i -> content_of l t ->
  emit_line rd n t st = effect rd n i st.
Proof.
  assert (forall l t t', content_of l t -> content_of l t' -> t = t') as U.
  { intros l t t' (x & -> & H1 & H2 & H3) (y & E & G1 & G2 & G3). revert t' E G1 G2.
    assert (forall x c r, x = c :: r -> (x = [] \/ exists c r, x = c :: r /\ (c = "#"%char \/ c = CR)) -> c = "#"%char \/ c = CR) as X.
    { intros ? ? ? -> [D|(? & ? & D & ?)]; [discriminate|]. injection D as -> _. assumption. }
    induction t as [|c t IH]; intros [|c' t'] E G1 G2; cbn in E; auto.
    - exfalso. destruct (X x c' (t' ++ y) E H3) as [-> | ->]; [apply G1|apply G2]; now left.
    - exfalso. destruct (X y c (t ++ x) (eq_sym E) G3) as [-> | ->]; [apply H1|apply H2]; now left.
    - injection E as -> E. f_equal. apply IH; auto.
      + intro; apply H1; now right.
      + intro; apply H2; now right.
      + intro; apply G1; now right.
      + intro; apply G2; now right. }
  intros R rd n l i st t0 Hm Hc. destruct Hm as [l t C W | l w name w' nm C W W' Tn | l w rest C W Bad
    | l name value nm v C Ne Tn Nb Tv | l t c r C Ne T Nb];
    pose proof (U _ _ _ C Hc) as EQ; subst t0; clear U; unfold emit_line.
  - rewrite (trim_is _ _ (trimmed_white _ W)). reflexivity.
  - rewrite trim_section by assumption. rewrite Ascii.eqb_refl.
    rewrite app_comm_cons, last_last. rewrite Ascii.eqb_refl. cbn [negb].
    replace (firstn (length (("["%char :: name) ++ ["]"%char]) - 2) (name ++ ["]"%char])) with name.
    + unfold canonicalize_name. rewrite (trim_is _ _ Tn). reflexivity.
    + rewrite app_length. cbn [length]. replace (S (length name) + 1 - 2)%nat with (length name) by lia.
      rewrite firstn_app, firstn_all, Nat.sub_diag. cbn. now rewrite app_nil_r.
  - destruct (trim_bad_section w rest W Bad) as (b & -> & Hl). rewrite Ascii.eqb_refl.
    replace (Ascii.eqb (last ("["%char :: b) NUL) "]") with false by (symmetry; now apply Ascii.eqb_neq).
    reflexivity.
  - destruct (trim_pair name value nm Tn) as (a & b & T & Ta & Tb & Nin & Hd).
    rewrite (trim_is _ _ T).
    assert (forall X (f : ascii -> text -> X) (d e : X),
      match a ++ "="%char :: b with [] => d | c :: rest => if Ascii.eqb c "[" then f c rest else e end = e) as K.
    { intros. destruct Hd as [[-> ->]|(x & l' & n' & -> & ->)]; cbn [app].
      - reflexivity.
      - replace (Ascii.eqb x "[") with false; auto. symmetry. apply Ascii.eqb_neq. intros ->.
        apply (Nb n' eq_refl). }
    rewrite (K _ (fun c rest => _) _ _). clear K.
    rewrite cut_at_some by auto. unfold canonicalize_name. rewrite (trim_is _ _ Ta).
    rewrite (is_trimmed_unique _ _ _ Tb Tv). reflexivity.
  - rewrite (trim_is _ _ T).
    replace (Ascii.eqb c "[") with false by (symmetry; now apply Ascii.eqb_neq).
    rewrite cut_at_none; [reflexivity|].
    intro Hin. apply Ne. destruct T as ((x & y & -> & _) & _). apply in_or_app. right. apply in_or_app. now left.
Qed.

Lemma means_content : forall l i, means l i -> exists t, content_of l t.
Proof. intros l i H. destruct H; eauto. Qed.

Lemma content_exists : forall l, exists t, content_of l t.
Proof.
  induction l as [|c l (t & tail & -> & H1 & H2 & H3)].
  - exists [], []. cbn. repeat split; auto.
  - destruct (Ascii.eqb c "#") eqn:E1.
    { apply Ascii.eqb_eq in E1. exists [], (c :: t ++ tail). repeat split; auto. right. eauto. }
    destruct (Ascii.eqb c CR) eqn:E2.
    { apply Ascii.eqb_eq in E2. exists [], (c :: t ++ tail). repeat split; auto. right. eauto. }
    apply Ascii.eqb_neq in E1, E2. exists (c :: t), tail. split; auto. split; [|split; [|exact H3]].
    + intros [D|D]; auto.
    + intros [D|D]; auto.
Qed.

Lemma effect_deliver : forall R (rd : reader R) items n st,
  let st' := fold_left (fun s '(k, i) => effect rd k i s)
               (combine (map (fun k => n + Z.of_nat k) (seq 0 (length items))) items) st in
  (em_reader st', em_success st') =
  let (r, ok) := deliver rd n items (em_interested st) (em_reader st) in (r, em_success st && ok).
Proof.
  intros R rd. induction items as [|i items IH]; intros n st; cbn zeta.
  - cbn. now rewrite andb_true_r.
  - cbn [length seq map combine fold_left].
    replace (map (fun k => n + Z.of_nat k) (seq 1 (length items)))
      with (map (fun k => (n + 1) + Z.of_nat k) (seq 0 (length items))).
    2:{ rewrite <- seq_shift, map_map. apply map_ext. intro; lia. }
    specialize (IH (n + 1) (effect rd (n + Z.of_nat 0) i st)). cbn zeta in IH. rewrite IH. clear IH.
    replace (n + Z.of_nat 0) with n by lia.
    destruct i; cbn [effect deliver].
    + reflexivity.
    + destruct (rd_section rd (em_reader st) n name). cbn. reflexivity.
    + cbn. destruct (deliver rd (n + 1) items false (rd_error rd (em_reader st) n)). cbn. now rewrite andb_false_r.
    + destruct (em_interested st) eqn:Ei.
      * destruct (rd_pair rd (em_reader st) n name value) as [r []]; cbn.
        -- destruct (deliver rd (n + 1) items true r). now rewrite andb_true_r.
        -- destruct (deliver rd (n + 1) items true (rd_error rd r n)). cbn. now rewrite !andb_false_r.
      * rewrite Ei. reflexivity.
    + cbn. destruct (deliver rd (n + 1) items (em_interested st) (rd_error rd (em_reader st) n)). cbn. now rewrite andb_false_r.
Qed.

Lemma combine_snoc : forall (A B : Type) (a : list A) (b : list B) x y, length a = length b ->
  combine (a ++ [x]) (b ++ [y]) = combine a b ++ [(x, y)].
Proof.
  induction a as [|p a IH]; intros [|q b] x y H; cbn in *; try discriminate; auto.
  f_equal. apply IH. lia.
Qed.

Lemma lf_lines_cons : forall l ls rest, lf_lines (l :: ls) ++ rest = l ++ LF :: (lf_lines ls ++ rest).
Proof. intros. unfold lf_lines. cbn. rewrite <- !app_assoc. reflexivity. Qed.

Lemma emit_loop_lines : forall R (rd : reader R) lines items rest n fuel st,
  Forall2 means lines items -> (forall l, In l lines -> ~ In LF l) ->
  (length (lf_lines lines ++ rest) < fuel)%nat ->
  exists fuel', (length rest < fuel')%nat /\
  emit_loop rd fuel n (lf_lines lines ++ rest) st =
  emit_loop rd fuel' (n + Z.of_nat (length items)) rest
    (fold_left (fun s '(k, i) => effect rd k i s)
       (combine (map (fun k => n + 1 + Z.of_nat k) (seq 0 (length items))) items) st).
Proof.
  intros R rd lines items rest n fuel st H. revert n fuel st.
  induction H as [|l i lines items Hli H IH]; intros n fuel st HLF Hf.
  - cbn in *. exists fuel. split; auto. now rewrite Z.add_0_r.
  - destruct fuel as [|fuel]; [lia|].
    rewrite lf_lines_cons in *. cbn [emit_loop].
    destruct (means_content _ _ Hli) as (t & Hc).
    rewrite (next_line_of l t) by (auto; apply HLF; now left).
    rewrite (emit_line_means _ _ _ l i _ t Hli Hc).
    assert (length (lf_lines lines ++ rest) < fuel)%nat as Hf2.
    { rewrite app_length in Hf. cbn [length] in Hf. lia. }
    destruct (IH (n + 1) fuel (effect rd (n + 1) i st) (fun x Hx => HLF x (or_intror Hx)) Hf2) as (f' & Hf' & E).
    exists f'. split; auto. rewrite E. cbn [length seq map combine fold_left].
    replace (n + Z.of_nat (S (length items))) with (n + 1 + Z.of_nat (length items)) by lia.
    rewrite Z.add_0_r.
    replace (map (fun k => n + 1 + Z.of_nat k) (seq 1 (length items)))
      with (map (fun k => n + 1 + 1 + Z.of_nat k) (seq 0 (length items))); [reflexivity|].
    rewrite <- seq_shift, map_map. apply map_ext. intro; lia.
Qed.

Lemma emit_lines : forall R (rd : reader R) lines items last r,
  Forall2 means lines items -> (forall l, In l lines -> ~ In LF l) ->
  (last = [] /\ emit_config_values rd (lf_lines lines ++ last) r = deliver rd 1 items false r) \/
  (last <> [] /\ forall i, means last i -> content_of last last -> ~ In LF last ->
     emit_config_values rd (lf_lines lines ++ last) r = deliver rd 1 (items ++ [i]) false r).
Proof.
  intros R rd lines items last r H HLF. unfold emit_config_values.
  destruct (emit_loop_lines R rd lines items last 0 (S (length (lf_lines lines ++ last))) (mk_emit r true false) H HLF (Nat.lt_succ_diag_r _))
    as (f & Hf & ->).
  destruct last as [|c last].
  - left. split; auto. destruct f as [|f]; [cbn in Hf; lia|]. cbn [emit_loop next_line].
    pose proof (effect_deliver R rd items 1 (mk_emit r true false)) as E. cbn zeta in E.
    change (0 + 1) with 1. rewrite E. cbn. now destruct (deliver rd 1 items false r).
  - right. split; [discriminate|]. intros i Hm Hc HnLF.
    destruct f as [|[|f]]; [cbn in Hf; lia..|]. cbn [emit_loop next_line].
    rewrite next_line_last by assumption. cbn [app].
    rewrite (emit_line_means _ _ _ (c :: last) i _ (c :: last) Hm Hc). cbn [next_line].
    pose proof (effect_deliver R rd (items ++ [i]) 1 (mk_emit r true false)) as E. cbn zeta in E.
    change (0 + 1) with 1.
    assert (forall st, fold_left (fun s '(k, i) => effect rd k i s)
       (combine (map (fun k => 1 + Z.of_nat k) (seq 0 (length (items ++ [i])))) (items ++ [i])) st
       = effect rd (0 + Z.of_nat (length items) + 1) i (fold_left (fun s '(k, i) => effect rd k i s)
       (combine (map (fun k => 1 + Z.of_nat k) (seq 0 (length items))) items) st)) as K.
    { intro st. rewrite app_length. cbn [length]. rewrite Nat.add_1_r, seq_S, map_app.
      cbn [map]. rewrite combine_snoc by (now rewrite map_length, seq_length). rewrite fold_left_app. cbn.
      f_equal. lia. }
    rewrite K in E. rewrite E. cbn. now destruct (deliver rd 1 (items ++ [i]) false r).
Qed.

(** ** Every line has exactly one meaning *)
Inductive note := NSection (s : text) | NPair (n v : text) | NError.

Definition noting : reader (list note) :=
  mk_reader _ (fun r _ s => (NSection s :: r, true)) (fun r _ n v => (NPair n v :: r, true)) (fun r _ => NError :: r).

Lemma means_unique : forall l i j, means l i -> means l j -> i = j.
Proof.
  intros l i j Hi Hj. destruct (means_content _ _ Hi) as (t & Hc).
  pose proof (emit_line_means _ noting 0 l i (mk_emit [] true true) t Hi Hc) as E.
  rewrite (emit_line_means _ noting 0 l j (mk_emit [] true true) t Hj Hc) in E.
  destruct i, j; cbn in E; congruence.
Qed.

Lemma last_split : forall (b : text), last ("["%char :: b) NUL = "]"%char -> exists b', "["%char :: b = "["%char :: b' ++ ["]"%char].
Proof.
  intros b H. destruct b as [|z b] using rev_ind; [cbn in H; discriminate|].
  rewrite app_comm_cons, last_last in H. subst. eauto.
Qed.

Lemma means_total : forall l, exists i, means l i.
Proof.
  intro l. destruct (content_exists l) as (t & Hc).
  pose proof (trim_whitespace_trimmed t) as T.
  destruct (trim_whitespace t) as [|c r] eqn:E.
  - exists Blank. apply (m_blank l t Hc). destruct T as ((a & b & -> & Ha & Hb) & _).
    cbn. apply all_white_app; auto.
  - destruct (Ascii.eqb c "[") eqn:Ec.
    + apply Ascii.eqb_eq in Ec. subst c. destruct T as ((a & b & -> & Ha & Hb) & H1 & H2).
      destruct (Ascii.ascii_dec (last ("["%char :: r) NUL) "]"%char) as [D|D].
      * destruct (last_split r D) as (b' & Er). injection Er as ->.
        destruct (trimmed_exists b') as (n & Tn).
        exists (Section (lowered n)). apply (m_section l a b' b n); auto.
        replace (a ++ "["%char :: b' ++ "]"%char :: b) with (a ++ ("["%char :: b' ++ ["]"%char]) ++ b)
          by (cbn; now rewrite <- app_assoc). exact Hc.
      * exists BadSection. apply (m_bad_section l a (r ++ b)); auto.
        intros name w' Er Ww. apply D.
        (* the last non-white character of [r ++ b] is that of [r] *)
        destruct r as [|z r] using rev_ind.
        -- cbn in Er. subst b. assert (white "]"%char) as W by (apply Hb; apply in_or_app; right; now left).
           apply white_not in W. tauto.
        -- clear IHr. rewrite app_comm_cons, last_last.
           assert (~ white z) as Wz by (apply (H2 z ("["%char :: r)); reflexivity).
           (* compare the two decompositions from the right *)
           apply (f_equal (@rev ascii)) in Er. rewrite !rev_app_distr in Er. cbn in Er. rewrite <- app_assoc in Er. cbn in Er.
           assert (z = "]"%char) as ->; [|reflexivity].
           assert (all_white (rev b)) as Wb by now apply all_white_rev.
           assert (all_white (rev w')) as Ww' by now apply all_white_rev.
           assert (~ white "]"%char) as Wc by (intro W; apply white_not in W; tauto).
           revert Er Wb Ww'. generalize (rev b) (rev w') (rev r) (rev name). clear -Wz Wc.
           intros t t0 r0 n0. revert t0.
           induction t as [|x t IH]; intros [|y t'] E A B; cbn in E.
           ++ congruence.
           ++ injection E as -> E. destruct Wz. apply B. now left.
           ++ injection E as -> E. destruct Wc. apply A. now left.
           ++ injection E as -> E. apply (IH t' E). intros q Hq; apply A; now right. intros q Hq; apply B; now right.
    + apply Ascii.eqb_neq in Ec.
      destruct (in_dec Ascii.ascii_dec "="%char t) as [Hin|Hno].
      * destruct (cut_at "=" t) as [[name value]|] eqn:Cut.
        -- assert (forall s a b, cut_at "=" s = Some (a, b) -> s = a ++ "="%char :: b /\ ~ In "="%char a) as CS.
           { clear. induction s as [|x s IH]; intros a b H; cbn in H; [discriminate|].
             destruct (Ascii.eqb x "=") eqn:E.
             - injection H as <- <-. apply Ascii.eqb_eq in E. subst. split; auto.
             - destruct (cut_at "=" s) as [[a' b']|]; [|discriminate]. injection H as <- <-.
               destruct (IH a' b' eq_refl) as [-> Hn]. apply Ascii.eqb_neq in E. split; auto.
               intros [D|D]; auto. }
           destruct (CS _ _ _ Cut) as [-> Hname].
           destruct (trimmed_exists name) as (n & Tn). destruct (trimmed_exists value) as (v & Tv).
           exists (Pair (lowered n) v). apply (m_pair l name value n v); auto.
           intros r' ->. destruct (trim_pair name value _ Tn) as (x & y & T2 & _ & _ & _ & Hd).
           pose proof (is_trimmed_unique _ _ _ T T2) as E2.
           destruct Hd as [[_ D]|(z & l' & n' & -> & D)]; [discriminate|].
           injection D as <- _. cbn in E2. injection E2 as E2 _. auto.
        -- exfalso. clear -Hin Cut. revert Hin Cut. induction t as [|x t IH]; intros Hin Cut; [destruct Hin|].
           cbn in Cut. destruct (Ascii.eqb x "=") eqn:E; [discriminate|].
           destruct (cut_at "=" t) as [[? ?]|]; [discriminate|]. destruct Hin as [D|D]; [|now apply IH].
           subst. cbn in E. discriminate.
      * exists NoPair. apply (m_no_pair l t c r); auto.
Qed.

(** ** Arithmetic *)
Section Arith.
Variable strtod : text -> option (fl * text).
Hypothesis takes : takes_prefix strtod.

Lemma skip_spaces_length : forall s, (length (skip_spaces s) <= length s)%nat.
Proof. induction s as [|c s IH]; cbn; auto. destruct (is_space c); cbn; lia. Qed.

Lemma takes_shorter : forall s v r, strtod s = Some (v, r) -> (length r < length s)%nat.
Proof.
  intros s v r H. destruct (takes _ _ _ H) as (p & Hp & ->). rewrite app_length.
  destruct p; [congruence|cbn; lia].
Qed.

Lemma parse_double_eq : forall f input fallback,
  parse_double strtod (S f) input fallback =
  match strtod input with
  | None => Some (fallback, input)
  | Some (value, rest) => parse_factors strtod f value rest fallback
  end.
Proof. reflexivity. Qed.

Lemma parse_factors_eq : forall f value s fallback,
  parse_factors strtod (S f) value s fallback =
  match skip_spaces s with
  | [] => Some (value, [])
  | op :: r =>
      if negb (Ascii.eqb op "/" || Ascii.eqb op "*") then Some (value, op :: r)
      else
        match skip_spaces r with
        | p :: inner =>
            if Ascii.eqb p "(" then
              match parse_double strtod f inner (f64_of_Z 1) with
              | None => None
              | Some (operand, q :: rest) =>
                  if Ascii.eqb q ")" then parse_factors strtod f (if Ascii.eqb op "/" then f64_div value operand else f64_mul value operand) rest fallback
                  else Some (fallback, q :: rest)
              | Some (operand, []) => Some (fallback, [])
              end
            else
              match strtod (p :: inner) with
              | None => Some (fallback, p :: inner)
              | Some (operand, rest) => parse_factors strtod f (if Ascii.eqb op "/" then f64_div value operand else f64_mul value operand) rest fallback
              end
        | [] =>
            match strtod [] with
            | None => Some (fallback, [])
            | Some (operand, rest) => parse_factors strtod f (if Ascii.eqb op "/" then f64_div value operand else f64_mul value operand) rest fallback
            end
        end
  end.
Proof.
  intros. cbn [parse_factors]. destruct (skip_spaces s) as [|op r]; auto.
  destruct (negb (Ascii.eqb op "/" || Ascii.eqb op "*")); auto. cbv zeta.
  destruct (skip_spaces r); reflexivity.
Qed.

(** More fuel does not change the result. *)
Lemma parse_more : forall f,
  (forall s fb x, parse_double strtod f s fb = Some x -> forall g, (f <= g)%nat -> parse_double strtod g s fb = Some x) /\
  (forall v s fb x, parse_factors strtod f v s fb = Some x -> forall g, (f <= g)%nat -> parse_factors strtod g v s fb = Some x).
Proof.
  induction f as [|f [IH1 IH2]]; split; intros; try discriminate.
  - destruct g as [|g]; [lia|]. rewrite parse_double_eq in *. destruct (strtod s) as [[value rest]|]; auto.
    apply IH2; auto. lia.
  - destruct g as [|g]; [lia|]. rewrite parse_factors_eq in *.
    destruct (skip_spaces s) as [|op r]; auto.
    destruct (negb (Ascii.eqb op "/" || Ascii.eqb op "*")); auto.
    destruct (skip_spaces r) as [|p inner].
    + destruct (strtod []) as [[operand rest]|]; auto. apply IH2; auto; lia.
    + destruct (Ascii.eqb p "(").
      * destruct (parse_double strtod f inner (f64_of_Z 1)) as [[operand [|q rest]]|] eqn:E.
        -- rewrite (IH1 _ _ _ E) by lia. assumption.
        -- rewrite (IH1 _ _ _ E) by lia. destruct (Ascii.eqb q ")"); auto. apply IH2; auto; lia.
        -- discriminate.
      * destruct (strtod (p :: inner)) as [[operand rest]|]; auto. apply IH2; auto; lia.
Qed.

(** Enough fuel; the text left is no longer. *)
Lemma parse_enough : forall f,
  (forall s fb, (2 * length s < f)%nat -> exists v r, parse_double strtod f s fb = Some (v, r) /\ (length r <= length s)%nat) /\
  (forall v s fb, (2 * length s + 1 < f)%nat -> exists x r, parse_factors strtod f v s fb = Some (x, r) /\ (length r <= length s)%nat).
Proof.
  induction f as [|f [IH1 IH2]]; split; intros; try lia.
  - rewrite parse_double_eq. destruct (strtod s) as [[value rest]|] eqn:E; [|exists fb, s; auto].
    pose proof (takes_shorter _ _ _ E). destruct (IH2 value rest fb) as (x & r & -> & L); [lia|].
    exists x, r. split; auto. lia.
  - rewrite parse_factors_eq. pose proof (skip_spaces_length s) as L0.
    destruct (skip_spaces s) as [|op r]; [exists v, []; cbn; split; auto; lia|]. cbn [length] in L0.
    destruct (negb (Ascii.eqb op "/" || Ascii.eqb op "*")); [exists v, (op :: r); split; auto|].
    pose proof (skip_spaces_length r) as L1.
    assert (forall input, (length input <= length r)%nat -> exists x r0,
      match strtod input with
      | None => Some (fb, input)
      | Some (operand, rest) => parse_factors strtod f (if Ascii.eqb op "/" then f64_div v operand else f64_mul v operand) rest fb
      end = Some (x, r0) /\ (length r0 <= length s)%nat) as N.
    { intros input L. destruct (strtod input) as [[operand rest]|] eqn:E; [|exists fb, input; split; auto; lia].
      pose proof (takes_shorter _ _ _ E).
      destruct (IH2 (if Ascii.eqb op "/" then f64_div v operand else f64_mul v operand) rest fb) as (x & r0 & -> & ?); [lia|].
      exists x, r0. split; auto. lia. }
    destruct (skip_spaces r) as [|p inner] eqn:ES; [apply N; cbn; lia|].
    cbn [length] in L1.
    destruct (Ascii.eqb p "(").
    + destruct (IH1 inner (f64_of_Z 1)) as (x & r0 & -> & L); [lia|].
      destruct r0 as [|q rest]; [exists fb, []; split; cbn; auto; lia|]. cbn [length] in L.
      destruct (Ascii.eqb q ")").
      * destruct (IH2 (if Ascii.eqb op "/" then f64_div v x else f64_mul v x) rest fb) as (y & r1 & -> & ?); [lia|].
        exists y, r1. split; auto. lia.
      * exists fb, (q :: rest). split; auto. cbn. lia.
    + apply N. cbn. lia.
Qed.

Lemma skip_white_then : forall w c r, all_white w -> ~ white c -> skip_spaces (w ++ c :: r) = c :: r.
Proof.
  intros. apply skip_spaces_white; auto. intros ? ? E. injection E as <- _. assumption.
Qed.

Lemma factor_head : forall t v, factor strtod t v -> exists c r, t = c :: r /\ ~ white c.
Proof.
  intros t v [t' v' ((c & r & -> & W & _) & _)|]; [eauto|].
  eexists; eexists. split; [reflexivity|]. intro W. apply white_not in W. tauto.
Qed.

Scheme product_mind := Induction for product Sort Prop
  with factor_mind := Induction for factor Sort Prop.
Combined Scheme product_factor_ind from product_mind, factor_mind.

Definition step_op (c : ascii) (v x : fl) : fl := if Ascii.eqb c "/" then f64_div v x else f64_mul v x.

(** What can follow a product: a character that ends a number. *)
Lemma ends_white_app : forall w r, all_white w -> number_ends r -> number_ends (w ++ r).
Proof. intros [|c w] r H Hr; auto. right. exists c, (w ++ r). split; auto. left. apply H. now left. Qed.

Lemma ends_char : forall c r, c = "*"%char \/ c = "/"%char \/ c = ")"%char -> number_ends (c :: r).
Proof. intros. right. exists c, r. split; auto. Qed.

Lemma product_parse :
  (forall s v, product strtod s v -> forall w rest fb f x, all_white w -> number_ends rest ->
     parse_factors strtod f v rest fb = Some x -> exists g, parse_double strtod g (w ++ s ++ rest) fb = Some x) /\
  (forall t x, factor strtod t x -> forall op w1 w2 v rest fb f y,
     op = "*"%char \/ op = "/"%char -> all_white w1 -> all_white w2 -> number_ends rest ->
     parse_factors strtod f (step_op op v x) rest fb = Some y ->
     exists g, parse_factors strtod g v (w1 ++ op :: w2 ++ t ++ rest) fb = Some y).
Proof.
  apply product_factor_ind.
  - intros t v (_ & N) w rest fb f x Hw Hr H. exists (S f). rewrite parse_double_eq. rewrite N; auto.
  - intros s v w1 w2 t x Hs IHs H1 H2 Ht IHt w rest fb f y Hw Hr H.
    destruct (IHt "*"%char w1 w2 v rest fb f y) as (g & Hg); auto.
    destruct (IHs w (w1 ++ "*"%char :: w2 ++ t ++ rest) fb g y) as (g' & Hg'); auto.
    { apply ends_white_app; auto. apply ends_char; auto. }
    exists g'. rewrite <- Hg'. f_equal. f_equal. rewrite <- !app_assoc. cbn. now rewrite <- app_assoc.
  - intros s v w1 w2 t x Hs IHs H1 H2 Ht IHt w rest fb f y Hw Hr H.
    destruct (IHt "/"%char w1 w2 v rest fb f y) as (g & Hg); auto.
    destruct (IHs w (w1 ++ "/"%char :: w2 ++ t ++ rest) fb g y) as (g' & Hg'); auto.
    { apply ends_white_app; auto. apply ends_char; auto. }
    exists g'. rewrite <- Hg'. f_equal. f_equal. rewrite <- !app_assoc. cbn. now rewrite <- app_assoc.
  - intros t v ((c & r & -> & Wc & Pc) & N) op w1 w2 v0 rest fb f y Hop H1 H2 Hr H.
    exists (S f). rewrite parse_factors_eq.
    rewrite skip_white_then by (auto; intro W; apply white_not in W; destruct Hop; subst; tauto).
    replace (negb (Ascii.eqb op "/" || Ascii.eqb op "*")) with false by (destruct Hop; subst; reflexivity).
    cbn [app]. rewrite skip_white_then by auto.
    replace (Ascii.eqb c "(") with false by (symmetry; now apply Ascii.eqb_neq).
    pose proof (N [] rest (fun q (F : In q []) => match F with end) Hr) as N0. cbn [app] in N0. rewrite N0. exact H.
  - intros s v w1 w2 Hs IHs H1 H2 op w3 w4 v0 rest fb f y Hop H3 H4 Hr H.
    assert (parse_factors strtod 1 v (w2 ++ ")"%char :: rest) (f64_of_Z 1) = Some (v, ")"%char :: rest)) as E.
    { rewrite parse_factors_eq. rewrite skip_white_then; auto. intro W; apply white_not in W; tauto. }
    destruct (IHs w1 (w2 ++ ")"%char :: rest) _ _ _ H1 (ends_white_app _ _ H2 (ends_char ")"%char rest (or_intror (or_intror eq_refl)))) E) as (g & Hg).
    exists (S (max g f)). rewrite parse_factors_eq.
    rewrite skip_white_then by (auto; intro W; apply white_not in W; destruct Hop; subst; tauto).
    replace (negb (Ascii.eqb op "/" || Ascii.eqb op "*")) with false by (destruct Hop; subst; reflexivity).
    cbn [app]. rewrite skip_white_then by (auto; intro W; apply white_not in W; tauto).
    rewrite Ascii.eqb_refl.
    replace ((w1 ++ s ++ w2 ++ [")"%char]) ++ rest) with (w1 ++ s ++ w2 ++ ")"%char :: rest) by (rewrite <- !app_assoc; reflexivity).
    destruct (parse_more g) as [M1 _]. rewrite (M1 _ _ _ Hg) by lia. rewrite Ascii.eqb_refl.
    destruct (parse_more f) as [_ M2]. apply (M2 _ _ _ _ H). lia.
Qed.

(** The whole value: leading space, the product, and what follows. *)
Lemma parse_whole : forall s v w w' rest, product strtod s v -> all_white w -> all_white w' ->
  number_ends (w' ++ rest) ->
  (forall c r, rest = c :: r -> ~ white c /\ c <> "*"%char /\ c <> "/"%char) ->
  let input := w ++ s ++ w' ++ rest in
  parse_double strtod (S (S (2 * length input))) input (f64_of_Z 1) = Some (v, rest).
Proof.
  intros s v w w' rest Hp Hw Hw' Hn Hr input.
  assert (parse_factors strtod 1 v (w' ++ rest) (f64_of_Z 1) = Some (v, rest)) as E.
  { rewrite parse_factors_eq. destruct rest as [|c r].
    - rewrite skip_spaces_white; [reflexivity|assumption|discriminate].
    - destruct (Hr c r eq_refl) as (W & N1 & N2). rewrite skip_white_then by assumption.
      apply Ascii.eqb_neq in N1, N2. rewrite N1, N2. reflexivity. }
  destruct product_parse as [P _].
  destruct (P s v Hp w (w' ++ rest) _ _ _ Hw Hn E) as (g & Hg).
  destruct (parse_enough (S (S (2 * length input)))) as [En _].
  destruct (En input (f64_of_Z 1)) as (x & r & Hx & _); [lia|].
  destruct (parse_more g) as [M1 _]. pose proof (M1 _ _ _ Hg (max g (S (S (2 * length input)))) ltac:(lia)) as A.
  destruct (parse_more (S (S (2 * length input)))) as [M2 _].
  pose proof (M2 _ _ _ Hx (max g (S (S (2 * length input)))) ltac:(lia)) as B.
  rewrite Hx. fold input in A. rewrite B in A. exact A.
Qed.
End Arith.

(** ** Plain decimal numbers are numerals of the decimal reader *)
From Verif Require Import Model_Number.

Lemma number_ends_no_digit : forall r, number_ends r -> ~ starts_with_digit r /\ (forall x, r <> "."%char :: x).
Proof.
  intros r [->|(c & r' & -> & H)].
  - split; [intros (? & ? & D & _); discriminate|discriminate].
  - split.
    + intros (d & x & D & L). injection D as <- _.
      destruct H as [W|H]; [unfold white in W|];
        repeat match goal with K : _ \/ _ |- _ => destruct K end; subst; cbn in L; lia.
    + intros x D. injection D as -> _.
      destruct H as [W|H]; [unfold white in W|];
        repeat match goal with K : _ \/ _ |- _ => destruct K end; discriminate.
Qed.

Lemma digit_head : forall s v, decimal s v -> exists c r, s = c :: r /\ is_digit c = true.
Proof. intros s v H. destruct (decimal_nonempty _ _ H) as (c & r & -> & E). eauto. Qed.

Lemma digit_not_special : forall c, is_digit c = true -> ~ white c /\ c <> "("%char /\ c <> "-"%char /\ c <> "+"%char.
Proof.
  intros c H. split; [intro W; apply is_space_white in W; rewrite (digit_not_space _ H) in W; discriminate|].
  repeat split; intros ->; discriminate.
Qed.

Lemma sign_of_digit : forall c r, is_digit c = true -> sign_of (c :: r) = (false, c :: r).
Proof.
  intros c r H. destruct (digit_not_special c H) as (_ & _ & H1 & H2).
  cbn. apply Ascii.eqb_neq in H1, H2. now rewrite H1, H2.
Qed.

Lemma numeral_integer : forall s m, decimal s m ->
  numeral strtod_decimal s (decimal_value 53 1024 false (10 * m) 0).
Proof.
  intros s m H. destruct (digit_head _ _ H) as (c & r & E & D).
  destruct (digit_not_special c D) as (W & P & _).
  split; [exists c, r; auto|].
  intros w rest Hw He. destruct (number_ends_no_digit _ He) as [N1 N2].
  unfold strtod_decimal, read_decimal.
  rewrite E. cbn [app]. rewrite skip_white_then by assumption. rewrite sign_of_digit by assumption.
  change (c :: r ++ rest) with ((c :: r) ++ rest). rewrite <- E.
  unfold scan_decimal. rewrite (decimal_loop_rest _ _ _ H N1).
  replace (negb (Nat.eqb (length rest) (length (s ++ rest)))) with true.
  2:{ symmetry. apply negb_true_iff, Nat.eqb_neq. rewrite app_length, E. cbn. lia. }
  destruct rest as [|x rest]; [reflexivity|].
  destruct (Ascii.eqb x ".") eqn:Ex; [|reflexivity].
  apply Ascii.eqb_eq in Ex. subst. destruct (N2 rest eq_refl).
Qed.

Lemma digits_loop_acc : forall s acc, digits_loop acc s = (acc * 10 ^ (Z.of_nat (length s) - Z.of_nat (length (snd (digits_loop 0 s)))) + fst (digits_loop 0 s), snd (digits_loop 0 s)).
Proof.
  assert (forall s acc, (length (snd (digits_loop acc s)) <= length s)%nat) as L.
  { induction s as [|c s IH]; intro acc; cbn; auto. destruct (is_digit c); cbn; auto. }
  induction s as [|c s IH]; intro acc; cbn [digits_loop].
  - cbn. f_equal. lia.
  - destruct (is_digit c).
    + rewrite IH. rewrite (IH (10 * 0 + (code c - 48))). cbn [fst snd]. f_equal.
      set (k := Z.of_nat (length (snd (digits_loop 0 s)))).
      assert (k <= Z.of_nat (length s)) by (subst k; specialize (L s 0); lia).
      replace (Z.of_nat (length (c :: s)) - k) with (Z.succ (Z.of_nat (length s) - k)) by (cbn [length]; lia).
      rewrite Z.pow_succ_r by lia. ring.
    + cbn [fst snd]. rewrite Z.sub_diag. f_equal. lia.
Qed.

(** digits '.' digits: mantissa and number of places *)
Lemma numeral_fraction : forall s m t m', decimal s m -> decimal t m' ->
  numeral strtod_decimal (s ++ "."%char :: t)
    (decimal_value 53 1024 false (10 * (m * 10 ^ Z.of_nat (length t) + m')) (length t)).
Proof.
  intros s m t m' H H'. destruct (digit_head _ _ H) as (c & r & E & D).
  destruct (digit_not_special c D) as (W & P & _).
  split; [exists c, (r ++ "."%char :: t); rewrite E; auto|].
  intros w rest Hw He. destruct (number_ends_no_digit _ He) as [N1 N2].
  unfold strtod_decimal, read_decimal.
  replace ((s ++ "."%char :: t) ++ rest) with (s ++ "."%char :: t ++ rest) by (rewrite <- app_assoc; reflexivity).
  rewrite E at 1. cbn [app]. rewrite skip_white_then by assumption. rewrite sign_of_digit by assumption.
  change (c :: r ++ "."%char :: t ++ rest) with ((c :: r) ++ "."%char :: t ++ rest). rewrite <- E.
  unfold scan_decimal.
  rewrite (decimal_loop_rest _ _ ("."%char :: t ++ rest) H).
  2:{ intros (d & x & X & L). injection X as <- _. cbn in L. lia. }
  replace (negb (Nat.eqb (length ("."%char :: t ++ rest)) (length (s ++ "."%char :: t ++ rest)))) with true.
  2:{ symmetry. apply negb_true_iff, Nat.eqb_neq. rewrite app_length, E. cbn. lia. }
  rewrite Ascii.eqb_refl. rewrite digits_loop_acc.
  rewrite (decimal_loop_rest _ _ _ H' N1). cbn [fst snd orb].
  rewrite app_length. replace (length t + length rest - length rest)%nat with (length t) by lia.
  replace (Z.of_nat (length t + length rest) - Z.of_nat (length rest)) with (Z.of_nat (length t)) by lia.
  reflexivity.
Qed.

Lemma read_decimal_takes : takes_prefix strtod_decimal.
Proof.
  assert (forall s acc v r, digits_loop acc s = (v, r) -> exists p, s = p ++ r) as DL.
  { induction s as [|c s IH]; intros acc v r H; cbn in H.
    - injection H as <- <-. exists []. reflexivity.
    - destruct (is_digit c).
      + destruct (IH _ _ _ H) as (p & ->). exists (c :: p). reflexivity.
      + injection H as <- <-. exists []. reflexivity. }
  assert (forall s, exists p, s = p ++ skip_spaces s) as SK.
  { induction s as [|c s (p & IH)]; [exists []; reflexivity|]. cbn. destruct (is_space c).
    - exists (c :: p). cbn. now rewrite <- IH.
    - exists []. reflexivity. }
  assert (forall s b r, sign_of s = (b, r) -> exists p, s = p ++ r) as SG.
  { intros [|c s] b r H; cbn in H; [injection H as <- <-; exists []; reflexivity|].
    destruct (Ascii.eqb c "-"); [injection H as <- <-; exists [c]; reflexivity|].
    destruct (Ascii.eqb c "+"); injection H as <- <-; [exists [c]|exists []]; reflexivity. }
  intros s v rest H. unfold strtod_decimal, read_decimal in H.
  destruct (SK s) as (p0 & E0). destruct (sign_of (skip_spaces s)) as [neg r] eqn:Es.
  destruct (SG _ _ _ Es) as (p1 & E1).
  destruct (scan_decimal r) as [[[m k] ok] rest'] eqn:Ed. destruct ok; [|discriminate]. injection H as _ <-.
  assert (exists p, p <> [] /\ r = p ++ rest') as (p2 & Hp & E2).
  { unfold scan_decimal in Ed. destruct (digits_loop 0 r) as [m0 r0] eqn:E3. destruct (DL _ _ _ _ E3) as (p & ->).
    destruct r0 as [|c r0].
    - assert (forall b, negb (Nat.eqb 0 (length (p ++ []))) = b -> b = true -> p <> []) as K.
      { intros b <- Hb ->. discriminate. }
      injection Ed as _ _ Hs <-. exists p. split; auto. apply (K _ eq_refl Hs).
    - destruct (Ascii.eqb c ".").
      + destruct (digits_loop m0 r0) as [m1 r1] eqn:E4. destruct (DL _ _ _ _ E4) as (q & ->).
        destruct (negb (Nat.eqb (length (c :: q ++ r1)) (length (p ++ c :: q ++ r1))) || negb (Nat.eqb (length (q ++ r1) - length r1) 0)); [|discriminate].
        injection Ed as _ _ <-. exists (p ++ c :: q). split; [destruct p; discriminate|]. rewrite <- app_assoc. reflexivity.
      + injection Ed as _ _ Hs <-. exists p. split; auto. intros ->. cbn [app] in Hs. apply negb_true_iff, Nat.eqb_neq in Hs. auto. }
  exists (p0 ++ p1 ++ p2). split.
  - destruct p0, p1; cbn; congruence.
  - rewrite E0, E1, E2, <- !app_assoc. reflexivity.
Qed.
