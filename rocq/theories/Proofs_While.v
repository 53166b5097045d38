(** WHILE loops: reading the lines, and executing them. *)
From Coq Require Import SpecFloat.
From Verif Require Import Base Text Model_StringUtil Model_Float Model_Axis Model_Lexer Model_Gcode Spec_Text Spec_Lexer Spec_Expr Spec_Line Spec_Loop
  Proofs_StringUtil Proofs_Lexer Proofs_Expr Proofs_Value Proofs_Fuel Proofs_Total Proofs_Progress Proofs_Loop Prop_Expr Prop_Line.

(** ** Keywords *)
Lemma ci_two : forall k k' w, ci_prefix k w -> ci_prefix k' w -> (length k <= length k')%nat -> firstn (length k) (map to_upper k') = map to_upper k.
Proof.
  intros k k' w (r & p & -> & Hp) (r' & p' & E & Hp') L. rewrite <- Hp, <- Hp'.
  assert (Lp : length p = length k) by (rewrite <- (map_length to_upper p), Hp; apply map_length).
  assert (Lp' : length p' = length k') by (rewrite <- (map_length to_upper p'), Hp'; apply map_length).
  assert (F : firstn (length p) (p ++ r) = firstn (length p) (p' ++ r')) by (rewrite E; reflexivity).
  rewrite firstn_app, Nat.sub_diag, firstn_all, firstn_O, app_nil_r in F. rewrite firstn_app in F. replace (length p - length p')%nat with 0%nat in F by lia.
  rewrite firstn_O, app_nil_r in F. rewrite <- Lp, firstn_map. f_equal. symmetry. exact F.
Qed.
Lemma expect_yes : forall line e k w r, ~ In NUL line -> In (k, e) control_keywords -> e <> CK_ELSE -> skip_spaces line = w ++ r -> map to_upper w = map to_upper k ->
  expect line e = ret (true, skip_spaces r).
Proof.
  intros line e k w r Hn Hi He Hl Hw.
  destruct (match_next_longest control_keywords _ line control_built (keywords_ok control_keywords eq_refl) Hn) as (t & r' & E & w0 & Hw0 & L).
  assert (w0 = w ++ r) as -> by (rewrite <- Hl; eapply wls_unique; [exact Hw0|apply skip_spaces_spec]).
  assert (P : ci_prefix k (w ++ r)) by (exists r, w; auto).
  destruct L as [(_ & _ & L)|(k' & p & q & Hi' & Hs & Hp & L & Hr)]; [exfalso; exact (L _ _ Hi P)|].
  assert (P' : ci_prefix k' (w ++ r)) by (exists q, p; auto).
  pose proof (L _ _ Hi P) as Len. pose proof (ci_two _ _ _ P P' Len) as F.
  assert (k' = k /\ t = e) as [-> ->].
  { clear - Hi Hi' F He. cbn in Hi, Hi'.
    repeat (destruct Hi as [Hi|Hi]; [injection Hi as <- <-|]); try (now destruct Hi); repeat (destruct Hi' as [Hi'|Hi']; [injection Hi' as <- <-|]); try (now destruct Hi');
    try (split; reflexivity); exfalso; first [now apply He | vm_compute in F; discriminate F]. }
  unfold expect, expect_next. rewrite E. cbn [obind]. rewrite Z.eqb_refl. f_equal. f_equal.
  assert (length w = length p) by (rewrite <- (map_length to_upper w), <- (map_length to_upper p); congruence).
  assert (q = r) as <-.
  { clear - Hs H. revert p Hs H. induction w as [|x w IH]; intros [|y p] Hs H; try discriminate H; [symmetry; exact Hs|]. injection Hs as _ Hs. injection H as H. eauto. }
  eapply wls_unique; [exact Hr|apply skip_spaces_spec].
Qed.
Lemma expect_cases : forall line e k, ~ In NUL line -> In (k, e) control_keywords -> (forall k', In (k', e) control_keywords -> k' = k) -> e <> CK_ELSE -> 0 < e ->
  (ci_prefix k (skip_spaces line) /\ exists r, expect line e = ret (true, r)) \/ (~ ci_prefix k (skip_spaces line) /\ expect line e = ret (false, line)).
Proof.
  intros line e k Hn Hi U He Hp. destruct (expect_ok line e Hn Hp) as ([|] & rest & E & H1 & H2).
  - left. destruct (H2 eq_refl) as (_ & _ & k' & p & r & Hi' & Hl & Hu). rewrite (U _ Hi') in Hu. split; [exists r, p; auto|eauto].
  - right. rewrite E, (H1 eq_refl). split; [|reflexivity]. intros (r & w & Hl & Hu). rewrite (expect_yes _ _ _ _ _ Hn Hi He Hl Hu) in E.
    apply (f_equal (fun m : G (bool * text) => match m ex_state with Done (b, _) _ => b | _ => false end)) in E. discriminate E.
Qed.

(** ** Lines one after the other *)
Section While.
Variable c : gcfg.

Lemma more_lines : forall f f' lines, (f <= f')%nat -> more (each (parse_block c f) lines) (each (parse_block c f') lines).
Proof. intros f f' lines L. apply more_each. intros t. apply more_parse_block. exact L. Qed.
Lemma runs_det : forall lines s a b, runs c lines s a -> runs c lines s b -> a = b.
Proof.
  intros lines s a b (f & Ea) (g & Eb). apply (more_done _ _ _ _ _ _ (more_lines f (max f g) lines ltac:(lia))) in Ea.
  apply (more_done _ _ _ _ _ _ (more_lines g (max f g) lines ltac:(lia))) in Eb. congruence.
Qed.
Lemma runs_one : forall l s s', runs c [l] s s' <-> exists f, parse_block c f l s = Done tt s'.
Proof.
  intros l s s'. split; intros (f & E); exists f; cbn [each] in *; unfold bind, ret in *; destruct (parse_block c f l s) as [[] s1| |]; congruence.
Qed.
Lemma runs_nil : forall s s', runs c [] s s' <-> s' = s.
Proof. intros s s'. split; [intros (f & E); injection E as ->; reflexivity|intros ->; exists 0%nat; reflexivity]. Qed.
Lemma runs_app : forall a b s s', runs c (a ++ b) s s' <-> exists s1, runs c a s s1 /\ runs c b s1 s'.
Proof.
  assert (A : forall f a b s, each (parse_block c f) (a ++ b) s = bind (each (parse_block c f) a) (fun _ => each (parse_block c f) b) s).
  { intros f a b. induction a as [|x a IH]; intros s; [reflexivity|]. cbn [app each]. unfold bind in *. destruct (parse_block c f x s) as [[] s1| |]; [apply IH|reflexivity..]. }
  intros a b s s'. split.
  - intros (f & E). rewrite A in E. unfold bind in E. destruct (each (parse_block c f) a s) as [[] s1| |] eqn:E1; [|discriminate..]. exists s1. split; exists f; assumption.
  - intros (s1 & (f & Ea) & (g & Eb)). apply (more_done _ _ _ _ _ _ (more_lines f (max f g) a ltac:(lia))) in Ea.
    apply (more_done _ _ _ _ _ _ (more_lines g (max f g) b ltac:(lia))) in Eb. exists (max f g). rewrite A. unfold bind. rewrite Ea. exact Eb.
Qed.
Lemma runs_cons : forall l ls s s', runs c (l :: ls) s s' <-> exists s1, runs c [l] s s1 /\ runs c ls s1 s'.
Proof. intros. apply (runs_app [l]). Qed.
Lemma runs_known : forall a b s s1 s', runs c a s s1 -> (runs c (a ++ b) s s' <-> runs c b s1 s').
Proof. intros a b s s1 s' R. rewrite runs_app. split; [intros (s2 & R2 & R3); rewrite (runs_det _ _ _ _ R R2); exact R3|eauto]. Qed.

(** ** A line without words *)
Lemma no_word : forall f line s s1, parse_pair c (S f) (parse_block c (S f)) line s = Done None s1 -> parse_block c (S (S f)) line s = Done tt (all_done 1 s1).
Proof.
  intros f line s s1 E. change (parse_block c (S (S f)) line) with (block_loop c (S f) (parse_pair c (S f) (parse_block c (S f))) (Some line) ;;; tell c EBlockDone).
  unfold bind at 1. cbn [block_loop]. unfold bind at 1. rewrite E. reflexivity.
Qed.
Lemma same_nil : forall x (r : text), same_place (x :: r) [] = false. Proof. reflexivity. Qed.

Lemma while_line : forall line cond s, ~ In NUL line -> opens_loop line cond -> g_do_while s = false -> g_iterating s = false ->
  runs c [line] s (all_done 1 (with_while s true (skip_spaces cond) [])).
Proof.
  intros line cond s Hn (w & r & El & Hw & Hr) Hd Hi. apply runs_one. exists 3%nat. apply no_word. cbn [parse_pair]. cbv zeta.
  assert (Hn' : ~ In NUL (w ++ r)) by (rewrite <- El; intros H; apply Hn, skip_spaces_In, H).
  rewrite El. destruct w as [|x w]; [discriminate Hw|]. cbn [app] in *. rewrite same_nil.
  assert (Hx : to_upper x = "W"%char) by (cbn [map] in Hw; injection Hw as Hx _; exact Hx).
  assert (Hx' : x = "W"%char \/ x = "w"%char) by (clear - Hx; destruct x as [[] [] [] [] [] [] [] []]; vm_compute in Hx; try discriminate Hx; auto).
  assert (St : starts ";" (x :: w ++ r) = false /\ starts "%" (x :: w ++ r) = false /\ starts "(" (x :: w ++ r) = false) by (destruct Hx' as [-> | ->]; repeat split).
  destruct St as (-> & -> & St). cbn [orb].
  match goal with |- bind (get ?g) ?F s = _ => change (F (g s) s = Done None (with_while s true (skip_spaces cond) [])) end. cbv beta. rewrite Hd. cbv iota.
  rewrite St. unfold bind at 1, ret at 1. rewrite same_nil.
  assert (Es : skip_spaces (x :: w ++ r) = x :: w ++ r) by (rewrite <- El; apply skip_spaces_idem).
  destruct (expect_cases (x :: w ++ r) CK_IF (txt "if") Hn' ltac:(left; reflexivity)) as [((r' & p & E & Hp) & _)|(_ & ->)]; [| discriminate | reflexivity | | ].
  { intros k' H. cbn in H. repeat (destruct H as [H|H]; [first [discriminate | injection H as <-; reflexivity]|]). destruct H. }
  { exfalso. rewrite Es in E. destruct p as [|y p]; [discriminate Hp|]. injection E as <- _. cbn [map] in Hp. injection Hp as Hp _. rewrite Hx in Hp. discriminate Hp. }
  unfold bind at 1, ret at 1.
  rewrite (expect_yes (x :: w ++ r) CK_WHILE (txt "while") (x :: w) r Hn' ltac:(cbn; tauto) ltac:(discriminate) Es Hw).
  unfold bind at 1, ret at 1. rewrite skip_spaces_idem, Hr. unfold while_start. cbn [starts tl]. change (Ascii.eqb "[" "[") with true. cbn [negb]. unfold bind, get, upd, ret. rewrite Hi. reflexivity.
Qed.

Lemma end_unique : forall k', In (k', CK_END) control_keywords -> k' = txt "end".
Proof. intros k' H. cbn in H. repeat (destruct H as [H|H]; [first [discriminate | injection H as <-; reflexivity]|]). destruct H. Qed.
Lemma do_unique : forall k', In (k', CK_DO) control_keywords -> k' = txt "do".
Proof. intros k' H. cbn in H. repeat (destruct H as [H|H]; [first [discriminate | injection H as <-; reflexivity]|]). destruct H. Qed.
Lemma ci_same : forall k k' w, map to_upper k = map to_upper k' -> ci_prefix k w <-> ci_prefix k' w.
Proof. intros k k' w E. split; intros (r & p & Ew & Hp); exists r, p; (split; [exact Ew|congruence]). Qed.

Lemma skip_more : forall b x r, skip_spaces b = x :: r -> skip_spaces (b ++ [LF]) = (x :: r) ++ [LF].
Proof.
  induction b as [|y b IH]; intros x r E; [discriminate E|]. cbn [skip_spaces app] in *. destruct (is_space y); [apply IH, E|]. injection E as -> ->. reflexivity.
Qed.
Lemma skip_none : forall b, skip_spaces b = [] -> skip_spaces (b ++ [LF]) = [].
Proof. induction b as [|y b IH]; intros E; [reflexivity|]. cbn [skip_spaces app] in *. destruct (is_space y); [apply IH, E|discriminate E]. Qed.

Lemma ci_line : forall k t, ~ In LF (map to_upper k) -> ci_prefix k (t ++ [LF]) -> ci_prefix k t.
Proof.
  intros k t H (q & p & E & Hp). apply app_eq_app in E as (l & [[-> E]|[-> E]]); [exists l, p; auto|].
  destruct l as [|y l]; [exists [], t; rewrite app_nil_r in *; auto|]. injection E as <- _. exfalso. apply H. rewrite <- Hp, map_app. apply in_or_app. right. left. reflexivity.
Qed.
Lemma body_line : forall b s, one_line b -> ~ closes_loop b -> g_do_while s = true ->
  runs c [b ++ [LF]] s (all_done 1 (with_while s true (g_cond s) (g_loop s ++ concat (map (fun l => l ++ [LF]) (kept b))))).
Proof.
  intros b s (Hn & _) Hc Hd. apply runs_one. exists 3%nat. apply no_word. cbn [parse_pair]. cbv zeta. unfold kept. unfold closes_loop in Hc.
  assert (Same : with_while s true (g_cond s) (g_loop s ++ []) = s) by (rewrite app_nil_r; destruct s; cbn in *; subst; reflexivity).
  destruct (skip_spaces b) as [|x r] eqn:E.
  { rewrite (skip_none _ E). cbn. rewrite Same. reflexivity. }
  rewrite (skip_more _ _ _ E). rewrite <- app_comm_cons. rewrite same_nil. cbn [starts orb].
  destruct (Ascii.eqb x ";" || Ascii.eqb x "%") eqn:Ec; [cbn [map concat]; rewrite Same; reflexivity|].
  match goal with |- bind (get ?g) ?F s = ?R => change (F (g s) s = R) end. cbv beta. rewrite Hd. cbv iota.
  unfold while_do. assert (Hs : is_space x = false) by (eapply skip_spaces_head; exact E).
  assert (Hn' : ~ In NUL (x :: r ++ [LF])).
  { intros H. rewrite app_comm_cons in H. apply in_app_or in H as [H|H]; [|destruct H as [H|[]]; discriminate H]. rewrite <- E in H. apply Hn, skip_spaces_In, H. }
  destruct (expect_cases (x :: r ++ [LF]) CK_END (txt "end") Hn' ltac:(cbn; tauto) end_unique ltac:(discriminate) ltac:(reflexivity)) as [(P & _)|(_ & ->)].
  - exfalso. rewrite skip_spaces_keep in P by exact Hs. rewrite app_comm_cons in P. apply Hc. apply (ci_same (txt "end") (txt "END") _ eq_refl). apply ci_line; [|exact P]. intros H. vm_compute in H. repeat (destruct H as [H|H]; [discriminate H|]). exact H.
  - unfold bind, ret, upd. rewrite Hd. cbn [map concat]. rewrite app_nil_r. reflexivity.
Qed.

Lemma end_line : forall e s s', ~ In NUL e -> closes_loop e -> g_do_while s = true ->
  runs c [e] s s' <-> exists f s1, while_end c f (parse_block c f) (with_while s false (g_cond s) (g_loop s)) = Done tt s1 /\ s' = all_done 1 s1.
Proof.
  intros e s s' Hn Hc Hd. rewrite runs_one.
  assert (Hn' : ~ In NUL (skip_spaces e)) by (intros H; apply Hn, skip_spaces_In, H).
  assert (P : forall f pb, parse_pair c (S f) pb e s = (while_end c f pb ;;; ret None) (with_while s false (g_cond s) (g_loop s))).
  { intros f pb. cbn [parse_pair]. cbv zeta. unfold closes_loop in Hc. destruct (skip_spaces e) as [|x r] eqn:E; [exfalso; destruct Hc as (q & [|y p] & Eq & Hq); [discriminate Hq|discriminate Eq]|].
    assert (Ec : Ascii.eqb x ";" || Ascii.eqb x "%" = false).
    { destruct Hc as (q & [|y p] & Eq & Hq); [discriminate Hq|]. injection Eq as <- _. apply (f_equal (hd NUL)) in Hq. change (to_upper x = "E"%char) in Hq. clear - Hq. destruct x as [[] [] [] [] [] [] [] []]; vm_compute in Hq |- *; congruence. }
    rewrite same_nil. cbn [starts orb]. rewrite Ec.
    match goal with |- bind (get ?g) ?F s = ?R => change (F (g s) s = R) end. cbv beta. rewrite Hd. cbv iota. unfold while_do.
    assert (Es : skip_spaces (x :: r) = x :: r) by (rewrite <- E; apply skip_spaces_idem).
    destruct (expect_cases (x :: r) CK_END (txt "end") Hn' ltac:(cbn; tauto) end_unique ltac:(discriminate) ltac:(reflexivity)) as [(_ & q & ->)|(Q & _)].
    - unfold bind, ret, upd. reflexivity.
    - exfalso. apply Q. rewrite Es. apply (ci_same (txt "end") (txt "END") _ eq_refl), Hc. }
  split.
  - intros ([|[|f]] & E); [discriminate..|].
    change (parse_block c (S (S f)) e) with (block_loop c (S f) (parse_pair c (S f) (parse_block c (S f))) (Some e) ;;; tell c EBlockDone) in E.
    unfold bind at 1 in E. cbn [block_loop] in E. unfold bind at 1 in E. rewrite P in E. unfold bind at 1 in E.
    destruct (while_end c f (parse_block c (S f)) (with_while s false (g_cond s) (g_loop s))) as [[] s1| |] eqn:W; [|discriminate..].
    exists (S f), s1. split; [|injection E as <-; reflexivity].
    eapply more_done; [|exact W]. apply more_while_end; [lia|]. intros t. apply more_refl.
  - intros (f & s1 & W & ->). exists (S (S f)). apply no_word. rewrite P. unfold bind.
    rewrite (more_done _ (while_end c f (parse_block c f)) (while_end c f (parse_block c (S f))) _ _ _ ltac:(apply more_while_end; [lia|intros t; apply more_parse_block; lia]) W). reflexivity.
Qed.

Lemma collected : forall body s, (forall b, In b body -> one_line b /\ ~ closes_loop b) -> g_do_while s = true ->
  runs c (map (fun b => b ++ [LF]) body) s
    (all_done (length body) (with_while s true (g_cond s) (g_loop s ++ concat (map (fun l => l ++ [LF]) (flat_map kept body))))).
Proof.
  induction body as [|b body IH]; intros s H Hd.
  - cbn. apply runs_nil. destruct s. cbn in *. rewrite app_nil_r. subst. reflexivity.
  - cbn [map]. apply runs_cons. eexists. split.
    { apply body_line; [apply H; left; reflexivity|apply H; left; reflexivity|exact Hd]. }
    set (s1 := all_done 1 _). pose proof (IH s1 (fun x h => H x (or_intror h)) eq_refl) as R.
    match type of R with runs _ _ _ ?a => match goal with |- runs _ _ _ ?b => replace b with a; [exact R|] end end.
    subst s1. destruct s. unfold all_done, with_while, with_events. cbn -[repeat map concat flat_map].
    cbn [length flat_map]. rewrite map_app, concat_app, app_assoc. f_equal.
    + rewrite <- repeat_app, Nat.add_1_r. reflexivity.
    + rewrite app_assoc. reflexivity.
Qed.
End While.

Lemma split_lines : forall ls, (forall l, In l ls -> ~ In LF l) -> split_string (concat (map (fun l => l ++ [LF]) ls)) [LF] = ls ++ [[]].
Proof.
  unfold split_string. assert (A : forall l cur r, ~ In LF l -> split_loop [LF] cur (l ++ LF :: r) = (cur ++ l) :: split_loop [LF] [] r).
  { induction l as [|x l IH]; intros cur r H; [rewrite app_nil_r; reflexivity|]. cbn [app split_loop contains existsb].
    destruct (Ascii.eqb_spec x LF) as [->|_]; [exfalso; apply H; now left|]. cbn [orb]. rewrite IH by (intros h; apply H; now right). rewrite <- app_assoc. reflexivity. }
  induction ls as [|l ls IH]; intros H; [reflexivity|]. cbn [map concat]. rewrite <- app_assoc. cbn [app]. rewrite A by (apply H; now left). cbn [app]. f_equal. apply IH. intros x h. apply H. now right.
Qed.

(** ** Executing a loop *)
Lemma like_flip : forall i j cond loop s t, like i j cond loop s t -> like j i (g_cond s) (g_loop s) t s.
Proof.
  intros i j cond loop s t (ev & -> & E & I & W). exists (g_events s). destruct s. cbn in *. subst. repeat split; auto.
Qed.
Lemma like_alike : forall cond loop s t, like false false cond loop s t -> alike s t.
Proof. intros cond loop s t (ev & -> & E & I & W). split; [exact E|]. destruct s. cbn in *. subst. reflexivity. Qed.
Lemma like_in : forall cond loop s t, like false false cond loop s t -> like false true cond loop s (with_iterating t true).
Proof. intros cond loop s t (ev & -> & E & I & W). exists ev. repeat split; auto. Qed.
Lemma like_off : forall cond loop s t, like false true cond loop s t -> like false false cond loop s (with_iterating t false).
Proof. intros cond loop s t (ev & -> & E & I & W). exists ev. repeat split; auto. Qed.
Lemma like_err : forall i j cond loop s t, like i j cond loop s t -> like i j cond loop (one_more_error s) (one_more_error t).
Proof. intros i j cond loop s t (ev & -> & E & I & W). exists ev. repeat split; auto. Qed.
Lemma like_cond : forall i j cond loop s t, like i j cond loop s t -> g_cond t = cond /\ g_loop t = loop.
Proof. intros i j cond loop s t (ev & -> & _). auto. Qed.

Section Execution.
Variable c : gcfg.
Hypothesis N : reads_numbers c.
Hypothesis IO : ignores_owner c.
Variables cond loop : text.
Hypothesis Hn : ~ In NUL cond.
Let lines := split_string loop [LF].

Lemma rest_string : forall f s v rest s', expression c f cond s = Done (Some (v, rest)) s' -> ~ In NUL rest.
Proof.
  intros f s v rest s' E H. destruct (reads_evaluation c N f) as (_ & R & _). assert (Hn' : ~ In NUL (skip_spaces cond)) by (intros h; apply Hn, skip_spaces_In, h). pose proof (R (skip_spaces cond) [] Hn') as Y. unfold reads in Y. specialize (Y s). unfold yields in Y.
  unfold expression in E. rewrite E in Y. destruct Y as (w & Ew & _). apply Hn'. rewrite Ew. apply in_or_app. right. exact H.
Qed.
Lemma do_cases : forall rest, ~ In NUL rest -> (then_do rest /\ exists r, expect (skip_spaces rest) CK_DO = ret (true, r)) \/ (~ then_do rest /\ exists r, expect (skip_spaces rest) CK_DO = ret (false, r)).
Proof.
  intros rest H. assert (H' : ~ In NUL (skip_spaces rest)) by (intros h; apply H, skip_spaces_In, h).
  destruct (expect_cases (skip_spaces rest) CK_DO (txt "do") H' ltac:(cbn; tauto) do_unique ltac:(discriminate) ltac:(reflexivity)) as [(P & Q)|(P & Q)]; rewrite skip_spaces_idem in P; [left|right].
  - split; [|exact Q]. apply (ci_same (txt "do") (txt "DO") _ eq_refl), P.
  - split; [|eauto]. intros D. apply P. apply (ci_same (txt "do") (txt "DO") _ eq_refl), D.
Qed.

Lemma loop_unrolled : forall f g s t t', like false false cond loop s t -> while_end c f (parse_block c g) t = Done tt t' ->
  exists n s', unrolled c cond lines n s s' /\ like false false cond loop s' t'.
Proof.
  induction f as [|f IH]; intros g s t t' L E; [discriminate E|]. cbn [while_end] in E.
  match type of E with bind (get ?g0) ?F t = _ => change (F (g0 t) t = Done tt t') in E end. cbv beta in E.
  destruct (like_cond _ _ _ _ _ _ L) as (Lc & Ll). rewrite Lc in E. unfold bind at 1 in E.
  destruct (expression c f cond t) as [r t1| |] eqn:Ee; [|discriminate..].
  destruct (sim_expression c false false cond loop f cond s t L _ _ Ee) as (s1 & Es & L1).
  destruct r as [(v, rest)|].
  2:{ injection E as <-. exists 0%nat, (one_more_error s1). split; [apply un_no_value; exists f; exact Es|]. apply like_err, L1. }
  pose proof (rest_string _ _ _ _ _ Es) as Hr.
  destruct (SFeqb v f0) eqn:Ev.
  { injection E as <-. exists 0%nat, s1. split; [eapply un_end; [exists f; exact Es|exact Ev]|exact L1]. }
  destruct (do_cases rest Hr) as [(D & q & Ed)|(D & q & Ed)]; rewrite Ed in E; unfold bind at 1, ret at 1 in E.
  2:{ injection E as <-. exists 0%nat, (one_more_error s1). split; [eapply un_no_do; [exists f; exact Es|exact Ev|exact D]|]. apply like_err, L1. }
  match type of E with bind (get ?g0) ?F t1 = _ => change (F (g0 t1) t1 = Done tt t') in E end. cbv beta in E.
  destruct (like_cond _ _ _ _ _ _ L1) as (_ & Ll1). rewrite Ll1 in E. unfold bind at 1, upd at 1 in E. unfold bind at 1 in E.
  destruct (each (parse_block c g) (split_string loop [LF]) (with_iterating t1 true)) as [[] t2| |] eqn:Eb; [|discriminate..].
  destruct (sim_each c IO false true cond loop eq_refl g _ s1 _ (like_in _ _ _ _ L1) _ _ Eb) as (s2 & Eb' & L2).
  unfold bind at 1, upd at 1 in E. destruct (IH g s2 _ _ (like_off _ _ _ _ L2) E) as (n & s' & U & L').
  exists (S n), s'. split; [|exact L']. eapply un_again; [exists f; exact Es|exact Ev|exact D|exists g; exact Eb'|exact U].
Qed.

(** The lines of the loop end wherever they are executed. *)
Lemma lines_end : forall ls s, (forall l, In l ls -> harmless l /\ no_while l) -> g_do_while s = false -> exists f s', each (parse_block c f) ls s = Done tt s'.
Proof.
  intros ls s H D. assert (exists s', runs c ls s s') as (s' & f & E); [|eauto]. revert s D. induction ls as [|l ls IH]; intros s D; [exists s; now apply runs_nil|].
  destruct (H l (or_introl eq_refl)) as (Hl & Hw). destruct (C14_line_ends c l s N Hl Hw D) as (_ & s1 & D1 & E).
  destruct (IH (fun x h => H x (or_intror h)) s1 D1) as (s' & R). exists s'. apply runs_cons. exists s1. split; [|exact R]. apply runs_one. eexists. apply E. apply le_n.
Qed.
Lemma unrolled_loop : forall n s s', unrolled c cond lines n s s' -> (forall l, In l lines -> harmless l /\ no_while l) -> forall t, like false false cond loop s t ->
  exists f t', while_end c f (parse_block c f) t = Done tt t' /\ like false false cond loop s' t'.
Proof.
  intros n s s' U H. assert (X : forall s r s1 t, condition_is c cond s r s1 -> like false false cond loop s t ->
    exists f t1, expression c f cond t = Done r t1 /\ like false false cond loop s1 t1).
  { intros s0 r s1 t (f & E) L. destruct (sim_expression c false false _ _ f cond t s0 (like_flip _ _ _ _ _ _ L) _ _ E) as (t1 & E1 & _).
    destruct (sim_expression c false false cond loop f cond s0 t L _ _ E1) as (s2 & E2 & L2). rewrite E in E2. injection E2 as <-. eauto. }
  induction U as [s v rest s' Ev V|s v rest s1 s2 n s' Ev V D R U IH|s s' Ev|s v rest s' Ev V D]; intros t L; destruct (X _ _ _ _ Ev L) as (f & t1 & Et & L1); pose proof (like_cond _ _ _ _ _ _ L) as (Lc & Ll).
  - exists (S f), t1. split; [|exact L1]. cbn [while_end]. unfold bind at 1, get at 1. rewrite Lc. unfold bind at 1. rewrite Et. cbv iota beta. rewrite V. reflexivity.
  - assert (D1 : g_do_while (with_iterating t1 true) = false) by (destruct L1 as (ev & -> & _ & _ & W); exact W).
    destruct (lines_end lines _ H D1) as (g & t2 & Eb). destruct (sim_each c IO false true cond loop eq_refl g _ s1 _ (like_in _ _ _ _ L1) _ _ Eb) as (s2' & Eb' & L2).
    assert (s2' = s2) as -> by (eapply runs_det; [exists g; exact Eb'|exact R]).
    destruct (IH _ (like_off _ _ _ _ L2)) as (h & t' & Ew & L'). exists (S (max f (max g h))), t'. split; [|exact L'].
    cbn [while_end]. unfold bind at 1, get at 1. rewrite Lc. unfold bind at 1. rewrite (more_done _ _ _ _ _ _ (more_expression c f (max f (max g h)) cond ltac:(lia)) Et). cbv iota beta. rewrite V.
    destruct (do_cases rest (rest_string _ _ _ _ _ Et)) as [(_ & q & ->)|(D' & _)]; [|contradiction]. unfold bind at 1, ret at 1. cbv iota beta.
    unfold bind at 1, get at 1. destruct (like_cond _ _ _ _ _ _ L1) as (_ & ->). unfold bind at 1, upd at 1. unfold bind at 1. fold lines.
    rewrite (more_done _ _ _ _ _ _ (more_lines c g (S (max f (max g h))) lines ltac:(lia)) Eb). unfold bind at 1, upd at 1.
    eapply more_done; [|exact Ew]. apply more_while_end; [lia|]. intros x. apply more_parse_block. lia.
  - exists (S f), (one_more_error t1). split; [|apply like_err, L1]. cbn [while_end]. unfold bind at 1, get at 1. rewrite Lc. unfold bind at 1. rewrite Et. reflexivity.
  - exists (S f), (one_more_error t1). split; [|apply like_err, L1]. cbn [while_end]. unfold bind at 1, get at 1. rewrite Lc. unfold bind at 1. rewrite Et. cbv iota beta. rewrite V.
    destruct (do_cases rest (rest_string _ _ _ _ _ Et)) as [(D' & _)|(_ & q & ->)]; [contradiction|]. reflexivity.
Qed.
End Execution.

Lemma expression_skip : forall c f t, expression c f (skip_spaces t) = expression c f t.
Proof. intros c f t. unfold expression. rewrite skip_spaces_idem. reflexivity. Qed.
Lemma condition_skip : forall c t s r s', condition_is c (skip_spaces t) s r s' <-> condition_is c t s r s'.
Proof. intros c t s r s'. unfold condition_is. split; intros (f & E); exists f; rewrite expression_skip in *; exact E. Qed.
Lemma unrolled_skip : forall c t lines n s s', unrolled c (skip_spaces t) lines n s s' <-> unrolled c t lines n s s'.
Proof.
  intros c t lines n s s'. split; intros U; induction U as [s v rest s' Ev V|s v rest s1 s2 n s' Ev V D R U IH|s s' Ev|s v rest s' Ev V D].
  1-4: apply (proj1 (condition_skip _ _ _ _ _)) in Ev. 5-8: apply (proj2 (condition_skip _ _ _ _ _)) in Ev.
  1, 5: eapply un_end; eassumption. 1, 4: eapply un_again; eassumption. 1, 3: apply un_no_value; assumption. all: eapply un_no_do; eassumption.
Qed.
Lemma kept_line : forall b l, In l (kept b) -> l = skip_spaces b.
Proof. intros b l. unfold kept. destruct (skip_spaces b) as [|x r]; [intros []|]. destruct (_ || _); intros H; [destruct H|]. destruct H as [H|[]]; auto. Qed.
Lemma like_start : forall s cond loop k, g_do_while s = false -> g_iterating s = false ->
  like false false cond loop (all_done k s) (with_while (all_done k s) false cond loop).
Proof. intros s cond loop k D I. exists (repeat EBlockDone k ++ g_events s). destruct s. cbn in *. subst. repeat split. Qed.
