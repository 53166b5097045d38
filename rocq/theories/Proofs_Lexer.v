From Verif Require Import Text Model_Lexer Spec_Lexer Spec_Text Proofs_StringUtil.

Definition up (t : text) : text := map to_upper t.

(** Value stored under a path; 0 if there is no such path. *)
Fixpoint tval (n : node) (p : text) {struct p} : Z :=
  match p with
  | [] => node_value n
  | c :: r => match node_next n c with Some k => tval k r | None => 0 end
  end.

(** No path of the trie contains NUL. *)
Inductive nonul : node -> Prop :=
| nonul_intro : forall n, node_next n NUL = None ->
    (forall c k, node_next n c = Some k -> nonul k) -> nonul n.

Lemma new_node_nonul : nonul new_node.
Proof. constructor; [reflexivity|intros c k H; discriminate]. Qed.

Lemma tval_new : forall p, tval new_node p = 0.
Proof. destruct p; reflexivity. Qed.

Lemma to_upper_NUL : forall c, to_upper c = NUL -> c = NUL.
Proof.
  intros c. unfold to_upper. destruct (is_lower c) eqn:E; auto.
  intros H. exfalso. unfold is_lower in E. unfold code in E.
  assert (N_of_ascii (ascii_of_N (N_of_ascii c - 32)) = N_of_ascii NUL) by now rewrite H.
  rewrite N_ascii_embedding in H0 by lia. cbn in H0. lia.
Qed.

Lemma add_spec : forall kw n v n', add_keyword_at_node n kw v = Ok n' ->
  forall p, tval n' p = if list_eq_dec ascii_dec p (up kw) then v else tval n p.
Proof.
  induction kw as [|c r IH]; intros n v n' H p; cbn [add_keyword_at_node] in H.
  - destruct (node_value n =? 0) eqn:E; [|discriminate]. inversion H; subst. clear H.
    cbn [up map]. destruct p as [|c p]; cbn [tval node_value node_next].
    + destruct (list_eq_dec ascii_dec [] []); congruence.
    + destruct (list_eq_dec ascii_dec (c :: p) []); [discriminate|reflexivity].
  - destruct (is_space c); [discriminate|].
    set (child := match node_next n (to_upper c) with Some k => k | None => new_node end) in *.
    destruct (add_keyword_at_node child r v) as [child'|] eqn:E; [|discriminate].
    cbn [obind] in H. inversion H; subst. clear H.
    specialize (IH _ _ _ E). cbn [up map]. destruct p as [|x p]; cbn [tval node_value node_next].
    + destruct (list_eq_dec ascii_dec [] (to_upper c :: map to_upper r)); [discriminate|reflexivity].
    + destruct (Ascii.eqb_spec x (to_upper c)) as [Ex|Ex].
      * subst x. rewrite IH. unfold up.
        destruct (list_eq_dec ascii_dec p (map to_upper r)) as [Ep|Ep].
        -- subst p. destruct (list_eq_dec ascii_dec _ _); congruence.
        -- destruct (list_eq_dec ascii_dec (to_upper c :: p) (to_upper c :: map to_upper r)); [congruence|].
           unfold child. destruct (node_next n (to_upper c)); auto. apply tval_new.
      * destruct (list_eq_dec ascii_dec (x :: p) (to_upper c :: map to_upper r)); [congruence|reflexivity].
Qed.

Lemma add_ok_fresh : forall kw n v n', add_keyword_at_node n kw v = Ok n' -> tval n (up kw) = 0.
Proof.
  induction kw as [|c r IH]; intros n v n' H; cbn [add_keyword_at_node] in H.
  - destruct (node_value n =? 0) eqn:E; [|discriminate]. cbn. lia.
  - destruct (is_space c); [discriminate|].
    destruct (node_next n (to_upper c)) as [k|] eqn:Ek; cbn [up map tval]; rewrite Ek; auto.
    destruct (add_keyword_at_node k r v) as [k'|] eqn:E; [|discriminate]. eapply IH; eauto.
Qed.

Lemma add_nonul : forall kw n v n', ~ In NUL kw -> nonul n ->
  add_keyword_at_node n kw v = Ok n' -> nonul n'.
Proof.
  induction kw as [|c r IH]; intros n v n' Hk Hn H; cbn [add_keyword_at_node] in H.
  - destruct (node_value n =? 0) eqn:E; [|discriminate]. inversion H; subst.
    inversion Hn; subst. constructor; auto.
  - destruct (is_space c); [discriminate|].
    set (child := match node_next n (to_upper c) with Some k => k | None => new_node end) in *.
    destruct (add_keyword_at_node child r v) as [child'|] eqn:E; [|discriminate].
    cbn [obind] in H. inversion H; subst. clear H. inversion Hn as [? H1 H2]; subst.
    assert (Hc : nonul child).
    { unfold child. destruct (node_next n (to_upper c)) eqn:En; [eapply H2; eauto|apply new_node_nonul]. }
    constructor; cbn [node_next].
    + destruct (Ascii.eqb_spec NUL (to_upper c)) as [Ex|Ex]; auto.
      exfalso. apply Hk. left. now apply to_upper_NUL.
    + intros x k Hx. destruct (Ascii.eqb x (to_upper c)).
      * inversion Hx; subst. eapply IH; eauto. intros X. apply Hk. now right.
      * eapply H2; eauto.
Qed.

(** What has been registered. *)
Lemma add_keywords_spec : forall kws l l', add_keywords l kws = Ok l' ->
  (forall k v, In (k, v) kws -> ~ In NUL k) -> nonul (lx_root l) ->
  nonul (lx_root l') /\
  (forall k v, In (k, v) kws -> 0 < v /\ tval (lx_root l') (up k) = v) /\
  (forall p, (forall k v, In (k, v) kws -> up k <> p) -> tval (lx_root l') p = tval (lx_root l) p) /\
  (forall p, tval (lx_root l) p <> 0 -> tval (lx_root l') p = tval (lx_root l) p).
Proof.
  induction kws as [|(k, v) kws IH]; intros l l' H Hn Hl; cbn [add_keywords] in H.
  - inversion H; subst. split; [exact Hl|]. split; [intros ? ? []|]. split; auto.
  - unfold add_keyword in H. destruct (0 <? v) eqn:Ev; [|discriminate].
    destruct (add_keyword_at_node (lx_root l) k v) as [root|] eqn:Er; [|discriminate].
    cbn [obind] in H.
    set (l1 := mk_lexer root (match find_name (lx_names l) v with None => (v, k) :: lx_names l | Some _ => lx_names l end)) in *.
    assert (Hk : ~ In NUL k) by (eapply Hn; now left).
    destruct (IH l1 l' H) as (A & B & C & D).
    + intros k0 v0 Hi. eapply Hn; right; eauto.
    + eapply add_nonul; eauto.
    + pose proof (add_spec _ _ _ _ Er) as S. pose proof (add_ok_fresh _ _ _ _ Er) as F.
      change (lx_root l1) with root in *.
      split; auto. split; [|split].
      * intros k0 v0 [Hi|Hi]; [|auto]. inversion Hi; subst. split; [lia|].
        rewrite D; rewrite S; destruct (list_eq_dec ascii_dec (up k0) (up k0)); try congruence; lia.
      * intros p Hp. rewrite C by (intros k0 v0 Hi; eapply Hp; right; eauto).
        rewrite S. destruct (list_eq_dec ascii_dec p (up k)) as [Ep|Ep]; auto.
        exfalso. apply (Hp k v); [now left|congruence].
      * intros p Hp. assert (Hr : tval root p = tval (lx_root l) p).
        { rewrite S. destruct (list_eq_dec ascii_dec p (up k)) as [Ep|Ep]; auto. subst. contradiction. }
        rewrite <- Hr. apply D. congruence.
Qed.

Lemma loop_spec : forall word n best, nonul n -> ~ In NUL word ->
  exists res, consume_loop n word best = Ok res /\
  ((res = best /\ forall p r, word = p ++ r -> tval n (up p) <= 0) \/
   (exists p r, word = p ++ r /\ 0 < tval n (up p) /\ res = (tval n (up p), skip_spaces r) /\
      forall p' r', word = p' ++ r' -> 0 < tval n (up p') -> (length p' <= length p)%nat)).
Proof.
  induction word as [|c word IH]; intros n best Hn Hw; cbn [consume_loop].
  - inversion Hn as [? H1 H2]; subst. change (to_upper NUL) with NUL. rewrite H1.
    eexists. split; [reflexivity|]. destruct (0 <? node_value n) eqn:E.
    + right. exists [], []. cbn [up map tval app]. split; [reflexivity|]. split; [lia|]. split; [reflexivity|].
      intros p' r' Hp. destruct p'; [cbn; lia|discriminate].
    + left. split; auto. intros p r Hp. destruct p; [cbn; lia|discriminate].
  - inversion Hn as [? H1 H2]; subst.
    set (best' := if 0 <? node_value n then (node_value n, skip_spaces (c :: word)) else best).
    destruct (node_next n (to_upper c)) as [k|] eqn:Ek.
    + destruct (IH k best') as (res & E & Hres).
      * eapply H2; eauto.
      * intros X. apply Hw. now right.
      * exists res. split; auto.
        assert (Hup : forall p, tval n (up (c :: p)) = tval k (up p)).
        { intros p. cbn [up map tval]. now rewrite Ek. }
        destruct Hres as [[Hb Hnone]|(p & r & Hp & Hpos & Hr & Hmax)].
        -- destruct (0 <? node_value n) eqn:Ev; subst best'.
           ++ right. exists [], (c :: word). split; [reflexivity|]. cbn [up map tval]. split; [lia|]. split; [exact Hb|].
              intros p' r' Hp' Hpos. destruct p' as [|c' p']; [cbn; lia|].
              cbn in Hp'. inversion Hp'; subst. rewrite Hup in Hpos. specialize (Hnone p' r' eq_refl). lia.
           ++ left. split; auto. intros p r Hp. destruct p as [|c' p]; [cbn; lia|].
              cbn in Hp. inversion Hp; subst. rewrite Hup. eauto.
        -- right. exists (c :: p), r. rewrite Hup. split; [cbn; congruence|]. split; [auto|]. split; [auto|].
           intros p' r' Hp' Hpos'. destruct p' as [|c' p']; [cbn; lia|].
           cbn in Hp'. inversion Hp' as [[X1 X2]]. subst c'. rewrite Hup in Hpos'.
           cbn [length]. specialize (Hmax p' r' X2 Hpos'). lia.
    + eexists. split; [reflexivity|]. 
      assert (Hz : forall c' p r, c :: word = (c' :: p) ++ r -> tval n (up (c' :: p)) = 0).
      { intros c' p r Hp. cbn in Hp. inversion Hp; subst. cbn [up map tval]. now rewrite Ek. }
      destruct (0 <? node_value n) eqn:Ev; subst best'.
      * right. exists [], (c :: word). cbn [up map tval app]. split; [reflexivity|]. split; [lia|]. split; [reflexivity|].
        intros p' r' Hp' Hpos. destruct p' as [|c' p']; [cbn; lia|]. rewrite (Hz _ _ _ Hp') in Hpos. lia.
      * left. split; auto. intros p r Hp. destruct p as [|c' p]; [cbn; lia|]. rewrite (Hz _ _ _ Hp). lia.
Qed.

Lemma skip_spaces_spec : forall s, without_leading_space s (skip_spaces s).
Proof.
  induction s as [|c s (sp & E & H1 & H2)]; cbn [skip_spaces].
  - exists []. split; [reflexivity|]. split; [intros ? []|intros ? ? Hx; discriminate Hx].
  - destruct (is_space c) eqn:Ec.
    + exists (c :: sp). cbn. split; [congruence|]. split; auto. intros x [Hx|Hx]; subst; auto.
    + exists []. split; auto. split; [intros ? []|]. intros x r Hx. inversion Hx; subst; auto.
Qed.

Lemma skip_spaces_In : forall s c, In c (skip_spaces s) -> In c s.
Proof. intros s c. destruct (skip_spaces_spec s) as (sp & E & _). rewrite E at 2. intros H. apply in_or_app. auto. Qed.

Lemma match_next_longest : forall kws l input,
  add_keywords lexer_init kws = Ok l ->
  (forall k v, In (k, v) kws -> ~ In NUL k) -> ~ In NUL input ->
  exists token rest, match_next l input = Ok (token, rest) /\ longest_match kws input token rest.
Proof.
  intros kws l input Hb Hk Hi.
  destruct (add_keywords_spec kws _ _ Hb Hk new_node_nonul) as (A & B & C & D).
  unfold match_next.
  destruct (loop_spec (skip_spaces input) (lx_root l) (0, input) A) as (res & E & H).
  { intros X. apply Hi. now apply skip_spaces_In. }
  assert (Hreg : forall p, 0 < tval (lx_root l) p -> exists k, In (k, tval (lx_root l) p) kws /\ up k = p).
  { intros p Hp.
    destruct (existsb (fun kv => if list_eq_dec ascii_dec (up (fst kv)) p then true else false) kws) eqn:Ex.
    - apply existsb_exists in Ex. destruct Ex as ((k & v) & Hin & Heq). cbn [fst] in Heq.
      destruct (list_eq_dec ascii_dec (up k) p); [|discriminate]. subst p. exists k. split; auto.
      destruct (B k v Hin) as [_ Ht]. now rewrite Ht.
    - rewrite C in Hp; [rewrite tval_new in Hp; lia|].
      intros k v Hin Heq. assert (existsb (fun kv => if list_eq_dec ascii_dec (up (fst kv)) p then true else false) kws = true).
      { apply existsb_exists. exists (k, v). split; auto. cbn [fst]. destruct (list_eq_dec ascii_dec (up k) p) as [e|e]; [reflexivity|]. exfalso. exact (e Heq). }
      congruence. }
  assert (Hlen : forall a b, up a = up b -> length a = length b).
  { intros a b H0. apply (f_equal (@length ascii)) in H0. unfold up in H0. now rewrite !map_length in H0. }
  destruct res as [token rest]. exists token, rest. split; auto.
  exists (skip_spaces input). split; [apply skip_spaces_spec|].
  destruct H as [[Hr Hnone]|(p & r & Hw & Hpos & Hr & Hmax)].
  - left. inversion Hr; subst. split; auto. split; auto. intros k v Hin (rest' & p & Hp1 & Hp2).
    destruct (B k v Hin) as [Hv Ht]. specialize (Hnone p rest' Hp1). change (up p = up k) in Hp2. rewrite Hp2 in Hnone. lia.
  - right. inversion Hr; subst token rest. destruct (Hreg _ Hpos) as (k & Hin & Hup).
    exists k, p, r. split; auto. split; auto. split; [symmetry; exact Hup|]. split; [|apply skip_spaces_spec].
    intros k' v' Hin' (rest' & p' & Hp1 & Hp2). change (up p' = up k') in Hp2.
    destruct (B k' v' Hin') as [Hv Ht]. rewrite <- (Hlen _ _ Hp2), (Hlen _ _ Hup).
    apply (Hmax p' rest'); auto. rewrite Hp2. lia.
Qed.

(** Building succeeds for distinct keywords without spaces and positive values. *)
Lemma add_total : forall kw n v, (forall c, In c kw -> is_space c = false) -> tval n (up kw) = 0 ->
  exists n', add_keyword_at_node n kw v = Ok n'.
Proof.
  induction kw as [|c r IH]; intros n v Hs Ht; cbn [add_keyword_at_node].
  - cbn in Ht. rewrite Ht. cbn. eauto.
  - rewrite (Hs c (or_introl eq_refl)).
    destruct (node_next n (to_upper c)) as [k|] eqn:Ek.
    + destruct (IH k v) as [k' E]; [intros; apply Hs; now right| |].
      * cbn [up map tval] in Ht. rewrite Ek in Ht. exact Ht.
      * rewrite E. cbn [obind]. eauto.
    + destruct (IH new_node v) as [k' E]; [intros; apply Hs; now right|apply tval_new|].
      rewrite E. cbn [obind]. eauto.
Qed.

Lemma add_keywords_total : forall kws l,
  (forall k v, In (k, v) kws -> 0 < v /\ (forall c, In c k -> is_space c = false)) ->
  NoDup (map (fun kv => up (fst kv)) kws) ->
  (forall k v, In (k, v) kws -> tval (lx_root l) (up k) = 0) ->
  exists l', add_keywords l kws = Ok l'.
Proof.
  induction kws as [|(k, v) kws IH]; intros l H1 H2 H3; cbn [add_keywords]; [eauto|].
  destruct (H1 k v (or_introl eq_refl)) as [Hv Hs]. unfold add_keyword. replace (0 <? v) with true by lia.
  destruct (add_total k (lx_root l) v Hs) as [n' E]; [apply (H3 k v); now left|].
  rewrite E. cbn [obind]. inversion H2; subst. apply IH; auto.
  - intros k0 v0 Hi. apply H1. now right.
  - intros k0 v0 Hi. cbn [lx_root]. rewrite (add_spec _ _ _ _ E).
    destruct (list_eq_dec ascii_dec (up k0) (up k)) as [Eq|Eq].
    + exfalso. apply H4. apply in_map_iff. exists (k0, v0). auto.
    + apply (H3 k0 v0). now right.
Qed.

(** The remembered spelling of a token is the first one registered for it. *)
Lemma names_spec : forall kws l l' v, add_keywords l kws = Ok l' ->
  find_name (lx_names l') v =
  match find_name (lx_names l) v with
  | Some k => Some k
  | None => match find (fun kv => snd kv =? v) kws with Some kv => Some (fst kv) | None => None end
  end.
Proof.
  induction kws as [|(k, x) kws IH]; intros l l' v H; cbn [add_keywords] in H.
  - inversion H; subst. cbn. destruct (find_name (lx_names l') v); reflexivity.
  - unfold add_keyword in H. destruct (0 <? x); [|discriminate].
    destruct (add_keyword_at_node (lx_root l) k x) as [root|]; [|discriminate]. cbn [obind] in H.
    rewrite (IH _ _ v H). cbn [lx_names find snd fst].
    destruct (find_name (lx_names l) x) as [y|] eqn:E.
    + destruct (Z.eqb_spec x v) as [Ev|Ev].
      * subst. now rewrite E.
      * reflexivity.
    + cbn [find_name]. destruct (Z.eqb_spec x v) as [Ev|Ev].
      * subst. now rewrite E.
      * reflexivity.
Qed.

(** At most one token can be the longest match of an input. *)
Lemma wls_unique : forall s a b, without_leading_space s a -> without_leading_space s b -> a = b.
Proof.
  intros s a b (sp & E & H1 & H2) (sq & F & G1 & G2). revert H1 s E sq F G1. induction sp as [|c sp IH]; intros H1 s E sq F G1; cbn in E.
  - destruct sq as [|d sq]; cbn in F; [congruence|]. exfalso. rewrite <- E, F in H2.
    specialize (H2 d (sq ++ b) eq_refl). rewrite (G1 d (or_introl eq_refl)) in H2. discriminate.
  - destruct sq as [|d sq]; cbn in F.
    + exfalso. rewrite <- F, E in G2. specialize (G2 c (sp ++ a) eq_refl). rewrite (H1 c (or_introl eq_refl)) in G2. discriminate.
    + rewrite E in F. injection F as F1 F2. apply (IH (fun x Hx => H1 x (or_intror Hx)) (sp ++ a) eq_refl sq F2).
      intros x Hx. apply G1. now right.
Qed.

Lemma longest_match_unique : forall kws l input t r t' r',
  add_keywords lexer_init kws = Ok l -> (forall k v, In (k, v) kws -> ~ In NUL k) ->
  longest_match kws input t r -> longest_match kws input t' r' -> 0 < t' -> t = t'.
Proof.
  intros kws l input t r t' r' Hb Hk (w & W & D) (w' & W' & D') Ht'.
  assert (w' = w) by (eapply wls_unique; eauto). subst w'.
  destruct D' as [(Z0 & _)|(k' & p' & q' & I' & E' & U' & L' & S')]; [lia|].
  assert (Hpre' : ci_prefix k' w) by (exists q', p'; auto).
  destruct D as [(_ & _ & N)|(k & p & q & I & E & U & L & S0)]; [exfalso; eapply N; eauto|].
  assert (Hpre : ci_prefix k w) by (exists q, p; auto).
  assert (Hlen : length k = length k') by (pose proof (L _ _ I' Hpre'); pose proof (L' _ _ I Hpre); lia).
  assert (Hlp : length p = length p').
  { apply (f_equal (@length _)) in U. apply (f_equal (@length _)) in U'. rewrite !map_length in U, U'. congruence. }
  assert (p = p').
  { assert (firstn (length p) w = p) by (rewrite E, firstn_app, Nat.sub_diag, firstn_all; cbn; now rewrite app_nil_r).
    assert (firstn (length p') w = p') by (rewrite E', firstn_app, Nat.sub_diag, firstn_all; cbn; now rewrite app_nil_r).
    congruence. }
  subst p'.
  destruct (add_keywords_spec kws _ _ Hb Hk new_node_nonul) as (A & B & _ & _).
  destruct (B _ _ I) as [_ V1]. destruct (B _ _ I') as [_ V2].
  unfold up in *. congruence.
Qed.
