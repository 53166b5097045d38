(** Theorems about the keyword lexer: C07. *)
From Verif Require Import Text Model_Lexer Spec_Lexer Proofs_Lexer.

(** C07: after registering any keywords (none containing a NUL), matching any
    NUL-free input consumes exactly the longest registered keyword after leading
    white space and the white space after it, or nothing; it never reads behind
    the end of the input (that would be [Undefined]). *)
Theorem C07_longest_keyword : forall kws l input,
  add_keywords lexer_init kws = Ok l ->
  (forall k v, In (k, v) kws -> ~ In NUL k) -> ~ In NUL input ->
  exists token rest, match_next l input = Ok (token, rest) /\ longest_match kws input token rest.
Proof. exact match_next_longest. Qed.
Print Assumptions C07_longest_keyword.

(** Registration succeeds for keywords that are pairwise different (ignoring
    case), contain no white space and have positive tokens. *)
Theorem C07_registration : forall kws,
  (forall k v, In (k, v) kws -> 0 < v /\ (forall c, In c k -> is_space c = false)) ->
  NoDup (map (fun kv => map to_upper (fst kv)) kws) ->
  exists l, add_keywords lexer_init kws = Ok l.
Proof.
  intros kws H1 H2. apply add_keywords_total; auto.
  intros k v _. cbn [lexer_init lx_root]. destruct k; reflexivity.
Qed.
Print Assumptions C07_registration.

(** ExpectNext: succeeds exactly if the longest keyword carries the wanted
    token; otherwise nothing is consumed. *)
Theorem C07_expect_next : forall kws l input e,
  add_keywords lexer_init kws = Ok l ->
  (forall k v, In (k, v) kws -> ~ In NUL k) -> ~ In NUL input -> 0 < e ->
  exists ok rest, expect_next l input e = Ok (ok, rest) /\
    (ok = true -> longest_match kws input e rest) /\
    (ok = false -> rest = input /\ ~ exists r, longest_match kws input e r).
Proof.
  intros kws l input e Hb Hk Hi He.
  destruct (match_next_longest kws l input Hb Hk Hi) as (t & r & E & L).
  exists (t =? e), (if t =? e then r else input). unfold expect_next. rewrite E. cbn [obind].
  destruct (Z.eqb_spec t e) as [->|Hne].
  - split; auto. split; auto. discriminate.
  - split; auto. split; [discriminate|]. intros _. split; auto. intros [r' L'].
    apply Hne. apply (longest_match_unique kws l input t r e r' Hb Hk L L'). exact He.
Qed.
Print Assumptions C07_expect_next.

(** AsString yields the first keyword registered for a token. *)
Theorem C07_as_string : forall kws l v, add_keywords lexer_init kws = Ok l -> 0 < v ->
  as_string l v = match find (fun kv => snd kv =? v) kws with Some kv => Some (fst kv) | None => None end.
Proof.
  intros kws l v Hb Hv. unfold as_string. replace (v =? 0) with false by lia.
  rewrite (names_spec kws _ _ v Hb). reflexivity.
Qed.
Print Assumptions C07_as_string.

Definition ex_kws : list (text * Z) := [(txt "<", 1); (txt "<=", 2); (txt "while", 3); (txt "LT", 1)].
Example C07_ex_built : exists l, add_keywords lexer_init ex_kws = Ok l.
Proof.
  apply C07_registration.
  - intros k v Hi. cbn in Hi. repeat (destruct Hi as [Hi|Hi]; [inversion Hi; subst; split; [lia|];
      intros c Hc; cbn in Hc; repeat (destruct Hc as [Hc|Hc]; [subst; reflexivity|]); contradiction|]). contradiction.
  - repeat constructor; cbn; intuition discriminate.
Qed.
Example C07_ex_longest : obind (add_keywords lexer_init ex_kws) (fun l => match_next l (txt "  <=  7")) = Ok (2, txt "7").
Proof. reflexivity. Qed.
Example C07_ex_short : obind (add_keywords lexer_init ex_kws) (fun l => match_next l (txt "< =7")) = Ok (1, txt "=7").
Proof. reflexivity. Qed.
Example C07_ex_none : obind (add_keywords lexer_init ex_kws) (fun l => match_next l (txt " whilX")) = Ok (0, txt " whilX").
Proof. reflexivity. Qed.
