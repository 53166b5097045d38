From Verif Require Import Text Lib_List Model_Linebuf Spec_Text Spec_Stream Proofs_StringUtil.

Definition lb_ok (b : linebuf) : Prop :=
  length (lb_mem b) = lb_len b /\ (lb_start b <= lb_end b)%nat /\ (lb_end b <= lb_len b)%nat.

Definition content (b : linebuf) : text := slice (lb_mem b) (lb_start b) (lb_end b).

Lemma content_length : forall b, lb_ok b -> length (content b) = (lb_end b - lb_start b)%nat.
Proof.
  intros b (H1 & H2 & H3). unfold content, slice. rewrite firstn_length_le; auto.
  rewrite skipn_length. lia.
Qed.

Lemma store_ok : forall mem at_ data, (at_ + length data <= length mem)%nat ->
  exists mem', store mem at_ data = Ok mem' /\ length mem' = length mem /\
    firstn at_ mem' = firstn at_ mem /\
    skipn at_ mem' = data ++ skipn (at_ + length data) mem.
Proof.
  intros mem at_ data H. unfold store. replace (at_ + length data <=? length mem)%nat with true by (symmetry; apply Nat.leb_le; lia).
  eexists. split; [reflexivity|].
  assert (Hl : length (firstn at_ mem) = at_) by (apply firstn_length_le; lia).
  split; [|split].
  - rewrite !app_length, skipn_length, Hl. lia.
  - rewrite firstn_app, Hl, Nat.sub_diag. cbn [firstn]. rewrite app_nil_r. now rewrite firstn_firstn, Nat.min_id.
  - rewrite skipn_app, Hl, Nat.sub_diag. cbn [skipn]. rewrite skipn_all2 by lia. reflexivity.
Qed.

Lemma compact_ok : forall b, lb_ok b ->
  exists b', lb_compact b = Ok b' /\ lb_ok b' /\ content b' = content b /\
    lb_len b' = lb_len b /\ lb_cr b' = lb_cr b /\ (lb_start b' <= lb_len b / 2)%nat.
Proof.
  intros b Hok. pose proof Hok as (H1 & H2 & H3). unfold lb_compact.
  destruct (lb_len b / 2 <? lb_start b)%nat eqn:E.
  - pose proof (content_length b Hok) as Hc. fold (content b).
    destruct (store_ok (lb_mem b) 0 (content b)) as (mem' & Es & Hl & Hf & Hs); [lia|].
    rewrite Es. cbn [obind]. eexists. split; [reflexivity|].
    split; [|split; [|cbn; repeat split; lia]].
    + unfold lb_ok, lb_size; cbn. lia.
    + unfold content at 1, slice; cbn [lb_mem lb_start lb_end]. unfold lb_size. rewrite Nat.sub_0_r.
      cbn [skipn] in Hs |- *. rewrite Hs. rewrite <- Hc. rewrite firstn_app, Nat.sub_diag, firstn_all. cbn [firstn].
      apply app_nil_r.
  - exists b. repeat split; auto. apply Nat.ltb_ge in E. lia.
Qed.

Lemma update_bytes_ok : forall b f data, lb_ok b ->
  (forall b', lb_compact b = Ok b' -> f (lb_len b' - lb_end b')%nat = ReadBytes data) ->
  (forall b', lb_compact b = Ok b' -> (length data <= lb_len b' - lb_end b')%nat) ->
  exists b', lb_update b f = Ok (b', Z.of_nat (length data)) /\ lb_ok b' /\
    content b' = content b ++ data /\ lb_len b' = lb_len b /\ lb_cr b' = lb_cr b.
Proof.
  intros b f data Hok Hf Hl. destruct (compact_ok b Hok) as (c & Ec & Hc & Hcc & Hcl & Hcr & Hcs).
  unfold lb_update. rewrite Ec. cbn [obind]. rewrite (Hf c Ec). specialize (Hl c Ec).
  pose proof Hc as (C1 & C2 & C3).
  destruct (store_ok (lb_mem c) (lb_end c) data) as (mem' & Es & El & Ef & Esk); [lia|].
  rewrite Es. cbn [obind]. eexists. split; [reflexivity|].
  split; [unfold lb_ok; cbn; lia|]. split; [|cbn; auto].
  rewrite <- Hcc. unfold content, slice; cbn [lb_mem lb_start lb_end].
  replace (lb_end c + length data - lb_start c)%nat with ((lb_end c - lb_start c) + length data)%nat by lia.
  assert (Hsk : skipn (lb_start c) mem' = firstn (lb_end c - lb_start c) (skipn (lb_start c) (lb_mem c)) ++ data ++ skipn (lb_end c + length data) (lb_mem c)).
  { rewrite <- (firstn_skipn (lb_end c) mem') at 1. rewrite Ef, Esk.
    rewrite skipn_app. rewrite firstn_length_le by lia.
    replace (lb_start c - lb_end c)%nat with 0%nat by lia. cbn [skipn]. f_equal.
    apply skipn_firstn_comm. }
  rewrite Hsk. set (a := firstn (lb_end c - lb_start c) (skipn (lb_start c) (lb_mem c))).
  assert (Ha : length a = (lb_end c - lb_start c)%nat) by (unfold a; rewrite firstn_length_le; auto; rewrite skipn_length; lia).
  rewrite app_assoc. rewrite firstn_app. rewrite app_length, Ha.
  replace (lb_end c - lb_start c + length data - (lb_end c - lb_start c + length data))%nat with 0%nat by lia.
  cbn [firstn]. rewrite app_nil_r. apply firstn_all2. rewrite app_length. lia.
Qed.

Lemma update_error : forall b f, lb_ok b ->
  (forall b', lb_compact b = Ok b' -> f (lb_len b' - lb_end b')%nat = ReadError) ->
  exists b', lb_update b f = Ok (b', -1) /\ lb_ok b' /\
    content b' = content b /\ lb_len b' = lb_len b /\ lb_cr b' = lb_cr b /\ lb_compact b = Ok b'.
Proof.
  intros b f Hok Hf. destruct (compact_ok b Hok) as (c & Ec & Hc & Hcc & Hcl & Hcr & Hcs).
  unfold lb_update. rewrite Ec. cbn [obind]. rewrite (Hf c Ec). exists c. auto 10.
Qed.

(** Reading a line, on the content alone. *)
Fixpoint scan (cr : bool) (acc : text) (s : text) : bool * option text * text :=
  match s with
  | [] => (cr, None, acc)
  | c :: r =>
      if cr && Ascii.eqb c LF then scan false [] r
      else if Ascii.eqb c CR || Ascii.eqb c LF then (Ascii.eqb c CR, Some acc, r)
      else scan cr (acc ++ [c]) r
  end.

Lemma cstr_app_nul : forall a r, cstr (a ++ NUL :: r) = cstr a.
Proof.
  induction a as [|c a IH]; intros r; cbn [app cstr].
  - reflexivity.
  - destruct (Ascii.eqb c NUL); auto. now rewrite IH.
Qed.

Lemma slice_cons : forall mem i e c, nth_error mem i = Some c -> (i < e)%nat ->
  slice mem i e = c :: slice mem (S i) e.
Proof.
  intros mem i e c Hn Hi. unfold slice.
  assert (Hs : skipn i mem = c :: skipn (S i) mem).
  { revert i e Hn Hi. induction mem as [|m mem IH]; intros i e Hn Hi; [destruct i; discriminate|].
    destruct i; cbn in Hn; [inversion Hn; reflexivity|]. cbn [skipn]. destruct e; [lia|]. apply (IH i e); auto. lia. }
  rewrite Hs. replace (e - i)%nat with (S (e - S i)) by lia. reflexivity.
Qed.

Lemma slice_snoc : forall mem s i c, (s <= i)%nat -> nth_error mem i = Some c ->
  slice mem s (S i) = slice mem s i ++ [c].
Proof.
  intros mem s i c Hs Hn. unfold slice.
  assert (Hn' : nth_error (skipn s mem) (i - s) = Some c).
  { rewrite <- Hn. rewrite <- (firstn_skipn s mem) at 2.
    assert ((i < length mem)%nat) by (apply nth_error_Some; congruence).
    rewrite nth_error_app2; rewrite firstn_length_le by lia; auto. }
  replace (S i - s)%nat with (S (i - s)) by lia.
  revert Hn'. generalize (i - s)%nat (skipn s mem). clear.
  intros n l. revert n. induction l as [|a l IH]; intros n H; [destruct n; discriminate|].
  destruct n; cbn in H |- *; [congruence|]. rewrite <- IH by auto. reflexivity.
Qed.

Lemma lb_scan_ok : forall n b i acc, lb_ok b -> (lb_start b <= i)%nat -> (i + n = lb_end b)%nat ->
  acc = slice (lb_mem b) (lb_start b) i ->
  exists b' l, lb_scan b i n = Ok (b', option_map cstr l) /\ lb_ok b' /\ lb_len b' = lb_len b /\
    lb_end b' = lb_end b /\
    scan (lb_cr b) acc (slice (lb_mem b) i (lb_end b)) = (lb_cr b', l, content b').
Proof.
  induction n as [|n IH]; intros b i acc Hok Hs He Hacc.
  - exists b, None. cbn [lb_scan option_map]. repeat split; auto; try apply Hok.
    replace (slice (lb_mem b) i (lb_end b)) with (@nil ascii) by (unfold slice; replace (lb_end b - i)%nat with 0%nat by lia; reflexivity).
    cbn [scan]. unfold content. subst acc. repeat f_equal. lia.
  - cbn [lb_scan]. pose proof Hok as (H1 & H2 & H3).
    destruct (nth_error (lb_mem b) i) as [c|] eqn:En.
    2:{ apply nth_error_None in En. lia. }
    rewrite (slice_cons _ i (lb_end b) c En) by lia. cbn [scan].
    destruct (lb_cr b && Ascii.eqb c LF) eqn:E1.
    + destruct (IH (mk_lb (lb_len b) (lb_mem b) (S i) (lb_end b) false) (S i) []) as (b' & l & A & B & C & D & F).
      * unfold lb_ok; cbn; lia.
      * cbn; lia.
      * cbn; lia.
      * cbn [lb_mem lb_start]. unfold slice. now rewrite Nat.sub_diag.
      * cbn [lb_len lb_end lb_cr lb_mem] in *. exists b', l. auto.
    + destruct (Ascii.eqb c CR || Ascii.eqb c LF) eqn:E2.
      * destruct (store_ok (lb_mem b) i [NUL]) as (mem' & Es & El & Ef & Esk); [cbn; lia|].
        rewrite Es. cbn [obind]. eexists. exists (Some acc). split; [|split; [|split; [|split]]].
        -- cbn [option_map]. f_equal. f_equal. f_equal.
           assert (Hsk : skipn (lb_start b) mem' = acc ++ NUL :: skipn (i + 1) (lb_mem b)).
           { rewrite <- (firstn_skipn i mem') at 1. rewrite Ef, Esk. rewrite skipn_app.
             rewrite firstn_length_le by lia. replace (lb_start b - i)%nat with 0%nat by lia. cbn [skipn].
             cbn [length]. subst acc. unfold slice. rewrite <- skipn_firstn_comm. reflexivity. }
           rewrite Hsk. apply cstr_app_nul.
        -- unfold lb_ok; cbn; lia.
        -- reflexivity.
        -- reflexivity.
        -- cbn [lb_cr]. f_equal. unfold content; cbn [lb_mem lb_start lb_end]. unfold slice. f_equal.
           pose proof (skipn_skipn 1 i mem') as K. cbn [Nat.add] in K. rewrite <- K, Esk. cbn [length app]. rewrite (Nat.add_comm i 1). reflexivity.
      * destruct (IH b (S i) (acc ++ [c])) as (b' & l & A & B & C & D & F); auto; try lia.
        -- subst acc. symmetry. apply slice_snoc; auto.
        -- exists b', l. auto.
Qed.

Lemma read_line_ok : forall b, lb_ok b ->
  exists b' l, lb_read_line b = Ok (b', option_map cstr l) /\ lb_ok b' /\ lb_len b' = lb_len b /\
    lb_end b' = lb_end b /\ scan (lb_cr b) [] (content b) = (lb_cr b', l, content b').
Proof.
  intros b Hok. unfold lb_read_line, lb_size. apply lb_scan_ok; auto.
  - destruct Hok as (A & B & C). lia.
  - unfold slice. now rewrite Nat.sub_diag.
Qed.

(** The character automaton: lines found, flag and unfinished line. *)
Fixpoint auto_lines (cr : bool) (acc : text) (s : text) : list text * bool * text :=
  match s with
  | [] => ([], cr, acc)
  | c :: r =>
      if cr && Ascii.eqb c LF then auto_lines false [] r
      else if Ascii.eqb c CR || Ascii.eqb c LF then
        let '(ls, cr', acc') := auto_lines (Ascii.eqb c CR) [] r in (acc :: ls, cr', acc')
      else auto_lines cr (acc ++ [c]) r
  end.

Lemma scan_auto : forall s cr acc,
  match scan cr acc s with
  | (cr', Some l, r) => auto_lines cr acc s = (let '(ls, c2, a2) := auto_lines cr' [] r in (l :: ls, c2, a2)) /\ (length r < length s)%nat
  | (cr', None, r) => auto_lines cr acc s = ([], cr', r)
  end.
Proof.
  induction s as [|c s IH]; intros cr acc; cbn [scan auto_lines].
  - reflexivity.
  - destruct (cr && Ascii.eqb c LF).
    + specialize (IH false []). destruct (scan false [] s) as [[cr' [l|]] r]; [|exact IH].
      destruct IH as [A B]. split; [exact A|cbn; lia].
    + destruct (Ascii.eqb c CR || Ascii.eqb c LF).
      * split; [reflexivity|cbn; lia].
      * specialize (IH cr (acc ++ [c])). destruct (scan cr (acc ++ [c]) s) as [[cr' [l|]] r]; [|exact IH].
        destruct IH as [A B]. split; [exact A|cbn; lia].
Qed.

Lemma drain_ok : forall f b, lb_ok b -> (length (content b) < f)%nat ->
  exists b' ls, lb_drain f b = Ok (b', map cstr ls) /\ lb_ok b' /\ lb_len b' = lb_len b /\ lb_end b' = lb_end b /\
    auto_lines (lb_cr b) [] (content b) = (ls, lb_cr b', content b').
Proof.
  induction f as [|f IH]; intros b Hok Hf; [lia|].
  cbn [lb_drain]. destruct (read_line_ok b Hok) as (c & l & A & B & C & D & E). rewrite A. cbn [obind].
  pose proof (scan_auto (content b) (lb_cr b) []) as S. rewrite E in S.
  destruct l as [l|]; cbn [option_map].
  - destruct S as [S1 S2]. destruct (IH c B) as (b' & ls & F & G & H & I & J); [lia|].
    rewrite F. cbn [obind]. exists b', (l :: ls). cbn [map]. repeat split; try congruence; try apply G.
    rewrite S1, J. reflexivity.
  - exists c, []. cbn [map]. repeat split; try congruence; apply B.
Qed.

Lemma drain_all_ok : forall b, lb_ok b ->
  exists b' ls, lb_drain_all b = Ok (b', map cstr ls) /\ lb_ok b' /\ lb_len b' = lb_len b /\ lb_end b' = lb_end b /\
    auto_lines (lb_cr b) [] (content b) = (ls, lb_cr b', content b').
Proof.
  intros b Hok. apply drain_ok; auto. rewrite content_length by auto. unfold lb_size. lia.
Qed.

Lemma auto_app : forall s1 s2 cr acc,
  auto_lines cr acc (s1 ++ s2) =
  let '(l1, c1, a1) := auto_lines cr acc s1 in
  let '(l2, c2, a2) := auto_lines c1 a1 s2 in (l1 ++ l2, c2, a2).
Proof.
  induction s1 as [|c s1 IH]; intros s2 cr acc; cbn [app auto_lines].
  - destruct (auto_lines cr acc s2) as [[? ?] ?]. reflexivity.
  - destruct (cr && Ascii.eqb c LF); [apply IH|].
    destruct (Ascii.eqb c CR || Ascii.eqb c LF); [|apply IH].
    rewrite IH. destruct (auto_lines (Ascii.eqb c CR) [] s1) as [[l1 c1] a1].
    destruct (auto_lines c1 a1 s2) as [[l2 c2] a2]. reflexivity.
Qed.

Lemma eol_eqb : forall c, Ascii.eqb c CR || Ascii.eqb c LF = true <-> In c [CR; LF].
Proof.
  intros c. rewrite orb_true_iff, !Ascii.eqb_eq. cbn. split; intros [H|H]; subst; auto.
  destruct H; [auto|contradiction].
Qed.

Lemma auto_plain : forall t cr acc s, no_eol t ->
  auto_lines cr acc (t ++ s) = auto_lines cr (acc ++ t) s.
Proof.
  induction t as [|c t IH]; intros cr acc s Ht; cbn [app].
  - now rewrite app_nil_r.
  - cbn [auto_lines].
    assert (Hc : Ascii.eqb c CR || Ascii.eqb c LF = false).
    { destruct (Ascii.eqb c CR || Ascii.eqb c LF) eqn:E; auto. exfalso. apply eol_eqb in E. apply (Ht c); cbn; auto. }
    assert (Hlf : Ascii.eqb c LF = false) by (apply orb_false_iff in Hc; tauto).
    rewrite Hc, Hlf, andb_false_r. rewrite IH.
    + rewrite <- app_assoc. reflexivity.
    + intros x Hx. apply Ht. now right.
Qed.

(** The unfinished line is a run of the input without line ends. *)
Lemma auto_acc_run : forall s cr acc ls cr' acc', no_eol acc ->
  auto_lines cr acc s = (ls, cr', acc') ->
  no_eol acc' /\ exists p, acc ++ s = p ++ acc'.
Proof.
  induction s as [|c s IH]; intros cr acc ls cr' acc' Ha E; cbn [auto_lines] in E.
  - inversion E; subst. split; auto. exists []. now rewrite app_nil_r.
  - assert (Hnil : no_eol []) by (intros ? []).
    destruct (cr && Ascii.eqb c LF).
    + destruct (IH _ _ _ _ _ Hnil E) as (A & p & B). split; auto. exists (acc ++ c :: p).
      rewrite <- app_assoc. cbn in *. now rewrite B.
    + destruct (Ascii.eqb c CR || Ascii.eqb c LF) eqn:Ec.
      * destruct (auto_lines (Ascii.eqb c CR) [] s) as [[l2 c2] a2] eqn:E2. inversion E; subst.
        destruct (IH _ _ _ _ _ Hnil E2) as (A & p & B). split; auto. exists (acc ++ c :: p).
        rewrite <- app_assoc. cbn in *. now rewrite B.
      * assert (Hn : no_eol (acc ++ [c])).
        { intros x Hx Hi. apply in_app_or in Hx. destruct Hx as [Hx|[Hx|[]]]; [now apply (Ha x)|].
          subst. apply eol_eqb in Hi. congruence. }
        destruct (IH _ _ _ _ _ Hn E) as (A & p & B). split; auto. exists p. rewrite <- app_assoc in B. exact B.
Qed.

(** One read of the session. [done] is what has been read so far. *)
Lemma session_ok : forall wants len b done stream cr0 ls0,
  lb_ok b -> lb_len b = len -> short_lines len (done ++ stream) ->
  Forall (fun w => (1 <= w)%nat) wants ->
  auto_lines cr0 [] done = (ls0, lb_cr b, content b) ->
  exists b' ls p rest,
    lb_session b stream wants = Ok (b', map cstr ls, rest) /\ lb_ok b' /\ lb_len b' = len /\
    stream = p ++ rest /\ (Nat.min (length wants) (length stream) <= length p)%nat /\
    auto_lines cr0 [] (done ++ p) = (ls0 ++ ls, lb_cr b', content b').
Proof.
  induction wants as [|w ws IH]; intros len b done stream cr0 ls0 Hok Hlen Hshort Hw Hauto.
  - exists b, [], [], stream. cbn [lb_session]. rewrite !app_nil_r.
    split; [reflexivity|]. split; [exact Hok|]. split; [exact Hlen|]. split; [reflexivity|].
    split; [cbn; lia|exact Hauto].
  - inversion Hw as [|? ? Hw1 Hw2]; subst.
    destruct (compact_ok b Hok) as (c & Ec & Hc & Hcc & Hcl & Hcr & Hcs).
    assert (Hnil : no_eol []) by (intros ? []).
    destruct (auto_acc_run _ _ _ _ _ _ Hnil Hauto) as (Hrun & pre & Hpre). cbn [app] in Hpre.
    assert (Hspace : (lb_end c < lb_len c)%nat).
    { pose proof (content_length c Hc) as Hl. rewrite Hcc in Hl.
      assert (length (content b) < lb_len b - lb_len b / 2)%nat.
      { apply (Hshort pre (content b) stream); auto. rewrite app_assoc, <- Hpre. reflexivity. }
      destruct Hc as (? & ? & ?). lia. }
    set (data := firstn (Nat.min w (lb_len c - lb_end c)) stream).
    destruct (update_bytes_ok b (fun size => ReadBytes (firstn (Nat.min w size) stream)) data Hok)
      as (b1 & E1 & Hok1 & Hc1 & Hl1 & Hcr1).
    { intros b' Eb. rewrite Ec in Eb. inversion Eb; subst. reflexivity. }
    { intros b' Eb. rewrite Ec in Eb. inversion Eb; subst. unfold data. rewrite firstn_length. lia. }
    cbn [lb_session]. rewrite E1. cbn [obind].
    destruct (drain_all_ok b1 Hok1) as (b2 & ls1 & E2 & Hok2 & Hl2 & He2 & Ha2). rewrite E2. cbn [obind].
    rewrite Nat2Z.id.
    assert (Hdata : stream = data ++ skipn (length data) stream).
    { unfold data. set (k := Nat.min w (lb_len c - lb_end c)).
      destruct (Nat.le_gt_cases k (length stream)).
      - rewrite firstn_length_le by auto. symmetry. apply firstn_skipn.
      - rewrite firstn_all2 by lia. rewrite skipn_all. now rewrite app_nil_r. }
    assert (Ha3 : auto_lines cr0 [] (done ++ data) = (ls0 ++ ls1, lb_cr b2, content b2)).
    { rewrite auto_app, Hauto. rewrite Hc1, Hcr1 in Ha2.
      rewrite auto_plain in Ha2 by auto. cbn [app] in Ha2. now rewrite Ha2. }
    destruct (IH (lb_len b) b2 (done ++ data) (skipn (length data) stream) cr0 (ls0 ++ ls1))
      as (b3 & ls2 & p & rest & E3 & Hok3 & Hl3 & Hp & Hlen3 & Ha4); auto.
    + congruence.
    + rewrite <- app_assoc, <- Hdata. exact Hshort.
    + rewrite E3. cbn [obind]. exists b3, (ls1 ++ ls2), (data ++ p), rest.
      split; [now rewrite map_app|]. split; [exact Hok3|]. split; [exact Hl3|].
      split; [rewrite <- app_assoc, <- Hp; exact Hdata|].
      split.
      * rewrite app_length. cbn [length].
        assert (Hdl : length data = Nat.min (Nat.min w (lb_len c - lb_end c)) (length stream)) by (unfold data; apply firstn_length).
        rewrite skipn_length in Hlen3. lia.
      * rewrite app_assoc, Ha4. now rewrite app_assoc.
Qed.

(** ** The lines of well-formed streams *)
Lemma auto_lf_split : forall s acc ls cr' acc', ~ In CR s -> ~ In LF acc -> 
  auto_lines false acc s = (ls, cr', acc') -> cr' = false /\ is_split (acc ++ s) [LF] (ls ++ [acc']).
Proof.
  induction s as [|c s IH]; intros acc ls cr' acc' Hcr Ha E; cbn [auto_lines andb] in E.
  - inversion E; subst. split; auto. exists []. rewrite app_nil_r. cbn [app]. repeat split.
    + intros ? [].
    + intros p [Hp|[]]. subst. intros x Hx [Hi|[]]. subst. auto.
  - assert (Hc : c <> CR) by (intros X; apply Hcr; left; auto).
    assert (Hs : ~ In CR s) by (intros X; apply Hcr; right; auto).
    destruct (Ascii.eqb_spec c CR) as [?|_]; [contradiction|]. cbn [orb] in E.
    destruct (Ascii.eqb_spec c LF) as [El|El].
    + destruct (auto_lines false [] s) as [[l2 c2] a2] eqn:E2. inversion E; subst.
      destruct (IH [] l2 cr' acc' Hs) as (A & bt & B1 & B2 & B3 & B4); auto.
      split; auto. exists (LF :: bt). cbn [app length glue]. cbn [app] in B2. rewrite B2.
      repeat split; try (cbn; lia).
      * intros x [Hx|Hx]; [subst; now left|auto].
      * intros p [Hp|Hp]; [subst; intros x Hx [Hi|[]]; subst; auto|auto].
    + destruct (IH (acc ++ [c]) ls cr' acc' Hs) as (A & B); auto.
      * intros X. apply in_app_or in X. destruct X as [X|[X|[]]]; auto.
      * split; auto. rewrite <- app_assoc in B. exact B.
Qed.

Lemma auto_render : forall ls rest, Forall (fun x => no_eol (fst x)) ls -> no_eol rest ->
  auto_lines false [] (render ls ++ rest) = (map fst ls, false, rest).
Proof.
  induction ls as [|(l, e) ls IH]; intros rest Hls Hr; cbn [render map fst].
  - cbn [app]. replace rest with (rest ++ []) at 1 by apply app_nil_r. rewrite auto_plain by auto. reflexivity.
  - inversion Hls; subst. cbn [fst] in *. rewrite <- !app_assoc. rewrite auto_plain by auto. cbn [app].
    destruct e; cbn [eol_text app auto_lines].
    + change (Ascii.eqb LF CR) with false. change (Ascii.eqb LF LF) with true. cbn [andb orb].
      now rewrite IH.
    + change (Ascii.eqb CR LF) with false. change (Ascii.eqb CR CR) with true. change (Ascii.eqb LF LF) with true. cbn [andb orb].
      now rewrite IH.
Qed.

(** Lines each ended by CR. *)
Lemma auto_render_cr : forall ls rest cr, Forall no_eol ls -> no_eol rest ->
  auto_lines cr [] (concat (map (fun l => l ++ [CR]) ls) ++ rest) = (ls, match ls with [] => cr | _ => true end, rest).
Proof.
  induction ls as [|l ls IH]; intros rest cr Hls Hr; cbn [map concat].
  - cbn [app]. replace rest with (rest ++ []) at 1 by apply app_nil_r. rewrite auto_plain by auto. reflexivity.
  - inversion Hls; subst. rewrite <- !app_assoc. rewrite auto_plain by auto. cbn [app auto_lines].
    change (Ascii.eqb CR LF) with false. rewrite andb_false_r. change (Ascii.eqb CR CR) with true. cbn [orb].
    rewrite IH by auto. destruct ls; reflexivity.
Qed.

Lemma cstr_id : forall t, ~ In NUL t -> cstr t = t.
Proof.
  induction t as [|c t IH]; intros H; auto. cbn [cstr].
  destruct (Ascii.eqb_spec c NUL) as [E|E]; [exfalso; apply H; left; auto|].
  rewrite IH; auto. intros X. apply H. now right.
Qed.

(** ** Memory safety of every history of calls *)
Lemma lb_step_ok : forall b o, lb_ok b ->
  (forall f, o = LbUpdate f -> forall n data, f n = ReadBytes data -> (length data <= n)%nat) ->
  (o = LbIncompleteLine -> (lb_end b < lb_len b)%nat) ->
  exists b', lb_step b o = Ok b' /\ lb_ok b' /\ lb_len b' = lb_len b.
Proof.
  intros b o Hok Hf Hi. destruct o as [f| | |]; cbn [lb_step].
  - destruct (compact_ok b Hok) as (c & Ec & Hc & Hcc & Hcl & Hcr & Hcs).
    destruct (f (lb_len c - lb_end c)%nat) as [|data] eqn:Ef.
    + destruct (update_error b f Hok) as (b' & E & Hb & _ & Hl & _).
      { intros b' Eb. rewrite Ec in Eb. inversion Eb; subst. auto. }
      rewrite E. cbn [obind]. eauto.
    + destruct (update_bytes_ok b f data Hok) as (b' & E & Hb & _ & Hl & _).
      { intros b' Eb. rewrite Ec in Eb. inversion Eb; subst. auto. }
      { intros b' Eb. rewrite Ec in Eb. inversion Eb; subst. eapply Hf; eauto. }
      rewrite E. cbn [obind]. eauto.
  - destruct (read_line_ok b Hok) as (b' & l & A & B & C & _). rewrite A. cbn [obind]. eauto.
  - specialize (Hi eq_refl). unfold lb_incomplete_line. pose proof Hok as (H1 & H2 & H3).
    destruct (store_ok (lb_mem b) (lb_end b) [LF]) as (mem' & Es & El & _); [cbn; lia|].
    rewrite Es. cbn [obind].
    destruct (read_line_ok (mk_lb (lb_len b) mem' (lb_start b) (S (lb_end b)) (lb_cr b))) as (b' & l & A & B & C & _).
    { unfold lb_ok; cbn; lia. }
    rewrite A. cbn [obind]. eauto.
  - exists (lb_flush b). repeat split; cbn; try apply Hok; lia.
Qed.

(** IncompleteLine hands out the rest. *)
Lemma incomplete_ok : forall b, lb_ok b -> (lb_end b < lb_len b)%nat -> no_eol (content b) ->
  exists b', lb_incomplete_line b = Ok (b', if lb_cr b then None else Some (cstr (content b))) /\
    lb_ok b' /\ lb_len b' = lb_len b /\ content b' = [] /\ lb_cr b' = false.
Proof.
  intros b Hok Hi Hn. unfold lb_incomplete_line. pose proof Hok as (H1 & H2 & H3).
  destruct (store_ok (lb_mem b) (lb_end b) [LF]) as (mem' & Es & El & Ef & Esk); [cbn; lia|].
  rewrite Es. cbn [obind].
  set (b1 := mk_lb (lb_len b) mem' (lb_start b) (S (lb_end b)) (lb_cr b)).
  assert (Hok1 : lb_ok b1) by (unfold lb_ok, b1; cbn; lia).
  assert (Hc1 : content b1 = content b ++ [LF]).
  { unfold content, b1; cbn [lb_mem lb_start lb_end].
    rewrite (slice_snoc mem' (lb_start b) (lb_end b) LF); [|lia|].
    - f_equal. unfold slice. rewrite !firstn_skipn_comm. replace (lb_start b + (lb_end b - lb_start b))%nat with (lb_end b) by lia.
      now rewrite Ef.
    - rewrite <- (firstn_skipn (lb_end b) mem'). rewrite nth_error_app2; rewrite firstn_length_le by lia; [|lia].
      rewrite Nat.sub_diag, Esk. reflexivity. }
  destruct (read_line_ok b1 Hok1) as (b' & l & A & B & C & D & E).
  rewrite A. exists b'. rewrite Hc1 in E. change (lb_cr b1) with (lb_cr b) in E.
  assert (Hs : forall t cr acc, no_eol t -> scan cr acc (t ++ [LF]) = (false, if cr then None else Some (acc ++ t), [])).
  { clear. induction t as [|c t IH]; intros cr acc Ht; cbn [app scan].
    - change (Ascii.eqb LF LF) with true. change (Ascii.eqb LF CR) with false. rewrite app_nil_r. destruct cr; reflexivity.
    - assert (Hc : Ascii.eqb c CR || Ascii.eqb c LF = false).
      { destruct (Ascii.eqb c CR || Ascii.eqb c LF) eqn:E; auto. exfalso. apply eol_eqb in E. apply (Ht c); cbn; auto. }
      assert (Hlf : Ascii.eqb c LF = false) by (apply orb_false_iff in Hc; tauto).
      rewrite Hc, Hlf, andb_false_r. rewrite IH by (intros x Hx; apply Ht; now right).
      destruct cr; auto. now rewrite <- app_assoc. }
  rewrite Hs in E by auto. cbn [app] in E. inversion E; subst.
  split; [destruct (lb_cr b); reflexivity|]. split; [exact B|]. split; [rewrite C; reflexivity|]. auto.
Qed.
