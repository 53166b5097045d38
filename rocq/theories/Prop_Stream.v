(** Property theorems about the line reader and the G-code streamer:
    C03, C04, C05 (linebuf-reader.cc), C09 (gcode-streamer.cc). *)
From Verif Require Import Text Model_Linebuf Spec_Text Spec_Stream Proofs_StringUtil Proofs_Linebuf.
From Verif Require Import Model_Streamer Proofs_Streamer.

Lemma lb_init_ok : forall len g, length g = len -> lb_ok (lb_init len g).
Proof. intros. unfold lb_ok, lb_init; cbn. lia. Qed.

Lemma lb_init_content : forall len g, content (lb_init len g) = [].
Proof. intros. reflexivity. Qed.

(** C03: two clients reading the same stream to its end through different
    read() results see the same lines and the same unfinished rest, and reading
    as often as there are bytes is always enough to get to the end. *)
Theorem C03_chunk_independent : forall len g1 g2 stream wants1 wants2,
  length g1 = len -> length g2 = len ->
  short_lines len stream ->
  Forall (fun w => (1 <= w)%nat) wants1 -> Forall (fun w => (1 <= w)%nat) wants2 ->
  (length stream <= length wants1)%nat -> (length stream <= length wants2)%nat ->
  exists b1 b2 lines,
    lb_session (lb_init len g1) stream wants1 = Ok (b1, lines, []) /\
    lb_session (lb_init len g2) stream wants2 = Ok (b2, lines, []) /\
    slice (lb_mem b1) (lb_start b1) (lb_end b1) = slice (lb_mem b2) (lb_start b2) (lb_end b2).
Proof.
  intros len g1 g2 stream w1 w2 Hg1 Hg2 Hs Hw1 Hw2 Hl1 Hl2.
  destruct (session_ok w1 len (lb_init len g1) [] stream false []) as (b1 & ls1 & p1 & r1 & A1 & B1 & C1 & D1 & E1 & F1);
    auto using lb_init_ok.
  destruct (session_ok w2 len (lb_init len g2) [] stream false []) as (b2 & ls2 & p2 & r2 & A2 & B2 & C2 & D2 & E2 & F2);
    auto using lb_init_ok.
  assert (Hr : forall p r : text, stream = p ++ r -> (length stream <= length p)%nat -> r = []).
  { intros p r E L. apply (f_equal (@length ascii)) in E. rewrite app_length in E. destruct r; auto. cbn in E. lia. }
  assert (r1 = []) by (apply (Hr p1); [auto|lia]). assert (r2 = []) by (apply (Hr p2); [auto|lia]).
  subst r1 r2. rewrite app_nil_r in D1, D2. subst p1 p2.
  rewrite F1 in F2. cbn [app] in F2. inversion F2 as [[H1 H2 H3]]. subst ls2.
  exists b1, b2, (map cstr ls1). auto.
Qed.
Print Assumptions C03_chunk_independent.

(** C03: the lines of a stream without carriage returns are the pieces between
    the line feeds: after any reads, the lines handed out and the unfinished
    rest are the cut of the bytes received so far at LF (texts containing NUL
    are cut short there, as any C string). At least one byte is received per read. *)
Theorem C03_lines_are_the_cut_at_LF : forall len g stream wants,
  length g = len -> short_lines len stream -> ~ In CR stream ->
  Forall (fun w => (1 <= w)%nat) wants ->
  exists b lines received rest,
    lb_session (lb_init len g) stream wants = Ok (b, map cstr lines, rest) /\
    stream = received ++ rest /\
    (Nat.min (length wants) (length stream) <= length received)%nat /\
    is_split received [LF] (lines ++ [slice (lb_mem b) (lb_start b) (lb_end b)]).
Proof.
  intros len g stream w Hg Hs Hcr Hw.
  destruct (session_ok w len (lb_init len g) [] stream false []) as (b & ls & p & r & A & B & C & D & E & F);
    auto using lb_init_ok.
  exists b, ls, p, r. repeat split; auto.
  cbn [app] in F. apply auto_lf_split in F; auto.
  - destruct F as [_ F]. exact F.
  - intros X. apply Hcr. rewrite D. apply in_or_app. auto.
Qed.
Print Assumptions C03_lines_are_the_cut_at_LF.

(** C05: whatever mixture of LF and CR LF ends the lines and however CR and LF
    are spread over reads, the lines are those written. *)
Theorem C05_line_ends : forall len g lines last wants,
  length g = len -> Forall (fun x => no_eol (fst x)) lines -> no_eol last ->
  short_lines len (render lines ++ last) ->
  Forall (fun w => (1 <= w)%nat) wants ->
  (length (render lines ++ last) <= length wants)%nat ->
  exists b, lb_session (lb_init len g) (render lines ++ last) wants
            = Ok (b, map (fun x => cstr (fst x)) lines, []) /\
            slice (lb_mem b) (lb_start b) (lb_end b) = last.
Proof.
  intros len g lines last w Hg Hl Hr Hs Hw Hn.
  destruct (session_ok w len (lb_init len g) [] (render lines ++ last) false []) as (b & ls & p & r & A & B & C & D & E & F);
    auto using lb_init_ok.
  assert (r = []).
  { apply (f_equal (@length ascii)) in D. rewrite (app_length p r) in D. destruct r; auto. cbn [length] in D. lia. }
  subst r. rewrite app_nil_r in D. subst p. cbn [app] in F.
  rewrite auto_render in F by auto. injection F as H1 H2 H3.
  exists b. split; [|auto]. rewrite A. rewrite <- H1. now rewrite map_map.
Qed.
Print Assumptions C05_line_ends.

(** C05: streams using CR alone consistently are read as well. *)
Theorem C05_cr_only : forall len g lines last wants,
  length g = len -> Forall no_eol lines -> no_eol last ->
  short_lines len (concat (map (fun l => l ++ [CR]) lines) ++ last) ->
  Forall (fun w => (1 <= w)%nat) wants ->
  (length (concat (map (fun l => l ++ [CR]) lines) ++ last) <= length wants)%nat ->
  exists b, lb_session (lb_init len g) (concat (map (fun l => l ++ [CR]) lines) ++ last) wants
            = Ok (b, map cstr lines, []) /\
            slice (lb_mem b) (lb_start b) (lb_end b) = last.
Proof.
  intros len g lines last w Hg Hl Hr Hs Hw Hn.
  set (st := concat (map (fun l => l ++ [CR]) lines) ++ last) in *.
  destruct (session_ok w len (lb_init len g) [] st false []) as (b & ls & p & r & A & B & C & D & E & F);
    auto using lb_init_ok.
  assert (r = []).
  { apply (f_equal (@length ascii)) in D. rewrite (app_length p r) in D. destruct r; auto. cbn [length] in D. lia. }
  subst r. rewrite app_nil_r in D. subst p. cbn [app] in F. unfold st in F.
  rewrite auto_render_cr in F by auto. injection F as H1 H2 H3.
  exists b. split; [|auto]. rewrite A. now rewrite <- H1.
Qed.
Print Assumptions C05_cr_only.

(** C05, finding: after a line ended by a lone CR a following line ended by LF
    is swallowed (here "G1" of "M5 CR G1 LF M3 LF"). *)
Theorem C05_lone_cr_swallows_line_refuted :
  exists stream wants b, short_lines 32 stream /\ Forall (fun w => (1 <= w)%nat) wants /\
    stream = txt "M5" ++ [CR] ++ txt "G1" ++ [LF] ++ txt "M3" ++ [LF] /\
    lb_session (lb_init 32 (repeat NUL 32)) stream wants = Ok (b, [txt "M5"; txt "M3"], []).
Proof.
  exists (txt "M5" ++ [CR] ++ txt "G1" ++ [LF] ++ txt "M3" ++ [LF]), [5%nat; 30%nat].
  eexists. split; [|split; [|split]].
  - intros p q r E _. apply (f_equal (@length ascii)) in E. rewrite !app_length in E. cbn in *. lia.
  - repeat constructor; lia.
  - reflexivity.
  - vm_compute. reflexivity.
Qed.
Print Assumptions C05_lone_cr_swallows_line_refuted.

(** Short lines are needed: with a line of half the buffer length or more the
    buffer can fill up, the next read is offered no space and returns 0, which
    the client takes for the end of the stream. *)
Theorem C03_long_line_stalls_refuted :
  exists stream wants b, Forall (fun w => (1 <= w)%nat) wants /\
    (length stream <= length wants)%nat /\
    lb_session (lb_init 4 (repeat NUL 4)) stream wants = Ok (b, [], txt "e") .
Proof.
  exists (txt "abcde"), [5%nat; 5%nat; 5%nat; 5%nat; 5%nat]. eexists.
  split; [repeat constructor; lia|]. split; [cbn; lia|]. vm_compute. reflexivity.
Qed.
Print Assumptions C03_long_line_stalls_refuted.

Lemma short_by_length : forall len s, (length s < len - len / 2)%nat -> short_lines len s.
Proof.
  intros len s H p q r E _. apply (f_equal (@length ascii)) in E. rewrite !app_length in E. lia.
Qed.

Example C03_C05_example :
  let stream := txt "G1" ++ [LF; LF] ++ txt "G2" ++ [CR; LF] ++ txt "X" in
  short_lines 20 stream /\
  stream = render [(txt "G1", EolLF); ([], EolLF); (txt "G2", EolCRLF)] ++ txt "X" /\
  (exists b, lb_session (lb_init 20 (repeat "a"%char 20)) stream [1; 3; 2; 1; 1; 1; 1; 1; 1]%nat
   = Ok (b, [txt "G1"; []; txt "G2"], []) /\ slice (lb_mem b) (lb_start b) (lb_end b) = txt "X").
Proof.
  cbv zeta. split; [|split].
  - apply short_by_length. cbn. lia.
  - reflexivity.
  - eexists. split; vm_compute; reflexivity.
Qed.

(** C04: no history of calls, with any read() results within the size offered,
    touches memory outside the buffer, except IncompleteLine called with the
    content reaching the end of the buffer. *)
Definition read_ok (o : lb_op) : Prop :=
  match o with
  | LbUpdate f => forall n data, f n = ReadBytes data -> (length data <= n)%nat
  | _ => True
  end.

(** Each IncompleteLine of the history is called on a buffer not filled to the end. *)
Fixpoint incomplete_has_room (b : linebuf) (os : list lb_op) : Prop :=
  match os with
  | [] => True
  | o :: r =>
      (o = LbIncompleteLine -> (lb_end b < lb_len b)%nat) /\
      match lb_step b o with Ok b' => incomplete_has_room b' r | Undefined => True end
  end.

Lemma lb_run_safe : forall os b, lb_ok b -> Forall read_ok os -> incomplete_has_room b os ->
  exists b', lb_run b os = Ok b' /\ lb_ok b'.
Proof.
  induction os as [|o os IH]; intros b Hok Hr Hi; cbn [lb_run].
  - eauto.
  - inversion Hr; subst. destruct Hi as [Hi1 Hi2].
    destruct (lb_step_ok b o Hok) as (b' & E & Hok' & Hl).
    + intros f Ef. subst. cbn in *. auto.
    + exact Hi1.
    + rewrite E in *. cbn [obind]. apply IH; auto.
Qed.

Lemma lb_run_len : forall os b b', lb_run b os = Ok b' -> lb_ok b -> Forall read_ok os -> incomplete_has_room b os -> lb_len b' = lb_len b.
Proof.
  induction os as [|o os IH]; intros b b' H Hok Hr Hi; cbn [lb_run] in H; [congruence|].
  inversion Hr; subst. destruct Hi as [Hi1 Hi2].
  destruct (lb_step_ok b o Hok) as (b1 & E & Hok' & Hl); [intros f Ef; subst; cbn in *; auto|exact Hi1|].
  rewrite E in *. cbn [obind] in H. rewrite (IH b1 b'); auto.
Qed.

Theorem C04_stays_in_buffer : forall len g history,
  length g = len -> Forall read_ok history -> incomplete_has_room (lb_init len g) history ->
  exists b, lb_run (lb_init len g) history = Ok b /\
    (lb_start b <= lb_end b <= len)%nat.
Proof.
  intros len g os Hg Hr Hi.
  pose proof lb_run_len as Hl.
  destruct (lb_run_safe os (lb_init len g)) as (b & E & B1 & B2 & B3); auto using lb_init_ok.
  exists b. split; auto. pose proof (Hl _ _ _ E (lb_init_ok _ _ Hg) Hr Hi) as Hll. rewrite Hll in B3. cbn [lb_len lb_init] in B3. lia.
Qed.
Print Assumptions C04_stays_in_buffer.

(** C03: after Flush, whatever happened before, the reader hands out the lines of
    what it is fed from then on, as a new one would, if the last line end seen
    was not a lone CR. *)
Theorem C03_flush_forgets : forall len g history b g2 stream wants,
  length g = len -> Forall read_ok history -> incomplete_has_room (lb_init len g) history ->
  lb_run (lb_init len g) history = Ok b -> lb_cr b = false ->
  length g2 = len -> short_lines len stream -> Forall (fun w => (1 <= w)%nat) wants ->
  (length stream <= length wants)%nat ->
  exists b1 b2 lines,
    lb_session (lb_flush b) stream wants = Ok (b1, lines, []) /\
    lb_session (lb_init len g2) stream wants = Ok (b2, lines, []) /\
    slice (lb_mem b1) (lb_start b1) (lb_end b1) = slice (lb_mem b2) (lb_start b2) (lb_end b2).
Proof.
  intros len g os b g2 stream w Hg Hr Hi E Hcr Hg2 Hs Hw Hl.
  destruct (lb_run_safe os (lb_init len g)) as (b' & E' & Hok); auto using lb_init_ok.
  rewrite E in E'. injection E' as <-.
  assert (Hlen : lb_len b = len).
  { pose proof (lb_run_len os (lb_init len g) b E (lb_init_ok _ _ Hg) Hr Hi). auto. }
  assert (lb_ok (lb_flush b)) as Hf. { destruct Hok as (B1 & _ & _). unfold lb_ok, lb_flush; cbn. lia. }
  destruct (session_ok w len (lb_flush b) [] stream false []) as (b1 & ls1 & p1 & r1 & A1 & B1 & C1 & D1 & E1 & F1); auto.
  { unfold lb_flush, content, slice; cbn. now rewrite Hcr. }
  destruct (session_ok w len (lb_init len g2) [] stream false []) as (b2 & ls2 & p2 & r2 & A2 & B2 & C2 & D2 & E2 & F2);
    auto using lb_init_ok.
  assert (Hrest : forall p r : text, stream = p ++ r -> (length stream <= length p)%nat -> r = []).
  { intros p r E3 L. apply (f_equal (@length ascii)) in E3. rewrite app_length in E3. destruct r; auto. cbn in E3. lia. }
  assert (r1 = []) by (apply (Hrest p1); [auto|lia]). assert (r2 = []) by (apply (Hrest p2); [auto|lia]).
  subst r1 r2. rewrite app_nil_r in D1, D2. subst p1 p2.
  rewrite F1 in F2. cbn [app] in F2. inversion F2 as [[H1 H2 H3]]. subst ls2.
  exists b1, b2, (map cstr ls1). auto.
Qed.
Print Assumptions C03_flush_forgets.

(** After a lone CR it is not forgotten: the first line fed after Flush is lost. *)
Theorem C03_flush_after_cr_refuted : exists b b',
  lb_run (lb_init 32 (repeat NUL 32)) [LbUpdate (fun n => ReadBytes (firstn n (txt "M5" ++ [CR]))); LbReadLine] = Ok b /\
  lb_session (lb_flush b) (txt "G1" ++ [LF] ++ txt "G2" ++ [LF]) [10%nat] = Ok (b', [txt "G2"], []).
Proof. eexists. eexists. split; vm_compute; reflexivity. Qed.
Print Assumptions C03_flush_after_cr_refuted.

Example C03_flush_example : exists b,
  lb_run (lb_init 32 (repeat NUL 32)) [LbUpdate (fun n => ReadBytes (firstn n (txt "M5" ++ [LF] ++ txt "unfinished"))); LbReadLine] = Ok b /\
  lb_cr b = false /\ lb_size b = 10%nat /\ lb_size (lb_flush b) = 0%nat.
Proof. eexists. split; [vm_compute; reflexivity|]. repeat split. Qed.

(** Without the room IncompleteLine writes one byte past the buffer. *)
Theorem C04_incomplete_line_overflow_refuted :
  exists history, Forall read_ok history /\
    lb_run (lb_init 4 (repeat NUL 4)) history = Undefined.
Proof.
  exists [LbUpdate (fun n => ReadBytes (firstn n (txt "G1 X10 Y20"))); LbReadLine; LbIncompleteLine].
  split.
  - repeat constructor. intros n data E. inversion E. rewrite firstn_length. lia.
  - reflexivity.
Qed.
Print Assumptions C04_incomplete_line_overflow_refuted.

(** With the short lines of C03 the client never runs into that case: whatever
    has been read, one more Update at the end of the stream leaves room. *)
Theorem C04_short_lines_leave_room : forall len g stream wants,
  length g = len -> short_lines len stream -> Forall (fun w => (1 <= w)%nat) wants ->
  exists b lines rest b',
    lb_session (lb_init len g) stream wants = Ok (b, lines, rest) /\
    lb_update b (fun _ => ReadBytes []) = Ok (b', 0) /\ (lb_end b' < lb_len b')%nat.
Proof.
  intros len g stream w Hg Hs Hw.
  destruct (session_ok w len (lb_init len g) [] stream false []) as (b & ls & p & r & A & B & C & D & E & F);
    auto using lb_init_ok.
  destruct (compact_ok b B) as (c & Ec & Hc & Hcc & Hcl & Hcr & Hcs).
  assert (Hnil : no_eol []) by (intros ? []).
  destruct (auto_acc_run _ _ _ _ _ _ Hnil F) as (Hrun & pre & Hpre). cbn [app] in Hpre.
  pose proof (content_length c Hc) as Hl. rewrite Hcc in Hl.
  assert (length (content b) < len - len / 2)%nat.
  { apply (Hs pre (content b) r); auto. rewrite D. rewrite app_assoc. f_equal. exact Hpre. }
  pose proof Hc as (Hc1 & Hc2 & Hc3).
  destruct (store_ok (lb_mem c) (lb_end c) []) as (mem' & Es & El & _); [cbn; lia|].
  exists b, (map cstr ls), r. unfold lb_update. rewrite Ec. cbn [obind]. rewrite Es. cbn [obind length].
  eexists. split; [exact A|]. split; [reflexivity|]. cbn [lb_end lb_len]. rewrite C in Hcs. lia.
Qed.
Print Assumptions C04_short_lines_leave_room.

(** C09: any number of connections one after the other. Every line of every
    connection is executed once, in order, the unterminated rest last, then the
    end of the stream is reported once and the descriptor closed - for every
    way the bytes arrive, with timeouts anywhere in between, and whether the
    stream ends regularly or by a read error. *)
Definition conn_wf (len : nat) (c : connection) (lines : list (text * eol)) (last : text) : Prop :=
  0 <= c_fd c /\ c_stream c = render lines ++ last /\
  Forall (fun x => no_eol (fst x)) lines /\ no_eol last /\
  short_lines len (c_stream c) /\
  reads_progress (c_sched c) /\ (length (c_stream c) < reads (c_sched c))%nat.

Lemma st_connections_ok : forall len cs desc s, st_free len s ->
  Forall2 (fun c d => conn_wf len c (fst d) (snd d)) cs desc ->
  exists s' ev, st_connections s cs = Ok (s', ev) /\ st_free len s' /\
    filter not_idle ev =
    concat (map (fun '(c, d) => expected (c_fd c) (map (fun x => cstr (fst x)) (fst d)) (cstr (snd d))) (combine cs desc)).
Proof.
  intros len cs desc s Hf H. revert s Hf. induction H as [|c d cs ds Hc H IH]; intros s Hf.
  - exists s, []. repeat split; auto; apply Hf.
  - destruct Hc as (H1 & H2 & H3 & H4 & H5 & H6 & H7). rewrite H2 in H5, H7.
    destruct (st_conn_ok len s (c_fd c) (fst d) (snd d) (c_fails c) (c_sched c)) as (s1 & ev1 & A & B & C); auto.
    destruct (IH s1 B) as (s2 & ev2 & A2 & B2 & C2).
    cbn [st_connections]. destruct (st_connect s (c_fd c)) as [s0 ok]. cbn [fst] in A. rewrite H2, A. cbn [obind].
    rewrite A2. cbn [obind]. exists s2, (ev1 ++ ev2). split; [reflexivity|]. split; [exact B2|].
    rewrite filter_app, C, C2. reflexivity.
Qed.

Theorem C09_every_line_once_in_order : forall len g cs desc,
  length g = len ->
  Forall2 (fun c d => conn_wf len c (fst d) (snd d)) cs desc ->
  exists s' ev, st_connections (st_init len g) cs = Ok (s', ev) /\
    filter not_idle ev =
    concat (map (fun '(c, (lines, last)) =>
        map EvBlock (map (fun x => cstr (fst x)) lines) ++
        [EvBlock (cstr last); EvFinished true; EvClosed (c_fd c)]) (combine cs desc)) /\
    st_fd s' = -1.
Proof.
  intros len g cs desc Hg H.
  destruct (st_connections_ok len cs desc (st_init len g)) as (s' & ev & A & B & C); auto.
  - repeat split; cbn; auto; lia.
  - exists s', ev. split; auto. split; [|apply B]. rewrite C. f_equal. apply map_ext. intros [c [l la]]. reflexivity.
Qed.
Print Assumptions C09_every_line_once_in_order.

(** C09: at any moment before the stream has been read to its end, what has been
    executed is an initial part of that. *)
Theorem C09_prefix_at_any_time : forall len g fd lines last fails sched,
  length g = len -> 0 <= fd -> Forall (fun x => no_eol (fst x)) lines -> no_eol last ->
  short_lines len (render lines ++ last) -> reads_progress sched ->
  exists s' ev rest later,
    st_run (fst (st_connect (st_init len g) fd)) (render lines ++ last) fails sched = Ok (s', ev, rest) /\
    filter not_idle ev ++ later =
    map EvBlock (map (fun x => cstr (fst x)) lines) ++ [EvBlock (cstr last); EvFinished true; EvClosed fd].
Proof.
  intros len g fd lines last fails sched Hg Hfd Hl Hr Hs Hp.
  set (full := sched ++ repeat (Some 1%nat) (Datatypes.S (length (render lines ++ last)))).
  destruct (st_conn_ok len (st_init len g) fd lines last fails full) as (s1 & ev1 & A & B & C); auto.
  - repeat split; cbn; auto; lia.
  - intros w Hw. unfold full in Hw. apply in_app_or in Hw. destruct Hw as [Hw|Hw]; [now apply Hp|].
    apply repeat_spec in Hw. inversion Hw. lia.
  - unfold full, reads. generalize (length (render lines ++ last)). intros n0. rewrite filter_app, app_length.
    assert (forall n, length (filter (fun o : option nat => match o with Some _ => true | None => false end) (repeat (Some 1%nat) n)) = n)
      by (induction n; cbn; auto).
    rewrite H. lia.
  - destruct (st_run (fst (st_connect (st_init len g) fd)) (render lines ++ last) fails sched) as [[[s' ev] rest]|] eqn:E.
    + unfold full in A. rewrite (st_run_app _ _ _ _ _ _ _ _ E) in A.
      match type of A with obind ?x _ = _ => destruct x as [[[s2 ev2] r2]|]; [|discriminate] end.
      cbn [obind] in A. inversion A; subst.
      exists s', ev, rest, (filter not_idle ev2). split; auto. rewrite filter_app in C. exact C.
    + unfold full in A. rewrite (st_run_app_undefined _ _ _ _ _ E) in A. discriminate.
Qed.
Print Assumptions C09_prefix_at_any_time.

(** C09: a second connection while one is active is refused without effect. *)
Theorem C09_second_connection_refused : forall s fd fd', 0 <= fd ->
  let '(s1, ok1) := st_connect s fd in
  ok1 = true \/ 0 <= st_fd s ->
  st_connect s1 fd' = (s1, false).
Proof.
  intros s fd fd' Hfd. unfold st_connect at 1. destruct (0 <=? st_fd s) eqn:E; intros _.
  - unfold st_connect. now rewrite E.
  - unfold st_connect. cbn [st_fd]. replace (0 <=? fd) with true by lia. reflexivity.
Qed.
Print Assumptions C09_second_connection_refused.

(** C09, finding: an unterminated last line following a line ended by a lone CR
    is never executed. *)
Theorem C09_last_line_after_cr_lost_refuted :
  exists s', st_run (fst (st_connect (st_init 32 (repeat NUL 32)) 3)) (txt "M5" ++ [CR] ++ txt "M3") false
      [Some 20%nat; Some 20%nat] =
    Ok (s', [EvBlock (txt "M5"); EvFinished true; EvClosed 3], []).
Proof. eexists. vm_compute. reflexivity. Qed.
Print Assumptions C09_last_line_after_cr_lost_refuted.

Example C09_example :
  let c1 := mk_conn 5 (txt "G1" ++ [LF] ++ txt "G2") false
              [Some 1; None; Some 3; Some 1; Some 9; Some 1; Some 9]%nat in
  let c2 := mk_conn 5 (txt "M5" ++ [CR; LF]) true [None; Some 3; Some 1; Some 1; Some 7; Some 1; None]%nat in
  let d := [([(txt "G1", EolLF)], txt "G2"); ([(txt "M5", EolCRLF)], [])] in
  Forall2 (fun c d => conn_wf 20 c (fst d) (snd d)) [c1; c2] d /\
  exists s', st_connections (st_init 20 (repeat NUL 20)) [c1; c2] =
    Ok (s', [EvIdle true; EvBlock (txt "G1"); EvBlock (txt "G2"); EvFinished true; EvClosed 5;
             EvIdle false; EvBlock (txt "M5"); EvBlock []; EvFinished true; EvClosed 5; EvIdle false]).
Proof.
  cbv zeta. split.
  - assert (Hn : forall s, (forallb (fun c => negb (Ascii.eqb c CR || Ascii.eqb c LF)) s) = true -> no_eol s).
    { intros s H c Hc Hi. rewrite forallb_forall in H. apply H in Hc. apply eol_eqb in Hi. rewrite Hi in Hc. discriminate. }
    assert (Hp : forall l, forallb (fun o => match o with Some w => Nat.leb 1 w | None => true end) l = true -> reads_progress l).
    { intros l H w Hw. rewrite forallb_forall in H. apply H in Hw. now apply Nat.leb_le. }
    constructor; [|constructor; [|constructor]];
      (refine (conj _ (conj _ (conj _ (conj _ (conj _ (conj _ _)))))); cbn [c_fd c_stream c_sched fst snd];
       [lia|reflexivity| |apply Hn; reflexivity|apply short_by_length; cbn; lia|apply Hp; reflexivity|cbn; lia]);
      (constructor; [apply Hn; reflexivity|constructor]).
  - eexists. vm_compute. reflexivity.
Qed.
