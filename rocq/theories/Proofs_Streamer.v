From Verif Require Import Text Lib_List Model_Linebuf Spec_Text Spec_Stream Proofs_StringUtil Proofs_Linebuf Model_Streamer.

(** Between connections *)
Definition st_free (len : nat) (s : streamer) : Prop :=
  lb_ok (st_buf s) /\ lb_len (st_buf s) = len /\ content (st_buf s) = [] /\
  lb_cr (st_buf s) = false /\ st_fd s = -1 /\ st_registered s = false.

Lemma st_run_unregistered : forall sched s stream fails, st_registered s = false ->
  exists s' ev, st_run s stream fails sched = Ok (s', ev, stream) /\ filter not_idle ev = [] /\
    st_buf s' = st_buf s /\ st_fd s' = st_fd s /\ st_registered s' = false.
Proof.
  induction sched as [|[w|] r IH]; intros s stream fails Hr; cbn [st_run].
  - exists s, []. auto.
  - rewrite Hr. apply IH. exact Hr.
  - unfold st_timeout.
    destruct (IH (mk_st (st_buf s) (st_fd s) (st_registered s) false (st_lines s)) stream fails) as (s' & ev & A & B & C & D & E); [exact Hr|].
    rewrite A. cbn [obind]. exists s', ([EvIdle (st_processing s)] ++ ev). cbn [app filter not_idle]. auto.
Qed.

Lemma filter_blocks : forall ls, filter not_idle (map EvBlock ls) = map EvBlock ls.
Proof. induction ls; cbn; congruence. Qed.

Lemma st_run_ok : forall sched len s done stream fails ls0 L R,
  lb_ok (st_buf s) -> lb_len (st_buf s) = len -> short_lines len (done ++ stream) ->
  reads_progress sched -> (length stream < reads sched)%nat ->
  st_registered s = true ->
  auto_lines false [] done = (ls0, lb_cr (st_buf s), content (st_buf s)) ->
  auto_lines false [] (done ++ stream) = (ls0 ++ L, false, R) ->
  exists s' ev,
    st_run s stream fails sched = Ok (s', ev, []) /\ st_free len s' /\
    filter not_idle ev = map EvBlock (map cstr L) ++ [EvBlock (cstr R); EvFinished true; EvClosed (st_fd s)].
Proof.
  induction sched as [|[w|] r IH]; intros len s done stream fails ls0 L R Hok Hlen Hshort Hprog Hreads Hreg Hauto Hfull.
  - cbn in Hreads. lia.
  - cbn [st_run]. rewrite Hreg.
    set (b := st_buf s) in *.
    destruct (compact_ok b Hok) as (c & Ec & Hc & Hcc & Hcl & Hcr & Hcs).
    assert (Hnil : no_eol []) by (intros ? []).
    destruct (auto_acc_run _ _ _ _ _ _ Hnil Hauto) as (Hrun & pre & Hpre). cbn [app] in Hpre.
    assert (Hspace : (lb_end c < lb_len c)%nat).
    { pose proof (content_length c Hc) as Hl. rewrite Hcc in Hl.
      assert (length (content b) < lb_len b - lb_len b / 2)%nat.
      { rewrite Hlen. apply (Hshort pre (content b) stream); auto. rewrite app_assoc, <- Hpre. reflexivity. }
      destruct Hc as (? & ? & ?). lia. }
    assert (Hw : (1 <= w)%nat) by (apply Hprog; now left).
    destruct stream as [|ch stream].
    + (* end of stream *)
      rewrite app_nil_r in *. rewrite Hauto in Hfull.
      assert (HL : L = []).
      { inversion Hfull as [[H1 H2 H3]]. rewrite <- (app_nil_r ls0) in H1 at 1. apply app_inv_head in H1. auto. }
      subst L. inversion Hfull as [[H1 H2 H3]].
      assert (Hup : exists b1 n, lb_update b (conn_read [] fails w) = Ok (b1, n) /\ n <= 0 /\ lb_ok b1 /\
                 lb_len b1 = lb_len b /\ lb_cr b1 = lb_cr b /\ content b1 = content b /\ (lb_end b1 < lb_len b1)%nat).
      { destruct fails.
        - destruct (update_error b (conn_read [] true w) Hok) as (b1 & E1 & Hok1 & Hc1 & Hl1 & Hcr1 & Ecc); [reflexivity|].
          exists b1, (-1). rewrite Ec in Ecc. inversion Ecc; subst b1. repeat split; auto; try lia; apply Hok1.
        - unfold lb_update. rewrite Ec. cbn [obind conn_read].
          destruct (store_ok (lb_mem c) (lb_end c) []) as (mem' & Es & El & Ef & Esk); [cbn; destruct Hc; lia|].
          rewrite Es. cbn [obind length]. rewrite Nat.add_0_r.
          assert (mem' = lb_mem c).
          { rewrite <- (firstn_skipn (lb_end c) mem'), Ef, Esk. cbn [app length]. rewrite Nat.add_0_r. apply firstn_skipn. }
          subst mem'. exists c, 0. split; [destruct c; reflexivity|]. repeat split; auto; try lia; apply Hc. }
      destruct Hup as (b1 & n & E1 & Hn & Hok1 & Hl1 & Hcr1 & Hc1 & Hend1).
      destruct (incomplete_ok b1 Hok1 Hend1) as (b2 & E2 & Hok2 & Hl2 & Hc2 & Hcr2); [rewrite Hc1; exact Hrun|].
      rewrite E1. unfold st_on_readable, st_read_data. fold b. rewrite E1. cbn [obind].
      replace (n <=? 0) with true by lia. rewrite E2. cbn [obind].
      replace (lb_cr b1) with false by congruence. unfold st_close. cbn [st_buf st_fd st_registered st_processing st_lines obind].
      rewrite skipn_nil.
      destruct (st_run_unregistered r (mk_st b2 (-1) false false (st_lines s)) [] fails eq_refl)
        as (s' & ev & A & B & C & D & E).
      rewrite A. cbn [obind]. eexists. eexists. split; [reflexivity|]. split.
      * unfold st_free. rewrite C, D, E. cbn [st_buf st_fd]. repeat split; auto; try apply Hok2; congruence.
      * rewrite filter_app, B, app_nil_r. cbn [app filter not_idle map]. rewrite Hc1. congruence.
    + (* more bytes *)
      remember (ch :: stream) as stream' eqn:Estr.
      set (data := firstn (Nat.min w (lb_len c - lb_end c)) stream').
      assert (Hdl : (1 <= length data <= length stream')%nat).
      { unfold data. rewrite firstn_length. subst stream'. cbn [length]. lia. }
      destruct (update_bytes_ok b (conn_read stream' fails w) data Hok)
        as (b1 & E1 & Hok1 & Hc1 & Hl1 & Hcr1).
      { intros b' Eb. rewrite Ec in Eb. inversion Eb; subst. reflexivity. }
      { intros b' Eb. rewrite Ec in Eb. inversion Eb; subst. unfold data. rewrite firstn_length. lia. }
      rewrite E1. unfold st_on_readable, st_read_data. fold b. rewrite E1. cbn [obind].
      replace (Z.of_nat (length data) <=? 0) with false by lia.
      destruct (drain_all_ok b1 Hok1) as (b2 & ls1 & E2 & Hok2 & Hl2 & He2 & Ha2). rewrite E2. cbn [obind].
      cbn [st_buf st_fd st_registered st_processing st_lines].
      rewrite Nat2Z.id.
      assert (Hdata : stream' = data ++ skipn (length data) stream').
      { unfold data. set (k := Nat.min w (lb_len c - lb_end c)).
        destruct (Nat.le_gt_cases k (length stream')).
        - rewrite firstn_length_le by auto. symmetry. apply firstn_skipn.
        - rewrite firstn_all2 by lia. rewrite skipn_all. now rewrite app_nil_r. }
      assert (Ha3 : auto_lines false [] (done ++ data) = (ls0 ++ ls1, lb_cr b2, content b2)).
      { rewrite auto_app, Hauto. rewrite Hc1, Hcr1 in Ha2.
        rewrite auto_plain in Ha2 by auto. cbn [app] in Ha2. now rewrite Ha2. }
      assert (HL : exists L', L = ls1 ++ L').
      { rewrite Hdata in Hfull. rewrite app_assoc, auto_app, Ha3 in Hfull.
        destruct (auto_lines (lb_cr b2) (content b2) (skipn (length data) stream')) as [[l2 c2] a2].
        inversion Hfull as [[H1 H2 H3]]. rewrite <- app_assoc in H1. apply app_inv_head in H1. eauto. }
      destruct HL as (L' & HL). subst L.
      destruct (IH len (mk_st b2 (st_fd s) true true (st_lines s + Z.of_nat (length (map cstr ls1))))
                   (done ++ data) (skipn (length data) stream') fails (ls0 ++ ls1) L' R)
        as (s' & ev & A & B & C); auto.
      * cbn [st_buf]. congruence.
      * rewrite <- app_assoc, <- Hdata. exact Hshort.
      * intros x Hx. apply Hprog. now right.
      * rewrite skipn_length. unfold reads in *. cbn [filter length] in Hreads. lia.
      * rewrite <- app_assoc, <- Hdata, Hfull, app_assoc. reflexivity.
      * rewrite A. cbn [obind]. eexists. eexists. split; [reflexivity|]. split; [exact B|].
        rewrite filter_app, C, filter_blocks. cbn [st_fd]. rewrite !map_app, <- app_assoc. reflexivity.
  - cbn [st_run]. unfold st_timeout.
    destruct (IH len (mk_st (st_buf s) (st_fd s) (st_registered s) false (st_lines s)) done stream fails ls0 L R)
      as (s' & ev & A & B & C); auto.
    + intros x Hx. apply Hprog. now right.
    + rewrite A. cbn [obind]. exists s', ([EvIdle (st_processing s)] ++ ev). cbn [app filter not_idle st_fd] in *. auto.
Qed.

Lemma st_run_app : forall a b s stream fails s1 ev1 r1,
  st_run s stream fails a = Ok (s1, ev1, r1) ->
  st_run s stream fails (a ++ b) =
  obind (st_run s1 r1 fails b) (fun '(s2, ev2, r2) => Ok (s2, ev1 ++ ev2, r2)).
Proof.
  induction a as [|o a IH]; intros b s stream fails s1 ev1 r1 H; cbn [app].
  - cbn [st_run] in H. inversion H; subst. destruct (st_run s1 r1 fails b) as [[[? ?] ?]|]; reflexivity.
  - destruct o as [w|]; cbn [st_run] in *.
    + destruct (st_registered s); [|apply IH; exact H].
      destruct (st_on_readable s (conn_read stream fails w)) as [[s' ev]|]; [|discriminate]. cbn [obind] in *.
      destruct (lb_update (st_buf s) (conn_read stream fails w)) as [[? n]|]; [|discriminate].
      destruct (st_run s' (skipn (Z.to_nat n) stream) fails a) as [[[s2 ev2] r2]|] eqn:E; [|discriminate].
      cbn [obind] in H. inversion H; subst. rewrite (IH b _ _ _ _ _ _ E).
      destruct (st_run s1 r1 fails b) as [[[? ?] ?]|]; cbn [obind]; [now rewrite app_assoc|reflexivity].
    + unfold st_timeout in *.
      match type of H with obind (st_run ?x _ _ _) _ = _ => set (s0 := x) in * end.
      destruct (st_run s0 stream fails a) as [[[s2 ev2] r2]|] eqn:E; [|discriminate].
      cbn [obind] in H. inversion H; subst. rewrite (IH b _ _ _ _ _ _ E).
      destruct (st_run s1 r1 fails b) as [[[? ?] ?]|]; cbn [obind]; [now rewrite app_assoc|reflexivity].
Qed.

Lemma st_run_app_undefined : forall a b s stream fails,
  st_run s stream fails a = Undefined -> st_run s stream fails (a ++ b) = Undefined.
Proof.
  induction a as [|o a IH]; intros b s stream fails H; cbn [app]; [discriminate|].
  destruct o as [w|]; cbn [st_run] in *.
  - destruct (st_registered s); [|now apply IH].
    destruct (st_on_readable s (conn_read stream fails w)) as [[s' ev]|]; [|reflexivity]. cbn [obind] in *.
    destruct (lb_update (st_buf s) (conn_read stream fails w)) as [[? n]|]; [|reflexivity].
    destruct (st_run s' (skipn (Z.to_nat n) stream) fails a) as [[[s2 ev2] r2]|] eqn:E; [discriminate|].
    rewrite (IH b _ _ _ E). reflexivity.
  - unfold st_timeout in *.
    match type of H with obind (st_run ?x _ _ _) _ = _ => set (s0 := x) in * end.
    destruct (st_run s0 stream fails a) as [[[s2 ev2] r2]|] eqn:E; [discriminate|].
    rewrite (IH b _ _ _ E). reflexivity.
Qed.

(** A connection whose lines are ended by LF or CR LF *)
Lemma st_conn_ok : forall len s fd lines last fails sched,
  st_free len s -> 0 <= fd ->
  Forall (fun x => no_eol (fst x)) lines -> no_eol last ->
  short_lines len (render lines ++ last) ->
  reads_progress sched -> (length (render lines ++ last) < reads sched)%nat ->
  exists s' ev,
    st_run (fst (st_connect s fd)) (render lines ++ last) fails sched = Ok (s', ev, []) /\ st_free len s' /\
    filter not_idle ev = expected fd (map (fun x => cstr (fst x)) lines) (cstr last).
Proof.
  intros len s fd lines last fails sched (F1 & F2 & F3 & F4 & F5 & F6) Hfd Hl Hr Hs Hp Hn.
  unfold st_connect. replace (0 <=? st_fd s) with false by lia. cbn [fst].
  destruct (st_run_ok sched len (mk_st (st_buf s) fd true (st_processing s) 0) [] (render lines ++ last) fails [] (map fst lines) last)
    as (s' & ev & A & B & C); auto.
  - cbn [st_buf auto_lines]. congruence.
  - cbn [app]. now apply auto_render.
  - exists s', ev. split; auto. split; auto. rewrite C. unfold expected. cbn [st_fd]. now rewrite !map_map.
Qed.
