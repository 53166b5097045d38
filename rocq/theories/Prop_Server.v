(** C77: the servers. *)
From Verif Require Import Text Model_FdMux Spec_FdMux Proofs_FdMux Prop_FdMux Model_Linebuf Model_Streamer Spec_Text Spec_Stream Proofs_Linebuf Proofs_Streamer Prop_Stream Model_Server Spec_Server.

(** ** Descriptors *)
Lemma lowest_free : forall t f fd, (length (filter (fun e => (fd <=? fst e)%Z) t) <= f)%nat -> ~ In (lowest f fd t) (map fst t) /\ fd <= lowest f fd t.
Proof.
  intros t. induction f as [|f IH]; intros fd L; cbn [lowest].
  - split; [|lia]. intros I. apply in_map_iff in I. destruct I as (e & E & I).
    assert (J : In e (filter (fun e => (fd <=? fst e)%Z) t)) by (apply filter_In; split; [exact I|lia]). destruct (filter _ t); [destruct J|cbn in L; lia].
  - destruct (existsb (fun e => fst e =? fd) t) eqn:X.
    + apply existsb_exists in X. destruct X as (e & I & E). destruct (IH (fd + 1)) as [A B]; [|split; [exact A|lia]].
      assert (G : forall l, In e l -> (length (filter (fun e => (fd + 1 <=? fst e)%Z) l) < length (filter (fun e => (fd <=? fst e)%Z) l))%nat).
      { clear -E. assert (M : forall l : list (Z * owner), (length (filter (fun e => (fd + 1 <=? fst e)%Z) l) <= length (filter (fun e => (fd <=? fst e)%Z) l))%nat).
        { induction l as [|x l IHl]; [reflexivity|]. cbn [filter]. destruct (Z.leb_spec (fd + 1) (fst x)), (Z.leb_spec fd (fst x)); cbn [length]; lia. }
        induction l as [|x l IHl]; [intros []|]. intros [->|I].
        - cbn [filter]. destruct (Z.leb_spec (fd + 1) (fst e)), (Z.leb_spec fd (fst e)); cbn [length]; try lia. specialize (M l). lia.
        - specialize (IHl I). cbn [filter]. destruct (Z.leb_spec (fd + 1) (fst x)), (Z.leb_spec fd (fst x)); cbn [length]; lia. }
      specialize (G t I). lia.
    + split; [|lia]. intros I. apply in_map_iff in I. destruct I as (e & E & I). assert (Y : existsb (fun e => fst e =? fd) t = true) by (apply existsb_exists; exists e; split; [exact I|lia]). congruence.
Qed.
Lemma new_fd_ok : forall t, ~ In (new_fd t) (map fst t) /\ 0 <= new_fd t.
Proof. intros t. apply lowest_free. clear. induction t as [|x t IH]; [reflexivity|]. cbn [filter]. destruct (0 <=? fst x); cbn [length]; lia. Qed.
Lemma owner_in : forall t fd o, NoDup (map fst t) -> In (fd, o) t -> owner_of t fd = Some o.
Proof.
  unfold owner_of. induction t as [|[k x] t IH]; intros fd o N I; [destruct I|]. cbn [map fst] in N. inversion N as [|? ? N1 N2]; subst. cbn [find fst].
  destruct I as [I|I]; [inversion I; subst; now rewrite Z.eqb_refl|]. destruct (Z.eqb_spec k fd) as [->|]; [|now apply IH].
  destruct N1. apply in_map_iff. exists (fd, o). auto.
Qed.
Lemma close_in : forall t fd x o, In (x, o) (close_fd t fd) <-> In (x, o) t /\ x <> fd.
Proof. intros t fd x o. unfold close_fd. rewrite filter_In. cbn [fst]. destruct (Z.eqb_spec x fd); intuition (congruence || discriminate). Qed.
Lemma close_fds : forall t fd, NoDup (map fst t) /\ Forall (fun e => 0 <= fst e) t -> NoDup (map fst (close_fd t fd)) /\ Forall (fun e => 0 <= fst e) (close_fd t fd).
Proof.
  unfold close_fd. intros t fd [N F]. split; [|now apply Forall_filter]. clear F. induction t as [|x t IH]; [constructor|]. cbn [map fst] in N. inversion N as [|? ? N1 N2]; subst. cbn [filter].
  destruct (negb (fst x =? fd)); [|auto]. cbn [map]. constructor; [|auto]. intros I. apply N1. apply in_map_iff in I. destruct I as (y & E & I). apply filter_In in I. apply in_map_iff. exists y. tauto.
Qed.
Lemma open_fds : forall t o, NoDup (map fst t) /\ Forall (fun e : Z * owner => 0 <= fst e) t -> NoDup (map fst ((new_fd t, o) :: t)) /\ Forall (fun e => 0 <= fst e) ((new_fd t, o) :: t).
Proof. intros t o [N F]. destruct (new_fd_ok t) as [A B]. split; [constructor; assumption|constructor; assumption]. Qed.

Lemma NoDup_app_one : forall (A : Type) (l : list A) x, NoDup l -> ~ In x l -> NoDup (l ++ [x]).
Proof.
  intros A l x N H. induction l as [|a l IH]; [constructor; [exact H|constructor]|]. inversion N; subst. cbn [app]. constructor.
  - intros I. apply in_app_or in I. destruct I as [I|[->|[]]]; [contradiction|]. apply H. now left.
  - apply IH; [assumption|]. intros I. apply H. now right.
Qed.

(** ** The streamer *)
Lemma readable_events : forall s f st e, st_on_readable s f = Ok (st, e) ->
  (st_registered st = true /\ st_fd st = st_fd s /\ exists ls, e = map EvBlock ls) \/
  (st_registered st = false /\ exists ls, e = map EvBlock ls ++ [EvFinished true; EvClosed (st_fd s)]).
Proof.
  intros s f st e E. unfold st_on_readable, st_read_data in E. destruct (lb_update (st_buf s) f) as [[b n]|]; [|discriminate]. cbn [obind] in E.
  destruct (n <=? 0).
  - destruct (lb_incomplete_line b) as [[b' l]|]; [|discriminate]. cbn in E. inversion E; subst. right. split; [reflexivity|]. destruct l as [l|]; [exists [l]|exists []]; reflexivity.
  - destruct (lb_drain_all b) as [[b' ls]|]; [|discriminate]. cbn in E. inversion E; subst. left. split; [reflexivity|]. split; [reflexivity|]. now exists ls.
Qed.
Lemma reads_ones : forall n, reads (repeat (Some 1%nat) n) = n.
Proof. unfold reads. induction n; cbn; auto. Qed.
Lemma progress_ones : forall n, reads_progress (repeat (Some 1%nat) n).
Proof. intros n w I. apply repeat_spec in I. inversion I. lia. Qed.
Section session.
Variables (len : nat) (stream : text) (lines : list (text * eol)) (last : text) (fails : bool) (s0 : streamer) (fd : Z).
Hypotheses (S : sends len stream lines last) (F : st_free len s0) (Hfd : 0 <= fd).
Notation exp := (expected fd (map (fun x => cstr (fst x)) lines) (cstr last)).
(** One more read of a connection. *)
Lemma session_read : forall sched st ev rest w, reads_progress sched -> (1 <= w)%nat -> st_registered st = true ->
  st_run (fst (st_connect s0 fd)) stream fails sched = Ok (st, ev, rest) ->
  exists st1 e1 b n, st_on_readable st (conn_read rest fails w) = Ok (st1, e1) /\ lb_update (st_buf st) (conn_read rest fails w) = Ok (b, n) /\
    st_run (fst (st_connect s0 fd)) stream fails (sched ++ [Some w]) = Ok (st1, ev ++ e1, skipn (Z.to_nat n) rest) /\
    (st_registered st1 = false -> st_free len st1 /\ filter not_idle (ev ++ e1) = exp).
Proof.
  intros sched st ev rest w P Hw R E. destruct S as [E1 E2 E3 E4].
  set (more := repeat (Some 1%nat) (Datatypes.S (length stream))).
  destruct (st_conn_ok len s0 fd lines last fails (sched ++ Some w :: more)) as (s' & ev' & A & B & C); auto.
  - now rewrite <- E1.
  - intros x I. apply in_app_or in I. destruct I as [I|[I|I]]; [now apply P|inversion I; subst; exact Hw|]. now apply progress_ones in I.
  - rewrite <- E1. unfold reads. rewrite filter_app, app_length. cbn [filter length]. fold (reads more). unfold more. rewrite reads_ones. lia.
  - rewrite <- E1 in A. rewrite (st_run_app _ _ _ _ _ _ _ _ E) in A. cbn [st_run] in A. rewrite R in A.
    destruct (st_on_readable st (conn_read rest fails w)) as [[st1 e1]|] eqn:Q1; [|discriminate]. cbn [obind] in A.
    destruct (lb_update (st_buf st) (conn_read rest fails w)) as [[b n]|] eqn:Q2; [|discriminate].
    exists st1, e1, b, n. split; [reflexivity|]. split; [reflexivity|]. split.
    + rewrite (st_run_app _ _ _ _ _ _ _ _ E). cbn [st_run]. rewrite R, Q1. cbn [obind]. rewrite Q2. cbn [obind]. now rewrite app_nil_r.
    + intros U. destruct (st_run_unregistered more st1 (skipn (Z.to_nat n) rest) fails U) as (s2 & e2 & G1 & G2 & G3 & G4 & G5).
      unfold text in *. rewrite G1 in A. cbn [obind] in A. inversion A; subst s' ev'. rewrite !filter_app, G2, app_nil_r in C.
      split; [|now rewrite filter_app]. unfold st_free in *. rewrite <- G3, <- G4. intuition.
Qed.
Lemma session_prefix : forall sched st ev rest, reads_progress sched -> st_run (fst (st_connect s0 fd)) stream fails sched = Ok (st, ev, rest) ->
  exists later, filter not_idle ev ++ later = exp.
Proof.
  intros sched st ev rest P E. destruct S as [E1 E2 E3 E4].
  set (more := repeat (Some 1%nat) (Datatypes.S (length stream))).
  destruct (st_conn_ok len s0 fd lines last fails (sched ++ more)) as (s' & ev' & A & B & C); auto.
  - now rewrite <- E1.
  - intros x I. apply in_app_or in I. destruct I as [I|I]; [now apply P|]. now apply progress_ones in I.
  - rewrite <- E1. unfold reads. rewrite filter_app, app_length. fold (reads more). unfold more. rewrite reads_ones. lia.
  - rewrite <- E1 in A. rewrite (st_run_app _ _ _ _ _ _ _ _ E) in A.
    destruct (st_run st rest fails more) as [[[s2 e2] r2]|]; [|discriminate]. cbn [obind] in A. inversion A; subst. exists (filter not_idle e2). now rewrite <- filter_app.
Qed.
End session.

(** ** The invariant *)
Section server.
Variables (len : nat) (own : list Z) (lfd sfd : Z) (streams : nat -> text) (fails : nat -> bool) (descr : nat -> list (text * eol) * text).
Hypothesis (HS : forall p, sends len (streams p) (fst (descr p)) (snd (descr p))).
Definition exp (x : nat * Z) : list st_event :=
  expected (snd x) (map (fun y => cstr (fst y)) (fst (descr (fst x)))) (cstr (snd (descr (fst x)))).
Record inv (rd : list (Z * handler_id)) (w : world) (cur : option (nat * Z)) : Prop := mk_inv {
  v_undef : w_undef w = false;
  v_fds : NoDup (map fst (w_open w)) /\ Forall (fun e => 0 <= fst e) (w_open w);
  v_ans : Forall (fun a => (1 <= a_want a)%nat) (w_answers w);
  v_rd : forall fd h, map_find rd fd = Some h ->
    match h with
    | HAccept | HStatus => In (fd, Own) (w_open w)
    | HStatusConn fd' p => fd' = fd /\ In (fd, Status p) (w_open w)
    | HRead => exists p, cur = Some (p, fd)
    | HIdle => False
    end;
  v_serve : fold_left serve (w_log w) (Some None) = Some (option_map fst cur);
  v_new : forall p, (w_next w <= p)%nat -> w_rest w p = streams p;
  v_served : Forall (fun x => (fst x < w_next w)%nat) (served (w_log w)) /\ NoDup (map fst (served (w_log w)));
  v_open : forall fd o, In (fd, o) (w_open w) ->
    match o with
    | Own => In fd (lfd :: sfd :: own)
    | Gcode p => cur = Some (p, fd) \/ In p (dropped (w_log w))
    | Status p => map_find rd fd = Some (HStatusConn fd p)
    end;
  v_keep : forall fd, In fd (lfd :: sfd :: own) -> In (fd, Own) (w_open w);
  v_cur : match cur with
    | None => st_free len (w_st w) /\ done_calls (w_log w) = concat (map exp (served (w_log w)))
    | Some (p, fd) => 0 <= fd /\ w_msg w = fd /\ In (fd, Gcode p) (w_open w) /\ map_find rd fd = Some HRead /\
        st_fd (w_st w) = fd /\ st_registered (w_st w) = true /\
        exists s0 sched ev old, st_free len s0 /\ reads_progress sched /\
          st_run (fst (st_connect s0 fd)) (streams p) (fails p) sched = Ok (w_st w, ev, w_rest w p) /\
          served (w_log w) = old ++ [(p, fd)] /\ done_calls (w_log w) = concat (map exp old) ++ filter not_idle ev
    end }.
Lemma served_app : forall a b, served (a ++ b) = served a ++ served b.
Proof. intros a b. apply flat_map_app. Qed.
Lemma dropped_app : forall a b, dropped (a ++ b) = dropped a ++ dropped b.
Proof. intros a b. apply flat_map_app. Qed.
Lemma calls_app : forall a b, done_calls (a ++ b) = done_calls a ++ done_calls b.
Proof. intros a b. unfold done_calls. now rewrite flat_map_app, filter_app. Qed.
Lemma rd_open : forall rd w cur fd h, inv rd w cur -> map_find rd fd = Some h -> In fd (map fst (w_open w)).
Proof.
  intros rd w cur fd h I E. pose proof (v_rd _ _ _ I fd h E) as R. destruct h as [| |fd' p| |].
  - apply in_map_iff. exists (fd, Own). auto.
  - apply in_map_iff. exists (fd, Own). auto.
  - apply in_map_iff. exists (fd, Status p). tauto.
  - destruct R as (p & ->). pose proof (v_cur _ _ _ I) as C. apply in_map_iff. exists (fd, Gcode p). split; [reflexivity|]. destruct C as (_ & _ & C & _). exact C.
  - destruct R.
Qed.
Lemma inv_ans : forall rd w cur, inv rd w cur ->
  inv rd (mk_w (w_st w) (w_open w) (w_next w) (w_msg w) (w_rest w) (tl (w_answers w)) (w_undef w) (w_log w)) cur.
Proof. intros rd w cur [A B C D E F G H K L]. constructor; cbn [w_st w_open w_next w_msg w_rest w_answers w_undef w_log]; auto. destruct (w_answers w); [constructor|now inversion C]. Qed.
Lemma head_ok : forall rd w cur, inv rd w cur -> (1 <= a_want (hd default_answer (w_answers w)))%nat.
Proof. intros rd w cur I. pose proof (v_ans _ _ _ I) as A. destruct (w_answers w); [cbn; lia|now inversion A]. Qed.
Definition INV (m : mux handler_id) (w : world) : Prop := mx_ok m /\ mx_write m = [] /\ mx_idle m = [HIdle] /\ exists cur, inv (mx_read m) w cur.
(** What becomes of the loop's table. *)
Definition after (m : mux handler_id) (fd : Z) (rs : list (reg handler_id)) (keep : bool) : mux handler_id :=
  let m := fst (apply_regs m rs) in if keep then m else mx_set Rd m (map_erase (mx_map Rd m) fd).
Lemma after_nil : forall m fd, after m fd [] true = m.
Proof. reflexivity. Qed.
Lemma after_add : forall m fd fd' h, mx_ok m -> map_find (mx_read m) fd' = None ->
  mx_ok (after m fd [RegFd Rd fd' h] true) /\ mx_write (after m fd [RegFd Rd fd' h] true) = mx_write m /\ mx_idle (after m fd [RegFd Rd fd' h] true) = mx_idle m /\
  forall x, map_find (mx_read (after m fd [RegFd Rd fd' h] true)) x = if fd' =? x then Some h else map_find (mx_read m) x.
Proof.
  intros m fd fd' h M E. unfold after, apply_regs, run_on. cbn [mx_map]. rewrite E. cbn [fst mx_set mx_write mx_idle mx_read].
  split; [apply (mx_ok_set m Rd); [exact M|apply asc_add; [apply M|exact E]]|]. split; [reflexivity|]. split; [reflexivity|]. intros x. now apply map_find_add.
Qed.
Lemma after_erase : forall m fd, mx_ok m ->
  mx_ok (after m fd [] false) /\ mx_write (after m fd [] false) = mx_write m /\ mx_idle (after m fd [] false) = mx_idle m /\
  forall x, map_find (mx_read (after m fd [] false)) x = if fd =? x then None else map_find (mx_read m) x.
Proof.
  intros m fd M. unfold after. cbn [apply_regs fst mx_map mx_set mx_write mx_idle mx_read].
  split; [apply (mx_ok_set m Rd); [exact M|apply asc_filter; apply M]|]. split; [reflexivity|]. split; [reflexivity|]. intros x. apply map_find_erase.
Qed.
Lemma free_st : forall rd w cur, inv rd w cur -> cur = None <-> (0 <=? st_fd (w_st w)) = false.
Proof.
  intros rd w cur I. pose proof (v_cur _ _ _ I) as C. destruct cur as [[p fd]|].
  - destruct C as (C1 & _ & _ & _ & C5 & _). rewrite C5. split; [discriminate|lia].
  - destruct C as ((_ & _ & _ & _ & C5 & _) & _). rewrite C5. split; reflexivity.
Qed.
Ltac flds := cbn [w_st w_open w_next w_msg w_rest w_answers w_undef w_log fst snd add_log].
(** A client is accepted. *)
Lemma accept_inv : forall m w cur a fd, mx_ok m -> mx_write m = [] -> mx_idle m = [HIdle] -> inv (mx_read m) w cur ->
  let '(w', rs, keep) := do_accept a w in INV (after m fd rs keep) w'.
Proof.
  intros m w cur a fd M1 M2 M3 I. unfold do_accept. destruct (a_accept a); cbn [negb]; [|rewrite after_nil; unfold INV; eauto].
  destruct (new_fd_ok (w_open w)) as [N1 N2]. pose proof (open_fds (w_open w) (Gcode (w_next w)) (v_fds _ _ _ I)) as OF.
  set (nf := new_fd (w_open w)) in *.
  assert (NF : map_find (mx_read m) nf = None) by (destruct (map_find (mx_read m) nf) eqn:X; [destruct N1; eapply rd_open; eassumption|reflexivity]).
  destruct I as [A B C D E F G H K L].
  destruct (negb (a_getfl a) || negb (a_setfl a)).
  - rewrite after_nil. split; [exact M1|]. split; [exact M2|]. split; [exact M3|]. exists cur. constructor; flds; auto.
    + intros x h X. specialize (D x h X). destruct h; cbn [In]; try tauto; try exact D.
    + unfold add_log. rewrite fold_left_app, E. destruct cur as [[q qf]|]; reflexivity.
    + intros p P. apply F. lia.
    + unfold add_log. rewrite served_app. cbn [served flat_map]. rewrite app_nil_r. split; [|apply G]. eapply Forall_impl; [|apply G]. cbn. lia.
    + intros x o [X|X].
      * inversion X; subst. right. unfold add_log. rewrite dropped_app. apply in_or_app. right. now left.
      * specialize (H x o X). destruct o; auto. unfold add_log. rewrite dropped_app. destruct H; [auto|right; apply in_or_app; now left].
    + intros x X. right. auto.
    + unfold add_log. rewrite served_app, calls_app. cbn [served flat_map done_calls filter]. rewrite !app_nil_r. destruct cur as [[q qf]|]; [|exact L].
      destruct L as (L1 & L2 & L3 & L4). split; [exact L1|]. split; [exact L2|]. split; [now right|exact L4].
  - assert (FS := free_st (mx_read m) w cur ltac:(constructor; assumption)). destruct (0 <=? st_fd (w_st w)) eqn:Y.
    + rewrite after_nil. split; [exact M1|]. split; [exact M2|]. split; [exact M3|]. exists cur.
      assert (CL : close_fd ((nf, Gcode (w_next w)) :: w_open w) nf = w_open w).
      { unfold close_fd. cbn [filter fst]. rewrite Z.eqb_refl. cbn [negb]. apply filter_all. intros e I. destruct (Z.eqb_spec (fst e) nf) as [X|]; [|reflexivity]. destruct N1. rewrite <- X. now apply in_map. }
      destruct cur as [[q qf]|]; [|destruct FS as [FS _]; specialize (FS eq_refl); discriminate FS].
      constructor; flds; rewrite ?CL; auto.
      * unfold add_log. now rewrite fold_left_app, E.
      * intros p P. apply F. lia.
      * unfold add_log. rewrite served_app. cbn [served flat_map]. rewrite app_nil_r. split; [|apply G]. eapply Forall_impl; [|apply G]. cbn. lia.
      * intros x o X. specialize (H x o X). destruct o; auto. unfold add_log. rewrite dropped_app. destruct H; [auto|right; apply in_or_app; now left].
      * unfold add_log. rewrite served_app, calls_app. cbn [served flat_map done_calls filter]. rewrite !app_nil_r. exact L.
    + assert (cur = None) by (now apply FS). subst cur. destruct L as [L1 L2]. unfold st_connect. rewrite Y.
      destruct (after_add m fd nf HRead M1 NF) as (T1 & T2 & T3 & T4).
      split; [exact T1|]. split; [now rewrite T2|]. split; [now rewrite T3|]. exists (Some (w_next w, nf)). constructor; flds; auto.
      * intros x h X. rewrite T4 in X. destruct (Z.eqb_spec nf x) as [->|]; [inversion X; subst; eauto|].
        specialize (D x h X). destruct h; cbn [In]; try tauto. destruct D as (p & D). discriminate D.
      * unfold add_log. rewrite fold_left_app, E. reflexivity.
      * intros p P. apply F. lia.
      * unfold add_log. rewrite served_app. cbn [served flat_map app]. destruct G as [G1 G2]. split.
        -- apply Forall_app. split; [eapply Forall_impl; [|apply G1]; cbn; lia|constructor; [cbn; lia|constructor]].
        -- rewrite map_app. cbn [map fst]. apply NoDup_app_one; [exact G2|]. intros I. apply in_map_iff in I. destruct I as (y & Y1 & Y2). rewrite Forall_forall in G1. apply G1 in Y2. lia.
      * intros x o [X|X]; [inversion X; subst; now left|]. specialize (H x o X). destruct o; auto.
        -- unfold add_log. rewrite dropped_app. destruct H as [H|H]; [discriminate H|right; apply in_or_app; now left].
        -- rewrite T4. destruct (Z.eqb_spec nf x) as [->|]; [|exact H]. destruct N1. apply in_map_iff. exists (x, Status client). auto.
      * intros x X. right. auto.
      * split; [exact N2|]. split; [reflexivity|]. split; [now left|]. split; [rewrite T4; now rewrite Z.eqb_refl|]. split; [reflexivity|]. split; [reflexivity|].
        exists (w_st w), [], [], (served (w_log w)). split; [exact L1|]. split; [intros x []|]. split.
        -- cbn [st_run]. unfold st_connect. rewrite Y. cbn [fst]. now rewrite F.
        -- unfold add_log. rewrite served_app, calls_app, L2. split; reflexivity.
Qed.
Lemma status_accept_inv : forall m w cur a fd, mx_ok m -> mx_write m = [] -> mx_idle m = [HIdle] -> inv (mx_read m) w cur ->
  let '(w', rs, keep) := do_status_accept a w in INV (after m fd rs keep) w'.
Proof.
  intros m w cur a fd M1 M2 M3 I. unfold do_status_accept. destruct (a_accept a); cbn [negb]; [|rewrite after_nil; unfold INV; eauto].
  destruct (new_fd_ok (w_open w)) as [N1 N2]. pose proof (open_fds (w_open w) (Status (w_next w)) (v_fds _ _ _ I)) as OF.
  set (nf := new_fd (w_open w)) in *.
  assert (NF : map_find (mx_read m) nf = None) by (destruct (map_find (mx_read m) nf) eqn:X; [destruct N1; eapply rd_open; eassumption|reflexivity]).
  destruct I as [A B C D E F G H K L].
  destruct (after_add m fd nf (HStatusConn nf (w_next w)) M1 NF) as (T1 & T2 & T3 & T4).
  split; [exact T1|]. split; [now rewrite T2|]. split; [now rewrite T3|]. exists cur. constructor; flds; auto.
  - intros x h X. rewrite T4 in X. destruct (Z.eqb_spec nf x) as [->|]; [inversion X; subst; split; [reflexivity|now left]|].
    specialize (D x h X). destruct h; cbn [In]; try tauto; exact D.
  - intros p P. apply F. lia.
  - destruct G as [G1 G2]. split; [|exact G2]. eapply Forall_impl; [|apply G1]. cbn. lia.
  - intros x o [X|X]; [inversion X; subst; rewrite T4; now rewrite Z.eqb_refl|]. specialize (H x o X). destruct o; auto.
    rewrite T4. destruct (Z.eqb_spec nf x) as [->|]; [|exact H]. destruct N1. apply in_map_iff. exists (x, Status client). auto.
  - intros x X. right. auto.
  - destruct cur as [[q qf]|]; [|exact L]. destruct L as (L1 & L2 & L3 & L4 & L5). split; [exact L1|]. split; [exact L2|]. split; [now right|]. split; [|exact L5].
    rewrite T4. destruct (Z.eqb_spec nf qf) as [->|]; [congruence|exact L4].
Qed.
Lemma status_inv : forall m w cur a fd p, mx_ok m -> mx_write m = [] -> mx_idle m = [HIdle] -> inv (mx_read m) w cur ->
  map_find (mx_read m) fd = Some (HStatusConn fd p) ->
  let '(w', rs, keep) := do_status fd p a w in INV (after m fd rs keep) w'.
Proof.
  intros m w cur a fd p M1 M2 M3 I X. unfold do_status.
  assert (O : In (fd, Status p) (w_open w)) by (apply (v_rd _ _ _ I fd _ X)).
  assert (U : forall o, In (fd, o) (w_open w) -> o = Status p).
  { intros o J. pose proof (owner_in _ _ _ (proj1 (v_fds _ _ _ I)) O) as O1. pose proof (owner_in _ _ _ (proj1 (v_fds _ _ _ I)) J) as O2. congruence. }
  destruct (a_query a) as [q|].
  - rewrite after_nil. split; [exact M1|]. split; [exact M2|]. split; [exact M3|]. exists cur. destruct I as [A B C D E F G H K L].
    destruct (Ascii.eqb q "p" || Ascii.eqb q "s")%char; constructor; flds; auto; unfold add_log; rewrite ?served_app, ?calls_app, ?dropped_app; cbn [served flat_map done_calls filter dropped]; rewrite ?app_nil_r; auto.
    rewrite fold_left_app, E. destruct cur as [[r rf]|]; reflexivity.
  - destruct (after_erase m fd M1) as (T1 & T2 & T3 & T4). split; [exact T1|]. split; [now rewrite T2|]. split; [now rewrite T3|]. exists cur. destruct I as [A B C D E F G H K L].
    constructor; flds; auto.
    + now apply close_fds.
    + intros x h Y. rewrite T4 in Y. destruct (Z.eqb_spec fd x) as [->|N]; [discriminate|]. specialize (D x h Y). destruct h; rewrite ?close_in; intuition congruence.
    + intros x o Y. rewrite close_in in Y. destruct Y as [Y N]. specialize (H x o Y). destruct o; auto. rewrite T4. destruct (Z.eqb_spec fd x); [congruence|exact H].
    + intros x Y. rewrite close_in. split; [auto|]. intros ->. specialize (K _ Y). apply U in K. discriminate K.
    + destruct cur as [[q qf]|]; [|exact L]. destruct L as (L1 & L2 & L3 & L4 & L5). split; [exact L1|]. split; [exact L2|].
      assert (N : qf <> fd) by (intros ->; congruence). split; [rewrite close_in; auto|]. split; [|exact L5]. rewrite T4. destruct (Z.eqb_spec fd qf); [congruence|exact L4].
Qed.
Lemma idle_inv : forall m w cur fd, mx_ok m -> mx_write m = [] -> mx_idle m = [HIdle] -> inv (mx_read m) w cur ->
  let '(w', rs, keep) := do_idle w in INV (after m fd rs keep) w' /\ rs = [] /\ keep = true.
Proof.
  intros m w cur fd M1 M2 M3 I. unfold do_idle, st_timeout. rewrite after_nil. split; [|split; reflexivity]. split; [exact M1|]. split; [exact M2|]. split; [exact M3|]. exists cur.
  destruct I as [A B C D E F G H K L]. constructor; flds; auto; unfold add_log; rewrite ?served_app, ?calls_app, ?dropped_app; cbn [served flat_map done_calls filter dropped map not_idle app]; rewrite ?app_nil_r; auto.
  - rewrite fold_left_app, E. destruct cur as [[p pf]|]; cbn [option_map fst fold_left serve]; [|destruct (owner_of (w_open w) (w_msg w)) as [[]|]; reflexivity].
    destruct L as (L1 & L2 & L3 & _). rewrite L2, (owner_in _ _ _ (proj1 B) L3), Nat.eqb_refl. reflexivity.
  - destruct cur as [[p pf]|].
    + destruct L as (L1 & L2 & L3 & L4 & L5 & L6 & s0 & sched & ev & old & S1 & S2 & S3 & S4 & S5). cbn [st_fd st_registered].
      repeat (split; [assumption|]). exists s0, (sched ++ [None]), (ev ++ [EvIdle (st_processing (w_st w))]), old. split; [exact S1|]. split.
      * intros x J. apply in_app_or in J. destruct J as [J|[J|[]]]; [now apply S2|discriminate J].
      * rewrite (st_run_app _ _ _ _ _ _ _ _ S3). split; [reflexivity|]. split; [exact S4|]. rewrite S5, filter_app. cbn [filter not_idle]. now rewrite app_nil_r.
    + destruct L as [L1 L2]. split; [exact L1|exact L2].
Qed.
Lemma serve_blocks : forall ls p log, fold_left serve log (Some None) = Some (Some p) ->
  fold_left serve (log ++ map (fun e => SvCall e (Some (Gcode p))) (map EvBlock ls)) (Some None) = Some (Some p).
Proof.
  intros ls p log E. rewrite fold_left_app, E. induction ls as [|l ls IH]; [reflexivity|]. cbn [map fold_left serve]. rewrite Nat.eqb_refl. exact IH.
Qed.
Lemma read_inv : forall m w cur a fd, mx_ok m -> mx_write m = [] -> mx_idle m = [HIdle] -> inv (mx_read m) w cur -> (1 <= a_want a)%nat ->
  map_find (mx_read m) fd = Some HRead ->
  let '(w', rs, keep) := do_read fails a w in INV (after m fd rs keep) w'.
Proof.
  intros m w cur a fd M1 M2 M3 I W X. destruct (v_rd _ _ _ I fd _ X) as (p & ->).
  destruct I as [A B C D E F G H K L]. destruct L as (L1 & L2 & L3 & L4 & L5 & L6 & s0 & sched & ev & old & S1 & S2 & S3 & S4 & S5).
  pose proof (owner_in _ _ _ (proj1 B) L3) as O. unfold do_read. rewrite L5, L2, O.
  destruct (session_read len (streams p) (fst (descr p)) (snd (descr p)) (fails p) s0 fd (HS p) S1 L1 sched (w_st w) ev (w_rest w p) (a_want a) S2 W L6 S3)
    as (st1 & e1 & b & n & R1 & R2 & R3 & R4).
  rewrite R1, R2.
  assert (U : forall o, In (fd, o) (w_open w) -> o = Gcode p) by (intros o J; pose proof (owner_in _ _ _ (proj1 B) J); congruence).
  assert (P : (p < w_next w)%nat) by (destruct G as [G _]; rewrite S4 in G; apply Forall_app in G; destruct G as [_ G]; inversion G; subst; cbn in *; assumption).
  assert (RP : reads_progress (sched ++ [Some (a_want a)])) by (intros x J; apply in_app_or in J; destruct J as [J|[J|[]]]; [now apply S2|inversion J; subst; exact W]).
  assert (LC : forall evs, done_calls (w_log w ++ SvRead (Some (Gcode p)) :: map (fun e => SvCall e (Some (Gcode p))) evs) = done_calls (w_log w) ++ filter not_idle evs).
  { intros evs. rewrite calls_app. f_equal. unfold done_calls. cbn [flat_map]. f_equal. induction evs as [|e evs IH]; [reflexivity|]. cbn. now f_equal. }
  assert (LS : forall evs, served (w_log w ++ SvRead (Some (Gcode p)) :: map (fun e => SvCall e (Some (Gcode p))) evs) = served (w_log w)).
  { intros evs. rewrite served_app. cbn [served flat_map]. replace (flat_map _ _) with (@nil (nat * Z)) by (induction evs; [reflexivity|cbn; assumption]). apply app_nil_r. }
  assert (LD : forall evs, dropped (w_log w ++ SvRead (Some (Gcode p)) :: map (fun e => SvCall e (Some (Gcode p))) evs) = dropped (w_log w)).
  { intros evs. rewrite dropped_app. cbn [dropped flat_map]. replace (flat_map _ _) with (@nil nat) by (induction evs; [reflexivity|cbn; assumption]). apply app_nil_r. }
  assert (LV : fold_left serve (w_log w ++ [SvRead (Some (Gcode p))]) (Some None) = Some (Some p)) by (rewrite fold_left_app, E; cbn; now rewrite Nat.eqb_refl).
  destruct (readable_events _ _ _ _ R1) as [(Q1 & Q2 & ls & Q3)|(Q1 & ls & Q3)]; rewrite Q1.
  - rewrite after_nil. split; [exact M1|]. split; [exact M2|]. split; [exact M3|]. exists (Some (p, fd)). constructor; flds; auto; unfold add_log; rewrite ?LC, ?LS, ?LD; auto.
    + subst e1. change (w_log w ++ SvRead (Some (Gcode p)) :: map (fun e => SvCall e (Some (Gcode p))) (map EvBlock ls)) with (w_log w ++ [SvRead (Some (Gcode p))] ++ map (fun e => SvCall e (Some (Gcode p))) (map EvBlock ls)).
      rewrite app_assoc. now apply serve_blocks.
    + intros x Px. unfold upd. destruct (Nat.eqb_spec x p); [lia|auto].
    + split; [exact L1|]. split; [reflexivity|]. split; [exact L3|]. split; [exact L4|]. split; [congruence|]. split; [exact Q1|].
      exists s0, (sched ++ [Some (a_want a)]), (ev ++ e1), old. split; [exact S1|]. split; [exact RP|]. unfold upd. rewrite Nat.eqb_refl. split; [exact R3|]. split; [exact S4|].
      rewrite S5, filter_app. now rewrite app_assoc.
  - destruct (R4 Q1) as [R5 R6]. destruct (after_erase m fd M1) as (T1 & T2 & T3 & T4). split; [exact T1|]. split; [now rewrite T2|]. split; [now rewrite T3|]. exists None.
    constructor; flds; auto; unfold add_log; rewrite ?LC, ?LS, ?LD; auto.
    + now apply close_fds.
    + intros x h Y. rewrite T4 in Y. destruct (Z.eqb_spec fd x) as [->|N]; [discriminate|]. specialize (D x h Y). destruct h; rewrite ?close_in; try (intuition congruence).
      destruct D as (q & D). congruence.
    + rewrite Q3, map_app. cbn [map]. set (cl := [SvCall (EvFinished true) (Some (Gcode p)); _]).
      change (w_log w ++ SvRead (Some (Gcode p)) :: map (fun e => SvCall e (Some (Gcode p))) (map EvBlock ls) ++ cl)
        with (w_log w ++ [SvRead (Some (Gcode p))] ++ (map (fun e => SvCall e (Some (Gcode p))) (map EvBlock ls) ++ cl)).
      rewrite !app_assoc, fold_left_app, serve_blocks by exact LV. unfold cl. cbn [fold_left serve]. repeat (rewrite Nat.eqb_refl; cbn [serve]). reflexivity.
    + intros x Px. unfold upd. destruct (Nat.eqb_spec x p); [lia|auto].
    + intros x o Y. rewrite close_in in Y. destruct Y as [Y N]. specialize (H x o Y). destruct o; auto.
      * destruct H as [H|H]; [congruence|now right].
      * rewrite T4. destruct (Z.eqb_spec fd x); [congruence|exact H].
    + intros x Y. rewrite close_in. split; [auto|]. intros ->. specialize (K _ Y). apply U in K. discriminate K.
    + split; [exact R5|]. rewrite S5, S4, map_app, concat_app, <- app_assoc. f_equal. cbn [map concat]. rewrite app_nil_r, <- filter_app, R6. reflexivity.
Qed.
(** ** The loop *)
Lemma call_inv : forall m w fd h, INV m w -> map_find (mx_read m) fd = Some h ->
  let '(w', rs, keep) := server_call fails h w in INV (after m fd rs keep) w'.
Proof.
  intros m w fd h (M1 & M2 & M3 & cur & I) X. pose proof (inv_ans _ _ _ I) as I'. pose proof (head_ok _ _ _ I) as W. unfold server_call.
  destruct h as [| |fd' p| |].
  - now apply (accept_inv m _ cur).
  - now apply (status_accept_inv m _ cur).
  - destruct (v_rd _ _ _ I fd _ X) as [-> _]. now apply (status_inv m _ cur).
  - now apply (read_inv m _ cur).
  - destruct (v_rd _ _ _ I fd _ X).
Qed.
Lemma first_find : forall (m : list (Z * handler_id)) lo fd h, asc m -> first_ge m lo = Some (fd, h) -> map_find m fd = Some h.
Proof.
  intros m lo fd h A E. rewrite first_ge_filter in E. destruct (filter (fun e => lo <=? fst e) m) as [|[k x] r] eqn:Q; [discriminate|]. inversion E; subst. apply (asc_first m lo fd h r A Q).
Qed.
Lemma handlers_inv : forall ready fuel lo avail m w m' w' a ev, INV m w ->
  call_handlers (server_call fails) fuel Rd ready lo avail m w = Some (m', w', a, ev) -> INV m' w'.
Proof.
  intros ready. induction fuel as [|f IH]; intros lo avail m w m' w' a ev I E; [discriminate|]. cbn [call_handlers] in E.
  destruct (avail =? 0); [inversion E; subst; exact I|]. cbn [mx_map] in E. destruct (first_ge (mx_read m) lo) as [[fd h]|] eqn:Q; [|inversion E; subst; exact I].
  destruct (ready fd); [|eapply IH; eassumption].
  pose proof (call_inv m w fd h I (first_find _ _ _ _ (proj1 (proj1 I)) Q)) as G. destruct (server_call fails h w) as [[w1 rs] keep]. unfold after in G.
  destruct (apply_regs m rs) as [m1 ev1] eqn:R. cbn [fst] in G. cbn [mx_map] in *.
  destruct (call_handlers (server_call fails) f Rd ready (fd + 1) (avail - 1) (if keep then m1 else mx_set Rd m1 (map_erase (mx_read m1) fd)) w1) as [[[[m2 w2] a2] ev2]|] eqn:Q2; [|discriminate].
  inversion E; subst. eapply IH; [exact G|exact Q2].
Qed.
Lemma writers_inv : forall ready fuel lo avail m w m' w' a ev, INV m w ->
  call_handlers (server_call fails) fuel Wr ready lo avail m w = Some (m', w', a, ev) -> INV m' w'.
Proof.
  intros ready fuel lo avail m w m' w' a ev I E. destruct fuel as [|f]; [discriminate|]. cbn [call_handlers] in E. destruct (avail =? 0); [inversion E; subst; exact I|].
  cbn [mx_map] in E. destruct I as (I1 & I2 & I3). rewrite I2 in E. cbn [first_ge] in E. inversion E; subst. split; [exact I1|]. split; [exact I2|exact I3].
Qed.
Lemma cycle_inv : forall fuel sel m w m' w' go ev, INV m w -> single_cycle (server_call fails) fuel sel m w = Some (m', w', go, ev) -> INV m' w'.
Proof.
  intros fuel sel m w m' w' go ev I E. unfold single_cycle in E.
  destruct (mx_read m) as [|e0 r0] eqn:QR, (mx_write m) as [|e1 r1] eqn:QW; try (inversion E; subst; exact I); rewrite <- ?QR, <- ?QW in E;
    (destruct sel as [|rdy wrt]; [inversion E; subst; exact I|]);
    (destruct (count_ready (mx_read m) rdy + count_ready (mx_write m) wrt =? 0);
      [|destruct (call_handlers (server_call fails) fuel Rd _ _ _ m w) as [[[[m1 w1] a1] ev1]|] eqn:Q1; [|discriminate];
        destruct (call_handlers (server_call fails) fuel Wr _ _ _ m1 w1) as [[[[m2 w2] a2] ev2]|] eqn:Q2; [|discriminate];
        inversion E; subst; eapply writers_inv; [eapply handlers_inv; [exact I|exact Q1]|exact Q2]]);
    destruct I as (M1 & M2 & M3 & cur & I); rewrite M3 in E;
    (destruct fuel as [|[|f]]; cbn [call_idle] in E; [discriminate| |]);
    pose proof (idle_inv m _ cur 0 M1 M2 M3 (inv_ans _ _ _ I)) as G; unfold server_call in E;
    destruct (do_idle _) as [[w1 rs] keep]; destruct G as (G & -> & ->); cbn [apply_regs app] in E; inversion E; subst;
    rewrite after_nil in G; destruct m as [a b c]; cbn [mx_read mx_write mx_idle] in *; subst c; exact G.
Qed.
Lemma loop_inv : forall fuel env m w m' w' res ev, INV m w -> mux_loop (server_call fails) fuel env m w = Some (m', w', res, ev) -> INV m' w'.
Proof.
  intros fuel. induction env as [|[sel sig] env IH]; intros m w m' w' res ev I E; cbn [mux_loop] in E; [inversion E; subst; exact I|].
  destruct (single_cycle (server_call fails) fuel sel m w) as [[[[m1 w1] go] ev1]|] eqn:Q; [|discriminate].
  apply (cycle_inv _ _ _ _ _ _ _ _ I) in Q. destruct (go && negb sig); [|inversion E; subst; exact Q].
  destruct (mux_loop (server_call fails) fuel env m1 w1) as [[[[m2 w2] r2] ev2]|] eqn:Q2; [|discriminate]. inversion E; subst. eapply IH; [exact Q|exact Q2].
Qed.
End server.

Lemma start_inv : forall len g own lfd sfd streams fails descr answers, length g = len ->
  NoDup (lfd :: sfd :: own) -> Forall (fun fd => 0 <= fd) (lfd :: sfd :: own) -> Forall (fun a => (1 <= a_want a)%nat) answers ->
  INV len own lfd sfd streams fails descr (server_mux lfd sfd) (server_world own lfd sfd (st_init len g) streams answers).
Proof.
  intros len g own lfd sfd streams fails descr answers G N P A.
  assert (Nls : lfd <> sfd) by (inversion N as [|? ? N1 _]; subst; cbn in N1; intuition).
  assert (E1 : map_find [(lfd, HAccept)] sfd = None) by (cbn; now destruct (Z.eqb_spec lfd sfd)).
  assert (M : server_mux lfd sfd = mk_mux (map_add [(lfd, HAccept)] sfd HStatus) [] [HIdle]).
  { unfold server_mux, run_on, run_on_idle. cbn [mx_map mx_read map_find mx_set map_add mx_idle mx_write fst app]. destruct (Z.eqb_spec lfd sfd); [contradiction|reflexivity]. }
  rewrite M. split; [split; cbn [mx_read mx_write]; [apply asc_add; [cbn; auto|exact E1]|exact I]|]. split; [reflexivity|]. split; [reflexivity|]. exists None. cbn [mx_read].
  constructor; cbn [server_world w_st w_open w_next w_msg w_rest w_answers w_undef w_log]; auto.
  - rewrite map_map. cbn [fst]. rewrite map_id. split; [exact N|]. apply Forall_forall. intros e I. apply in_map_iff in I. destruct I as (x & <- & I). rewrite Forall_forall in P. now apply P.
  - intros fd h X. rewrite map_find_add in X by exact E1. destruct (Z.eqb_spec sfd fd) as [->|].
    + inversion X; subst. cbn. auto.
    + cbn in X. destruct (Z.eqb_spec lfd fd) as [->|]; [|discriminate]. inversion X; subst. cbn. auto.
  - split; constructor.
  - intros fd o I. apply in_map_iff in I. destruct I as (x & E & I). inversion E; subst. exact I.
  - intros fd I. apply in_map_iff. exists fd. auto.
  - split; [|reflexivity]. unfold st_free, st_init. cbn. split; [apply lb_init_ok; exact G|]. repeat split.
Qed.

(** C77: at any time, whoever connects, sends, breaks off or is silent in whatever order: one client is served at a time; while it is, its bytes and
    no others are read, its lines are executed and it gets the messages; others are refused. The lines that have been executed are
    those of the clients served, one client after the other, each line once and in order - all of them but for the client that is still being served. *)
Theorem C77_one_client : forall len g own lfd sfd streams fails answers descr fuel env m w res ev, length g = len ->
  NoDup (lfd :: sfd :: own) -> Forall (fun fd => 0 <= fd) (lfd :: sfd :: own) ->
  (forall p, sends len (streams p) (fst (descr p)) (snd (descr p))) -> Forall (fun a => (1 <= a_want a)%nat) answers ->
  mux_loop (server_call fails) fuel env (server_mux lfd sfd) (server_world own lfd sfd (st_init len g) streams answers) = Some (m, w, res, ev) ->
  exists now later, fold_left serve (w_log w) (Some None) = Some now /\ w_undef w = false /\ NoDup (map fst (served (w_log w))) /\
    done_calls (w_log w) ++ later =
      concat (map (fun '(p, fd) => expected fd (map (fun x => cstr (fst x)) (fst (descr p))) (cstr (snd (descr p)))) (served (w_log w))) /\
    (now = None -> later = []).
Proof.
  intros len g own lfd sfd streams fails answers descr fuel env m w res ev G N P S A E.
  pose proof (loop_inv len own lfd sfd streams fails descr S fuel env _ _ _ _ _ _ (start_inv len g own lfd sfd streams fails descr answers G N P A) E) as (_ & _ & _ & cur & I).
  destruct I as [V1 V2 V3 V4 V5 V6 V7 V8 V9 V10]. exists (option_map fst cur).
  assert (X : forall l, map (exp descr) l = map (fun '(p, fd) => expected fd (map (fun x => cstr (fst x)) (fst (descr p))) (cstr (snd (descr p)))) l) by (intros l; apply map_ext; intros [p fd]; reflexivity).
  destruct cur as [[p fd]|].
  - destruct V10 as (L1 & L2 & L3 & L4 & L5 & L6 & s0 & sched & e & old & S1 & S2 & S3 & S4 & S5).
    destruct (session_prefix len (streams p) (fst (descr p)) (snd (descr p)) (fails p) s0 fd (S p) S1 L1 sched _ _ _ S2 S3) as (later & L).
    exists later. split; [exact V5|]. split; [exact V1|]. split; [apply V7|]. split; [|discriminate].
    rewrite S5, S4, <- X, map_app, concat_app, <- app_assoc, L. cbn [map concat]. now rewrite app_nil_r.
  - destruct V10 as [L1 L2]. exists []. split; [exact V5|]. split; [exact V1|]. split; [apply V7|]. split; [|reflexivity]. rewrite app_nil_r, L2, X. reflexivity.
Qed.
Print Assumptions C77_one_client.

(** C77: the descriptors that are open are those of the process, that of the client being served, those of the status clients that have not left,
    and those of clients for which fcntl(2) has failed. *)
Theorem C77_descriptors : forall len g own lfd sfd streams fails answers descr fuel env m w res ev, length g = len ->
  NoDup (lfd :: sfd :: own) -> Forall (fun fd => 0 <= fd) (lfd :: sfd :: own) ->
  (forall p, sends len (streams p) (fst (descr p)) (snd (descr p))) -> Forall (fun a => (1 <= a_want a)%nat) answers ->
  mux_loop (server_call fails) fuel env (server_mux lfd sfd) (server_world own lfd sfd (st_init len g) streams answers) = Some (m, w, res, ev) ->
  NoDup (map fst (w_open w)) /\
  (forall fd, In fd (lfd :: sfd :: own) <-> In (fd, Own) (w_open w)) /\
  (forall fd p, In (fd, Status p) (w_open w) <-> handler m Rd fd = Some (HStatusConn fd p)) /\
  (forall fd p, In (fd, Gcode p) (w_open w) -> fold_left serve (w_log w) (Some None) = Some (Some p) \/ In p (dropped (w_log w))) /\
  (forall p, fold_left serve (w_log w) (Some None) = Some (Some p) -> exists fd, In (fd, Gcode p) (w_open w) /\ handler m Rd fd = Some HRead).
Proof.
  intros len g own lfd sfd streams fails answers descr fuel env m w res ev G N P S A E.
  pose proof (loop_inv len own lfd sfd streams fails descr S fuel env _ _ _ _ _ _ (start_inv len g own lfd sfd streams fails descr answers G N P A) E) as (_ & _ & _ & cur & I).
  destruct I as [V1 V2 V3 V4 V5 V6 V7 V8 V9 V10]. split; [apply V2|]. split; [|split; [|split]].
  - intros fd. split; [apply V9|apply (V8 fd Own)].
  - intros fd p. unfold handler. cbn [mx_map]. split; [apply (V8 fd (Status p))|]. intros X. apply (V4 fd _ X).
  - intros fd p X. destruct (V8 fd (Gcode p) X) as [->|D]; [left; exact V5|now right].
  - intros p X. rewrite V5 in X. destruct cur as [[q fd]|]; [|discriminate X]. inversion X; subst. exists fd. unfold handler. cbn [mx_map]. tauto.
Qed.
Print Assumptions C77_descriptors.

(** ** Witnesses *)
Definition ask (c : ascii) : answer := mk_answer true true true 20 (Some c).
Definition yes : answer := mk_answer true true true 20 None.
Definition only (fd : Z) : select_result := SelectReady (fun x => x =? fd) (fun _ => false).
Definition quiet : select_result := SelectReady (fun _ => false) (fun _ => false).
Definition two_streams (p : nat) : text := match p with 0%nat => txt "G1" ++ [LF] | _ => [] end.
Definition two_descr (p : nat) : list (text * eol) * text := match p with 0%nat => ([(txt "G1", EolLF)], []) | _ => ([], []) end.
Definition start_world (answers : list answer) : world := server_world [0; 1; 2] 3 4 (st_init 32 (repeat NUL 32)) two_streams answers.
Lemma two_sends : forall p, sends 32 (two_streams p) (fst (two_descr p)) (snd (two_descr p)).
Proof.
  intros [|p]; constructor; cbn [two_streams two_descr fst snd]; try reflexivity; try (intros c []); try (apply short_by_length; cbn; lia); constructor; [|constructor].
  cbn [fst]. intros c I J. cbn in I, J. destruct I as [<-|[<-|[]]]; destruct J as [J|[J|[]]]; discriminate J.
Qed.
(** C77, finding: the machine goes on printing to the descriptor of a client that has left. A status client that gets the same number receives what it
    prints then, such as that of the emergency stop (gcode-machine-control.cc:426, 967); the G-code client that left, or anyone who could see it, does not. *)
Theorem C77_messages_refuted : exists m w ev,
  mux_loop (server_call (fun _ => false)) 50 (map (fun s => (s, false)) [only 3; only 5; only 5; only 4; quiet]) (server_mux 3 4) (start_world [yes; yes; yes; yes]) = Some (m, w, None, ev) /\
  w_log w = [SvStream 0 5; SvRead (Some (Gcode 0)); SvCall (EvBlock (txt "G1")) (Some (Gcode 0));
    SvRead (Some (Gcode 0)); SvCall (EvBlock []) (Some (Gcode 0)); SvCall (EvFinished true) (Some (Gcode 0)); SvCall (EvClosed 5) (Some (Gcode 0));
    SvCall (EvIdle false) (Some (Status 1))].
Proof. eexists. eexists. eexists. split; [vm_compute; reflexivity|vm_compute; reflexivity]. Qed.
Print Assumptions C77_messages_refuted.
(** C77, finding: a connection for which fcntl(2) fails stays open for ever and is neither served nor refused. *)
Theorem C77_dropped_refuted : exists m w ev,
  mux_loop (server_call (fun _ => false)) 50 [(only 3, false)] (server_mux 3 4) (start_world [mk_answer true false true 20 None]) = Some (m, w, None, ev) /\
  In (5, Gcode 0) (w_open w) /\ handler m Rd 5 = None /\ w_log w = [SvDropped 0].
Proof. eexists. eexists. eexists. split; [vm_compute; reflexivity|]. split; [now left|split; reflexivity]. Qed.
Print Assumptions C77_dropped_refuted.
(** C77, finding: a G-code file that cannot be opened is connected as descriptor -1, about which select() cannot be asked. *)
Theorem C77_missing_file_refuted : forall len g, let '(st, m) := send_file (-1) (st_init len g) in
  map fst (mx_read m) = [-1] /\ select_args (map fst (mx_read m)) = Undefined.
Proof. intros len g. split; reflexivity. Qed.
Print Assumptions C77_missing_file_refuted.
(** Two clients at once: the second is refused, and the first served to its end; a third one is served afterwards. *)
Example C77_example : exists m w ev,
  mux_loop (server_call (fun _ => false)) 50 (map (fun s => (s, false)) [only 3; only 3; only 5; only 4; only 6; only 5; only 3]) (server_mux 3 4)
    (start_world [yes; yes; yes; yes; ask "p"; yes; yes]) = Some (m, w, None, ev) /\
  NoDup [3; 4; 0; 1; 2] /\ Forall (fun fd => 0 <= fd) [3; 4; 0; 1; 2] /\
  w_log w = [SvStream 0 5; SvRefused 1; SvRead (Some (Gcode 0)); SvCall (EvBlock (txt "G1")) (Some (Gcode 0)); SvAnswer 2 "p";
    SvRead (Some (Gcode 0)); SvCall (EvBlock []) (Some (Gcode 0)); SvCall (EvFinished true) (Some (Gcode 0)); SvCall (EvClosed 5) (Some (Gcode 0)); SvStream 3 5].
Proof.
  eexists. eexists. eexists. split; [vm_compute; reflexivity|]. split; [repeat constructor; cbn; lia|]. split; [repeat constructor; lia|]. vm_compute. reflexivity.
Qed.
