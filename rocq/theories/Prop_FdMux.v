(** Theorems about the event loop: C08. *)
From Verif Require Import Base Model_FdMux Spec_FdMux Proofs_FdMux.

Section Mux.
Context {W H : Type}.
Variable call : H -> W -> W * list (reg H) * bool.

(** States of a multiplexer that a program can bring about. *)
Inductive reachable : mux H -> Prop :=
| re_init : reachable (mk_mux [] [] [])
| re_reg : forall m d fd h, reachable m -> reachable (fst (run_on d m fd h))
| re_idle : forall m h, reachable m -> reachable (run_on_idle m h)
| re_cycle : forall m fuel sel w m' w' go ev, reachable m ->
    single_cycle call fuel sel m w = Some (m', w', go, ev) -> reachable m'.

Lemma reachable_ok : forall m, reachable m -> mx_ok m.
Proof.
  induction 1.
  - split; exact I.
  - unfold run_on. destruct (map_find (mx_map d m) fd) eqn:E; auto.
    apply mx_ok_set; auto. apply asc_add; auto. now apply mx_ok_map.
  - exact IHreachable.
  - exact (proj1 (single_cycle_any call _ _ _ _ _ _ _ _ IHreachable H1)).
Qed.

(** What is registered for a direction and descriptor. *)
Definition handler (m : mux H) : table H := fun d fd => map_find (mx_map d m) fd.

(** C08: registration is refused exactly if a handler for that descriptor and
    direction exists; it then changes nothing, otherwise it adds just this one. *)
Theorem C08_registration : forall m d fd h,
  let '(m', ok) := run_on d m fd h in
  match handler m d fd with
  | Some _ => ok = false /\ m' = m
  | None => ok = true /\ teq (handler m') (tset (handler m) d fd (Some h)) /\ mx_idle m' = mx_idle m
  end.
Proof.
  intros m d fd h. unfold run_on, handler. destruct (map_find (mx_map d m) fd) eqn:E; auto.
  split; auto. split; [|destruct d; reflexivity].
  intros d' fd'. unfold tset. rewrite mx_map_set.
  destruct d, d'; cbn [dir_eqb andb]; auto; rewrite map_find_add by auto; destruct (fd =? fd'); auto.
Qed.

(** C08: if select() reports ready descriptors, the cycle ends, whatever the
    handlers do; it calls every handler that was registered for a ready
    descriptor exactly once, reads first and by ascending descriptor, and no
    other handler; the events explain the new table ([replays]): a handler is
    removed exactly if it returned false, a handler registered meanwhile is not
    called before the next cycle. *)
Theorem C08_ready_cycle : forall m w rd wr, reachable m ->
  (exists d fd h, handler m d fd = Some h /\ (match d with Rd => rd | Wr => wr end) fd = true) ->
  exists n, forall fuel, (n <= fuel)%nat -> exists m' w' ev,
    single_cycle call fuel (SelectReady rd wr) m w = Some (m', w', true, ev) /\
    calls ev = due Rd (mx_read m) rd ++ due Wr (mx_write m) wr /\
    idle_calls ev = [] /\ mx_idle m' = mx_idle m ++ idle_regs ev /\
    replays (handler m) ev (handler m').
Proof.
  intros m w rd wr Hr (d & fd & h & Hf & Hrdy). pose proof (reachable_ok m Hr) as Hm.
  assert (Hin : forall (l : list (Z * H)), map_find l fd = Some h -> In (fd, h) l).
  { clear. induction l as [|(k, y) l IH]; cbn; [discriminate|]. destruct (Z.eqb_spec k fd); [|auto].
    intros E; inversion E; subst; auto. }
  destruct (single_cycle_ready call m w rd wr Hm) as (n & Hn).
  { unfold count_ready. destruct d.
    - assert (Hx : In (fd, h) (filter (fun e => rd (fst e)) (mx_read m))) by (apply filter_In; split; auto; now apply Hin).
      destruct (filter (fun e => rd (fst e)) (mx_read m)); [contradiction|cbn [length]; lia].
    - assert (Hx : In (fd, h) (filter (fun e => wr (fst e)) (mx_write m))) by (apply filter_In; split; auto; now apply Hin).
      destruct (filter (fun e => wr (fst e)) (mx_write m)); [contradiction|cbn [length]; lia]. }
  exists n. intros fuel Hfu. destruct (Hn fuel Hfu) as (m' & w' & ev & A & B & C & D & E & F).
  exists m', w', ev. auto.
Qed.

(** The handlers [due] are exactly the ready registered ones, each listed once. *)
Theorem C08_due_once : forall m d ready, reachable m ->
  (forall fd h, In (d, fd, h) (due d (mx_map d m) ready) <-> handler m d fd = Some h /\ ready fd = true) /\
  NoDup (due d (mx_map d m) ready).
Proof.
  intros m d ready Hr. pose proof (mx_ok_map m d (reachable_ok m Hr)) as Ha. unfold due, handler. split.
  - intros fd h. rewrite in_map_iff. split.
    + intros ((k, y) & E & Hin). inversion E; subst. cbn [fst snd] in *. apply filter_In in Hin. destruct Hin as [H1 H2].
      split; auto. exact (asc_find _ _ Ha H1).
    + intros [H1 H2]. exists (fd, h). split; auto. apply filter_In. split; auto.
      clear -H1. induction (mx_map d m) as [|(k, y) l IH]; cbn in *; [discriminate|]. destruct (Z.eqb_spec k fd); [|auto].
      inversion H1; subst; auto.
  - pose proof (asc_filter (fun e => ready (fst e)) _ Ha) as Hf. clear -Hf.
    induction (filter (fun e => ready (fst e)) (mx_map d m)) as [|(k, y) l IH]; cbn [map]; constructor.
    + cbn [asc] in Hf. destruct Hf as [Hf _]. intros Hin. apply in_map_iff in Hin. destruct Hin as (e & E & Hin).
      inversion E; subst. rewrite Forall_forall in Hf. specialize (Hf e Hin). cbn in Hf. lia.
    + apply IH. apply Hf.
Qed.

(** C08: on a time-out exactly the idle handlers run, in order, followed by the
    ones registered during the pass; those that returned true stay. Idle
    handlers run in no other cycle (previous theorem). *)
Theorem C08_timeout_cycle : forall m w rd wr fuel m' w' go ev, reachable m ->
  (forall d fd h, handler m d fd = Some h -> (match d with Rd => rd | Wr => wr end) fd = false) ->
  (exists d fd h, handler m d fd = Some h) ->
  single_cycle call fuel (SelectReady rd wr) m w = Some (m', w', go, ev) ->
  go = true /\ calls ev = [] /\ idle_calls ev = mx_idle m ++ idle_regs ev /\ mx_idle m' = idle_kept ev /\
  replays (handler m) ev (handler m').
Proof.
  intros m w rd wr fuel m' w' go ev Hr Hno (d & fd & h & Hf) E. pose proof (reachable_ok m Hr) as Hm.
  destruct (single_cycle_any call _ _ _ _ _ _ _ _ Hm E) as (A & B & C & D & F).
  assert (go = true).
  { destruct go; auto. exfalso. destruct (proj1 C eq_refl) as [[H1 H2]|H1]; [|discriminate].
    unfold handler in Hf. destruct d; cbn [mx_map] in Hf; [rewrite H1 in Hf|rewrite H2 in Hf]; discriminate. }
  subst go. destruct (F rd wr eq_refl eq_refl) as [G1 G2].
  assert (Hz : forall d0, filter (fun e => (match d0 with Rd => rd | Wr => wr end) (fst e)) (mx_map d0 m) = []).
  { intros d0. apply filter_none. intros e He. apply (Hno d0 (fst e) (snd e)). apply asc_find; auto. now apply mx_ok_map. }
  pose proof (Hz Rd) as Z1. pose proof (Hz Wr) as Z2. cbn [mx_map] in Z1, Z2.
  unfold count_ready, due in *. rewrite Z1, Z2 in G2. cbn [length Z.of_nat Z.add Z.eqb] in G2. rewrite Z1, Z2 in G1.
  cbn in G1. split; auto. split; auto. destruct G2. split; auto.
Qed.

(** The idle pass ends if idle handlers do not register further idle handlers. *)
Theorem C08_timeout_ends : forall m w rd wr, reachable m ->
  (forall d fd h, handler m d fd = Some h -> (match d with Rd => rd | Wr => wr end) fd = false) ->
  (exists d fd h, handler m d fd = Some h) ->
  (forall h w0, In h (mx_idle m) -> forall x, ~ In (RegIdle x) (snd (fst (call h w0)))) ->
  exists fuel r, single_cycle call fuel (SelectReady rd wr) m w = Some r.
Proof.
  intros m w rd wr Hr Hno (d & fd & h & Hf) Hreg. pose proof (reachable_ok m Hr) as Hm.
  exists (Datatypes.S (length (mx_idle m))).
  destruct (call_idle_terminates call (mx_idle m) [] (mk_mux (mx_read m) (mx_write m) []) w) as ([[m1 w1] ev1] & E1).
  { intros h0 w0 Hh0. apply Forall_forall. intros r Hri. destruct r; auto. exact (Hreg h0 w0 Hh0 _ Hri). }
  exists (m1, w1, true, ev1). unfold single_cycle.
  assert (Hz : forall d0, filter (fun e => (match d0 with Rd => rd | Wr => wr end) (fst e)) (mx_map d0 m) = []).
  { intros d0. apply filter_none. intros e He. apply (Hno d0 (fst e) (snd e)). apply asc_find; auto. now apply mx_ok_map. }
  pose proof (Hz Rd) as Z1. pose proof (Hz Wr) as Z2. cbn [mx_map] in Z1, Z2.
  unfold count_ready. rewrite Z1, Z2. cbn [length Z.of_nat Z.add Z.eqb]. rewrite E1.
  destruct (mx_read m) eqn:R1, (mx_write m) eqn:R2; auto.
  exfalso. unfold handler in Hf. destruct d; cbn [mx_map] in Hf; [rewrite R1 in Hf|rewrite R2 in Hf]; discriminate.
Qed.

(** C08: a cycle asks to stop exactly if nothing is registered any more or
    select() failed, and then does nothing else. *)
Theorem C08_when_it_stops : forall m w sel fuel m' w' go ev, reachable m ->
  single_cycle call fuel sel m w = Some (m', w', go, ev) ->
  (go = false <-> (forall d fd, handler m d fd = None) \/ sel = SelectError) /\
  (go = false -> m' = m /\ w' = w /\ ev = []).
Proof.
  intros m w sel fuel m' w' go ev Hr E. pose proof (reachable_ok m Hr) as Hm.
  destruct (single_cycle_any call _ _ _ _ _ _ _ _ Hm E) as (A & B & C & D & F).
  split; auto. rewrite C. split; intros [G|G]; auto; left.
  - intros [] fd; unfold handler; cbn [mx_map]; [rewrite (proj1 G)|rewrite (proj2 G)]; reflexivity.
  - assert (Hnil : forall l : list (Z * H), (forall fd, map_find l fd = None) -> l = []).
    { intros [|(k, y) l] Hl; auto. specialize (Hl k). cbn in Hl. rewrite Z.eqb_refl in Hl. discriminate. }
    split; apply Hnil; intros fd; [apply (G Rd fd)|apply (G Wr fd)].
Qed.

(** C08, the loop: over any run the table of handlers is explained by the
    events; the loop returns false exactly if an exit signal came, true exactly
    if it stopped because no descriptor was left or select() failed. *)
Theorem C08_loop : forall fuel env m w m' w' res ev, reachable m ->
  mux_loop call fuel env m w = Some (m', w', res, ev) ->
  reachable m' /\ replays (handler m) ev (handler m') /\
  match res with
  | None => forall sel sig, In (sel, sig) env -> sig = false /\ sel <> SelectError
  | Some ok => exists pre sel sig post, env = pre ++ (sel, sig) :: post /\ ok = negb sig /\
      (forall s0 g0, In (s0, g0) pre -> g0 = false /\ s0 <> SelectError) /\
      (ok = true -> (forall d fd, handler m' d fd = None) \/ sel = SelectError)
  end.
Proof.
  intros fuel env. induction env as [|(sel, sig) env IH]; intros m w m' w' res ev Hr E; cbn [mux_loop] in E.
  - inversion E; subst. split; auto. split; [constructor; intros ? ?; reflexivity|]. intros ? ? [].
  - destruct (single_cycle call fuel sel m w) as [[[[m1 w1] go] ev1]|] eqn:E1; [|discriminate].
    assert (Hr1 : reachable m1) by (eapply re_cycle; eauto).
    destruct (single_cycle_any call _ _ _ _ _ _ _ _ (reachable_ok m Hr) E1) as (A & B & C & D & F).
    destruct (C08_when_it_stops m w sel fuel m1 w1 go ev1 Hr E1) as [C' D'].
    destruct go, sig; cbn [andb negb] in E.
    + inversion E; subst. split; auto. split; auto. exists [], sel, true, env. cbn. repeat split; auto; try contradiction. discriminate.
    + destruct (mux_loop call fuel env m1 w1) as [[[[m2 w2] r2] ev2]|] eqn:E2; [|discriminate].
      inversion E; subst. destruct (IH m1 w1 _ _ _ _ Hr1 E2) as (A2 & B2 & C2).
      assert (Hsel : sel <> SelectError) by (intros ->; assert (true = false) by (apply C'; auto); discriminate).
      split; auto. split; [eapply replays_app; eauto|].
      destruct res as [ok|].
      * destruct C2 as (pre & s0 & g0 & post & P1 & P2 & P3 & P4).
        exists ((sel, false) :: pre), s0, g0, post. subst env. split; auto. split; auto. split; auto.
        intros s1 g1 [Hi|Hi]; [inversion Hi; subst; auto|eauto].
      * intros s1 g1 [Hi|Hi]; [inversion Hi; subst; auto|eauto].
    + inversion E; subst. split; auto. split; auto. exists [], sel, true, env. cbn. repeat split; auto; try contradiction. discriminate.
    + inversion E; subst. split; auto. split; auto. exists [], sel, false, env. cbn. split; auto. split; auto. split; [contradiction|].
      intros _. destruct (proj1 C' eq_refl) as [G|G]; auto. left. destruct (D' eq_refl) as [-> _]. exact G.
Qed.

End Mux.

Print Assumptions C08_registration.
Print Assumptions C08_ready_cycle.
Print Assumptions C08_due_once.
Print Assumptions C08_timeout_cycle.
Print Assumptions C08_timeout_ends.
Print Assumptions C08_when_it_stops.
Print Assumptions C08_loop.

(** Non-triviality: handlers are numbers and the world is a list of the calls.
    Handler 1 (on descriptor 3) registers handler 5 for descriptor 4 and leaves;
    handler 2 (on descriptor 7) stays. Both are ready. *)
Definition ex_call (h : Z) (w : list Z) : list Z * list (reg Z) * bool :=
  if h =? 1 then (w ++ [1], [RegFd Rd 4 5; RegFd Rd 7 6], false) else (w ++ [h], [], true).
Definition ex_mux : mux Z := fst (run_on Rd (fst (run_on Rd (mk_mux [] [] []) 7 2)) 3 1).
Example C08_ex_reachable : reachable ex_call ex_mux.
Proof. apply re_reg, re_reg, re_init. Qed.
Example C08_ex_cycle :
  single_cycle ex_call 10 (SelectReady (fun fd => (fd =? 3) || (fd =? 7) || (fd =? 4)) (fun _ => false)) ex_mux [] =
  Some (mk_mux [(4, 5); (7, 2)] [] [], [1; 2], true,
        [Registered Rd 4 5 true; Registered Rd 7 6 false; Called Rd 3 1 false; Called Rd 7 2 true]).
Proof. reflexivity. Qed.
Example C08_ex_timeout :
  single_cycle ex_call 10 (SelectReady (fun _ => false) (fun _ => false)) (run_on_idle ex_mux 9) [] =
  Some (mk_mux [(3, 1); (7, 2)] [] [9], [9], true, [CalledIdle 9 true]).
Proof. reflexivity. Qed.
