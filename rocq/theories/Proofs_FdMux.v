From Verif Require Import Base Model_FdMux Spec_FdMux.

Section P.
Context {W H : Type}.
Variable call : H -> W -> W * list (reg H) * bool.

Notation hmap := (list (Z * H)).

Fixpoint asc (m : hmap) : Prop :=
  match m with
  | [] => True
  | (k, _) :: r => Forall (fun e => k < fst e) r /\ asc r
  end.

Definition mx_ok (m : mux H) : Prop := asc (mx_read m) /\ asc (mx_write m).

Definition tbl (m : mux H) : table H := fun d fd => map_find (mx_map d m) fd.

Lemma map_find_add : forall (m : hmap) fd h x, map_find m fd = None ->
  map_find (map_add m fd h) x = if fd =? x then Some h else map_find m x.
Proof.
  induction m as [|(k, y) m IH]; intros fd h x Hn; cbn [map_add map_find] in *; auto.
  destruct (k =? fd) eqn:E; [discriminate|].
  destruct (fd <? k) eqn:El; cbn [map_find].
  - reflexivity.
  - rewrite IH by auto. destruct (Z.eqb_spec k x), (Z.eqb_spec fd x); auto. lia.
Qed.

Lemma map_find_erase : forall (m : hmap) fd x,
  map_find (map_erase m fd) x = if fd =? x then None else map_find m x.
Proof.
  induction m as [|(k, y) m IH]; intros fd x; cbn [map_erase filter map_find fst].
  - destruct (fd =? x); auto.
  - fold (map_erase m fd). destruct (Z.eqb_spec k fd) as [E|E]; cbn [negb map_find].
    + rewrite IH. subst. destruct (fd =? x); auto.
    + rewrite IH. destruct (Z.eqb_spec k x), (Z.eqb_spec fd x); auto. lia.
Qed.

Lemma Forall_add : forall (P : Z * H -> Prop) (m : hmap) fd h, P (fd, h) -> Forall P m -> Forall P (map_add m fd h).
Proof.
  intros P. induction m as [|(k, y) m IH]; intros fd h Hp Hm; cbn [map_add]; [repeat constructor; auto|].
  inversion Hm; subst. destruct (fd <? k); repeat constructor; auto.
Qed.

Lemma asc_add : forall (m : hmap) fd h, asc m -> map_find m fd = None -> asc (map_add m fd h).
Proof.
  induction m as [|(k, y) m IH]; intros fd h Ha Hn; cbn [map_add map_find asc] in *; auto.
  destruct Ha as [H1 H2]. destruct (Z.eqb_spec k fd) as [E|E]; [discriminate|].
  destruct (fd <? k) eqn:El; cbn [asc].
  - repeat split; auto. constructor; [cbn; lia|]. eapply Forall_impl; [|exact H1]. cbn. intros. lia.
  - split; auto. apply Forall_add; auto. cbn. lia.
Qed.

Lemma Forall_filter : forall {A} (P : A -> Prop) f l, Forall P l -> Forall P (filter f l).
Proof. intros A P f l Hl. induction Hl; cbn; auto. destruct (f x); auto. Qed.

Lemma asc_filter : forall f (m : hmap), asc m -> asc (filter f m).
Proof.
  induction m as [|(k, y) m IH]; intros Ha; cbn [filter]; auto. destruct Ha as [H1 H2].
  destruct (f (k, y)); auto. cbn [asc]. split; auto. now apply Forall_filter.
Qed.

Lemma filter_add_no : forall f (m : hmap) fd h, f (fd, h) = false -> filter f (map_add m fd h) = filter f m.
Proof.
  induction m as [|(k, y) m IH]; intros fd h Hf; cbn [map_add filter]; [now rewrite Hf|].
  destruct (fd <? k); cbn [filter]; [now rewrite Hf|]. now rewrite IH.
Qed.

Lemma first_ge_filter : forall (m : hmap) lo,
  first_ge m lo = hd_error (filter (fun e => lo <=? fst e) m).
Proof.
  induction m as [|(k, y) m IH]; intros lo; cbn [first_ge filter fst]; auto.
  destruct (lo <=? k); auto.
Qed.

Lemma filter_filter : forall {A} (f g : A -> bool) l, filter f (filter g l) = filter (fun x => g x && f x) l.
Proof. induction l; cbn; auto. destruct (g a); cbn; [|auto]. destruct (f a); congruence. Qed.

Lemma filter_none : forall {A} (f : A -> bool) l, (forall x, In x l -> f x = false) -> filter f l = [].
Proof. induction l as [|a l IH]; intros Hf; auto. cbn. rewrite (Hf a (or_introl eq_refl)). apply IH. intros; apply Hf; now right. Qed.

Lemma filter_all : forall {A} (f : A -> bool) l, (forall x, In x l -> f x = true) -> filter f l = l.
Proof. induction l as [|a l IH]; intros Hf; auto. cbn. rewrite (Hf a (or_introl eq_refl)). f_equal. apply IH. intros; apply Hf; now right. Qed.

(** In an ascending map the entries from the key of the head on. *)
Lemma asc_first : forall (m : hmap) lo fd h r, asc m ->
  filter (fun e => lo <=? fst e) m = (fd, h) :: r ->
  filter (fun e => fd + 1 <=? fst e) m = r /\ lo <= fd /\ map_find m fd = Some h.
Proof.
  induction m as [|(k, y) m IH]; intros lo fd h r Ha E; [discriminate|].
  cbn [asc] in Ha. destruct Ha as [H1 H2]. cbn [filter fst] in E. destruct (lo <=? k) eqn:El.
  - inversion E; subst. cbn [filter fst map_find]. replace (fd + 1 <=? fd) with false by lia. rewrite Z.eqb_refl.
    assert (A : filter (fun e : Z * H => fd + 1 <=? fst e) m = m).
    { apply filter_all. intros x Hx. rewrite Forall_forall in H1. specialize (H1 x Hx). lia. }
    assert (B : filter (fun e : Z * H => lo <=? fst e) m = m).
    { apply filter_all. intros x Hx. rewrite Forall_forall in H1. specialize (H1 x Hx). lia. }
    rewrite A, B. repeat split; auto. lia.
  - destruct (IH lo fd h r H2 E) as (A & B & C). cbn [filter fst map_find].
    replace (fd + 1 <=? k) with false by lia. destruct (Z.eqb_spec k fd); [lia|]. auto.
Qed.

(** ** Registrations *)
Lemma mx_map_set : forall d d' (m : mux H) l, mx_map d (mx_set d' m l) = if dir_eqb d d' then l else mx_map d m.
Proof. intros [] [] m l; reflexivity. Qed.

Lemma mx_ok_map : forall (m : mux H) d, mx_ok m -> asc (mx_map d m).
Proof. intros m [] [A B]; auto. Qed.

Lemma mx_ok_set : forall m d l, mx_ok m -> asc l -> mx_ok (mx_set d m l).
Proof. intros m [] l [A B] C; split; auto. Qed.

(** The ready part of a map from [lo] on, and that new registrations do not touch it. *)
Definition blocked (d : dir) (m : mux H) (ready : Z -> bool) (lo : Z) : Prop :=
  forall fd, lo <= fd -> ready fd = true -> map_find (mx_map d m) fd <> None.

Definition part (d : dir) (m : mux H) (ready : Z -> bool) (lo : Z) : hmap :=
  filter (fun e => (lo <=? fst e) && ready (fst e)) (mx_map d m).

Lemma replays_teq : forall (t t0 : table H) evs t', teq t0 t -> replays t evs t' -> replays t0 evs t'.
Proof.
  intros t t0 evs t' He Hr. revert t0 He. induction Hr; intros t0 He.
  - constructor. intros d fd. rewrite He. auto.
  - apply rp_keep; auto. congruence.
  - apply rp_drop; [congruence|]. apply IHHr. intros a b. unfold tset. destruct (dir_eqb d a && (fd =? b)); auto.
  - eapply rp_refused; [rewrite He; eassumption|auto].
  - apply rp_accepted; [congruence|]. apply IHHr. intros a b. unfold tset. destruct (dir_eqb d a && (fd =? b)); auto.
  - constructor; auto.
  - constructor; auto.
Qed.

Lemma replays_app : forall (t1 t2 : table H) a b t3, replays t1 a t2 -> replays t2 b t3 -> replays t1 (a ++ b) t3.
Proof.
  intros t1 t2 a b t3 Ha. revert b t3. induction Ha; intros b t3 Hb; cbn [app].
  - eapply replays_teq; eauto.
  - constructor; auto.
  - apply rp_drop; auto.
  - eapply rp_refused; eauto.
  - apply rp_accepted; auto.
  - constructor; auto.
  - constructor; auto.
Qed.

Lemma apply_regs_ok : forall rs m, mx_ok m ->
  let '(m', ev) := apply_regs m rs in
  mx_ok m' /\ replays (tbl m) ev (tbl m') /\ calls ev = [] /\ idle_calls ev = [] /\ idle_kept ev = [] /\
  mx_idle m' = mx_idle m ++ idle_regs ev /\
  (forall d fd h, map_find (mx_map d m) fd = Some h -> map_find (mx_map d m') fd = Some h) /\
  (forall d ready lo, blocked d m ready lo ->
     part d m' ready lo = part d m ready lo /\ blocked d m' ready lo).
Proof.
  induction rs as [|r rs IH]; intros m Hm; cbn [apply_regs].
  - repeat split; auto; try apply Hm; try (constructor; intros ? ?; reflexivity). now rewrite app_nil_r.
  - destruct r as [d fd h|h].
    + unfold run_on. destruct (map_find (mx_map d m) fd) as [h'|] eqn:Ef.
      * specialize (IH m Hm). destruct (apply_regs m rs) as [m' ev]. destruct IH as (A & B & C & D & E & F & G & I).
        split; auto. split; [eapply rp_refused; eauto|]. cbn [calls idle_calls idle_kept idle_regs]. auto 10.
      * set (m1 := mx_set d m (map_add (mx_map d m) fd h)).
        assert (Hm1 : mx_ok m1) by (apply mx_ok_set; auto; apply asc_add; auto; now apply mx_ok_map).
        specialize (IH m1 Hm1). destruct (apply_regs m1 rs) as [m' ev]. destruct IH as (A & B & C & D & E & F & G & I).
        assert (Ht : teq (tset (tbl m) d fd (Some h)) (tbl m1)).
        { intros d' fd'. unfold tset, tbl, m1. rewrite mx_map_set.
          destruct d, d'; cbn [dir_eqb andb]; auto; rewrite map_find_add by auto; destruct (fd =? fd'); auto. }
        split; auto. split; [apply rp_accepted; auto; eapply replays_teq; [exact Ht|exact B]|].
        cbn [calls idle_calls idle_kept idle_regs].
        split; auto. split; auto. split; auto. split; [|split].
        -- rewrite F. f_equal. unfold m1. destruct d; reflexivity.
        -- intros d' fd' h' Hf. apply G. unfold m1. rewrite mx_map_set.
           destruct (dir_eqb d' d) eqn:Ed; auto.
           assert (d' = d) by (destruct d, d'; auto; discriminate). subst.
           rewrite map_find_add by auto. destruct (Z.eqb_spec fd fd'); auto. congruence.
        -- intros d' ready lo Hb.
           assert (Hb1 : blocked d' m1 ready lo).
           { intros x Hx Hrx. unfold m1. rewrite mx_map_set. destruct (dir_eqb d' d) eqn:Ed; [|now apply Hb].
             assert (d' = d) by (destruct d, d'; auto; discriminate). subst.
             rewrite map_find_add by auto. destruct (fd =? x); [discriminate|now apply Hb]. }
           destruct (I d' ready lo Hb1) as [I1 I2].
           split; auto. rewrite I1. unfold part, m1. rewrite mx_map_set. destruct (dir_eqb d' d) eqn:Ed; auto.
           assert (d' = d) by (destruct d, d'; auto; discriminate). subst.
           apply filter_add_no. cbn [fst]. destruct (lo <=? fd) eqn:El; auto. destruct (ready fd) eqn:Er; auto.
           exfalso. apply (Hb fd); auto. lia.
    + assert (Hm1 : mx_ok (run_on_idle m h)) by exact Hm.
      specialize (IH _ Hm1). destruct (apply_regs (run_on_idle m h) rs) as [m' ev]. destruct IH as (A & B & C & D & E & F & G & I).
      split; auto. split; [constructor; exact B|]. cbn [calls idle_calls idle_kept idle_regs]. split; auto. split; auto. split; auto. split; [|split; [exact G|exact I]].
      rewrite F. cbn [run_on_idle mx_idle]. now rewrite <- app_assoc.
Qed.

(** ** One pass over the ready handlers *)
Lemma call_handlers_ok : forall (d : dir) (ready : Z -> bool) n m lo avail w,
  mx_ok m -> blocked d m ready lo ->
  length (part d m ready lo) = n -> Z.of_nat n <= avail ->
  exists k, forall fuel, (k <= fuel)%nat ->
  exists m' w' ev,
    call_handlers call fuel d ready lo avail m w = Some (m', w', avail - Z.of_nat n, ev) /\
    mx_ok m' /\ replays (tbl m) ev (tbl m') /\
    calls ev = map (fun e => (d, fst e, snd e)) (part d m ready lo) /\
    mx_idle m' = mx_idle m ++ idle_regs ev /\ idle_calls ev = [] /\
    (forall ready' lo', blocked (match d with Rd => Wr | Wr => Rd end) m ready' lo' ->
       part (match d with Rd => Wr | Wr => Rd end) m' ready' lo' = part (match d with Rd => Wr | Wr => Rd end) m ready' lo' /\
       blocked (match d with Rd => Wr | Wr => Rd end) m' ready' lo').
Proof.
  intros d ready n. induction n as [n IHn] using lt_wf_ind. intros m lo avail w Hm Hb Hn Ha.
  remember (length (filter (fun e => lo <=? fst e) (mx_map d m))) as c eqn:Ec.
  revert lo Hb Hn Ec. induction c as [c IHc] using lt_wf_ind. intros lo Hb Hn Ec.
  assert (Hdone : length (part d m ready lo) = 0%nat ->
     part d m ready lo = [] /\ n = 0%nat /\ forall fuel, (1 <= fuel)%nat -> avail = 0 \/ first_ge (mx_map d m) lo = None ->
     call_handlers call fuel d ready lo avail m w = Some (m, w, avail - Z.of_nat n, [])).
  { intros Hz. split; [destruct (part d m ready lo); [auto|discriminate]|]. split; [lia|]. intros fuel Hf Hor.
    destruct fuel; [lia|]. cbn [call_handlers]. replace (avail - Z.of_nat n) with avail by lia.
    destruct (Z.eqb_spec avail 0); auto. destruct Hor as [?|Hor]; [lia|]. now rewrite Hor. }
  destruct (Z.eq_dec avail 0) as [Ez|Ez].
  { destruct Hdone as (D1 & D2 & D3); [lia|]. exists 1%nat. intros fuel Hf. exists m, w, [].
    rewrite (D3 fuel Hf) by auto. rewrite D1. cbn [map calls idle_regs idle_calls]. rewrite app_nil_r.
    repeat split; auto; try apply Hm; try (constructor; intros ? ?; reflexivity). }
  destruct (first_ge (mx_map d m) lo) as [(fd, h)|] eqn:Ef.
  2:{ pose proof Ef as Ef'. rewrite first_ge_filter in Ef'.
      assert (Hpart : part d m ready lo = []).
      { unfold part. apply filter_none. intros x Hx. destruct (lo <=? fst x) eqn:El; auto. exfalso.
        assert (Hi : In x (filter (fun e => lo <=? fst e) (mx_map d m))) by (apply filter_In; auto).
        destruct (filter (fun e => lo <=? fst e) (mx_map d m)); [contradiction|discriminate]. }
      destruct Hdone as (D1 & D2 & D3); [now rewrite Hpart|]. exists 1%nat. intros fuel Hf. exists m, w, [].
      rewrite (D3 fuel Hf) by auto. rewrite D1. cbn [map calls idle_regs idle_calls]. rewrite app_nil_r.
      repeat split; auto; try apply Hm; try (constructor; intros ? ?; reflexivity). }
  pose proof Ef as Ef'. rewrite first_ge_filter in Ef'.
  destruct (filter (fun e => lo <=? fst e) (mx_map d m)) as [|e0 r0] eqn:Efl; [discriminate|].
  cbn [hd_error] in Ef'. inversion Ef'; subst e0. clear Ef'.
  destruct (asc_first _ _ _ _ _ (mx_ok_map m d Hm) Efl) as (Hr0 & Hlo & Hfind).
  assert (Hpart : part d m ready lo = if ready fd then (fd, h) :: part d m ready (fd + 1) else part d m ready (fd + 1)).
  { unfold part. rewrite <- !filter_filter. rewrite Efl, Hr0. reflexivity. }
  assert (Hb' : blocked d m ready (fd + 1)) by (intros x Hx; apply Hb; lia).
  destruct (ready fd) eqn:Er.
  - (* ready: the handler is called *)
    destruct (call h w) as [[w1 rs] keep] eqn:Ecall.
    pose proof (apply_regs_ok rs m Hm) as R. destruct (apply_regs m rs) as [m1 ev1] eqn:Eregs.
    destruct R as (R1 & R2 & R3 & R4 & R5 & R6 & R7 & R8).
    set (m2 := if keep then m1 else mx_set d m1 (map_erase (mx_map d m1) fd)).
    assert (Hm2 : mx_ok m2).
    { unfold m2. destruct keep; auto. apply mx_ok_set; auto. apply asc_filter. now apply mx_ok_map. }
    destruct (R8 d ready (fd + 1) Hb') as [P1 P2].
    assert (Hp2 : part d m2 ready (fd + 1) = part d m ready (fd + 1)).
    { rewrite <- P1. unfold m2. destruct keep; auto. unfold part. rewrite mx_map_set.
      replace (dir_eqb d d) with true by (destruct d; reflexivity).
      unfold map_erase. rewrite filter_filter. apply filter_ext. intros a. destruct (Z.eqb_spec (fst a) fd); cbn [negb andb]; auto.
      destruct (fd + 1 <=? fst a) eqn:E; auto. lia. }
    assert (Hb2 : blocked d m2 ready (fd + 1)).
    { unfold m2. destruct keep; auto. intros x Hx Hrx. rewrite mx_map_set.
      replace (dir_eqb d d) with true by (destruct d; reflexivity). rewrite map_find_erase.
      destruct (Z.eqb_spec fd x); [lia|]. now apply P2. }
    rewrite Hpart in Hn. cbn [length] in Hn.
    destruct n as [|n']; [lia|].
    destruct (IHn n' (Nat.lt_succ_diag_r n') m2 (fd + 1) (avail - 1) w1 Hm2 Hb2) as (k & Hk); [rewrite Hp2; lia|lia|].
    exists (Datatypes.S k). intros fuel Hf. destruct fuel as [|fuel]; [lia|].
    destruct (Hk fuel) as (m' & w' & ev & C1 & C2 & C3 & C4 & C5 & C6 & C7); [lia|].
    cbn [call_handlers]. destruct (Z.eqb_spec avail 0); [lia|]. rewrite Ef, Er, Ecall, Eregs. fold m2. rewrite C1.
    exists m', w', (ev1 ++ Called d fd h keep :: ev).
    split; [do 3 f_equal; lia|]. split; auto.
    assert (Hcalls : forall a b : list (mux_event H), calls (a ++ b) = calls a ++ calls b).
    { clear. induction a as [|e a IH]; intros b; auto. cbn [app]. destruct e; cbn [calls]; rewrite IH; auto. }
    assert (Hic : forall a b : list (mux_event H), idle_calls (a ++ b) = idle_calls a ++ idle_calls b).
    { clear. induction a as [|e a IH]; intros b; auto. cbn [app]. destruct e; cbn [idle_calls]; rewrite IH; auto. }
    assert (Hir : forall a b : list (mux_event H), idle_regs (a ++ b) = idle_regs a ++ idle_regs b).
    { clear. induction a as [|e a IH]; intros b; auto. cbn [app]. destruct e; cbn [idle_regs]; rewrite IH; auto. }
    split; [|split; [|split; [|split]]].
    + eapply replays_app; [exact R2|].
      assert (Ht : tbl m1 d fd = Some h) by (apply R7; exact Hfind).
      unfold m2 in C3. destruct keep.
      * apply rp_keep; auto.
      * apply rp_drop; auto. eapply replays_teq; [|exact C3]. intros d' fd'. unfold tset, tbl. rewrite mx_map_set.
        destruct d, d'; cbn [dir_eqb andb]; auto; rewrite map_find_erase; destruct (fd =? fd'); auto.
    + rewrite Hcalls, R3. cbn [app calls]. rewrite C4, Hp2, Hpart. reflexivity.
    + rewrite C5, Hir. cbn [idle_regs]. rewrite app_assoc. f_equal. rewrite <- R6. unfold m2. destruct keep, d; reflexivity.
    + rewrite Hic, R4. cbn [app idle_calls]. exact C6.
    + intros ready' lo' Hbl. destruct (R8 _ ready' lo' Hbl) as [Q1 Q2].
      assert (Hsame : mx_map (match d with Rd => Wr | Wr => Rd end) m2 = mx_map (match d with Rd => Wr | Wr => Rd end) m1).
      { unfold m2. destruct keep, d; reflexivity. }
      destruct (C7 ready' lo') as [S1 S2].
      { intros x Hx Hrx. rewrite Hsame. now apply Q2. }
      split; auto. rewrite S1. unfold part in *. rewrite Hsame. exact Q1.
  - (* not ready: skipped *)
    rewrite Hpart in Hn.
    cbn [length] in Ec.
    destruct (IHc (length r0)) with (lo := fd + 1) as (k & Hk); auto; [lia|now rewrite Hr0|].
    exists (Datatypes.S k). intros fuel Hf. destruct fuel as [|fuel]; [lia|].
    destruct (Hk fuel) as (m' & w' & ev & C1 & C2 & C3 & C4 & C5 & C6 & C7); [lia|].
    cbn [call_handlers]. destruct (Z.eqb_spec avail 0); [lia|]. rewrite Ef, Er, C1.
    exists m', w', ev. rewrite Hpart. auto 10.
Qed.

(** ** A whole cycle *)
Lemma asc_find : forall (m : hmap) e, asc m -> In e m -> map_find m (fst e) = Some (snd e).
Proof.
  induction m as [|(k, y) m IH]; intros e Ha Hi; [contradiction|]. cbn [asc] in Ha. destruct Ha as [H1 H2].
  destruct Hi as [Hi|Hi].
  - subst. cbn. now rewrite Z.eqb_refl.
  - cbn [map_find]. rewrite Forall_forall in H1. specialize (H1 e Hi). destruct (Z.eqb_spec k (fst e)); [lia|]. auto.
Qed.

Lemma part_all : forall d (m : mux H) ready, mx_ok m ->
  part d m (asked (mx_map d m) ready) (first_key (mx_map d m)) = filter (fun e => ready (fst e)) (mx_map d m).
Proof.
  intros d m ready Hm. unfold part. pose proof (mx_ok_map m d Hm) as Ha.
  apply filter_ext_in. intros e He. unfold asked. rewrite (asc_find _ _ Ha He).
  assert (first_key (mx_map d m) <= fst e).
  { destruct (mx_map d m) as [|(k, y) r]; [contradiction|]. cbn [first_key]. cbn [asc] in Ha. destruct Ha as [H1 _].
    destruct He as [He|He]; [subst; cbn; lia|]. rewrite Forall_forall in H1. specialize (H1 e He). lia. }
  replace (first_key (mx_map d m) <=? fst e) with true by lia. reflexivity.
Qed.

Lemma asked_blocked : forall d m ready lo, blocked d m (asked (mx_map d m) ready) lo.
Proof. intros d m ready lo fd _ Hr. unfold asked in Hr. destruct (map_find (mx_map d m) fd); [discriminate|discriminate]. Qed.

Lemma single_cycle_ready : forall m w rd wr, mx_ok m ->
  0 < count_ready (mx_read m) rd + count_ready (mx_write m) wr ->
  exists k, forall fuel, (k <= fuel)%nat -> exists m' w' ev,
    single_cycle call fuel (SelectReady rd wr) m w = Some (m', w', true, ev) /\ mx_ok m' /\
    replays (tbl m) ev (tbl m') /\ calls ev = due Rd (mx_read m) rd ++ due Wr (mx_write m) wr /\
    idle_calls ev = [] /\ mx_idle m' = mx_idle m ++ idle_regs ev.
Proof.
  intros m w rd wr Hm Hc.
  set (avail := count_ready (mx_read m) rd + count_ready (mx_write m) wr) in *.
  assert (Hp1 : part Rd m (asked (mx_read m) rd) (first_key (mx_read m)) = filter (fun e => rd (fst e)) (mx_read m)).
  { apply (part_all Rd m rd Hm). }
  assert (Hp2 : part Wr m (asked (mx_write m) wr) (first_key (mx_write m)) = filter (fun e => wr (fst e)) (mx_write m)).
  { apply (part_all Wr m wr Hm). }
  destruct (call_handlers_ok Rd (asked (mx_read m) rd) _ m (first_key (mx_read m)) avail w Hm (asked_blocked Rd m rd _) eq_refl)
    as (k1 & Hk1).
  { rewrite Hp1. unfold avail, count_ready. lia. }
  (* the second pass depends on the state after the first; take it from fuel k1 *)
  destruct (Hk1 k1 (le_n _)) as (m1 & w1 & ev1 & A1 & A2 & A3 & A4 & A5 & A6 & A7).
  destruct (A7 (asked (mx_write m) wr) (first_key (mx_write m)) (asked_blocked Wr m wr _)) as [B1 B2].
  assert (Hwlow : forall e, In e (mx_write m) -> first_key (mx_write m) <= fst e).
  { intros e He. destruct Hm as [_ Ha]. destruct (mx_write m) as [|(k, y) r]; [contradiction|]. cbn [first_key asc] in *.
    destruct Ha as [H1 _]. destruct He as [He|He]; [subst; cbn; lia|]. rewrite Forall_forall in H1. specialize (H1 e He). lia. }
  (* begin() of the write map may have moved down to a new, not ready entry *)
  assert (Hlow : part Wr m1 (asked (mx_write m) wr) (first_key (mx_write m1)) = part Wr m1 (asked (mx_write m) wr) (first_key (mx_write m))
                 /\ blocked Wr m1 (asked (mx_write m) wr) (first_key (mx_write m1))).
  { assert (Hask : forall fd, asked (mx_write m) wr fd = true -> exists h, In (fd, h) (mx_write m)).
    { clear. intros fd Hf. unfold asked in Hf. induction (mx_write m) as [|(k, y) r IH]; [discriminate|].
      cbn [map_find] in Hf. destruct (Z.eqb_spec k fd) as [E|E]; [subst; exists y; now left|].
      destruct IH as [h0 Hh]; auto. exists h0. now right. }
    assert (Hb0 : blocked Wr m1 (asked (mx_write m) wr) (first_key (mx_write m1))).
    { intros fd _ Hf. apply B2; auto. destruct (Hask fd Hf) as [h0 Hi]. apply (Hwlow _ Hi). }
    split; auto. unfold part. apply filter_ext_in. intros e He. cbn [mx_map] in He.
    assert (first_key (mx_write m1) <= fst e).
    { destruct A2 as [_ Ha]. destruct (mx_write m1) as [|(k, y) r]; [contradiction|]. cbn [first_key asc] in *.
      destruct Ha as [H1 _]. destruct He as [He|He]; [subst; cbn; lia|]. rewrite Forall_forall in H1. specialize (H1 e He). lia. }
    replace (first_key (mx_write m1) <=? fst e) with true by lia. cbn [andb].
    destruct (asked (mx_write m) wr (fst e)) eqn:Ea; [|now rewrite andb_false_r].
    destruct (Hask _ Ea) as [h0 Hi]. apply Hwlow in Hi. cbn [fst] in Hi.
    replace (first_key (mx_write m) <=? fst e) with true by lia. reflexivity. }
  destruct Hlow as [L1 L2].
  destruct (call_handlers_ok Wr (asked (mx_write m) wr) _ m1 (first_key (mx_write m1)) (avail - Z.of_nat (length (part Rd m (asked (mx_read m) rd) (first_key (mx_read m))))) w1 A2 L2 eq_refl)
    as (k2 & Hk2).
  { rewrite L1, B1, Hp1, Hp2. unfold avail, count_ready. lia. }
  exists (Nat.max k1 k2). intros fuel Hf.
  assert (Hdet : call_handlers call fuel Rd (asked (mx_read m) rd) (first_key (mx_read m)) avail m w =
                 Some (m1, w1, avail - Z.of_nat (length (part Rd m (asked (mx_read m) rd) (first_key (mx_read m)))), ev1)).
  { assert (Hmono : forall f1 f2 d r lo a mm ww x, (f1 <= f2)%nat ->
       call_handlers call f1 d r lo a mm ww = Some x -> call_handlers call f2 d r lo a mm ww = Some x).
    { clear. induction f1 as [|f1 IH]; intros f2 d r lo a mm ww x Hle Hx; [discriminate|].
      destruct f2 as [|f2]; [lia|]. cbn [call_handlers] in *. destruct (a =? 0); auto.
      destruct (first_ge (mx_map d mm) lo) as [(fd, h)|]; auto. destruct (r fd).
      - destruct (call h ww) as [[w1 rs] keep]. destruct (apply_regs mm rs) as [m1 ev1].
        match type of Hx with match ?c with _ => _ end = _ => destruct c as [[[[? ?] ?] ?]|] eqn:E; [|discriminate] end.
        rewrite (IH f2 _ _ _ _ _ _ _ (le_S_n _ _ Hle) E). exact Hx.
      - apply IH; auto. lia. }
    eapply Hmono; [|exact A1]. lia. }
  destruct (Hk2 fuel) as (m2 & w2 & ev2 & C1 & C2 & C3 & C4 & C5 & C6 & C7); [lia|].
  exists m2, w2, (ev1 ++ ev2). unfold single_cycle.
  assert (Hne : forall X (a b : X), match mx_read m, mx_write m with [], [] => a | _, _ => b end = b).
  { intros X a b. destruct (mx_read m) eqn:E1, (mx_write m) eqn:E2; auto. exfalso. unfold avail in Hc. clear -Hc E1 E2. try rewrite E1 in Hc. try rewrite E2 in Hc. cbn in Hc. discriminate. }
  rewrite Hne. fold avail. destruct (Z.eqb_spec avail 0); [lia|]. rewrite Hdet, C1.
  assert (Hcalls : forall a b : list (mux_event H), calls (a ++ b) = calls a ++ calls b).
  { clear. induction a as [|e a IH]; intros b; auto. cbn [app]. destruct e; cbn [calls]; rewrite IH; auto. }
  assert (Hic : forall a b : list (mux_event H), idle_calls (a ++ b) = idle_calls a ++ idle_calls b).
  { clear. induction a as [|e a IH]; intros b; auto. cbn [app]. destruct e; cbn [idle_calls]; rewrite IH; auto. }
  assert (Hir : forall a b : list (mux_event H), idle_regs (a ++ b) = idle_regs a ++ idle_regs b).
  { clear. induction a as [|e a IH]; intros b; auto. cbn [app]. destruct e; cbn [idle_regs]; rewrite IH; auto. }
  split; [reflexivity|]. split; [exact C2|]. split; [eapply replays_app; eauto|]. split; [|split].
  - rewrite Hcalls, A4, C4, L1, B1, Hp1, Hp2. reflexivity.
  - now rewrite Hic, A6, C6.
  - now rewrite C5, A5, Hir, app_assoc.
Qed.

(** ** Time-out: the idle handlers *)
Lemma call_idle_ok : forall fuel kept rest m w m' w' ev, mx_ok m ->
  call_idle call fuel kept rest m w = Some (m', w', ev) ->
  mx_ok m' /\ replays (tbl m) ev (tbl m') /\ calls ev = [] /\
  idle_calls ev = rest ++ idle_regs ev /\ mx_idle m' = kept ++ idle_kept ev.
Proof.
  assert (Hcalls : forall a b : list (mux_event H), calls (a ++ b) = calls a ++ calls b).
  { clear. induction a as [|e a IH]; intros b; auto. cbn [app]. destruct e; cbn [calls]; rewrite IH; auto. }
  assert (Hic : forall a b : list (mux_event H), idle_calls (a ++ b) = idle_calls a ++ idle_calls b).
  { clear. induction a as [|e a IH]; intros b; auto. cbn [app]. destruct e; cbn [idle_calls]; rewrite IH; auto. }
  assert (Hik : forall a b : list (mux_event H), idle_kept (a ++ b) = idle_kept a ++ idle_kept b).
  { clear. induction a as [|e a IH]; intros b; auto. cbn [app]. destruct e as [| |? ? ? ?|]; try destruct keep; cbn [idle_kept]; rewrite IH; auto. }
  assert (Hir : forall a b : list (mux_event H), idle_regs (a ++ b) = idle_regs a ++ idle_regs b).
  { clear. induction a as [|e a IH]; intros b; auto. cbn [app]. destruct e; cbn [idle_regs]; rewrite IH; auto. }
  induction fuel as [|fuel IH]; intros kept rest m w m' w' ev Hm E; [discriminate|].
  cbn [call_idle] in E. destruct rest as [|h rest].
  - inversion E; subst. split; [exact Hm|]. split; [constructor; intros [] ?; reflexivity|].
    cbn [calls idle_calls idle_regs idle_kept mx_idle app]. rewrite app_nil_r. auto.
  - destruct (call h w) as [[w1 rs] keep].
    pose proof (apply_regs_ok rs (mk_mux (mx_read m) (mx_write m) []) Hm) as R.
    destruct (apply_regs (mk_mux (mx_read m) (mx_write m) []) rs) as [m1 ev1].
    destruct R as (R1 & R2 & R3 & R4 & R5 & R6 & R7 & R8). cbn [mx_idle app] in R6.
    match type of E with match ?c with _ => _ end = _ => destruct c as [[[m2 w2] ev2]|] eqn:E2; [|discriminate] end.
    inversion E; subst. clear E.
    assert (R1' : mx_ok (mk_mux (mx_read m1) (mx_write m1) [])) by exact R1.
    destruct (IH _ _ _ _ _ _ _ R1' E2) as (A & B & C & D & F).
    split; auto. split; [|split; [|split]].
    + eapply replays_app; [|apply rp_idle; eapply replays_teq; [|exact B]].
      * eapply replays_teq; [|exact R2]. intros [] ?; reflexivity.
      * intros [] ?; reflexivity.
    + rewrite Hcalls, R3. exact C.
    + rewrite Hic, R4, Hir. cbn [app idle_calls idle_regs]. rewrite D, R6. now rewrite <- app_assoc.
    + rewrite F, Hik, R5. cbn [app]. destruct keep; cbn [idle_kept]; [now rewrite <- app_assoc|reflexivity].
Qed.

(** When handlers register no further idle handlers, the pass ends. *)
Lemma call_idle_terminates : forall rest kept m w,
  (forall h w, In h rest -> Forall (fun r => match r with RegIdle _ => False | _ => True end) (snd (fst (call h w)))) ->
  exists r, call_idle call (Datatypes.S (length rest)) kept rest m w = Some r.
Proof.
  induction rest as [|h rest IH]; intros kept m w Hr.
  - cbn. eauto.
  - cbn [length]. remember (Datatypes.S (length rest)) as f eqn:Ef. cbn [call_idle].
    pose proof (Hr h w (or_introl eq_refl)) as Hh. destruct (call h w) as [[w1 rs] keep]. cbn [fst snd] in Hh.
    assert (Hn : forall mm, mx_idle mm = [] -> mx_idle (fst (apply_regs mm rs)) = []).
    { clear -Hh. induction rs as [|r rs IH]; intros mm Hmm; auto. inversion Hh; subst. destruct r as [d fd h0|h0]; [|contradiction].
      cbn [apply_regs]. destruct (run_on d mm fd h0) as [m2 ok] eqn:E2. specialize (IH H3 m2).
      destruct (apply_regs m2 rs) as [m3 ev]. cbn [fst] in *. apply IH. unfold run_on in E2.
      destruct (map_find (mx_map d mm) fd); inversion E2; subst; auto. destruct d; auto. }
    specialize (Hn (mk_mux (mx_read m) (mx_write m) []) eq_refl).
    destruct (apply_regs (mk_mux (mx_read m) (mx_write m) []) rs) as [m1 ev1]. cbn [fst] in Hn. rewrite Hn, app_nil_r.
    destruct (IH (if keep then kept ++ [h] else kept) (mk_mux (mx_read m1) (mx_write m1) []) w1) as ([[m2 w2] ev2] & E2).
    { intros; apply Hr; now right. }
    subst f. rewrite E2. eauto.
Qed.

Lemma call_handlers_mono : forall f1 f2 d r lo a mm ww x, (f1 <= f2)%nat ->
  call_handlers call f1 d r lo a mm ww = Some x -> call_handlers call f2 d r lo a mm ww = Some x.
Proof.
  induction f1 as [|f1 IH]; intros f2 d r lo a mm ww x Hle Hx; [discriminate|].
  destruct f2 as [|f2]; [lia|]. cbn [call_handlers] in *. destruct (a =? 0); auto.
  destruct (first_ge (mx_map d mm) lo) as [(fd, h)|]; auto. destruct (r fd).
  - destruct (call h ww) as [[w1 rs] keep]. destruct (apply_regs mm rs) as [m1 ev1].
    match type of Hx with match ?c with _ => _ end = _ => destruct c as [[[[? ?] ?] ?]|] eqn:E; [|discriminate] end.
    rewrite (IH f2 _ _ _ _ _ _ _ (le_S_n _ _ Hle) E). exact Hx.
  - apply IH; auto. lia.
Qed.

Lemma call_idle_mono : forall f1 f2 kept rest m w x, (f1 <= f2)%nat ->
  call_idle call f1 kept rest m w = Some x -> call_idle call f2 kept rest m w = Some x.
Proof.
  induction f1 as [|f1 IH]; intros f2 kept rest m w x Hle Hx; [discriminate|].
  destruct f2 as [|f2]; [lia|]. cbn [call_idle] in *. destruct rest as [|h rest]; auto.
  destruct (call h w) as [[w1 rs] keep]. destruct (apply_regs _ rs) as [m1 ev1].
  match type of Hx with match ?c with _ => _ end = _ => destruct c as [[[? ?] ?]|] eqn:E; [|discriminate] end.
  rewrite (IH f2 _ _ _ _ _ (le_S_n _ _ Hle) E). exact Hx.
Qed.

Lemma single_cycle_mono : forall f1 f2 sel m w x, (f1 <= f2)%nat ->
  single_cycle call f1 sel m w = Some x -> single_cycle call f2 sel m w = Some x.
Proof.
  intros f1 f2 sel m w x Hle Hx. unfold single_cycle in *.
  assert (Hgen : forall X (c1 c2 : X -> option (mux H * W * bool * list (mux_event H))), True) by auto. clear Hgen.
  destruct (mx_read m) as [|er r] eqn:Er, (mx_write m) as [|ew ws] eqn:Ew; auto; destruct sel as [|rd wr]; auto.
  all: match type of Hx with (if ?b then _ else _) = _ => destruct b end;
    [ match type of Hx with match ?c with _ => _ end = _ => destruct c as [[[? ?] ?]|] eqn:E; [|discriminate] end;
      rewrite (call_idle_mono _ f2 _ _ _ _ _ Hle E); exact Hx
    | match type of Hx with match ?c with _ => _ end = _ => destruct c as [[[[? ?] ?] ?]|] eqn:E; [|discriminate] end;
      match type of Hx with match ?c with _ => _ end = _ => destruct c as [[[[? ?] ?] ?]|] eqn:E2; [|discriminate] end;
      rewrite (call_handlers_mono _ f2 _ _ _ _ _ _ _ Hle E);
      rewrite (call_handlers_mono _ f2 _ _ _ _ _ _ _ Hle E2); exact Hx ].
Qed.

(** ** Any cycle that returns *)
Lemma single_cycle_any : forall fuel sel m w m' w' go ev, mx_ok m ->
  single_cycle call fuel sel m w = Some (m', w', go, ev) ->
  mx_ok m' /\ replays (tbl m) ev (tbl m') /\
  (go = false <-> (mx_read m = [] /\ mx_write m = []) \/ sel = SelectError) /\
  (go = false -> m' = m /\ w' = w /\ ev = []) /\
  forall rd wr, sel = SelectReady rd wr -> go = true ->
    calls ev = due Rd (mx_read m) rd ++ due Wr (mx_write m) wr /\
    (if count_ready (mx_read m) rd + count_ready (mx_write m) wr =? 0
     then idle_calls ev = mx_idle m ++ idle_regs ev /\ mx_idle m' = idle_kept ev
     else idle_calls ev = [] /\ mx_idle m' = mx_idle m ++ idle_regs ev).
Proof.
  intros fuel sel m w m' w' go ev Hm E.
  assert (Htriv : replays (tbl m) [] (tbl m)) by (constructor; intros ? ?; reflexivity).
  destruct sel as [|rd wr].
  { assert (single_cycle call fuel SelectError m w = Some (m, w, false, [])) as E'.
    { unfold single_cycle. destruct (mx_read m), (mx_write m); auto. }
    rewrite E' in E. inversion E; subst. split; auto. split; auto. split; [tauto|]. split; auto. discriminate. }
  assert (Hcase : (mx_read m = [] /\ mx_write m = []) \/
     forall X (a b : X), match mx_read m, mx_write m with [], [] => a | _, _ => b end = b).
  { destruct (mx_read m), (mx_write m); auto. }
  destruct Hcase as [[H1 H2]|Hne].
  { unfold single_cycle in E. rewrite H1, H2 in E. inversion E; subst. split; auto. split; auto. split; [tauto|]. split; auto. discriminate. }
  assert (Hnn : ~ ((mx_read m = [] /\ mx_write m = []) \/ SelectReady rd wr = SelectError)).
  { intros [[H1 H2]|H1]; [|discriminate]. specialize (Hne bool true false). rewrite H1, H2 in Hne. discriminate. }
  pose proof (Zle_0_nat (length (filter (fun e => rd (fst e)) (mx_read m)))) as N1.
  pose proof (Zle_0_nat (length (filter (fun e => wr (fst e)) (mx_write m)))) as N2.
  fold (count_ready (mx_read m) rd) in N1. fold (count_ready (mx_write m) wr) in N2.
  destruct (Z.eqb_spec (count_ready (mx_read m) rd + count_ready (mx_write m) wr) 0) as [Ez|Ez].
  - unfold single_cycle in E. rewrite Hne in E. rewrite Ez in E. cbn [Z.eqb] in E.
    match type of E with match ?c with _ => _ end = _ => destruct c as [[[m1 w1] ev1]|] eqn:E1; [|discriminate] end.
    inversion E; subst. clear E.
    assert (Hm0 : mx_ok (mk_mux (mx_read m) (mx_write m) [])) by exact Hm.
    destruct (call_idle_ok _ _ _ _ _ _ _ _ Hm0 E1) as (A & B & C & D & F).
    split; auto. split; [eapply replays_teq; [|exact B]; intros [] ?; reflexivity|].
    split; [split; [discriminate|tauto]|]. split; [discriminate|].
    intros rd0 wr0 Er _. inversion Er; subst. rewrite Ez. cbn [Z.eqb app] in *.
    split; [|auto]. rewrite C. unfold due, count_ready in *.
    destruct (filter (fun e => rd0 (fst e)) (mx_read m)) eqn:F1; [|cbn [length] in *; lia].
    destruct (filter (fun e => wr0 (fst e)) (mx_write m)) eqn:F2; [reflexivity|cbn [length] in *; lia].
  - destruct (single_cycle_ready m w rd wr Hm ltac:(lia)) as (k & Hk).
    destruct (Hk (Nat.max k fuel) ltac:(lia)) as (m1 & w1 & ev1 & A & B & C & D & F & G).
    rewrite (single_cycle_mono fuel (Nat.max k fuel) _ _ _ _ ltac:(lia) E) in A. inversion A; subst. clear A.
    split; auto. split; auto. split; [split; [discriminate|tauto]|]. split; [discriminate|].
    intros rd0 wr0 Er _. inversion Er; subst. split; auto.
    destruct (Z.eqb_spec (count_ready (mx_read m) rd0 + count_ready (mx_write m) wr0) 0); [lia|auto].
Qed.

End P.
