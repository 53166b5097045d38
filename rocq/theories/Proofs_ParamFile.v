(** Proofs about the parameter file. *)
From Coq Require Import SpecFloat Sorting.Sorted.
From Verif Require Import Base Text Model_StringUtil Model_Float Model_Gcode Model_ParamFile Spec_ParamFile Proofs_Params.

(** ** The file system *)
Definition on_tmp (o : fop) : Prop := match o with Create Tmp | Append Tmp _ | Sync Tmp => True | _ => False end.
Lemma tmp_only : forall ops d, Forall on_tmp ops -> d_main (fold_left fstep ops d) = d_main d /\ d_bak (fold_left fstep ops d) = d_bak d.
Proof.
  induction ops as [|o ops IH]; intros d H; [auto|]. inversion H as [|? ? Ho Hr]; subst. cbn [fold_left]. destruct (IH (fstep d o) Hr) as [-> ->].
  destruct o as [[]|[] t|[]|]; try contradiction; cbn [fstep get_file]; destruct (d_tmp d); auto.
Qed.
Lemma appends : forall l d f, d_tmp d = Some f ->
  fold_left fstep (map (Append Tmp) l) d = mk_dir (d_main d) (d_bak d) (Some (mk_file (f_data f ++ concat l) (f_disk f))).
Proof.
  induction l as [|t l IH]; intros d f E; cbn [map fold_left concat].
  - rewrite app_nil_r. destruct d, f; cbn in *; congruence.
  - cbn [fstep get_file]. rewrite E. rewrite (IH _ (mk_file (f_data f ++ t) (f_disk f))) by reflexivity. cbn [set_file d_main d_bak f_data f_disk]. now rewrite app_assoc.
Qed.
Definition writing (l : list text) : list fop := Create Tmp :: map (Append Tmp) l ++ [Sync Tmp].
Lemma writing_tmp : forall l, Forall on_tmp (writing l).
Proof. intros l. constructor; [exact I|]. apply Forall_app. split; [|repeat constructor]. induction l; constructor; auto. exact I. Qed.
Lemma writing_done : forall l d, fold_left fstep (writing l) d = mk_dir (d_main d) (d_bak d) (Some (mk_file (concat l) (concat l))).
Proof.
  intros l d. unfold writing. cbn [fold_left]. rewrite fold_left_app. rewrite (appends _ _ (mk_file [] [])) by reflexivity. reflexivity.
Qed.
Lemma prefix_app : forall (A : Type) (x y a b : list A), x ++ y = a ++ b -> (exists z, x = a ++ z /\ b = z ++ y) \/ (exists z, a = x ++ z /\ y = z ++ b).
Proof.
  intros A x. induction x as [|u x IH]; intros y a b E; cbn in E; [right; exists a; auto|]. destruct a as [|v a]; [left; exists (u :: x); split; [reflexivity|exact (eq_sym E)]|].
  injection E as <- E. destruct (IH _ _ _ E) as [(z & -> & ->)|(z & -> & ->)]; [left|right]; exists z; auto.
Qed.
Lemma found_sure : forall t x, found (Some (mk_file t t)) x -> x = Some t.
Proof.
  intros t [x|] H; [|contradiction]. destruct H as (a & b & z & -> & E1 & E2). cbn in *. subst a. f_equal.
  apply (f_equal (@length ascii)) in E2 as L. rewrite !app_length in L. destruct b; [now rewrite app_nil_r|cbn in L; lia].
Qed.
Lemma found_none : forall x, found None x -> x = None.
Proof. intros [x|] H; [contradiction|reflexivity]. Qed.
Lemma settled_main : forall d k, settled d k -> (d_main d = match k_main k with Some t => Some (mk_file t t) | None => None end) /\
  (d_bak d = match k_bak k with Some t => Some (mk_file t t) | None => None end).
Proof.
  intros [m b t] [km kb kt] (H1 & H2 & _). cbn in *.
  split; [destruct m as [[? ?]|], km|destruct b as [[? ?]|], kb]; cbn in *; try contradiction; try reflexivity; [destruct H1; subst|destruct H2; subst]; reflexivity.
Qed.
Lemma found_opt : forall o x, found (match o with Some t => Some (mk_file t t) | None => None end) x -> x = o.
Proof. intros [t|] x H; [now apply found_sure|now apply found_none]. Qed.

(** ** Lines *)
Definition full_line (l : text) : Prop := exists b, l = b ++ [LF] /\ ~ In LF b /\ (length l <= 255)%nat.
Lemma fgets_line : forall n b t, ~ In LF b -> (length b < n)%nat -> fgets n (b ++ LF :: t) = (b ++ [LF], t).
Proof.
  induction n as [|n IH]; intros b t N L; [lia|]. destruct b as [|x b]; cbn [app fgets].
  - rewrite Ascii.eqb_refl. reflexivity.
  - destruct (Ascii.eqb_spec x LF) as [->|Hx]; [exfalso; apply N; now left|]. rewrite IH; [reflexivity| |cbn in L; lia]. intros X. apply N. now right.
Qed.
Lemma lines_concat : forall ls fuel, Forall full_line ls -> (length (concat ls) <= fuel)%nat -> file_lines fuel (concat ls) = ls.
Proof.
  induction ls as [|l ls IH]; intros fuel H L; [now destruct fuel|]. inversion H as [|? ? (b & -> & N & Lb) Hr]; subst. cbn [concat] in *.
  rewrite <- app_assoc in *. cbn [app] in *. rewrite !app_length in *. cbn [length] in *. destruct fuel as [|fuel]; [lia|]. cbn [file_lines].
  destruct (b ++ LF :: concat ls) as [|y t] eqn:E; [destruct b; discriminate|]. rewrite <- E, (fgets_line 255 b) by (auto; lia). f_equal. apply IH; [exact Hr|lia].
Qed.
Lemma word_plain : forall k t, Forall (fun x => is_space x = false) k -> (forall x r, t = x :: r -> is_space x = true) -> word (k ++ t) = (k, t).
Proof.
  intros k t H T. induction H as [|x k Hx _ IH]; cbn [app word].
  - destruct t as [|x r]; [reflexivity|]. cbn [word]. now rewrite (T x r eq_refl).
  - now rewrite Hx, IH.
Qed.
Lemma skip_plain : forall x t, is_space x = false -> skip_spaces (x :: t) = x :: t.
Proof. intros x t H. cbn [skip_spaces]. now rewrite H. Qed.
Lemma scan_param : forall e k v, proper_name k -> survives e v -> scan_line e (param_line e k v) = Some (k, v).
Proof.
  intros e k v (H & x & r & -> & _) ((y & p & P & Py) & _ & S). unfold scan_line, param_line. inversion H as [|? ? Hx Hr]; subst.
  rewrite <- app_comm_cons, skip_plain by exact Hx. rewrite app_comm_cons, word_plain; [|exact H|intros ? ? E; injection E as <- _; reflexivity].
  cbn [skip_spaces]. change (is_space TAB) with true. cbv iota. rewrite P in *. rewrite <- app_comm_cons, skip_plain by exact Py. rewrite app_comm_cons, S. reflexivity.
Qed.
Lemma no_lf : forall k, Forall (fun x => is_space x = false) k -> ~ In LF k.
Proof. intros k H I. rewrite Forall_forall in H. specialize (H _ I). discriminate. Qed.
Lemma param_full : forall e k v, proper_name k -> survives e v -> (length k + length (n_print e v) <= 253)%nat -> full_line (param_line e k v).
Proof.
  intros e k v (H & _) (_ & N & _) L. exists (k ++ TAB :: n_print e v). unfold param_line. split; [now rewrite <- app_assoc|]. split.
  - intros I. apply in_app_or in I. destruct I as [I|[I|I]]; [now apply (no_lf k)|discriminate|contradiction].
  - rewrite app_length. cbn [length]. rewrite app_length. cbn [length]. lia.
Qed.

(** ** Tables *)
Lemma text_eqb_eq : forall a b, text_eqb a b = true <-> a = b.
Proof.
  induction a as [|x a IH]; intros [|y b]; cbn [text_eqb]; try (split; [discriminate|discriminate]); [tauto|].
  rewrite Bool.andb_true_iff, IH, Ascii.eqb_eq. split; [intros [-> ->]; reflexivity|intros E; injection E; auto].
Qed.
Definition put_all (l : list (text * fl)) (m : pmap) : pmap := fold_left (fun m '(k, v) => pm_set k v m) l m.
Lemma put_all_other : forall l m k, (forall v, ~ In (k, v) l) -> pm_find k (put_all l m) = pm_find k m.
Proof.
  induction l as [|[k' v'] l IH]; intros m k H; [reflexivity|]. cbn [put_all fold_left]. unfold put_all in IH. rewrite IH.
  - apply find_set_other. destruct (text_eqb k k') eqn:E; [|reflexivity]. apply text_eqb_eq in E. subst. exfalso. apply (H v'). now left.
  - intros v I. apply (H v). now right.
Qed.
Lemma put_all_in : forall l m k v, NoDup (map fst l) -> In (k, v) l -> pm_find k (put_all l m) = Some v.
Proof.
  induction l as [|[k' v'] l IH]; intros m k v N I; [contradiction|]. inversion N as [|? ? N1 N2]; subst. cbn [put_all fold_left] in *. destruct I as [E|I].
  - injection E as -> ->. change (pm_find k (put_all l (pm_set k v m)) = Some v). rewrite put_all_other; [apply find_set_same|].
    intros w W. apply N1. apply (in_map fst) in W. exact W.
  - apply IH; auto.
Qed.
(** std::map<int, float> *)
Definition zsorted (m : list (Z * fl)) : Prop := StronglySorted (fun a b => fst a < fst b) m.
Lemma zm_in : forall n v m x, In x (zm_set n v m) -> x = (n, v) \/ In x m.
Proof.
  intros n v. induction m as [|[k w] m IH]; intros x I; cbn [zm_set] in I.
  - destruct I as [<-|[]]. auto.
  - destruct (n =? k); [destruct I as [<-|I]; [auto|right; now right]|]. destruct (n <? k); [destruct I as [<-|I]; auto|].
    destruct I as [<-|I]; [right; now left|]. destruct (IH _ I); [auto|right; now right].
Qed.
Lemma zm_here : forall n v m, In (n, v) (zm_set n v m).
Proof. intros n v. induction m as [|[k w] m IH]; cbn [zm_set]; [now left|]. destruct (n =? k); [now left|]. destruct (n <? k); [now left|now right]. Qed.
Lemma zm_keep : forall n v m x, In x m -> fst x <> n -> In x (zm_set n v m).
Proof.
  intros n v. induction m as [|[k w] m IH]; intros x I N; [contradiction|]. cbn [zm_set]. destruct (n =? k) eqn:E.
  - destruct I as [<-|I]; [cbn in N; lia|now right].
  - destruct (n <? k); [now right|]. destruct I as [<-|I]; [now left|right; auto].
Qed.
Lemma zm_sorted : forall n v m, zsorted m -> zsorted (zm_set n v m).
Proof.
  intros n v. induction m as [|[k w] m IH]; intros S; cbn [zm_set]; [repeat constructor|]. inversion S as [|? ? S1 F]; subst.
  destruct (n =? k) eqn:E; [assert (n = k) by lia; subst; constructor; auto|]. destruct (n <? k) eqn:L.
  - constructor; [exact S|]. constructor; [cbn; lia|]. eapply Forall_impl; [|exact F]. cbn. intros [? ?] X. cbn in *. lia.
  - constructor; [exact (IH S1)|]. apply Forall_forall. intros x I. apply zm_in in I. destruct I as [->|I]; [cbn; lia|]. rewrite Forall_forall in F. auto.
Qed.

(** ** What is written *)
Definition wellnamed (m : pmap) : Prop := Forall (fun p => proper_name (fst p)) m.
Lemma atoi_show : forall n, 0 <= n < 2 ^ 31 -> atoi (show_int n) = n.
Proof.
  intros n H. pose proof (show_read n ltac:(lia)) as R. unfold atoi.
  destruct (show_cases n) as (u & Hu & Hv & E). replace (n <? 0) with false in E by lia. cbn [app] in E. rewrite E.
  rewrite zero_uint. pose proof (uint_digits u [] ltac:(intros; discriminate)) as D. rewrite app_nil_r in D. destruct u; [congruence|..]; rewrite D; cbn [fst]; lia.
Qed.
Lemma ltb_first : forall a b x y r s, a = x :: r -> b = y :: s -> text_ltb a b = true -> code x <= code y.
Proof. intros a b x y r s -> -> H. cbn [text_ltb] in H. lia. Qed.
Lemma ltb_irrefl : forall a, text_ltb a a = false.
Proof. induction a as [|x a IH]; [reflexivity|]. cbn [text_ltb]. rewrite IH. lia. Qed.
Lemma show_inj' : forall a b, 0 <= a < 2 ^ 31 -> 0 <= b < 2 ^ 31 -> show_int a = show_int b -> a = b.
Proof. intros a b Ha Hb. apply show_inj; lia. Qed.
(** Numbers behind the first name are none. *)
Lemma numeric_spec : forall m acc, is_map m -> wellnamed m -> zsorted acc ->
  (forall n v, In (n, v) acc -> 0 <= n < 2 ^ 31 /\ forall w, ~ In (show_int n, w) m) ->
  zsorted (numeric m acc) /\ forall n v, In (n, v) (numeric m acc) <-> In (n, v) acc \/ (0 <= n < 2 ^ 31 /\ In (show_int n, v) m).
Proof.
  induction m as [|[k w] m IH]; intros acc S W Z A.
  - split; [exact Z|]. intros n v. cbn [numeric]. split; [auto|intros [H|[_ []]]; exact H].
  - inversion S as [|? ? S1 F]; subst. inversion W as [|? ? (Pk & x & r & E & C & D) W1]; subst. cbn [fst] in *. subst k. cbn [numeric].
    rewrite Forall_forall in F. assert (NI : forall u, ~ In (x :: r, u) m).
    { intros u I. specialize (F _ I). cbn [fst] in F. rewrite ltb_irrefl in F. discriminate. }
    destruct (is_digit x) eqn:Dx.
    + destruct (D eq_refl) as (n0 & N0 & E0). rewrite E0, atoi_show by exact N0. rewrite E0 in NI.
      destruct (IH (zm_set n0 w acc) S1 W1 (zm_sorted _ _ _ Z)) as [Z' H'].
      * intros n v I. apply zm_in in I. destruct I as [I|I].
        -- injection I as -> ->. auto.
        -- destruct (A n v I) as [A1 A2]. split; [exact A1|]. intros u U. apply (A2 u). now right.
      * split; [exact Z'|]. intros n v. rewrite H'. split.
        -- intros [I|[I1 I2]]; [|right; split; [exact I1|now right]]. apply zm_in in I. destruct I as [I|I]; [|now left]. injection I as -> ->. right. split; [exact N0|now left].
        -- intros [I|[I1 [I2|I2]]].
           ++ left. apply zm_keep; [exact I|]. cbn [fst]. intros ->. destruct (A n0 v I) as [_ A2]. apply (A2 w). left. now rewrite E0.
           ++ injection I2 as I2 ->. left. apply show_inj' in I2; [|exact N0|exact I1]. subst. apply zm_here.
           ++ right. auto.
    + split; [exact Z|]. intros n v. split; [auto|]. intros [I|[I1 I2]]; [exact I|]. exfalso.
      assert (X : exists y s, show_int n = y :: s /\ is_digit y = true).
      { destruct (show_cases n) as (u & Hu & Hv & E). replace (n <? 0) with false in E by lia. rewrite E, zero_uint.
        destruct u; [congruence|..]; cbn [DecimalString.NilEmpty.string_of_uint txt app]; eauto. }
      destruct X as (y & s & E & Dy). destruct I2 as [I2|I2].
      * injection I2 as I2 _. rewrite E in I2. injection I2 as -> _. congruence.
      * specialize (F _ I2). cbn [fst] in F. pose proof (ltb_first _ _ x y r s eq_refl E F) as L. unfold is_digit in *. lia.
Qed.
Lemma numbered_in : forall l k v, In (k, v) (numbered l) <-> exists n, In (n, v) l /\ n <> 0 /\ zero v = false /\ k = show_int n.
Proof.
  intros l k v. unfold numbered. rewrite in_flat_map. split.
  - intros ([n w] & I & X). destruct ((n =? 0) || zero w) eqn:E; [contradiction|]. destruct X as [X|[]]. injection X as <- <-. exists n. repeat split; auto; [lia|].
    destruct (zero w); [rewrite Bool.orb_true_r in E; discriminate|reflexivity].
  - intros (n & I & N & Z & ->). exists (n, v). split; [exact I|]. rewrite Z. replace (n =? 0) with false by lia. now left.
Qed.
Lemma named_in : forall m k v, In (k, v) (named m) <-> In (k, v) m /\ zero v = false /\ is_global k.
Proof.
  intros m k v. unfold named. rewrite in_flat_map. split.
  - intros ([k' w] & I & X). destruct k' as [|x r]; [contradiction|]. destruct (is_digit x); [contradiction|]. destruct (Ascii.eqb_spec x "_") as [->|]; [|contradiction]. cbn [negb] in X.
    destruct (zero w) eqn:Z; [contradiction|]. destruct X as [X|[]]. injection X as <- <-. repeat split; auto. now exists r.
  - intros (I & Z & (r & ->)). exists ("_"%char :: r, v). split; [exact I|]. cbn. rewrite Z. now left.
Qed.
Lemma map_nodup : forall m, is_map m -> NoDup (map fst m).
Proof.
  induction m as [|[k v] m IH]; intros S; [constructor|]. inversion S as [|? ? S1 F]; subst. cbn [map fst]. constructor; [|auto].
  intros I. apply in_map_iff in I. destruct I as ([k' w] & E & I). cbn in E. subst k'. rewrite Forall_forall in F. specialize (F _ I). cbn [fst] in F. rewrite ltb_irrefl in F. discriminate.
Qed.
Lemma named_nodup : forall m, NoDup (map fst m) -> NoDup (map fst (named m)).
Proof.
  induction m as [|[k v] m IH]; intros N; [constructor|]. inversion N as [|? ? N1 N2]; subst. unfold named in *. cbn [flat_map]. rewrite map_app.
  assert (X : forall k', In k' (map fst (named m)) -> In k' (map fst m)).
  { intros k' I. apply in_map_iff in I. destruct I as ([k2 w] & E & I). cbn in E. subst k2. apply named_in in I. destruct I as [I _]. apply in_map_iff. now exists (k', w). }
  destruct k as [|x r]; [auto|]. destruct (is_digit x); [auto|]. destruct (negb (Ascii.eqb x "_")); [auto|]. destruct (zero v); [auto|]. cbn [map app fst]. constructor; [|auto].
  intros I. apply N1. apply (X (x :: r)). exact I.
Qed.
Lemma numbered_nodup : forall l, zsorted l -> (forall n v, In (n, v) l -> 0 <= n < 2 ^ 31) -> NoDup (map fst (numbered l)).
Proof.
  induction l as [|[n v] l IH]; intros S B; [constructor|]. inversion S as [|? ? S1 F]; subst. unfold numbered in *. cbn [flat_map]. rewrite map_app.
  assert (H : NoDup (map fst (numbered l))) by (apply IH; [exact S1|intros n' v' I; apply (B n' v'); now right]).
  destruct ((n =? 0) || zero v); [exact H|]. cbn [map app fst]. constructor; [|exact H]. intros I. apply in_map_iff in I. destruct I as ([k w] & E & I). cbn in E. subst k.
  apply numbered_in in I. destruct I as (n' & I & _ & _ & E). apply show_inj' in E; [|apply (B n v); now left|apply (B n' w); now right]. subst n'.
  rewrite Forall_forall in F. specialize (F _ I). cbn in F. lia.
Qed.

(** ** Reading it back *)
Lemma load_lines : forall e ls l m, Forall2 (fun t p => scan_line e t = Some p) ls l ->
  fold_left (fun m t => match scan_line e t with Some (k, v) => pm_set k v m | None => m end) ls m = put_all l m.
Proof. intros e ls l m H. revert m. induction H as [|t [k v] ls l E _ IH]; intros m; [reflexivity|]. cbn [fold_left put_all]. rewrite E. apply IH. Qed.
Definition fits (e : cnum) (p : text * fl) : Prop :=
  proper_name (fst p) /\ survives e (snd p) /\ (length (fst p) + length (n_print e (snd p)) <= 253)%nat.
Lemma written_lines : forall e l, Forall (fits e) l -> exists ls, written e l = concat ls /\ Forall full_line ls /\ Forall2 (fun t p => scan_line e t = Some p) ls l.
Proof.
  intros e l H. exists (map (fun '(k, v) => param_line e k v) l). split; [unfold written; now rewrite flat_map_concat_map|]. split.
  - induction H as [|[k v] l (P & S & L) _ IH]; constructor; [apply param_full|]; auto.
  - induction H as [|[k v] l (P & S & L) _ IH]; constructor; [apply scan_param|]; auto.
Qed.
Definition comment : text := txt "Alphanumeric global parameters" ++ [LF].
Lemma load_content : forall e m m0, Forall (fits e) (numbered (numeric m [])) -> Forall (fits e) (named m) -> n_scan e comment = None ->
  load_params e (Some (content e m)) m0 = (true, put_all (numbered (numeric m []) ++ named m) (pm_set (txt "5220") f1 m0)).
Proof.
  intros e m m0 H1 H2 HC. unfold load_params. f_equal. set (base := pm_set (txt "5220") f1 m0). unfold content.
  destruct (written_lines e _ H1) as (l1 & E1 & F1 & S1). destruct (written_lines e _ H2) as (l2 & E2 & F2 & S2). rewrite E1.
  assert (P : forall l, put_all (numbered (numeric m []) ++ l) base = put_all l (put_all (numbered (numeric m [])) base)) by (intros; apply fold_left_app).
  rewrite P. destruct (named m) as [|p q] eqn:N.
  - rewrite app_nil_r, lines_concat by auto. rewrite (load_lines e _ _ _ S1). reflexivity.
  - set (hd := [[LF]; txt "# Alphanumeric global parameters" ++ [LF]]).
    assert (C : concat l1 ++ header ++ written e (p :: q) = concat (l1 ++ hd ++ l2)) by (rewrite E2, !concat_app; reflexivity).
    assert (Fh : Forall full_line hd).
    { repeat constructor.
      - exists []. split; [reflexivity|]. split; [intros []|cbn; lia].
      - exists (txt "# Alphanumeric global parameters"). split; [reflexivity|]. split; [|cbn; lia]. cbn. intuition discriminate. }
    rewrite C, lines_concat; [|apply Forall_app; split; [exact F1|apply Forall_app; auto]|lia].
    rewrite !fold_left_app, (load_lines e _ _ _ S1). rewrite <- (load_lines e _ _ _ S2). f_equal.
    cbn [fold_left hd]. unfold scan_line at 2. cbn [skip_spaces]. change (is_space LF) with true. cbv iota. cbn [word].
    assert (X : scan_line e (txt "# Alphanumeric global parameters" ++ [LF]) = None); [|now rewrite X].
    unfold scan_line. change (word (skip_spaces (txt "# Alphanumeric global parameters" ++ [LF]))) with (["#"%char], " "%char :: comment).
    cbv iota beta. change (skip_spaces (" "%char :: comment)) with comment. now rewrite HC.
Qed.
