(** Theorems about the parameter file: C24, C25. *)
From Coq Require Import SpecFloat Sorting.Sorted.
From Verif Require Import Base Text Model_StringUtil Model_Float Model_Gcode Model_ParamFile Spec_Text Spec_ParamFile Proofs_StringUtil Proofs_Params Proofs_ParamFile.

(** ** C24 *)
Lemma all_ops : forall a, a_sync a = true -> fst (save_params a) =
  if a_open a then writing (a_pieces a) ++
    (if a_close a then (if a_first a then [Rename Main Bak] else []) ++ (if a_second a then [Rename Tmp Main] else []) else [])
  else [].
Proof.
  intros a S. unfold save_params, writing. rewrite S. destruct (a_open a); [|reflexivity]. cbn [negb]. destruct (a_close a); cbn [negb fst]; [|now rewrite app_nil_r].
  destruct (a_first a), (a_second a); cbn [fst app]; rewrite ?app_nil_r; cbn [app]; rewrite <- ?app_assoc; reflexivity.
Qed.
Lemma on_tmp_prefix : forall x y, Forall on_tmp (x ++ y) -> Forall on_tmp x.
Proof. intros x y H. apply Forall_app in H. tauto. Qed.

(** Whatever was in the directory before, the new text is written completely or not, the
    renames work or not: when the machine stops after any of the file operations, the files
    are as before, or the previous file is the backup, the new text complete in the
    temporary file and there is no main file, or the main file is the new text. *)
Theorem C24_crash : forall a d before after ops rest, settled d before -> a_sync a = true ->
  fst (save_params a) = ops ++ rest -> crashed (fold_left fstep ops d) after ->
  let new := concat (a_pieces a) in
  (k_main after = k_main before /\ k_bak after = k_bak before) \/
  (k_main before <> None /\ k_main after = None /\ k_bak after = k_main before /\ k_tmp after = Some new) \/
  (k_main after = Some new /\ k_tmp after = None /\
   k_bak after = if a_first a then match k_main before with Some t => Some t | None => k_bak before end else k_bak before).
Proof.
  intros a d before after ops rest Hd Hs E (C1 & C2 & C3) new. destruct (settled_main _ _ Hd) as [Dm Db].
  assert (U : Forall on_tmp ops -> k_main after = k_main before /\ k_bak after = k_bak before).
  { intros T. destruct (tmp_only ops d T) as [M B]. rewrite M, Dm in C1. rewrite B, Db in C2. split; now apply found_opt. }
  rewrite all_ops in E by exact Hs. destruct (a_open a); [|left; apply U; symmetry in E; apply app_eq_nil in E; destruct E as [-> _]; constructor].
  symmetry in E. apply prefix_app in E. destruct E as [(z & -> & E)|(z & Ez & _)]; [|left; apply U; apply (on_tmp_prefix _ z); rewrite <- Ez; apply writing_tmp].
  rewrite fold_left_app, writing_done, Dm, Db in *. fold new in C1, C2, C3. clear U.
  assert (Cases : z = [] \/ (a_first a = true /\ z = [Rename Main Bak]) \/ (a_first a = true /\ z = [Rename Main Bak; Rename Tmp Main]) \/ (a_first a = false /\ z = [Rename Tmp Main])).
  { clear - E. destruct (a_close a), (a_first a), (a_second a); cbn [app] in E;
      (destruct z as [|z1 [|z2 [|z3 z]]]; cbn [app] in E; [auto|..]; try discriminate); injection E as <- E; try (subst; auto; fail);
      try discriminate; injection E as <- E; auto; discriminate. }
  destruct Cases as [->|[[F ->]|[[F ->]|[F ->]]]]; rewrite ?F; cbn [fold_left fstep get_file set_file d_main d_bak d_tmp] in C1, C2, C3.
  - left. split; [now apply found_opt in C1|now apply found_opt in C2].
  - destruct (k_main before) as [t|]; cbn [set_file d_main d_bak d_tmp] in C1, C2, C3.
    + right. left. repeat split; [discriminate|now apply found_none|now apply found_sure|now apply found_sure].
    + left. split; [now apply found_none|now apply found_opt in C2].
  - right. right. destruct (k_main before) as [t|]; cbn [set_file get_file d_main d_bak d_tmp] in C1, C2, C3.
    + repeat split; [now apply found_sure|now apply found_none|now apply found_sure].
    + repeat split; [now apply found_sure|now apply found_none|now apply found_opt in C2].
  - right. right. repeat split; [now apply found_sure|now apply found_none|now apply found_opt in C2].
Qed.
Print Assumptions C24_crash.

(** In particular a complete copy of the previous or of the new parameters always remains. *)
Theorem C24_not_lost : forall a d before after ops rest old, settled d before -> a_sync a = true ->
  fst (save_params a) = ops ++ rest -> crashed (fold_left fstep ops d) after -> k_main before = Some old ->
  k_main after = Some old \/ k_bak after = Some old \/ k_main after = Some (concat (a_pieces a)).
Proof.
  intros a d before after ops rest old Hd Hs E C O. destruct (C24_crash a d before after ops rest Hd Hs E C) as [(-> & _)|[(_ & _ & -> & _)|(-> & _)]]; auto.
Qed.
Print Assumptions C24_not_lost.

(** When saving reports success the main file holds what was written, the backup the
    previous file. When it reports failure nothing new is in the main file. *)
Theorem C24_result : forall a d before after, settled d before -> a_sync a = true -> crashed (fold_left fstep (fst (save_params a)) d) after ->
  (snd (save_params a) = true -> k_main after = Some (concat (a_pieces a)) /\
    (a_first a = true -> forall old, k_main before = Some old -> k_bak after = Some old)) /\
  (snd (save_params a) = false -> k_main after = k_main before \/ (k_main after = None /\ k_bak after = k_main before)).
Proof.
  intros a d before after Hd Hs (C1 & C2 & C3). destruct (settled_main _ _ Hd) as [Dm Db]. rewrite all_ops in * by exact Hs.
  unfold save_params. destruct (a_open a); cbn [negb]; [|split; [discriminate|left; cbn [fold_left] in C1; rewrite Dm in C1; now apply found_opt in C1]].
  rewrite fold_left_app, writing_done, Dm, Db in *.
  destruct (a_close a); cbn [negb snd fold_left d_main d_bak d_tmp] in *; [|split; [discriminate|left; now apply found_opt in C1]].
  destruct (a_first a), (a_second a); cbn [snd app fold_left fstep get_file set_file d_main d_bak d_tmp] in *; (split; [try discriminate|try discriminate]).
  - intros _. destruct (k_main before) as [t|]; cbn [set_file get_file d_main d_bak d_tmp] in *; (split; [now apply found_sure|]); intros _ old X; [injection X as ->|discriminate]. now apply found_sure.
  - intros _. destruct (k_main before) as [t|]; cbn [set_file get_file d_main d_bak d_tmp] in *; [right; split; [now apply found_none|now apply found_sure]|left; now apply found_none].
  - intros _. split; [now apply found_sure|discriminate].
  - intros _. left. now apply found_opt in C1.
Qed.
Print Assumptions C24_result.

(** Every call works, saving a small table over an existing file and an existing backup. *)
Definition all_well (l : list text) : answers := mk_answers true l true true true true.
Definition safe (t : string) : option file := Some (mk_file (txt t) (txt t)).
Definition ex_dir : dir := mk_dir (safe "1 2") (safe "1 1") None.
Definition ex_disk : disk := mk_disk (Some (txt "1 2")) (Some (txt "1 1")) None.
Example ex_settled : settled ex_dir ex_disk. Proof. repeat split. Qed.
Example C24_applies : exists after, crashed (fold_left fstep (fst (save_params (all_well [txt "1"; txt " 3"]))) ex_dir) after /\
  k_main after = Some (txt "1 3") /\ k_bak after = Some (txt "1 2").
Proof.
  exists (mk_disk (Some (txt "1 3")) (Some (txt "1 2")) None). split; [|split; reflexivity]. vm_compute. repeat split.
  - exists (txt "1 3"), [], []. repeat split.
  - exists (txt "1 2"), [], []. repeat split.
Qed.

(** Between the two renames there is no main file: after a crash there the next start finds
    no parameters although all system calls work. *)
Theorem C24_missing_refuted : exists d before ops rest after, settled d before /\ k_main before <> None /\
  fst (save_params (all_well [txt "1 3"])) = ops ++ rest /\ crashed (fold_left fstep ops d) after /\ k_main after = None.
Proof.
  exists ex_dir, ex_disk, (writing [txt "1 3"] ++ [Rename Main Bak]), [Rename Tmp Main], (mk_disk None (Some (txt "1 2")) (Some (txt "1 3"))).
  split; [exact ex_settled|]. split; [discriminate|]. split; [reflexivity|]. split; [|reflexivity]. vm_compute. repeat split.
  - exists (txt "1 2"), [], []. repeat split.
  - exists (txt "1 3"), [], []. repeat split.
Qed.
Print Assumptions C24_missing_refuted.

(** A full disk goes unnoticed: the text that is printed does not reach the file, saving
    still reports success and the main file is empty. *)
Theorem C24_full_refuted : exists a d before after, settled d before /\ k_main before <> None /\ a_sync a = true /\
  snd (save_params a) = true /\ crashed (fold_left fstep (fst (save_params a)) d) after /\ k_main after = Some [].
Proof.
  exists (all_well []), ex_dir, ex_disk, (mk_disk (Some []) (Some (txt "1 2")) None).
  split; [exact ex_settled|]. split; [discriminate|]. split; [reflexivity|]. split; [reflexivity|]. split; [|reflexivity]. vm_compute. repeat split.
  - exists [], [], []. repeat split.
  - exists (txt "1 2"), [], []. repeat split.
Qed.
Print Assumptions C24_full_refuted.
(** So does a failing fdatasync: after a crash part of the main file may be missing. *)
Theorem C24_sync_refuted : exists a d before after, settled d before /\ k_main before <> None /\ concat (a_pieces a) = txt "1 3" /\
  snd (save_params a) = true /\ crashed (fold_left fstep (fst (save_params a)) d) after /\ k_main after = Some (txt "1").
Proof.
  exists (mk_answers true [txt "1 3"] false true true true), ex_dir, ex_disk, (mk_disk (Some (txt "1")) (Some (txt "1 2")) None).
  split; [exact ex_settled|]. split; [discriminate|]. split; [reflexivity|]. split; [reflexivity|]. split; [|reflexivity]. vm_compute. repeat split.
  - exists [], (txt "1"), (txt " 3"). repeat split.
  - exists (txt "1 2"), [], []. repeat split.
Qed.
Print Assumptions C24_sync_refuted.

(** ** C25 *)
(** The tables that the parser makes are maps. *)
Lemma ltb_total : forall a b, text_eqb a b = false -> text_ltb a b = false -> text_ltb b a = true.
Proof.
  induction a as [|x a IH]; intros [|y b] E L; cbn [text_eqb text_ltb] in *; try discriminate; try reflexivity.
  destruct (Ascii.eqb_spec x y) as [->|N]; cbn [andb] in E.
  - rewrite Z.eqb_refl in *. cbn [andb] in *. rewrite (IH b) by (auto; lia). lia.
  - assert (code x <> code y) by (intros C; apply N; now apply code_inj). lia.
Qed.
Theorem C25_tables : is_map [] /\ forall k v m, is_map m -> is_map (pm_set k v m).
Proof.
  split; [constructor|]. intros k v. induction m as [|[k' w] m IH]; intros S; cbn [pm_set]; [repeat constructor|]. inversion S as [|? ? S1 F]; subst.
  destruct (text_eqb k k') eqn:E; [apply text_eqb_eq in E; subst; constructor; auto|]. destruct (text_ltb k k') eqn:L.
  - constructor; [exact S|]. constructor; [exact L|]. eapply Forall_impl; [|exact F]. cbn [fst]. intros [q ?] X. cbn [fst] in *.
    clear - L X. revert k' q L X. induction k as [|x k IHk]; intros [|y k'] [|z q] L X; cbn [text_ltb] in *; try discriminate; try reflexivity.
    apply Bool.orb_true_iff in L; apply Bool.orb_true_iff in X. apply Bool.orb_true_iff. destruct L as [L|L], X as [X|X]; [left; lia|left; lia|left; lia|]. right.
    apply Bool.andb_true_iff in L; apply Bool.andb_true_iff in X. destruct L as [L1 L2], X as [X1 X2]. apply Bool.andb_true_iff. split; [lia|eauto].
  - constructor; [exact (IH S1)|]. apply Forall_forall. intros [q u] I. cbn [fst].
    assert (X : In (q, u) m \/ q = k).
    { clear - I. induction m as [|[k1 w1] m IHm]; cbn [pm_set] in I; [destruct I as [I|[]]; injection I; auto|]. destruct (text_eqb k k1); [destruct I as [I|I]; [injection I; auto|left; now right]|].
      destruct (text_ltb k k1); [destruct I as [I|I]; [injection I; auto|now left]|]. destruct I as [I|I]; [left; now left|]. destruct (IHm I); [left; now right|now right]. }
    destruct X as [X| ->]; [rewrite Forall_forall in F; exact (F _ X)|now apply ltb_total].
Qed.
Print Assumptions C25_tables.

Lemma numbered_saved : forall m, is_map m -> wellnamed m -> forall k v, In (k, v) (numbered (numeric m [])) <-> In (k, v) m /\ zero v = false /\ is_number k.
Proof.
  intros m M W k v. destruct (numeric_spec m [] M W) as [Z N]; [constructor|intros ? ? []|]. rewrite numbered_in. split.
  - intros (n & I & n0 & Zv & ->). apply N in I. destruct I as [[]|[B I]]. repeat split; auto. exists n. split; [lia|reflexivity].
  - intros (I & Zv & (n & B & ->)). exists n. repeat split; auto; [|lia]. apply N. right. split; [lia|exact I].
Qed.
Lemma nodup_app : forall (A : Type) (a b : list A), NoDup a -> NoDup b -> (forall x, In x a -> In x b -> False) -> NoDup (a ++ b).
Proof.
  intros A a b Ha Hb D. induction Ha as [|x a N _ IH]; [exact Hb|]. cbn [app]. constructor.
  - intros I. apply in_app_or in I. destruct I as [I|I]; [contradiction|]. apply (D x); [now left|exact I].
  - apply IH. intros y Y1 Y2. apply (D y); [now right|exact Y2].
Qed.
(** Loading the text that was saved gives every parameter saved its value; every other one
    keeps the value it had, except that the coordinate system in use is the first one. *)
Theorem C25_roundtrip : forall e m m0, is_map m -> (forall k v, In (k, v) m -> proper_name k) ->
  (forall k v, saved m k v -> survives e v /\ (length k + length (n_print e v) <= 253)%nat) ->
  n_scan e comment = None ->
  let m1 := snd (load_params e (Some (content e m)) m0) in
  fst (load_params e (Some (content e m)) m0) = true /\
  (forall k v, saved m k v -> pm_find k m1 = Some v) /\
  (forall k, (forall v, ~ saved m k v) -> k <> txt "5220" -> pm_find k m1 = pm_find k m0) /\
  ((forall v, ~ saved m (txt "5220") v) -> pm_find (txt "5220") m1 = Some f1).
Proof.
  intros e m m0 M P V C m1.
  assert (W : wellnamed m) by (apply Forall_forall; intros [k v] I; exact (P k v I)).
  destruct (numeric_spec m [] M W) as [Z N]; [constructor|intros ? ? []|].
  pose proof (numbered_saved m M W) as I1.
  assert (S : forall k v, In (k, v) (numbered (numeric m []) ++ named m) <-> saved m k v).
  { intros k v. rewrite in_app_iff, I1, named_in. unfold saved, zero. change f0 with (f32_of_Z 0). tauto. }
  assert (Fit : Forall (fits e) (numbered (numeric m []) ++ named m)).
  { apply Forall_forall. intros [k v] I. apply S in I. destruct (V k v I) as [V1 V2]. split; [|split; assumption]. destruct I as [I _]. exact (P k v I). }
  apply Forall_app in Fit. destruct Fit as [F1 F2]. unfold m1. rewrite (load_content e m m0 F1 F2 C). cbn [fst snd]. split; [reflexivity|].
  assert (D : NoDup (map fst (numbered (numeric m []) ++ named m))).
  { rewrite map_app. apply nodup_app.
    - apply numbered_nodup; [exact Z|]. intros n v I. apply N in I. destruct I as [[]|[B _]]. exact B.
    - apply named_nodup, map_nodup, M.
    - intros k A B. apply in_map_iff in A; apply in_map_iff in B. destruct A as ([k1 v1] & <- & A), B as ([k2 v2] & E & B). cbn [fst] in E. subst k2. cbn [fst] in B.
      apply I1 in A. apply named_in in B. destruct A as (_ & _ & (n & _ & ->)), B as (_ & _ & (r & B)).
      pose proof (show_chars n) as X. rewrite B in X. inversion X as [|? ? [Y|Y] _]; subst; discriminate. }
  split; [|split].
  - intros k v H. apply put_all_in; [exact D|now apply S].
  - intros k H Hk. rewrite put_all_other; [|intros v I; apply S in I; exact (H v I)]. apply find_set_other. destruct (text_eqb k (txt "5220")) eqn:E; [|reflexivity]. apply text_eqb_eq in E. contradiction.
  - intros H. rewrite put_all_other; [apply find_set_same|intros v I; apply S in I; exact (H v I)].
Qed.
Print Assumptions C25_roundtrip.

(** What is in the file: a line for each parameter saved, and nothing else but the heading.
    The numbers come first, in their order. *)
Theorem C25_written : forall e m, is_map m -> (forall k v, In (k, v) m -> proper_name k) ->
  exists nums names, content e m = written e nums ++ (match names with [] => [] | _ => header end) ++ written e names /\
    (forall k v, In (k, v) (nums ++ names) <-> saved m k v) /\
    StronglySorted (fun a b => exists x y, fst a = show_int x /\ fst b = show_int y /\ 0 < x < y) nums /\
    (forall k v, In (k, v) names -> is_global k).
Proof.
  intros e m M P. assert (W : wellnamed m) by (apply Forall_forall; intros [k v] I; exact (P k v I)).
  destruct (numeric_spec m [] M W) as [Z N]; [constructor|intros ? ? []|]. exists (numbered (numeric m [])), (named m). split; [|split; [|split]].
  - unfold content. destruct (named m); reflexivity.
  - intros k v. rewrite in_app_iff, (numbered_saved m M W), named_in. unfold saved, zero. change f0 with (f32_of_Z 0). tauto.
  - assert (B : forall n v, In (n, v) (numeric m []) -> 0 <= n) by (intros n v I; apply N in I; destruct I as [[]|[B _]]; lia). clear N. revert Z B. induction (numeric m []) as [|[n v] l IH]; intros Z B; [constructor|].
    inversion Z as [|? ? Z1 F]; subst. unfold numbered in *. cbn [flat_map]. assert (T : forall n v, In (n, v) l -> 0 <= n) by (intros n' v' I; apply (B n' v'); now right).
    destruct ((n =? 0) || zero v) eqn:K; [exact (IH Z1 T)|]. cbn [app]. constructor; [exact (IH Z1 T)|]. apply Forall_forall. intros [k' v'] I. apply numbered_in in I.
    destruct I as (n' & I & _ & _ & ->). rewrite Forall_forall in F. specialize (F _ I). cbn [fst] in *. exists n, n'. repeat split; [|exact F]. specialize (B n v (or_introl eq_refl)). lia.
  - intros k v I. apply named_in in I. tauto.
Qed.
Print Assumptions C25_written.

(** A parameter with a negative number, as `#1=-5` and `##1=3` give one, sorts before all
    others: no numbered parameter is saved at all. *)
Theorem C25_negative_refuted : exists m, m = pm_set (show_int (-5)) (f32_of_Z 3) (pm_set (show_int 1) (f32_of_Z (-5)) []) /\ is_map m /\
  saved m (show_int 1) (f32_of_Z (-5)) /\ forall e, content e m = [].
Proof.
  eexists. split; [reflexivity|]. split; [apply C25_tables, C25_tables, C25_tables|]. split; [|reflexivity].
  split; [vm_compute; auto|]. split; [reflexivity|]. left. exists 1. split; [lia|reflexivity].
Qed.
Print Assumptions C25_negative_refuted.

(** Whole numbers only, as an example of printing and scanning. *)
Definition ex_num : cnum := mk_cnum
  (fun v => match fl_trunc v with Some z => show_int z | None => txt "nan" end)
  (fun t => match convert_strto64 t with Some (z, _) => Some (f32_of_Z z) | None => None end).
Definition ex_table : pmap :=
  pm_set (txt "_home") (f32_of_Z 9) (pm_set (txt "local") (f32_of_Z 4) (pm_set (txt "5") (f32_of_Z 0) (pm_set (txt "31") (f32_of_Z 2) (pm_set (txt "200") (f32_of_Z 7) [])))).
Example ex_saved : content ex_num ex_table = txt "31" ++ TAB :: txt "2" ++ LF :: txt "200" ++ TAB :: txt "7" ++ LF :: header ++ txt "_home" ++ TAB :: txt "9" ++ [LF].
Proof. vm_compute. reflexivity. Qed.
Example ex_map : is_map ex_table. Proof. unfold ex_table. do 5 apply C25_tables. apply C25_tables. Qed.
Example ex_names : forall k v, In (k, v) ex_table -> proper_name k.
Proof.
  intros k v I. vm_compute in I. repeat (destruct I as [I|I]; [injection I as <- <-; split; [repeat constructor|]|]); try contradiction;
    eexists; eexists; (split; [reflexivity|]); (split; [vm_compute; discriminate|]); try (intros X; discriminate X); intros _;
    [exists 200|exists 31|exists 5]; (split; [split; [discriminate|reflexivity]|reflexivity]).
Qed.
Example ex_survive : forall k v, saved ex_table k v -> survives ex_num v /\ (length k + length (n_print ex_num v) <= 253)%nat.
Proof.
  intros k v (I & Z & _). vm_compute in I.
  repeat (destruct I as [I|I]; [injection I as <- <-; try discriminate; (split; [split; [|split]|])|]); try contradiction;
    try (eexists; eexists; split; vm_compute; reflexivity); try (vm_compute; intuition discriminate); try (vm_compute; reflexivity); vm_compute; lia.
Qed.
Example C25_applies : load_params ex_num (Some (content ex_num ex_table)) [(txt "31", f1); (txt "77", f1)] =
  (true, [(txt "200", f32_of_Z 7); (txt "31", f32_of_Z 2); (txt "5220", f1); (txt "77", f1); (txt "_home", f32_of_Z 9)]).
Proof. vm_compute. reflexivity. Qed.

(** A parameter without a name, as "#<> = 1" makes one, is not written, and it keeps none of
    the others from being written. *)
Theorem C25_empty_name : forall e m, is_map m -> (forall k v, In (k, v) m -> k = [] \/ proper_name k) ->
  exists nums names, content e m = written e nums ++ (match names with [] => [] | _ => header end) ++ written e names /\
    (forall k v, In (k, v) (nums ++ names) <-> saved m k v) /\
    StronglySorted (fun a b => exists x y, fst a = show_int x /\ fst b = show_int y /\ 0 < x < y) nums /\
    (forall k v, In (k, v) names -> is_global k).
Proof.
  intros e m M P.
  assert (Q : forall k, is_number k \/ is_global k -> k <> []) by (intros k [(n & Hn & ->)|(r & ->)] H; [|discriminate]; pose proof (show_read n ltac:(lia)) as R; rewrite H in R; discriminate R).
  destruct m as [|[[|x k] v] m]; [apply C25_written; [exact M|intros k v []]| |].
  - pose proof (map_nodup _ M) as D. cbn [map fst] in D. apply NoDup_cons_iff in D. destruct D as [D _]. inversion M as [|? ? M1 F]; subst.
    destruct (C25_written e m M1) as (nums & names & E & S & R & G).
    + intros k w I. destruct (P k w (or_intror I)) as [->|H]; [|exact H]. destruct D. apply (in_map fst) in I. exact I.
    + exists nums, names. split; [exact E|]. split; [|split; assumption]. intros k w. rewrite S. unfold saved. cbn [In].
      split; [tauto|]. intros ([H|H] & Hz & Hn); [|tauto]. injection H as <- <-. destruct (Q [] Hn eq_refl).
  - apply C25_written; [exact M|]. intros k' w I. destruct (P k' w I) as [->|H]; [|exact H]. exfalso. destruct I as [I|I]; [discriminate I|].
    inversion M as [|? ? M1 F]; subst. rewrite Forall_forall in F. specialize (F _ I). vm_compute in F. discriminate F.
Qed.
Print Assumptions C25_empty_name.
Example C25_empty_name_example : let m := pm_set [] f1 (pm_set (txt "7") f1 []) in
  is_map m /\ (forall k v, In (k, v) m -> k = [] \/ proper_name k) /\ In ([], f1) m /\ saved m (txt "7") f1.
Proof.
  cbv zeta. split; [do 2 apply C25_tables; apply C25_tables|]. cbn [pm_set In]. split; [|split].
  - intros k v I. vm_compute in I. destruct I as [I|[I|[]]]; injection I as <- _; [now left|right]. split; [repeat constructor|]. eexists; eexists; split; [reflexivity|]. split; [vm_compute; discriminate|]. intros _. exists 7. split; [lia|reflexivity].
  - vm_compute. now left.
  - split; [vm_compute; right; now left|]. split; [reflexivity|]. left. exists 7. split; [lia|reflexivity].
Qed.
