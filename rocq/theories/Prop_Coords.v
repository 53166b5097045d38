(** Theorems about offsets, coordinate systems, homing and program ends: C17, C18, C22, C23. *)
From Coq Require Import Reals Lra SpecFloat.
From Flocq Require Import Core IEEE754.BinarySingleNaN.
From Verif Require Import Base Text Model_StringUtil Model_Float Model_Lexer Model_Axis Model_Number Model_Gcode
  Spec_Expr Proofs_Expr Spec_Line Proofs_Value Proofs_Total Spec_Words Proofs_Words Spec_Moves Proofs_Moves Spec_Real Proofs_Real Spec_Coords Proofs_Offset Spec_Params Proofs_Params Proofs_Coords Prop_Expr.

Open Scope Z_scope.

Lemma origin_is : forall c s a, origin_of c s a = system_origin c s a.
Proof. intros. unfold origin_of, system_origin. destruct (g_origin s); reflexivity. Qed.
Lemma offset_is : forall s a, offset_of s a = active_offset s a.
Proof. intros. unfold offset_of, active_offset. destruct (g_offset s); reflexivity. Qed.
Lemma inform_report : forall c s name, exists e, inform_origin c name s = Done tt (seen [e] s) /\ reports_origin c s name e.
Proof.
  intros c s name. eexists. split; [reflexivity|]. eexists. split; [reflexivity|]. intros a. cbv beta. now rewrite origin_is, offset_is.
Qed.
Lemma begun_fields : forall s, (g_params (begun s) = g_params s /\ g_modal (begun s) = g_modal s /\ g_unit (begun s) = g_unit s /\ g_abs (begun s) = g_abs s /\
  g_abs_g90 (begun s) = g_abs_g90 s /\ g_ijk_abs (begun s) = g_ijk_abs s /\ g_pos (begun s) = g_pos s /\ g_scale (begun s) = g_scale s) /\
  (g_cs (begun s) = g_cs s /\ g_g92 (begun s) = g_g92 s /\ g_origin (begun s) = g_origin s /\ g_offset (begun s) = g_offset s /\
  g_normal (begun s) = g_normal s /\ g_cp2 (begun s) = g_cp2 s /\ g_do_while (begun s) = g_do_while s).
Proof. intros s. unfold begun. destruct (g_running s); repeat split. Qed.

Lemma number_int : forall c v t n, is_number v t = true ->
  match tenths t with S754_finite _ _ _ => match to_int (fl_trunc (tenths t)) with Some m => m =? n | None => false end | _ => false end = true -> int_of c v = n.
Proof.
  intros c v t n H E. unfold is_number in H. change (f32_div (f32_of_Z t) (f32_of_Z 10)) with (tenths t) in H.
  destruct (tenths t) as [| | |sg m e] eqn:Et; try discriminate E. apply SFeqb_same in H. subst v. unfold int_of.
  destruct (to_int (fl_trunc (S754_finite sg m e))); [|discriminate E]. lia.
Qed.
Lemma number_not : forall v t u, is_number v t = true ->
  match tenths t with S754_finite _ _ _ => negb (SFeqb (tenths t) (tenths u)) | _ => false end = true -> SFeqb v (tenths u) = false.
Proof.
  intros v t u H E. unfold is_number in H. change (f32_div (f32_of_Z t) (f32_of_Z 10)) with (tenths t) in H.
  destruct (tenths t) as [| | |sg m e] eqn:Et; try discriminate E. apply SFeqb_same in H. subst v. now destruct (SFeqb _ _).
Qed.

(** C17: G92 with axis words does not move; it chooses the offsets of these axes such that
    the present position has the given coordinates, keeps the others, makes the offset
    active and reports the new origin. *)
Theorem C17_G92 : forall c s line v ws rest, ~ In NUL rest -> g_do_while s = false ->
  words c s line (("G"%char, v) :: ws) rest -> only is_axis_letter ws -> ends_at c s is_axis_letter rest -> is_number v 920 = true ->
  exists off e, (forall a, off a = match last_value (axis_letter a) ws with Some w => renaming c s a w | None => g_g92 s a end) /\
    reports_origin c (with_offset (with_g92 s off) true) (txt "G92") e /\
    leads c line s rest (seen [e; ECommandDone "G" v] (with_offset (with_g92 (begun s) off) true)).
Proof.
  intros c s line v ws rest Hn Hc W Ho He Hv. inversion W as [|? ? ? l ? ? Hw W']; subst.
  destruct (register_args c (fun _ => true) with_g92 g_g92 (fun s a w => f32_sub (f32_sub (g_pos s a) (f32_mul w (g_unit s))) (origin_of c s a)))
    with (s := begun s) (line := l) (ws := ws) (rest := rest)
    as (r & Hr & n & H); auto; try (intros []; reflexivity); try (intros; repeat split; fail).
  { apply calm_begun, Hc. } { eapply words_alike; [apply alike_begun|exact W']. } { eapply ends_alike; [apply alike_begun|exact He]. }
  destruct (inform_report c (with_offset (with_g92 (begun s) r) true) (txt "G92")) as (e & Ee & Hre).
  exists r, e. split; [|split].
  { intros a. rewrite Hr. destruct (last_value _ ws).
    - unfold renaming. rewrite origin_is. unfold begun. destruct (g_running s); reflexivity.
    - unfold begun. destruct (g_running s); reflexivity. }
  { destruct Hre as (o & -> & Ho2). exists o. split; [reflexivity|]. intros a. rewrite Ho2. unfold begun. destruct (g_running s); reflexivity. }
  assert (Hi : int_of c v = 92) by (eapply number_int; [exact Hv|vm_compute; reflexivity]).
  eapply lead; [exact Hw|exact Hc|]. exists n. intros f F pb Hf HF. unfold run_command, run_G. cbn [Ascii.eqb Bool.eqb]. cbv zeta. rewrite Hi.
  cbn [Z.eqb Pos.eqb orb Z.leb Z.compare Pos.compare Pos.compare_cont andb]. unfold handle_G92. unfold is_number in Hv. 
  change (f32_div (f32_of_Z 920) (f32_of_Z 10)) with (tenths 920) in Hv. rewrite Hv. unfold bind at 1 2.
  specialize (H f F pb Hf HF). unfold register_step, when in H. rewrite H. unfold bind at 1 2, set_current_offset, bind, upd. rewrite Ee. reflexivity.
Qed.
Print Assumptions C17_G92.

(** C17: G92.1 clears the offset, G92.2 suspends it, G92.3 restores it. *)
Definition g92_command (c : gcfg) (v : fl) : option ((gst -> gst) * text) :=
  if is_number v 921 then Some (fun s => with_offset (with_g92 s (fun _ => f32_of_Z 0)) true, [])
  else if is_number v 922 then Some (fun s => with_offset s false, [])
  else if is_number v 923 then Some (fun s => with_offset s true, txt "G92")
  else None.
Theorem C17_clear_suspend_restore : forall c s line v rest h name, g_do_while s = false -> word c s line "G" v rest ->
  g92_command c v = Some (h, name) ->
  exists e, reports_origin c (h (begun s)) name e /\ leads c line s rest (seen [e; ECommandDone "G" v] (h (begun s))).
Proof.
  intros c s line v rest h name Hc Hw Hg.
  destruct (inform_report c (h (begun s)) name) as (e & Ee & Hr). exists e. split; [exact Hr|].
  assert (Hi : int_of c v = 92).
  { unfold g92_command in Hg. destruct (is_number v 921) eqn:E1; [eapply number_int; [exact E1|vm_compute; reflexivity]|].
    destruct (is_number v 922) eqn:E2; [eapply number_int; [exact E2|vm_compute; reflexivity]|].
    destruct (is_number v 923) eqn:E3; [eapply number_int; [exact E3|vm_compute; reflexivity]|discriminate]. }
  eapply lead; [exact Hw|exact Hc|]. exists O. intros f F pb Hf HF. unfold run_command, run_G. cbn [Ascii.eqb Bool.eqb]. cbv zeta. rewrite Hi.
  cbn [Z.eqb Pos.eqb orb Z.leb Z.compare Pos.compare Pos.compare_cont andb]. unfold handle_G92.
  unfold g92_command in Hg. destruct (is_number v 921) eqn:E1; [|destruct (is_number v 922) eqn:E2; [|destruct (is_number v 923) eqn:E3; [|discriminate]]];
    injection Hg as <- <-.
  - rewrite (number_not v 921 920 E1) by (vm_compute; reflexivity). change (SFeqb v (tenths 921)) with (is_number v 921). rewrite E1.
    assert (Ez : inform_origin c [] (with_offset (with_g92 (begun s) zero_axes) true) = Done tt (seen [e] (with_offset (with_g92 (begun s) (fun _ => f32_of_Z 0)) true))) by exact Ee.
    unfold set_current_offset, bind, upd, ret. rewrite Ez. reflexivity.
  - rewrite (number_not v 922 920 E2), (number_not v 922 921 E2) by (vm_compute; reflexivity). change (SFeqb v (tenths 922)) with (is_number v 922). rewrite E2.
    unfold set_current_offset, bind, upd, ret. rewrite Ee. reflexivity.
  - rewrite (number_not v 923 920 E3), (number_not v 923 921 E3), (number_not v 923 922 E3) by (vm_compute; reflexivity).
    change (SFeqb v (tenths 923)) with (is_number v 923). rewrite E3.
    assert (Ez : inform_origin c (txt "G92") (with_offset (begun s) true) = Done tt (seen [e] (with_offset (begun s) true))) by exact Ee.
    unfold set_current_offset, bind, upd, ret. rewrite Ez. reflexivity.
Qed.
Print Assumptions C17_clear_suspend_restore.

(** C17: suspending the offset takes every coordinate back to the origin of the system, and
    restoring it gives every coordinate its former place. *)
Theorem C17_suspended : forall c s a v, g_abs s a = true -> goal_of c (with_offset s false) a v =
  f32_add (f32_add (system_origin c s a) (f32_of_Z 0)) (f32_mul (length_of s a v) (g_scale s a)).
Proof. intros c s a v H. unfold goal_of, reference. cbn [g_abs with_offset]. rewrite H. reflexivity. Qed.
Print Assumptions C17_suspended.
Theorem C17_restored : forall c s h h' a v, g_offset s = true -> g92_command c (tenths 922) = Some (h, []) -> g92_command c (tenths 923) = Some (h', txt "G92") ->
  goal_of c (h' (h s)) a v = goal_of c s a v /\ forall b, active_offset (h' (h s)) b = active_offset s b.
Proof.
  intros c s h h' a v Ho H1 H2. unfold g92_command in *.
  replace (is_number (tenths 922) 921) with false in H1 by (vm_compute; reflexivity).
  replace (is_number (tenths 922) 922) with true in H1 by (vm_compute; reflexivity).
  replace (is_number (tenths 923) 921) with false in H2 by (vm_compute; reflexivity).
  replace (is_number (tenths 923) 922) with false in H2 by (vm_compute; reflexivity).
  replace (is_number (tenths 923) 923) with true in H2 by (vm_compute; reflexivity).
  injection H1 as <-. injection H2 as <-. split; [|intros b]; unfold goal_of, reference, active_offset, system_origin, length_of; cbn [with_offset g_offset g_abs g_g92 g_origin g_cs g_pos g_scale g_unit];
    now rewrite Ho.
Qed.
Print Assumptions C17_restored.

(** C17: commanding the given coordinate afterwards leads back to where the machine is, up
    to the rounding of the four operations: 12 B / 2^24 for coordinates of at most B
    millimetres (less than a thousandth for a metre). The axis must not be scaled, nor be
    a rotary one in inch mode. *)
Theorem C17_renamed : forall c s a v b off, (1 <= b <= bpow radix2 100)%R -> g_abs s a = true -> g_scale s a = f32_of_Z 1 ->
  length_of s a v = f32_mul v (g_unit s) -> off a = renaming c s a v ->
  fin32 (g_pos s a) -> fin32 (system_origin c s a) -> fin32 (length_of s a v) ->
  (Rabs (val (g_pos s a)) <= b)%R -> (Rabs (val (system_origin c s a)) <= b)%R -> (Rabs (val (length_of s a v)) <= b)%R ->
  let g := goal_of c (with_offset (with_g92 s off) true) a v in
  fin32 g /\ (Rabs (val g - val (g_pos s a)) <= 12 * b / 16777216)%R.
Proof.
  intros c s a v b off Hb Ha Hs Hl Ho F1 F2 F3 B1 B2 B3 g.
  destruct (f32_of_Z_val 1 ltac:(lia)) as (Fo & Vo).
  pose proof (renamed_near _ _ _ _ b F1 F2 F3 Fo Vo Hb B1 B2 B3) as H. cbv zeta in H.
  assert (E : g = f32_add (f32_add (system_origin c s a) (f32_sub (f32_sub (g_pos s a) (length_of s a v)) (system_origin c s a))) (f32_mul (length_of s a v) (f32_of_Z 1))).
  { unfold g, goal_of, reference, active_offset. cbn [with_offset with_g92 g_abs g_offset g_g92 g_scale]. rewrite Ha, Hs, Ho. unfold renaming. rewrite <- Hl. reflexivity. }
  rewrite E. exact H.
Qed.
Print Assumptions C17_renamed.

(** C17: it leads back exactly if all the numbers are multiples of one power of two (such as
    1/1024 mm, up to four metres). *)
Theorem C17_renamed_exactly : forall c s a v e off, -149 <= e <= 103 -> g_abs s a = true -> g_scale s a = f32_of_Z 1 ->
  length_of s a v = f32_mul v (g_unit s) -> off a = renaming c s a v ->
  on_grid e (g_pos s a) -> on_grid e (system_origin c s a) -> on_grid e (length_of s a v) ->
  let g := goal_of c (with_offset (with_g92 s off) true) a v in fin32 g /\ val g = val (g_pos s a).
Proof.
  intros c s a v e off He Ha Hs Hl Ho G1 G2 G3 g.
  destruct (f32_of_Z_val 1 ltac:(lia)) as (Fo & Vo).
  pose proof (renamed_exact e _ _ _ _ He G1 G2 G3 Fo Vo) as H. cbv zeta in H.
  assert (E : g = f32_add (f32_add (system_origin c s a) (f32_sub (f32_sub (g_pos s a) (length_of s a v)) (system_origin c s a))) (f32_mul (length_of s a v) (f32_of_Z 1))).
  { unfold g, goal_of, reference, active_offset. cbn [with_offset with_g92 g_abs g_offset g_g92 g_scale]. rewrite Ha, Hs, Ho. unfold renaming. rewrite <- Hl. reflexivity. }
  rewrite E. exact H.
Qed.
Print Assumptions C17_renamed_exactly.

(** ** C18 *)
(** The words of G10: L, P and axes. *)
Definition numbered (c : gcfg) (ws : list (ascii * fl)) (letter : ascii) : option Z := option_map (int_of c) (last_value letter ws).
Lemma set_run : forall c s line v ws rest, ~ In NUL rest -> g_do_while s = false ->
  words c s line ws rest -> only g10_letter ws -> ends_at c s g10_letter rest -> int_of c v = 10 ->
  exists coords have, (forall a, coords a = match last_value (axis_letter a) ws with Some v => f32_mul v (g_unit s) | None => f0 end) /\
    (forall a, have a = mentioned (axis_letter a) ws) /\
    exists n, forall f F pb ls, (n <= f)%nat -> (n <= F)%nat -> run_command c f (parse_pair c F pb) "G" v line ls (begun s) =
      (bind (let l_val := match last_value "L" ws with Some v => int_of c v | None => -1 end in
         let p_val := match last_value "P" ws with Some v => int_of c v | None => -1 end in
         if negb (l_val =? 2) then bind err (fun _ => ret (Some rest))
         else if (p_val <? 1) || (9 <? p_val) then bind err (fun _ => ret (Some rest))
         else
           let i := p_val - 1 in
           bind (upd (fun s => with_cs s (fun j a => if (j =? i) && have a then f32_add (if g_abs_g90 s then gc_origin c a else g_cs s i a) (coords a) else g_cs s j a))) (fun _ =>
           bind (each_axis (fun a => when (have a) (bind (get (fun s => f32_sub (g_cs s i a) (gc_origin c a))) (fun v => store_parameter (cs_param i a) v))) all_axes) (fun _ =>
           bind (get g_origin) (fun o =>
           bind (when (match o with Some j => j =? i | None => false end) (inform_origin c (cs_name i))) (fun _ => ret (Some rest))))))
        (fun l => bind (tell c (ECommandDone "G" v)) (fun _ => ret l))) (begun s).
Proof.
  intros c s line v ws rest Hn Hc W Ho He Hi.
  assert (Hu := words_upper _ _ _ _ _ W).
  destruct (g10_are c (g_unit (begun s)) ws (-1) (-1) zero_axes (fun _ => false) Hu) as (co & ha & E & H1 & H2).
  exists co, ha. split; [intros a; rewrite H1; replace (g_unit (begun s)) with (g_unit s) by (unfold begun; destruct (g_running s); reflexivity); reflexivity|].
  split; [exact H2|].
  destruct (collect c _ (fun '(l_val, p_val, coords, have) l v =>
    if Ascii.eqb l "L" then ret (true, (int_of c v, p_val, coords, have))
    else if Ascii.eqb l "P" then ret (true, (l_val, int_of c v, coords, have))
    else
      bind (get g_unit) (fun u =>
      match letter_axis l with
      | None => ret (false, (l_val, p_val, coords, have))
      | Some a => ret (true, (l_val, p_val, set_axis coords a (f32_mul v u), set_axis have a true))
      end)) g10_letter (begun s) (g10_next c (g_unit (begun s)))) with (line := line) (ws := ws) (rest := rest) (acc := (-1, -1, zero_axes, fun _ : axis => false))
    as (n & H); auto.
  - intros [[[lv pv] co'] ha'] l w U. unfold g10_letter, g10_next. rewrite (axis_upper l U). destruct (Ascii.eqb l "L"); [now rewrite orb_true_r|].
    destruct (Ascii.eqb l "P"); [now rewrite !orb_true_r|]. unfold bind, get. destruct (letter_axis l); reflexivity.
  - eapply words_alike; [apply alike_begun|exact W].
  - eapply ends_alike; [apply alike_begun|exact He].
  - apply calm_begun, Hc.
  - exists n. intros f F pb ls Hf HF. unfold run_command, run_G. cbn [Ascii.eqb Bool.eqb]. cbv zeta. rewrite Hi.
    cbn [Z.eqb Pos.eqb orb Z.leb Z.compare Pos.compare Pos.compare_cont andb]. unfold handle_G10. unfold bind at 1 2.
    specialize (H f F pb Hf HF). etransitivity; [|unfold bind at 1; reflexivity].
    match type of H with _ = Done (?x, rest) _ => replace x with (match last_value "L" ws with Some v => int_of c v | None => -1 end,
       match last_value "P" ws with Some v => int_of c v | None => -1 end, co, ha) in H by (symmetry; exact E) end.
    rewrite H. reflexivity.
Qed.

(** G10 L2 Pn: the mentioned axes of the coordinate system n get a new origin, given from
    the machine origin in absolute mode and from the old origin in relative mode. Nothing
    else changes but the parameters of these axes, which get the distance from the machine
    origin; if the system is the selected one the new origin is reported. *)
Theorem C18_G10 : forall c s line v ws rest i m, ~ In NUL rest -> g_do_while s = false -> g_params s = Some m ->
  words c s line (("G"%char, v) :: ws) rest -> only g10_letter ws -> ends_at c s g10_letter rest -> int_of c v = 10 ->
  numbered c ws "L" = Some 2 -> numbered c ws "P" = Some (i + 1) -> 0 <= i < 9 ->
  exists cs m' es, let s1 := with_params (with_cs (begun s) cs) (Some m') in
    leads c line s rest (seen (es ++ [ECommandDone "G" v]) s1) /\
    (forall j a, cs j a = match last_value (axis_letter a) ws with
                         | Some w => if j =? i then f32_add (if g_abs_g90 s then gc_origin c a else g_cs s i a) (f32_mul w (g_unit s)) else g_cs s j a
                         | None => g_cs s j a end) /\
    (forall a, mentioned (axis_letter a) ws = true -> param s1 (show_int (5221 + 20 * i + axis_ix a)) = f32_sub (cs i a) (gc_origin c a)) /\
    (forall name, (forall a, mentioned (axis_letter a) ws = true -> ~ same_name name (show_int (5221 + 20 * i + axis_ix a))) -> param s1 name = param s name) /\
    (g_origin s = Some i -> exists e, es = [e] /\ reports_origin c s1 (system_name i) e) /\ (g_origin s <> Some i -> es = []).
Proof.
  intros c s line v ws rest i m Hn Hc Hm W Ho He Hv HL HP Hi. inversion W as [|? ? ? l ? ? Hw W']; subst.
  destruct (set_run c s l v ws rest Hn Hc W' Ho He Hv) as (co & ha & H1 & H2 & n & H).
  assert (Ment : forall a, mentioned (axis_letter a) ws = match last_value (axis_letter a) ws with Some _ => true | None => false end).
  { intros a. clear. induction ws as [|[x w] ws IH]; [reflexivity|]. rewrite mentioned_cons, last_cons, IH. destruct (last_value (axis_letter a) ws); [apply orb_true_r|]. now destruct (Ascii.eqb x (axis_letter a)). }
  set (cs := fun j a => if (j =? i) && ha a then f32_add (if g_abs_g90 (begun s) then gc_origin c a else g_cs (begun s) i a) (co a) else g_cs (begun s) j a).
  destruct (begun_fields s) as ((B1 & _ & B3 & _ & B5 & _) & (C1 & _ & C3 & C4 & _)).
  destruct (store_cs c i (fun a => f32_sub (cs i a) (gc_origin c a)) ha m (with_cs (begun s) cs) Hi) with (l := all_axes) as (m' & E & P1 & P2);
    [change (g_params (with_cs (begun s) cs)) with (g_params (begun s)); now rewrite B1|reflexivity|repeat constructor; cbn; intuition discriminate|].
  assert (Hall : forall a, In a all_axes) by (intros []; cbn; tauto).
  set (s1 := with_params (with_cs (begun s) cs) (Some m')).
  destruct (inform_report c s1 (system_name i)) as (e & Ee & Hr).
  exists cs, m', (match g_origin s with Some j => if j =? i then [e] else [] | None => [] end). cbv zeta.
  split; [|split; [|split; [|split; [|split]]]].
  - eapply lead; [exact Hw|exact Hc|]. exists n. intros f F pb Hf HF. rewrite H by assumption. clear H.
    unfold numbered in HL, HP. destruct (last_value "L" ws) as [lv|]; [|discriminate]. destruct (last_value "P" ws) as [pv|]; [|discriminate].
    cbn [option_map] in HL, HP. apply (f_equal (fun o => match o with Some z => z | None => 0 end)) in HL, HP. cbv zeta. rewrite HL, HP.
    change (negb (2 =? 2)) with false. cbv iota. replace ((i + 1 <? 1) || (9 <? i + 1)) with false by lia. replace (i + 1 - 1) with i by lia.
    unfold bind at 1 2, upd at 1. fold cs. unfold bind at 1. change (with_cs (begun s) (fun (j : Z) (a : axis) => _)) with (with_cs (begun s) cs). rewrite E. fold s1. unfold bind at 1, get at 1.
    change (g_origin s1) with (g_origin (begun s)). rewrite C3.
    replace (cs_name i) with (system_name i) by (assert (N : i = 0 \/ i = 1 \/ i = 2 \/ i = 3 \/ i = 4 \/ i = 5 \/ i = 6 \/ i = 7 \/ i = 8) by lia; decompose [or] N; subst; reflexivity).
    destruct (g_origin s) as [j|]; [destruct (j =? i)|]; unfold bind at 1, when.
    + rewrite Ee. reflexivity.
    + reflexivity.
    + reflexivity.
  - intros j a. unfold cs. rewrite H2, Ment, H1, B5, C1. destruct (last_value (axis_letter a) ws); [|now rewrite andb_false_r]. rewrite andb_true_r. now destruct (j =? i).
  - intros a Ha. rewrite (param_table _ m') by reflexivity. rewrite show_key. change (show_int (5221 + 20 * i + axis_ix a)) with (cs_param i a). rewrite P1; [reflexivity|apply Hall|]. now rewrite H2.
  - intros name Hname. rewrite (param_table _ m') by reflexivity. rewrite (param_table s m) by exact Hm. rewrite P2.
    + destruct (pm_find (key name) m); [reflexivity|]. unfold unset, s1. destruct (trim_whitespace name) as [|x [|y t]]; try reflexivity. destruct (letter_axis x); [|reflexivity].
      cbn [with_params with_cs g_pos]. unfold begun. destruct (g_running s); reflexivity.
    + intros a _ Ha Ek. apply (Hname a); [now rewrite <- H2|]. apply same_key. rewrite show_key. exact Ek.
  - intros Ho2. rewrite Ho2, Z.eqb_refl. exists e. split; [reflexivity|exact Hr].
  - intros Ho2. destruct (g_origin s) as [j|]; [|reflexivity]. destruct (j =? i) eqn:Ej; [|reflexivity]. apply Z.eqb_eq in Ej. congruence.
Qed.
Print Assumptions C18_G10.
(** Any other G10 changes nothing; an error is noted. *)
Theorem C18_G10_refused : forall c s line v ws rest, ~ In NUL rest -> g_do_while s = false ->
  words c s line (("G"%char, v) :: ws) rest -> only g10_letter ws -> ends_at c s g10_letter rest -> int_of c v = 10 ->
  (numbered c ws "L" <> Some 2 \/ forall i, numbered c ws "P" = Some i -> i < 1 \/ 9 < i) ->
  leads c line s rest (seen [ECommandDone "G" v] (with_errors (begun s) (g_errors s + 1))).
Proof.
  intros c s line v ws rest Hn Hc W Ho He Hv Hr. inversion W as [|? ? ? l ? ? Hw W']; subst.
  destruct (set_run c s l v ws rest Hn Hc W' Ho He Hv) as (co & ha & H1 & H2 & n & H).
  eapply lead; [exact Hw|exact Hc|]. exists n. intros f F pb Hf HF. rewrite H by assumption. clear H. cbv zeta.
  assert (Eb : g_errors (begun s) = g_errors s) by (unfold begun; destruct (g_running s); reflexivity).
  assert (D : (bind err (fun _ => ret (Some rest))) (begun s) = Done (Some rest) (with_errors (begun s) (g_errors s + 1))) by (unfold bind, err, upd, ret; now rewrite Eb).
  assert (X : negb (match last_value "L" ws with Some v => int_of c v | None => -1 end =? 2) = true \/
     ((match last_value "P" ws with Some v => int_of c v | None => -1 end <? 1) || (9 <? match last_value "P" ws with Some v => int_of c v | None => -1 end)) = true).
  { unfold numbered in Hr. destruct Hr as [Hr|Hr].
    - left. destruct (last_value "L" ws) as [w|]; [|reflexivity]. cbn [option_map] in Hr. assert (int_of c w <> 2) by congruence. lia.
    - right. destruct (last_value "P" ws) as [w|]; [|reflexivity]. specialize (Hr (int_of c w) eq_refl). lia. }
  unfold bind at 1. destruct (negb _) eqn:E1; [rewrite D; reflexivity|]. destruct X as [X|X]; [discriminate|]. rewrite X, D. reflexivity.
Qed.
Print Assumptions C18_G10_refused.

(** G54 to G59.3 select a coordinate system and record it in parameter 5220. *)
Theorem C18_select : forall c s line v rest i m, g_do_while s = false -> g_params s = Some m -> word c s line "G" v rest -> system_of c v = Some i ->
  exists m' e, let s1 := with_origin (with_params (begun s) (Some m')) (Some i) in
    leads c line s rest (seen [e; ECommandDone "G" v] s1) /\ reports_origin c s1 (system_name i) e /\
    param s1 (txt "5220") = f32_of_Z (i + 1) /\ (forall name, ~ same_name name (txt "5220") -> param s1 name = param s name).
Proof.
  intros c s line v rest i m Hc Hm Hw Hs.
  destruct (begun_fields s) as ((B1 & _) & _). rewrite Hm in B1.
  assert (Wr : writable (txt "5220")) by (apply blocked_right; vm_compute; reflexivity).
  set (m' := pm_set (key (txt "5220")) (f32_of_Z (i + 1)) m). set (s1 := with_origin (with_params (begun s) (Some m')) (Some i)).
  destruct (inform_report c s1 (system_name i)) as (e & Ee & Hr). exists m', e. cbv zeta. fold s1.
  destruct (stored_reads (begun s) m (txt "5220") (f32_of_Z (i + 1)) B1) as (R1 & R2). fold m' in R1, R2.
  assert (P : forall name, param s1 name = param (with_params (begun s) (Some m')) name).
  { intros name. now rewrite !(param_table _ m') by reflexivity. }
  split; [|split; [exact Hr|split]].
  - assert (Hv : 54 <= int_of c v <= 59 /\ 0 <= i < 9).
    { unfold system_of in Hs. cbv zeta in Hs. destruct ((54 <=? int_of c v) && (int_of c v <=? 58)) eqn:E1; [injection Hs as <-; lia|].
      destruct (int_of c v =? 59) eqn:E2; [|discriminate].
      destruct (is_number v 590); [injection Hs as <-; lia|]. destruct (is_number v 591); [injection Hs as <-; lia|].
      destruct (is_number v 592); [injection Hs as <-; lia|]. destruct (is_number v 593); [injection Hs as <-; lia|discriminate]. }
    eapply lead; [exact Hw|exact Hc|]. exists O. intros f F pb Hf HF. unfold run_command, run_G. cbn [Ascii.eqb Bool.eqb]. cbv zeta.
    repeat match goal with |- context [int_of c v =? ?k] => replace (int_of c v =? k) with false by lia end. cbn [orb].
    replace ((54 <=? int_of c v) && (int_of c v <=? 59)) with true by lia.
    assert (Ech : change_coord_system c v (begun s) = Done tt (seen [e] s1)).
    { unfold change_coord_system. cbv zeta.
      set (k := if (54 <=? int_of c v) && (int_of c v <=? 58) then int_of c v - 53 else _).
      assert (Ek : k = i + 1).
      { unfold k. unfold system_of in Hs. cbv zeta in Hs. destruct ((54 <=? int_of c v) && (int_of c v <=? 58)); [injection Hs as <-; lia|].
        destruct (int_of c v =? 59); [|discriminate]. unfold is_number in Hs. fold (tenths 590) (tenths 591) (tenths 592) (tenths 593) in Hs.
        destruct (SFeqb v (tenths 590)); [injection Hs as <-; reflexivity|]. destruct (SFeqb v (tenths 591)); [injection Hs as <-; reflexivity|].
        destruct (SFeqb v (tenths 592)); [injection Hs as <-; reflexivity|]. destruct (SFeqb v (tenths 593)); [injection Hs as <-; reflexivity|discriminate]. }
      rewrite Ek. replace (i + 1 =? -1) with false by lia. unfold bind at 1. rewrite (store_ok _ _ _ _ B1 Wr). fold m'. unfold bind, upd. replace (i + 1 - 1) with i by lia. fold s1.
      replace (cs_name i) with (system_name i) by (assert (N : i = 0 \/ i = 1 \/ i = 2 \/ i = 3 \/ i = 4 \/ i = 5 \/ i = 6 \/ i = 7 \/ i = 8) by lia; decompose [or] N; subst i; reflexivity).
      exact Ee. }
    unfold line_is, bind at 1 2. rewrite Ech. reflexivity.
  - rewrite P. exact R1.
  - intros name Hne. rewrite P, R2 by exact Hne. rewrite !(param_table _ m) by assumption. destruct (pm_find (key name) m); [reflexivity|].
    unfold unset. destruct (trim_whitespace name) as [|x [|y t]]; try reflexivity. destruct (letter_axis x); [|reflexivity]. unfold begun. destruct (g_running s); reflexivity.
Qed.
Print Assumptions C18_select.

(** Other numbers with 59 select nothing; an error is noted. *)
Theorem C18_unknown : forall c s line v rest, g_do_while s = false -> word c s line "G" v rest -> int_of c v = 59 -> system_of c v = None ->
  leads c line s rest (seen [ECommandDone "G" v] (with_errors (begun s) (g_errors s + 1))).
Proof.
  intros c s line v rest Hc Hw Hv Hs. eapply lead; [exact Hw|exact Hc|]. exists O. intros f F pb Hf HF. unfold run_command, run_G. cbn [Ascii.eqb Bool.eqb]. cbv zeta. rewrite Hv.
  cbn [Z.eqb Pos.eqb orb Z.leb Z.compare Pos.compare Pos.compare_cont andb]. unfold change_coord_system. cbv zeta. rewrite Hv.
  unfold system_of in Hs. cbv zeta in Hs. rewrite Hv in Hs. cbn [Z.eqb Pos.eqb orb Z.leb Z.compare Pos.compare Pos.compare_cont andb] in Hs |- *.
  unfold is_number in Hs. fold (tenths 590) (tenths 591) (tenths 592) (tenths 593) in Hs.
  destruct (SFeqb v (tenths 590)); [discriminate|]. destruct (SFeqb v (tenths 591)); [discriminate|]. destruct (SFeqb v (tenths 592)); [discriminate|]. destruct (SFeqb v (tenths 593)); [discriminate|].
  change (-1 =? -1) with true. cbv iota. unfold line_is, bind, err, upd, ret. replace (g_errors (begun s)) with (g_errors s); [reflexivity|]. unfold begun. now destruct (g_running s).
Qed.
Print Assumptions C18_unknown.

(** Selecting another system and then the former one again gives every coordinate its
    former place, and the same parameters. *)
Theorem C18_return : forall c s line v1 r1 i j m, g_do_while s = false -> g_params s = Some m ->
  word c s line "G" v1 r1 -> system_of c v1 = Some j -> g_origin s = Some i -> param s (txt "5220") = f32_of_Z (i + 1) ->
  exists t, leads c line s r1 t /\ g_origin t = Some j /\
    forall v2 r2, word c t r1 "G" v2 r2 -> system_of c v2 = Some i ->
    exists s', leads c line s r2 s' /\ (forall a v, goal_of c s' a v = goal_of c s a v) /\ (forall a, g_pos s' a = g_pos s a) /\ (forall k a, g_cs s' k a = g_cs s k a) /\
      g_origin s' = Some i /\ forall name, param s' name = param s name.
Proof.
  intros c s line v1 r1 i j m Hc Hm W1 S1 Ho Hp.
  destruct (C18_select c s line v1 r1 j m Hc Hm W1 S1) as (m1 & e1 & H1). cbv zeta in H1.
  set (s1 := with_origin (with_params (begun s) (Some m1)) (Some j)) in *. destruct H1 as (L1 & _ & P1 & Q1).
  set (t := seen [e1; ECommandDone "G" v1] s1) in *. exists t. split; [exact L1|]. split; [reflexivity|]. intros v2 r2 W2 S2.
  assert (Ct : g_do_while t = false). { change (g_do_while t) with (g_do_while (begun s)). unfold begun. now destruct (g_running s). }
  destruct (C18_select c t r1 v2 r2 i m1 Ct eq_refl W2 S2) as (m2 & e2 & H2). cbv zeta in H2.
  set (s2 := with_origin (with_params (begun t) (Some m2)) (Some i)) in *. destruct H2 as (L2 & _ & P2 & Q2).
  exists (seen [e2; ECommandDone "G" v2] s2). split; [eapply leads_trans; [exact L1|exact L2]|].
  assert (F : g_pos s2 = g_pos s /\ g_cs s2 = g_cs s /\ g_abs s2 = g_abs s /\ g_unit s2 = g_unit s /\ g_scale s2 = g_scale s /\ g_g92 s2 = g_g92 s /\ g_offset s2 = g_offset s).
  { destruct (begun_fields t) as ((_ & _ & A3 & A4 & _ & _ & A7 & A8) & (C1 & C2 & _ & C4 & _)).
    destruct (begun_fields s) as ((_ & _ & B3 & B4 & _ & _ & B7 & B8) & (D1 & D2 & _ & D4 & _)).
    unfold s2. cbn [with_origin with_params g_pos g_cs g_abs g_unit g_scale g_g92 g_offset]. rewrite A3, A4, A7, A8, C1, C2, C4.
    unfold t, s1. cbn [seen with_events with_origin with_params g_pos g_cs g_abs g_unit g_scale g_g92 g_offset]. auto 10. }
  destruct F as (F1 & F2 & F3 & F4 & F5 & F6 & F7).
  split; [|split; [|split; [|split; [reflexivity|]]]].
  - intros a v. unfold goal_of, reference, length_of, active_offset, system_origin. cbn [seen with_events g_abs g_origin g_cs g_offset g_g92 g_pos g_unit g_scale].
    rewrite F1, F2, F3, F4, F5, F6, F7, Ho. reflexivity.
  - intros a. cbn [seen with_events g_pos]. now rewrite F1.
  - intros k a. cbn [seen with_events g_cs]. now rewrite F2.
  - intros name. assert (E : param (seen [e2; ECommandDone "G" v2] s2) name = param s2 name) by (rewrite !(param_table _ m2) by reflexivity; reflexivity). rewrite E. clear E.
    assert (Et : forall n, param t n = param s1 n) by (intros n; rewrite !(param_table _ m1) by reflexivity; reflexivity).
    destruct (text_eqb (key name) (key (txt "5220"))) eqn:Ek.
    + apply text_eqb_eq in Ek. assert (X : forall z, param z name = param z (txt "5220")).
      { intros z. destruct (g_params z) as [mz|] eqn:Ez; [|unfold param, read_parameter, bind, get; now rewrite Ez].
        rewrite !(param_table _ mz) by exact Ez. rewrite Ek. destruct (pm_find (key (txt "5220")) mz); [reflexivity|]. unfold unset. change (trim_whitespace (txt "5220")) with (txt "5220").
        unfold key in Ek. destruct (trim_whitespace name) as [|x [|y w]]; try reflexivity. exfalso. apply (f_equal (@length ascii)) in Ek. vm_compute in Ek. discriminate. }
      now rewrite !X, P2.
    + assert (N : ~ same_name name (txt "5220")). { intros H. apply same_key in H. rewrite H, text_eqb_refl in Ek. discriminate. }
      now rewrite Q2, Et, Q1 by exact N.
Qed.
Print Assumptions C18_return.

(** A new parser begins with the coordinate systems and the selection of the parameter
    table; without a usable selection it is G54. *)
Theorem C18_start : forall c m, let p := param (fresh c (Some m)) in fin32 (p (txt "5220")) ->
  exists s m', new_parser c (Some m) = Done tt s /\ default_modes s /\ g_params s = Some m' /\
    (forall i a, g_cs s i a = f32_add (gc_origin c a) (p (show_int (5221 + 20 * i + axis_ix a)))) /\
    (forall a, g_pos s a = gc_origin c a) /\
    (exists e, reports_origin c s (system_name (match g_origin s with Some i => i | None => 0 end)) e /\ hd_error (g_events s) = Some e) /\
    ((1 <= val (p (txt "5220")) <= 9)%R -> g_origin s = Some (Ztrunc (val (p (txt "5220"))) - 1) /\ m' = m) /\
    (~ (1 <= val (p (txt "5220")) <= 9)%R -> g_origin s = Some 0 /\ param s (txt "5220") = f32_of_Z 1 /\ forall name, ~ same_name name (txt "5220") -> param s name = p name).
Proof.
  intros c m p Hf.
  set (cs := fun i a => f32_add (gc_origin c a) (p (show_int (5221 + 20 * i + axis_ix a)))).
  assert (E0 : exists s0, init_program_defaults c (fresh c (Some m)) = Done tt s0 /\ default_modes s0 /\ g_params s0 = Some m /\ g_pos s0 = gc_origin c).
  { eexists. split; [reflexivity|]. split; [split; reflexivity|]. split; reflexivity. }
  destruct E0 as (s0 & E0 & Hd & Hm & Hpos).
  assert (Hp : forall name, param s0 name = p name).
  { intros name. unfold p. rewrite !(param_table _ m) by (assumption || reflexivity). destruct (pm_find (key name) m); [reflexivity|].
    unfold unset. rewrite Hpos. reflexivity. }
  set (s1 := with_cs s0 (fun i a => f32_add (gc_origin c a) (param s0 (cs_param i a)))).
  assert (Hp1 : forall name, param s1 name = p name). { intros name. rewrite <- Hp. rewrite !(param_table _ m) by assumption. reflexivity. }
  destruct (read_param s1 (txt "5220")) as (found & Er). rewrite Hp1 in Er.
  set (v := p (txt "5220")) in *.
  assert (Ff : found = false -> val v = 0%R).
  { intros ->. unfold v. rewrite <- Hp1. rewrite (param_table s1 m) by exact Hm. unfold read_parameter, bind, get, ret in Er. change (g_params s1) with (g_params s0) in Er. rewrite Hm in Er.
    cbv zeta in Er. change (to_lower_text (trim_whitespace (txt "5220"))) with (key (txt "5220")) in Er. destruct (pm_find (key (txt "5220")) m); [discriminate|]. reflexivity. }
  destruct (f32_of_Z_val 1 ltac:(lia)) as (F1 & V1). destruct (f32_of_Z_val 9 ltac:(lia)) as (F9 & V9).
  set (keep := negb (negb found || SFltb v f1 || SFltb (f32_of_Z 9) v)).
  assert (Hk : keep = true <-> (1 <= val v <= 9)%R).
  { unfold keep. change f1 with (f32_of_Z 1).
    pose proof (ltb_lt 24 128 v (f32_of_Z 1) Hf F1) as L1. pose proof (ltb_lt 24 128 (f32_of_Z 9) v F9 Hf) as L9. rewrite V1 in L1. rewrite V9 in L9.
    destruct found; cbn [negb orb].
    - destruct (SFltb v (f32_of_Z 1)); cbn [orb negb]; [split; [discriminate|]; intros; assert (val v < 1)%R by (now apply L1); lra|].
      destruct (SFltb (f32_of_Z 9) v); cbn [orb negb]; [split; [discriminate|]; intros; assert (9 < val v)%R by (now apply L9); lra|].
      split; [intros _|reflexivity]. split; apply Rnot_lt_le; intros X; [apply L1 in X|apply L9 in X]; discriminate.
    - split; [discriminate|]. rewrite (Ff eq_refl). intros. lra. }
  assert (Wr : writable (txt "5220")) by (apply blocked_right; vm_compute; reflexivity).
  set (m' := if keep then m else pm_set (key (txt "5220")) f1 m). set (w := if keep then v else f1).
  assert (Ew : int_of c w = if keep then Ztrunc (val v) else 1).
  { unfold w. destruct keep; [|vm_compute; reflexivity]. unfold int_of. rewrite (trunc_val 24 128) by exact Hf.
    assert (1 <= Ztrunc (val v) <= 9).
    { destruct (proj1 Hk eq_refl) as [K1 K9]. apply Ztrunc_le in K1, K9. rewrite Ztrunc_IZR in K1, K9. lia. }
    unfold to_int. replace ((- 2 ^ 31 <=? Ztrunc (val v)) && (Ztrunc (val v) <=? 2 ^ 31 - 1)) with true by lia. reflexivity. }
  set (i := int_of c w - 1).
  assert (Hi : 0 <= i < 9).
  { unfold i. rewrite Ew. destruct keep; [|lia]. destruct (proj1 Hk eq_refl) as [K1 K9].
    apply Ztrunc_le in K1, K9. rewrite Ztrunc_IZR in K1, K9. lia. }
  set (s2 := with_origin (with_params s1 (Some m')) (Some i)).
  destruct (inform_report c s2 (system_name i)) as (e & Ee & Hr).
  exists (seen [e] s2), m'.
  split.
  { unfold new_parser. unfold bind at 1. rewrite E0. unfold init_coord_systems. unfold bind at 1, get at 1. unfold bind at 1, upd at 1.
    change (with_cs s0 _) with s1. unfold bind at 1. rewrite Er.
    assert (Es : (if negb found || SFltb v f1 || SFltb (f32_of_Z 9) v then bind (store_parameter (txt "5220") f1) (fun _ => ret f1) else ret v) s1 = Done w (with_params s1 (Some m'))).
    { unfold w, m', keep. destruct (negb found || SFltb v f1 || SFltb (f32_of_Z 9) v); cbn [negb].
      - unfold bind. rewrite (store_ok _ _ s1 m Hm Wr). reflexivity.
      - unfold ret. rewrite <- Hm. reflexivity. }
    rewrite (bind_done _ _ _ _ _ _ _ Es). cbv zeta. fold i. replace ((0 <=? i) && (i <? 9)) with true by lia. unfold bind, upd. fold s2.
    replace (cs_name i) with (system_name i); [exact Ee|]. clear - Hi. assert (N : i = 0 \/ i = 1 \/ i = 2 \/ i = 3 \/ i = 4 \/ i = 5 \/ i = 6 \/ i = 7 \/ i = 8) by lia. decompose [or] N; subst; rewrite H || rewrite H0; reflexivity. }
  split. { destruct Hd. split; assumption. }
  split; [reflexivity|]. split. { intros k a. cbn [seen with_events s2 with_origin with_params s1 with_cs g_cs]. now rewrite Hp. }
  split. { intros a. change (g_pos (seen [e] s2) a) with (g_pos s0 a). now rewrite Hpos. }
  split. { exists e. split; [|reflexivity]. change (g_origin (seen [e] s2)) with (Some i). exact Hr. }
  split.
  - intros K. apply Hk in K. change (g_origin (seen [e] s2)) with (Some i). unfold i, m'. rewrite Ew, K. split; reflexivity.
  - intros K. assert (Kf : keep = false) by (destruct keep; [exfalso; apply K, Hk; reflexivity|reflexivity]).
    change (g_origin (seen [e] s2)) with (Some i). unfold i. rewrite Ew, Kf. split; [reflexivity|].
    destruct (stored_reads s1 m (txt "5220") f1 Hm) as (R1 & R2). unfold m' in *. rewrite Kf in *.
    assert (X : forall name, param (seen [e] s2) name = param (with_params s1 (Some (pm_set (key (txt "5220")) f1 m))) name).
    { intros name. assert (G : g_params (seen [e] s2) = Some (pm_set (key (txt "5220")) f1 m)) by (change (g_params (seen [e] s2)) with (Some (if keep then m else pm_set (key (txt "5220")) f1 m)); now rewrite Kf).
      rewrite (param_table _ _ _ G). rewrite (param_table _ (pm_set (key (txt "5220")) f1 m)) by reflexivity. reflexivity. }
    split; [rewrite X; exact R1|]. intros name Hne. rewrite X, R2 by exact Hne. apply Hp1.
Qed.
Print Assumptions C18_start.

(** The parameters that G10 writes are those from which a new parser reads the systems
    (C18_G10 and C18_start): the origin is the same up to the rounding of two operations, and
    exactly the same if origins are multiples of one power of two. *)
Theorem C18_persistent : forall e o x, -149 <= e <= 103 -> on_grid e o -> on_grid e x -> let back := f32_add o (f32_sub x o) in fin32 back /\ val back = val x.
Proof.
  intros e o x He (Fo & mo & Mo & Vo) (Fx & mx & Mx & Vx) back. assert (P24 : Prec_gt_0 24) by reflexivity. assert (PL : Prec_lt_emax 24 128) by reflexivity.
  destruct (grid_exact e (mx - mo) (val x - val o) He) as (E1 & S1); [lia|rewrite Vx, Vo, minus_IZR; ring|].
  destruct (sub_val 24 128 P24 PL x o Fx Fo) as (F2 & V2); [now rewrite E1|]. rewrite E1 in V2.
  destruct (grid_exact e mx (val x) He) as (E2 & S2); [lia|exact Vx|].
  assert (S : (val o + val (SFsub 24 128 x o))%R = val x) by (rewrite V2; ring).
  destruct (add_val 24 128 P24 PL o _ Fo F2) as (F3 & V3); [rewrite S, E2; exact S2|]. split; [exact F3|]. unfold back. rewrite S, E2 in V3. exact V3.
Qed.
Print Assumptions C18_persistent.

(** ** C22 *)
(** M2 and M30 end the program: the default modes are back, the next command begins a new
    program. The position, the coordinate systems and their selection, the parameters and
    the kind of the last move (G0 or G1) stay. *)
Theorem C22_program_end : forall c s line v rest, g_do_while s = false -> word c s line "M" v rest -> int_of c v = 2 \/ int_of c v = 30 ->
  exists s' e, leads c line s rest s' /\ default_modes s' /\ g_running s' = false /\ reports_origin c s' (txt "H") e /\
    g_events s' = rev [EFinished false; e; ESpeedFactor (f32_of_Z 1); EFan (f32_of_Z 0); ETemperature (f32_of_Z 0); ECommandDone "M" v] ++ g_events (begun s) /\
    g_pos s' = g_pos s /\ g_cs s' = g_cs s /\ g_origin s' = g_origin s /\ g_params s' = g_params s /\ g_modal s' = g_modal s /\ g_errors s' = g_errors s.
Proof.
  intros c s line v rest Hc Hw Hv.
  assert (X : exists s' e, finish_program c (begun s) = Done tt s' /\ default_modes (seen [ECommandDone "M" v] s') /\ g_running s' = false /\ 
    g_events s' = rev [EFinished false; e; ESpeedFactor (f32_of_Z 1); EFan (f32_of_Z 0); ETemperature (f32_of_Z 0)] ++ g_events (begun s) /\ reports_origin c s' (txt "H") e /\
    g_pos s' = g_pos (begun s) /\ g_cs s' = g_cs (begun s) /\ g_origin s' = g_origin (begun s) /\ g_params s' = g_params (begun s) /\ g_modal s' = g_modal (begun s) /\ g_errors s' = g_errors (begun s)).
  { eexists. eexists. split; [reflexivity|]. split; [split; reflexivity|]. split; [reflexivity|]. split; [reflexivity|]. split.
    - eexists. split; [reflexivity|]. intros a. cbv beta. rewrite origin_is, offset_is. reflexivity.
    - repeat split. }
  destruct X as (s' & e & E & D & R & Ev & Or & A1 & A2 & A3 & A4 & A5 & A6).
  destruct (begun_fields s) as ((B1 & B2 & _ & _ & _ & _ & B7 & _) & (C1 & _ & C3 & _)).
  exists (seen [ECommandDone "M" v] s'), e. split.
  { eapply lead; [exact Hw|exact Hc|]. exists O. intros f F pb Hf HF. unfold run_command, run_M. cbn [Ascii.eqb Bool.eqb]. cbv zeta.
    replace ((int_of c v =? 2) || (int_of c v =? 30)) with true by lia. unfold line_is, bind at 1 2. rewrite E. reflexivity. }
  split; [exact D|]. split; [exact R|]. split; [exact Or|]. split; [cbn [seen with_events g_events]; rewrite Ev; reflexivity|].
  cbn [seen with_events g_pos g_cs g_origin g_params g_modal g_errors].
  assert (g_errors (begun s) = g_errors s) by (unfold begun; now destruct (g_running s)). repeat split; congruence.
Qed.
Print Assumptions C22_program_end.

(** ** C23 *)
(** G28 asks to home exactly the mentioned axes, all of them if none is mentioned. These are
    then at the machine origin, the others where they were. *)
Definition homed (ws : list (ascii * fl)) (a : axis) : Prop := ws = [] \/ mentioned (axis_letter a) ws = true.
Theorem C23_home : forall c s line v ws rest, ~ In NUL rest -> g_do_while s = false ->
  words c s line (("G"%char, v) :: ws) rest -> only is_axis_letter ws -> ends_at c s is_axis_letter rest -> int_of c v = 28 ->
  exists flags pos, (forall a, flags a = true <-> homed ws a) /\ (forall a, homed ws a -> pos a = gc_origin c a) /\ (forall a, ~ homed ws a -> pos a = g_pos s a) /\
    leads c line s rest (seen [ECommandDone "G" v] (with_pos (seen [EHome flags] (begun s)) pos)).
Proof.
  intros c s line v ws rest Hn Hc W Ho He Hv. inversion W as [|? ? ? l ? ? Hw W']; subst.
  assert (Hu := words_upper _ _ _ _ _ W').
  set (fl0 := fold_left (fun acc w => flag_next acc (fst w) (snd w)) ws (fun _ => false)).
  set (flags := if existsb fl0 all_axes then fl0 else fun _ => true).
  assert (Hfl : forall a, fl0 a = mentioned (axis_letter a) ws) by (intros a; unfold fl0; rewrite flags_are by exact Hu; reflexivity).
  assert (Hall : forall a, In a all_axes) by (intros []; cbn; tauto).
  assert (Hflags : forall a, flags a = true <-> homed ws a).
  { intros a. unfold flags, homed. destruct (existsb fl0 all_axes) eqn:E.
    - rewrite Hfl. split; [tauto|]. intros [->|H]; [|exact H]. exfalso. apply existsb_exists in E. destruct E as (b & _ & Eb). rewrite Hfl in Eb. discriminate.
    - split; [intros _; left|reflexivity]. destruct ws as [|[x w] ws']; [reflexivity|]. exfalso. inversion Ho as [|? ? Hx _]; subst. cbn [fst] in Hx.
      unfold is_axis_letter in Hx. apply existsb_exists in Hx. destruct Hx as (b & _ & Hb). apply Ascii.eqb_eq in Hb.
      assert (existsb fl0 all_axes = true); [|congruence]. apply existsb_exists. exists b. split; [apply Hall|]. rewrite Hfl, mentioned_cons, <- Hb, Ascii.eqb_refl. reflexivity. }
  destruct (collect c _ (fun (flags : axis -> bool) l (_ : fl) => match letter_axis l with None => ret (false, flags) | Some a => ret (true, set_axis flags a true) end)
    is_axis_letter (begun s) flag_next) with (line := l) (ws := ws) (rest := rest) (acc := fun _ : axis => false) as (n & H); auto.
  { intros acc x w U. unfold flag_next. rewrite (axis_upper x U). now destruct (letter_axis x). }
  { eapply words_alike; [apply alike_begun|exact W']. } { eapply ends_alike; [apply alike_begun|exact He]. } { apply calm_begun, Hc. }
  fold fl0 in H.
  exists flags, (fun a => if flags a then gc_origin c a else g_pos s a). split; [exact Hflags|].
  split. { intros a Ha. apply Hflags in Ha. now rewrite Ha. }
  split. { intros a Ha. destruct (flags a) eqn:E; [apply Hflags in E; contradiction|reflexivity]. }
  eapply lead; [exact Hw|exact Hc|]. exists n. intros f F pb Hf HF. unfold run_command, run_G. cbn [Ascii.eqb Bool.eqb]. cbv zeta. rewrite Hv.
  cbn [Z.eqb Pos.eqb orb Z.leb Z.compare Pos.compare Pos.compare_cont andb]. unfold handle_home, bind at 1 2. rewrite (H f F pb Hf HF). fold flags.
  unfold bind at 1 2, upd at 1, ret at 1. cbv zeta. rewrite tell_seen. destruct (begun_fields s) as ((_ & _ & _ & _ & _ & _ & B7 & _) & _).
  change (g_pos (seen [EHome flags] (begun s))) with (g_pos (begun s)). rewrite B7. reflexivity.
Qed.
Print Assumptions C23_home.

(** ** Findings *)
(** For rotary axes in inch mode, and for scaled axes, G92 does not give the present position
    the stated coordinate: going to that coordinate moves the machine. *)
Theorem C17_rotary_refuted : ~ (forall c s0 f w s a, new_parser c (Some []) = Done tt s0 ->
  parse_block c f (txt "G20 G92 " ++ w ++ txt " G1 " ++ w) s0 = Done tt s -> g_pos s a = g_pos s0 a).
Proof.
  intros H. set (l := txt "G20 G92 " ++ txt "A1" ++ txt " G1 " ++ txt "A1").
  assert (B : match new_parser ex_cfg (Some []) with
    | Done _ s0 => match parse_block ex_cfg 60 l s0 with Done _ s => SFeqb (g_pos s0 AA) (f32_of_Z 0) && negb (SFeqb (g_pos s AA) (f32_of_Z 0)) | _ => false end
    | _ => false end = true) by (vm_compute; reflexivity).
  destruct (new_parser ex_cfg (Some [])) as [[] s0| |] eqn:E0; [|discriminate..].
  destruct (parse_block ex_cfg 60 l s0) as [[] s| |] eqn:E; [|discriminate..].
  assert (Hp : g_pos s AA = g_pos s0 AA) by exact (H _ _ _ _ _ AA E0 E).
  rewrite Hp in B. destruct (SFeqb (g_pos s0 AA) (f32_of_Z 0)); discriminate.
Qed.
Print Assumptions C17_rotary_refuted.
Theorem C17_scale_refuted : ~ (forall c s0 f w s a, new_parser c (Some []) = Done tt s0 ->
  parse_block c f (txt "G51 X2 G92 " ++ w ++ txt " G1 " ++ w) s0 = Done tt s -> g_pos s a = g_pos s0 a).
Proof.
  intros H. set (l := txt "G51 X2 G92 " ++ txt "X10" ++ txt " G1 " ++ txt "X10").
  assert (B : match new_parser ex_cfg (Some []) with
    | Done _ s0 => match parse_block ex_cfg 60 l s0 with Done _ s => SFeqb (g_pos s0 AX) (f32_of_Z 0) && negb (SFeqb (g_pos s AX) (f32_of_Z 0)) | _ => false end
    | _ => false end = true) by (vm_compute; reflexivity).
  destruct (new_parser ex_cfg (Some [])) as [[] s0| |] eqn:E0; [|discriminate..].
  destruct (parse_block ex_cfg 60 l s0) as [[] s| |] eqn:E; [|discriminate..].
  assert (Hp : g_pos s AX = g_pos s0 AX) by exact (H _ _ _ _ _ AX E0 E).
  rewrite Hp in B. destruct (SFeqb (g_pos s0 AX) (f32_of_Z 0)); discriminate.
Qed.
Print Assumptions C17_scale_refuted.

(** ** Cases that meet the hypotheses *)
Ltac ex_words n r := eexists; eexists; exists r; split; [apply (read_words_right _ _ n); vm_compute; reflexivity|]; split; [apply only_right; vm_compute; reflexivity|];
  split; [left; right; left; eexists; left; reflexivity|]; split; [apply no_NUL; reflexivity|].
Example C17_example_hypotheses : exists v ws rest, words ex_cfg ex_state (txt "G92 x10 Y-2.5 ;here") (("G"%char, v) :: ws) rest /\
  only is_axis_letter ws /\ ends_at ex_cfg ex_state is_axis_letter rest /\ ~ In NUL rest /\ is_number v 920 = true /\ map fst ws = [("X"%char); ("Y"%char)].
Proof. ex_words 3%nat (txt ";here"). split; vm_compute; reflexivity. Qed.
Example C18_example_G10 : exists v ws rest, words ex_cfg ex_state (txt "G10 L2 P3 x10 Y-2.5 ;here") (("G"%char, v) :: ws) rest /\
  only g10_letter ws /\ ends_at ex_cfg ex_state g10_letter rest /\ ~ In NUL rest /\ int_of ex_cfg v = 10 /\ numbered ex_cfg ws "L" = Some 2 /\ numbered ex_cfg ws "P" = Some (2 + 1).
Proof. ex_words 5%nat (txt ";here"). repeat split; vm_compute; reflexivity. Qed.
Example C18_example_G10_refused : exists v ws rest, words ex_cfg ex_state (txt "G10 L2 P10 x10 ;here") (("G"%char, v) :: ws) rest /\
  only g10_letter ws /\ ends_at ex_cfg ex_state g10_letter rest /\ ~ In NUL rest /\ int_of ex_cfg v = 10 /\ numbered ex_cfg ws "P" = Some 10.
Proof. ex_words 4%nat (txt ";here"). repeat split; vm_compute; reflexivity. Qed.
Example C18_example_select : (exists v, word ex_cfg ex_state (txt "G59.2 X1") "G" v (txt "X1") /\ system_of ex_cfg v = Some 7) /\
  (exists v, word ex_cfg ex_state (txt "G59.7") "G" v [] /\ int_of ex_cfg v = 59 /\ system_of ex_cfg v = None) /\ g_do_while ex_state = false /\
  g_origin ex_state = Some 0 /\ param ex_state (txt "5220") = f32_of_Z (0 + 1).
Proof.
  split; [eexists; split; [apply read_word_right; vm_compute; reflexivity|vm_compute; reflexivity]|].
  split; [eexists; split; [apply read_word_right; vm_compute; reflexivity|split; vm_compute; reflexivity]|]. repeat split; vm_compute; reflexivity.
Qed.
Definition spot (s : gst) (a : axis) : option Z := fl_trunc (f32_mul (f32_of_Z 10) (g_pos s a)).
(** Two systems, one of them changed while it is selected, in both modes. *)
Example C18_example_effect :
  match parse_block ex_cfg 80 (txt "G10 L2 P2 X5 Z1 G55 G1 X1 Y1 G91 G10 L2 P2 X2 G90 G1 X1 G54 G1 Y7") ex_state with
  | Done _ s => spot s AX = Some 80 /\ spot s AY = Some 70 /\ spot s AZ = Some 0 /\ g_origin s = Some 0 /\
      fl_trunc (param s (txt "5241")) = Some 7 /\ fl_trunc (param s (txt "5243")) = Some 1 /\ fl_trunc (param s (txt "5221")) = Some 0 /\ fl_trunc (param s (txt "5220")) = Some 1
  | _ => False
  end.
Proof. vm_compute. tauto. Qed.
Example C18_example_start : let m := [(txt "5220", f32_of_Z 2); (txt "5242", f32_of_Z 30)] in
  fin32 (param (fresh ex_cfg (Some m)) (txt "5220")) /\ (1 <= val (param (fresh ex_cfg (Some m)) (txt "5220")) <= 9)%R /\
  match new_parser ex_cfg (Some m) with Done _ s => g_origin s = Some 1 /\ fl_trunc (g_cs s 1 AY) = Some 30 | _ => False end.
Proof.
  cbv zeta. change (param (fresh ex_cfg (Some _)) (txt "5220")) with (f32_of_Z 2). destruct (f32_of_Z_val 2 ltac:(lia)) as (F & V).
  split; [exact F|]. split; [rewrite V; lra|]. vm_compute. tauto.
Qed.
Definition usual (s : gst) : bool := SFeqb (g_unit s) (f32_of_Z 1) && forallb (fun a => g_abs s a && SFeqb (g_scale s a) (f32_of_Z 1) && SFeqb (g_g92 s a) (f32_of_Z 0)) all_axes &&
  match g_normal s with AZ => true | _ => false end && negb (g_running s).
Example C22_example : (exists v, word ex_cfg ex_state (txt "M30 G1 X1") "M" v (txt "G1 X1") /\ int_of ex_cfg v = 30) /\
  match parse_block ex_cfg 80 (txt "G20 G91 G18 G51 X2 G92 X1 M83 M2") ex_state with Done _ s => usual s = true | _ => False end /\
  match parse_block ex_cfg 80 (txt "G20 G91 G18 G51 X2 G92 X1 M83") ex_state with Done _ s => usual s = false | _ => False end.
Proof.
  split; [eexists; split; [apply read_word_right; vm_compute; reflexivity|vm_compute; reflexivity]|]. split; vm_compute; reflexivity.
Qed.
Example C23_example : exists v ws rest, words ex_cfg ex_state (txt "G28 X0 z0 ;ready") (("G"%char, v) :: ws) rest /\
  only is_axis_letter ws /\ ends_at ex_cfg ex_state is_axis_letter rest /\ ~ In NUL rest /\ int_of ex_cfg v = 28 /\ homed ws AZ /\ ~ homed ws AY.
Proof. ex_words 3%nat (txt ";ready"). split; [vm_compute; reflexivity|]. split; [right; vm_compute; reflexivity|]. intros [X|X]; vm_compute in X; discriminate. Qed.
