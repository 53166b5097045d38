(** What the words of arcs and splines ask for: proofs. *)
From Coq Require Import SpecFloat.
From Verif Require Import Base Text Model_StringUtil Model_Float Model_Lexer Model_Axis Model_Gcode
  Spec_Expr Proofs_Expr Spec_Line Proofs_Value Proofs_Total Spec_Words Proofs_Words Spec_Moves Proofs_Moves Spec_Curves.

Section Curves.
Variable c : gcfg.

(** As [args_over], for steps that may note the word that ends the list. *)
Lemma args_over_end : forall A (step : A -> ascii -> fl -> G (bool * A)) mine,
  (forall acc l v s, to_upper l = l -> exists acc' s', step acc l v s = Done (mine l, acc') s' /\ alike s s' /\ (mine l = false -> s' = s)) ->
  forall s0 line ws rest, ~ In NUL rest -> words c s0 line ws rest -> only mine ws ->
  forall acc s, alike s0 s -> calm s ->
  exists acc' s', over step acc ws s = Done acc' s' /\ alike s s' /\
    (line_end rest -> exists n, forall k f pb, (n <= k)%nat -> (n <= f)%nat -> args k (parse_pair c f pb) step acc line s = Done (acc', rest) s') /\
    (forall l v r, word c s0 rest l v r -> mine l = false -> exists acc2 n, step acc' l v s' = Done (false, acc2) s' /\
       forall k f pb, (n <= k)%nat -> (n <= f)%nat -> args k (parse_pair c f pb) step acc line s = Done (acc2, rest) s').
Proof.
  intros A step mine St s0 line ws rest Hn W. induction W as [line|line l v line1 ws rest Hw W IH]; intros Ho acc s Ha Hc.
  - exists acc, s. split; [reflexivity|]. split; [apply alike_refl|]. split.
    + intros He. exists 1%nat. intros [|k] f pb Hk Hf; [lia|]. cbn [args]. now rewrite (bind_done _ _ _ _ _ _ _ (gp_end c s line He Hn Hc f pb Hf)).
    + intros l v r Hw Hm. destruct (gp_word _ _ _ _ _ _ (word_alike _ _ _ _ _ _ _ Ha Hw) Hc) as (n & H).
      destruct (St acc l v s (word_upper _ _ _ _ _ _ Hw)) as (acc' & s' & E & _ & Z). rewrite Hm in E. rewrite (Z Hm) in E. exists acc', (S n). split; [exact E|].
      intros [|k] f pb Hk Hf; [lia|]. cbn [args]. rewrite (bind_done _ _ _ _ _ _ _ (H f pb ltac:(lia))). rewrite (bind_done _ _ _ _ _ _ _ E). reflexivity.
  - inversion Ho as [|? ? Hl Ho']; subst. cbn [fst] in Hl. destruct (St acc l v s (word_upper _ _ _ _ _ _ Hw)) as (acc1 & s1 & E & A1 & _). rewrite Hl in E.
    assert (Hc1 : calm s1) by (unfold calm in *; destruct A1 as (_ & _ & ->); exact Hc).
    destruct (IH Hn Ho' acc1 s1 (alike_trans _ _ _ Ha A1) Hc1) as (acc' & s' & E2 & A2 & H1 & H2).
    exists acc', s'. split; [cbn [over]; now rewrite (bind_done _ _ _ _ _ _ _ E)|]. split; [eapply alike_trans; eauto|].
    destruct (gp_word _ _ _ _ _ _ (word_alike _ _ _ _ _ _ _ Ha Hw) Hc) as (n0 & H0). split.
    + intros He. destruct (H1 He) as (n & H). exists (S (n + n0)). intros [|k] f pb Hk Hf; [lia|].
      cbn [args]. rewrite (bind_done _ _ _ _ _ _ _ (H0 f pb ltac:(lia))). rewrite (bind_done _ _ _ _ _ _ _ E). apply H; lia.
    + intros l' v' r Hw' Hm. destruct (H2 l' v' r Hw' Hm) as (acc2 & n & E3 & H). exists acc2, (S (n + n0)). split; [exact E3|]. intros [|k] f pb Hk Hf; [lia|].
      cbn [args]. rewrite (bind_done _ _ _ _ _ _ _ (H0 f pb ltac:(lia))). rewrite (bind_done _ _ _ _ _ _ _ E). apply H; lia.
Qed.
(** A command that drops the rest of its line *)
Lemma lead_none : forall s line letter v l s1, word c s line letter v l -> calm s ->
  (exists n, forall f F pb, (n <= f)%nat -> (n <= F)%nat -> run_command c f (parse_pair c F pb) letter v l (g_first_spline s) (begun s) = Done None s1) ->
  outcome c line s (Done tt (seen [EBlockDone] s1)).
Proof.
  intros s line letter v l s1 Hw Hc (n & Hn). destruct (gp_word _ _ _ _ _ _ Hw Hc) as (k & Hk).
  exists (S (S (S (n + k)))). intros [|[|F]] HF; [lia|lia|]. rewrite parse_block_S. unfold bind at 1.
  assert (B : forall gp, block_loop c (S F) (parse_pair c (S F) gp) (Some line) s = Done tt s1).
  { intros pb. cbn [block_loop]. rewrite (bind_done _ _ _ _ _ _ _ (Hk (S F) pb ltac:(lia))).
    specialize (Hn F (S F) pb ltac:(lia) ltac:(lia)). unfold begun in Hn. unfold tell, emit, bind, get, when, upd, ret. cbv beta iota zeta.
    destruct (g_running s) eqn:R; cbn [negb];
      match type of Hn with run_command _ _ ?gp _ _ _ ?X ?Y = _ =>
        match goal with |- context [run_command c F gp letter v l ?X' ?Y'] =>
          change (run_command c F gp letter v l X' Y') with (run_command c F gp letter v l X Y) end end; rewrite Hn; destruct F; try lia; reflexivity. }
  rewrite B. reflexivity.
Qed.

(** ** Arcs *)
Definition arc_acc := (axes * axes * fl * fl * bool * bool * Z)%type.
Definition arc_step : arc_acc -> ascii -> fl -> G (bool * arc_acc) :=
    (fun '(target, offset, feedrate, radius, have_ijk, have_r, turns) l v =>
      u <- get g_unit ;; scale <- get g_scale ;;
      let d := f32_mul v u in
      if Ascii.eqb l "I" then ret (true, (target, set_axis offset AX (f32_mul d (scale AX)), feedrate, radius, true, have_r, turns))
      else if Ascii.eqb l "J" then ret (true, (target, set_axis offset AY (f32_mul d (scale AY)), feedrate, radius, true, have_r, turns))
      else if Ascii.eqb l "K" then ret (true, (target, set_axis offset AZ (f32_mul d (scale AZ)), feedrate, radius, true, have_r, turns))
      else if Ascii.eqb l "R" then ret (true, (target, offset, feedrate, d, have_ijk, true, turns))
      else if Ascii.eqb l "P" then ret (true, (target, offset, feedrate, radius, have_ijk, have_r, int_of c v))
      else if Ascii.eqb l "F" then ret (true, (target, offset, feedrate_of d, radius, have_ijk, have_r, turns))
      else
        match letter_axis l with
        | None => ret (false, (target, offset, feedrate, radius, have_ijk, have_r, turns))
        | Some a => p <- get (abs_axis_pos c a v) ;; ret (true, (set_axis target a p, offset, feedrate, radius, have_ijk, have_r, turns))
        end).
Lemma arc_letters : forall l, to_upper l = l -> arc_letter l =
  (Ascii.eqb l "I" || Ascii.eqb l "J" || Ascii.eqb l "K" || Ascii.eqb l "R" || Ascii.eqb l "P" || Ascii.eqb l "F" || match letter_axis l with Some _ => true | None => false end).
Proof. intros l U. rewrite <- (axis_upper l U). unfold arc_letter. rewrite existsb_app. change (existsb (fun x => Ascii.eqb x l) (map axis_letter all_axes)) with (is_axis_letter l).
  cbn [existsb]. rewrite !(Ascii.eqb_sym l). destruct (is_axis_letter l); [now rewrite !orb_true_r|]. cbn [orb]. now rewrite !orb_false_r, !orb_assoc.
Qed.
Lemma arc_step_ok : forall acc l v s, to_upper l = l -> exists acc' s', arc_step acc l v s = Done (arc_letter l, acc') s' /\
  alike s s' /\ (arc_letter l = false -> acc' = acc /\ s' = s).
Proof.
  intros [[[[[[t o] f] r] hi] hr] tu] l v s U. rewrite (arc_letters l U). unfold arc_step, bind, get, ret.
  repeat match goal with |- context [Ascii.eqb l ?x] => destruct (Ascii.eqb l x); [cbn [orb]; eexists; eexists; split; [reflexivity|]; split; [apply alike_refl|discriminate]|] end.
  cbn [orb]. destruct (letter_axis l); (eexists; eexists; split; [reflexivity|]; split; [apply alike_refl|]); [discriminate|auto].
Qed.
Definition over_last {A} (letter : ascii) (ws : list (ascii * fl)) (f : fl -> A) (x : A) : A := match last_value letter ws with Some v => f v | None => x end.
Lemma over_last_cons : forall A letter x v ws (f : fl -> A) d,
  over_last letter ((x, v) :: ws) f d = over_last letter ws f (if Ascii.eqb x letter then f v else d).
Proof. intros. unfold over_last. rewrite last_cons. destruct (last_value letter ws); [reflexivity|]. destruct (Ascii.eqb x letter); reflexivity. Qed.
Definition arc_next (acc : arc_acc) (l : ascii) (v : fl) (s : gst) : arc_acc :=
  let '(t, o, f, r, hi, hr, tu) := acc in
  let d := f32_mul v (g_unit s) in
  if Ascii.eqb l "I" then (t, set_axis o AX (f32_mul d (g_scale s AX)), f, r, true, hr, tu)
  else if Ascii.eqb l "J" then (t, set_axis o AY (f32_mul d (g_scale s AY)), f, r, true, hr, tu)
  else if Ascii.eqb l "K" then (t, set_axis o AZ (f32_mul d (g_scale s AZ)), f, r, true, hr, tu)
  else if Ascii.eqb l "R" then (t, o, f, d, hi, true, tu)
  else if Ascii.eqb l "P" then (t, o, f, r, hi, hr, int_of c v)
  else if Ascii.eqb l "F" then (t, o, f32_div d (f32_of_Z 60), r, hi, hr, tu)
  else match letter_axis l with Some a => (set_axis t a (goal_of c s a v), o, f, r, hi, hr, tu) | None => (t, o, f, r, hi, hr, tu) end.
Lemma arc_step_next : forall acc l v s, to_upper l = l -> arc_letter l = true -> arc_step acc l v s = Done (true, arc_next acc l v s) s.
Proof.
  intros [[[[[[t o] f] r] hi] hr] tu] l v s U L. rewrite (arc_letters l U) in L. unfold arc_step, arc_next, bind, get, ret.
  repeat match goal with |- context [Ascii.eqb l ?x] => destruct (Ascii.eqb l x); [reflexivity|] end. cbn [orb] in L. destruct (letter_axis l); [|discriminate]. now rewrite goal_abs.
Qed.
Lemma arc_over : forall ws t o f r hi hr tu s, only arc_letter ws ->
  exists t' o', over arc_step (t, o, f, r, hi, hr, tu) ws s =
    Done (t', o', over_last "F" ws (fun v => f32_div (f32_mul v (g_unit s)) (f32_of_Z 60)) f, over_last "R" ws (fun v => f32_mul v (g_unit s)) r,
          hi || (mentioned "I" ws || mentioned "J" ws || mentioned "K" ws), hr || mentioned "R" ws, over_last "P" ws (int_of c) tu) s /\
    (forall a, t' a = over_last (axis_letter a) ws (goal_of c s a) (t a)) /\
    (forall a, o' a = match a with
                      | AX => over_last "I" ws (fun v => f32_mul (f32_mul v (g_unit s)) (g_scale s AX)) (o AX)
                      | AY => over_last "J" ws (fun v => f32_mul (f32_mul v (g_unit s)) (g_scale s AY)) (o AY)
                      | AZ => over_last "K" ws (fun v => f32_mul (f32_mul v (g_unit s)) (g_scale s AZ)) (o AZ)
                      | _ => o a
                      end).
Proof.
  induction ws as [|[l v] ws IH]; intros t o f r hi hr tu s Ho.
  - exists t, o. cbn [over mentioned existsb over_last last_value fold_left orb]. rewrite !orb_false_r. split; [reflexivity|]. split; [reflexivity|]. intros []; reflexivity.
  - inversion Ho as [|? ? Hl Ho']; subst. cbn [fst] in Hl. unfold arc_letter in Hl. apply existsb_exists in Hl as (x & I & E). apply Ascii.eqb_eq in E. subst x.
    cbn [map all_axes app axis_letter In] in I.
    repeat (destruct I as [<-|I]); [..|destruct I];
    (erewrite over_step by (apply arc_step_next; reflexivity); cbn [arc_next Ascii.eqb Bool.eqb letter_axis];
     edestruct IH as (t' & o' & E & H1 & H2); [exact Ho'|]; exists t', o'; (split; [|split]);
     [ etransitivity; [exact E|]; rewrite !over_last_cons, !mentioned_cons; cbn [Ascii.eqb Bool.eqb orb]; rewrite ?orb_true_r; reflexivity
     | intros a; rewrite H1, over_last_cons; destruct a; reflexivity
     | intros a; rewrite H2, !over_last_cons; destruct a; reflexivity ]).
Qed.
Lemma handle_arc_words : forall s line ws rest cw, ~ In NUL rest -> calm s -> words c s line ws rest -> only arc_letter ws -> ends_at c s arc_letter rest ->
  exists center target, (forall a, target a = destination c s ws a) /\
  (forall o, to_centre c s cw ws = Some o -> forall a, center a = if is_linear_axis a then f32_add (g_pos s a) (o a) else g_pos s a) /\
  exists n, forall f F pb, (n <= f)%nat -> (n <= F)%nat ->
    handle_arc c f (parse_pair c F pb) line cw s =
    Done (Some rest) (match to_centre c s cw ws with Some _ => asked c (EArc (speed_of s ws) (g_normal s) cw (g_pos s) center target) target s | None => reported s end).
Proof.
  intros s line ws rest cw Hn Hc W Ho He.
  destruct (arc_over ws (g_pos s) zero_axes no_feedrate f0 false false 1 s Ho) as (t & o & E & H1 & H2).
  destruct (args_over c _ arc_step arc_letter arc_step_ok s line ws rest Hn W Ho He (g_pos s, zero_axes, no_feedrate, f0, false, false, 1) s (alike_refl s) Hc)
    as (acc' & s' & E' & _ & n & H). rewrite E in E'. apply done_inj in E' as (-> & ->). cbn [orb] in H.
  assert (T : forall a, t a = destination c s ws a) by (intros a; rewrite H1; reflexivity).
  assert (Of : forall a, o a = match a with AX => offset_by s "I" AX ws | AY => offset_by s "J" AY ws | AZ => offset_by s "K" AZ ws | _ => f32_of_Z 0 end) by (intros a; rewrite H2; destruct a; reflexivity).
  set (off := if mentioned "I" ws || mentioned "J" ws || mentioned "K" ws then Some o else
     let '(a, b) := in_plane (g_normal s) in
        match gc_center c (g_pos s a) (g_pos s b) (t a) (t b) (over_last "R" ws (fun v => f32_mul v (g_unit s)) f0) cw with
        | None => None
        | Some (x, y) => Some (set_axis (set_axis o a x) b y)
        end).
  exists (match off with Some o => fun a => if is_linear_axis a then f32_add (g_pos s a) (o a) else g_pos s a | None => g_pos s end), t. split; [exact T|].
  assert (R : over_last "R" ws (fun v => f32_mul v (g_unit s)) f0 = millimetres s "R" ws) by reflexivity.
  assert (P : over_last "P" ws (int_of c) 1 = match last_value "P" ws with Some v => int_of c v | None => 1 end) by reflexivity.
  assert (F : over_last "F" ws (fun v => f32_div (f32_mul v (g_unit s)) (f32_of_Z 60)) no_feedrate = speed_of s ws) by reflexivity.
  assert (NM : forall l, mentioned l ws = false -> last_value l ws = None).
  { intros l. unfold last_value. induction ws as [|[x v] ws0 IH] using rev_ind; intros M; [reflexivity|]. clear - M. revert M. induction ws0 as [|[y w] ws1 IH1]; cbn [app]; intros M.
    - cbn [mentioned existsb fst] in M. rewrite orb_false_r in M. cbn [fold_left fst]. now rewrite M.
    - rewrite mentioned_cons in M. apply orb_false_elim in M as (M1 & M2). cbn [fold_left fst]. rewrite M1. exact (IH1 M2). }
  rewrite R, P, F in H.
  unfold to_centre. fold (in_plane (g_normal s)). subst off. rewrite R.
  set (by_offset := mentioned "I" ws || mentioned "J" ws || mentioned "K" ws) in *. set (turns := match last_value "P" ws with Some v => int_of c v | None => 1 end) in *.
  assert (X : forall f F pb, (n <= f)%nat -> (n <= F)%nat -> handle_arc c f (parse_pair c F pb) line cw s =
    (if Bool.eqb by_offset (mentioned "R" ws) then err ;;; ret (Some rest)
     else if negb (turns =? 1) then err ;;; ret (Some rest)
     else
       normal <- get g_normal ;;
       pos <- get g_pos ;;
       let center :=
         if by_offset then if SFeqb (o normal) f0 then Some o else None
         else
           let '(a, b) := match normal with AX => (AY, AZ) | AY => (AX, AZ) | _ => (AX, AY) end in
           match gc_center c (pos a) (pos b) (t a) (t b) (millimetres s "R" ws) cw with
           | None => None
           | Some (x, y) => Some (set_axis (set_axis o a x) b y)
           end in
       match center with
       | None => err ;;; ret (Some rest)
       | Some offset =>
           let center := fun a => if is_linear_axis a then f32_add (pos a) (offset a) else pos a in
           r <- emit c (EArc (speed_of s ws) normal cw pos center t) ;;
           when (r_ok r) (upd (fun s => with_pos s t)) ;;;
           ret (Some rest)
       end)%g s).
  { intros f F0 pb Hf HF. unfold handle_arc. unfold bind at 1, get at 1. rewrite (bind_done _ _ _ _ _ _ _ (H f F0 pb Hf HF)). reflexivity. }
  clear H E.
  destruct (turns =? 1) eqn:Et; cbn [negb] in X |- *.
  2: { split; [discriminate|]. exists n. intros f F0 pb Hf HF. rewrite (X f F0 pb Hf HF). destruct (Bool.eqb by_offset (mentioned "R" ws)); reflexivity. }
  destruct by_offset eqn:Eb; cbn [andb].
  - destruct (mentioned "R" ws) eqn:Er; cbn [Bool.eqb] in X.
    + split; [discriminate|]. exists n. intros f F0 pb Hf HF. rewrite (X f F0 pb Hf HF). reflexivity.
    + rewrite <- Of. change (f32_of_Z 0) with f0. unfold bind, get in X. cbv beta iota zeta in X. destruct (SFeqb (o (g_normal s)) f0).
      * split; [intros o' [= <-] a; now rewrite Of|]. exists n. intros f F0 pb Hf HF. rewrite (X f F0 pb Hf HF). unfold asked. rewrite emit_seen. cbv beta iota zeta.
        match goal with |- context [gc_reply c (?e :: g_events s)] => change (g_events (seen [e] s)) with (e :: g_events s) end. destruct (r_ok _); reflexivity.
      * split; [discriminate|]. exists n. intros f F0 pb Hf HF. rewrite (X f F0 pb Hf HF). reflexivity.
  - destruct (mentioned "R" ws) eqn:Er; cbn [Bool.eqb] in X.
    2: { split; [discriminate|]. exists n. intros f F0 pb Hf HF. rewrite (X f F0 pb Hf HF). reflexivity. }
    assert (Oz : forall a, o a = f32_of_Z 0).
    { unfold by_offset in Eb. apply orb_false_elim in Eb as (Eb & E3). apply orb_false_elim in Eb as (E1 & E2). intros a. rewrite Of. unfold offset_by. rewrite (NM _ E1), (NM _ E2), (NM _ E3). now destruct a. }
    unfold bind, get in X. cbv beta iota zeta in X. change (match g_normal s with AX => (AY, AZ) | AY => (AX, AZ) | _ => (AX, AY) end) with (in_plane (g_normal s)) in X.
    destruct (in_plane (g_normal s)) as [a b] eqn:Ep. rewrite !T in X. rewrite !T. destruct (gc_center c (g_pos s a) (g_pos s b) (destination c s ws a) (destination c s ws b) (millimetres s "R" ws) cw) as [[x y]|].
    + split.
      * intros o' Eo d. injection Eo as Eo. subst o'. rewrite !set_axis_at, Oz. replace (axis_eqb a d) with (axis_eqb d a) by (unfold axis_eqb; apply Z.eqb_sym). replace (axis_eqb b d) with (axis_eqb d b) by (unfold axis_eqb; apply Z.eqb_sym).
        destruct (axis_eqb d a) eqn:Ea, (axis_eqb d b) eqn:Eb2; try reflexivity. apply axis_eqb_true in Ea. apply axis_eqb_true in Eb2. subst. destruct (g_normal s); injection Ep; congruence.
      * exists n. intros f F0 pb Hf HF. rewrite (X f F0 pb Hf HF). unfold asked. rewrite emit_seen. cbv beta iota zeta.
        match goal with |- context [gc_reply c (?e :: g_events s)] => change (g_events (seen [e] s)) with (e :: g_events s) end. destruct (r_ok _); reflexivity.
    + split; [discriminate|]. exists n. intros f F0 pb Hf HF. rewrite (X f F0 pb Hf HF). reflexivity.
Qed.

(** ** Splines *)
Definition spline_acc := (bool * axes * axes * axes * (bool * bool * bool * bool) * fl)%type.
Definition spline_step : spline_acc -> ascii -> fl -> G (bool * spline_acc) :=
      (fun '(wrong, target, cp1, cp2, (i, j, p, q), feedrate) l v =>
        u <- get g_unit ;; scale <- get g_scale ;;
        let d := f32_mul v u in
        if Ascii.eqb l "I" then ret (true, (wrong, target, set_axis cp1 AX (f32_mul d (scale AX)), cp2, (true, j, p, q), feedrate))
        else if Ascii.eqb l "J" then ret (true, (wrong, target, set_axis cp1 AY (f32_mul d (scale AY)), cp2, (i, true, p, q), feedrate))
        else if Ascii.eqb l "P" then ret (true, (wrong, target, cp1, set_axis cp2 AX (f32_mul d (scale AX)), (i, j, true, q), feedrate))
        else if Ascii.eqb l "Q" then ret (true, (wrong, target, cp1, set_axis cp2 AY (f32_mul d (scale AY)), (i, j, p, true), feedrate))
        else if Ascii.eqb l "F" then ret (true, (wrong, target, cp1, cp2, (i, j, p, q), feedrate_of d))
        else
          match letter_axis l with
          | None => ret (false, (true, target, cp1, cp2, (i, j, p, q), feedrate))
          | Some a => x <- get (abs_axis_pos c a v) ;; ret (true, (wrong, set_axis target a x, cp1, cp2, (i, j, p, q), feedrate))
          end).
Lemma spline_letters : forall l, to_upper l = l -> spline_letter l =
  (Ascii.eqb l "I" || Ascii.eqb l "J" || Ascii.eqb l "P" || Ascii.eqb l "Q" || Ascii.eqb l "F" || match letter_axis l with Some _ => true | None => false end).
Proof.
  intros l U. rewrite <- (axis_upper l U). unfold spline_letter. rewrite existsb_app. change (existsb (fun x => Ascii.eqb x l) (map axis_letter all_axes)) with (is_axis_letter l).
  cbn [existsb]. rewrite !(Ascii.eqb_sym l). destruct (is_axis_letter l); [now rewrite !orb_true_r|]. cbn [orb]. now rewrite !orb_false_r, !orb_assoc.
Qed.
Lemma spline_step_ok : forall acc l v s, to_upper l = l -> exists acc' s', spline_step acc l v s = Done (spline_letter l, acc') s' /\ alike s s' /\ (spline_letter l = false -> s' = s).
Proof.
  intros [[[[[w t] o1] o2] [[[i j] p] q]] f] l v s U. rewrite (spline_letters l U). unfold spline_step, bind, get, ret.
  repeat match goal with |- context [Ascii.eqb l ?x] => destruct (Ascii.eqb l x); [cbn [orb]; eexists; eexists; split; [reflexivity|]; split; [apply alike_refl|discriminate]|] end.
  cbn [orb]. destruct (letter_axis l); (eexists; eexists; split; [reflexivity|]; split; [apply alike_refl|auto]).
Qed.
Lemma spline_step_wrong : forall acc l v s acc' s', to_upper l = l -> spline_letter l = false -> spline_step acc l v s = Done (false, acc') s' -> fst (fst (fst (fst (fst acc')))) = true.
Proof.
  intros [[[[[w t] o1] o2] [[[i j] p] q]] f] l v s acc' s' U. rewrite (spline_letters l U). unfold spline_step, bind, get, ret. intros L.
  repeat match goal with |- context [Ascii.eqb l ?x] => destruct (Ascii.eqb l x); [discriminate|] end.
  cbn [orb] in L. destruct (letter_axis l); [discriminate|]. intros E. injection E as <- <-. reflexivity.
Qed.
Definition spline_next (acc : spline_acc) (l : ascii) (v : fl) (s : gst) : spline_acc :=
  let '(w, t, o1, o2, (i, j, p, q), f) := acc in
  let d := f32_mul v (g_unit s) in
  if Ascii.eqb l "I" then (w, t, set_axis o1 AX (f32_mul d (g_scale s AX)), o2, (true, j, p, q), f)
  else if Ascii.eqb l "J" then (w, t, set_axis o1 AY (f32_mul d (g_scale s AY)), o2, (i, true, p, q), f)
  else if Ascii.eqb l "P" then (w, t, o1, set_axis o2 AX (f32_mul d (g_scale s AX)), (i, j, true, q), f)
  else if Ascii.eqb l "Q" then (w, t, o1, set_axis o2 AY (f32_mul d (g_scale s AY)), (i, j, p, true), f)
  else if Ascii.eqb l "F" then (w, t, o1, o2, (i, j, p, q), f32_div d (f32_of_Z 60))
  else match letter_axis l with Some a => (w, set_axis t a (goal_of c s a v), o1, o2, (i, j, p, q), f) | None => acc end.
Lemma spline_step_next : forall acc l v s, to_upper l = l -> spline_letter l = true -> spline_step acc l v s = Done (true, spline_next acc l v s) s.
Proof.
  intros [[[[[w t] o1] o2] [[[i j] p] q]] f] l v s U L. rewrite (spline_letters l U) in L. unfold spline_step, spline_next, bind, get, ret.
  repeat match goal with |- context [Ascii.eqb l ?x] => destruct (Ascii.eqb l x); [reflexivity|] end. cbn [orb] in L. destruct (letter_axis l); [|discriminate]. now rewrite goal_abs.
Qed.
Lemma spline_over : forall ws w t o1 o2 i j p q f s, only spline_letter ws ->
  exists t' o1' o2', over spline_step (w, t, o1, o2, (i, j, p, q), f) ws s =
    Done (w, t', o1', o2', (i || mentioned "I" ws, j || mentioned "J" ws, p || mentioned "P" ws, q || mentioned "Q" ws),
          over_last "F" ws (fun v => f32_div (f32_mul v (g_unit s)) (f32_of_Z 60)) f) s /\
    (forall a, t' a = over_last (axis_letter a) ws (goal_of c s a) (t a)) /\
    (forall a, o1' a = match a with
                      | AX => over_last "I" ws (fun v => f32_mul (f32_mul v (g_unit s)) (g_scale s AX)) (o1 AX)
                      | AY => over_last "J" ws (fun v => f32_mul (f32_mul v (g_unit s)) (g_scale s AY)) (o1 AY)
                      | _ => o1 a
                      end) /\
    (forall a, o2' a = match a with
                      | AX => over_last "P" ws (fun v => f32_mul (f32_mul v (g_unit s)) (g_scale s AX)) (o2 AX)
                      | AY => over_last "Q" ws (fun v => f32_mul (f32_mul v (g_unit s)) (g_scale s AY)) (o2 AY)
                      | _ => o2 a
                      end).
Proof.
  induction ws as [|[l v] ws IH]; intros w t o1 o2 i j p q f s Ho.
  - exists t, o1, o2. cbn [over mentioned existsb over_last last_value fold_left orb]. rewrite !orb_false_r. split; [reflexivity|]. split; [reflexivity|]. split; intros []; reflexivity.
  - inversion Ho as [|? ? Hl Ho']; subst. cbn [fst] in Hl. unfold spline_letter in Hl. apply existsb_exists in Hl as (x & I & E). apply Ascii.eqb_eq in E. subst x.
    cbn [map all_axes app axis_letter In] in I.
    repeat (destruct I as [<-|I]); [..|destruct I];
    (erewrite over_step by (apply spline_step_next; reflexivity); cbn [spline_next Ascii.eqb Bool.eqb letter_axis];
     edestruct IH as (t' & o1' & o2' & E & H1 & H2 & H3); [exact Ho'|]; exists t', o1', o2'; (split; [|split; [|split]]);
     [ etransitivity; [exact E|]; rewrite !over_last_cons, !mentioned_cons; cbn [Ascii.eqb Bool.eqb orb]; rewrite ?orb_true_r; reflexivity
     | intros a; rewrite H1, over_last_cons; destruct a; reflexivity
     | intros a; rewrite H2, !over_last_cons; destruct a; reflexivity
     | intros a; rewrite H3, !over_last_cons; destruct a; reflexivity ]).
Qed.
(** What is remembered for the next spline *)
Lemma handle_spline_words : forall s line ws rest v, ~ In NUL rest -> calm s -> words c s line ws rest -> only spline_letter ws -> line_end rest ->
  g_normal s = AZ -> is_cubic v || is_quadratic v = true ->
  let points := if is_cubic v then cubic_points c s ws else quadratic_points s ws in
  exists cp1 cp2 target second, (forall a, target a = destination c s ws a) /\
  (forall p q, points = Some (p, q) -> forall a, cp1 a = p a /\ cp2 a = q a) /\
  (forall a, second a = match a with AX => offset_by s "P" AX ws | AY => offset_by s "Q" AY ws | _ => f32_of_Z 0 end) /\
  exists n, forall f F pb, (n <= f)%nat -> (n <= F)%nat ->
    handle_spline c f (parse_pair c F pb) v line s =
    match points with
    | Some _ => Done (Some rest) (asked c (ESpline (speed_of s ws) (g_pos s) cp1 cp2 target) target
                                    (if is_cubic v then with_first (with_cp2 s second) true else with_first s false))
    | None => Done None (reported s)
    end.
Proof.
  intros s line ws rest v Hn Hc W Ho He Nz Hv points.
  destruct (spline_over ws false (g_pos s) zero_axes zero_axes false false false false no_feedrate s Ho) as (t & o1 & o2 & E & H1 & H2 & H3).
  destruct (args_over_end _ spline_step spline_letter spline_step_ok s line ws rest Hn W Ho (false, g_pos s, zero_axes, zero_axes, (false, false, false, false), no_feedrate) s (alike_refl s) Hc)
    as (acc' & s' & E' & _ & H & _). rewrite E in E'. apply done_inj in E' as (-> & ->). destruct (H He) as (n & Hn'). clear H. cbn [orb] in Hn'.
  assert (T : forall a, t a = destination c s ws a) by (intros a; rewrite H1; reflexivity).
  assert (O1 : forall a, o1 a = match a with AX => offset_by s "I" AX ws | AY => offset_by s "J" AY ws | _ => f32_of_Z 0 end) by (intros a; rewrite H2; destruct a; reflexivity).
  assert (O2 : forall a, o2 a = match a with AX => offset_by s "P" AX ws | AY => offset_by s "Q" AY ws | _ => f32_of_Z 0 end) by (intros a; rewrite H3; destruct a; reflexivity).
  assert (F : over_last "F" ws (fun v => f32_div (f32_mul v (g_unit s)) (f32_of_Z 60)) no_feedrate = speed_of s ws) by reflexivity. rewrite F in Hn'.
  set (i := mentioned "I" ws) in *. set (j := mentioned "J" ws) in *. set (p := mentioned "P" ws) in *. set (q := mentioned "Q" ws) in *.
  set (third := fun a k => f32_div (f32_mul (o1 a) (f32_of_Z k)) (f32_of_Z 3)).
  set (q1 := fun a => f32_add (g_pos s a) (third a 2)). set (q2 := fun a => f32_add (q1 a) (third a 1)).
  set (k1 := if i then o1 else set_axis (set_axis o1 AX (SFopp (g_cp2 s AX))) AY (SFopp (g_cp2 s AY))).
  exists (if is_cubic v then set_axis (set_axis k1 AX (f32_add (k1 AX) (g_pos s AX))) AY (f32_add (k1 AY) (g_pos s AY)) else set_axis (set_axis zero_axes AX (q1 AX)) AY (q1 AY)),
    (if is_cubic v then set_axis (set_axis o2 AX (f32_add (o2 AX) (t AX))) AY (f32_add (o2 AY) (t AY)) else set_axis (set_axis zero_axes AX (q2 AX)) AY (q2 AY)), t, o2.
  split; [exact T|]. split; [|split; [exact O2|]].
  - unfold points. destruct (is_cubic v).
    + unfold cubic_points. fold i j p q. destruct ((p || q) && Bool.eqb i j && (i || g_first_spline s)) eqn:Ok; [|discriminate]. intros u w Eu a. injection Eu as Eu Ew. subst u w.
      apply andb_prop in Ok as (Ok & _). apply andb_prop in Ok as (_ & Eij). apply Bool.eqb_prop in Eij. unfold k1. fold i j. rewrite <- Eij. destruct i.
      * destruct a; cbn [set_axis axis_eqb axis_ix Z.eqb Pos.eqb]; unfold set_axis; cbn [axis_eqb axis_ix Z.eqb Pos.eqb]; rewrite ?O1, ?O2, ?T; split; reflexivity.
      * destruct a; unfold set_axis; cbn [axis_eqb axis_ix Z.eqb Pos.eqb]; rewrite ?O1, ?O2, ?T; split; reflexivity.
    + unfold quadratic_points. fold i j. destruct (_ && _); [|discriminate]. intros u w Eu a. injection Eu as Eu Ew. subst u w. unfold q2, q1, third.
      destruct a; unfold set_axis; cbn [axis_eqb axis_ix Z.eqb Pos.eqb]; rewrite ?O1; split; reflexivity.
  - exists n. intros f F0 pb Hf HF. unfold handle_spline. unfold bind at 1, get at 1. rewrite Nz. cbn [axis_eqb axis_ix Z.eqb Pos.eqb negb]. cbv zeta.
    change (SFeqb v (tenths 50)) with (is_cubic v). change (SFeqb v (tenths 51)) with (is_quadratic v).
    assert (Hk : negb (is_cubic v) && negb (is_quadratic v) = false) by (destruct (is_cubic v), (is_quadratic v); auto). rewrite Hk. clear Hk Hv.
    unfold bind at 1, get at 1. rewrite (bind_done _ _ _ _ _ _ _ (Hn' f F0 pb Hf HF)). cbv beta iota. unfold points. destruct (is_cubic v).
    + unfold cubic_points. fold i j p q. destruct p, q; cbn [negb andb orb]; try reflexivity; destruct i, j; cbn [xorb Bool.eqb andb orb]; try reflexivity;
      unfold bind, get, upd, ret; cbv beta iota; destruct (g_first_spline s); cbn [negb andb orb]; try reflexivity; rewrite emit_seen; unfold asked; cbv beta iota zeta;
      match goal with |- context [gc_reply c (?e :: ?ev)] => change (g_events (seen [e] (with_first (with_cp2 s o2) true))) with (e :: ev) end; destruct (r_ok _); reflexivity.
    + unfold quadratic_points. fold i j. change (f32_of_Z 0) with f0. replace (offset_by s "I" AX ws) with (o1 AX) by (now rewrite O1). replace (offset_by s "J" AY ws) with (o1 AY) by (now rewrite O1).
      destruct i, j; cbn [negb andb orb]; try reflexivity; destruct (SFeqb (o1 AX) f0 && SFeqb (o1 AY) f0); cbn [negb]; try reflexivity;
      unfold bind, get, upd, ret; cbv beta iota; rewrite emit_seen; unfold asked; cbv beta iota zeta;
      match goal with |- context [gc_reply c (?e :: ?ev)] => change (g_events (seen [e] (with_first s false))) with (e :: ev) end; destruct (r_ok _); reflexivity.
Qed.
(** A spline followed by another word *)
Lemma handle_spline_more : forall s line ws rest v l w r, ~ In NUL rest -> calm s -> words c s line ws rest -> only spline_letter ws -> word c s rest l w r -> spline_letter l = false ->
  exists n, forall f F pb, (n <= f)%nat -> (n <= F)%nat -> handle_spline c f (parse_pair c F pb) v line s = Done None (reported s).
Proof.
  intros s line ws rest v l w r Hn Hc W Ho Hw Hl.
  destruct (spline_over ws false (g_pos s) zero_axes zero_axes false false false false no_feedrate s Ho) as (t & o1 & o2 & E & _).
  destruct (args_over_end _ spline_step spline_letter spline_step_ok s line ws rest Hn W Ho (false, g_pos s, zero_axes, zero_axes, (false, false, false, false), no_feedrate) s (alike_refl s) Hc)
    as (acc' & s' & E' & _ & _ & H). rewrite E in E'. apply done_inj in E' as (-> & ->). destruct (H l w r Hw Hl) as (acc2 & n & E2 & H2).
  pose proof (spline_step_wrong _ _ _ _ _ _ (word_upper _ _ _ _ _ _ Hw) Hl E2) as Wr. destruct acc2 as [[[[[w2 t2] x1] x2] [[[i j] p] q]] f2]. cbn [fst] in Wr. subst w2.
  exists n. intros f F pb Hf HF. unfold handle_spline. unfold bind at 1, get at 1. destruct (negb (axis_eqb (g_normal s) AZ)); [reflexivity|]. cbv zeta. destruct (negb _ && negb _); [reflexivity|].
  unfold bind at 1, get at 1. rewrite (bind_done _ _ _ _ _ _ _ (H2 f F pb Hf HF)). reflexivity.
Qed.
End Curves.
