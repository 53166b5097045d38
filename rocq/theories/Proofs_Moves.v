(** What single commands do. *)
From Coq Require Import SpecFloat.
From Verif Require Import Base Text Model_StringUtil Model_Float Model_Lexer Model_Axis Model_Gcode
  Spec_Expr Proofs_Expr Spec_Line Proofs_Value Proofs_Total Spec_Words Proofs_Words Spec_Moves.

Lemma seen_app : forall a b s, seen (a ++ b) s = seen b (seen a s).
Proof. intros a b s. unfold seen. rewrite rev_app_distr, <- app_assoc. reflexivity. Qed.
Lemma seen_nil : forall s, seen [] s = s.
Proof. intros []. reflexivity. Qed.
Lemma tell_seen : forall c e s, tell c e s = Done tt (seen [e] s).
Proof. reflexivity. Qed.
Lemma emit_seen : forall c e s, emit c e s = Done (gc_reply c (e :: g_events s)) (seen [e] s).
Proof. reflexivity. Qed.
Lemma alike_seen : forall es s, alike s (seen es s).
Proof. intros es s. repeat split. Qed.
Lemma calm_begun : forall s, calm s -> calm (begun s).
Proof. intros s H. unfold begun. destruct (g_running s); exact H. Qed.
Lemma alike_begun : forall s, alike s (begun s).
Proof. intros s. unfold begun. destruct (g_running s); repeat split. Qed.

Lemma SFeqb_same : forall x s m e, SFeqb x (S754_finite s m e) = true -> x = S754_finite s m e.
Proof.
  intros x s m e H. destruct x as [b|b| |b n d]; cbn in H; try (now destruct s); try (now destruct b); try discriminate.
  unfold SFeqb, SFcompare in H. destruct b, s; try discriminate.
  - destruct (Z.compare_spec d e); subst; try discriminate. change (CompOpp (Pos.compare_cont Eq n m)) with (CompOpp (Pos.compare n m)) in H.
    destruct (Pos.compare_spec n m); try discriminate. now subst.
  - destruct (Z.compare_spec d e); subst; try discriminate. change (Pos.compare_cont Eq n m) with (Pos.compare n m) in H.
    destruct (Pos.compare_spec n m); try discriminate. now subst.
Qed.
(** Two numbers with different integral parts are not equal. *)
Lemma eqb_not : forall x y j k c, match y with S754_finite _ _ _ => true | _ => false end = true -> to_int (fl_trunc y) = Some j ->
  int_of c x = k -> j <> k -> SFeqb x y = false.
Proof.
  intros x y j k c Hy Hj Hk N. destruct (SFeqb x y) eqn:E; [|reflexivity]. exfalso. apply N.
  destruct y; try discriminate. apply SFeqb_same in E. subst x. unfold int_of in Hk. rewrite Hj in Hk. exact Hk.
Qed.

Section Motion.
Variable c : gcfg.

Lemma goal_abs : forall s a v, abs_axis_pos c a v s = goal_of c s a v.
Proof. intros s a v. unfold abs_axis_pos, goal_of, length_of, reference, system_origin, active_offset, origin_of, offset_of. destruct a; cbn [is_rotational_axis]; destruct (g_origin s), (g_offset s); reflexivity. Qed.

(** ** Moves *)
Definition move_acc := (bool * fl * axes * (axis -> bool))%type.
Definition move_step : move_acc -> ascii -> fl -> G (bool * move_acc) :=
  fun '(any_change, feedrate, new_pos, affected) l v =>
    if Ascii.eqb l "F" then
      u <- get g_unit ;; ret (true, (true, feedrate_of (f32_mul v u), new_pos, affected))
    else if Ascii.eqb l "S" then
      tell c (ESpindleSpeed v) ;;; ret (true, (any_change, feedrate, new_pos, affected))
    else
      match letter_axis l with
      | None => ret (false, (any_change, feedrate, new_pos, affected))
      | Some a => p <- get (abs_axis_pos c a v) ;; ret (true, (true, feedrate, set_axis new_pos a p, set_axis affected a true))
      end.
Lemma move_step_ok : forall acc l v s, to_upper l = l -> exists acc' s', move_step acc l v s = Done (move_letter l, acc') s' /\
  alike s s' /\ (move_letter l = false -> acc' = acc /\ s' = s).
Proof.
  intros [[[any feed] np] aff] l v s U. unfold move_letter. rewrite (axis_upper l U). unfold move_step, bind, get, tell, emit, ret.
  destruct (Ascii.eqb_spec l "F") as [->|]; [eexists; eexists; split; [reflexivity|]; split; [apply alike_refl|discriminate]|].
  destruct (Ascii.eqb_spec l "S") as [->|]; [eexists; eexists; split; [reflexivity|]; split; [repeat split|discriminate]|].
  destruct (letter_axis l); (eexists; eexists; split; [reflexivity|]; split; [apply alike_refl|]); [discriminate|auto].
Qed.
Definition changes (l : ascii) : bool := is_axis_letter l || Ascii.eqb l "F".
Lemma over_step : forall A (step : A -> ascii -> fl -> G (bool * A)) acc l v ws s acc' s',
  step acc l v s = Done (true, acc') s' -> over step acc ((l, v) :: ws) s = over step acc' ws s'.
Proof. intros A step acc l v ws s acc' s' H. cbn [over]. now rewrite (bind_done _ _ _ _ _ _ _ H). Qed.
Lemma set_axis_at : forall A (r : axis -> A) a v b, set_axis r a v b = if axis_eqb a b then v else r b.
Proof. intros A r a v b. unfold set_axis, axis_eqb. now rewrite Z.eqb_sym. Qed.
Lemma axis_eqb_true : forall a b, axis_eqb a b = true -> a = b.
Proof. intros a b H. unfold axis_eqb in H. apply Z.eqb_eq in H. destruct a, b; cbn in H; congruence || lia. Qed.
Lemma not_axis : forall l a, letter_axis l = None -> Ascii.eqb l (axis_letter a) = false.
Proof. intros l a H. apply Ascii.eqb_neq. intros ->. rewrite letter_axis_letter in H. discriminate. Qed.
Lemma mentioned_cons : forall x v ws l, mentioned l ((x, v) :: ws) = Ascii.eqb x l || mentioned l ws.
Proof. reflexivity. Qed.

Lemma move_over : forall ws any feed np aff s, only move_letter ws -> Forall (fun w => to_upper (fst w) = fst w) ws ->
  exists np' aff', over move_step (any, feed, np, aff) ws s =
    Done (any || existsb (fun w => changes (fst w)) ws,
          match last_value "F" ws with Some v => f32_div (f32_mul v (g_unit s)) (f32_of_Z 60) | None => feed end, np', aff')
         (seen (spindle_speeds ws) s) /\
    (forall a, np' a = match last_value (axis_letter a) ws with Some v => goal_of c s a v | None => np a end) /\
    (forall a, aff' a = aff a || mentioned (axis_letter a) ws).
Proof.
  induction ws as [|[l v] ws IH]; intros any feed np aff s Ho U.
  - exists np, aff. cbn [over existsb last_value fold_left]. rewrite orb_false_r. unfold spindle_speeds. cbn [filter map]. rewrite seen_nil.
    repeat split. intros a. cbn [mentioned existsb]. now rewrite orb_false_r.
  - inversion Ho as [|? ? Hl Ho']; subst. inversion U as [|? ? Hu U']; subst. cbn [fst] in Hl, Hu. cbn [existsb fst].
    destruct (letter_axis l) as [a|] eqn:Ea.
    + assert (NF : Ascii.eqb l "F" = false) by (apply Ascii.eqb_neq; intros ->; discriminate).
      assert (NS : Ascii.eqb l "S" = false) by (apply Ascii.eqb_neq; intros ->; discriminate).
      edestruct (IH true) as (np' & aff' & E & H1 & H2); auto. exists np', aff'. split; [|split].
      * erewrite over_step by (unfold move_step; rewrite NF, NS, Ea; reflexivity). rewrite last_cons, NF.
        unfold changes at 1. rewrite (axis_upper l Hu), Ea. cbn [orb]. rewrite orb_true_r. cbn [orb] in E.
        unfold spindle_speeds. cbn [filter fst]. rewrite NS. fold (spindle_speeds ws).
        replace (match match last_value "F" ws with Some w => Some w | None => None end with Some w => _ | None => feed end)
          with (match last_value "F" ws with Some v0 => f32_div (f32_mul v0 (g_unit s)) (f32_of_Z 60) | None => feed end)
          by (destruct (last_value "F" ws); reflexivity). exact E.
      * intros b. rewrite last_cons, H1. destruct (last_value (axis_letter b) ws); [reflexivity|]. rewrite (axis_letter_of l a Hu Ea), axis_letter_eq, set_axis_at.
        destruct (axis_eqb a b) eqn:E2; [|reflexivity]. apply axis_eqb_true in E2 as ->. apply goal_abs.
      * intros b. rewrite H2, mentioned_cons, set_axis_at, (axis_letter_of l a Hu Ea), axis_letter_eq. destruct (axis_eqb a b); [cbn; now rewrite orb_true_r|]. reflexivity.
    + assert (X : forall a, match last_value (axis_letter a) ((l, v) :: ws) with Some w => goal_of c s a w | None => np a end =
                            match last_value (axis_letter a) ws with Some w => goal_of c s a w | None => np a end).
      { intros a. rewrite last_cons, (not_axis l a Ea). now destruct (last_value (axis_letter a) ws). }
      assert (Y : forall a, mentioned (axis_letter a) ((l, v) :: ws) = mentioned (axis_letter a) ws).
      { intros a. now rewrite mentioned_cons, (not_axis l a Ea). }
      unfold move_letter in Hl. unfold changes at 1. rewrite (axis_upper l Hu), Ea in *. cbn [orb] in Hl |- *.
      destruct (Ascii.eqb_spec l "F") as [->|NF].
      * edestruct (IH true) as (np' & aff' & E & H1 & H2); auto. exists np', aff'. split; [|split].
        -- erewrite over_step by reflexivity. rewrite last_cons, Ascii.eqb_refl. cbn [orb] in E |- *. rewrite orb_true_r.
           unfold spindle_speeds. cbn [filter fst]. change (Ascii.eqb "F" "S") with false. cbv iota. fold (spindle_speeds ws).
           etransitivity; [exact E|]. destruct (last_value "F" ws); reflexivity.
        -- intros a. now rewrite X, H1.
        -- intros a. now rewrite Y, H2.
      * destruct (Ascii.eqb_spec l "S") as [->|NS]; [|discriminate].
        edestruct (IH any feed np aff (seen [ESpindleSpeed v] s)) as (np' & aff' & E & H1 & H2); auto. exists np', aff'. split; [|split].
        -- erewrite over_step by reflexivity. rewrite last_cons. change (Ascii.eqb "S" "F") with false. cbv iota. cbn [orb].
           unfold spindle_speeds. cbn [filter fst]. rewrite Ascii.eqb_refl. cbn [map snd]. fold (spindle_speeds ws).
           change (ESpindleSpeed v :: spindle_speeds ws) with ([ESpindleSpeed v] ++ spindle_speeds ws). rewrite seen_app.
           change (with_events s (ESpindleSpeed v :: g_events s)) with (seen [ESpindleSpeed v] s).
           etransitivity; [exact E|]. destruct (last_value "F" ws); reflexivity.
        -- intros a. now rewrite X, H1.
        -- intros a. now rewrite Y, H2.
Qed.

Lemma words_upper : forall s line ws rest, words c s line ws rest -> Forall (fun w => to_upper (fst w) = fst w) ws.
Proof. intros s line ws rest H. induction H; constructor; auto. cbn [fst]. eapply word_upper; eauto. Qed.

Definition any_change (ws : list (ascii * fl)) : bool := existsb (fun w => is_axis_letter (fst w) || Ascii.eqb (fst w) "F") ws.
Lemma done_inj : forall A (a b : A) s t, Done a s = Done b t -> b = a /\ t = s.
Proof. intros A a b s t H. injection H. auto. Qed.
Lemma handle_move_words : forall s line ws rest force, ~ In NUL rest -> calm s -> words c s line ws rest -> only move_letter ws ->
  ends_at c s move_letter rest ->
  exists target affected, (forall a, target a = destination c s ws a) /\ (forall a, affected a = mentioned (axis_letter a) ws) /\
  exists n, forall f F pb, (n <= f)%nat -> (n <= F)%nat ->
    handle_move c f (parse_pair c F pb) line force s =
    Done (Some rest) (if force || any_change ws then moved c (g_modal s) (speed_of s ws) affected target (seen (spindle_speeds ws) s)
                      else seen (spindle_speeds ws) s).
Proof.
  intros s line ws rest force Hn Hc W Ho He.
  destruct (move_over ws force no_feedrate (g_pos s) (fun _ => false) s Ho (words_upper _ _ _ _ W)) as (np & aff & E & H1 & H2).
  destruct (args_over c _ move_step move_letter (move_step_ok) s line ws rest Hn W Ho He (force, no_feedrate, g_pos s, fun _ => false) s (alike_refl s) Hc)
    as (acc' & s' & E' & _ & n & H). rewrite E in E'. apply done_inj in E' as (-> & ->).
  exists np, aff. split; [exact H1|]. split; [exact H2|]. exists n. intros f F pb Hf HF.
  unfold handle_move. unfold bind at 1, get at 1. rewrite (bind_done _ _ _ _ _ _ _ (H f F pb Hf HF)).
  change (existsb (fun w => changes (fst w)) ws) with (any_change ws).
  destruct (force || any_change ws); [|reflexivity]. cbv beta iota. rewrite (bind_done _ _ _ _ _ _ _ (emit_seen c _ _)). cbv beta iota zeta.
  unfold bind at 1, get at 1. rewrite (bind_done _ _ _ _ _ _ _ (emit_seen c _ _)). unfold moved. cbv zeta.
  change (g_modal (seen [EClamp aff np] (seen (spindle_speeds ws) s))) with (g_modal s).
  unfold speed_of. rewrite minus_one. change (SFopp f1) with no_feedrate.
  set (e := EMove _ _ _). set (s1 := seen [EClamp aff np] (seen (spindle_speeds ws) s)).
  change (g_events (seen [e] s1)) with (e :: g_events s1).
  change (g_events s1) with (EClamp aff np :: g_events (seen (spindle_speeds ws) s)) in e.
  change (g_events s1) with (EClamp aff np :: g_events (seen (spindle_speeds ws) s)). fold e.
  destruct (r_ok _); reflexivity.
Qed.

(** ** Commands that set a register by axis words *)
Definition register_step (ok : axis -> bool) (put : gst -> axes -> gst) (now : gst -> axes) (value : gst -> axis -> fl -> fl) : unit -> ascii -> fl -> G (bool * unit) :=
  fun _ l v => match letter_axis l with
               | None => ret (false, tt)
               | Some a => when (ok a) (upd (fun s => put s (set_axis (now s) a (value s a v)))) ;;; ret (true, tt)
               end.
Lemma register_over : forall (ok : axis -> bool) (put : gst -> axes -> gst) (now : gst -> axes) (value : gst -> axis -> fl -> fl),
  (forall s x, now (put s x) = x) -> (forall s, put s (now s) = s) -> (forall s x y, put (put s x) y = put s y) ->
  (forall s x a v, value (put s x) a v = value s a v) ->
  forall ws s, only is_axis_letter ws -> Forall (fun w => to_upper (fst w) = fst w) ws ->
  exists r, over (register_step ok put now value) tt ws s = Done tt (put s r) /\
    (forall a, r a = match last_value (axis_letter a) ws with Some v => if ok a then value s a v else now s a | None => now s a end).
Proof.
  intros ok put now value H1 H2 H3 H4. induction ws as [|[l v] ws IH]; intros s Ho U.
  - exists (now s). cbn [over]. rewrite H2. split; reflexivity.
  - inversion Ho as [|? ? Hl Ho']; subst. inversion U as [|? ? Hu U']; subst. cbn [fst] in Hl, Hu.
    rewrite (axis_upper l Hu) in Hl. destruct (letter_axis l) as [a|] eqn:Ea; [|discriminate].
    assert (La := axis_letter_of l a Hu Ea). subst l. destruct (ok a) eqn:Ok.
    + erewrite over_step by (unfold register_step; rewrite Ea; unfold when; rewrite Ok; reflexivity).
      destruct (IH (put s (set_axis (now s) a (value s a v))) Ho' U') as (r & E & H). exists r. split; [rewrite E, H3; reflexivity|].
      intros b. rewrite last_cons, H, H1. destruct (last_value (axis_letter b) ws); rewrite ?H4.
      * destruct (ok b) eqn:Ob; [reflexivity|]. rewrite set_axis_at. destruct (axis_eqb a b) eqn:E2; [|reflexivity]. apply axis_eqb_true in E2 as ->. congruence.
      * rewrite axis_letter_eq, set_axis_at. destruct (axis_eqb a b) eqn:E2; [|reflexivity]. apply axis_eqb_true in E2 as ->. now rewrite Ok.
    + erewrite over_step by (unfold register_step; rewrite Ea; unfold when; rewrite Ok; reflexivity).
      destruct (IH s Ho' U') as (r & E & H). exists r. split; [exact E|].
      intros b. rewrite last_cons, H. destruct (last_value (axis_letter b) ws); [reflexivity|].
      rewrite axis_letter_eq. destruct (axis_eqb a b) eqn:E2; [|reflexivity]. apply axis_eqb_true in E2 as ->. now rewrite Ok.
Qed.
Lemma ends_alike : forall s s' mine rest, alike s s' -> ends_at c s mine rest -> ends_at c s' mine rest.
Proof.
  intros s s' mine rest A [H|(l & v & r & H1 & H2)]; [now left|]. right. exists l, v, r. split; [|exact H2]. eapply word_alike; eauto.
Qed.
Lemma register_args : forall (ok : axis -> bool) (put : gst -> axes -> gst) (now : gst -> axes) (value : gst -> axis -> fl -> fl),
  (forall s x, now (put s x) = x) -> (forall s, put s (now s) = s) -> (forall s x y, put (put s x) y = put s y) ->
  (forall s x a v, value (put s x) a v = value s a v) -> (forall s x, alike s (put s x)) ->
  forall s line ws rest, ~ In NUL rest -> calm s -> words c s line ws rest -> only is_axis_letter ws -> ends_at c s is_axis_letter rest ->
  exists r, (forall a, r a = match last_value (axis_letter a) ws with Some v => if ok a then value s a v else now s a | None => now s a end) /\
    exists n, forall k f pb, (n <= k)%nat -> (n <= f)%nat ->
      args k (parse_pair c f pb) (register_step ok put now value) tt line s = Done (tt, rest) (put s r).
Proof.
  intros ok put now value H1 H2 H3 H4 H5 s line ws rest Hn Hc W Ho He.
  destruct (register_over ok put now value H1 H2 H3 H4 ws s Ho (words_upper _ _ _ _ W)) as (r & E & H).
  destruct (args_over c unit (register_step ok put now value) is_axis_letter) with (s0 := s) (line := line) (ws := ws) (rest := rest) (acc := tt) (s := s)
    as (acc' & s' & E' & _ & n & Hargs); auto.
  - intros [] l v s1 U. unfold register_step. rewrite (axis_upper l U). destruct (letter_axis l) as [a|]; [unfold when; destruct (ok a)|]; eexists; eexists; (split; [reflexivity|]).
    + split; [apply H5|discriminate].
    + split; [apply alike_refl|discriminate].
    + split; [apply alike_refl|auto].
  - apply alike_refl.
  - rewrite E in E'. apply done_inj in E' as (-> & ->). exists r. split; [exact H|]. exists n. exact Hargs.
Qed.
End Motion.
