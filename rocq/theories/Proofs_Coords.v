(** Proofs about commands that only collect their words: G10 and G28. *)
From Coq Require Import SpecFloat.
From Verif Require Import Base Text Model_StringUtil Model_Float Model_Lexer Model_Axis Model_Number Model_Gcode
  Spec_Expr Proofs_Expr Spec_Line Proofs_Value Proofs_Total Spec_Words Proofs_Words Spec_Moves Proofs_Moves Spec_Params Proofs_Params.

Section Collect.
Variable c : gcfg.
(** A loop that collects without changing the state. *)
Lemma collect : forall A (step : A -> ascii -> fl -> G (bool * A)) (mine : ascii -> bool) (s0 : gst) (next : A -> ascii -> fl -> A),
  (forall acc l v, to_upper l = l -> step acc l v s0 = Done (mine l, if mine l then next acc l v else acc) s0) ->
  forall line ws rest acc, ~ In NUL rest -> words c s0 line ws rest -> only mine ws -> ends_at c s0 mine rest -> calm s0 ->
  exists n, forall k f pb, (n <= k)%nat -> (n <= f)%nat ->
    args k (parse_pair c f pb) step acc line s0 = Done (fold_left (fun acc w => next acc (fst w) (snd w)) ws acc, rest) s0.
Proof.
  intros A step mine s0 next St line ws rest acc Hn W Ho He Hc. revert acc. induction W as [line|line l v line1 ws rest Hw W IH]; intros acc.
  - destruct He as [He|(l & v & r & Hw & Hm)].
    + exists 1%nat. intros [|k] f pb Hk Hf; [lia|]. cbn [args]. now rewrite (bind_done _ _ _ _ _ _ _ (gp_end c s0 line He Hn Hc f pb Hf)).
    + destruct (gp_word c _ _ _ _ _ Hw Hc) as (n & H). exists (S n). intros [|k] f pb Hk Hf; [lia|].
      cbn [args]. rewrite (bind_done _ _ _ _ _ _ _ (H f pb ltac:(lia))). pose proof (St acc l v (word_upper _ _ _ _ _ _ Hw)) as E.
      rewrite Hm in E. rewrite (bind_done _ _ _ _ _ _ _ E). reflexivity.
  - inversion Ho as [|? ? Hl Ho']; subst. cbn [fst] in Hl. pose proof (St acc l v (word_upper _ _ _ _ _ _ Hw)) as E. rewrite Hl in E.
    destruct (IH Hn Ho' He (next acc l v)) as (n & H). destruct (gp_word c _ _ _ _ _ Hw Hc) as (n0 & H0). exists (S (n + n0)). intros [|k] f pb Hk Hf; [lia|].
    cbn [args fold_left fst snd]. rewrite (bind_done _ _ _ _ _ _ _ (H0 f pb ltac:(lia))), (bind_done _ _ _ _ _ _ _ E). apply H; lia.
Qed.

(** ** G28 *)
Definition flag_next (flags : axis -> bool) (l : ascii) (_ : fl) : axis -> bool :=
  match letter_axis l with Some a => set_axis flags a true | None => flags end.
Lemma flags_are : forall ws flags, Forall (fun w => to_upper (fst w) = fst w) ws ->
  forall a, fold_left (fun acc w => flag_next acc (fst w) (snd w)) ws flags a = flags a || mentioned (axis_letter a) ws.
Proof.
  induction ws as [|[l v] ws IH]; intros flags U a; [cbn [fold_left mentioned existsb]; now rewrite orb_false_r|].
  inversion U as [|? ? Hu U']; subst. cbn [fst] in Hu. cbn [fold_left fst snd]. rewrite IH by exact U'. rewrite mentioned_cons. unfold flag_next.
  destruct (letter_axis l) as [b|] eqn:E.
  - rewrite set_axis_at, (axis_letter_of l b Hu E), axis_letter_eq. destruct (axis_eqb b a); [cbn [orb]; now rewrite orb_true_r|reflexivity].
  - now rewrite (not_axis l a E).
Qed.

(** ** G10 *)
Definition g10_letter (l : ascii) : bool := is_axis_letter l || Ascii.eqb l "L" || Ascii.eqb l "P".
Definition g10_acc := (Z * Z * axes * (axis -> bool))%type.
Definition g10_next (u : fl) (acc : g10_acc) (l : ascii) (v : fl) : g10_acc :=
  let '(l_val, p_val, coords, have) := acc in
  if Ascii.eqb l "L" then (int_of c v, p_val, coords, have)
  else if Ascii.eqb l "P" then (l_val, int_of c v, coords, have)
  else match letter_axis l with
       | None => acc
       | Some a => (l_val, p_val, set_axis coords a (f32_mul v u), set_axis have a true)
       end.
Lemma g10_are : forall u ws lv pv coords have, Forall (fun w => to_upper (fst w) = fst w) ws ->
  exists coords' have', fold_left (fun acc w => g10_next u acc (fst w) (snd w)) ws (lv, pv, coords, have) =
    (match last_value "L" ws with Some v => int_of c v | None => lv end, match last_value "P" ws with Some v => int_of c v | None => pv end, coords', have') /\
    (forall a, coords' a = match last_value (axis_letter a) ws with Some v => f32_mul v u | None => coords a end) /\
    (forall a, have' a = have a || mentioned (axis_letter a) ws).
Proof.
  intros u. induction ws as [|[l v] ws IH]; intros lv pv coords have U.
  - exists coords, have. split; [reflexivity|]. split; [reflexivity|]. intros a. cbn [mentioned existsb]. now rewrite orb_false_r.
  - inversion U as [|? ? Hu U']; subst. cbn [fst] in Hu. cbn [fold_left fst snd]. unfold g10_next at 2.
    assert (LV : forall x, last_value x ((l, v) :: ws) = match last_value x ws with Some w => Some w | None => if Ascii.eqb l x then Some v else None end) by (intros; apply last_cons).
    destruct (Ascii.eqb_spec l "L") as [->|NL]; [|destruct (Ascii.eqb_spec l "P") as [->|NP]].
    + destruct (IH (int_of c v) pv coords have U') as (co & ha & E & H1 & H2). exists co, ha. split; [etransitivity; [exact E|]|split].
      * rewrite !LV. change (Ascii.eqb "L" "L") with true. change (Ascii.eqb "L" "P") with false. destruct (last_value "L" ws), (last_value "P" ws); reflexivity.
      * intros a. rewrite LV, (not_axis "L" a eq_refl), H1. now destruct (last_value (axis_letter a) ws).
      * intros a. now rewrite H2, mentioned_cons, (not_axis "L" a eq_refl).
    + destruct (IH lv (int_of c v) coords have U') as (co & ha & E & H1 & H2). exists co, ha. split; [etransitivity; [exact E|]|split].
      * rewrite !LV. change (Ascii.eqb "P" "P") with true. change (Ascii.eqb "P" "L") with false. destruct (last_value "L" ws), (last_value "P" ws); reflexivity.
      * intros a. rewrite LV, (not_axis "P" a eq_refl), H1. now destruct (last_value (axis_letter a) ws).
      * intros a. now rewrite H2, mentioned_cons, (not_axis "P" a eq_refl).
    + apply Ascii.eqb_neq in NL, NP. destruct (letter_axis l) as [b|] eqn:Eb.
      * destruct (IH lv pv (set_axis coords b (f32_mul v u)) (set_axis have b true) U') as (co & ha & E & H1 & H2). exists co, ha. split; [etransitivity; [exact E|]|split].
        -- rewrite !LV, NL, NP. destruct (last_value "L" ws), (last_value "P" ws); reflexivity.
        -- intros a. rewrite LV, H1, set_axis_at. destruct (last_value (axis_letter a) ws); [reflexivity|]. rewrite (axis_letter_of l b Hu Eb), axis_letter_eq. now destruct (axis_eqb b a).
        -- intros a. rewrite H2, mentioned_cons, set_axis_at, (axis_letter_of l b Hu Eb), axis_letter_eq. destruct (axis_eqb b a); [cbn [orb]; now rewrite orb_true_r|reflexivity].
      * destruct (IH lv pv coords have U') as (co & ha & E & H1 & H2). exists co, ha. split; [etransitivity; [exact E|]|split].
        -- rewrite !LV, NL, NP. destruct (last_value "L" ws), (last_value "P" ws); reflexivity.
        -- intros a. rewrite LV, (not_axis l a Eb), H1. now destruct (last_value (axis_letter a) ws).
        -- intros a. now rewrite H2, mentioned_cons, (not_axis l a Eb).
Qed.

(** The parameters of a coordinate system. *)
Lemma cs_number : forall i a, 0 <= i < 9 -> Z.abs (5221 + 20 * i + axis_ix a) <= 2 ^ 63 - 1 /\ 5221 + 20 * i + axis_ix a < 5400.
Proof. intros i a Hi. assert (0 <= axis_ix a <= 9) by (destruct a; cbn; lia). lia. Qed.
Lemma axis_ix_inj : forall a b, axis_ix a = axis_ix b -> a = b.
Proof. intros a b H. destruct a, b; cbn in H; congruence || lia. Qed.
Lemma store_cs : forall i (val : axes) (have : axis -> bool) (m : pmap) s, 0 <= i < 9 -> g_params s = Some m -> (forall a, f32_sub (g_cs s i a) (gc_origin c a) = val a) ->
  forall l, NoDup l -> exists m', each_axis (fun a => when (have a) (v <- get (fun s => f32_sub (g_cs s i a) (gc_origin c a)) ;; store_parameter (cs_param i a) v)%g) l s = Done tt (with_params s (Some m')) /\
    (forall a, In a l -> have a = true -> pm_find (cs_param i a) m' = Some (val a)) /\
    (forall k, (forall a, In a l -> have a = true -> k <> cs_param i a) -> pm_find k m' = pm_find k m).
Proof.
  intros i vl have m s Hi Hm Hv l. revert s m Hm Hv. induction l as [|a l IH]; intros s m Hm Hv Nd.
  - exists m. split; [|split; [intros a []|reflexivity]]. cbn [each_axis]. unfold ret. replace (with_params s (Some m)) with s; [reflexivity|]. rewrite <- Hm. now destruct s.
  - inversion Nd as [|? ? Hni Nd']; subst. cbn [each_axis]. destruct (have a) eqn:Ha.
    + assert (W : writable (cs_param i a)).
      { destruct (cs_number i a Hi). apply show_writable; [assumption|]. split; [|assumption]. destruct a; cbn; lia. }
      destruct (IH (with_params s (Some (pm_set (cs_param i a) (vl a) m))) (pm_set (cs_param i a) (vl a) m) eq_refl) as (m' & E & H1 & H2); [exact Hv|exact Nd'|].
      exists m'. split; [|split].
      * unfold when, bind at 1, bind at 1, get. rewrite (store_ok _ _ _ _ Hm W), Hv. assert (K : key (cs_param i a) = cs_param i a) by apply show_key. rewrite K. exact E.
      * intros b [<-|Hb] Hab; [|now apply H1]. rewrite H2; [apply find_set_same|]. intros b Hb Hab2 E2. apply show_inj in E2; [|apply cs_number, Hi..].
        assert (a = b) by (apply axis_ix_inj; lia). subst. contradiction.
      * intros k Hk. rewrite H2 by (intros b Hb; apply Hk; now right). apply find_set_other. destruct (text_eqb k (cs_param i a)) eqn:Ek; [|reflexivity].
        apply text_eqb_eq in Ek. exfalso. apply (Hk a); [now left|exact Ha|exact Ek].
    + destruct (IH s m Hm Hv Nd') as (m' & E & H1 & H2). exists m'. split; [exact E|]. split.
      * intros b [<-|Hb] Hab; [congruence|now apply H1].
      * intros k Hk. apply H2. intros b Hb. apply Hk. now right.
Qed.
End Collect.
