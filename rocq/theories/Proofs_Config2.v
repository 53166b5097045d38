(** The machine configuration: which setting reaches which field. *)
From Coq Require Import SpecFloat.
From Verif Require Import Text Lib_List Model_StringUtil Spec_Text Proofs_StringUtil Model_Float Model_Axis
  Model_Hardware Model_Machine Model_Config Spec_Config Proofs_Config.

Lemma text_eqb_eq : forall a b, text_eqb a b = true <-> a = b.
Proof.
  unfold text_eqb. induction a as [|x a IH]; intros [|y b]; cbn; split; intro H; try discriminate; auto.
  - apply andb_true_iff in H. destruct H as [H1 H2]. apply andb_true_iff in H2. destruct H2 as [H2 H3].
    apply Ascii.eqb_eq in H2. subst. f_equal. apply IH. now rewrite H1, H3.
  - injection H as <- <-. destruct (proj2 (IH a) eq_refl). rewrite Ascii.eqb_refl. cbn. reflexivity.
Qed.

Lemma text_eqb_neq : forall a b, text_eqb a b = false <-> a <> b.
Proof.
  intros. rewrite <- not_true_iff_false. rewrite text_eqb_eq. tauto.
Qed.

Section Machine.
Variable strtod : text -> option (fl * text).

Lemma axis_section_inj : forall a b, axis_section a = axis_section b -> a = b.
Proof. intros [] []; cbn; intro H; try reflexivity; discriminate H. Qed.

Lemma axis_section_not_general : forall a, axis_section a <> txt "general".
Proof. intros [] H; discriminate H. Qed.

(** A field [P] follows the settings with the [names] in [section]. *)
Definition follows {A} (P : mconf -> A) (change : text -> A -> A) (section : text) (names : list text) : Prop :=
  (forall c n v, P (fst (mc_general c n v)) =
     if list_eq_dec Ascii.ascii_dec (txt "general") section then
       if in_dec (list_eq_dec Ascii.ascii_dec) n names then change v (P c) else P c
     else P c) /\
  (forall c a n v, P (fst (mc_axis_setting strtod c a n v)) =
     if list_eq_dec Ascii.ascii_dec (axis_section a) section then
       if in_dec (list_eq_dec Ascii.ascii_dec) n names then change v (P c) else P c
     else P c).

(** What the reader knows about the section. *)
Definition in_section (r : mreader) (interested : bool) (section : text) : Prop :=
  if interested then
    mr_section r = section /\ (section = txt "general" \/ exists a, section = axis_section a /\ mr_axis r = Some a)
  else section <> txt "general" /\ forall a, section <> axis_section a.

Lemma upper_lower_letter : forall c a, to_upper (to_lower c) = axis_letter a -> to_lower c = to_lower (axis_letter a).
Proof.
  intros [[] [] [] [] [] [] [] []] []; vm_compute; intro H; try reflexivity; discriminate H.
Qed.

Lemma letter_axis_some : forall c a, letter_axis c = Some a -> to_upper c = axis_letter a.
Proof.
  unfold letter_axis. intros c a H. apply find_some in H. destruct H as [_ H]. apply Ascii.eqb_eq in H. auto.
Qed.

Lemma letter_axis_lower : forall a, letter_axis (to_lower (axis_letter a)) = Some a.
Proof. intros []; reflexivity. Qed.

Lemma seen_section : forall r n, let '(r', ans) := mc_seen_section r (lowered n) in
  mr_conf r' = mr_conf r /\ in_section r' ans (lowered n).
Proof.
  intros r n. unfold mc_seen_section.
  destruct (text_eqb (lowered n) (txt "general")) eqn:E.
  - apply text_eqb_eq in E. split; [reflexivity|]. cbn. auto.
  - apply text_eqb_neq in E.
    destruct n as [|c n]; cbn [lowered map] in *.
    + split; [reflexivity|]. cbn. split; [discriminate|]. intros [] D; discriminate D.
    + destruct (letter_axis (to_lower c)) as [a|] eqn:La.
      * destruct (text_eqb (map to_lower n) (txt "-axis")) eqn:Er.
        -- apply text_eqb_eq in Er. split; [reflexivity|]. cbn. split; [reflexivity|]. right. exists a. split; [|reflexivity].
           unfold axis_section. f_equal; auto. apply upper_lower_letter. now apply letter_axis_some.
        -- apply text_eqb_neq in Er. split; [reflexivity|]. cbn. split; [exact E|].
           intros b D. injection D as _ D. auto.
      * split; [reflexivity|]. cbn. split; [exact E|]. intros b D. injection D as D _.
        rewrite D, letter_axis_lower in La. discriminate.
Qed.

(** The items of real lines have lower case sections. *)
Definition lower_item (i : item) : Prop := match i with Section s => exists n, s = lowered n | _ => True end.

Lemma means_lower : forall l i, means l i -> lower_item i.
Proof. intros l i []; cbn; eauto. Qed.

Definition readable {A} (P : mconf -> A) change section names (sec n v : text) (old : A) : A :=
  if list_eq_dec Ascii.ascii_dec sec section then
    if in_dec (list_eq_dec Ascii.ascii_dec) n names then change v old else old
  else old.

Lemma seen_pair : forall A (P : mconf -> A) change section names r sec n v,
  follows P change section names -> in_section r true sec ->
  let r' := fst (mc_seen_pair strtod r n v) in
  P (mr_conf r') = readable P change section names sec n v (P (mr_conf r)) /\ in_section r' true sec.
Proof.
  intros A P change section names r sec n v [F1 F2] (E & H).
  unfold mc_seen_pair. destruct (text_eqb (mr_section r) (txt "general")) eqn:G.
  - apply text_eqb_eq in G. cbn. split.
    + rewrite F1. unfold readable. rewrite <- E, G. reflexivity.
    + split; auto.
  - apply text_eqb_neq in G. destruct H as [H|(a & H & Ha)]; [congruence|].
    rewrite Ha. cbn. split.
    + rewrite F2. unfold readable. rewrite H. reflexivity.
    + split; auto. right. exists a. auto.
Qed.

Lemma effect_cons : forall A (P : mconf -> A) change section names s n v l old,
  settings_effect change section names ((s, n, v) :: l) old = settings_effect change section names l (readable P change section names s n v old).
Proof. reflexivity. Qed.

Lemma follows_deliver : forall A (P : mconf -> A) change section names, follows P change section names ->
  (section = txt "general" \/ exists a, section = axis_section a) ->
  forall items k interested r sec, Forall lower_item items -> in_section r interested sec ->
  P (mr_conf (fst (deliver (mc_reader strtod) k items interested r))) =
  settings_effect change section names (settings sec items) (P (mr_conf r)).
Proof.
  intros A P change section names F Hsec. induction items as [|i items IH]; intros k interested r sec Hl Hin.
  - reflexivity.
  - inversion Hl as [|? ? Hi Hl']; subst. destruct i; cbn [deliver settings].
    + apply IH; auto.
    + destruct Hi as (n & ->). cbn [rd_section mc_reader].
      pose proof (seen_section r n) as SS. destruct (mc_seen_section r (lowered n)) as [r' ans].
      destruct SS as [E S]. rewrite (IH _ _ _ (lowered n)) by auto. now rewrite E.
    + cbn [fst rd_error mc_reader]. rewrite (IH _ _ _ []); auto.
      cbn. split; [discriminate|]. intros [] D; discriminate D.
    + rewrite (effect_cons A P). destruct interested.
      * cbn [rd_pair mc_reader]. destruct (seen_pair A P change section names r sec name value F Hin) as [E S].
        destruct (mc_seen_pair strtod r name value) as [r' ok]. cbn [fst] in E, S. rewrite <- E.
        destruct ok; [|cbn [fst rd_error mc_reader]]; apply IH; auto.
      * rewrite (IH _ _ _ sec) by auto. f_equal. unfold readable.
        destruct (list_eq_dec Ascii.ascii_dec sec section) as [->|]; auto.
        exfalso. destruct Hin as [H1 H2]. destruct Hsec as [H|(a & H)]; [auto|]. apply (H2 a H).
    + cbn [fst rd_error mc_reader]. apply IH; auto.
Qed.

Lemma follows_file : forall A (P : mconf -> A) change section names lines items c g,
  follows P change section names -> (section = txt "general" \/ exists a, section = axis_section a) ->
  Forall2 means lines items -> (forall l, In l lines -> ~ In LF l) ->
  P (fst (configure_from_file strtod (lf_lines lines) c g)) =
  settings_effect change section names (settings [] items) (P c).
Proof.
  intros A P change section names lines items c g F S H HLF.
  unfold configure_from_file.
  destruct (emit_lines _ (mc_reader strtod) lines items [] (mk_mreader c [] g) H HLF) as [[_ E]|[D _]]; [|congruence].
  rewrite app_nil_r in E. rewrite E.
  assert (Forall lower_item items) as L.
  { clear -H. induction H; constructor; auto. eapply means_lower; eauto. }
  pose proof (follows_deliver A P change section names F S items 1 false (mk_mreader c [] g) [] L) as K.
  destruct (deliver (mc_reader strtod) 1 items false (mk_mreader c [] g)) as [r ok]. cbn [fst mr_conf] in *.
  apply K. cbn. split; [discriminate|]. intros [] D; discriminate D.
Qed.

(** ** The fields *)
Definition reads {A} (read : text -> option A) : text -> A -> A :=
  fun v old => match read v with Some x => x | None => old end.

Ltac names :=
  repeat match goal with
  | |- context[text_eqb ?n ?t] =>
      let E := fresh "E" in
      destruct (text_eqb n t) eqn:E; [apply text_eqb_eq in E; subst n | apply text_eqb_neq in E]
  end.

Ltac not_in_names :=
  match goal with
  | |- context[in_dec ?d ?n ?l] =>
      destruct (in_dec d n l) as [In|]; [exfalso; cbn in In; repeat destruct In as [In|In]; subst; try congruence; try discriminate; contradiction|]
  end.

Lemma set_axis_get : forall A (r : axis -> A) a v b, set_axis r a v b = if axis_eqb b a then v else r b.
Proof. reflexivity. Qed.

Lemma axis_eqb_eq : forall a b, axis_eqb a b = true <-> a = b.
Proof. intros [] []; cbn; split; intro; try reflexivity; discriminate. Qed.

Definition expr_value (v : text) : option fl := fst (parse_float_expr strtod v).

Ltac in_names :=
  match goal with
  | |- context[in_dec ?d ?n ?l] => destruct (in_dec d n l) as [|No]; [|exfalso; apply No; cbn; tauto]
  end.

Lemma home_pos_case : forall c a v,
  (exists h, fst (mc_home_pos c a v) = with_axes c (mc_steps c) (mc_feed c) (mc_homefeed c) (mc_probefeed c) (mc_accel c) (mc_range c) h)
  \/ fst (mc_home_pos c a v) = c.
Proof.
  intros. unfold mc_home_pos. destruct (mc_home c a); cbn [fst]; auto.
  destruct (text_eqb (to_lower_text v) (txt "min")); [left; eexists; reflexivity|].
  destruct (text_eqb (to_lower_text v) (txt "max")); [left; eexists; reflexivity|]. now right.
Qed.

Ltac eq_axis_sections :=
  match goal with
  | |- context[list_eq_dec ?d (txt "general") (axis_section ?a)] =>
      destruct (list_eq_dec d (txt "general") (axis_section a)) as [Dg|_]; [symmetry in Dg; destruct (axis_section_not_general _ Dg)|]
  | |- context[list_eq_dec ?d (axis_section ?a) (txt "general")] =>
      destruct (list_eq_dec d (axis_section a) (txt "general")) as [Dg|_]; [destruct (axis_section_not_general _ Dg)|]
  end.

Ltac general_cases v :=
  unfold mc_general; names; cbn [orb fst]; auto;
  try (destruct (parse_bool v); reflexivity); try (destruct (parse_int v); reflexivity).

Ltac axis_field a :=
  split;
  [ intros c n v; eq_axis_sections; general_cases v
  | intros c b n v;
    destruct (list_eq_dec Ascii.ascii_dec (axis_section b) (axis_section a)) as [Ds|Ds];
    [ apply axis_section_inj in Ds; subst b; unfold mc_axis_setting; names; cbn [orb];
      first
      [ in_names; unfold reads, expr_value; destruct (parse_float_expr strtod v) as [[x|] ok]; cbn;
        [rewrite set_axis_get; rewrite (proj2 (axis_eqb_eq a a) eq_refl); reflexivity | reflexivity]
      | not_in_names; try (destruct (parse_float_expr strtod v) as [[x|] ok]; reflexivity);
        try reflexivity; destruct (home_pos_case c a v) as [(h & ->)| ->]; reflexivity ]
    | unfold mc_axis_setting; names; cbn [orb];
      try (destruct (parse_float_expr strtod v) as [[x|] ok]; cbn; auto; rewrite ?set_axis_get;
           destruct (axis_eqb a b) eqn:Q; auto; apply axis_eqb_eq in Q; subst; congruence);
      try reflexivity; destruct (home_pos_case c b v) as [(h & ->)| ->]; reflexivity ] ].

Lemma follows_steps : forall a, follows (fun c => mc_steps c a) (reads expr_value) (axis_section a) [txt "steps-per-mm"; txt "steps-per-degree"].
Proof. intro a. axis_field a. Qed.
Lemma follows_feed : forall a, follows (fun c => mc_feed c a) (reads expr_value) (axis_section a) [txt "max-feedrate"; txt "max-anglerate"].
Proof. intro a. axis_field a. Qed.
Lemma follows_homefeed : forall a, follows (fun c => mc_homefeed c a) (reads expr_value) (axis_section a) [txt "home-feedrate"].
Proof. intro a. axis_field a. Qed.
Lemma follows_probefeed : forall a, follows (fun c => mc_probefeed c a) (reads expr_value) (axis_section a) [txt "max-probe-feedrate"].
Proof. intro a. axis_field a. Qed.
Lemma follows_accel : forall a, follows (fun c => mc_accel c a) (reads expr_value) (axis_section a) [txt "max-acceleration"].
Proof. intro a. axis_field a. Qed.
Lemma follows_range : forall a, follows (fun c => mc_range c a) (reads expr_value) (axis_section a) [txt "range"].
Proof. intro a. axis_field a. Qed.

Lemma follows_home : forall a, follows (fun c => mc_home c a) first_home (axis_section a) [txt "home-pos"].
Proof.
  intro a. split.
  - intros c n v; eq_axis_sections; general_cases v.
  - intros c b n v.
    assert (mc_home (fst (mc_home_pos c b v)) a = if axis_eqb a b then first_home v (mc_home c a) else mc_home c a) as HP.
    { unfold mc_home_pos, first_home. destruct (axis_eqb a b) eqn:Q.
      - apply axis_eqb_eq in Q. subst b. destruct (mc_home c a) eqn:Hc; cbn [fst]; auto.
        change (to_lower_text v) with (lowered v).
        destruct (text_eqb (lowered v) (txt "min")) eqn:E1.
        + apply text_eqb_eq in E1. destruct (list_eq_dec Ascii.ascii_dec (lowered v) (txt "min")); [|contradiction].
          cbn. rewrite set_axis_get, (proj2 (axis_eqb_eq a a) eq_refl). reflexivity.
        + apply text_eqb_neq in E1. destruct (list_eq_dec Ascii.ascii_dec (lowered v) (txt "min")); [contradiction|].
          destruct (text_eqb (lowered v) (txt "max")) eqn:E2.
          * apply text_eqb_eq in E2. destruct (list_eq_dec Ascii.ascii_dec (lowered v) (txt "max")); [|contradiction].
            cbn. rewrite set_axis_get, (proj2 (axis_eqb_eq a a) eq_refl). reflexivity.
          * apply text_eqb_neq in E2. destruct (list_eq_dec Ascii.ascii_dec (lowered v) (txt "max")); [contradiction|]. exact Hc.
      - destruct (mc_home c b); cbn [fst]; auto.
        destruct (text_eqb (to_lower_text v) (txt "min")); [cbn; rewrite set_axis_get, Q; reflexivity|].
        destruct (text_eqb (to_lower_text v) (txt "max")); [cbn; rewrite set_axis_get, Q; reflexivity|]. reflexivity. }
    assert (n <> txt "home-pos" -> mc_home (fst (mc_axis_setting strtod c b n v)) a = mc_home c a) as NH.
    { intro N. unfold mc_axis_setting.
      destruct (parse_float_expr strtod v) as [[x|] ok];
      names; cbn [orb]; try reflexivity; contradiction. }
    assert (fst (mc_axis_setting strtod c b (txt "home-pos") v) = fst (mc_home_pos c b v)) as IH by reflexivity.
    destruct (list_eq_dec Ascii.ascii_dec n (txt "home-pos")) as [->|N].
    + rewrite IH, HP. in_names.
      destruct (list_eq_dec Ascii.ascii_dec (axis_section b) (axis_section a)) as [Ds|Ds].
      * apply axis_section_inj in Ds. subst b. now rewrite (proj2 (axis_eqb_eq a a) eq_refl).
      * destruct (axis_eqb a b) eqn:Q; auto. apply axis_eqb_eq in Q. subst. congruence.
    + rewrite NH by assumption.
      destruct (in_dec (list_eq_dec Ascii.ascii_dec) n [txt "home-pos"]) as [[H|[]]|]; [congruence|].
      now destruct (list_eq_dec Ascii.ascii_dec (axis_section b) (axis_section a)).
Qed.

Ltac general_field :=
  split;
  [ intros c n v;
    match goal with |- context[list_eq_dec ?d ?x ?y] => destruct (list_eq_dec d x y) as [_|Dg]; [|destruct Dg; reflexivity] end;
    unfold mc_general; names;
    first [ in_names; unfold reads; try reflexivity; first [destruct (parse_bool v); reflexivity | destruct (parse_int v); reflexivity]
          | not_in_names; try reflexivity; first [destruct (parse_bool v); reflexivity | destruct (parse_int v); reflexivity] ]
  | intros c b n v; eq_axis_sections; unfold mc_axis_setting; names; cbn [orb];
    try (destruct (parse_float_expr strtod v) as [[x|] ok]; reflexivity);
    try reflexivity; destruct (home_pos_case c b v) as [(h & ->)| ->]; reflexivity ].

Lemma follows_home_order : follows mc_home_order (reads Some) (txt "general") [txt "home-order"].
Proof. general_field. Qed.
Lemma follows_clamp : follows mc_clamp (reads Some) (txt "general") [txt "clamp-to-range"].
Proof. general_field. Qed.
Lemma follows_require_homing : follows mc_require_homing (reads parse_bool) (txt "general") [txt "require-homing"].
Proof. general_field. Qed.
Lemma follows_range_check : follows mc_range_check (reads parse_bool) (txt "general") [txt "range-check"].
Proof. general_field. Qed.
Lemma follows_synchronous : follows mc_synchronous (reads parse_bool) (txt "general") [txt "synchronous"].
Proof. general_field. Qed.
Lemma follows_enable_pause : follows mc_enable_pause (reads parse_bool) (txt "general") [txt "enable-pause"].
Proof. general_field. Qed.
Lemma follows_auto_motor : follows mc_auto_motor (reads parse_int) (txt "general") [txt "auto-motor-disable-seconds"].
Proof. general_field. Qed.
Lemma follows_auto_fan : follows mc_auto_fan (reads parse_int) (txt "general") [txt "auto-fan-disable-seconds"].
Proof. general_field. Qed.
Lemma follows_auto_fan_pwm : follows mc_auto_fan_pwm (reads parse_int) (txt "general") [txt "auto-fan-pwm"].
Proof. general_field. Qed.

(** ** An accepted configuration has no negative numbers *)
Lemma expr_ok : forall v x, parse_float_expr strtod v = (Some x, true) -> SFltb x (f32_of_Z 0) = false.
Proof.
  unfold parse_float_expr. intros v x H.
  destruct (parse_double strtod (S (S (2 * length (cstr v)))) (cstr v) (f64_of_Z 1)) as [[e [|? ?]]|]; try discriminate.
  injection H as <- H. apply negb_true_iff in H. exact H.
Qed.

Ltac negative_case v :=
  let PE := fresh "PE" in
  destruct (parse_float_expr strtod v) as [[x|] ok] eqn:PE; cbn [fst snd]; intro H;
  [ intros b; subst ok; apply expr_ok in PE; cbn; rewrite ?set_axis_get;
    match goal with |- context[axis_eqb b ?a] => destruct (axis_eqb b a) end; intuition
  | unfold parse_float_expr in PE;
    destruct (parse_double strtod (S (S (2 * length (cstr v)))) (cstr v) (f64_of_Z 1)) as [[? [|? ?]]|]; try discriminate;
    injection PE as <-; discriminate ].

Lemma axis_setting_no_negative : forall c a n v, no_negative c -> snd (mc_axis_setting strtod c a n v) = true ->
  no_negative (fst (mc_axis_setting strtod c a n v)).
Proof.
  intros c a n v N. unfold no_negative in N. unfold mc_axis_setting.
  destruct (text_eqb n (txt "steps-per-mm") || text_eqb n (txt "steps-per-degree")); [unfold no_negative; negative_case v; specialize (N b); tauto|].
  destruct (text_eqb n (txt "max-feedrate") || text_eqb n (txt "max-anglerate")); [unfold no_negative; negative_case v; specialize (N b); tauto|].
  destruct (text_eqb n (txt "home-feedrate")); [unfold no_negative; negative_case v; specialize (N b); tauto|].
  destruct (text_eqb n (txt "max-probe-feedrate")); [unfold no_negative; negative_case v; specialize (N b); tauto|].
  destruct (text_eqb n (txt "max-acceleration")); [unfold no_negative; negative_case v; specialize (N b); tauto|].
  destruct (text_eqb n (txt "range")); [unfold no_negative; negative_case v; specialize (N b); tauto|].
  destruct (text_eqb n (txt "home-pos")); [|discriminate].
  intros _. destruct (home_pos_case c a v) as [(h & ->)| ->]; exact N.
Qed.

Lemma general_no_negative : forall c n v, no_negative c -> no_negative (fst (mc_general c n v)).
Proof.
  intros c n v N. unfold mc_general.
  repeat match goal with
  | |- context[text_eqb n ?t] => destruct (text_eqb n t)
  | |- context[parse_bool v] => destruct (parse_bool v)
  | |- context[parse_int v] => destruct (parse_int v)
  end; exact N.
Qed.

Lemma deliver_no_negative : forall items k interested r, no_negative (mr_conf r) ->
  snd (deliver (mc_reader strtod) k items interested r) = true ->
  no_negative (mr_conf (fst (deliver (mc_reader strtod) k items interested r))).
Proof.
  induction items as [|i items IH]; intros k interested r N; [auto|].
  destruct i; cbn [deliver].
  - apply IH; auto.
  - cbn [rd_section mc_reader].
    assert (mr_conf (fst (mc_seen_section r name)) = mr_conf r) as E.
    { unfold mc_seen_section. destruct (text_eqb name (txt "general")); auto. destruct name; auto.
      destruct (letter_axis a); auto. destruct (text_eqb name (txt "-axis")); auto. }
    destruct (mc_seen_section r name) as [r' ans]. cbn [fst] in E. apply IH. now rewrite E.
  - discriminate.
  - destruct interested; [|apply IH; auto]. cbn [rd_pair mc_reader].
    assert (snd (mc_seen_pair strtod r name value) = true -> no_negative (mr_conf (fst (mc_seen_pair strtod r name value)))) as P.
    { unfold mc_seen_pair. destruct (text_eqb (mr_section r) (txt "general")); cbn [fst snd mr_conf].
      - intros _. now apply general_no_negative.
      - destruct (mr_axis r); [|auto]. cbn [fst snd mr_conf]. now apply axis_setting_no_negative. }
    destruct (mc_seen_pair strtod r name value) as [r' ok]. cbn [fst snd] in P.
    destruct ok; [|discriminate]. apply IH. auto.
  - discriminate.
Qed.
End Machine.
