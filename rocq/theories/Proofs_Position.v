(** Reported position (C35) and its relation to the emitted pulses. *)
From Verif Require Import Base Model_MotorOps Model_Pru Spec_Motion Proofs_MotorOps Proofs_Pru.

(** *** Arithmetic of one entry *)

Definition remaining (f loops : Z) : Z := (loops / 2 * f + (2 ^ 31 - 2)) / (2 ^ 31 - 1).

Lemma reported_remaining pi loops :
  0 <= pi_fraction pi < 2 ^ 31 -> 0 <= loops < 2 ^ 24 ->
  reported_position pi loops = pi_position pi - pi_sign pi * remaining (pi_fraction pi) loops.
Proof.
  intros Hf Hl. unfold reported_position, remaining. change LOOPS_PER_STEP with 2.
  rewrite max_fraction_val. unfold u64.
  assert (H2 : 0 <= loops / 2 < 2 ^ 23).
  { split; [apply Z.div_pos; lia|apply Z.div_lt_upper_bound; lia]. }
  rewrite (Z.mod_small (loops / 2 * pi_fraction pi)) by nia.
  replace (2 ^ 31 - 1 - 1) with (2 ^ 31 - 2) by lia.
  rewrite Z.mod_small by nia. reflexivity.
Qed.

Lemma remaining_0 f : remaining f 0 = 0.
Proof. unfold remaining. change (0 / 2) with 0. rewrite Z.mul_0_l. reflexivity. Qed.

Lemma remaining_1 f : remaining f 1 = 0.
Proof. unfold remaining. change (1 / 2) with 0. rewrite Z.mul_0_l. reflexivity. Qed.

Lemma remaining_mono f a b : 0 <= f -> a <= b -> remaining f a <= remaining f b.
Proof.
  intros Hf Hab. unfold remaining. apply Z.div_le_mono; [lia|].
  assert (a / 2 <= b / 2) by (apply Z.div_le_mono; lia). nia.
Qed.

Lemma remaining_nonneg f a : 0 <= f -> 0 <= a -> 0 <= remaining f a.
Proof. intros. rewrite <- (remaining_0 f). apply remaining_mono; lia. Qed.

Lemma remaining_full s D : Z.abs s <= D -> 1 <= D <= 32767 -> remaining (fraction_of s D) (2 * D) = Z.abs s.
Proof.
  intros Hs HD. assert (HM : INT_MAX = 2147483647) by reflexivity.
  destruct (fraction_exact s D Hs ltac:(lia)) as [E B].
  unfold remaining. replace (2 * D / 2) with D by (rewrite Z.mul_comm, Z.div_mul; lia).
  pose proof (Z.div_mod (Z.abs s * (2 ^ 31 - 1)) D ltac:(lia)) as E1.
  pose proof (Z.mod_pos_bound (Z.abs s * (2 ^ 31 - 1)) D ltac:(lia)) as B1.
  rewrite <- E in E1. set (f := fraction_of s D) in *. set (r := (Z.abs s * (2 ^ 31 - 1)) mod D) in *.
  symmetry. apply Z.div_unique with (r := 2 ^ 31 - 2 - r); [left; lia|lia].
Qed.

(** *** Reported progress against emitted pulses *)

Lemma progress_close s D k : Z.abs s <= D -> 1 <= D <= 32767 -> 0 <= k <= 2 * D ->
  let f := fraction_of s D in
  let emitted := (k * f / 2 ^ 31 + 1) / 2 in
  let reported := Z.abs s - remaining f (2 * D - k) in
  -1 <= reported - emitted <= 1.
Proof.
  intros Hs HD Hk f emitted reported. assert (HM : INT_MAX = 2147483647) by reflexivity.
  destruct (fraction_exact s D Hs ltac:(lia)) as [E B]. fold f in E, B.
  pose proof (Z.div_mod (Z.abs s * (2 ^ 31 - 1)) D ltac:(lia)) as E1.
  pose proof (Z.mod_pos_bound (Z.abs s * (2 ^ 31 - 1)) D ltac:(lia)) as B1.
  rewrite <- E in E1. set (r := (Z.abs s * (2 ^ 31 - 1)) mod D) in *. clearbody r. clear E.
  unfold reported, remaining.
  pose proof (Z.div_mod (2 * D - k) 2 ltac:(lia)) as Eh.
  pose proof (Z.mod_pos_bound (2 * D - k) 2 ltac:(lia)) as Bh.
  set (h := (2 * D - k) / 2) in *. set (b := (2 * D - k) mod 2) in *. clearbody h b.
  pose proof (Z.div_mod (h * f + (2 ^ 31 - 2)) (2 ^ 31 - 1) ltac:(lia)) as ER.
  pose proof (Z.mod_pos_bound (h * f + (2 ^ 31 - 2)) (2 ^ 31 - 1) ltac:(lia)) as BR.
  set (R := (h * f + (2 ^ 31 - 2)) / (2 ^ 31 - 1)) in *.
  set (rr := (h * f + (2 ^ 31 - 2)) mod (2 ^ 31 - 1)) in *. clearbody R rr.
  unfold emitted.
  pose proof (Z.div_mod (k * f) (2 ^ 31) ltac:(lia)) as Ea.
  pose proof (Z.mod_pos_bound (k * f) (2 ^ 31) ltac:(lia)) as Ba.
  set (a := k * f / 2 ^ 31) in *. set (ra := (k * f) mod 2 ^ 31) in *. clearbody a ra.
  pose proof (Z.div_mod (a + 1) 2 ltac:(lia)) as Ee.
  pose proof (Z.mod_pos_bound (a + 1) 2 ltac:(lia)) as Be.
  set (e := (a + 1) / 2) in *. set (re := (a + 1) mod 2) in *. clearbody e re.
  assert (Hkf : k * f = 2 * (D * f) - 2 * (h * f) - b * f) by nia.
  assert (Hbf : 0 <= b * f <= f) by nia.
  assert (Hkb : 0 <= k * f <= 65534 * 2 ^ 31) by nia.
  set (hf := h * f) in *. set (kf := k * f) in *. set (bf := b * f) in *. set (Df := D * f) in *.
  clearbody hf kf bf Df f. lia.
Qed.

(** *** Tracking *)

(** [entry_for flip h s P]: shadow element [h] describes segment [s] ending at
    position [P]. *)
Definition entry_for (flip : motor -> bool) (h : history) (s : motion_segment) (P : mreg) : Prop :=
  h_aux h = ms_aux s /\
  forall m, pi_position (h_pos h m) = P m /\
    0 <= pi_fraction (h_pos h m) < 2 ^ 31 /\
    (seg_loops s <> 0 ->
       pi_fraction (h_pos h m) = ms_fractions s m /\
       pi_sign (h_pos h m) = (if seg_motion flip s m <? 0 then -1 else 1)).

Fixpoint tracks (flip : motor -> bool) (p0 : mreg) (segs : list motion_segment) (hs : list history) {struct hs} : Prop :=
  match hs with
  | [] => True
  | h :: hs' =>
      match segs with
      | [] => hs' = [] /\ forall m, pi_position (h_pos h m) = p0 m /\ 0 <= pi_fraction (h_pos h m) < 2 ^ 31
      | s :: older => entry_for flip h s (fun m => p0 m + total_motion flip segs m) /\ tracks flip p0 older hs'
      end
  end.

Lemma tracks_firstn flip p0 n : forall segs hs, tracks flip p0 segs hs -> tracks flip p0 segs (firstn n hs).
Proof.
  induction n as [|n IH]; intros segs hs H; [exact I|]. destruct hs as [|h hs]; [exact I|].
  cbn [firstn]. destruct segs as [|s older]; cbn [tracks] in *.
  - destruct H as [-> H]. split; [now destruct n|exact H].
  - destruct H as [He Ht]. split; [exact He|]. apply IH, Ht.
Qed.

Lemma tracks_front flip p0 segs h hs m : tracks flip p0 segs (h :: hs) ->
  pi_position (h_pos h m) = p0 m + total_motion flip segs m /\ 0 <= pi_fraction (h_pos h m) < 2 ^ 31.
Proof.
  destruct segs as [|s older]; cbn [tracks].
  - intros [_ H]. unfold total_motion. cbn [map zsum]. destruct (H m). split; lia.
  - intros [[_ H] _]. destruct (H m) as (-> & Hf & _). split; [reflexivity|exact Hf].
Qed.

Lemma total_motion_cons flip s l m : total_motion flip (s :: l) m = seg_motion flip s m + total_motion flip l m.
Proof. reflexivity. Qed.

Lemma enqueue_internal_tracks {S} {B} flip (st st' : mops B) (p : linear_segment S) D ok p0 segs :
  enqueue_internal flip st p D = Ok (st', ok) ->
  D = get_defining_axis_steps (ls_steps p) -> 1 <= D <= 32767 ->
  tracks flip p0 segs (mo_shadow st) ->
  exists seg, mo_sent st' = mo_sent st ++ [(seg, ok)] /\ seg_describes flip seg (ls_steps p) /\
    tracks flip p0 (seg :: segs) (mo_shadow st') /\ length (mo_shadow st') = Datatypes.S (length (mo_shadow st)).
Proof.
  intros E HD HB Ht.
  destruct (enqueue_internal_spec flip st st' p D ok E HD HB) as (seg & Hs & Hdesc & Ha & Hne & h & Hsh & Hha & Hh).
  exists seg. split; [exact Hs|]. split; [exact Hdesc|].
  rewrite Hsh. split; [|reflexivity]. cbn [tracks].
  split; [|exact Ht]. split; [congruence|]. intros m.
  destruct (Hh m) as (H1 & H2 & H3). destruct Hdesc as (Hfit & Hmot & _).
  split; [|split].
  - rewrite H1, total_motion_cons, Hmot. destruct (mo_shadow st) as [|h0 q] eqn:Eq; [congruence|].
    cbn [front_pos]. destruct (tracks_front _ _ _ _ _ m Ht) as [-> _]. lia.
  - rewrite H2. apply Hfit.
  - intros _. split; [exact H2|]. now rewrite H3, Hmot.
Qed.

Lemma divide_loop_tracks {S : speed_model} {B : backend} flip (orig : linear_segment S) D n :
  D = get_defining_axis_steps (ls_steps orig) -> MAX_STEPS_PER_SEGMENT < D <= INT_MAX ->
  forall d v (st st' : mops B) ret ok p0 segs,
  divide_loop flip orig D (divisions_of D) n d v st ret = Ok (st', ok) ->
  tracks flip p0 segs (mo_shadow st) ->
  exists l, mo_sent st' = mo_sent st ++ l /\
    tracks flip p0 (rev (map fst l) ++ segs) (mo_shadow st') /\
    (length (mo_shadow st') = length l + length (mo_shadow st))%nat.
Proof.
  intros HD HB.
  assert (HM : INT_MAX = 2147483647) by reflexivity.
  assert (HX : MAX_STEPS_PER_SEGMENT = 32767) by reflexivity.
  induction n as [|n IH]; intros d v st st' ret ok p0 segs E Ht.
  - cbn in E. injection E as <- <-. exists []. rewrite app_nil_r. auto.
  - cbn [divide_loop] in E.
    set (steps := piece_steps (ls_steps orig) (divisions_of D) d) in *.
    set (ds := get_defining_axis_steps steps) in *.
    set (v1 := piece_speed S (ls_v0 orig) (ls_v1 orig) D v ds) in *.
    set (out := {| ls_v0 := v; ls_v1 := v1; ls_aux := ls_aux orig; ls_steps := steps |}) in *.
    destruct (enqueue_internal flip st out ds) as [[st1 ok1]|] eqn:Ei; [|discriminate]. cbn [obind] in E.
    assert (Hds : 1 <= ds <= 32767).
    { split.
      - destruct (defining_attained (ls_steps orig)) as [m Hm].
        transitivity (Z.abs (steps m)); [|apply defining_ge].
        unfold steps, piece_steps. apply piece_nonzero; [rewrite HD; exact Hm|lia].
      - apply defining_le. intros m. unfold steps, piece_steps. rewrite <- HX. apply piece_bound.
        split; [rewrite HD; apply defining_ge|lia]. }
    destruct (enqueue_internal_tracks flip st st1 out ds ok1 p0 segs Ei eq_refl Hds Ht)
      as (seg & Hs & _ & Ht1 & Hlen1).
    destruct ok1.
    + destruct (IH _ _ _ _ _ _ _ _ E Ht1) as (l & Hl & Htl & Hlen).
      exists ((seg, true) :: l). split; [rewrite Hl, Hs, <- app_assoc; reflexivity|].
      split.
      * cbn [map fst rev]. rewrite <- app_assoc. exact Htl.
      * cbn. lia.
    + injection E as <- <-. exists [(seg, false)]. split; [exact Hs|]. split; [exact Ht1|]. cbn. lia.
Qed.

Definition pending_of {B} (st : mops B) : Z := fst (b_pending B (mo_backend st)).
Definition keep_of {B} (st : mops B) : nat := Z.to_nat (if 0 <? pending_of st then pending_of st else 1).

Lemma shrink_shadow {B} (st : mops B) : (keep_of st <= length (mo_shadow st))%nat ->
  mo_shadow (shrink st) = firstn (keep_of st) (mo_shadow st) /\ length (mo_shadow (shrink st)) = keep_of st.
Proof.
  intros H. unfold shrink. cbn [mo_shadow]. fold (pending_of st). fold (keep_of st).
  unfold resize. replace (keep_of st - length (mo_shadow st))%nat with O by lia.
  cbn [repeat]. rewrite app_nil_r. split; [reflexivity|]. now apply firstn_length_le.
Qed.

Lemma mops_enqueue_tracks {S} {B} flip (st st' : mops B) (req : linear_segment S) ok p0 segs :
  (forall m, is_abs_int (ls_steps req m)) ->
  mops_enqueue flip st req = Ok (st', ok) ->
  tracks flip p0 segs (mo_shadow st) ->
  exists l, mo_sent st' = mo_sent st ++ l /\
    ((keep_of st' <= length l + length (mo_shadow st))%nat ->
     tracks flip p0 (rev (map fst l) ++ segs) (mo_shadow st') /\ length (mo_shadow st') = keep_of st').
Proof.
  intros Hint E Ht. unfold mops_enqueue in E.
  set (D := get_defining_axis_steps (ls_steps req)) in *.
  assert (HM : INT_MAX = 2147483647) by reflexivity.
  assert (HX : MAX_STEPS_PER_SEGMENT = 32767) by reflexivity.
  assert (HDle : D <= INT_MAX).
  { apply defining_le. intros m. specialize (Hint m). unfold is_abs_int in Hint. lia. }
  pose proof (defining_nonneg (ls_steps req)) as HD0. fold D in HD0.
  assert (Hsh : forall st1 l, mo_sent st1 = mo_sent st ++ l ->
     tracks flip p0 (rev (map fst l) ++ segs) (mo_shadow st1) ->
     (length (mo_shadow st1) = length l + length (mo_shadow st))%nat -> shrink st1 = st' ->
     mo_sent st' = mo_sent st ++ l /\
    ((keep_of st' <= length l + length (mo_shadow st))%nat ->
     tracks flip p0 (rev (map fst l) ++ segs) (mo_shadow st') /\ length (mo_shadow st') = keep_of st')).
  { intros st1 l Hs1 Ht1 Hl1 <-. split; [exact Hs1|]. intros Hk.
    change (keep_of (shrink st1)) with (keep_of st1) in *.
    destruct (shrink_shadow st1 ltac:(lia)) as [-> Hl2]. split; [apply tracks_firstn, Ht1|].
    rewrite firstn_length_le by lia. reflexivity. }
  destruct (D =? 0) eqn:EZ.
  - assert (D = 0) as HDz by lia.
    destruct (shadow_front (mo_shadow st)) as [prev|] eqn:Ef; [|discriminate]. cbn [obind] in E.
    match type of E with context [b_enqueue B _ ?e] => set (emp := e) in * end.
    destruct (b_enqueue B (mo_backend st) emp) as [b' ok'] eqn:Eb.
    cbn [obind] in E. injection E as Es <-.
    unfold shadow_front in Ef. destruct (mo_shadow st) as [|h q] eqn:Eq; [discriminate|]. injection Ef as ->.
    exists [(emp, ok')]. eapply Hsh; [| | |exact Es]; [reflexivity| |reflexivity].
    cbn [map fst rev app tracks mo_shadow]. split; [|exact Ht]. split; [reflexivity|].
    intros m. cbn [h_pos]. destruct (tracks_front _ _ _ _ _ m Ht) as [-> Hf].
    assert (Hz : seg_motion flip emp m = 0).
    { unfold seg_motion, emp, seg_loops. cbn. now destruct (xorb _ _). }
    rewrite total_motion_cons, Hz. split; [lia|]. split; [exact Hf|].
    intros Hc. exfalso. now apply Hc.
  - destruct (MAX_STEPS_PER_SEGMENT <? D) eqn:EM.
    + destruct (divide_loop flip req D (divisions_of D) (Z.to_nat (divisions_of D)) 0 (ls_v0 req) st false) as [[st1 ok1]|] eqn:Ed; [|discriminate].
      cbn [obind] in E. injection E as Es <-.
      destruct (divide_loop_tracks flip req D (Z.to_nat (divisions_of D)) eq_refl ltac:(lia) _ _ _ _ _ _ p0 segs Ed Ht)
        as (l & Hl & Ht1 & Hlen).
      exists l. eapply Hsh; eassumption.
    + destruct (enqueue_internal flip st req D) as [[st1 ok1]|] eqn:Ei; [|discriminate].
      cbn [obind] in E. injection E as Es <-.
      destruct (enqueue_internal_tracks flip st st1 req D ok1 p0 segs Ei eq_refl ltac:(lia) Ht)
        as (seg & Hs & _ & Ht1 & Hlen1).
      exists [(seg, ok1)]. eapply Hsh; [exact Hs|exact Ht1|exact Hlen1|exact Es].
Qed.

Lemma tracks_nth flip p0 : forall segs hs n h, tracks flip p0 segs hs -> nth_error hs n = Some h ->
  (exists s, nth_error segs n = Some s /\
     entry_for flip h s (fun m => p0 m + total_motion flip (skipn n segs) m)) \/
  (n = length segs /\ forall m, pi_position (h_pos h m) = p0 m /\ 0 <= pi_fraction (h_pos h m) < 2 ^ 31).
Proof.
  intros segs hs. revert segs. induction hs as [|h0 hs IH]; intros segs n h Ht Hn; [now destruct n|].
  destruct segs as [|s older]; cbn [tracks] in Ht.
  - destruct Ht as [-> H]. destruct n; cbn in Hn; [|now destruct n]. injection Hn as <-. right. auto.
  - destruct Ht as [He Ht]. destruct n as [|n]; cbn [nth_error skipn] in *.
    + injection Hn as <-. left. exists s. auto.
    + destruct (IH older n h Ht Hn) as [H|[-> H]]; [left; exact H|right; auto].
Qed.

Lemma shadow_back_nth q n : length q = S n -> exists h, shadow_back q = Ok h /\ nth_error q n = Some h.
Proof.
  intros H. destruct q as [|h q]; [discriminate|]. cbn [shadow_back]. eexists. split; [reflexivity|].
  cbn in H. injection H as H. revert h n H. induction q as [|a q IH]; intros h n H.
  - cbn in H. subst n. reflexivity.
  - destruct n; [discriminate|]. cbn in H. injection H as H. cbn [nth_error].
    destruct q as [|b q]; [cbn in *; subst n; reflexivity|].
    change (last (a :: b :: q) h) with (last (b :: q) h).
    assert (forall d d', last (b :: q) d = last (b :: q) d') as Hd.
    { clear. revert b. induction q as [|c q IH]; intros b d d'; [reflexivity|]. cbn [last]. apply IH. }
    rewrite (Hd h a). apply IH. exact H.
Qed.

(** *** Histories *)

(** A backend behind the queue never has more segments pending than it was given:
    what was pending before (at least the one whose end position we rest at) plus
    the new ones. Between calls it may only consume. *)
Inductive mops_history {S : speed_model} {B : backend} (flip : motor -> bool)
    : mops B -> mreg -> list motion_segment -> Prop :=
| mh_start b : pending_of (mops_init B b) <= 1 -> mops_history flip (mops_init B b) (fun _ => 0) []
| mh_enqueue st p0 segs (req : linear_segment S) st' l :
    mops_history flip st p0 segs ->
    (forall m, is_abs_int (ls_steps req m)) ->
    mops_enqueue flip st req = Ok (st', true) ->
    mo_sent st' = mo_sent st ++ l ->
    pending_of st' <= Z.max 1 (pending_of st) + Z.of_nat (length l) ->
    mops_history flip st' p0 (rev (map fst l) ++ segs)
| mh_progress st p0 segs b' :
    mops_history flip st p0 segs ->
    fst (b_pending B b') <= pending_of st ->
    mops_history flip {| mo_shadow := mo_shadow st; mo_backend := b'; mo_sent := mo_sent st |} p0 segs
| mh_status st p0 segs st' r :
    mops_history flip st p0 segs ->
    mops_get_physical_status st = Ok (st', r) ->
    mops_history flip st' p0 segs
| mh_external st p0 segs m steps st' :
    mops_history flip st p0 segs ->
    mops_set_external_position st m steps = Ok st' ->
    pending_of st <= 1 ->
    mops_history flip st' (fun m' => if motor_eqb m' m then steps else p0 m' + total_motion flip segs m') [].

Definition good_segment (flip : motor -> bool) (s : motion_segment) : Prop :=
  (exists steps, seg_describes flip s steps) \/ seg_loops s = 0 /\ forall m, seg_motion flip s m = 0.

Lemma motor_eqb_eq a b : motor_eqb a b = true -> a = b.
Proof. destruct a, b; cbn; congruence. Qed.

Lemma mops_history_inv {S : speed_model} {B} flip (st : mops B) p0 segs :
  mops_history (S := S) flip st p0 segs ->
  tracks flip p0 segs (mo_shadow st) /\ (keep_of st <= length (mo_shadow st))%nat /\
  Forall (good_segment flip) segs.
Proof.
  induction 1 as [b Hb | st p0 segs req st' l Hh IH Hint E Hsent Hpend | st p0 segs b' Hh IH Hle
                 | st p0 segs st' r Hh IH E | st p0 segs m steps st' Hh IH E Hidle].
  - split; [|split]; [..|constructor].
    + cbn. split; [reflexivity|]. intros m. split; [reflexivity|]. lia.
    + cbn. unfold keep_of. destruct (0 <? pending_of (mops_init B b)) eqn:E0; lia.
  - destruct IH as (Ht & Hk & Hg).
    destruct (mops_enqueue_tracks flip st st' req true p0 segs Hint E Ht) as (l' & Hl' & Htr).
    assert (l' = l) as -> by (rewrite Hl' in Hsent; now apply app_inv_head in Hsent).
    destruct Htr as [Ht' Hlen].
    { unfold keep_of in *. destruct (0 <? pending_of st') eqn:E1; destruct (0 <? pending_of st) eqn:E2; lia. }
    split; [exact Ht'|]. split; [lia|].
    apply Forall_app. split; [|exact Hg].
    destruct (mops_enqueue_spec flip st st' req true Hint E) as (l2 & Hl2 & _ & _ & _ & _ & Hmot & Hfit & Hz & _).
    assert (l2 = l) as -> by (unfold sent_segments in Hl2; rewrite Hl2 in Hsent; now apply app_inv_head in Hsent).
    apply Forall_rev. apply Forall_map. 
    destruct (Z.eq_dec (get_defining_axis_steps (ls_steps req)) 0) as [E0|E0].
    + destruct (Hz E0) as (s & bb & -> & Hsl & _ & Hfr). constructor; [|constructor]. right.
      cbn [fst]. split; [exact Hsl|]. intros m. unfold seg_motion. rewrite Hsl, Hfr. cbn.
      destruct (xorb _ _); reflexivity.
    + eapply Forall_impl; [|exact (Hfit E0)]. intros [s bb] [_ Hd]. left. exact Hd.
  - destruct IH as (Ht & Hk & Hg). cbn [mo_shadow]. split; [exact Ht|]. split; [|exact Hg].
    unfold keep_of, pending_of in *. cbn [mo_backend] in *.
    destruct (0 <? fst (b_pending B b')) eqn:E1; destruct (0 <? fst (b_pending B (mo_backend st))) eqn:E2; lia.
  - destruct IH as (Ht & Hk & Hg). unfold mops_get_physical_status in E.
    destruct (shadow_back (mo_shadow (shrink st))) as [hs|]; [|discriminate]. cbn [obind] in E. injection E as <- <-.
    destruct (shrink_shadow st Hk) as [Es Hl]. split; [|split; [|exact Hg]].
    + rewrite Es. apply tracks_firstn, Ht.
    + change (keep_of (shrink st)) with (keep_of st). lia.
  - destruct IH as (Ht & Hk & Hg). unfold mops_set_external_position in E.
    destruct (mo_shadow st) as [|h q] eqn:Eq; [discriminate|]. cbn [shadow_front obind] in E. injection E as <-.
    match goal with |- context [shrink ?x] => set (st1 := x) end.
    assert (Hk1 : keep_of st1 = 1%nat).
    { unfold keep_of, pending_of, st1 in *. cbn [mo_backend].
      destruct (0 <? fst (b_pending B (mo_backend st))) eqn:E1; lia. }
    destruct (shrink_shadow st1) as [Es Hl]; [rewrite Hk1; cbn; lia|].
    change (keep_of (shrink st1)) with (keep_of st1). rewrite Hl, Es, Hk1.
    split; [|split; [lia|constructor]]. cbn. split; [reflexivity|]. intros m'.
    destruct (motor_eqb m' m) eqn:Em.
    + apply motor_eqb_eq in Em. subst m'. cbn. split; [reflexivity|].
      apply (tracks_front _ _ _ _ _ m Ht).
    + apply (tracks_front _ _ _ _ _ m' Ht).
Qed.

Definition between (a x b : Z) : Prop := a <= x <= b \/ b <= x <= a.

Lemma status_in_motion {S : speed_model} {B} flip (st : mops B) p0 segs n L st' pos aux s :
  mops_history (S := S) flip st p0 segs ->
  b_pending B (mo_backend st) = (Z.of_nat n + 1, L) ->
  mops_get_physical_status st = Ok (st', (pos, aux)) ->
  nth_error segs n = Some s ->
  0 <= L <= seg_loops s ->
  aux = ms_aux s /\
  forall m,
    let finish := p0 m + total_motion flip (skipn n segs) m in
    let start := finish - seg_motion flip s m in
    pos m = finish - (if seg_motion flip s m <? 0 then -1 else 1) *
                     (if seg_loops s =? 0 then 0 else remaining (ms_fractions s m) L) /\
    between start (pos m) finish /\
    (L = 0 -> pos m = finish) /\ (L = seg_loops s -> pos m = start).
Proof.
  intros Hh Hp E Hn HL.
  destruct (mops_history_inv flip st p0 segs Hh) as (Ht & Hk & Hg).
  unfold mops_get_physical_status in E. rewrite Hp in E. cbn [snd] in E.
  assert (Hkeep : keep_of st = Datatypes.S n).
  { unfold keep_of, pending_of. rewrite Hp. cbn [fst]. destruct (0 <? Z.of_nat n + 1) eqn:E1; lia. }
  destruct (shrink_shadow st Hk) as [Es Hl]. rewrite Hkeep in *.
  destruct (shadow_back_nth (mo_shadow (shrink st)) n Hl) as (h & Hb & Hnh).
  rewrite Hb in E. cbn [obind] in E. injection E as <- <- <-.
  assert (Htr : tracks flip p0 segs (mo_shadow (shrink st))) by (rewrite Es; apply tracks_firstn, Ht).
  destruct (tracks_nth flip p0 segs _ n h Htr Hnh) as [(s' & Hs' & Ha & He)|[Hlen _]].
  2:{ exfalso. assert (nth_error segs n = None) by (apply nth_error_None; lia). congruence. }
  assert (s' = s) as -> by congruence.
  split; [exact Ha|]. intros m finish start.
  destruct (He m) as (Hpos & Hf & Hnz). 
  assert (Hgs : good_segment flip s).
  { rewrite Forall_forall in Hg. apply Hg. eapply nth_error_In; eassumption. }
  assert (HLs : L < 2 ^ 24).
  { destruct Hgs as [(steps & Hfit & _ & D & HD & Hl' & _)|[Hl' _]]; lia. }
  cbv beta. rewrite reported_remaining by lia. rewrite Hpos. fold finish.
  destruct (seg_loops s =? 0) eqn:E0.
  - assert (L = 0) as -> by lia. rewrite remaining_0.
    destruct Hgs as [(steps & Hfit & _ & D & HD & Hl' & _)|[Hl' Hz]]; [lia|].
    unfold between, start. rewrite (Hz m). cbn. repeat split; lia.
  - destruct (Hnz ltac:(lia)) as [Hfr Hsg]. rewrite Hsg.
    destruct Hgs as [(steps & Hfit & Hmot & D & HD & Hl' & Hm)|[Hl' _]]; [|lia].
    destruct (Hm m) as (Habs & Hff & _). rewrite Hfr, Hff, Hmot. rewrite Hl' in *.
    pose proof (remaining_full (steps m) D Habs HD) as HR.
    pose proof (fraction_exact (steps m) D Habs) as HX. assert (HM : INT_MAX = 2147483647) by reflexivity.
    destruct (HX ltac:(lia)) as [_ HB].
    pose proof (remaining_mono (fraction_of (steps m) D) L (2 * D) ltac:(lia) ltac:(lia)) as Hmono.
    pose proof (remaining_nonneg (fraction_of (steps m) D) L ltac:(lia) ltac:(lia)) as Hnn.
    assert (Hrm : forall x y, x - (if steps m <? 0 then -1 else 1) * y = if steps m <? 0 then x + y else x - y).
    { intros x y. destruct (steps m <? 0); lia. }
    unfold between, start. rewrite Hmot. rewrite Hrm.
    split; [reflexivity|]. split; [|split].
    + destruct (steps m <? 0) eqn:En; lia.
    + intros ->. rewrite remaining_0. destruct (steps m <? 0); lia.
    + intros ->. rewrite HR. destruct (steps m <? 0) eqn:En; lia.
Qed.

(** Idle queue: any history of accepted or refused requests, any backend. *)
Lemma status_idle {B} (st : mops B) n st' pos aux :
  mo_shadow st <> [] -> b_pending B (mo_backend st) = (n, 0) -> n <= 1 ->
  mops_get_physical_status st = Ok (st', (pos, aux)) ->
  (forall m, 0 <= match mo_shadow st with h :: _ => pi_fraction (h_pos h m) | [] => 0 end < 2 ^ 31) ->
  forall m, pos m = front_pos (mo_shadow st) m.
Proof.
  intros Hne Hp Hn E Hf m. unfold mops_get_physical_status in E.
  assert (Hsh : mo_shadow (shrink st) = firstn 1 (mo_shadow st)).
  { unfold shrink. cbn [mo_shadow]. rewrite Hp. cbn [fst].
    assert ((if 0 <? n then n else 1) = 1) as -> by (destruct (0 <? n) eqn:E0; lia).
    unfold resize. change (Z.to_nat 1) with 1%nat. destruct (mo_shadow st) as [|h q]; [easy|].
    cbn [length Nat.sub]. replace (0 - length q)%nat with O by lia. cbn [repeat]. apply app_nil_r. }
  rewrite Hsh in E. destruct (mo_shadow st) as [|h q]; [easy|]. cbn in E. rewrite Hp in E. cbn [snd] in E.
  injection E as <- <- <-. cbv beta. rewrite reported_remaining by (apply Hf || lia).
  rewrite remaining_0. cbn [front_pos]. lia.
Qed.

(** *** Counter pushed by the firmware *)
Lemma step_gen_counters fr n : forall ms t c ls, t_ok t -> t_loops t = Z.of_nat n ->
  ~ In 0 (delays n t) -> step_gen (S n) fr ms t c = Some ls ->
  forall j l, (j < n)%nat -> nth_error ls j = Some l -> pl_counter l = c - Z.of_nat j - 1.
Proof.
  induction n as [|n IH]; intros ms t c ls Ht Hl Hd E j l Hj Hn; [lia|].
  destruct (calculate_delay_step t Ht ltac:(lia)) as [Ht' Hl'].
  cbn [delays In] in Hd. remember (S n) as n1. cbn [step_gen] in E.
  destruct (calculate_delay t) as [dl t'] eqn:Ec. cbn [fst snd] in *.
  destruct (dl =? 0) eqn:E0; [exfalso; apply Hd; left; lia|]. subst n1.
  destruct (step_gen (S n) fr _ t' (c - 1)) as [rest|] eqn:Er; [|discriminate]. injection E as <-.
  destruct j as [|j]; cbn [nth_error] in Hn.
  - injection Hn as <-. cbn. lia.
  - rewrite (IH _ t' (c - 1) rest Ht' ltac:(lia) ltac:(tauto) Er j l ltac:(lia) Hn). lia.
Qed.

Lemma pins_from_firstn f n k j : (j <= n)%nat -> firstn j (pins_from k f n) = pins_from k f j.
Proof.
  revert k j. induction n as [|n IH]; intros k j Hj; destruct j; try reflexivity; try lia.
  cbn [pins_from firstn]. now rewrite IH by lia.
Qed.

Lemma firstn_map_pins {A C} (g : A -> C) j l : firstn j (map g l) = map g (firstn j l).
Proof. revert l. induction j; intros [|x l]; cbn; congruence. Qed.

(** Reported position against the pulses emitted so far, in pass [j]. *)
Lemma status_tracks_pulses flip s steps ls j l m level :
  seg_describes flip s steps -> no_stop s -> pru_execute s = Some ls ->
  (Z.of_nat j < seg_loops s) -> nth_error ls j = Some l ->
  let emitted := rising_edges level (map (fun x => pl_pins x m) (firstn (Datatypes.S j) ls)) in
  let reported := Z.abs (seg_motion flip s m) - remaining (ms_fractions s m) (pl_counter l) in
  -1 <= reported - emitted <= 1 /\ 0 <= pl_counter l <= seg_loops s.
Proof.
  intros Hd Hns E Hj Hn emitted reported.
  destruct Hd as (Hfit & Hmot & D & HD & Hl & Hm).
  destruct (segment_fits_t_ok s Hfit) as (Ht & Htl & H0).
  destruct (pru_execute_pins s Ht Hns) as (ls' & E' & Hlen & Hp).
  assert (ls' = ls) as -> by congruence. clear E'.
  assert (Hc : pl_counter l = seg_loops s - Z.of_nat j - 1).
  { unfold pru_execute in E. rewrite total_loops_seg in E.
    replace (Z.to_nat (seg_loops s + 1)) with (Datatypes.S (Z.to_nat (seg_loops s))) in E by lia.
    eapply step_gen_counters; try eassumption; lia. }
  destruct (Hm m) as (Habs & Hf & _).
  assert (Hk : 0 <= Z.of_nat (Datatypes.S j) <= 2 * D) by lia.
  pose proof (progress_close (steps m) D (Z.of_nat (Datatypes.S j)) Habs HD Hk) as Hcl. cbv zeta in Hcl.
  unfold emitted, reported. rewrite <- firstn_map_pins, Hp, pins_from_firstn by lia.
  destruct Hfit as (_ & Hfr & _). rewrite edges_total by apply Hfr.
  rewrite Hmot, Hf, Hc, Hl.
  replace (2 * D - Z.of_nat j - 1) with (2 * D - Z.of_nat (Datatypes.S j)) by lia. split; lia.
Qed.
