From Verif Require Import Base Model_MotorOps Spec_Motion.

Lemma defining_ge steps m : Z.abs (steps m) <= get_defining_axis_steps steps.
Proof. unfold get_defining_axis_steps, all_motors. cbn [tl fold_left]. destruct m; lia. Qed.

Lemma defining_attained steps :
  exists m, get_defining_axis_steps steps = Z.abs (steps m).
Proof.
  unfold get_defining_axis_steps.
  assert (H : forall l a, (exists m, a = Z.abs (steps m)) ->
    exists m, fold_left (fun acc m => Z.max (Z.abs (steps m)) acc) l a = Z.abs (steps m)).
  { induction l as [|x l IH]; intros a Ha; cbn [fold_left]; [exact Ha|].
    apply IH. destruct (Z.max_spec (Z.abs (steps x)) a) as [[_ ->]|[_ ->]]; eauto. }
  apply H. eauto.
Qed.

Lemma defining_nonneg steps : 0 <= get_defining_axis_steps steps.
Proof. pose proof (defining_ge steps M1). lia. Qed.

Lemma defining_le steps b : (forall m, Z.abs (steps m) <= b) -> get_defining_axis_steps steps <= b.
Proof. intros H. destruct (defining_attained steps) as [m ->]. apply H. Qed.

(** *** Fixed point accumulation *)

Lemma accumulated_0 s n : accumulated s n 0 = 0.
Proof. unfold accumulated. now rewrite Z.mul_0_l, Z.shiftr_0_l. Qed.

Lemma shiftr32 x : Z.shiftr x 32 = x / 2 ^ 32.
Proof. apply Z.shiftr_div_pow2; lia. Qed.
Lemma shiftl32 x : Z.shiftl x 32 = x * 2 ^ 32.
Proof. apply Z.shiftl_mul_pow2; lia. Qed.

Lemma hires_bounds s n : 0 < n ->
  (0 <= s -> n * hires_per_div s n - n <= s * 2 ^ 32 < n * hires_per_div s n) /\
  (s <= 0 -> n * hires_per_div s n - 2 * n < s * 2 ^ 32 <= n * hires_per_div s n - n).
Proof.
  intros Hn. unfold hires_per_div. rewrite shiftl32.
  pose proof (Z.quot_rem' (s * 2 ^ 32) n) as E.
  split; intros Hs.
  - pose proof (Z.rem_bound_pos (s * 2 ^ 32) n ltac:(nia) Hn). nia.
  - pose proof (Z.rem_bound_pos (- (s * 2 ^ 32)) n ltac:(nia) Hn) as B.
    rewrite Z.rem_opp_l in B by lia. nia.
Qed.

Lemma accumulated_total s n : 0 < n < 2 ^ 31 -> accumulated s n n = s.
Proof.
  intros Hn. unfold accumulated. rewrite shiftr32.
  destruct (hires_bounds s n ltac:(lia)) as [Hp Hm].
  symmetry. apply Z.div_unique with (r := n * hires_per_div s n - s * 2 ^ 32).
  - left. destruct (Z.le_ge_cases 0 s) as [H|H].
    + specialize (Hp H). lia.
    + specialize (Hm H). lia.
  - lia.
Qed.

Lemma div_diff a b k : 0 < k -> (a + b) / k - a / k <= - ((- b) / k) /\ b / k <= (a + b) / k - a / k.
Proof.
  intros Hk.
  pose proof (Z.div_mod (a + b) k ltac:(lia)) as E1. pose proof (Z.mod_pos_bound (a+b) k Hk) as B1.
  pose proof (Z.div_mod a k ltac:(lia)) as E2. pose proof (Z.mod_pos_bound a k Hk) as B2.
  pose proof (Z.div_mod b k ltac:(lia)) as E3. pose proof (Z.mod_pos_bound b k Hk) as B3.
  pose proof (Z.div_mod (-b) k ltac:(lia)) as E4. pose proof (Z.mod_pos_bound (-b) k Hk) as B4.
  set (q1 := (a+b)/k) in *. set (q2 := a/k) in *. set (q3 := b/k) in *. set (q4 := (-b)/k) in *.
  split; nia.
Qed.

Lemma divisions_bounds D : 0 <= D ->
  0 < divisions_of D /\ MAX_STEPS_PER_SEGMENT * (divisions_of D - 1) <= D < MAX_STEPS_PER_SEGMENT * divisions_of D.
Proof.
  intros H. unfold divisions_of, MAX_STEPS_PER_SEGMENT, LOOPS_PER_STEP.
  change (65535 / 2) with 32767.
  pose proof (Z.div_mod D 32767 ltac:(lia)). pose proof (Z.mod_pos_bound D 32767 ltac:(lia)).
  pose proof (Z.div_pos D 32767 H ltac:(lia)). lia.
Qed.

Lemma divisions_small D : 0 <= D <= INT_MAX -> divisions_of D <= 65539.
Proof.
  unfold INT_MAX. intros H. pose proof (divisions_bounds D ltac:(lia)) as [? ?].
  unfold MAX_STEPS_PER_SEGMENT, LOOPS_PER_STEP in *. change (65535/2) with 32767 in *. lia.
Qed.

Lemma piece_bound s D d : Z.abs s <= D <= INT_MAX ->
  Z.abs (accumulated s (divisions_of D) (d + 1) - accumulated s (divisions_of D) d) <= MAX_STEPS_PER_SEGMENT.
Proof.
  intros HD. set (n := divisions_of D).
  destruct (divisions_bounds D ltac:(lia)) as [Hn HB].
  pose proof (divisions_small D ltac:(lia)) as Hsm. fold n in Hn, HB, Hsm.
  unfold accumulated. rewrite !shiftr32.
  replace ((d + 1) * hires_per_div s n) with (d * hires_per_div s n + hires_per_div s n) by ring.
  destruct (div_diff (d * hires_per_div s n) (hires_per_div s n) (2 ^ 32) ltac:(lia)) as [Hu Hl].
  destruct (hires_bounds s n Hn) as [Hp Hm].
  set (h := hires_per_div s n) in *.
  unfold MAX_STEPS_PER_SEGMENT, LOOPS_PER_STEP in *. change (65535/2) with 32767 in *.
  assert (Hh : - (32767 * 2 ^ 32) <= h <= 32767 * 2 ^ 32).
  { destruct (Z.le_ge_cases 0 s) as [H|H].
    - specialize (Hp H). nia.
    - specialize (Hm H). nia. }
  assert (- ((- h) / 2^32) <= 32767).
  { enough (- 32767 <= (- h) / 2 ^ 32) by lia. apply Z.div_le_lower_bound; lia. }
  assert (- 32767 <= h / 2 ^ 32) by (apply Z.div_le_lower_bound; lia).
  lia.
Qed.

(** The motor that defines the move keeps moving in each piece. *)
Lemma piece_nonzero s D d : D = Z.abs s -> MAX_STEPS_PER_SEGMENT < D <= INT_MAX ->
  1 <= Z.abs (accumulated s (divisions_of D) (d + 1) - accumulated s (divisions_of D) d).
Proof.
  intros HE HD. set (n := divisions_of D).
  destruct (divisions_bounds D ltac:(lia)) as [Hn HB].
  pose proof (divisions_small D ltac:(unfold MAX_STEPS_PER_SEGMENT, LOOPS_PER_STEP in *; change (65535/2) with 32767 in *; lia)) as Hsm. fold n in Hn, HB, Hsm.
  unfold accumulated. rewrite !shiftr32.
  replace ((d + 1) * hires_per_div s n) with (d * hires_per_div s n + hires_per_div s n) by ring.
  destruct (div_diff (d * hires_per_div s n) (hires_per_div s n) (2 ^ 32) ltac:(lia)) as [Hu Hl].
  destruct (hires_bounds s n Hn) as [Hp Hm].
  set (h := hires_per_div s n) in *.
  unfold MAX_STEPS_PER_SEGMENT, LOOPS_PER_STEP in *. change (65535/2) with 32767 in *.
  destruct (Z.le_ge_cases 0 s) as [H|H].
  - specialize (Hp H). assert (2 ^ 32 <= h) by nia.
    assert (1 <= h / 2 ^ 32) by (apply Z.div_le_lower_bound; lia). lia.
  - specialize (Hm H). assert (h <= - 2 ^ 32) by nia.
    assert (- ((- h) / 2^32) <= -1).
    { enough (1 <= (- h) / 2 ^ 32) by lia. apply Z.div_le_lower_bound; lia. }
    lia.
Qed.

(** *** Fractions *)

Lemma max_fraction_val : max_fraction = 2 ^ 31 - 1.
Proof. reflexivity. Qed.

Lemma fraction_exact s D : Z.abs s <= D -> 0 < D <= INT_MAX ->
  fraction_of s D = Z.abs s * (2 ^ 31 - 1) / D /\ 0 <= fraction_of s D <= 2 ^ 31 - 1.
Proof.
  intros Hs HD. unfold fraction_of, u32, u64. rewrite max_fraction_val. unfold INT_MAX in *.
  rewrite (Z.mod_small (Z.abs s * (2 ^ 31 - 1)) (2 ^ 64)) by nia.
  assert (0 <= Z.abs s * (2 ^ 31 - 1) / D <= 2 ^ 31 - 1).
  { split. apply Z.div_pos; nia. apply Z.div_le_upper_bound; nia. }
  rewrite Z.mod_small by lia. lia.
Qed.

Lemma fraction_ceil s D : Z.abs s <= D -> 0 < D <= INT_MAX ->
  - ((- (fraction_of s D * D)) / (2 ^ 31 - 1)) = Z.abs s.
Proof.
  intros Hs HD. destruct (fraction_exact s D Hs HD) as [E B]. unfold INT_MAX in *.
  pose proof (Z.div_mod (Z.abs s * (2 ^ 31 - 1)) D ltac:(lia)) as E1.
  pose proof (Z.mod_pos_bound (Z.abs s * (2 ^ 31 - 1)) D ltac:(lia)) as B1.
  rewrite <- E in E1. set (r := (Z.abs s * (2^31 - 1)) mod D) in *.
  set (f := fraction_of s D) in *.
  assert (- (f * D) = (2^31-1) * (- Z.abs s) + r) as -> by lia.
  assert ((2 ^ 31 - 1) * - Z.abs s + r = r + (- Z.abs s) * (2^31-1)) as -> by lia.
  rewrite Z.div_add by lia.
  rewrite (Z.div_small r (2^31-1)) by lia. lia.
Qed.

(** *** Direction bits *)

Lemma testbit_bit_of m m' b : Z.testbit (bit_of m b) (motor_ix m') = b && motor_eqb m m'.
Proof. destruct b, m, m'; reflexivity. Qed.

Lemma direction_bits_spec flip steps m :
  Z.testbit (direction_bits flip steps) (motor_ix m) = dir_bit flip steps m.
Proof.
  unfold direction_bits, all_motors. cbn [fold_left].
  rewrite !Z.lor_spec, !testbit_bit_of.
  destruct m; cbn; rewrite ?Z.testbit_0_l, ?andb_false_r, ?andb_true_r, ?orb_false_r, ?orb_false_l; reflexivity.
Qed.

Lemma lor_bound a b : 0 <= a < 2 ^ 8 -> 0 <= b < 2 ^ 8 -> 0 <= Z.lor a b < 2 ^ 8.
Proof.
  intros Ha Hb. split. apply Z.lor_nonneg; lia.
  destruct (Z.eq_dec (Z.lor a b) 0) as [->|Hn]; [lia|].
  assert (0 < Z.lor a b) by (pose proof (proj2 (Z.lor_nonneg a b)); lia).
  apply Z.log2_lt_pow2; [lia|]. rewrite Z.log2_lor by lia.
  assert (forall x, 0 <= x < 2^8 -> Z.log2 x < 8).
  { intros x Hx. destruct (Z.eq_dec x 0) as [->|]; [reflexivity|]. apply Z.log2_lt_pow2; lia. }
  pose proof (H0 a Ha). pose proof (H0 b Hb). lia.
Qed.

Lemma direction_bits_bound flip steps : 0 <= direction_bits flip steps < 2 ^ 8.
Proof.
  unfold direction_bits.
  assert (H : forall l acc, 0 <= acc < 2 ^ 8 ->
     0 <= fold_left (fun acc m => Z.lor acc (bit_of m (dir_bit flip steps m))) l acc < 2 ^ 8).
  { induction l as [|x l IH]; intros acc Ha; cbn [fold_left]; [exact Ha|].
    apply IH. apply lor_bound; [exact Ha|]. destruct (dir_bit flip steps x), x; cbn; lia. }
  apply H. lia.
Qed.

(** *** One segment *)

Definition seg_describes (flip : motor -> bool) (seg : motion_segment) (steps : mreg) : Prop :=
  segment_fits seg /\ (forall m, seg_motion flip seg m = steps m) /\
  (exists D, 1 <= D <= 32767 /\ seg_loops seg = 2 * D /\
     forall m, Z.abs (steps m) <= D /\ ms_fractions seg m = fraction_of (steps m) D /\
       Z.testbit (ms_direction_bits seg) (motor_ix m) = dir_bit flip steps m).

Lemma u32_range x : 0 <= u32 x < 2 ^ 32.
Proof. unfold u32. apply Z.mod_pos_bound. lia. Qed.

Lemma xorb_dir flip steps m : xorb (dir_bit flip steps m) (flip m) = (steps m <? 0).
Proof. unfold dir_bit. destruct (steps m <? 0), (flip m); reflexivity. Qed.

Lemma make_segment_describes {S} flip (p : linear_segment S) D seg :
  D = get_defining_axis_steps (ls_steps p) -> 1 <= D <= 32767 ->
  make_segment flip p D = Ok seg ->
  seg_describes flip seg (ls_steps p) /\ ms_aux seg = ls_aux p.
Proof.
  intros HD HB E.
  assert (Habs : forall m, Z.abs (ls_steps p m) <= D) by (intros m; rewrite HD; apply defining_ge).
  clear HD. unfold make_segment in E.
  destruct (D =? 0) eqn:E0; [lia|].
  assert (Hl : LOOPS_PER_STEP * D = 2 * D) by reflexivity.
  assert (Hu0 : u16 0 = 0) by reflexivity.
  assert (HuD : u16 (LOOPS_PER_STEP * D) = 2 * D).
  { rewrite Hl. unfold u16. apply Z.mod_small. lia. }
  assert (HM : INT_MAX = 2147483647) by reflexivity.
  assert (Hfr : forall m, 0 <= fraction_of (ls_steps p m) D < 2 ^ 31).
  { intros m. destruct (fraction_exact (ls_steps p m) D (Habs m) ltac:(lia)). lia. }
  assert (Hmot : forall s m, seg_loops s = 2 * D -> ms_fractions s m = fraction_of (ls_steps p m) D ->
      ms_direction_bits s = direction_bits flip (ls_steps p) ->
      seg_motion flip s m = ls_steps p m).
  { intros s m Hsl Hsf Hsd. unfold seg_motion. rewrite Hsl, Hsf, Hsd.
    replace (2 * D / 2) with D by (rewrite Z.mul_comm, Z.div_mul; lia).
    rewrite direction_bits_spec, xorb_dir, fraction_ceil by (auto; lia).
    destruct (ls_steps p m <? 0) eqn:En; lia. }
  pose proof (direction_bits_bound flip (ls_steps p)) as Hdb.
  assert (Hbase : forall la lt ld idx hires trv,
    ((la = 2 * D /\ lt = 0 /\ ld = 0) \/ (la = 0 /\ lt = 2 * D /\ ld = 0) \/ (la = 0 /\ lt = 0 /\ ld = 2 * D)) ->
    let s := {| ms_state := STATE_FILLED;
       ms_direction_bits := direction_bits flip (ls_steps p);
       ms_loops_accel := la; ms_loops_travel := lt; ms_loops_decel := ld;
       ms_aux := ls_aux p;
       ms_accel_series_index := u32 idx;
       ms_hires_accel_cycles := u32 hires;
       ms_travel_delay_cycles := u32 trv;
       ms_fractions := fun m => fraction_of (ls_steps p m) D |} in
    seg_describes flip s (ls_steps p) /\ ms_aux s = ls_aux p).
  { intros la lt ld idx hires trv Hc s. split; [|reflexivity].
    assert (Hs : seg_loops s = 2 * D) by (unfold seg_loops; cbn; lia).
    split; [|split].
    - unfold segment_fits, s; cbn [ms_state ms_direction_bits ms_loops_accel ms_loops_travel ms_loops_decel
        ms_accel_series_index ms_hires_accel_cycles ms_travel_delay_cycles ms_fractions]. pose proof (u32_range idx). pose proof (u32_range hires). pose proof (u32_range trv).
      repeat split; try lia; try (apply Hfr); try reflexivity. exists D. lia.
    - intros m. apply Hmot; [exact Hs|reflexivity|reflexivity].
    - exists D. split; [lia|]. split; [exact Hs|]. intros m. split; [apply Habs|]. split; [reflexivity|].
      cbn. apply direction_bits_spec. }
  destruct (spd_eqb S (ls_v0 p) (ls_v1 p)).
  - destruct (travel_cycles S (ls_v0 p)); [|discriminate]. injection E as <-.
    rewrite !Hu0, HuD. apply Hbase. lia.
  - destruct (spd_ltb S (ls_v0 p) (ls_v1 p)).
    + destruct (accel_params S (ls_v0 p) (ls_v1 p) D) as [[i h]|]; [|discriminate]. injection E as <-.
      rewrite !Hu0, HuD. apply Hbase. lia.
    + destruct (decel_params S (ls_v0 p) (ls_v1 p) D) as [[i h]|]; [|discriminate]. injection E as <-.
      rewrite !Hu0, HuD. apply Hbase. lia.
Qed.

(** *** Whole requests *)

Definition front_pos (q : list history) (m : motor) : Z :=
  match q with [] => 0 | h :: _ => pi_position (h_pos h m) end.

(** Relates a state before and after some segments: the new log entries, each
    describing a piece, and the position at the front of the shadow queue. *)
Definition sent_segments {B} (l : list (motion_segment * bool)) (st st' : mops B) : Prop :=
  mo_sent st' = mo_sent st ++ l.

Lemma enqueue_internal_spec {S B} flip (st st' : mops B) (p : linear_segment S) D ok :
  enqueue_internal flip st p D = Ok (st', ok) ->
  D = get_defining_axis_steps (ls_steps p) -> 1 <= D <= 32767 ->
  exists seg, sent_segments [(seg, ok)] st st' /\ seg_describes flip seg (ls_steps p) /\
    ms_aux seg = ls_aux p /\ mo_shadow st <> [] /\
    exists h, mo_shadow st' = h :: mo_shadow st /\ h_aux h = ls_aux p /\
      (forall m, pi_position (h_pos h m) = front_pos (mo_shadow st) m + ls_steps p m /\
                 pi_fraction (h_pos h m) = ms_fractions seg m /\
                 pi_sign (h_pos h m) = (if ls_steps p m <? 0 then -1 else 1)).
Proof.
  intros E HD HB. unfold enqueue_internal in E.
  destruct (shadow_front (mo_shadow st)) as [prev|] eqn:Ef; [|discriminate]. cbn [obind] in E.
  destruct (make_segment flip p D) as [seg|] eqn:Es; [|discriminate]. cbn [obind] in E.
  destruct (b_enqueue B (mo_backend st) seg) as [b' ok'] eqn:Eb. injection E as <- <-.
  destruct (make_segment_describes flip p D seg HD HB Es) as [Hd Ha].
  exists seg. unfold sent_segments. cbn [mo_sent mo_shadow].
  unfold shadow_front in Ef. destruct (mo_shadow st) as [|h q] eqn:Eq; [discriminate|]. injection Ef as ->.
  repeat split; try assumption; try (apply Hd).
  - discriminate.
  - eexists. split; [reflexivity|]. split; [reflexivity|]. intros m. cbn. repeat split.
    destruct Hd as (_ & _ & D' & ? & ? & Hm). destruct (Hm m) as (? & Hf & ?).
    (* both are the fraction for the same D: from make_segment directly *)
    unfold make_segment in Es. destruct (D =? 0); [discriminate|].
    destruct (spd_eqb S (ls_v0 p) (ls_v1 p)).
    + destruct (travel_cycles S (ls_v0 p)); [|discriminate]. now injection Es as <-.
    + destruct (spd_ltb S (ls_v0 p) (ls_v1 p)).
      * destruct (accel_params S (ls_v0 p) (ls_v1 p) D) as [[? ?]|]; [|discriminate]. now injection Es as <-.
      * destruct (decel_params S (ls_v0 p) (ls_v1 p) D) as [[? ?]|]; [|discriminate]. now injection Es as <-.
Qed.

Lemma zsum_app a b : zsum (a ++ b) = zsum a + zsum b.
Proof. induction a; cbn; lia. Qed.

Lemma total_motion_app flip a b m : total_motion flip (a ++ b) m = total_motion flip a m + total_motion flip b m.
Proof. unfold total_motion. now rewrite map_app, zsum_app. Qed.

(** Pieces d, d+1, ... of the division loop. *)
Lemma divide_loop_spec {S : speed_model} {B : backend} flip (orig : linear_segment S) D n :
  D = get_defining_axis_steps (ls_steps orig) -> MAX_STEPS_PER_SEGMENT < D <= INT_MAX ->
  forall d v (st st' : mops B) ret ok,
  divide_loop flip orig D (divisions_of D) n d v st ret = Ok (st', ok) ->
  exists l, sent_segments l st st' /\
    Forall (fun '(s, _) => segment_fits s /\ ms_aux s = ls_aux orig /\ exists st, seg_describes flip s st) l /\
    (n <> O -> mo_shadow st <> [] /\ l <> []) /\
    (ok = true -> n <> O -> length l = n /\ Forall (fun '(_, b) => b = true) l) /\
    (ok = false -> n <> O -> exists l0 s, l = l0 ++ [(s, false)] /\ Forall (fun '(_, b) => b = true) l0) /\
    (forall m, total_motion flip (map fst l) m =
        accumulated (ls_steps orig m) (divisions_of D) (d + Z.of_nat (length l))
        - accumulated (ls_steps orig m) (divisions_of D) d) /\
    (forall m, front_pos (mo_shadow st') m = front_pos (mo_shadow st) m + total_motion flip (map fst l) m) /\
    (exists hs, mo_shadow st' = hs ++ mo_shadow st /\ length hs = length l).
Proof.
  intros HD HB.
  assert (HM : INT_MAX = 2147483647) by reflexivity.
  assert (HX : MAX_STEPS_PER_SEGMENT = 32767) by reflexivity.
  induction n as [|n IH]; intros d v st st' ret ok E.
  - cbn in E. injection E as <- <-. exists []. unfold sent_segments. rewrite app_nil_r.
    repeat split; try easy. + cbn. intros m. rewrite Z.add_0_r. unfold total_motion; cbn; lia.
    + intros m; unfold total_motion; cbn; lia.
    + exists []. now split.
  - cbn [divide_loop] in E.
    set (steps := piece_steps (ls_steps orig) (divisions_of D) d) in *.
    set (ds := get_defining_axis_steps steps) in *.
    set (v1 := piece_speed S (ls_v0 orig) (ls_v1 orig) D v ds) in *.
    set (out := {| ls_v0 := v; ls_v1 := v1; ls_aux := ls_aux orig; ls_steps := steps |}) in *.
    destruct (enqueue_internal flip st out ds) as [[st1 ok1]|] eqn:Ei; [|discriminate]. cbn [obind] in E.
    assert (Hds : 1 <= ds <= 32767).
    { split.
      - destruct (defining_attained (ls_steps orig)) as [m Hm].
        transitivity (Z.abs (steps m)); [|apply defining_ge].
        unfold steps, piece_steps. apply piece_nonzero; [rewrite HD; exact Hm|lia].
      - apply defining_le. intros m. unfold steps, piece_steps. rewrite <- HX. apply piece_bound.
        split; [rewrite HD; apply defining_ge|lia]. }
    destruct (enqueue_internal_spec flip st st1 out ds ok1 Ei eq_refl Hds)
      as (seg & Hs & Hdesc & Ha & Hne & h & Hsh & _ & Hh).
    cbn [ls_steps out] in *.
    assert (Hfront : forall m, front_pos (mo_shadow st1) m = front_pos (mo_shadow st) m + steps m).
    { intros m. rewrite Hsh. cbn [front_pos]. apply Hh. }
    assert (Htm : forall m, total_motion flip [seg] m = steps m).
    { intros m. unfold total_motion. cbn [map zsum]. rewrite (proj1 (proj2 Hdesc)). lia. }
    destruct ok1.
    + destruct (IH _ _ _ _ _ _ E) as (l & Hl & Hf & Hnn & Ht & Hfa & Hmot & Hfr & hs & Hhs & Hlen).
      exists ((seg, true) :: l).
      unfold sent_segments in *.
      split. { rewrite Hl, Hs, <- app_assoc. reflexivity. }
      split. { constructor; [|exact Hf]. split; [apply Hdesc|]. split; [exact Ha|]. eexists; exact Hdesc. }
      split. { intros _. split; [exact Hne|discriminate]. }
      split. { intros Hok _. destruct n.
        - cbn in E. injection E as <- <-. assert (l = []) as ->.
          { destruct l; [reflexivity|]. exfalso. apply (f_equal (@length _)) in Hl.
            rewrite app_length in Hl. cbn in Hl. lia. }
          split; [reflexivity|repeat constructor].
        - destruct (Ht Hok ltac:(discriminate)) as [Hle Hall]. split; [cbn; lia|]. constructor; auto. }
      split. { intros Hok _. destruct n.
        - cbn in E. injection E as <- <-. discriminate.
        - destruct (Hfa Hok ltac:(discriminate)) as (l0 & s & -> & Hall).
          exists ((seg, true) :: l0), s. split; [reflexivity|]. constructor; auto. }
      split. { intros m. change (map fst ((seg, true) :: l)) with ([seg] ++ map fst l).
        rewrite total_motion_app, Htm, Hmot. unfold steps, piece_steps.
        cbn [length]. replace (d + Z.of_nat (Datatypes.S (length l))) with (d + 1 + Z.of_nat (length l)) by lia. lia. }
      split. { intros m. change (map fst ((seg, true) :: l)) with ([seg] ++ map fst l).
        rewrite total_motion_app, Htm, Hfr, Hfront. lia. }
      exists (hs ++ [h]). rewrite Hhs, Hsh, <- app_assoc. split; [reflexivity|]. rewrite app_length; cbn; lia.
    + injection E as <- <-. exists [(seg, false)]. split; [exact Hs|].
      split. { constructor; [|constructor]. split; [apply Hdesc|]. split; [exact Ha|]. eexists; exact Hdesc. }
      split. { intros _. split; [exact Hne|discriminate]. }
      split; [discriminate|].
      split. { intros _ _. exists [], seg. split; [reflexivity|constructor]. }
      split. { intros m. cbn [map fst length]. rewrite Htm. unfold steps, piece_steps.
        change (Z.of_nat 1) with 1. lia. }
      split. { intros m. cbn [map fst]. rewrite Htm. apply Hfront. }
      exists [h]. split; [exact Hsh|reflexivity].
Qed.

Lemma resize_front n q m : (0 < n)%nat -> q <> [] -> front_pos (resize n q) m = front_pos q m.
Proof. unfold resize. destruct n; [lia|]. destruct q; [easy|]. intros _ _. reflexivity. Qed.

Lemma shrink_front {B} (st : mops B) m : mo_shadow st <> [] ->
  front_pos (mo_shadow (shrink st)) m = front_pos (mo_shadow st) m.
Proof.
  intros H. unfold shrink. cbn [mo_shadow]. apply resize_front; [|exact H].
  destruct (0 <? fst (b_pending B (mo_backend st))) eqn:E; lia.
Qed.

Lemma resize_nonempty n q : (0 < n)%nat -> resize n q <> [].
Proof. unfold resize. destruct n; [lia|]. intros _. destruct q; cbn; discriminate. Qed.

Lemma shrink_nonempty {B} (st : mops B) : mo_shadow (shrink st) <> [].
Proof.
  unfold shrink. cbn [mo_shadow]. apply resize_nonempty.
  destruct (0 <? fst (b_pending B (mo_backend st))) eqn:E; lia.
Qed.

Lemma mops_enqueue_spec {S B} flip (st st' : mops B) (req : linear_segment S) ok :
  (forall m, is_abs_int (ls_steps req m)) ->
  mops_enqueue flip st req = Ok (st', ok) ->
  exists l, sent_segments l st st' /\ l <> [] /\
    Forall (fun '(s, _) => ms_aux s = ls_aux req) l /\
    (ok = true -> Forall (fun '(_, b) => b = true) l) /\
    (ok = false -> exists l0 s, l = l0 ++ [(s, false)] /\ Forall (fun '(_, b) => b = true) l0) /\
    (ok = true -> forall m, total_motion flip (map fst l) m = ls_steps req m) /\
    (get_defining_axis_steps (ls_steps req) <> 0 ->
      Forall (fun '(s, _) => segment_fits s /\ exists st, seg_describes flip s st) l) /\
    (get_defining_axis_steps (ls_steps req) = 0 -> exists s b, l = [(s, b)] /\ seg_loops s = 0 /\
         ms_state s = 1 /\ forall m, ms_fractions s m = 0) /\
    (forall m, front_pos (mo_shadow st') m = front_pos (mo_shadow st) m + total_motion flip (map fst l) m) /\
    mo_shadow st <> [] /\ mo_shadow st' <> [].
Proof.
  intros Hint E. unfold mops_enqueue in E.
  set (D := get_defining_axis_steps (ls_steps req)) in *.
  assert (HM : INT_MAX = 2147483647) by reflexivity.
  assert (HX : MAX_STEPS_PER_SEGMENT = 32767) by reflexivity.
  assert (HDle : D <= INT_MAX).
  { apply defining_le. intros m. specialize (Hint m). unfold is_abs_int in Hint. lia. }
  pose proof (defining_nonneg (ls_steps req)) as HD0. fold D in HD0.
  destruct (D =? 0) eqn:EZ.
  - assert (D = 0) as HDz by lia.
    destruct (shadow_front (mo_shadow st)) as [prev|] eqn:Ef; [|discriminate]. cbn [obind] in E.
    match type of E with context [b_enqueue B _ ?e] => set (emp := e) in * end.
    destruct (b_enqueue B (mo_backend st) emp) as [b' ok'] eqn:Eb.
    cbn [obind] in E. injection E as <- <-.
    unfold shadow_front in Ef. destruct (mo_shadow st) as [|h q] eqn:Eq; [discriminate|]. injection Ef as ->.
    exists [(emp, ok')]. unfold sent_segments.
    assert (Hz : forall m, seg_motion flip emp m = 0).
    { intros m. unfold seg_motion, emp, seg_loops. cbn. now destruct (xorb _ _). }
    split; [reflexivity|]. split; [discriminate|].
    split; [repeat constructor|].
    split; [intros ->; repeat constructor|].
    split; [intros ->; exists [], emp; split; [reflexivity|constructor]|].
    split. { intros _ m. cbn [map fst]. unfold total_motion. cbn [map zsum]. rewrite Hz.
      pose proof (defining_ge (ls_steps req) m). fold D in H. lia. }
    split; [lia|].
    split; [intros _; exists emp, ok'; repeat split; reflexivity|].
    split. { intros m. rewrite shrink_front by discriminate. cbn [mo_shadow front_pos h_pos map fst].
      unfold total_motion. cbn [map zsum]. rewrite Hz. lia. }
    split; [discriminate|apply shrink_nonempty].
  - assert (D <> 0) as HDz by lia.
    destruct (MAX_STEPS_PER_SEGMENT <? D) eqn:EM.
    + destruct (divide_loop flip req D (divisions_of D) (Z.to_nat (divisions_of D)) 0 (ls_v0 req) st false) as [[st1 ok1]|] eqn:Ed; [|discriminate].
      cbn [obind] in E. injection E as <- <-.
      destruct (divisions_bounds D HD0) as [Hdp _].
      pose proof (divisions_small D ltac:(lia)) as Hds.
      destruct (divide_loop_spec flip req D (Z.to_nat (divisions_of D)) eq_refl ltac:(lia) _ _ _ _ _ _ Ed)
        as (l & Hl & Hf & Hnn & Ht & Hfa & Hmot & Hfr & hs & Hhs & Hlen).
      destruct (Hnn ltac:(lia)) as [Hne Hlne].
      exists l. unfold sent_segments in *. split; [exact Hl|]. split; [exact Hlne|].
      split. { eapply Forall_impl; [|exact Hf]. intros [s b] H. tauto. }
      split; [intros Hok; apply Ht; [exact Hok|lia]|].
      split; [intros Hok; apply Hfa; [exact Hok|lia]|].
      split. { intros Hok m. rewrite Hmot. destruct (Ht Hok ltac:(lia)) as [-> _].
        rewrite Z.add_0_l, Z2Nat.id by lia. rewrite accumulated_total, accumulated_0 by lia. lia. }
      split. { intros _. eapply Forall_impl; [|exact Hf]. intros [s b] H. tauto. }
      split; [lia|].
      assert (mo_shadow st1 <> []) by (rewrite Hhs; destruct hs, (mo_shadow st); cbn; congruence).
      split. { intros m. rewrite shrink_front by assumption. apply Hfr. }
      split; [exact Hne|apply shrink_nonempty].
    + destruct (enqueue_internal flip st req D) as [[st1 ok1]|] eqn:Ei; [|discriminate].
      cbn [obind] in E. injection E as <- <-.
      destruct (enqueue_internal_spec flip st st1 req D ok1 Ei eq_refl ltac:(lia))
        as (seg & Hs & Hdesc & Ha & Hne & h & Hsh & _ & Hh).
      assert (Htm : forall m, total_motion flip [seg] m = ls_steps req m).
      { intros m. unfold total_motion. cbn [map zsum]. rewrite (proj1 (proj2 Hdesc)). lia. }
      exists [(seg, ok1)]. split; [exact Hs|]. split; [discriminate|].
      split; [repeat constructor; exact Ha|].
      split; [intros ->; repeat constructor|].
      split; [intros ->; exists [], seg; split; [reflexivity|constructor]|].
      split; [intros _; exact Htm|].
      split. { intros _. constructor; [|constructor]. split; [apply Hdesc|eexists; exact Hdesc]. }
      split; [lia|].
      assert (mo_shadow st1 <> []) by (rewrite Hsh; discriminate).
      split. { intros m. rewrite shrink_front by assumption. rewrite Hsh. cbn [front_pos map fst]. rewrite Htm.
        apply Hh. }
      split; [exact Hne|apply shrink_nonempty].
Qed.
