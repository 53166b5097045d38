(** Proofs about the sound of the motors. *)
From Verif Require Import Base Model_Float Model_MotorOps Model_Pru Model_PruQueue Model_Sim Model_Audio Spec_Audio Proofs_Pru.

Definition ov (t : travel) : list Z :=
  repeat 71 (Z.to_nat (t_accel t)) ++ repeat 4 (Z.to_nat (t_travel t)) ++ repeat 72 (Z.to_nat (t_decel t)).
Definition t_vals (t : travel) : Prop := 0 <= t_hires t < 2 ^ 32 /\ 0 <= t_travel_delay t < 2 ^ 32.

Lemma repeat_pred : forall (A : Type) (x : A) z, 0 < z -> repeat x (Z.to_nat z) = x :: repeat x (Z.to_nat (z - 1)).
Proof. intros A x z H. replace (Z.to_nat z) with (S (Z.to_nat (z - 1))) by lia. reflexivity. Qed.
Lemma u32_bound : forall x, 0 <= u32 x < 2 ^ 32.
Proof. intros. unfold u32. apply Z.mod_pos_bound. lia. Qed.
Lemma shiftr_bound : forall x, 0 <= x < 2 ^ 32 -> 0 <= Z.shiftr x 5 < 2 ^ 32.
Proof. intros x H. rewrite Z.shiftr_div_pow2 by lia. split; [apply Z.div_pos; lia|]. apply Z.div_lt_upper_bound; lia. Qed.

Lemma advance_delay : forall t, t_ok t -> t_vals t -> 0 < t_loops t ->
  exists d o r, sim_advance t = Some (d, snd (calculate_delay t)) /\ 0 <= d < 2 ^ 32 /\ t_vals (snd (calculate_delay t)) /\
    ov t = o :: r /\ ov (snd (calculate_delay t)) = r /\ fst (calculate_delay t) = u32 (d - o + 2) /\ 4 <= o <= 72.
Proof.
  intros t K [V1 V2] L. rewrite (sim_advance_pru t K). destruct (t_loops t =? 0) eqn:E0; [lia|]. clear E0.
  destruct K as (Ka & Kb & Kc). unfold t_loops in L.
  unfold sim_advance, calculate_delay, ov, t_vals.
  destruct (0 <? t_accel t) eqn:E1; destruct (t_accel t =? 0) eqn:E2; try lia; cbn [negb].
  - destruct (t_series t =? 0) eqn:E3.
    + cbn [t_hires t_travel_delay t_accel t_travel t_decel fst snd]. rewrite u16_pred by lia. do 3 eexists.
      split; [reflexivity|]. split; [apply shiftr_bound; lia|]. split; [split; lia|]. split; [rewrite (repeat_pred Z 71) by lia; reflexivity|]. split; [reflexivity|].
      split; [|lia]. rewrite Z.shiftr_div_pow2 by (unfold DELAY_CYCLE_SHIFT; lia). change ((IDIV_CYCLES + 9) / 2) with 69. f_equal. lia.
    + rewrite idiv_correct by (apply u32_bound || apply odd_divisor_pos1).
      cbn [t_hires t_travel_delay t_accel t_travel t_decel fst snd]. rewrite u16_pred by lia. do 3 eexists.
      split; [reflexivity|]. rewrite !Z.shiftl_mul_pow2 by lia. change (2 ^ 1) with 2. change (2 ^ 2) with 4. rewrite (Z.mul_comm (t_hires t) 2), (Z.mul_comm (t_series t) 4).
      split; [apply shiftr_bound, u32_bound|]. split; [split; [apply u32_bound|lia]|]. split; [rewrite (repeat_pred Z 71) by lia; reflexivity|]. split; [reflexivity|].
      split; [|lia]. rewrite Z.shiftr_div_pow2 by (unfold DELAY_CYCLE_SHIFT; lia). change ((IDIV_CYCLES + 9) / 2) with 69. f_equal. lia.
  - replace (t_accel t) with 0 by lia. cbn [Z.to_nat repeat app].
    destruct (0 <? t_travel t) eqn:E4; destruct (t_travel t =? 0) eqn:E5; try lia; cbn [negb].
    + cbn [t_hires t_travel_delay t_accel t_travel t_decel fst snd Z.to_nat repeat app]. rewrite u16_pred by lia. do 3 eexists.
      split; [reflexivity|]. split; [lia|]. split; [split; lia|]. split; [rewrite (repeat_pred Z 4) by lia; reflexivity|]. split; [reflexivity|].
      split; [|lia]. change (4 / 2) with 2. f_equal. lia.
    + destruct (0 <? t_decel t) eqn:E6; destruct (t_decel t =? 0) eqn:E7; try lia.
      replace (t_travel t) with 0 by lia. cbn [Z.to_nat repeat app].
      rewrite idiv_correct by (apply u32_bound || apply odd_divisor_pos2).
      cbn [t_hires t_travel_delay t_accel t_travel t_decel fst snd Z.to_nat repeat app]. rewrite u16_pred by lia. do 3 eexists.
      split; [reflexivity|]. rewrite !Z.shiftl_mul_pow2 by lia. change (2 ^ 1) with 2. change (2 ^ 2) with 4. rewrite (Z.mul_comm (t_hires t) 2), (Z.mul_comm (t_series t) 4).
      split; [apply shiftr_bound, u32_bound|]. split; [split; [apply u32_bound|lia]|]. split; [rewrite (repeat_pred Z 72) by lia; reflexivity|]. split; [reflexivity|].
      split; [|lia]. rewrite Z.shiftr_div_pow2 by (unfold DELAY_CYCLE_SHIFT; lia). change ((IDIV_CYCLES + 11) / 2) with 70. f_equal. lia.
Qed.

(** The passes played one after the other. *)
Fixpoint play (l : list ((motor -> bool) * Z)) (a : audio) : outcome audio :=
  match l with
  | [] => Ok (mk_audio (f64_add (au_time a) update_time) (au_current a) (au_data a))
  | (p, d) :: r => obind (audio_update p (f64_add (f64_add (au_time a) update_time) (wait_time d)) a) (play r)
  end.
Lemma update_ext : forall p q u a, (forall m, p m = q m) -> audio_update p u a = audio_update q u a.
Proof. intros p q u a H. unfold audio_update, sample_bytes. now rewrite !H. Qed.
Lemma busy_delay : forall d o, 0 <= d < 2 ^ 32 -> 4 <= o <= 72 ->
  (if u32 (u32 (d - o + 2) - 2) =? 0 then 2 ^ 32 else u32 (u32 (d - o + 2) - 2)) + o < 2 ^ 32 ->
  (if u32 (u32 (d - o + 2) - 2) =? 0 then 2 ^ 32 else u32 (u32 (d - o + 2) - 2)) + o = d.
Proof.
  intros d o Hd Ho. replace (u32 (u32 (d - o + 2) - 2)) with (u32 (d - o)).
  2: { unfold u32. rewrite Zminus_mod_idemp_l. f_equal. lia. }
  destruct (Z_lt_le_dec d o) as [L|L].
  - unfold u32. replace (d - o) with (d - o + 2 ^ 32 + (-1) * 2 ^ 32) by lia. rewrite Z.mod_add by lia. rewrite Z.mod_small by lia.
    destruct (_ =? 0); lia.
  - unfold u32. rewrite Z.mod_small by lia. destruct (d - o =? 0) eqn:E; lia.
Qed.
Lemma loop_play : forall s n st t c ls a, t_ok t -> t_vals t -> t_loops t = Z.of_nat n ->
  step_gen (S n) (ms_fractions s) st t c = Some ls -> length ls = S n ->
  Forall (fun '(l, o) => pl_delay l + o < 2 ^ 32) (combine ls (ov t)) ->
  audio_loop (S n) s st t a = play (map (fun '(l, o) => (pl_pins l, pl_delay l + o)) (combine ls (ov t))) a.
Proof.
  intros s n. induction n as [|n IH]; intros st t c ls a K V L E Hl F.
  - assert (Ov : ov t = []) by (destruct K as (?&?&?); unfold t_loops in L; unfold ov; replace (t_accel t) with 0 by lia; replace (t_travel t) with 0 by lia; replace (t_decel t) with 0 by lia; reflexivity).
    rewrite Ov. rewrite combine_nil. cbn [audio_loop map play]. rewrite (sim_advance_pru t K), L. reflexivity.
  - destruct (advance_delay t K V ltac:(lia)) as (d & o & r & E1 & Hd & V' & O1 & O2 & E2 & Ho). destruct (calculate_delay_step t K ltac:(lia)) as [K' L'].
    remember (S n) as n1. cbn [step_gen] in E. cbn [audio_loop]. rewrite E1. destruct (calculate_delay t) as [dl t'] eqn:Ec. cbn [fst snd] in *.
    destruct (dl =? 0) eqn:E0; [injection E as <-; cbn in Hl; lia|].
    destruct (step_gen n1 (ms_fractions s) _ t' (c - 1)) as [rest|] eqn:Er; [|discriminate]. injection E as <-. subst n1.
    rewrite O1 in *. cbn [combine map play] in *. inversion F as [|? ? F1 F2]; subst. cbn [pl_delay pl_pins] in *.
    change (4 / 2) with 2 in *. rewrite (busy_delay d o Hd Ho F1).
    erewrite update_ext; [|intros m; rewrite land_bit31; reflexivity].
    match goal with |- obind (audio_update ?p ?u a) _ = obind (audio_update ?q ?v a) _ => change (audio_update q v a) with (audio_update p u a); destruct (audio_update p u a) as [a'|]; [|reflexivity] end. cbn [obind].
    eapply IH; [exact K'|exact V'|lia|exact Er|cbn in Hl; lia|exact F2].
Qed.

Lemma enqueue_play : forall s a, ms_state s <> STATE_EXIT -> playable s -> audio_enqueue s a = play (heard s) a.
Proof.
  intros s a X (A & B & C & H & T & ls & E & Hl & F). unfold audio_enqueue, heard. rewrite E.
  destruct (ms_state s =? STATE_EXIT) eqn:E0; [lia|]. unfold pru_execute in E.
  assert (N : Z.to_nat (total_loops s + 1) = S (Z.to_nat (total_loops s))) by (unfold total_loops; lia). rewrite N in *.
  apply (loop_play s (Z.to_nat (total_loops s)) (fun _ => 0) (travel_of s) (total_loops s) ls a).
  - repeat split; cbn; lia.
  - repeat split; cbn; lia.
  - unfold t_loops, travel_of, total_loops. cbn. unfold total_loops in *. lia.
  - exact E.
  - rewrite Hl. unfold overheads. rewrite !app_length, !repeat_length. unfold total_loops. lia.
  - exact F.
Qed.

(** The data that belong to the ends of passes [ends]. *)
Definition bytes_at (ends : list (fl * (motor -> bool))) (k : nat) : list Z :=
  match pins_at (Z.of_nat k) ends with Some p => sample_bytes p | None => [] end.
Definition sounds (ends : list (fl * (motor -> bool))) (a : audio) : Prop :=
  au_current a = samples_of ends /\ au_data a = concat (map (bytes_at ends) (seq 0 (Z.to_nat (samples_of ends)))).
Lemma samples_snoc : forall ends e, samples_of (ends ++ [e]) = Z.max (samples_of ends) (samples_before (fst e)).
Proof. intros. unfold samples_of. rewrite fold_left_app. reflexivity. Qed.
Lemma samples_nonneg : forall ends, 0 <= samples_of ends.
Proof. intros ends. induction ends as [|e ends IH] using rev_ind; [cbn; lia|]. rewrite samples_snoc. lia. Qed.
Lemma find_app : forall (A : Type) (f : A -> bool) l r, find f (l ++ r) = match find f l with Some x => Some x | None => find f r end.
Proof. intros A f l r. induction l as [|x l IH]; [reflexivity|]. cbn [app find]. destruct (f x); [reflexivity|exact IH]. Qed.
Lemma find_before : forall ends k, 0 <= k -> (k < samples_of ends <-> find (fun e => k <? samples_before (fst e)) ends <> None).
Proof.
  intros ends k Hk. induction ends as [|e ends IH] using rev_ind; [cbn; split; [lia|congruence]|]. rewrite samples_snoc, find_app. cbn [find].
  destruct (find _ ends) as [x|] eqn:E.
  - split; [discriminate|]. intros _. assert (k < samples_of ends) by (apply IH; discriminate). lia.
  - assert (~ k < samples_of ends) by (intros H; now apply IH in H). destruct (k <? samples_before (fst e)) eqn:G; split; try congruence; lia.
Qed.
Lemma pins_at_old : forall ends e k, 0 <= k < samples_of ends -> pins_at k (ends ++ [e]) = pins_at k ends.
Proof. intros ends e k [H0 H]. unfold pins_at. rewrite find_app. apply find_before in H; [|exact H0]. destruct (find _ ends); [reflexivity|congruence]. Qed.
Lemma pins_at_new : forall ends e k, samples_of ends <= k < samples_before (fst e) -> pins_at k (ends ++ [e]) = Some (snd e).
Proof.
  intros ends e k H. pose proof (samples_nonneg ends). unfold pins_at. rewrite find_app.
  destruct (find _ ends) as [x|] eqn:E; [exfalso; assert (k < samples_of ends) by (apply find_before; [lia|congruence]); lia|].
  cbn [find]. replace (k <? samples_before (fst e)) with true by lia. reflexivity.
Qed.
Lemma target_is : forall u n, target_sample u = Some n -> samples_before u = n /\ 0 <= n < 2 ^ 32.
Proof. intros u n. unfold target_sample, samples_before. destruct (fl_trunc _) as [z|]; [|discriminate]. destruct (_ && _) eqn:E; [|discriminate]. intros H. injection H as <-. lia. Qed.
Lemma map_const : forall (A B : Type) (f : A -> B) b l, (forall x, In x l -> f x = b) -> map f l = repeat b (length l).
Proof. intros A B f b l H. induction l as [|x l IH]; [reflexivity|]. cbn [map length repeat]. rewrite (H x (or_introl eq_refl)), IH; [reflexivity|]. intros y Y. apply H. now right. Qed.
Lemma update_sounds : forall ends a p u a', sounds ends a -> audio_update p u a = Ok a' -> sounds (ends ++ [(u, p)]) a' /\ au_time a' = u.
Proof.
  intros ends a p u a' [S1 S2] E. unfold audio_update in E. destruct (target_sample u) as [n|] eqn:T; [|discriminate]. injection E as <-. apply target_is in T. destruct T as [T R].
  split; [|reflexivity]. pose proof (samples_nonneg ends) as N. unfold sounds. cbn [au_current au_data]. rewrite samples_snoc. cbn [fst]. rewrite T, S1. split; [reflexivity|].
  replace (Z.to_nat (Z.max (samples_of ends) n)) with (Z.to_nat (samples_of ends) + Z.to_nat (n - samples_of ends))%nat by lia.
  rewrite seq_app, map_app, concat_app. f_equal.
  - rewrite S2. f_equal. apply map_ext_in. intros k K. apply in_seq in K. unfold bytes_at. rewrite pins_at_old; [reflexivity|lia].
  - f_equal. symmetry. rewrite <- (seq_length (Z.to_nat (n - samples_of ends)) (0 + Z.to_nat (samples_of ends))) at 2. apply map_const. intros k K. apply in_seq in K.
    unfold bytes_at. rewrite pins_at_new; [reflexivity|]. cbn [fst]. lia.
Qed.
Lemma play_sounds : forall l ends a a', sounds ends a -> play l a = Ok a' ->
  sounds (ends ++ fst (pass_ends (au_time a) l)) a' /\ au_time a' = snd (pass_ends (au_time a) l).
Proof.
  induction l as [|[p d] l IH]; intros ends a a' S E; cbn [play pass_ends] in *.
  - injection E as <-. cbn [fst snd au_time]. rewrite app_nil_r. split; [exact S|reflexivity].
  - destruct (audio_update p _ a) as [a1|] eqn:U; [|discriminate]. cbn [obind] in E. apply (update_sounds ends) in U; [|exact S]. destruct U as [U1 U2].
    destruct (IH _ _ _ U1 E) as [I1 I2]. rewrite U2 in I1, I2. change (f64_div (f64_of_Z 160) (f64_of_Z 1000000000)) with update_time. change (f64_div (f64_of_Z d) (f64_of_Z 100000000)) with (wait_time d).
    destruct (pass_ends _ l) as [x e]. cbn [fst snd] in *. rewrite <- app_assoc in I1. split; [exact I1|exact I2].
Qed.
Lemma run_sounds : forall segs ends a a', Forall (fun s => ms_state s <> STATE_EXIT -> playable s) segs -> sounds ends a -> audio_run segs a = Ok a' ->
  sounds (ends ++ run_ends (au_time a) (played segs)) a'.
Proof.
  unfold played. induction segs as [|s segs IH]; intros ends a a' P S E; cbn [audio_run filter map run_ends] in *.
  - injection E as <-. now rewrite app_nil_r.
  - inversion P as [|? ? P1 P2]; subst. destruct (audio_enqueue s a) as [a1|] eqn:Q; [|discriminate]. cbn [obind] in E.
    destruct (ms_state s =? STATE_EXIT) eqn:X; cbn [negb].
    + unfold audio_enqueue in Q. rewrite X in Q. injection Q as <-. now apply IH.
    + assert (X' : ms_state s <> STATE_EXIT) by lia. rewrite (enqueue_play s a X' (P1 X')) in Q. apply (play_sounds _ ends) in Q; [|exact S]. destruct Q as [Q1 Q2].
      specialize (IH _ _ _ P2 Q1 E). rewrite Q2 in IH. cbn [map run_ends]. destruct (pass_ends (au_time a) (heard s)) as [x e]. cbn [fst snd] in *. now rewrite <- app_assoc in IH.
Qed.

(** ** The file *)
Lemma file_is : forall a, wav_file a = firstn 4 wav_header ++ le32 (u32 (u32 (4 * au_current a) + 36)) ++ firstn 32 (skipn 8 wav_header) ++ le32 (u32 (4 * au_current a)) ++ au_data a.
Proof. reflexivity. Qed.
Lemma le32_value : forall x, 0 <= x < 2 ^ 32 -> x mod 256 + 256 * (x / 256 mod 256) + 65536 * (x / 65536 mod 256) + 16777216 * (x / 16777216 mod 256) = x.
Proof.
  intros x H. change 65536 with (256 * 256). change 16777216 with (256 * 256 * 256). rewrite <- !Z.div_div by lia.
  rewrite (Z.mod_small (x / 256 / 256 / 256)). 2: { rewrite !Z.div_div by lia. split; [apply Z.div_pos; lia|]. apply Z.div_lt_upper_bound; lia. }
  pose proof (Z.div_mod x 256 ltac:(lia)). pose proof (Z.div_mod (x / 256) 256 ltac:(lia)). pose proof (Z.div_mod (x / 256 / 256) 256 ltac:(lia)). lia.
Qed.
Lemma nth_blocks : forall (A : Type) (f : A -> list Z) l k j d x, (forall y, In y l -> length (f y) = 4%nat) -> nth_error l k = Some x -> (j < 4)%nat ->
  nth (4 * k + j) (concat (map f l)) d = nth j (f x) d.
Proof.
  intros A f l. induction l as [|y l IH]; intros k j d x F E J; [destruct k; discriminate|]. cbn [map concat]. pose proof (F y (or_introl eq_refl)) as Fy.
  destruct k as [|k]; cbn [nth_error] in E.
  - injection E as <-. rewrite app_nth1 by lia. f_equal.
  - rewrite app_nth2 by lia. replace (4 * S k + j - length (f y))%nat with (4 * k + j)%nat by lia. apply IH; [|exact E|exact J]. intros z Z1. apply F. now right.
Qed.
Lemma concat_len : forall (A : Type) (f : A -> list Z) l, (forall y, In y l -> length (f y) = 4%nat) -> length (concat (map f l)) = (4 * length l)%nat.
Proof. intros A f l F. induction l as [|y l IH]; [reflexivity|]. cbn [map concat length]. rewrite app_length, (F y (or_introl eq_refl)), IH; [lia|]. intros z Z1. apply F. now right. Qed.
Lemma bytes_len : forall ends k, Z.of_nat k < samples_of ends -> length (bytes_at ends k) = 4%nat.
Proof.
  intros ends k H. apply find_before in H; [|lia]. unfold bytes_at, pins_at. destruct (find _ ends) as [e|]; [reflexivity|congruence].
Qed.
