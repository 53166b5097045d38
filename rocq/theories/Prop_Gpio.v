(** C75: the pins. *)
From Verif Require Import Base Model_Axis Model_Hardware Model_MotorOps Model_Pru Model_PruQueue Model_Gpio Spec_Gpio.

Definition lines : list Z := map Z.of_nat (seq 0 32).
Lemma line_in : forall i, 0 <= i < 32 -> In i lines.
Proof. intros i H. unfold lines. apply in_map_iff. exists (Z.to_nat i). split; [lia|]. apply in_seq. lia. Qed.
(** A statement about every pin, checked pin by pin. *)
Lemma each_pin : forall P : Z -> Z -> bool, forallb (fun b => forallb (P b) lines) [0; 1; 2; 3] = true -> forall b i, is_pin b i -> P b i = true.
Proof.
  intros P H b i [Hb Hi]. rewrite forallb_forall in H. assert (I : In b [0; 1; 2; 3]) by (cbn; lia).
  specialize (H b I). cbv beta in H. rewrite forallb_forall in H. apply H, line_in, Hi.
Qed.
Lemma pin_bank : forall b i, is_pin b i -> bank_of (pin b i) = Some b.
Proof.
  intros b i H. pose proof (each_pin (fun b i => match bank_of (pin b i) with Some x => x =? b | None => false end) ltac:(vm_compute; reflexivity) b i H) as E.
  cbv beta in E. destruct (bank_of (pin b i)) as [x|]; [|discriminate]. apply Z.eqb_eq in E. now subst.
Qed.
Lemma pin_line : forall b i, is_pin b i -> Z.land (pin b i) 0x1f = i.
Proof. intros b i H. pose proof (each_pin (fun b i => Z.land (pin b i) 0x1f =? i) ltac:(vm_compute; reflexivity) b i H) as E. now apply Z.eqb_eq. Qed.
Lemma pin_base : forall b i, is_pin b i -> Z.land (pin b i) 0xfffff000 = GPIO_BASE b.
Proof. intros b i H. pose proof (each_pin (fun b i => Z.land (pin b i) 0xfffff000 =? GPIO_BASE b) ltac:(vm_compute; reflexivity) b i H) as E. now apply Z.eqb_eq. Qed.
Lemma pin_mask : forall b i j, is_pin b i -> 0 <= j -> Z.testbit (mask_of (pin b i)) j = (i =? j).
Proof.
  intros b i j H Hj. unfold mask_of. rewrite pin_line by exact H. destruct H as [_ Hi]. rewrite Z.shiftl_spec by lia.
  destruct (Z.eqb_spec i j) as [->|N]; [now rewrite Z.sub_diag|]. destruct (Z_lt_dec j i); [apply Z.testbit_neg_r; lia|].
  change 1 with (2 ^ 0). apply Z.pow2_bits_false. lia.
Qed.
Lemma pin_inj : forall b i b' i', is_pin b i -> is_pin b' i' -> pin b i = pin b' i' -> b = b' /\ i = i'.
Proof.
  intros b i b' i' H H' E. pose proof (pin_bank b i H) as B. rewrite E, pin_bank in B by exact H'. split; [congruence|].
  rewrite <- (pin_line b i H), E. now apply pin_line.
Qed.
Lemma pin_not_0 : forall b i, is_pin b i -> pin b i <> GPIO_NOT_MAPPED.
Proof. intros b i H E. pose proof (pin_bank b i H) as B. rewrite E in B. discriminate. Qed.
Lemma none_bank : bank_of GPIO_NOT_MAPPED = None.
Proof. reflexivity. Qed.
Lemma bus_at : forall b off w r, is_pin b 0 -> off = GPIO_SETDATAOUT \/ off = GPIO_CLEARDATAOUT -> bus_write (u32 (GPIO_BASE b + off)) w r = reg_write b off w r.
Proof.
  intros b off w r [Hb _] H. assert (C : b = 0 \/ b = 1 \/ b = 2 \/ b = 3) by lia.
  destruct C as [->|[->|[->| ->]]]; destruct H as [->| ->]; reflexivity.
Qed.

(** ** Writing a pin *)
Definition put (level : bool) (d : Z) (r : regs) : regs :=
  match bank_of d with Some b => reg_write b (if level then GPIO_SETDATAOUT else GPIO_CLEARDATAOUT) (mask_of d) r | None => r end.
Lemma put_oe : forall l d r, r_oe (put l d r) = r_oe r.
Proof. intros l d r. unfold put. destruct (bank_of d); [|reflexivity]. destruct l; reflexivity. Qed.
Lemma put_in : forall l d r, r_in (put l d r) = r_in r.
Proof. intros l d r. unfold put. destruct (bank_of d); [|reflexivity]. destruct l; reflexivity. Qed.
Lemma high_set : forall b w r b' i, high (reg_write b GPIO_SETDATAOUT w r) b' i = if b' =? b then Z.testbit (Z.lor (r_out r b) w) i else high r b' i.
Proof. intros. unfold high, reg_write. cbn. unfold set_at. now destruct (b' =? b). Qed.
Lemma high_clear : forall b w r b' i, high (reg_write b GPIO_CLEARDATAOUT w r) b' i = if b' =? b then Z.testbit (Z.land (r_out r b) (Z.lnot w)) i else high r b' i.
Proof. intros. unfold high, reg_write. cbn. unfold set_at. now destruct (b' =? b). Qed.
Lemma put_high : forall l d r b i, connector d -> is_pin b i -> high (put l d r) b i = if d =? pin b i then l else high r b i.
Proof.
  intros l d r b i [->|(b' & i' & H' & ->)] H.
  - unfold put. rewrite none_bank. destruct (Z.eqb_spec GPIO_NOT_MAPPED (pin b i)) as [E|_]; [|reflexivity]. symmetry in E. now apply pin_not_0 in E.
  - unfold put. rewrite pin_bank by exact H'. destruct (Z.eqb_spec (pin b' i') (pin b i)) as [E|N].
    + apply pin_inj in E; [|exact H'|exact H]. destruct E as [-> ->]. pose proof H as [_ Hi].
      destruct l; [rewrite high_set|rewrite high_clear]; rewrite ?Z.eqb_refl; rewrite ?Z.lor_spec, ?Z.land_spec, ?Z.lnot_spec by lia; rewrite pin_mask, Z.eqb_refl by (lia || exact H).
      * apply orb_true_r.
      * apply andb_false_r.
    + assert (D : b' <> b \/ i' <> i) by (destruct (Z.eq_dec b' b) as [->|]; [|tauto]; destruct (Z.eq_dec i' i) as [->|]; [now elim N|tauto]).
      pose proof H as [_ Hi]. destruct l; [rewrite high_set|rewrite high_clear]; (destruct (Z.eqb_spec b b') as [<-|Nb]; [|reflexivity]);
      rewrite ?Z.lor_spec, ?Z.land_spec, ?Z.lnot_spec by lia; rewrite pin_mask by (lia || exact H'); (destruct (Z.eqb_spec i' i); [lia|]); cbn [negb]; [apply orb_false_r|apply andb_true_r].
Qed.
Lemma macro_put : forall bits bit d r, connector d -> set_gpio_macro bits bit d r = put (Z.testbit bits bit) d r.
Proof.
  intros bits bit d r [->|(b & i & H & ->)]; [reflexivity|]. unfold set_gpio_macro, put. rewrite pin_base, pin_bank by exact H.
  assert (N : GPIO_BASE b / 65536 =? GPIO_NOT_MAPPED = false).
  { destruct H as [Hb _]. assert (C : b = 0 \/ b = 1 \/ b = 2 \/ b = 3) by lia. destruct C as [->|[->|[->| ->]]]; reflexivity. }
  rewrite N. apply bus_at; [destruct H; split; lia|]. destruct (Z.testbit bits bit); auto.
Qed.

(** ** Histories *)
(** Either there is access to all banks or to none; the pointers are never bad. *)
Definition access (s : gsys) (a : bool) : Prop := forall b, 0 <= b < 4 -> g_ptr s b = if a then At else Null.
Lemma bank_range : forall d b, bank_of d = Some b -> 0 <= b < 4.
Proof. intros d b. unfold bank_of. repeat destruct (_ =? _); intros E; inversion E; lia. Qed.
Lemma write_is : forall s (a l : bool) d, access s a -> write_gpio s (if l then GPIO_SETDATAOUT else GPIO_CLEARDATAOUT) d = Ok (with_regs s (if a then put l d (g_regs s) else g_regs s)).
Proof.
  intros s a l d A. unfold write_gpio, get_gpio_base, put. destruct (bank_of d) as [b|] eqn:B.
  - rewrite (A b) by (eapply bank_range; exact B). destruct a; [reflexivity|]. destruct s; reflexivity.
  - destruct a, s; reflexivity.
Qed.
Lemma unmapped : forall s, access (unmap_gpio s) false.
Proof. intros s b H. cbn. destruct (Z.leb_spec 0 b); [|lia]. destruct (Z.leb_spec b 3); [reflexivity|lia]. Qed.
Lemma map_ports_regs : forall ok bs s, g_regs (snd (map_ports ok bs s)) = g_regs s.
Proof. intros ok bs. induction bs as [|b bs IH]; intros s; [reflexivity|]. cbn [map_ports]. destruct (ok b); [now rewrite IH|reflexivity]. Qed.
Definition all_ok (ok : Z -> bool) : bool := ok 0 && ok 1 && ok 2 && ok 3.
Lemma map_ports_all : forall ok s, fst (map_ports ok [0; 1; 2; 3] s) = all_ok ok /\ (all_ok ok = true -> access (snd (map_ports ok [0; 1; 2; 3] s)) true).
Proof.
  intros ok s. unfold all_ok. cbn [map_ports].
  destruct (ok 0) eqn:E0; cbn [andb]; [|split; [reflexivity|discriminate]].
  destruct (ok 1) eqn:E1; cbn [andb]; [|split; [reflexivity|discriminate]].
  destruct (ok 2) eqn:E2; cbn [andb]; [|split; [reflexivity|discriminate]].
  destruct (ok 3) eqn:E3; cbn [andb]; [|split; [reflexivity|discriminate]].
  split; [reflexivity|]. intros _ b H. cbn. rewrite ?E0, ?E1, ?E2, ?E3. assert (C : b = 0 \/ b = 1 \/ b = 2 \/ b = 3) by lia. destruct C as [->|[->|[->| ->]]]; reflexivity.
Qed.
Lemma cfg_out : forall c r, r_out (cfg_gpio_io c r) = r_out r.
Proof. reflexivity. Qed.

(** C75: in every history no pointer of a bank that is not there is used, and every
    pin has the level that was last said while there was access. *)
Theorem C75_levels : forall c start ops, Forall op_ok ops ->
  exists s, grun c (mk_gsys start (fun _ => Null)) ops = Ok s /\
    forall b i, is_pin b i -> high (g_regs s) b i = should (pin b i) false (high start b i) ops.
Proof.
  intros c start ops H.
  assert (G : forall ops s a, Forall op_ok ops -> access s a -> exists s', grun c s ops = Ok s' /\
    forall b i, is_pin b i -> high (g_regs s') b i = should (pin b i) a (high (g_regs s) b i) ops).
  { clear. induction ops as [|op ops IH]; intros s a H A; [exists s; split; reflexivity|]. inversion H as [|? ? H1 H2]; subst.
    assert (K : forall s' a', access s' a' -> gstep c s op = Ok s' ->
      (forall b i, is_pin b i -> should (pin b i) a' (high (g_regs s') b i) ops = should (pin b i) a (high (g_regs s) b i) (op :: ops)) ->
      exists s', grun c s (op :: ops) = Ok s' /\ forall b i, is_pin b i -> high (g_regs s') b i = should (pin b i) a (high (g_regs s) b i) (op :: ops)).
    { intros s' a' A' E T. destruct (IH s' a' H2 A') as (s2 & E2 & T2). exists s2. cbn [grun]. rewrite E. split; [exact E2|]. intros b i P. rewrite T2 by exact P. now apply T. }
    destruct op as [o k ok| |d|d|bits bit d|f].
    - destruct o.
      + destruct k; [|apply (K (unmap_gpio s) false); [apply unmapped|reflexivity|reflexivity]].
        destruct (map_ports_all ok s) as [E1 E2]. pose proof (map_ports_regs ok [0; 1; 2; 3] s) as E3. destruct (map_ports ok [0; 1; 2; 3] s) as [al s1] eqn:M. cbn [fst snd] in *. subst al.
        apply (K (snd (map_gpio c true true ok s)) (all_ok ok)); unfold map_gpio; cbn [negb]; rewrite M.
        * destruct (all_ok ok); [apply E2; reflexivity|apply unmapped].
        * unfold gstep, map_gpio. cbn [negb]. now rewrite M.
        * intros b i P. cbn [should andb]. fold (all_ok ok). f_equal. destruct (all_ok ok); cbn [snd with_regs g_regs]; [unfold high; now rewrite cfg_out, E3|change (g_regs (unmap_gpio s1)) with (g_regs s1); now rewrite E3].
      + apply (K s a A); reflexivity.
    - apply (K (unmap_gpio s) false); [apply unmapped|reflexivity|reflexivity].
    - apply (K (with_regs s (if a then put true d (g_regs s) else g_regs s)) a A (write_is s a true d A)).
      intros b i P. cbn [should with_regs g_regs]. f_equal. destruct a; [|reflexivity]. now rewrite put_high.
    - apply (K (with_regs s (if a then put false d (g_regs s) else g_regs s)) a A (write_is s a false d A)).
      intros b i P. cbn [should with_regs g_regs]. f_equal. destruct a; [|reflexivity]. now rewrite put_high.
    - apply (K (with_regs s (set_gpio_macro bits bit d (g_regs s))) a A eq_refl).
      intros b i P. cbn [should with_regs g_regs]. f_equal. rewrite macro_put by exact H1. now rewrite put_high.
    - apply (K (with_regs s (mk_regs (r_oe (g_regs s)) (r_out (g_regs s)) f)) a A eq_refl). reflexivity. }
  apply (G ops (mk_gsys start (fun _ => Null)) false H). intros b _. reflexivity.
Qed.
Print Assumptions C75_levels.

(** ** Directions *)
Lemma mask_step : forall mask d b i, connector d -> is_pin b i ->
  Z.testbit (set_gpio_mask mask d b) i = (d =? pin b i) || Z.testbit (mask b) i.
Proof.
  intros mask d b i [->|(b' & i' & H' & ->)] H.
  - unfold set_gpio_mask. rewrite none_bank. destruct (Z.eqb_spec GPIO_NOT_MAPPED (pin b i)) as [E|_]; [|reflexivity]. symmetry in E. now apply pin_not_0 in E.
  - unfold set_gpio_mask, set_at. rewrite pin_bank by exact H'. destruct (Z.eqb_spec b b') as [<-|N].
    + destruct H as [Hb Hi]. rewrite Z.lor_spec, pin_mask by (lia || exact H'). rewrite orb_comm. f_equal.
      destruct (Z.eqb_spec i' i) as [->|Ni]; [symmetry; apply Z.eqb_refl|]. symmetry. apply Z.eqb_neq. intros E. apply pin_inj in E; [lia|exact H'|split; assumption].
    + destruct (Z.eqb_spec (pin b' i') (pin b i)) as [E|_]; [|reflexivity]. apply pin_inj in E; [lia|exact H'|exact H].
Qed.
Lemma masks_bit : forall ds b i, Forall connector ds -> is_pin b i -> Z.testbit (masks ds b) i = true <-> In (pin b i) ds.
Proof.
  intros ds b i H P. assert (G : forall ds mask, Forall connector ds -> Z.testbit (fold_left set_gpio_mask ds mask b) i = true <-> In (pin b i) ds \/ Z.testbit (mask b) i = true).
  { clear ds H. induction ds as [|d ds IH]; intros mask H; [cbn; tauto|]. inversion H as [|? ? H1 H2]; subst. cbn [fold_left In]. rewrite IH by exact H2. rewrite mask_step by assumption.
    destruct (Z.eqb_spec d (pin b i)); cbn [orb]; tauto. }
  unfold masks. rewrite G by exact H. cbv beta. rewrite Z.testbit_0_l. split; [intros [?|?]; [assumption|discriminate]|auto].
Qed.
Lemma cfg_oe : forall c r b i, 0 <= b < 4 -> 0 <= i ->
  is_input (cfg_gpio_io c r) b i = Z.testbit (masks (in_pins c) b) i || (negb (Z.testbit (masks (out_pins c) b) i) && is_input r b i).
Proof.
  intros c r b i Hb Hi. unfold cfg_gpio_io. set (O := masks (out_pins c)). set (I := masks (in_pins c)).
  assert (C : b = 0 \/ b = 1 \/ b = 2 \/ b = 3) by lia. unfold is_input.
  destruct C as [->|[->|[->| ->]]]; cbn; rewrite Z.lor_spec, Z.land_spec, Z.lnot_spec by exact Hi; rewrite orb_comm; f_equal; apply andb_comm.
Qed.

Lemma in_pins_all : forall c d, In d (in_pins c) <-> switch_pin c d.
Proof.
  intros c d. unfold in_pins, switch_pin. rewrite in_map_iff. split.
  - intros (n & H1 & H2). exists n. cbn in H2. split; [lia|now symmetry].
  - intros (n & H1 & ->). exists n. split; [reflexivity|]. cbn. lia.
Qed.
Lemma out_pins_all : forall c d, In d (out_pins c) <-> driven_pin c d.
Proof.
  intros c d. unfold out_pins, driven_pin. rewrite !in_app_iff, !in_map_iff. cbn [In]. split.
  - intros [(m & <- & _)|[(m & <- & _)|[[<-|[]]|[(n & <- & H)|(n & <- & H)]]]]; [left; eauto|left; eauto|right; now left|right; right; left|right; right; right]; exists n; (split; [lia|reflexivity]).
  - intros [(m & [->| ->])|[->|[(n & H & ->)|(n & H & ->)]]]; [left|right; left|right; right; left; now left|do 3 right; left|do 4 right]; [exists m|exists m|exists n|exists n]; (split; [reflexivity|]); [destruct m; cbn; tauto|destruct m; cbn; tauto|lia|lia].
Qed.

(** C75: when the pins are set up, every input of the cape is an input, every output that
    is not an input too is an output, and all other pins keep their direction; no level
    changes. When this fails there is no access to any pin, and nothing has changed. *)
Theorem C75_directions : forall c opened clocks ok s, wired c ->
  let '(done, s') := map_gpio c opened clocks ok s in
  let r := g_regs s in let r' := g_regs s' in
  done = opened && clocks && (ok 0 && ok 1 && ok 2 && ok 3) /\
  (done = true ->
     (forall b i, is_pin b i ->
        (switch_pin c (pin b i) -> is_input r' b i = true) /\
        (driven_pin c (pin b i) -> ~ switch_pin c (pin b i) -> is_input r' b i = false) /\
        (~ driven_pin c (pin b i) -> ~ switch_pin c (pin b i) -> is_input r' b i = is_input r b i) /\
        high r' b i = high r b i /\ get_gpio s' (pin b i) = Ok (if seen r b i then 1 else 0))) /\
  (done = false -> r' = r /\ (opened = true -> forall d, get_gpio s' d = Ok (-1) /\ set_gpio s' d = Ok s' /\ clr_gpio s' d = Ok s')).
Proof.
  intros c o k ok s [WO WI]. unfold map_gpio.
  assert (U : forall s, g_regs (unmap_gpio s) = g_regs s /\ (forall d, get_gpio (unmap_gpio s) d = Ok (-1) /\ set_gpio (unmap_gpio s) d = Ok (unmap_gpio s) /\ clr_gpio (unmap_gpio s) d = Ok (unmap_gpio s))).
  { clear. intros s. split; [reflexivity|]. intros d. unfold get_gpio, set_gpio, clr_gpio, write_gpio, get_gpio_base. destruct (bank_of d) as [b|] eqn:B; [|auto].
    rewrite (unmapped s b) by (eapply bank_range; exact B). auto. }
  destruct o; cbn [negb andb]; [|split; [reflexivity|split; [discriminate|intros _; split; [reflexivity|discriminate]]]].
  destruct k; cbn [negb andb]; [|split; [reflexivity|split; [discriminate|intros _; split; [reflexivity|intros _; apply U]]]].
  destruct (map_ports_all ok s) as [E1 E2]. pose proof (map_ports_regs ok [0; 1; 2; 3] s) as E3. destruct (map_ports ok [0; 1; 2; 3] s) as [al s1]. cbn [fst snd] in *. subst al.
  fold (all_ok ok). destruct (all_ok ok).
  - split; [reflexivity|]. split; [|discriminate]. intros _ b i P. cbn [with_regs g_regs]. rewrite <- E3. pose proof (masks_bit _ b i WO P) as MO. pose proof (masks_bit _ b i WI P) as MI.
    rewrite cfg_oe by (destruct P; lia). rewrite <- in_pins_all, <- out_pins_all. repeat split.
    + intros J. now rewrite (proj2 MI J).
    + intros J N. apply MO in J. rewrite J. destruct (Z.testbit (masks (in_pins c) b) i); [elim N; now apply MI|reflexivity].
    + intros J N. destruct (Z.testbit (masks (in_pins c) b) i); [elim N; now apply MI|]. destruct (Z.testbit (masks (out_pins c) b) i); [elim J; now apply MO|reflexivity].
    + unfold get_gpio, get_gpio_base. rewrite pin_bank by exact P. cbn [with_regs g_ptr]. rewrite (E2 eq_refl b) by apply P. f_equal.
      unfold seen. cbn [with_regs g_regs]. change (reg_read b GPIO_DATAIN (cfg_gpio_io c (g_regs s1))) with (r_in (g_regs s1) b).
      destruct P as [Hb Hi]. destruct (Z.testbit (r_in (g_regs s1) b) i) eqn:T.
      * destruct (Z.eqb_spec (Z.land (r_in (g_regs s1) b) (mask_of (pin b i))) 0) as [E|_]; [|reflexivity]. exfalso.
        assert (X : Z.testbit (Z.land (r_in (g_regs s1) b) (mask_of (pin b i))) i = true) by (rewrite Z.land_spec, T, pin_mask by (lia || (split; assumption)); now rewrite Z.eqb_refl).
        rewrite E, Z.testbit_0_l in X. discriminate.
      * replace (Z.land (r_in (g_regs s1) b) (mask_of (pin b i))) with 0; [reflexivity|]. symmetry. apply Z.bits_inj'. intros n Hn. rewrite Z.land_spec, Z.testbit_0_l, pin_mask by (lia || (split; assumption)).
        destruct (Z.eqb_spec i n) as [<-|]; [now rewrite T|apply andb_false_r].
  - split; [reflexivity|]. split; [discriminate|]. intros _. rewrite <- E3. split; [reflexivity|intros _; apply U].
Qed.
Print Assumptions C75_directions.

(** ** The firmware *)
Lemma put_all : forall (A : Type) (f : A -> Z) (g : A -> bool) xs r, Forall connector (map f xs) -> apart (map f xs) ->
  shows r (fold_left (fun r x => put (g x) (f x) r) xs r) (map f xs) (map g xs).
Proof.
  intros A f g xs. induction xs as [|x xs IH]; intros r H D.
  - split; [|reflexivity]. intros b i P. split; [intros l []|reflexivity].
  - cbn [map] in H. inversion H as [|? ? H1 H2]; subst. unfold apart in D. cbn [map filter] in D.
    assert (D2 : apart (map f xs)) by (unfold apart; destruct (negb (f x =? GPIO_NOT_MAPPED)); [now inversion D|exact D]).
    destruct (IH (put (g x) (f x) r) H2 D2) as [S O]. split; [|cbn [fold_left]; rewrite O; apply put_oe].
    intros b i P. destruct (S b i P) as [S1 S2]. cbn [fold_left map combine]. split.
    + intros l [E|I]; [|now apply S1]. inversion E as [[E1 E2]]. rewrite S2.
      * rewrite put_high by assumption. now rewrite E1, Z.eqb_refl.
      * rewrite E1 in D. destruct (Z.eqb_spec (pin b i) GPIO_NOT_MAPPED) as [X|_]; [now apply pin_not_0 in X|]. cbn [negb] in D. inversion D as [|? ? N _]; subst.
        intros I. apply N. apply filter_In. split; [exact I|]. destruct (Z.eqb_spec (pin b i) GPIO_NOT_MAPPED) as [X|_]; [now apply pin_not_0 in X|reflexivity].
    + intros N. cbn [In] in N. rewrite S2 by tauto. rewrite put_high by assumption. destruct (Z.eqb_spec (f x) (pin b i)); [elim N; auto|reflexivity].
Qed.
Lemma fold_ext : forall (A : Type) (g h : regs -> A -> regs) xs r, (forall r x, In x xs -> g r x = h r x) -> fold_left g xs r = fold_left h xs r.
Proof. intros A g h xs. induction xs as [|x xs IH]; intros r H; [reflexivity|]. cbn [fold_left]. rewrite H by (now left). apply IH. intros. apply H. now right. Qed.
Lemma macros : forall (A : Type) (f bits bit : A -> Z) xs r, Forall connector (map f xs) -> apart (map f xs) ->
  shows r (fold_left (fun r x => set_gpio_macro (bits x) (bit x) (f x) r) xs r) (map f xs) (map (fun x => Z.testbit (bits x) (bit x)) xs).
Proof.
  intros A f bits bit xs r H D. rewrite (fold_ext A _ (fun r x => put (Z.testbit (bits x) (bit x)) (f x) r)); [now apply put_all|].
  intros r' x I. apply macro_put. rewrite Forall_forall in H. apply H. now apply in_map.
Qed.

Definition dir_pins (c : board) : list Z := map (b_dir c) all_motors.
Definition step_pins_of (c : board) : list Z := map (b_step c) all_motors.
Definition sixteen : list Z := [1; 2; 3; 4; 5; 6; 7; 8; 9; 10; 11; 12; 13; 14; 15; 16].
Definition aux_pins (c : board) : list Z := map (cape_aux (b_cape c)) sixteen.

(** C75: the routines of the firmware make the direction pins, the step pins and the
    auxiliary pins show the bits they are given, and change no other pin. *)
Theorem C75_firmware : forall c r bits mstate, wired c -> apart (dir_pins c) -> apart (step_pins_of c) -> apart (aux_pins c) ->
  shows r (set_directions c bits r) (dir_pins c) (map (fun m => Z.testbit bits (motor_ix m)) all_motors) /\
  shows r (set_steps c mstate r) (step_pins_of c) (map (step_pins mstate) all_motors) /\
  shows r (set_aux_bits c bits r) (aux_pins c) (map (fun n => Z.testbit bits (n - 1)) sixteen).
Proof.
  intros c r bits ms [W _] D1 D2 D3. unfold out_pins in W. rewrite !Forall_app in W. destruct W as (WS & WD & _ & WA & _). split; [|split].
  - apply (macros _ (b_dir c) (fun _ => bits) motor_ix); assumption.
  - apply (macros _ (b_step c) ms (fun _ => 31)); assumption.
  - unfold set_aux_bits. assert (E : aux_pins c = map (fun i => cape_aux (b_cape c) (i + 1)) [0; 1; 2; 3; 4; 5; 6; 7; 8; 9; 10; 11; 12; 13; 14; 15]) by reflexivity.
    rewrite E in *. apply (macros _ (fun i => cape_aux (b_cape c) (i + 1)) (fun _ => bits) (fun i => i)); [|exact D3]. exact WA.
Qed.
Print Assumptions C75_firmware.


(** C75: the emergency stop of the firmware (VGEN5) is seen just when its input is high
    twice in a row. *)
Theorem C75_emergency_input : forall c b i r1 r2 rest, is_pin b i -> cape_switch (b_cape c) 7 = pin b i ->
  check_for_estop_vgen5 c (r1 :: r2 :: rest) = Some (if seen r1 b i && seen r2 b i then 1 else 0).
Proof.
  intros c b i r1 r2 rest P E. unfold check_for_estop_vgen5. rewrite E, pin_base, pin_line by exact P.
  assert (N : GPIO_BASE b / 65536 =? GPIO_NOT_MAPPED = false /\ forall r, bus_read (u32 (GPIO_BASE b + GPIO_DATAIN)) r = r_in r b).
  { destruct P as [Hb _]. assert (C : b = 0 \/ b = 1 \/ b = 2 \/ b = 3) by lia. destruct C as [->|[->|[->| ->]]]; split; reflexivity. }
  destruct N as [N R]. rewrite N. cbn [debounce Z.eqb]. rewrite !R. unfold seen. destruct (Z.testbit (r_in r1 b) i); [|reflexivity]. cbn [negb andb]. now destruct (Z.testbit (r_in r2 b) i).
Qed.
Print Assumptions C75_emergency_input.

(** ** The four capes *)
Definition connectorb (d : Z) : bool := (d =? GPIO_NOT_MAPPED) || existsb (fun b => existsb (fun i => d =? pin b i) lines) [0; 1; 2; 3].
Lemma connectorb_ok : forall ds, forallb connectorb ds = true -> Forall connector ds.
Proof.
  intros ds H. rewrite forallb_forall in H. apply Forall_forall. intros d I. specialize (H d I). unfold connectorb in H. apply orb_prop in H. destruct H as [H|H]; [left; now apply Z.eqb_eq|right].
  apply existsb_exists in H. destruct H as (b & Ib & H). apply existsb_exists in H. destruct H as (i & Ii & H). apply Z.eqb_eq in H. exists b, i. split; [|exact H].
  unfold lines in Ii. apply in_map_iff in Ii. destruct Ii as (n & <- & In_). apply in_seq in In_. cbn in Ib. split; lia.
Qed.
Fixpoint distinct (ds : list Z) : bool := match ds with [] => true | d :: ds => negb (existsb (Z.eqb d) ds) && distinct ds end.
Lemma distinct_ok : forall ds, distinct ds = true -> NoDup ds.
Proof.
  induction ds as [|d ds IH]; intros H; [constructor|]. cbn [distinct] in H. apply andb_prop in H. destruct H as [H1 H2]. constructor; [|auto].
  intros I. destruct (existsb (Z.eqb d) ds) eqn:E; [discriminate|]. assert (X : existsb (Z.eqb d) ds = true) by (apply existsb_exists; exists d; split; [exact I|apply Z.eqb_refl]). congruence.
Qed.
Definition but_pwm (c : board) : list Z := step_pins_of c ++ dir_pins c ++ [cape_enable (b_cape c)] ++ aux_pins c ++ in_pins c.
Lemma apart_part : forall pre ds post, apart (pre ++ ds ++ post) -> apart ds.
Proof.
  intros pre ds post. unfold apart. rewrite !filter_app. generalize (filter (fun d => negb (d =? GPIO_NOT_MAPPED)) ds) as l. generalize (filter (fun d => negb (d =? GPIO_NOT_MAPPED)) pre) as p.
  generalize (filter (fun d => negb (d =? GPIO_NOT_MAPPED)) post) as q. intros q p l. induction p as [|x p IH]; cbn [app].
  - induction l as [|y l IH]; intros H; [constructor|]. cbn [app] in H. inversion H; subst. constructor; [|auto]. intros I. match goal with N : ~ In y (l ++ q) |- _ => apply N end. apply in_or_app. now left.
  - intros H. inversion H; subst. auto.
Qed.

(** C75: on the four capes all connectors are at pins, and no pin has two uses; but the
    PWM outputs of VGEN5 are its auxiliary outputs 1 to 4. *)
Theorem C75_capes : forall c, In c [bumps; cramps; pockegotion; vgen5] ->
  wired c /\ apart (but_pwm c) /\
  (apart (but_pwm c ++ map (cape_pwm (b_cape c)) [1; 2; 3; 4]) \/
   (c = vgen5 /\ forall n, 1 <= n <= 4 -> cape_pwm (b_cape c) n = cape_aux (b_cape c) n)) /\
  apart (dir_pins c) /\ apart (step_pins_of c) /\ apart (aux_pins c).
Proof.
  assert (G : forall c, wired c -> apart (but_pwm c) -> apart (dir_pins c) /\ apart (step_pins_of c) /\ apart (aux_pins c)).
  { intros c _ A. split; [|split]; eapply apart_part.
    - exact A.
    - apply (A : apart ([] ++ step_pins_of c ++ _)).
    - unfold but_pwm in A. rewrite (app_assoc (dir_pins c)), (app_assoc (step_pins_of c)) in A. exact A. }
  assert (W : forall c, forallb connectorb (out_pins c) && forallb connectorb (in_pins c) = true -> wired c).
  { intros c H. apply andb_prop in H. destruct H. split; now apply connectorb_ok. }
  intros c I. assert (HW : wired c).
  { apply W. destruct I as [<-|[<-|[<-|[<-|[]]]]]; vm_compute; reflexivity. }
  assert (HA : apart (but_pwm c)).
  { apply distinct_ok. destruct I as [<-|[<-|[<-|[<-|[]]]]]; vm_compute; reflexivity. }
  split; [exact HW|]. split; [exact HA|]. split; [|now apply G].
  destruct I as [<-|[<-|[<-|[<-|[]]]]]; [left; apply distinct_ok; vm_compute; reflexivity..|].
  right. split; [reflexivity|]. intros n H. assert (C : n = 1 \/ n = 2 \/ n = 3 \/ n = 4) by lia. destruct C as [->|[->|[->| ->]]]; reflexivity.
Qed.
Print Assumptions C75_capes.

(** Concrete cases. *)
Definition blank : regs := mk_regs (fun _ => 2 ^ 32 - 1) (fun _ => 0) (fun _ => 0).
Definition ex_ops : list gop :=
  [GSet (pin 1 28); GMap true true (fun _ => true); GSet (pin 1 28); GFirmware 5 2 (pin 0 31); GFirmware 5 1 (pin 0 4); GClr (pin 1 28); GUnmap; GSet (pin 1 28); GFirmware 5 0 (pin 1 28)].
Example C75_example : Forall op_ok ex_ops /\
  should (pin 0 31) false false ex_ops = true /\ should (pin 1 28) false false (firstn 3 ex_ops) = true /\ should (pin 1 28) false false (firstn 8 ex_ops) = false /\ should (pin 1 28) false false ex_ops = true /\
  is_input (g_regs (snd (map_gpio bumps true true (fun _ => true) (mk_gsys blank (fun _ => Null))))) 1 28 = false /\
  is_input (g_regs (snd (map_gpio bumps true true (fun _ => true) (mk_gsys blank (fun _ => Null))))) 0 26 = true /\
  cape_switch (b_cape vgen5) 7 = pin 0 27.
Proof.
  split; [|vm_compute; repeat split].
  repeat apply Forall_cons; try exact I; try apply Forall_nil; cbn [op_ok]; right; eexists; eexists; (split; [|reflexivity]); split; lia.
Qed.
