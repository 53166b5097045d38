From Verif Require Import Base Lib_List Model_RingDeque Spec_Ring.

(** Abstraction: the elements from the read position on. *)
Section P.
Context {T : Type}.
Variable CAP : Z.
Hypothesis HCAP : 1 < CAP < 2 ^ 31.

Definition ring_ok (r : ring T) : Prop :=
  0 <= write_pos r < CAP /\ 0 <= read_pos r < CAP.

Definition count (r : ring T) : Z := (write_pos r - read_pos r) mod CAP.

Lemma u32_small : forall x, 0 <= x < 2 ^ 32 -> u32 x = x.
Proof. intros. unfold u32. now apply Z.mod_small. Qed.

Lemma ring_size_count : forall r, ring_ok r -> ring_size CAP r = count r.
Proof.
  intros r [H1 H2]. unfold ring_size, count. rewrite u32_small by lia.
  replace (write_pos r + CAP - read_pos r) with (write_pos r - read_pos r + 1 * CAP) by lia.
  apply Z.mod_add. lia.
Qed.

Definition abs (r : ring T) (l : list T) : Prop :=
  ring_ok r /\ Z.of_nat (length l) = count r /\
  forall (i : nat) x, nth_error l i = Some x -> buffer r ((read_pos r + Z.of_nat i) mod CAP) = x.

Lemma count_range : forall r, 0 <= count r < CAP.
Proof. intros. apply Z.mod_pos_bound. lia. Qed.

Lemma count_zero : forall r, ring_ok r -> (count r = 0 <-> write_pos r = read_pos r).
Proof.
  intros r [H1 H2]. unfold count. split; intros H.
  - destruct (Z_lt_le_dec (write_pos r) (read_pos r)) as [L|L].
    + replace (write_pos r - read_pos r) with (write_pos r - read_pos r + CAP + (-1) * CAP) in H by lia.
      rewrite Z.mod_add in H by lia. rewrite Z.mod_small in H by lia. lia.
    + rewrite Z.mod_small in H by lia. lia.
  - rewrite H, Z.sub_diag. apply Z.mod_0_l. lia.
Qed.

Lemma pos_of_count : forall r, ring_ok r -> write_pos r = (read_pos r + count r) mod CAP.
Proof.
  intros r [H1 H2]. unfold count. rewrite Zplus_mod_idemp_r.
  replace (read_pos r + (write_pos r - read_pos r)) with (write_pos r) by lia.
  rewrite Z.mod_small; lia.
Qed.

Lemma mod_inj : forall a i j, 0 <= i < CAP -> 0 <= j < CAP ->
  (a + i) mod CAP = (a + j) mod CAP -> i = j.
Proof.
  intros a i j Hi Hj E.
  assert (H : (i - j) mod CAP = 0).
  { replace (i - j) with ((a + i) - (a + j)) by lia. rewrite Zminus_mod, E, Z.sub_diag. apply Z.mod_0_l. lia. }
  apply Z.mod_divide in H; [|lia]. destruct H as [k Hk]. assert (k = 0) by nia. lia.
Qed.

Lemma abs_nil : forall g, abs (ring_init g) [].
Proof.
  intros g. split; [split; cbn; lia|]. split.
  - unfold count; cbn [write_pos read_pos ring_init]. rewrite Z.mod_small by lia. reflexivity.
  - intros i x H. destruct i; discriminate.
Qed.

Lemma abs_empty : forall r l, abs r l -> ring_empty r = match l with [] => true | _ => false end.
Proof.
  intros r l (H1 & H2 & H3). unfold ring_empty.
  pose proof (count_zero r H1) as Hz.
  destruct l; cbn [length] in H2.
  - apply Z.eqb_eq. apply Hz. lia.
  - apply Z.eqb_neq. intros E. apply Hz in E. lia.
Qed.

Lemma abs_append : forall r l v, abs r l ->
  if Z.of_nat (length l) <? CAP - 1
  then exists r', ring_append CAP r v = Ok r' /\ abs r' (l ++ [v])
  else ring_append CAP r v = Undefined.
Proof.
  intros r l v (H1 & H2 & H3). unfold ring_append, ring_capacity.
  rewrite ring_size_count by auto. rewrite <- H2.
  destruct (Z.of_nat (length l) <? CAP - 1) eqn:E; auto.
  apply Z.ltb_lt in E.
  eexists. split; [reflexivity|].
  pose proof H1 as [Hw Hr].
  rewrite u32_small by lia.
  split; [split; cbn [write_pos read_pos]; auto; apply Z.mod_pos_bound; lia|].
  split.
  - unfold count in *; cbn [write_pos read_pos]. rewrite app_length. cbn [length].
    rewrite Zminus_mod_idemp_l.
    replace (write_pos r + 1 - read_pos r) with (write_pos r - read_pos r + 1) by lia.
    rewrite <- Zplus_mod_idemp_l, <- H2. rewrite Z.mod_small by lia. lia.
  - intros i x Hi. cbn [buffer read_pos]. unfold upd.
    rewrite (pos_of_count r H1). rewrite <- H2.
    destruct (Nat.lt_ge_cases i (length l)) as [L|L].
    + rewrite nth_error_app1 in Hi by auto.
      destruct ((read_pos r + Z.of_nat i) mod CAP =? (read_pos r + Z.of_nat (length l)) mod CAP) eqn:Ee.
      * apply Z.eqb_eq in Ee. apply mod_inj in Ee; lia.
      * now apply H3.
    + rewrite nth_error_app2 in Hi by auto.
      destruct (i - length l)%nat as [|k] eqn:Ek; cbn in Hi; [|destruct k; discriminate].
      inversion Hi; subst. replace i with (length l) by lia. now rewrite Z.eqb_refl.
Qed.

Lemma abs_get : forall r l p, abs r l -> 0 <= p ->
  ring_get CAP r p = match nth_error l (Z.to_nat p) with Some x => Ok x | None => Undefined end.
Proof.
  intros r l p (H1 & H2 & H3) Hp. unfold ring_get. rewrite ring_size_count by auto. rewrite <- H2.
  pose proof H1 as [Hw Hr]. pose proof (count_range r) as Hc.
  destruct (nth_error l (Z.to_nat p)) as [x|] eqn:E.
  - assert (Hl : (Z.to_nat p < length l)%nat) by (apply nth_error_Some; congruence).
    replace (p <? Z.of_nat (length l)) with true by lia.
    rewrite u32_small by lia. f_equal. rewrite <- (H3 _ _ E). f_equal. f_equal. lia.
  - apply nth_error_None in E. replace (p <? Z.of_nat (length l)) with false by lia. reflexivity.
Qed.

Lemma set_nth_length : forall (l : list T) n v, length (set_nth l n v) = length l.
Proof. induction l; destruct n; intros; cbn; auto. Qed.

Lemma set_nth_nth : forall (l : list T) n v i, (n < length l)%nat ->
  nth_error (set_nth l n v) i = if (i =? n)%nat then Some v else nth_error l i.
Proof.
  induction l as [|a l IH]; intros n v i Hn; cbn [length] in Hn; [lia|].
  destruct n, i; cbn [set_nth nth_error]; auto.
  rewrite IH by lia. reflexivity.
Qed.

Lemma abs_set : forall r l p v, abs r l -> 0 <= p ->
  if p <? Z.of_nat (length l)
  then exists r', ring_set CAP r p v = Ok r' /\ abs r' (set_nth l (Z.to_nat p) v)
  else ring_set CAP r p v = Undefined.
Proof.
  intros r l p v (H1 & H2 & H3) Hp. unfold ring_set. rewrite ring_size_count by auto. rewrite <- H2.
  pose proof H1 as [Hw Hr]. pose proof (count_range r) as Hc.
  destruct (p <? Z.of_nat (length l)) eqn:E; auto. apply Z.ltb_lt in E.
  eexists. split; [reflexivity|]. rewrite u32_small by lia.
  split; [split; cbn; auto|]. split; [rewrite set_nth_length; exact H2|].
  intros i x Hi. cbn [buffer read_pos]. unfold upd.
  rewrite set_nth_nth in Hi by lia.
  destruct (Nat.eqb_spec i (Z.to_nat p)) as [Ee|Ee].
  - inversion Hi; subst. replace (Z.of_nat (Z.to_nat p)) with p by lia. now rewrite Z.eqb_refl.
  - assert (Hl : (i < length l)%nat) by (apply nth_error_Some; congruence).
    destruct ((read_pos r + Z.of_nat i) mod CAP =? (read_pos r + p) mod CAP) eqn:Eb.
    + apply Z.eqb_eq in Eb. apply mod_inj in Eb; lia.
    + now apply H3.
Qed.

Lemma abs_back : forall r l, abs r l ->
  ring_back CAP r = match rev l with x :: _ => Ok x | [] => Undefined end.
Proof.
  intros r l H. unfold ring_back. rewrite (abs_empty r l H).
  destruct l as [|a l] using rev_ind; [reflexivity|]. clear IHl.
  rewrite rev_app_distr. cbn [rev app].
  destruct (l ++ [a]) eqn:E; [destruct l; discriminate|]. rewrite <- E in *. clear E.
  destruct H as (H1 & H2 & H3). pose proof H1 as [Hw Hr]. pose proof (count_range r) as Hc.
  rewrite u32_small by lia.
  rewrite app_length in H2. cbn [length] in H2.
  rewrite <- (H3 (length l) a) by (rewrite nth_error_app2 by lia; now rewrite Nat.sub_diag).
  f_equal. f_equal.
  replace (write_pos r + CAP - 1) with (write_pos r - 1 + 1 * CAP) by lia.
  rewrite Z.mod_add by lia.
  rewrite (pos_of_count r H1). rewrite Zminus_mod_idemp_l. f_equal. lia.
Qed.

Lemma abs_pop_front : forall r l, abs r l ->
  match l with
  | x :: l' => exists r', ring_pop_front CAP r = Ok r' /\ abs r' l'
  | [] => ring_pop_front CAP r = Undefined
  end.
Proof.
  intros r l H. unfold ring_pop_front. rewrite (abs_empty r l H). destruct l as [|a l]; auto.
  destruct H as (H1 & H2 & H3). pose proof H1 as [Hw Hr]. pose proof (count_range r) as Hc.
  eexists. split; [reflexivity|]. rewrite u32_small by lia. cbn [length] in H2.
  split; [split; cbn; auto; apply Z.mod_pos_bound; lia|]. split.
  - unfold count in *; cbn [write_pos read_pos]. rewrite Zminus_mod_idemp_r.
    replace (write_pos r - (read_pos r + 1)) with (write_pos r - read_pos r - 1) by lia.
    rewrite <- Zminus_mod_idemp_l, <- H2. rewrite Z.mod_small by lia. lia.
  - intros i x Hi. cbn [buffer read_pos]. rewrite Zplus_mod_idemp_l.
    rewrite <- (H3 (Datatypes.S i) x Hi). f_equal. f_equal. lia.
Qed.

Lemma abs_pop_back : forall r l, abs r l ->
  match l with
  | _ :: _ => exists r', ring_pop_back CAP r = Ok r' /\ abs r' (removelast l)
  | [] => ring_pop_back CAP r = Undefined
  end.
Proof.
  intros r l H. unfold ring_pop_back. rewrite (abs_empty r l H).
  destruct l as [|a l] using rev_ind; [reflexivity|]. clear IHl.
  destruct (l ++ [a]) eqn:E; [destruct l; discriminate|]. rewrite <- E in *. clear E.
  rewrite removelast_last.
  destruct H as (H1 & H2 & H3). pose proof H1 as [Hw Hr]. pose proof (count_range r) as Hc.
  rewrite app_length in H2. cbn [length] in H2.
  eexists. split; [reflexivity|]. rewrite u32_small by lia.
  split; [split; cbn; auto; apply Z.mod_pos_bound; lia|]. split.
  - unfold count in *; cbn [write_pos read_pos]. rewrite Zminus_mod_idemp_l.
    replace (write_pos r + CAP - 1 - read_pos r) with (write_pos r - read_pos r - 1 + 1 * CAP) by lia.
    rewrite Z.mod_add by lia. rewrite <- Zminus_mod_idemp_l, <- H2. rewrite Z.mod_small by lia. lia.
  - intros i x Hi. cbn [buffer read_pos]. apply H3.
    assert ((i < length l)%nat) by (apply nth_error_Some; congruence). now rewrite nth_error_app1.
Qed.


Lemma ring_step_refines : forall o r l, abs r l -> op_pos_ok o ->
  match list_step (CAP - 1) l o with
  | Some (l', x) => exists r', ring_step CAP r o = Ok (r', x) /\ abs r' l'
  | None => ring_step CAP r o = Undefined
  end.
Proof.
  intros o r l H Ho. destruct o as [v|p|p v| | | | |]; cbn [list_step ring_step op_pos_ok] in *.
  - pose proof (abs_append r l v H) as A. destruct (Z.of_nat (length l) <? CAP - 1).
    + destruct A as (r' & E & A). rewrite E. cbn [obind]. eauto.
    + now rewrite A.
  - rewrite (abs_get r l p H Ho). destruct (nth_error l (Z.to_nat p)); cbn [obind]; eauto.
  - pose proof (abs_set r l p v H Ho) as A. destruct (p <? Z.of_nat (length l)).
    + destruct A as (r' & E & A). rewrite E. cbn [obind]. eauto.
    + now rewrite A.
  - rewrite (abs_back r l H). destruct (rev l); cbn [obind]; eauto.
  - pose proof (abs_pop_front r l H) as A. destruct l as [|a l].
    + now rewrite A.
    + destruct A as (r' & E & A). rewrite E. cbn [obind]. eauto.
  - pose proof (abs_pop_back r l H) as A. destruct l as [|a l].
    + now rewrite A.
    + destruct A as (r' & E & A). rewrite E. cbn [obind]. eauto.
  - exists r. split; auto. destruct H as (H1 & H2 & H3). rewrite ring_size_count by auto. now rewrite H2.
  - exists r. split; auto. now rewrite (abs_empty r l H).
Qed.

Lemma ring_run_refines : forall os r l, abs r l -> Forall op_pos_ok os ->
  ring_run CAP r os = list_run (CAP - 1) l os.
Proof.
  induction os as [|o os IH]; intros r l H Ho; [reflexivity|].
  inversion Ho; subst. cbn [ring_run list_run].
  pose proof (ring_step_refines o r l H) as A.
  destruct (list_step (CAP - 1) l o) as [[l' x]|].
  - destruct A as (r' & E & A); auto. rewrite E. rewrite (IH r' l'); auto.
  - rewrite A; auto.
Qed.

End P.
