(** Proofs about parameters: the table, decimal names, and assignments at the beginning of
    a line. *)
From Coq Require Import SpecFloat DecimalString DecimalFacts DecimalZ.
From Verif Require Import Base Text Model_StringUtil Model_Float Model_Lexer Model_Axis Model_Gcode Spec_Text Spec_Expr Proofs_Expr
  Prop_Text Proofs_Value Proofs_Fuel Proofs_Total Spec_Words Proofs_Words Spec_Moves Proofs_Moves Spec_Params.

(** ** The table *)
Lemma find_set_same : forall k v m, pm_find k (pm_set k v m) = Some v.
Proof.
  intros k v m. induction m as [|[k' w] m IH]; cbn [pm_set pm_find]; [now rewrite text_eqb_refl|].
  destruct (text_eqb k k') eqn:E; cbn [pm_find]; [now rewrite text_eqb_refl|].
  destruct (text_ltb k k'); cbn [pm_find]; [now rewrite text_eqb_refl|]. now rewrite E.
Qed.
Lemma find_set_other : forall k k2 v m, text_eqb k2 k = false -> pm_find k2 (pm_set k v m) = pm_find k2 m.
Proof.
  intros k k2 v m H. induction m as [|[k' w] m IH]; cbn [pm_set pm_find]; [now rewrite H|].
  destruct (text_eqb k k') eqn:E; cbn [pm_find].
  - apply text_eqb_eq in E as <-. now rewrite H.
  - destruct (text_ltb k k'); cbn [pm_find]; [now rewrite H|]. now rewrite IH.
Qed.

Definition key (name : text) : text := map to_lower (trim_whitespace name).
Lemma same_key : forall a b, same_name a b <-> key a = key b.
Proof.
  intros a b. split.
  - intros (x & y & Hx & Hy & H). apply C02_trim_exact in Hx, Hy. now subst.
  - intros H. exists (trim_whitespace a), (trim_whitespace b). split; [now apply C02_trim_exact|split; [now apply C02_trim_exact|exact H]].
Qed.
Definition blocked (name : text) : bool :=
  text_eqb (trim_whitespace name) (txt "0") || (5400 <=? match convert_strto64 (trim_whitespace name) with Some (z, _) => z | None => 0 end).
Lemma blocked_right : forall name, writable name <-> blocked name = false.
Proof.
  intros name. unfold blocked. split.
  - intros H. destruct (H (trim_whitespace name)) as (H1 & H2); [now apply C02_trim_exact|].
    destruct (text_eqb _ _) eqn:E; [now apply text_eqb_eq in E|]. cbn [orb].
    destruct (convert_strto64 _) as [[z r]|]; [|reflexivity]. specialize (H2 z r eq_refl). lia.
  - intros H n Hn. apply C02_trim_exact in Hn. subst n. apply orb_false_iff in H as (H1 & H2). split.
    + intros E. rewrite E, text_eqb_refl in H1. discriminate.
    + intros z r E. rewrite E in H2. lia.
Qed.
Lemma store_ok : forall name v s m, g_params s = Some m -> writable name ->
  store_parameter name v s = Done tt (with_params s (Some (pm_set (key name) v m))).
Proof.
  intros name v s m H W. apply blocked_right in W. unfold blocked in W. unfold store_parameter, bind, get. rewrite H. cbv zeta. now rewrite W.
Qed.
Lemma store_refused : forall name v s m, g_params s = Some m -> ~ writable name ->
  store_parameter name v s = Done tt (with_errors s (g_errors s + 1)).
Proof.
  intros name v s m H W. unfold store_parameter, bind, get. rewrite H. cbv zeta. change (text_eqb _ _ || _) with (blocked name).
  destruct (blocked name) eqn:E; [reflexivity|]. now apply blocked_right in E.
Qed.
Definition unset (s : gst) (name : text) : fl :=
  match trim_whitespace name with [x] => match letter_axis x with Some a => g_pos s a | None => f0 end | _ => f0 end.
Lemma param_table : forall s m name, g_params s = Some m -> param s name = match pm_find (key name) m with Some v => v | None => unset s name end.
Proof.
  intros s m name H. unfold param, read_parameter, bind, get, ret, key, unset, to_lower_text. rewrite H. cbv zeta. destruct (pm_find _ m); [reflexivity|].
  destruct (trim_whitespace name) as [|x [|y l]]; try reflexivity. destruct (letter_axis x); reflexivity.
Qed.
Lemma stored_reads : forall s m name v, g_params s = Some m ->
  param (with_params s (Some (pm_set (key name) v m))) name = v /\
  forall other, ~ same_name other name -> param (with_params s (Some (pm_set (key name) v m))) other = param s other.
Proof.
  intros s m name v H. split; [|intros other Ho]; rewrite (param_table _ (pm_set (key name) v m)) by reflexivity.
  - now rewrite find_set_same.
  - rewrite find_set_other; [now rewrite (param_table s m) by exact H|]. destruct (text_eqb _ _) eqn:E; [|reflexivity].
    apply text_eqb_eq in E. now apply same_key in E.
Qed.

(** ** Decimal names *)
Lemma pos_digits : forall u acc rest, (forall y r, rest = y :: r -> is_digit y = false) ->
  digits_loop (Zpos acc) (txt (NilEmpty.string_of_uint u) ++ rest) = (Zpos (Pos.of_uint_acc u acc), rest).
Proof.
  induction u; intros acc rest Hr; cbn [NilEmpty.string_of_uint txt app Pos.of_uint_acc digits_loop];
    try (match goal with |- context [is_digit ?x] => change (is_digit x) with true end; cbv iota;
         match goal with |- context [10 * Z.pos acc + ?k] => let k' := eval vm_compute in k in change k with k' end;
         rewrite <- IHu by exact Hr; f_equal; lia).
  destruct rest as [|y r]; [reflexivity|]. cbn [digits_loop]. now rewrite (Hr y r eq_refl).
Qed.
Lemma uint_digits : forall u rest, (forall y r, rest = y :: r -> is_digit y = false) ->
  digits_loop 0 (txt (NilEmpty.string_of_uint u) ++ rest) = (Z.of_N (Pos.of_uint u), rest).
Proof.
  induction u; intros rest Hr; cbn [NilEmpty.string_of_uint txt app Pos.of_uint digits_loop];
    try (match goal with |- context [is_digit ?x] => change (is_digit x) with true end; cbv iota;
         match goal with |- context [10 * 0 + ?k] => let k' := eval vm_compute in (10 * 0 + k) in change (10 * 0 + k) with k' end).
  - destruct rest as [|y r]; [reflexivity|]. cbn [digits_loop]. now rewrite (Hr y r eq_refl).
  - now apply IHu.
  - now rewrite pos_digits. - now rewrite pos_digits. - now rewrite pos_digits. - now rewrite pos_digits. - now rewrite pos_digits.
  - now rewrite pos_digits. - now rewrite pos_digits. - now rewrite pos_digits. - now rewrite pos_digits.
Qed.

Lemma zero_uint : forall u, NilZero.string_of_uint u = match u with Decimal.Nil => "0"%string | _ => NilEmpty.string_of_uint u end.
Proof. intros []; reflexivity. Qed.
Lemma digit_text : forall u, Forall (fun x => is_digit x = true) (txt (NilEmpty.string_of_uint u)).
Proof. induction u; cbn [NilEmpty.string_of_uint txt]; constructor; auto. Qed.
Lemma read_uint : forall u, u <> Decimal.Nil -> Z.of_N (Pos.of_uint u) <= 2 ^ 63 - 1 ->
  from_chars_int 64 (txt (NilZero.string_of_uint u)) = Some (Z.of_N (Pos.of_uint u), []) /\
  (Z.of_N (Pos.of_uint u) <= 2 ^ 63 - 1 -> from_chars_int 64 ("-"%char :: txt (NilZero.string_of_uint u)) = Some (- Z.of_N (Pos.of_uint u), [])).
Proof.
  intros u Hu Hr. replace (NilZero.string_of_uint u) with (NilEmpty.string_of_uint u) by (rewrite zero_uint; destruct u; [congruence|..]; reflexivity).
  pose proof (digit_text u) as D. pose proof (uint_digits u [] ltac:(discriminate)) as L. rewrite app_nil_r in L.
  assert (Ht : exists x t, txt (NilEmpty.string_of_uint u) = x :: t) by (destruct u; [congruence|..]; cbn [NilEmpty.string_of_uint txt]; eauto).
  destruct Ht as (x & t & Ht). rewrite Ht in *. inversion D as [|? ? Dx _]; subst.
  assert (Nx : Ascii.eqb x "-" = false) by (destruct (Ascii.eqb_spec x "-") as [->|]; [discriminate|reflexivity]).
  unfold from_chars_int. rewrite Nx, Dx. change (Ascii.eqb "-" "-") with true. cbv iota. rewrite Dx, L. split; [|intros _];
   (destruct (_ && _) eqn:C; [reflexivity|]); change (64 - 1) with 63 in C; lia.
Qed.
Lemma show_cases : forall n, exists u, u <> Decimal.Nil /\ Z.of_N (Pos.of_uint u) = Z.abs n /\
  show_int n = (if n <? 0 then ["-"%char] else []) ++ txt (NilZero.string_of_uint u).
Proof.
  intros n. unfold show_int. destruct n as [|p|p]; cbn [Z.to_int NilZero.string_of_int].
  - exists (Decimal.D0 Decimal.Nil). repeat split; discriminate.
  - exists (Pos.to_uint p). split; [|split; [|reflexivity]].
    + intros E. pose proof (DecimalPos.Unsigned.of_to p) as H. rewrite E in H. discriminate.
    + rewrite DecimalPos.Unsigned.of_to. reflexivity.
  - exists (Pos.to_uint p). split; [|split; [|reflexivity]].
    + intros E. pose proof (DecimalPos.Unsigned.of_to p) as H. rewrite E in H. discriminate.
    + rewrite DecimalPos.Unsigned.of_to. reflexivity.
Qed.
Lemma digit_not_space : forall x, is_digit x = true -> is_space x = false /\ Ascii.eqb x "+" = false.
Proof.
  intros x H. assert (A : forall y, negb (is_digit y) || (negb (is_space y) && negb (Ascii.eqb y "+")) = true) by (apply all_ascii; vm_compute; reflexivity).
  specialize (A x). rewrite H in A. cbn in A. apply andb_prop in A as [A B]. split; [now destruct (is_space x)|now destruct (Ascii.eqb x "+")].
Qed.
Lemma show_read : forall n, Z.abs n <= 2 ^ 63 - 1 -> convert_strto64 (show_int n) = Some (n, []).
Proof.
  intros n Hn. destruct (show_cases n) as (u & Hu & Hv & E). rewrite E.
  destruct (read_uint u Hu ltac:(lia)) as (R1 & R2). unfold convert_strto64, convert_strto_num.
  destruct (n <? 0) eqn:Hs; cbn [app].
  - assert (K : forall t, skip_spaces ("-"%char :: t) = "-"%char :: t) by reflexivity. rewrite K. change (Ascii.eqb "-" "+") with false. cbv iota.
    rewrite R2 by lia. f_equal. f_equal. lia.
  - assert (Ht : exists x t, txt (NilZero.string_of_uint u) = x :: t /\ is_digit x = true).
    { rewrite zero_uint. destruct u; [congruence|..]; cbn [NilEmpty.string_of_uint txt]; eauto. }
    destruct Ht as (x & t & Ht & Dx). rewrite Ht in *. destruct (digit_not_space x Dx) as (A & B). rewrite skip_spaces_keep by exact A. rewrite B, R1.
    f_equal. f_equal. lia.
Qed.
Lemma show_inj : forall a b, Z.abs a <= 2 ^ 63 - 1 -> Z.abs b <= 2 ^ 63 - 1 -> show_int a = show_int b -> a = b.
Proof. intros a b Ha Hb H. pose proof (show_read a Ha) as A. rewrite H, (show_read b Hb) in A. congruence. Qed.
Lemma show_chars : forall n, Forall (fun x => is_digit x = true \/ x = "-"%char) (show_int n).
Proof.
  intros n. destruct (show_cases n) as (u & Hu & _ & ->). apply Forall_app. split; [destruct (n <? 0); [constructor; [now right|constructor]|constructor]|].
  rewrite zero_uint. eapply Forall_impl with (P := fun x => is_digit x = true); [auto|]. destruct u; [repeat constructor|..]; apply digit_text.
Qed.
Lemma trim_plain : forall t, Forall (fun x => is_space x = false) t -> trim_whitespace t = t.
Proof.
  intros t H. symmetry. apply C02_trim_exact. split; [exists [], []; rewrite app_nil_r; repeat split; intros ? []|]. split.
  - intros x t' ->. inversion H as [|? ? Hx _]; subst. intros W. unfold white in W. decompose [or] W; subst; discriminate.
  - intros x t' ->. apply Forall_app in H as (_ & H). inversion H as [|? ? Hx _]; subst. intros W. unfold white in W. decompose [or] W; subst; discriminate.
Qed.
Lemma show_trim : forall n, trim_whitespace (show_int n) = show_int n.
Proof.
  intros n. apply trim_plain. eapply Forall_impl; [|apply show_chars]. intros x [H| ->]; [now apply digit_not_space|reflexivity].
Qed.
Lemma show_key : forall n, key (show_int n) = show_int n.
Proof.
  intros n. unfold key. rewrite show_trim. pose proof (show_chars n) as H. induction H as [|x l Hx H IH]; [reflexivity|]. cbn [map]. f_equal; [|exact IH].
  destruct Hx as [Hx| ->]; [|reflexivity]. assert (A : forall y, negb (is_digit y) || Ascii.eqb (to_lower y) y = true) by (apply all_ascii; vm_compute; reflexivity).
  specialize (A x). rewrite Hx in A. now apply Ascii.eqb_eq in A.
Qed.
Lemma show_writable : forall n, Z.abs n <= 2 ^ 63 - 1 -> (writable (show_int n) <-> n <> 0 /\ n < 5400).
Proof.
  intros n Hn. rewrite blocked_right. unfold blocked. rewrite show_trim, show_read by exact Hn. split.
  - intros H. apply orb_false_iff in H as (H1 & H2). split; [|lia]. intros ->. discriminate.
  - intros (H1 & H2). apply orb_false_iff. split; [|lia]. destruct (text_eqb _ _) eqn:E; [|reflexivity]. apply text_eqb_eq in E.
    exfalso. apply H1. apply (show_inj n 0 Hn); [cbn; lia|]. rewrite E. reflexivity.
Qed.

(** ** Assignments *)
Section Assign.
Variables (c : gcfg) (s : gst).
Lemma operand_value : forall t v rest, operand c s t (Some v) rest -> exists n, forall f, (n <= f)%nat -> value c f t s = Done (Some (v, skip_spaces rest)) s.
Proof. intros t v rest H. exact (proj1 (proj1 (evaluates c s) _ _ _ H)). Qed.

Lemma names_right : forall t name rest, names c s t name rest -> exists n, forall f, (n <= f)%nat -> param_name c f t s = Done (Some (name, rest)) s.
Proof.
  intros t name rest H. destruct H as [name rest Ht Hne Hf Hd Hr|name rest Ht Hf Hne Hd|x r v rest Ht Hx Ho].
  - exists 1%nat. intros [|f] Hfu; [lia|]. rewrite param_name_S. cbv zeta.
    destruct name as [|x name]; [congruence|]. rewrite Ht. cbn [app]. inversion Hf as [|? ? Hx Hf']; subst.
    assert (Ex : Ascii.eqb x "<" = false /\ Ascii.eqb x "#" = false).
    { assert (A : forall y, negb (is_name_char y) || (negb (Ascii.eqb y "<") && negb (Ascii.eqb y "#")) = true)
        by (apply all_ascii; vm_compute; reflexivity).
      specialize (A x). rewrite Hx in A. cbn in A. apply andb_prop in A as [A B]. split.
      - now destruct (Ascii.eqb x "<").
      - now destruct (Ascii.eqb x "#"). }
    destruct Ex as [E1 E2]. rewrite E1, E2, (Hd x name eq_refl). cbn [orb andb].
    assert (Es : forall n, Forall (fun x => is_name_char x = true) n -> scan_name false (n ++ rest) = (n, rest)).
    { induction n as [|y n IH]; intros F; cbn [app scan_name].
      - destruct rest as [|z rest]; [reflexivity|]. cbn [scan_name]. rewrite (Hr z rest eq_refl). reflexivity.
      - inversion F; subst. rewrite H1, (IH H2). reflexivity. }
    change (x :: name ++ rest) with ((x :: name) ++ rest). rewrite (Es _ Hf). reflexivity.
  - exists 1%nat. intros [|f] Hfu; [lia|]. rewrite param_name_S. cbv zeta. rewrite Ht. change (Ascii.eqb "<" "<") with true. cbv iota.
    assert (En : match name ++ ">"%char :: rest with y :: _ => Ascii.eqb y "#" || is_digit y | [] => false end = false).
    { destruct name as [|x name]; [reflexivity|]. cbn [app]. rewrite (Hd x name eq_refl), orb_false_r.
      inversion Hf as [|? ? Hx _]; subst.
      assert (A : forall y, negb (is_name_char y || is_space y) || negb (Ascii.eqb y "#") = true)
        by (apply all_ascii; vm_compute; reflexivity).
      specialize (A x). destruct Hx as [Hx|Hx]; rewrite Hx in A; rewrite ?orb_true_r in A; cbn in A; now destruct (Ascii.eqb x "#"). }
    rewrite En. cbn [andb].
    assert (Es : forall n, Forall (fun x => is_name_char x = true \/ is_space x = true) n ->
      scan_name true (n ++ ">"%char :: rest) = (filter is_name_char n, ">"%char :: rest)).
    { induction n as [|y n IH]; intros F; cbn [app scan_name filter]; [reflexivity|].
      inversion F as [|? ? Hy F']; subst. rewrite (IH F'). destruct (is_name_char y); [reflexivity|].
      destruct Hy as [Hy|Hy]; [discriminate|]. rewrite Hy. reflexivity. }
    rewrite (Es _ Hf). destruct (filter is_name_char name) as [|y l] eqn:El; [congruence|]. reflexivity.
  - destruct (operand_value _ _ _ Ho) as (n & IH). exists (S n). intros [|f] Hfu; [lia|]. specialize (IH f ltac:(lia)).
    rewrite param_name_S. cbv zeta. rewrite Ht in *.
    assert (Ex : Ascii.eqb x "<" = false).
    { destruct (Ascii.eqb_spec x "<") as [->|]; [|reflexivity]. destruct Hx; discriminate. }
    assert (En : Ascii.eqb x "#" || is_digit x = true).
    { destruct Hx as [->| ->]; [apply orb_true_r|reflexivity]. }
    rewrite Ex. cbv iota. rewrite En. cbn [andb].
    assert (Ne : show_int (int_of c v) <> []).
    { destruct (show_cases (int_of c v)) as (u & Hu & _ & ->). rewrite zero_uint. destruct u; [congruence|..]; destruct (_ <? 0); discriminate. }
    destruct (show_int (int_of c v)) as [|y l] eqn:El; [congruence|].
    bd IH. rewrite El. br. now rewrite skip_spaces_idem.
Qed.

Definition stored (name : text) (v : fl) : gst := match store_parameter name v s with Done _ s' => s' | _ => s end.
Lemma store_done : forall name v, store_parameter name v s = Done tt (stored name v).
Proof.
  intros name v. unfold stored, store_parameter, bind, get, err, upd, ret. destruct (g_params s); [|reflexivity]. cbv zeta. now destruct (_ || _).
Qed.
Lemma set_parameter_right : forall t name u v rep rest, names c s t name u -> becomes c s (param s name) u v rep rest ->
  exists n, forall f, (n <= f)%nat -> set_parameter c f t s =
    Done (Some rest) (seen (if rep then [ECommandDone "#" v] else []) (stored name v)).
Proof.
  intros t name u v rep rest Hn Hb. destruct (names_right _ _ _ Hn) as (n & Hp). destruct (read_param s name) as (b & Hr).
  destruct Hb as [r|r|r v rest Ho Hq|x op r v w rest Hop Ho Ha|r v r1 r2 a r3 r4 b' rest Ho H1 Ha H2 Hb'].
  - exists n. intros f Hf. unfold set_parameter. bd (Hp f Hf). cbn [starts tl]. change (Ascii.eqb "+" "+") with true. cbn [andb]. bd Hr.
    unfold bind at 1. change (f32_of_Z 1) with f1. rewrite store_done, seen_nil. reflexivity.
  - exists n. intros f Hf. unfold set_parameter. bd (Hp f Hf). cbn [starts tl]. change (Ascii.eqb "-" "+") with false. change (Ascii.eqb "-" "-") with true. cbn [andb]. bd Hr.
    unfold bind at 1. change (f32_of_Z 1) with f1. rewrite store_done, seen_nil. reflexivity.
  - destruct (operand_value _ _ _ Ho) as (n2 & Hv). exists (n + n2)%nat. intros f Hf. specialize (Hv f ltac:(lia)). unfold set_parameter. bd (Hp f ltac:(lia)).
    cbn [starts tl]. change (Ascii.eqb "=" "+") with false. change (Ascii.eqb "=" "-") with false. cbn [andb].
    assert (E : assign_op ("="%char :: r) = Some (None, r)).
    { destruct r as [|y r]; [reflexivity|]. cbn [assign_op]. destruct (Ascii.eqb y "="); reflexivity. }
    rewrite E. unfold assigned. rewrite (bind_done _ _ _ _ s (Some (v, skip_spaces rest)) s).
    2: { bd Hv. now rewrite Hq. }
    unfold bind at 1. rewrite store_done. reflexivity.
  - destruct (operand_value _ _ _ Ho) as (n2 & Hv). exists (n + n2)%nat. intros f Hf. specialize (Hv f ltac:(lia)). unfold set_parameter. bd (Hp f ltac:(lia)).
    assert (N : starts "+" (x :: "="%char :: r) && starts "+" (tl (x :: "="%char :: r)) = false /\ starts "-" (x :: "="%char :: r) && starts "-" (tl (x :: "="%char :: r)) = false).
    { cbn [starts tl]. change (Ascii.eqb "=" "+") with false. change (Ascii.eqb "=" "-") with false. now rewrite !andb_false_r. }
    rewrite (proj1 N), (proj2 N).
    assert (E : assign_op (x :: "="%char :: r) = Some (Some (op_code op), r)).
    { cbn [assign_op]. change (Ascii.eqb "=" "=") with true. cbv iota. unfold op_of in Hop.
      destruct (Ascii.eqb x "+"); [injection Hop as <-; reflexivity|]. destruct (Ascii.eqb x "-"); [injection Hop as <-; reflexivity|].
      destruct (Ascii.eqb x "*"); [injection Hop as <-; reflexivity|]. destruct (Ascii.eqb x "/"); [injection Hop as <-; reflexivity|discriminate]. }
    rewrite E. unfold assigned. rewrite (bind_done _ _ _ _ s (Some (w, skip_spaces rest)) s).
    2: { bd Hv. bd Hr. pose proof (exec2 c s (param s name) op v) as X. rewrite Ha in X. bd X. reflexivity. }
    unfold bind at 1. rewrite store_done. reflexivity.
  - destruct (operand_value _ _ _ Ho) as (n2 & Hv). destruct (operand_value _ _ _ Ha) as (n3 & Hv2). destruct (operand_value _ _ _ Hb') as (n4 & Hv3).
    exists (n + n2 + n3 + n4)%nat. intros f Hf. specialize (Hv f ltac:(lia)). specialize (Hv2 f ltac:(lia)). specialize (Hv3 f ltac:(lia)).
    unfold set_parameter. bd (Hp f ltac:(lia)).
    cbn [starts tl]. change (Ascii.eqb "=" "+") with false. change (Ascii.eqb "=" "-") with false. cbn [andb].
    assert (E : assign_op ("="%char :: r) = Some (None, r)).
    { destruct r as [|y r]; [reflexivity|]. cbn [assign_op]. destruct (Ascii.eqb y "="); reflexivity. }
    rewrite E. unfold assigned. rewrite (bind_done _ _ _ _ s (Some (if SFeqb v f0 then b' else a, skip_spaces rest)) s).
    2: { bd Hv. rewrite H1. change (starts "?" ("?"%char :: r2)) with true. cbv iota. cbn [tl]. bd Hv2. rewrite H2. change (starts ":" (":"%char :: r4)) with true. cbv iota. cbn [tl].
         bd Hv3. destruct (SFeqb v f0); reflexivity. }
    unfold bind at 1. change (f32_of_Z 0) with f0. rewrite store_done. reflexivity.
Qed.

Lemma gp_assign : forall line name v rep rest, assignment c s line name v rep rest -> calm s ->
  exists n, forall f pb, (n <= f)%nat -> parse_pair c (S f) pb line s =
    parse_pair c f pb rest (seen (if rep then [ECommandDone "#" v] else []) (stored name v)).
Proof.
  intros line name v rep rest (t & u & Hn & Ho & Hnm & Hb) Hc. destruct (set_parameter_right _ _ _ _ _ _ Hnm Hb) as (n & H).
  exists n. intros f pb Hf. specialize (H f Hf).
  pose proof (opens_sub _ _ Ho) as Sb. pose proof (opens_skip _ _ Ho) as Sk. pose proof (NUL_sub' _ _ Sb Hn) as Hx.
  assert (W : forall k r, match k with [] => true | y :: _ => Ascii.eqb (to_upper "#") y end = false -> ~ written k ("#"%char :: t) r).
  { intros k r E (w & Ew & Et). destruct w as [|y w]; [subst k; cbn in E; discriminate|]. injection Et as <- _. cbn [map] in Ew. subst k. now rewrite Ascii.eqb_refl in E. }
  cbn [parse_pair]. cbv zeta.
  assert (E : same_place (skip_spaces line) [] || starts ";" (skip_spaces line) || starts "%" (skip_spaces line) = false /\
     (if starts "(" (skip_spaces line) then match skip_comment (skip_spaces line) with None => bad | Some r => ret (skip_spaces r) end
      else ret (skip_spaces line)) = @ret text ("#"%char :: t)).
  { destruct Ho as [->|(w & r0 & E & Hw & E2)].
    - split; reflexivity.
    - rewrite E. split; [reflexivity|]. cbn [starts]. rewrite Ascii.eqb_refl.
      change ("("%char :: w ++ ")"%char :: r0) with (("("%char :: w) ++ ")"%char :: r0). rewrite skip_comment_closed; [now rewrite E2|].
      intros [X|X]; [discriminate|contradiction]. }
  destruct E as (-> & ->). unfold bind at 1. unfold get at 1. unfold calm in Hc. rewrite Hc. rewrite bind_ret.
  cbn [same_place length Nat.eqb]. rewrite expect_not_if by (auto; intros r; apply W; reflexivity). rewrite bind_ret.
  rewrite expect_not_while by (auto; intros r; apply W; reflexivity). rewrite bind_ret.
  change (Ascii.eqb "#" "#") with true. cbv iota. rewrite (bind_done _ _ _ _ _ _ _ H). reflexivity.
Qed.
Lemma lead_assign : forall line name v rep rest, assignment c s line name v rep rest -> calm s ->
  leads c line s rest (seen (if rep then [ECommandDone "#" v] else []) (stored name v)).
Proof.
  intros line name v rep rest Ha Hc r (m & Hm). destruct (gp_assign _ _ _ _ _ Ha Hc) as (n & Hn).
  set (s1 := seen _ _) in *. exists (S (S (S (n + m)))). intros [|F] HF; [lia|]. destruct F as [|F]; [lia|]. destruct F as [|F]; [lia|].
  rewrite parse_block_S. specialize (Hm (S (S F)) ltac:(lia)) as Hm1. specialize (Hm (S (S (S F))) ltac:(lia)) as Hm2. rewrite parse_block_S in Hm1, Hm2.
  set (pb := parse_block c (S (S F))) in *. unfold bind at 1. unfold bind at 1 in Hm1. unfold bind at 1 in Hm2.
  assert (B : forall k gp, block_loop c (S k) gp (Some line) s =
     match gp line s with
     | Done p s2 => match p with
                    | None => ret tt s2
                    | Some (letter, v, l) => (running <- get g_running ;;
                       when (negb running) (it <- get g_iterating ;; tell c (EStart (negb it)) ;;; upd (fun s => with_running s true)) ;;;
                       last_spline <- get g_first_spline ;; upd (fun s => with_first s false) ;;;
                       l <- run_command c k gp letter v l last_spline ;; block_loop c k gp l)%g s2
                    end
     | Bad => Bad | Out => Out end).
  { intros k gp. cbn [block_loop]. unfold bind at 1. destruct (gp line s) as [p s2| |]; [|reflexivity|reflexivity]. destruct p as [[[? ?] ?]|]; reflexivity. }
  assert (B1 : forall k gp, block_loop c (S k) gp (Some rest) s1 =
     match gp rest s1 with
     | Done p s2 => match p with
                    | None => ret tt s2
                    | Some (letter, v, l) => (running <- get g_running ;;
                       when (negb running) (it <- get g_iterating ;; tell c (EStart (negb it)) ;;; upd (fun s => with_running s true)) ;;;
                       last_spline <- get g_first_spline ;; upd (fun s => with_first s false) ;;;
                       l <- run_command c k gp letter v l last_spline ;; block_loop c k gp l)%g s2
                    end
     | Bad => Bad | Out => Out end).
  { intros k gp. cbn [block_loop]. unfold bind at 1. destruct (gp rest s1) as [p s2| |]; [|reflexivity|reflexivity]. destruct p as [[[? ?] ?]|]; reflexivity. }
  rewrite B, Hn by lia. rewrite B1 in Hm1. rewrite B1 in Hm2.
  assert (M1 := more_parse_pair c (S F) (S F) (parse_block c (S F)) pb rest (le_n _) (fun t => more_parse_block c (S F) (S (S F)) t ltac:(lia)) s1).
  assert (M2 := more_parse_pair c (S F) (S (S F)) pb pb rest ltac:(lia) (fun t => more_refl _ _) s1).
  destruct M2 as [M2|M2].
  - rewrite M2. destruct M1 as [M1|M1]; rewrite M1 in Hm1; [exact Hm1|]. rewrite M2 in Hm1. exact Hm1.
  - rewrite M2. exact Hm2.
Qed.
End Assign.
