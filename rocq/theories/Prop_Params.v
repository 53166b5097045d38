(** Theorems about parameters: C19. *)
From Coq Require Import SpecFloat.
From Verif Require Import Base Text Model_StringUtil Model_Float Model_Lexer Model_Axis Model_Number Model_Gcode Spec_Text Spec_Expr Proofs_Expr Prop_Text
  Proofs_Total Spec_Words Proofs_Words Spec_Moves Proofs_Moves Spec_Params Proofs_Params Prop_Expr.

Lemma read_names_trim : forall a, is_trimmed a (trim_whitespace a).
Proof. intros a. now apply C02_trim_exact. Qed.

(** ** C19 *)
(** An assignment at the beginning of a line gives the parameter its value and leaves every
    other parameter and everything else in the state as it was; only then the rest of the
    line is read. The increment and decrement are not reported to the receiver. *)
Theorem C19_assignment : forall c s line name v reported rest m, g_params s = Some m -> g_do_while s = false ->
  assignment c s line name v reported rest -> writable name ->
  exists m', let s1 := with_params s (Some m') in
    leads c line s rest (seen (if reported then [ECommandDone "#" v] else []) s1) /\
    param s1 name = v /\ (forall n, same_name n name -> param s1 n = v) /\
    forall other, ~ same_name other name -> param s1 other = param s other.
Proof.
  intros c s line name v rep rest m Hm Hc Ha Hw. exists (pm_set (key name) v m). cbv zeta.
  destruct (stored_reads s m name v Hm) as (R1 & R2). split; [|split; [exact R1|split; [|exact R2]]].
  - pose proof (lead_assign c s _ _ _ _ _ Ha Hc) as L. unfold stored in L. rewrite (store_ok _ _ _ _ Hm Hw) in L. exact L.
  - intros n Hn. apply same_key in Hn. rewrite (param_table _ (pm_set (key name) v m)) by reflexivity. now rewrite Hn, find_set_same.
Qed.
Print Assumptions C19_assignment.

(** Parameter 0 and the numbers from 5400 on: nothing is assigned, an error is noted. *)
Theorem C19_not_writable : forall c s line name v reported rest m, g_params s = Some m -> g_do_while s = false ->
  assignment c s line name v reported rest -> ~ writable name ->
  leads c line s rest (seen (if reported then [ECommandDone "#" v] else []) (with_errors s (g_errors s + 1))) /\
  forall n, param (with_errors s (g_errors s + 1)) n = param s n.
Proof.
  intros c s line name v rep rest m Hm Hc Ha Hw. split; [|intros n; now rewrite (param_table _ m n) by exact Hm; rewrite (param_table s m n) by exact Hm].
  pose proof (lead_assign c s _ _ _ _ _ Ha Hc) as L. unfold stored in L. rewrite (store_refused _ _ _ _ Hm Hw) in L. exact L.
Qed.
Print Assumptions C19_not_writable.

(** The numbers that can be written, and different numbers are different parameters. *)
Theorem C19_numbers : forall n, - 2 ^ 63 < n < 2 ^ 63 -> (writable (show_int n) <-> n <> 0 /\ n < 5400).
Proof. intros n Hn. apply show_writable. lia. Qed.
Print Assumptions C19_numbers.
Theorem C19_different_numbers : forall n k, - 2 ^ 63 < n < 2 ^ 63 -> - 2 ^ 63 < k < 2 ^ 63 -> n <> k -> ~ same_name (show_int n) (show_int k).
Proof.
  intros n k Hn Hk H S. apply same_key in S. rewrite !show_key in S. apply H. apply (show_inj n k); [lia|lia|exact S].
Qed.
Print Assumptions C19_different_numbers.

(** Letter case does not matter: upper and lower case letters make the same name. *)
Theorem C19_case : forall a b, map to_lower a = map to_lower b -> Forall (fun x => is_space x = false) a -> Forall (fun x => is_space x = false) b -> same_name a b.
Proof. intros a b H Ha Hb. apply same_key. unfold key. now rewrite !trim_plain. Qed.
Print Assumptions C19_case.

(** After any history of stores in an empty table a parameter has the value it was given
    last; one that was never given any is zero, or the position for the letter of an axis. *)
Fixpoint stores (l : list (text * fl)) : G unit :=
  match l with [] => ret tt | (n, v) :: r => bind (store_parameter n v) (fun _ => stores r) end.
Definition position_named (s : gst) (name : text) (v : fl) : Prop :=
  exists x a, is_trimmed name [x] /\ letter_axis x = Some a /\ v = g_pos s a.
Definition initially (s : gst) (name : text) (v : fl) : Prop :=
  position_named s name v \/ ((forall w, ~ position_named s name w) /\ v = f32_of_Z 0).
Lemma stores_app : forall a b s, stores (a ++ b) s = match stores a s with Done _ s1 => stores b s1 | Bad => Bad | Out => Out end.
Proof.
  induction a as [|[n v] a IH]; intros b s; [reflexivity|]. cbn [app stores]. unfold bind. destruct (store_parameter n v s); [apply IH|reflexivity|reflexivity].
Qed.
Lemma writable_or_not : forall n, writable n \/ ~ writable n.
Proof. intros n. rewrite blocked_right. destruct (blocked n); [right; discriminate|now left]. Qed.
Theorem C19_history : forall s l name r, g_params s = Some [] -> given l name r ->
  exists s1, stores l s = Done tt s1 /\ g_pos s1 = g_pos s /\ match r with Some v => param s1 name = v | None => initially s name (param s1 name) end.
Proof.
  intros s l name r Hs H.
  enough (exists s1 m, stores l s = Done tt s1 /\ g_params s1 = Some m /\ g_pos s1 = g_pos s /\ pm_find (key name) m = r) as (s1 & m & H1 & H2 & H3 & H4).
  { exists s1. split; [exact H1|]. split; [exact H3|]. rewrite (param_table _ _ _ H2), H4. destruct r; [reflexivity|].
    unfold unset. destruct (trim_whitespace name) as [|x [|y t]] eqn:Et.
    - right. split; [|reflexivity]. intros w (x & a & Ht & _). apply C02_trim_exact in Ht. congruence.
    - destruct (letter_axis x) as [a|] eqn:Ea.
      + left. exists x, a. split; [rewrite <- Et; apply read_names_trim|]. split; [exact Ea|]. now rewrite H3.
      + right. split; [|reflexivity]. intros w (z & a & Ht & Hz & _). apply C02_trim_exact in Ht. congruence.
    - right. split; [|reflexivity]. intros w (z & a & Ht & Hz & _). apply C02_trim_exact in Ht. congruence. }
  induction H as [name|l name n v Hn Hw|l name n v r Hn H IH].
  - exists s, []. repeat split; auto.
  - assert (T : exists s1 m, stores l s = Done tt s1 /\ g_params s1 = Some m /\ g_pos s1 = g_pos s).
    { clear -Hs. assert (X : exists m, g_params s = Some m) by eauto. clear Hs. revert s X. induction l as [|[n v] l IH]; intros s (m & Hm); [exists s, m; auto|].
      cbn [stores]. unfold bind. destruct (writable_or_not n) as [W|W].
      - rewrite (store_ok n v s m Hm W). destruct (IH (with_params s (Some (pm_set (key n) v m)))) as (s1 & m1 & A); [eexists; reflexivity|]. exists s1, m1. exact A.
      - rewrite (store_refused n v s m Hm W). destruct (IH (with_errors s (g_errors s + 1))) as (s1 & m1 & A); [exists m; exact Hm|]. exists s1, m1. exact A. }
    destruct T as (s1 & m & T1 & T2 & T3). rewrite stores_app, T1. cbn [stores]. unfold bind. rewrite (store_ok n v s1 m T2 Hw).
    eexists. eexists. split; [reflexivity|]. split; [reflexivity|]. split; [exact T3|]. apply same_key in Hn. rewrite <- Hn. apply find_set_same.
  - destruct (IH) as (s1 & m & T1 & T2 & T3 & T4). rewrite stores_app, T1. cbn [stores]. unfold bind. destruct (writable_or_not n) as [W|W].
    + rewrite (store_ok n v s1 m T2 W). eexists. eexists. split; [reflexivity|]. split; [reflexivity|]. split; [exact T3|].
      rewrite find_set_other; [exact T4|]. destruct (text_eqb (key name) (key n)) eqn:E; [|reflexivity]. apply text_eqb_eq in E. exfalso. apply Hn.
      split; [|exact W]. now apply same_key.
    + rewrite (store_refused n v s1 m T2 W). exists (with_errors s1 (g_errors s1 + 1)), m. auto.
Qed.
Print Assumptions C19_history.

(** ** Examples *)
Example C19_example_assignment : assignment ex_cfg ex_state (txt "(set) #Foo = 1 ? 7 : 8 G1") (txt "Foo") (f32_of_Z 7) true (txt "G1").
Proof.
  assert (N : forall t v rest x r, t = x :: r -> is_space x || is_alpha x || Ascii.eqb x "[" || Ascii.eqb x "#" = false ->
     gc_number ex_cfg t = Some (v, rest) -> Nat.ltb (length rest) (length t) = true -> operand ex_cfg ex_state t (Some v) rest).
  { intros t v rest x r Ht Hx Hn Hl. apply orb_false_elim in Hx as [Hx H4]. apply orb_false_elim in Hx as [Hx H3].
    apply orb_false_elim in Hx as [H1 H2]. apply Nat.ltb_lt in Hl. eapply op_number; eauto.
    - intros ->. discriminate.
    - intros ->. discriminate. }
  exists (txt "Foo = 1 ? 7 : 8 G1"), (txt "= 1 ? 7 : 8 G1"). split; [apply no_NUL; reflexivity|]. split.
  - right. exists (txt "set"), (txt " #Foo = 1 ? 7 : 8 G1"). split; [reflexivity|]. split; [|reflexivity].
    cbn. intros X. repeat (destruct X as [X|X]; [discriminate|]). exact X.
  - split.
    + apply (nm_name _ _ _ (txt "Foo") (txt " = 1 ? 7 : 8 G1")); [reflexivity|discriminate|repeat constructor|intros x r E; injection E as <- _; reflexivity|intros x r E; injection E as <- _; reflexivity].
    + assert (E : f32_of_Z 7 = (if SFeqb (f32_of_Z 1) (f32_of_Z 0) then f32_of_Z 8 else f32_of_Z 7)) by (vm_compute; reflexivity). rewrite E.
      apply (b_choice _ _ _ (txt " 1 ? 7 : 8 G1") (f32_of_Z 1) (txt " ? 7 : 8 G1") (txt " 7 : 8 G1") (f32_of_Z 7) (txt " : 8 G1") (txt " 8 G1") (f32_of_Z 8) (txt " G1"));
        try reflexivity; eapply N; vm_compute; reflexivity.
Qed.
Example C19_example_writable : writable (txt "Foo") /\ same_name (txt " foo") (txt "FOO") /\ ~ same_name (txt "foo") (txt "fo") /\ ~ writable (txt "0") /\ ~ writable (txt "5400").
Proof.
  split; [apply blocked_right; vm_compute; reflexivity|]. split; [apply same_key; vm_compute; reflexivity|].
  split; [intros H; apply same_key in H; vm_compute in H; discriminate|].
  split; intros H; apply blocked_right in H; vm_compute in H; discriminate.
Qed.
Definition reading (f : nat) (lines : list text) (name : text) : option (option Z) :=
  match each (parse_block ex_cfg f) lines ex_state with Done _ s => Some (fl_trunc (param s name)) | _ => None end.
Example C19_example_effect :
  reading 60 [txt "#Foo=5 #<fo o> += 2 (up) #FOO++ #2=[#foo*10] #0=1 #5400=3"] (txt "foo") = Some (Some 8) /\
  reading 60 [txt "#Foo=5 #<fo o> += 2 (up) #FOO++ #2=[#foo*10] #0=1 #5400=3"] (txt "2") = Some (Some 80) /\
  reading 60 [txt "#0=1 #5400=3"] (txt "0") = Some (Some 0).
Proof. vm_compute. repeat split. Qed.

(** An assignment behind a word is different: it is executed while the parameters of the
    command are looked for, and again as the next command. *)
Theorem C19_twice_refuted : ~ (forall c s f line ws rest v name t1 rest1 m s1,
  g_params s = Some m -> words c s line ws rest -> only move_letter (tl ws) -> assignment c s rest name v t1 rest1 -> writable name ->
  line_end rest1 -> parse_block c f line s = Done tt s1 -> param s1 name = v).
Proof.
  intros H.
  assert (B : match new_parser ex_cfg (Some []) with
    | Done _ s => match g_params s with Some _ => true | None => false end && SFeqb (param s (txt "1")) (f32_of_Z 0) &&
                   match parse_block ex_cfg 30 (txt "G1X1#1++") s with
                   | Done _ s1 => SFeqb (param s1 (txt "1")) (f32_of_Z 2) | _ => false end
    | _ => false end = true) by (vm_compute; reflexivity).
  destruct (new_parser ex_cfg (Some [])) as [[] s| |]; [|discriminate..]. apply andb_prop in B as [B B2]. apply andb_prop in B as [B B1].
  destruct (g_params s) as [m|] eqn:Em; [|discriminate].
  destruct (parse_block ex_cfg 30 (txt "G1X1#1++") s) as [[] s1| |] eqn:E; [|discriminate..].
  assert (W : exists ws, words ex_cfg s (txt "G1X1#1++") ws (txt "#1++") /\ only move_letter (tl ws)).
  { eexists. split; [apply (read_words_right _ _ 2); vm_compute; reflexivity|]. apply only_right. vm_compute. reflexivity. }
  destruct W as (ws & W & Wo).
  assert (A : assignment ex_cfg s (txt "#1++") (txt "1") (f32_add (param s (txt "1")) (f32_of_Z 1)) false []).
  { exists (txt "1++"), (txt "++"). split; [apply no_NUL; reflexivity|]. split; [now left|]. split; [|exact (b_up _ _ _ [])].
    apply (nm_index _ _ _ "1"%char (txt "++") (f32_of_Z 1) (txt "++")); [reflexivity|left; reflexivity|].
    apply (op_number _ _ _ _ _ "1"%char (txt "++")); try reflexivity; [discriminate|discriminate|cbn; lia]. }
  assert (Hb : writable (txt "1")) by (apply blocked_right; vm_compute; reflexivity).
  specialize (H ex_cfg s 30%nat _ ws _ _ (txt "1") false [] m s1 Em W Wo A Hb (or_introl eq_refl) E).
  rewrite H in B2.
  assert (Z : match param s (txt "1") with S754_zero _ => true | _ => false end = true).
  { change (f32_of_Z 0) with f0 in B1. destruct (param s (txt "1")) as [|[]| |[] ? ?]; [reflexivity|cbn in B1; discriminate..]. }
  destruct (param s (txt "1")) as [[]| | |]; try discriminate Z; vm_compute in B2; discriminate.
Qed.
Print Assumptions C19_twice_refuted.
