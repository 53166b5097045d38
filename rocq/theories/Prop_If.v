(** IF ... THEN ... ELSE: C67. *)
From Coq Require Import SpecFloat.
From Verif Require Import Base Text Model_StringUtil Model_Float Model_Axis Model_Number Model_Gcode Spec_Expr Spec_Line Spec_Words Spec_Params Spec_If
  Proofs_Lexer Proofs_Expr Proofs_Total Proofs_Words Proofs_Moves Proofs_Params Proofs_If Prop_Expr Prop_Params.

(** The line begins with IF, perhaps behind a comment; [t] is behind it. *)
Definition if_of (line t : text) : Prop := ~ In NUL line /\ exists l, opens line l /\ written (txt "IF") l t.

(** C67: the assignment that is chosen is executed, and nothing else of the line: no other parameter changes, and nothing but the
    assignment and the end of the block is reported. *)
Theorem C67_if : forall c s line t p name u v reported rest m, reads_numbers c -> if_of line t -> g_do_while s = false -> g_params s = Some m ->
  chooses c s t (Some ("#"%char :: p)) -> names c s p name u -> becomes c s (param s name) u v reported rest -> writable name ->
  exists m', let s1 := with_params s (Some m') in
    outcome c line s (Done tt (seen ((if reported then [ECommandDone "#" v] else []) ++ [EBlockDone]) s1)) /\
    param s1 name = v /\ (forall n, same_name n name -> param s1 n = v) /\
    forall other, ~ same_name other name -> param s1 other = param s other.
Proof.
  intros c s line t p name u v rep rest m N (Hn & l & Ho & Hw) Hd Hm Hc Hnm Hb Hwr. exists (pm_set (key name) v m). cbv zeta.
  destruct (stored_reads s m name v Hm) as (R1 & R2). split; [|split; [exact R1|split; [|exact R2]]].
  - destruct (set_parameter_right c s _ _ _ _ _ _ Hnm Hb) as (n & X). unfold stored in X. rewrite (store_ok _ _ _ _ Hm Hwr) in X.
    set (s1 := with_params s (Some (pm_set (key name) v m))) in *.
    assert (E : seen ((if rep then [ECommandDone "#" v] else []) ++ [EBlockDone]) s1 = seen [EBlockDone] (seen (if rep then [ECommandDone "#" v] else []) s1)).
    { unfold seen. cbn [g_events with_events]. rewrite rev_app_distr. destruct s1. reflexivity. }
    rewrite E. apply (if_line c s N line l t _ _ Hn Ho Hw Hd Hc). exists n. intros f Hf. cbn [starts tl]. change (Ascii.eqb "#" "#") with true. cbv iota. rewrite (bind_done _ _ _ _ _ _ _ (X f Hf)). reflexivity.
  - intros n Hsn. apply same_key in Hsn. rewrite (param_table _ (pm_set (key name) v m)) by reflexivity. now rewrite Hsn, find_set_same.
Qed.
Print Assumptions C67_if.

(** Nothing is done if there is nothing to choose, and an error is noted if the chosen part is not an assignment. *)
Theorem C67_if_nothing : forall c s line t, reads_numbers c -> if_of line t -> g_do_while s = false -> chooses c s t None ->
  outcome c line s (Done tt (seen [EBlockDone] s)).
Proof. intros c s line t N (Hn & l & Ho & Hw) Hd Hc. apply (if_line c s N line l t _ _ Hn Ho Hw Hd Hc). reflexivity. Qed.
Print Assumptions C67_if_nothing.
Theorem C67_if_error : forall c s line t p, reads_numbers c -> if_of line t -> g_do_while s = false -> chooses c s t (Some p) -> starts "#" p = false ->
  outcome c line s (Done tt (seen [EBlockDone] (with_errors s (g_errors s + 1)))).
Proof.
  intros c s line t p N (Hn & l & Ho & Hw) Hd Hc Hp. apply (if_line c s N line l t _ _ Hn Ho Hw Hd Hc). exists 0%nat. intros f _. rewrite Hp. reflexivity.
Qed.
Print Assumptions C67_if_error.

(** Beside. *)
Lemma ex_number : forall t v rest x r, t = x :: r -> is_space x || is_alpha x || Ascii.eqb x "[" || Ascii.eqb x "#" = false ->
  gc_number ex_cfg t = Some (v, rest) -> Nat.ltb (length rest) (length t) = true -> operand ex_cfg ex_state t (Some v) rest.
Proof.
  intros t v rest x r Ht Hx Hn Hl. apply orb_false_elim in Hx as [Hx H4]. apply orb_false_elim in Hx as [Hx H3].
  apply orb_false_elim in Hx as [H1 H2]. apply Nat.ltb_lt in Hl. eapply op_number; eauto; intros ->; discriminate.
Qed.
Example C67_example_chooses : if_of (txt "(x) if [0] then #1=5 else #2=6") (txt " [0] then #1=5 else #2=6") /\
  chooses ex_cfg ex_state (txt " [0] then #1=5 else #2=6") (Some (txt "#2=6")) /\
  names ex_cfg ex_state (txt "2=6") (txt "2") (txt "=6") /\ becomes ex_cfg ex_state (param ex_state (txt "2")) (txt "=6") (f32_of_Z 6) true [] /\ writable (txt "2").
Proof.
  split; [|split; [|split; [|split]]].
  - split; [apply no_NUL; reflexivity|]. exists (txt "if [0] then #1=5 else #2=6"). split; [|exists (txt "if"); split; reflexivity].
    right. exists (txt "x"), (txt " if [0] then #1=5 else #2=6"). split; [reflexivity|]. split; [|reflexivity]. intros [X|[]]. discriminate X.
  - apply (ch_else _ _ _ (f32_of_Z 0) (txt "then #1=5 else #2=6") (txt "#1=5 else #2=6") (txt "#2=6")).
    + eexists (txt "0] then #1=5 else #2=6"), _, _, _, (txt "] then #1=5 else #2=6"). split; [reflexivity|]. split; [apply lv_operand; eapply ex_number; vm_compute; reflexivity|].
      split; [lia|]. exists (txt " then #1=5 else #2=6"). split; reflexivity.
    + exists (txt " #1=5 else #2=6"). split; [exists (txt "then"); split; reflexivity|reflexivity].
    + intros H. vm_compute in H. discriminate H.
    + exists (txt "#1=5 "), (txt "else #2=6"), (txt " #2=6"). split; [reflexivity|]. split; [exists (txt "else"); split; reflexivity|]. split; [reflexivity|].
      intros a' b' r' E (w & Hw & ->). destruct w as [|x w]; [discriminate Hw|]. assert (Hx : to_upper x = "E"%char) by (injection Hw as Hx _; exact Hx).
      change (txt "#1=5 else #2=6") with (txt "#1=5 " ++ txt "else #2=6") in E.
      do 5 (destruct a' as [|? a']; [injection E as E0 _; rewrite <- E0 in Hx; discriminate Hx|injection E as _ E]). cbn. lia.
    + intros r (w & Hw & E). destruct w as [|x w]; [discriminate Hw|]. injection E as <- _. discriminate Hw.
  - apply (nm_index _ _ _ "2" (txt "=6") (f32_of_Z 2) (txt "=6")); [reflexivity|left; reflexivity|]. eapply ex_number; vm_compute; reflexivity.
  - apply (b_set _ _ _ (txt "6") (f32_of_Z 6) []); [eapply ex_number; vm_compute; reflexivity|reflexivity].
  - apply blocked_right. vm_compute. reflexivity.
Qed.
Example C67_example_effect :
  reading 60 [txt "IF [1 LT 2] THEN #1=5 ELSE #1=6"] (txt "1") = Some (Some 5) /\
  reading 60 [txt "IF [2 LT 1] THEN #1=5 ELSEIF [3 GT 1] THEN #1=8 ELSE #1=6"] (txt "1") = Some (Some 8) /\
  reading 60 [txt "IF [2 LT 1] THEN #1=5"] (txt "1") = Some (Some 0).
Proof. vm_compute. repeat split. Qed.

(** Finding: WHILE goes on as long as its condition is not zero, and ? takes the first value then; IF takes its first part only for 1. *)
Theorem C67_nonzero_refuted : ~ (forall c s line t p name u v reported rest m s1 r w f, reads_numbers c -> if_of line t -> g_do_while s = false -> g_params s = Some m ->
  condition c s t w r -> SFeqb w (f32_of_Z 0) = false -> keyword (txt "THEN") r ("#"%char :: p) ->
  names c s p name u -> becomes c s (param s name) u v reported rest -> writable name ->
  parse_block c f line s = Done tt s1 -> param s1 name = v).
Proof.
  intros H. destruct (parse_block ex_cfg 40 (txt "IF [2] THEN #2=6") ex_state) as [[] s1| |] eqn:E.
  2, 3: apply (f_equal (fun r => match r with Done _ _ => true | _ => false end)) in E; vm_compute in E; discriminate E.
  assert (P : param s1 (txt "2") = f32_of_Z 6); [|apply (f_equal (fun r => match r with Done _ s => param s (txt "2") | _ => f32_of_Z 6 end)) in E; rewrite P in E; vm_compute in E; discriminate E].
  destruct C67_example_chooses as (_ & _ & Hnm & Hb & Hw).
  destruct (g_params ex_state) as [m|] eqn:Em; [|vm_compute in Em; discriminate Em].
  apply (H ex_cfg ex_state (txt "IF [2] THEN #2=6") (txt " [2] THEN #2=6") (txt "2=6") (txt "2") (txt "=6") (f32_of_Z 6) true [] m s1 (txt "THEN #2=6") (f32_of_Z 2) 40%nat); auto.
  - apply ex_reads.
  - split; [apply no_NUL; reflexivity|]. exists (txt "IF [2] THEN #2=6"). split; [left; reflexivity|exists (txt "IF"); split; reflexivity].
  - eexists (txt "2] THEN #2=6"), _, _, _, (txt "] THEN #2=6"). split; [reflexivity|]. split; [apply lv_operand; eapply ex_number; vm_compute; reflexivity|].
    split; [lia|]. exists (txt " THEN #2=6"). split; reflexivity.
  - exists (txt " #2=6"). split; [exists (txt "THEN"); split; reflexivity|reflexivity].
Qed.
Print Assumptions C67_nonzero_refuted.
