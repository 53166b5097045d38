(** Property theorems about the string utilities and the ring container:
    C01, C02, C56 (string-util.cc), C06 (container.h). *)
From Verif Require Import Text Model_StringUtil Spec_Text Proofs_StringUtil.
From Verif Require Import Model_RingDeque Spec_Ring Proofs_RingDeque.

(** C01: the result of SplitString is the cut of [s] at the separators... *)
Theorem C01_split_cuts_at_separators : forall s seps,
  is_split s seps (split_string s seps).
Proof. exact split_string_split. Qed.
Print Assumptions C01_split_cuts_at_separators.

(** ... and there is only one such cut, so the statement above determines the
    result completely. *)
Theorem C01_split_unique : forall s seps pieces,
  is_split s seps pieces <-> pieces = split_string s seps.
Proof.
  intros s seps pieces. split.
  - intros H. apply (is_split_unique seps _ _ s H). apply split_string_split.
  - intros E. subst. apply split_string_split.
Qed.
Print Assumptions C01_split_unique.

Example C01_example : split_string (txt "a,b;;c") (txt ",;") = [txt "a"; txt "b"; []; txt "c"].
Proof. reflexivity. Qed.

(** C02: TrimWhitespace *)
Theorem C02_trim_exact : forall s t, is_trimmed s t <-> t = trim_whitespace s.
Proof.
  intros s t. split.
  - intros H. apply (is_trimmed_unique s _ _ H). apply trim_whitespace_trimmed.
  - intros E. subst. apply trim_whitespace_trimmed.
Qed.
Print Assumptions C02_trim_exact.

Theorem C02_trim_idempotent : forall s,
  trim_whitespace (trim_whitespace s) = trim_whitespace s.
Proof.
  intros s. symmetry. apply C02_trim_exact.
  destruct (trim_whitespace_trimmed s) as (_ & H1 & H2).
  split; [|split; auto].
  exists [], []. rewrite app_nil_r. repeat split; auto; intros ? [].
Qed.
Print Assumptions C02_trim_idempotent.

Example C02_example : trim_whitespace (txt "  a b  ") = txt "a b" /\ trim_whitespace (txt "   ") = [].
Proof. split; reflexivity. Qed.

(** C56: integer conversion. White space, an optional '+', an optional '-' and
    decimal digits are read as the number they denote, stopping at the first
    character that is not a digit; a value outside the 32 (64) bit range is
    reported as failure and never stored truncated. *)
Theorem C56_integers_read_exactly : forall bits w plus neg s v r,
  bits = 32 \/ bits = 64 -> all_white w -> decimal s v -> ~ starts_with_digit r ->
  let x := if neg : bool then - v else v in
  let input := w ++ (if plus : bool then txt "+" else []) ++ (if neg then txt "-" else []) ++ s ++ r in
  (- 2 ^ (bits - 1) <= x <= 2 ^ (bits - 1) - 1 ->
     convert_strto_num bits input = Some (x, r)) /\
  (~ - 2 ^ (bits - 1) <= x <= 2 ^ (bits - 1) - 1 ->
     convert_strto_num bits input = None).
Proof.
  intros bits w plus neg s v r Hb Hw Hs Hr x input.
  assert (E : convert_strto_num bits input =
    (if (- 2 ^ (bits - 1) <=? x) && (x <=? 2 ^ (bits - 1) - 1) then Some (x, r) else None)).
  { exact (convert_decimal bits w plus neg s v r Hw Hs Hr). }
  rewrite E. split; intros H.
  - replace ((- 2 ^ (bits - 1) <=? x) && (x <=? 2 ^ (bits - 1) - 1)) with true; auto.
    symmetry. apply andb_true_iff. split; apply Z.leb_le; lia.
  - replace ((- 2 ^ (bits - 1) <=? x) && (x <=? 2 ^ (bits - 1) - 1)) with false; auto.
    symmetry. apply andb_false_iff.
    destruct (Z_le_gt_dec (- 2 ^ (bits - 1)) x); [right|left]; apply Z.leb_gt; lia.
Qed.
Print Assumptions C56_integers_read_exactly.

Example C56_example :
  convert_strto32 (txt "  -2147483648 rest") = Some (-2147483648, txt " rest") /\
  convert_strto32 (txt "2147483648") = None /\
  convert_strto64 (txt "+42") = Some (42, []) /\ convert_strto64 (txt "x") = None.
Proof. repeat split; reflexivity. Qed.

(** A text without a digit after the sign is never taken for a number. *)
Theorem C56_no_number_no_value : forall bits s neg,
  ~ starts_with_digit s -> (neg = false -> forall r, s <> "-"%char :: r) ->
  from_chars_int bits ((if neg : bool then txt "-" else []) ++ s) = None.
Proof. exact from_chars_none. Qed.
Print Assumptions C56_no_number_no_value.

(** C06: for every capacity and every history of calls on a fresh RingDeque
    (whatever its uninitialised memory holds) all results, including which call
    first violates an assertion, are those of a list bounded by CAPACITY-1. *)
Theorem C06_ring_is_bounded_list : forall (T : Type) (CAPACITY : Z) (garbage : Z -> T)
    (history : list (ring_op T)),
  1 < CAPACITY < 2 ^ 31 -> Forall op_pos_ok history ->
  ring_run CAPACITY (ring_init garbage) history = list_run (CAPACITY - 1) [] history.
Proof.
  intros T CAP g os HC Ho. apply ring_run_refines; auto. apply abs_nil; auto.
Qed.
Print Assumptions C06_ring_is_bounded_list.

Example C06_example :
  ring_run 3 (ring_init (fun _ => 0))
    [OpAppend 1; OpAppend 2; OpPopFront; OpAppend 3; OpGet 0; OpBack; OpPopBack; OpAppend 4;
     OpGet 1; OpSize; OpAppend 5]
  = ([RUnit; RUnit; RUnit; RUnit; RElem 2; RElem 3; RUnit; RUnit; RElem 4; RNum 2], false).
Proof. reflexivity. Qed.
