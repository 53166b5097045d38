(** List lemmas missing in the standard library. *)
From Coq Require Import List Lia Arith.
Import ListNotations.

Lemma skipn_skipn {A} : forall x y (l : list A), skipn x (skipn y l) = skipn (x + y) l.
Proof.
  intros x y. revert x. induction y as [|y IH]; intros x l.
  - rewrite Nat.add_0_r. reflexivity.
  - destruct l as [|a l].
    + now rewrite !skipn_nil.
    + replace (x + S y) with (S (x + y)) by lia. cbn [skipn]. apply IH.
Qed.
