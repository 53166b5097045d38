(** Specification of keyword matching. *)
From Verif Require Import Text.

(** [k] is a prefix of [w], ignoring case. *)
Definition ci_prefix (k w : text) : Prop :=
  exists rest p, w = p ++ rest /\ map to_upper p = map to_upper k.

(** [rest] is [s] without its leading white space. *)
Definition without_leading_space (s rest : text) : Prop :=
  exists sp, s = sp ++ rest /\ (forall c, In c sp -> is_space c = true) /\
    (forall c r, rest = c :: r -> is_space c = false).

(** Outcome of matching the next of the keywords [kws] against [input]: *)
Definition longest_match (kws : list (text * Z)) (input : text) (token : Z) (rest : text) : Prop :=
  exists w, without_leading_space input w /\
  ((token = 0 /\ rest = input /\ forall k v, In (k, v) kws -> ~ ci_prefix k w) \/
   (exists k p r, In (k, token) kws /\ w = p ++ r /\ map to_upper p = map to_upper k /\
      (forall k' v', In (k', v') kws -> ci_prefix k' w -> (length k' <= length k)%nat) /\
      without_leading_space r rest)).
