(** Specification of IF ... THEN ... ELSE: which of the assignments of a line is executed. *)
From Coq Require Import SpecFloat.
From Verif Require Import Base Text Model_Float Model_Axis Model_Gcode Spec_Expr.

(** The text begins with a bracketed expression with the value [v]; [rest] is behind it. *)
Definition condition (c : gcfg) (s : gst) (t : text) (v : fl) (rest : text) : Prop :=
  exists r o d m t', skip_spaces t = "["%char :: r /\ level c s 2 o d m (skip_spaces r) (Some v) t' /\ (d <= 6)%nat /\ closing t' rest.
(** A keyword, in any letter case, and what is behind it *)
Definition keyword (k t behind : text) : Prop := exists r, written k (skip_spaces t) r /\ behind = skip_spaces r.
(** What is behind the first ELSE *)
Definition first_else (t behind : text) : Prop :=
  exists a b r, t = a ++ b /\ written (txt "ELSE") b r /\ behind = skip_spaces r /\
    forall a' b' r', t = a' ++ b' -> written (txt "ELSE") b' r' -> (length a <= length a')%nat.
Definition no_else (t : text) : Prop := forall a b r, t = a ++ b -> ~ written (txt "ELSE") b r.
Definition is_one (v : fl) : Prop := SFeqb v (f32_of_Z 1) = true.

(** [t] is behind IF: the part of the line that is executed, None if there is none. *)
Inductive chooses (c : gcfg) (s : gst) : text -> option text -> Prop :=
| ch_then t v rest body : condition c s t v rest -> keyword (txt "THEN") rest body -> is_one v -> chooses c s t (Some body)
| ch_nothing t v rest body : condition c s t v rest -> keyword (txt "THEN") rest body -> ~ is_one v -> no_else body -> chooses c s t None
| ch_else t v rest body other : condition c s t v rest -> keyword (txt "THEN") rest body -> ~ is_one v -> first_else body other ->
    (forall r, ~ written (txt "IF") other r) -> chooses c s t (Some other)
| ch_elseif t v rest body other r res : condition c s t v rest -> keyword (txt "THEN") rest body -> ~ is_one v -> first_else body other ->
    written (txt "IF") other r -> chooses c s r res -> chooses c s t res.
