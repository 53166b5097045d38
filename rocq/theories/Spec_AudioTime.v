(** Specification: the exact moments of a simulated run, as real numbers of seconds. *)
From Coq Require Import Reals.
From Verif Require Import Base Model_MotorOps.
Local Open Scope R_scope.

Fixpoint exact_pass_ends (t : R) (l : list ((motor -> bool) * Z)) : list R * R :=
  match l with
  | [] => ([], t + 160 / 1000000000)
  | (_, ticks) :: r =>
      let t := t + 160 / 1000000000 + IZR ticks / 100000000 in
      let '(x, e) := exact_pass_ends t r in (t :: x, e)
  end.
Fixpoint exact_ends (t : R) (segs : list (list ((motor -> bool) * Z))) : list R * R :=
  match segs with
  | [] => ([], t)
  | l :: r => let '(x, e) := exact_pass_ends t l in let '(y, f) := exact_ends e r in (x ++ y, f)
  end.
(** The length of a run, and the number of additions to the clock in it. *)
Definition run_length (segs : list (list ((motor -> bool) * Z))) : R := snd (exact_ends 0 segs).
Definition additions (segs : list (list ((motor -> bool) * Z))) : Z := fold_right (fun l n => (2 * Z.of_nat (length l) + 1 + n)%Z) 0%Z segs.
