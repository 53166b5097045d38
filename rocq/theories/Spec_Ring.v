(** Specification for RingDeque: an ordinary list of at most [cap] elements. *)
From Verif Require Import Base Model_RingDeque.

Fixpoint set_nth {T} (l : list T) (n : nat) (v : T) : list T :=
  match l, n with
  | [], _ => []
  | _ :: l', O => v :: l'
  | x :: l', Datatypes.S n' => x :: set_nth l' n' v
  end.

(** Positions are of the unsigned type size_t. *)
Definition op_pos_ok {T} (o : ring_op T) : Prop :=
  match o with OpGet p => 0 <= p | OpSet p _ => 0 <= p | _ => True end.

(** [None]: not allowed (full, empty, or no such position). *)
Definition list_step {T} (cap : Z) (l : list T) (o : ring_op T) : option (list T * ring_res T) :=
  match o with
  | OpAppend v => if Z.of_nat (length l) <? cap then Some (l ++ [v], RUnit) else None
  | OpGet p => match nth_error l (Z.to_nat p) with Some x => Some (l, RElem x) | None => None end
  | OpSet p v => if p <? Z.of_nat (length l) then Some (set_nth l (Z.to_nat p) v, RUnit) else None
  | OpBack => match rev l with x :: _ => Some (l, RElem x) | [] => None end
  | OpPopFront => match l with _ :: l' => Some (l', RUnit) | [] => None end
  | OpPopBack => match l with _ :: _ => Some (removelast l, RUnit) | [] => None end
  | OpSize => Some (l, RNum (Z.of_nat (length l)))
  | OpEmpty => Some (l, RBool (match l with [] => true | _ => false end))
  end.

Fixpoint list_run {T} (cap : Z) (l : list T) (os : list (ring_op T)) : list (ring_res T) * bool :=
  match os with
  | [] => ([], true)
  | o :: os' =>
      match list_step cap l o with
      | Some (l', x) => let '(xs, ok) := list_run cap l' os' in (x :: xs, ok)
      | None => ([], false)
      end
  end.
