(** Model of [RingDeque<T, CAPACITY>], src/common/container.h:84-137.
    [unsigned] is 32 bits wide; arithmetic wraps ([u32]). The element array is
    a function of the index; "uninitialised" elements are arbitrary values. *)
From Verif Require Import Base.

Section Ring.
Context {T : Type}.
Variable CAPACITY : Z.

(** container.h:134-136 write_pos_, read_pos_, buffer_ *)
Record ring := mk_ring { write_pos : Z; read_pos : Z; buffer : Z -> T }.

(** container.h:93-96, 134-136: constructor; the memory is uninitialised. *)
Definition ring_init (garbage : Z -> T) : ring := mk_ring 0 0 garbage.

(** container.h:98 size *)
Definition ring_size (r : ring) : Z :=
  u32 (write_pos r + CAPACITY - read_pos r) mod CAPACITY.

(** container.h:99 empty *)
Definition ring_empty (r : ring) : bool := write_pos r =? read_pos r.

(** container.h:100 capacity *)
Definition ring_capacity : Z := CAPACITY - 1.

Definition upd (b : Z -> T) (i : Z) (v : T) : Z -> T :=
  fun j => if j =? i then v else b j.

(** container.h:104-109 append, followed by the caller's store of [v] through
    the returned pointer. A failing assert is [Undefined]. *)
Definition ring_append (r : ring) (v : T) : outcome ring :=
  if ring_size r <? ring_capacity then
    Ok (mk_ring (u32 (write_pos r + 1) mod CAPACITY) (read_pos r)
                (upd (buffer r) (write_pos r) v))
  else Undefined.

(** container.h:112-115 operator[]: the element the returned pointer points to. *)
Definition ring_get (r : ring) (pos : Z) : outcome T :=
  if pos <? ring_size r then
    Ok (buffer r (u32 (read_pos r + pos) mod CAPACITY))
  else Undefined.

(** container.h:112-115 operator[] followed by a store through the pointer. *)
Definition ring_set (r : ring) (pos : Z) (v : T) : outcome ring :=
  if pos <? ring_size r then
    Ok (mk_ring (write_pos r) (read_pos r)
                (upd (buffer r) (u32 (read_pos r + pos) mod CAPACITY) v))
  else Undefined.

(** container.h:118-121 back *)
Definition ring_back (r : ring) : outcome T :=
  if ring_empty r then Undefined
  else Ok (buffer r (u32 (write_pos r + CAPACITY - 1) mod CAPACITY)).

(** container.h:123-126 pop_front *)
Definition ring_pop_front (r : ring) : outcome ring :=
  if ring_empty r then Undefined
  else Ok (mk_ring (write_pos r) (u32 (read_pos r + 1) mod CAPACITY) (buffer r)).

(** container.h:128-131 pop_back *)
Definition ring_pop_back (r : ring) : outcome ring :=
  if ring_empty r then Undefined
  else Ok (mk_ring (u32 (write_pos r + CAPACITY - 1) mod CAPACITY) (read_pos r) (buffer r)).

End Ring.
Arguments ring : clear implicits.

(** One call on the container; the observable results of a history of calls. *)
Inductive ring_op (T : Type) :=
| OpAppend (v : T) | OpGet (pos : Z) | OpSet (pos : Z) (v : T) | OpBack
| OpPopFront | OpPopBack | OpSize | OpEmpty.
Arguments OpAppend {T}. Arguments OpGet {T}. Arguments OpSet {T}.
Arguments OpBack {T}. Arguments OpPopFront {T}. Arguments OpPopBack {T}.
Arguments OpSize {T}. Arguments OpEmpty {T}.

Inductive ring_res (T : Type) := RUnit | RElem (v : T) | RNum (n : Z) | RBool (b : bool).
Arguments RUnit {T}. Arguments RElem {T}. Arguments RNum {T}. Arguments RBool {T}.

Definition ring_step {T} (CAP : Z) (r : ring T) (o : ring_op T)
  : outcome (ring T * ring_res T) :=
  match o with
  | OpAppend v => obind (ring_append CAP r v) (fun r' => Ok (r', RUnit))
  | OpGet p => obind (ring_get CAP r p) (fun v => Ok (r, RElem v))
  | OpSet p v => obind (ring_set CAP r p v) (fun r' => Ok (r', RUnit))
  | OpBack => obind (ring_back CAP r) (fun v => Ok (r, RElem v))
  | OpPopFront => obind (ring_pop_front CAP r) (fun r' => Ok (r', RUnit))
  | OpPopBack => obind (ring_pop_back CAP r) (fun r' => Ok (r', RUnit))
  | OpSize => Ok (r, RNum (ring_size CAP r))
  | OpEmpty => Ok (r, RBool (ring_empty r))
  end.

(** Results of the calls of a history up to the first failing assert. *)
Fixpoint ring_run {T} (CAP : Z) (r : ring T) (os : list (ring_op T))
  : list (ring_res T) * bool :=
  match os with
  | [] => ([], true)
  | o :: os' =>
      match ring_step CAP r o with
      | Ok (r', x) => let '(xs, ok) := ring_run CAP r' os' in (x :: xs, ok)
      | Undefined => ([], false)
      end
  end.
