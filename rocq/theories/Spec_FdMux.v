(** Specification of the event loop: a table of handlers and what each observed
    event does to it. *)
From Verif Require Import Base Model_FdMux.

Definition dir_eqb (a b : dir) : bool :=
  match a, b with Rd, Rd => true | Wr, Wr => true | _, _ => false end.

Definition table (H : Type) := dir -> Z -> option H.
Definition tset {H} (t : table H) (d : dir) (fd : Z) (v : option H) : table H :=
  fun d' fd' => if dir_eqb d d' && (fd =? fd') then v else t d' fd'.
Definition teq {H} (t t' : table H) : Prop := forall d fd, t d fd = t' d fd.

(** [replays t evs t']: starting from table [t] the events are consistent and
    lead to table [t']: only registered handlers are called, a handler is
    removed exactly when it returned false, a registration succeeds exactly if
    the descriptor is free in that direction and then installs the handler. *)
Inductive replays {H} : table H -> list (mux_event H) -> table H -> Prop :=
| rp_nil : forall t t', teq t t' -> replays t [] t'
| rp_keep : forall t t' d fd h evs, t d fd = Some h ->
    replays t evs t' -> replays t (Called d fd h true :: evs) t'
| rp_drop : forall t t' d fd h evs, t d fd = Some h ->
    replays (tset t d fd None) evs t' -> replays t (Called d fd h false :: evs) t'
| rp_refused : forall t t' d fd h h' evs, t d fd = Some h' ->
    replays t evs t' -> replays t (Registered d fd h false :: evs) t'
| rp_accepted : forall t t' d fd h evs, t d fd = None ->
    replays (tset t d fd (Some h)) evs t' -> replays t (Registered d fd h true :: evs) t'
| rp_idle_reg : forall t t' h evs, replays t evs t' -> replays t (RegisteredIdle h :: evs) t'
| rp_idle : forall t t' h keep evs, replays t evs t' -> replays t (CalledIdle h keep :: evs) t'.

(** The handler calls among the events. *)
Fixpoint calls {H} (evs : list (mux_event H)) : list (dir * Z * H) :=
  match evs with
  | [] => []
  | Called d fd h _ :: r => (d, fd, h) :: calls r
  | _ :: r => calls r
  end.

Fixpoint idle_calls {H} (evs : list (mux_event H)) : list H :=
  match evs with
  | [] => []
  | CalledIdle h _ :: r => h :: idle_calls r
  | _ :: r => idle_calls r
  end.

Fixpoint idle_regs {H} (evs : list (mux_event H)) : list H :=
  match evs with
  | [] => []
  | RegisteredIdle h :: r => h :: idle_regs r
  | _ :: r => idle_regs r
  end.

(** The idle handlers that asked to be called again. *)
Fixpoint idle_kept {H} (evs : list (mux_event H)) : list H :=
  match evs with
  | [] => []
  | CalledIdle h true :: r => h :: idle_kept r
  | _ :: r => idle_kept r
  end.

(** The ready handlers of one direction, in order of descriptors. *)
Definition due {H} (d : dir) (m : list (Z * H)) (ready : Z -> bool) : list (dir * Z * H) :=
  map (fun e => (d, fst e, snd e)) (filter (fun e => ready (fst e)) m).
