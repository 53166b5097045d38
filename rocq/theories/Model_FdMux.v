(** Model of src/common/fd-mux.{h,cc}. Handlers are values of an arbitrary type
    [H]; calling one changes an arbitrary world [W], registers further handlers
    and returns whether it wants to stay registered. *)
From Verif Require Import Base.

Inductive dir := Rd | Wr.

(** A registration made by a handler while it runs (fd-mux.h:39-46). *)
Inductive reg (H : Type) := RegFd (d : dir) (fd : Z) (h : H) | RegIdle (h : H).
Arguments RegFd {H}. Arguments RegIdle {H}.

(** fd-mux.h:64, 73-75. std::map<int, Handler> as a list ordered by descriptor. *)
Record mux (H : Type) := mk_mux {
  mx_read : list (Z * H); mx_write : list (Z * H); mx_idle : list H }.
Arguments mk_mux {H}. Arguments mx_read {H}. Arguments mx_write {H}. Arguments mx_idle {H}.

(** What happens, for observation. *)
Inductive mux_event (H : Type) :=
| Called (d : dir) (fd : Z) (h : H) (keep : bool)
| CalledIdle (h : H) (keep : bool)
| Registered (d : dir) (fd : Z) (h : H) (accepted : bool)
| RegisteredIdle (h : H).
Arguments Called {H}. Arguments CalledIdle {H}. Arguments Registered {H}. Arguments RegisteredIdle {H}.

Section Mux.
Context {W H : Type}.
Variable call : H -> W -> W * list (reg H) * bool.

Fixpoint map_find (m : list (Z * H)) (fd : Z) : option H :=
  match m with
  | [] => None
  | (k, h) :: r => if k =? fd then Some h else map_find r fd
  end.

(** std::map::insert of a key that is not there *)
Fixpoint map_add (m : list (Z * H)) (fd : Z) (h : H) : list (Z * H) :=
  match m with
  | [] => [(fd, h)]
  | (k, x) :: r => if fd <? k then (fd, h) :: m else (k, x) :: map_add r fd h
  end.

(** std::map::erase *)
Definition map_erase (m : list (Z * H)) (fd : Z) : list (Z * H) :=
  filter (fun e => negb (fst e =? fd)) m.

(** The entry an iterator that has passed all keys below [lo] points to. *)
Fixpoint first_ge (m : list (Z * H)) (lo : Z) : option (Z * H) :=
  match m with
  | [] => None
  | (k, h) :: r => if lo <=? k then Some (k, h) else first_ge r lo
  end.

(** begin() of the map: no key is below this one. *)
Definition first_key (m : list (Z * H)) : Z :=
  match m with (k, _) :: _ => k | [] => 0 end.

Definition mx_map (d : dir) (m : mux H) : list (Z * H) :=
  match d with Rd => mx_read m | Wr => mx_write m end.
Definition mx_set (d : dir) (m : mux H) (l : list (Z * H)) : mux H :=
  match d with
  | Rd => mk_mux l (mx_write m) (mx_idle m)
  | Wr => mk_mux (mx_read m) l (mx_idle m)
  end.

(** fd-mux.cc:81-87 RunOnReadable, RunOnWritable *)
Definition run_on (d : dir) (m : mux H) (fd : Z) (h : H) : mux H * bool :=
  match map_find (mx_map d m) fd with
  | Some _ => (m, false)
  | None => (mx_set d m (map_add (mx_map d m) fd h), true)
  end.

(** fd-mux.cc:89-91 RunOnIdle *)
Definition run_on_idle (m : mux H) (h : H) : mux H :=
  mk_mux (mx_read m) (mx_write m) (mx_idle m ++ [h]).

Fixpoint apply_regs (m : mux H) (rs : list (reg H)) : mux H * list (mux_event H) :=
  match rs with
  | [] => (m, [])
  | RegFd d fd h :: r =>
      let '(m, ok) := run_on d m fd h in
      let '(m, ev) := apply_regs m r in (m, Registered d fd h ok :: ev)
  | RegIdle h :: r =>
      let '(m, ev) := apply_regs (run_on_idle m h) r in (m, RegisteredIdle h :: ev)
  end.

(** fd-mux.cc:93-103 CallHandlers. The loop runs at most [fuel] iterations;
    [None] if that was not enough. [ready] is the fd_set returned by select().
    The iterator is represented by the smallest key it has not passed. *)
Fixpoint call_handlers (fuel : nat) (d : dir) (ready : Z -> bool) (lo : Z) (available : Z)
    (m : mux H) (w : W) : option (mux H * W * Z * list (mux_event H)) :=
  match fuel with
  | O => None
  | Datatypes.S f =>
      if available =? 0 then Some (m, w, available, [])
      else
        match first_ge (mx_map d m) lo with
        | None => Some (m, w, available, [])
        | Some (fd, h) =>
            if ready fd then
              let '(w, rs, keep) := call h w in
              let '(m, ev) := apply_regs m rs in
              let m := if keep : bool then m else mx_set d m (map_erase (mx_map d m) fd) in
              match call_handlers f d ready (fd + 1) (available - 1) m w with
              | Some (m, w, a, ev') => Some (m, w, a, ev ++ Called d fd h keep :: ev')
              | None => None
              end
            else call_handlers f d ready (fd + 1) available m w
        end
  end.

(** fd-mux.cc:144-147, the loop over the idle handlers: [kept] are the handlers
    passed and kept, [rest] the ones still to come; new ones are appended. *)
Fixpoint call_idle (fuel : nat) (kept rest : list H) (m : mux H) (w : W)
  : option (mux H * W * list (mux_event H)) :=
  match fuel with
  | O => None
  | Datatypes.S f =>
      match rest with
      | [] => Some (mk_mux (mx_read m) (mx_write m) kept, w, [])
      | h :: rest' =>
          let '(w, rs, keep) := call h w in
          (* the list of idle handlers is [kept ++ rest]; only its new tail matters *)
          let '(m', ev) := apply_regs (mk_mux (mx_read m) (mx_write m) []) rs in
          let rest' := rest' ++ mx_idle m' in
          match call_idle f (if keep : bool then kept ++ [h] else kept) rest'
                          (mk_mux (mx_read m') (mx_write m') []) w with
          | Some (m, w, ev') => Some (m, w, ev ++ CalledIdle h keep :: ev')
          | None => None
          end
      end
  end.

(** Result of select(): an error, or for each direction the descriptors ready. *)
Inductive select_result := SelectError | SelectReady (rd wr : Z -> bool).

(** Number of bits select() leaves set; it is asked about the registered ones. *)
Definition count_ready (m : list (Z * H)) (ready : Z -> bool) : Z :=
  Z.of_nat (length (filter (fun e => ready (fst e)) m)).

(** select() only reports descriptors it was asked about (fd-mux.cc:117-127). *)
Definition asked (m : list (Z * H)) (ready : Z -> bool) (fd : Z) : bool :=
  match map_find m fd with Some _ => ready fd | None => false end.

(** fd-mux.cc:105-155 SingleCycle; the boolean is the return value. The time-out
    value is not modelled: time passes inside select(). Descriptors are assumed
    non-negative and below FD_SETSIZE. *)
Definition single_cycle (fuel : nat) (sel : select_result) (m : mux H) (w : W)
  : option (mux H * W * bool * list (mux_event H)) :=
  match mx_read m, mx_write m with
  | [], [] => Some (m, w, false, [])       (* maxfd < 0 *)
  | _, _ =>
      match sel with
      | SelectError => Some (m, w, false, [])
      | SelectReady rd wr =>
          let fds_ready := count_ready (mx_read m) rd + count_ready (mx_write m) wr in
          let rset := asked (mx_read m) rd in
          let wset := asked (mx_write m) wr in
          if fds_ready =? 0 then
            match call_idle fuel [] (mx_idle m) (mk_mux (mx_read m) (mx_write m) []) w with
            | Some (m, w, ev) => Some (m, w, true, ev)
            | None => None
            end
          else
            match call_handlers fuel Rd rset (first_key (mx_read m)) fds_ready m w with
            | Some (m, w, a, ev) =>
                match call_handlers fuel Wr wset (first_key (mx_write m)) a m w with
                | Some (m, w, _, ev') => Some (m, w, true, ev ++ ev')
                | None => None
                end
            | None => None
            end
      end
  end.

(** fd-mux.cc:157-170 Loop, for a list of select() results with a flag telling
    whether an exit signal arrived by the end of that cycle. The result is the
    return value of Loop, or [None] while it still runs. *)
Fixpoint mux_loop (fuel : nat) (env : list (select_result * bool)) (m : mux H) (w : W)
  : option (mux H * W * option bool * list (mux_event H)) :=
  match env with
  | [] => Some (m, w, None, [])
  | (sel, signalled) :: r =>
      match single_cycle fuel sel m w with
      | Some (m, w, go, ev) =>
          if go && negb signalled then
            match mux_loop fuel r m w with
            | Some (m, w, res, ev') => Some (m, w, res, ev ++ ev')
            | None => None
            end
          else Some (m, w, Some (negb signalled), ev)
      | None => None
      end
  end.

End Mux.
