(** Model of the servers of src/machine-control.cc: handlers of the event loop of
    [Model_FdMux] that accept connections, feed the streamer of [Model_Streamer] and
    answer status queries. *)
From Verif Require Import Text Model_FdMux Model_Linebuf Model_Streamer.

(** What a descriptor of the process refers to: something of the process itself, or a
    client of the G-code or of the status server. Clients are numbered as they are accepted. *)
Inductive owner := Own | Gcode (client : nat) | Status (client : nat).
(** Answers of the system to the calls of one handler: whether accept(2) and the two fcntl(2)
    succeed, how much read(2) gives at most, and the query that a status client sends ([None]: it has closed). *)
Record answer := mk_answer { a_accept : bool; a_getfl : bool; a_setfl : bool; a_want : nat; a_query : option ascii }.

(** For observation. With the calls of the parser and of the machine: at whom a message arrives that is printed now. *)
Inductive sev :=
| SvStream (p : nat) (fd : Z)            (* the client is served *)
| SvRefused (p : nat)                    (* the client gets a message and is closed *)
| SvDropped (p : nat)                    (* neither *)
| SvRead (from : option owner)           (* bytes for the parser are read *)
| SvCall (e : st_event) (out : option owner)
| SvAnswer (p : nat) (query : ascii).    (* a status client is answered *)

Record world := mk_w {
  w_st : streamer;                       (* the streamer *)
  w_open : list (Z * owner);             (* the descriptors that are open *)
  w_next : nat;                          (* clients accepted so far *)
  w_msg : Z;                             (* the descriptor the machine prints to *)
  w_rest : nat -> text;                  (* what each client still has to send *)
  w_answers : list answer; w_undef : bool; w_log : list sev }.
Definition owner_of (t : list (Z * owner)) (fd : Z) : option owner :=
  match find (fun e => fst e =? fd) t with Some e => Some (snd e) | None => None end.
(** POSIX: a new descriptor is the lowest one that is not open. *)
Fixpoint lowest (fuel : nat) (fd : Z) (t : list (Z * owner)) : Z :=
  match fuel with
  | O => fd
  | Datatypes.S f => if existsb (fun e => fst e =? fd) t then lowest f (fd + 1) t else fd
  end.
Definition new_fd (t : list (Z * owner)) : Z := lowest (length t) 0 t.
Definition close_fd (t : list (Z * owner)) (fd : Z) : list (Z * owner) := filter (fun e => negb (fst e =? fd)) t.

Inductive handler_id := HAccept | HStatus | HStatusConn (fd : Z) (p : nat) | HRead | HIdle.
Definition default_answer : answer := mk_answer false false false 1 None.
Definition add_log (w : world) (es : list sev) : list sev := w_log w ++ es.

(** machine-control.cc:212-254 run_gcode_server, the handler; gcode-streamer.h:41 IsStreaming *)
Definition do_accept (a : answer) (w : world) : world * list (reg handler_id) * bool :=
  if negb (a_accept a) then (w, [], true)
  else
    let fd := new_fd (w_open w) in
    let p := w_next w in
    let opened := (fd, Gcode p) :: w_open w in
    if negb (a_getfl a) || negb (a_setfl a) then
      (mk_w (w_st w) opened (Datatypes.S p) (w_msg w) (w_rest w) (w_answers w) (w_undef w) (add_log w [SvDropped p]), [], true)
    else if 0 <=? st_fd (w_st w) then
      (mk_w (w_st w) (close_fd opened fd) (Datatypes.S p) (w_msg w) (w_rest w) (w_answers w) (w_undef w) (add_log w [SvRefused p]), [], true)
    else
      let '(st, _) := st_connect (w_st w) fd in
      (mk_w st opened (Datatypes.S p) fd (w_rest w) (w_answers w) (w_undef w) (add_log w [SvStream p fd]), [RegFd Rd fd HRead], true).

(** gcode-streamer.cc:72-108 ReadData at the descriptor of the streamer. Every client of whom [fails] is
    true breaks its connection at the end of what it sends. *)
Definition upd (f : nat -> text) (p : nat) (t : text) : nat -> text := fun q => if Nat.eqb q p then t else f q.
Definition do_read (fails : nat -> bool) (a : answer) (w : world) : world * list (reg handler_id) * bool :=
  let from := owner_of (w_open w) (st_fd (w_st w)) in
  let bad := (mk_w (w_st w) (w_open w) (w_next w) (w_msg w) (w_rest w) (w_answers w) true (w_log w), [], false) in
  match from with
  | Some (Gcode p) =>
      let f := conn_read (w_rest w p) (fails p) (a_want a) in
      match st_on_readable (w_st w) f, lb_update (st_buf (w_st w)) f with
      | Ok (st, evs), Ok (_, n) =>
          let keep := st_registered st in
          (mk_w st (if keep then w_open w else close_fd (w_open w) (st_fd (w_st w))) (w_next w) (w_msg w)
             (upd (w_rest w) p (skipn (Z.to_nat n) (w_rest w p))) (w_answers w) (w_undef w)
             (add_log w (SvRead from :: map (fun e => SvCall e (owner_of (w_open w) (w_msg w))) evs)), [], keep)
      | _, _ => bad
      end
  | _ => bad
  end.

(** machine-control.cc:274-284, 340-341 run_status_server: the handler of the socket, *)
Definition do_status_accept (a : answer) (w : world) : world * list (reg handler_id) * bool :=
  if negb (a_accept a) then (w, [], true)
  else
    let fd := new_fd (w_open w) in
    let p := w_next w in
    (mk_w (w_st w) ((fd, Status p) :: w_open w) (Datatypes.S p) (w_msg w) (w_rest w) (w_answers w) (w_undef w) (w_log w),
     [RegFd Rd fd (HStatusConn fd p)], true).
(** and the one of a connection (285-339). The answers are not modelled. *)
Definition do_status (fd : Z) (p : nat) (a : answer) (w : world) : world * list (reg handler_id) * bool :=
  match a_query a with
  | None => (mk_w (w_st w) (close_fd (w_open w) fd) (w_next w) (w_msg w) (w_rest w) (w_answers w) (w_undef w) (w_log w), [], false)
  | Some q =>
      let answered := (Ascii.eqb q "p" || Ascii.eqb q "s")%char in
      (mk_w (w_st w) (w_open w) (w_next w) (w_msg w) (w_rest w) (w_answers w) (w_undef w)
         (if answered then add_log w [SvAnswer p q] else w_log w), [], true)
  end.
(** gcode-streamer.cc:42, 111-115 *)
Definition do_idle (w : world) : world * list (reg handler_id) * bool :=
  let '(st, evs) := st_timeout (w_st w) in
  (mk_w st (w_open w) (w_next w) (w_msg w) (w_rest w) (w_answers w) (w_undef w)
     (add_log w (map (fun e => SvCall e (owner_of (w_open w) (w_msg w))) evs)), [], true).
Definition server_call (fails : nat -> bool) (h : handler_id) (w : world) : world * list (reg handler_id) * bool :=
  let a := hd default_answer (w_answers w) in
  let w := mk_w (w_st w) (w_open w) (w_next w) (w_msg w) (w_rest w) (tl (w_answers w)) (w_undef w) (w_log w) in
  match h with
  | HAccept => do_accept a w
  | HStatus => do_status_accept a w
  | HStatusConn fd p => do_status fd p a w
  | HRead => do_read fails a w
  | HIdle => do_idle w
  end.
(** machine-control.cc:640-648: both sockets listen at [lfd] and [sfd], [own] is open as well. *)
Definition server_world (own : list Z) (lfd sfd : Z) (st : streamer) (streams : nat -> text) (answers : list answer) : world :=
  mk_w st (map (fun fd => (fd, Own)) (lfd :: sfd :: own)) 0 2 streams answers false [].
Definition server_mux (lfd sfd : Z) : mux handler_id :=
  fst (run_on Rd (fst (run_on Rd (run_on_idle (mk_mux [] [] []) HIdle) lfd HAccept)) sfd HStatus).

(** fd-mux.cc:113-127: what select() is asked about. FD_SET is defined for 0 <= fd < FD_SETSIZE. *)
Definition FD_SETSIZE : Z := 1024.
Definition select_args (fds : list Z) : outcome Z :=
  fold_left (fun m fd => obind m (fun m => if (0 <=? fd) && (fd <? FD_SETSIZE) then Ok (Z.max m fd) else Undefined)) fds (Ok (-1)).
(** machine-control.cc:157-163 send_file_to_machine; gcode-streamer.cc:45-60: what is registered; [fd] is the result of open(2). *)
Definition send_file (fd : Z) (st : streamer) : streamer * mux handler_id :=
  let '(st, ok) := st_connect st fd in
  let m := run_on_idle (mk_mux [] [] []) HIdle in
  (st, if ok then fst (run_on Rd m fd HRead) else m).
