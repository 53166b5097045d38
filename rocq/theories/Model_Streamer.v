(** Model of src/gcode-parser/gcode-streamer.cc. The parser and the event
    receiver are the observer: the calls made on them are the output. The
    message stream is not modelled. *)
From Verif Require Import Text Model_Linebuf.

(** gcode-streamer.h: the members is_processing_, connection_fd_,
    lines_processed_, line_tokenize_buffer_. [st_registered] says whether the
    ReadData handler is registered with the event server (fd-mux.cc:81-83,
    93-103: registered by RunOnReadable, removed when it returns false). *)
Record streamer := mk_st {
  st_buf : linebuf; st_fd : Z; st_registered : bool;
  st_processing : bool; st_lines : Z }.

(** gcode-streamer.cc:31-43; the buffer has its default size of [len] bytes. *)
Definition st_init (len : nat) (garbage : text) : streamer :=
  mk_st (lb_init len garbage) (-1) false false 0.

Inductive st_event :=
| EvBlock (line : text)          (* parser_->ParseBlock(line) *)
| EvFinished (eos : bool)        (* parse_events_->gcode_finished(eos) *)
| EvClosed (fd : Z)              (* close(fd) *)
| EvIdle (processing : bool).    (* parse_events_->input_idle(processing) *)

(** gcode-streamer.cc:45-60 ConnectStream *)
Definition st_connect (s : streamer) (fd : Z) : streamer * bool :=
  if 0 <=? st_fd s then (s, false)
  else (mk_st (st_buf s) fd true (st_processing s) 0, true).

(** gcode-streamer.cc:62-69 CloseStream *)
Definition st_close (s : streamer) : streamer * list st_event :=
  (mk_st (st_buf s) (-1) (st_registered s) (st_processing s) (st_lines s), [EvClosed (st_fd s)]).

(** gcode-streamer.cc:72-108 ReadData; the boolean is the handler's return value. *)
Definition st_read_data (s : streamer) (read_fun : nat -> read_result)
  : outcome (streamer * list st_event * bool) :=
  obind (lb_update (st_buf s) read_fun) (fun '(b, data_read) =>
  if data_read <=? 0 then
    obind (lb_incomplete_line b) (fun '(b, line) =>
    let ev1 := match line with Some l => [EvBlock l] | None => [] end in
    let '(s, ev2) := st_close (mk_st b (st_fd s) (st_registered s) (st_processing s) (st_lines s)) in
    Ok (mk_st (st_buf s) (st_fd s) (st_registered s) false (st_lines s),
        ev1 ++ [EvFinished true] ++ ev2, false))
  else
    obind (lb_drain_all b) (fun '(b, ls) =>
    Ok (mk_st b (st_fd s) (st_registered s) true (st_lines s + Z.of_nat (length ls)),
        map EvBlock ls, true))).

(** The event server calling the readable handler: fd-mux.cc:93-103 *)
Definition st_on_readable (s : streamer) (read_fun : nat -> read_result)
  : outcome (streamer * list st_event) :=
  obind (st_read_data s read_fun) (fun '(s, ev, keep) =>
  Ok (mk_st (st_buf s) (st_fd s) keep (st_processing s) (st_lines s), ev)).

(** gcode-streamer.cc:111-115 Timeout *)
Definition st_timeout (s : streamer) : streamer * list st_event :=
  (mk_st (st_buf s) (st_fd s) (st_registered s) false (st_lines s), [EvIdle (st_processing s)]).

(** The environment of one connection: the bytes that arrive before the peer
    closes ([fails = false], read() returns 0) or the connection breaks
    ([fails = true], read() returns -1). *)
Definition conn_read (stream : text) (fails : bool) (want size : nat) : read_result :=
  match stream with
  | [] => if fails then ReadError else ReadBytes []
  | _ => ReadBytes (firstn (Nat.min want size) stream)
  end.

(** Events of the loop: [Some w] the descriptor is readable and read() gives at
    most [w] bytes; [None] a timeout. Nothing is read while the handler is not
    registered. *)
Fixpoint st_run (s : streamer) (stream : text) (fails : bool) (sched : list (option nat))
  : outcome (streamer * list st_event * text) :=
  match sched with
  | [] => Ok (s, [], stream)
  | None :: r =>
      let '(s, ev) := st_timeout s in
      obind (st_run s stream fails r) (fun '(s, ev', rest) => Ok (s, ev ++ ev', rest))
  | Some w :: r =>
      if st_registered s then
        obind (st_on_readable s (conn_read stream fails w)) (fun '(s', ev) =>
        (* the bytes delivered: as many as the last Update returned *)
        match lb_update (st_buf s) (conn_read stream fails w) with
        | Ok (_, n) =>
            obind (st_run s' (skipn (Z.to_nat n) stream) fails r)
                  (fun '(s, ev', rest) => Ok (s, ev ++ ev', rest))
        | Undefined => Undefined
        end)
      else st_run s stream fails r
  end.

(** A sequence of connections, one after the other. *)
Record connection := mk_conn {
  c_fd : Z; c_stream : text; c_fails : bool; c_sched : list (option nat) }.

Fixpoint st_connections (s : streamer) (cs : list connection) : outcome (streamer * list st_event) :=
  match cs with
  | [] => Ok (s, [])
  | c :: r =>
      let '(s, _) := st_connect s (c_fd c) in
      obind (st_run s (c_stream c) (c_fails c) (c_sched c)) (fun '(s, ev, _) =>
      obind (st_connections s r) (fun '(s, ev') => Ok (s, ev ++ ev')))
  end.
