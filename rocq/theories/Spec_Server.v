(** Specification of the G-code server: one client at a time. *)
From Verif Require Import Text Model_FdMux Model_Linebuf Model_Streamer Spec_Stream Model_Server.

(** Who is being served after an event, given who was before it; [None] if the event must not happen:
    a client is served only when no other is, refused only while one is; bytes are read from the one that is served, lines
    are executed only for that one, and it gets the messages. *)
Definition serve (now : option (option nat)) (e : sev) : option (option nat) :=
  match now with
  | None => None
  | Some c =>
      match e, c with
      | SvStream p _, None => Some (Some p)
      | SvRefused _, Some _ => Some c
      | SvDropped _, _ | SvAnswer _ _, _ => Some c
      | SvRead (Some (Gcode p)), Some q => if Nat.eqb p q then Some c else None
      | SvCall (EvIdle _) _, None => Some c
      | SvCall e (Some (Gcode p)), Some q =>
          if Nat.eqb p q then Some (match e with EvClosed _ => None | _ => c end) else None
      | _, _ => None
      end
  end.
(** Clients served, in order, with the descriptor each got. *)
Definition served (log : list sev) : list (nat * Z) :=
  flat_map (fun e => match e with SvStream p fd => [(p, fd)] | _ => [] end) log.
(** Calls of parser and machine, in order. *)
Definition done_calls (log : list sev) : list st_event :=
  filter not_idle (flat_map (fun e => match e with SvCall e _ => [e] | _ => [] end) log).
Definition dropped (log : list sev) : list nat :=
  flat_map (fun e => match e with SvDropped p => [p] | _ => [] end) log.
(** Client [p] sends these lines and this unterminated rest. *)
Record sends (len : nat) (stream : text) (lines : list (text * eol)) (last : text) : Prop := mk_sends {
  se_text : stream = render lines ++ last; se_lines : Forall (fun x => no_eol (fst x)) lines;
  se_last : no_eol last; se_short : short_lines len stream }.
