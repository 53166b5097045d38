(** Specification vocabulary for byte streams of lines. *)
From Verif Require Import Text Spec_Text Model_Linebuf Model_Streamer.

(** A text line ended by LF or by CR LF. *)
Inductive eol := EolLF | EolCRLF.
Definition eol_text (e : eol) : text := match e with EolLF => [LF] | EolCRLF => [CR; LF] end.

(** The bytes of a sequence of lines, each with its own line end. *)
Fixpoint render (ls : list (text * eol)) : text :=
  match ls with
  | [] => []
  | (l, e) :: r => l ++ eol_text e ++ render r
  end.

Definition no_eol (t : text) : Prop := no_char_of [CR; LF] t.

(** Every run of characters without a line end is shorter than what remains of
    the buffer after half of it has been used up (half of it, if [len] is even). *)
Definition short_lines (len : nat) (stream : text) : Prop :=
  forall p q r, stream = p ++ q ++ r -> no_eol q -> (length q < len - len / 2)%nat.

(** How often a schedule lets the connection be read, with a sensible read(). *)
Definition reads (sched : list (option nat)) : nat :=
  length (filter (fun o => match o with Some _ => true | None => false end) sched).
Definition reads_progress (sched : list (option nat)) : Prop :=
  forall w, In (Some w) sched -> (1 <= w)%nat.

Definition not_idle (e : st_event) : bool := match e with EvIdle _ => false | _ => true end.

(** The events a connection delivering these lines and a last unterminated
    piece should cause. *)
Definition expected (fd : Z) (lines : list text) (last : text) : list st_event :=
  map EvBlock lines ++ [EvBlock last; EvFinished true; EvClosed fd].
