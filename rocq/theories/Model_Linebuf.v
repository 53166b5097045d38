(** Model of src/common/linebuf-reader.{h,cc}: a byte buffer with offsets
    instead of pointers. *)
From Verif Require Import Text.

(** linebuf-reader.h:99-105. [lb_mem] is the allocated array (its length is
    [lb_len]); [lb_start], [lb_end] are [content_start_ - buffer_start_] and
    [content_end_ - buffer_start_]. *)
Record linebuf := mk_lb {
  lb_len : nat; lb_mem : text; lb_start : nat; lb_end : nat; lb_cr : bool }.

(** linebuf-reader.cc:26-32; the allocated memory is uninitialised. *)
Definition lb_init (len : nat) (garbage : text) : linebuf := mk_lb len garbage 0 0 false.

(** linebuf-reader.h:96 size *)
Definition lb_size (b : linebuf) : nat := lb_end b - lb_start b.

(** Store [data] at offset [at_]; [Undefined] if not inside the array. *)
Definition store (mem : text) (at_ : nat) (data : text) : outcome text :=
  if (at_ + length data <=? length mem)%nat
  then Ok (firstn at_ mem ++ data ++ skipn (at_ + length data) mem)
  else Undefined.

Definition slice (mem : text) (from to : nat) : text := firstn (to - from) (skipn from mem).

(** linebuf-reader.cc:36-41: move the content to the front *)
Definition lb_compact (b : linebuf) : outcome linebuf :=
  if (lb_len b / 2 <? lb_start b)%nat then
    let copy_len := lb_size b in
    obind (store (lb_mem b) 0 (slice (lb_mem b) (lb_start b) (lb_end b)))
      (fun mem => Ok (mk_lb (lb_len b) mem 0 copy_len (lb_cr b)))
  else Ok b.

(** What read_fun does when offered [size] bytes: an error (negative result)
    or some bytes ([ []] is end of stream). *)
Inductive read_result := ReadError | ReadBytes (data : text).

(** linebuf-reader.cc:35-48 Update. [read_fun size] is the result of the call
    with a buffer of [size] bytes at [content_end_]. The returned [Z] is the
    return value. *)
Definition lb_update (b : linebuf) (read_fun : nat -> read_result) : outcome (linebuf * Z) :=
  obind (lb_compact b) (fun b =>
  match read_fun (lb_len b - lb_end b)%nat with
  | ReadError => Ok (b, -1)
  | ReadBytes data =>
      obind (store (lb_mem b) (lb_end b) data) (fun mem =>
      Ok (mk_lb (lb_len b) mem (lb_start b) (lb_end b + length data)%nat (lb_cr b),
          Z.of_nat (length data)))
  end).

(** linebuf-reader.cc:56-72 ReadAndConsumeLine, the loop from offset [i];
    [n] is the number of characters left, [content_end_ - i].
    The line handed out is what a C string reader sees: the text up to the
    NUL written over the line end, or up to an earlier NUL in the data. *)
Fixpoint lb_scan (b : linebuf) (i : nat) (n : nat) : outcome (linebuf * option text) :=
  match n with
  | O => Ok (b, None)
  | S n' =>
      match nth_error (lb_mem b) i with
      | None => Undefined
      | Some c =>
          if lb_cr b && Ascii.eqb c LF then
            lb_scan (mk_lb (lb_len b) (lb_mem b) (S i) (lb_end b) false) (S i) n'
          else if Ascii.eqb c CR || Ascii.eqb c LF then
            obind (store (lb_mem b) i [NUL]) (fun mem =>
            Ok (mk_lb (lb_len b) mem (S i) (lb_end b) (Ascii.eqb c CR),
                Some (cstr (skipn (lb_start b) mem))))
          else lb_scan b (S i) n'
      end
  end.
Definition lb_read_line (b : linebuf) : outcome (linebuf * option text) :=
  lb_scan b (lb_start b) (lb_size b).

(** linebuf-reader.cc:50-54 IncompleteLine *)
Definition lb_incomplete_line (b : linebuf) : outcome (linebuf * option text) :=
  obind (store (lb_mem b) (lb_end b) [LF]) (fun mem =>
  lb_read_line (mk_lb (lb_len b) mem (lb_start b) (S (lb_end b)) (lb_cr b))).

(** linebuf-reader.h:90-93 Flush. (It does not reset [cr_seen_].) *)
Definition lb_flush (b : linebuf) : linebuf :=
  mk_lb (lb_len b) (lb_mem b) 0 0 (lb_cr b).

(** The loop of the typical client (linebuf-reader.h:37-43,
    gcode-streamer.cc:98-104): take lines until there is none. [fuel] bounds
    the number of lines; it is the number of bytes in the buffer plus one. *)
Fixpoint lb_drain (fuel : nat) (b : linebuf) : outcome (linebuf * list text) :=
  match fuel with
  | O => Undefined
  | S f =>
      obind (lb_read_line b) (fun '(b, l) =>
      match l with
      | None => Ok (b, [])
      | Some line => obind (lb_drain f b) (fun '(b, ls) => Ok (b, line :: ls))
      end)
  end.
Definition lb_drain_all (b : linebuf) := lb_drain (S (lb_size b)) b.

(** A client that feeds the reader from a byte stream: for each element of
    [wants] one call of Update with a read(2) that delivers at most that many
    of the bytes still to come (never more than offered), followed by the loop
    that takes all lines. Returns the lines and the bytes not read yet. *)
Fixpoint lb_session (b : linebuf) (stream : text) (wants : list nat)
  : outcome (linebuf * list text * text) :=
  match wants with
  | [] => Ok (b, [], stream)
  | w :: ws =>
      obind (lb_update b (fun size => ReadBytes (firstn (Nat.min w size) stream))) (fun '(b, r) =>
      let stream := skipn (Z.to_nat r) stream in
      obind (lb_drain_all b) (fun '(b, ls) =>
      obind (lb_session b stream ws) (fun '(b, ls', rest) => Ok (b, ls ++ ls', rest))))
  end.

(** Any call on the reader. *)
Inductive lb_op :=
| LbUpdate (read_fun : nat -> read_result)
| LbReadLine
| LbIncompleteLine
| LbFlush.

Definition lb_step (b : linebuf) (o : lb_op) : outcome linebuf :=
  match o with
  | LbUpdate f => obind (lb_update b f) (fun '(b, _) => Ok b)
  | LbReadLine => obind (lb_read_line b) (fun '(b, _) => Ok b)
  | LbIncompleteLine => obind (lb_incomplete_line b) (fun '(b, _) => Ok b)
  | LbFlush => Ok (lb_flush b)
  end.

Fixpoint lb_run (b : linebuf) (os : list lb_op) : outcome linebuf :=
  match os with
  | [] => Ok b
  | o :: os' => obind (lb_step b o) (fun b => lb_run b os')
  end.
