(** Specification: what is found in the parameter files after a crash; what is saved. *)
From Coq Require Import SpecFloat Sorting.Sorted.
From Verif Require Import Base Text Model_Float Model_Gcode Model_ParamFile.

(** [t] is what may be found of the file: at least what is safely on the disk. *)
Definition found (f : option file) (t : option text) : Prop :=
  match f, t with
  | None, None => True
  | Some f, Some t => exists x y z, t = x ++ y /\ f_disk f = x /\ f_data f = t ++ z
  | _, _ => False
  end.
Record disk := mk_disk { k_main : option text; k_bak : option text; k_tmp : option text }.
Definition crashed (d : dir) (k : disk) : Prop :=
  found (d_main d) (k_main k) /\ found (d_bak d) (k_bak k) /\ found (d_tmp d) (k_tmp k).
(** Everything is on the disk, [k] is it. *)
Definition settled (d : dir) (k : disk) : Prop :=
  let same f t := match f, t with None, None => True | Some f, Some t => f_data f = t /\ f_disk f = t | _, _ => False end in
  same (d_main d) (k_main k) /\ same (d_bak d) (k_bak k) /\ same (d_tmp d) (k_tmp k).

(** ** What is saved *)
Definition is_number (k : text) : Prop := exists n, 0 < n < 2 ^ 31 /\ k = show_int n.
Definition is_global (k : text) : Prop := exists r, k = "_"%char :: r.
Definition saved (m : pmap) (k : text) (v : fl) : Prop :=
  In (k, v) m /\ SFeqb v (f32_of_Z 0) = false /\ (is_number k \/ is_global k).

(** A table as a std::map keeps it: every key once, in order. *)
Definition is_map (m : pmap) : Prop := StronglySorted (fun a b => text_ltb (fst a) (fst b) = true) m.
(** A proper name: no spaces; a name that begins with a digit is a number; none sorts
    before the digits. *)
Definition proper_name (k : text) : Prop :=
  Forall (fun x => is_space x = false) k /\
  exists x r, k = x :: r /\ 48 <= code x /\ (is_digit x = true -> exists n, 0 <= n < 2 ^ 31 /\ k = show_int n).
(** Printing and reading gives back the value. *)
Definition survives (e : cnum) (v : fl) : Prop :=
  (exists x r, n_print e v = x :: r /\ is_space x = false) /\ ~ In LF (n_print e v) /\ n_scan e (n_print e v ++ [LF]) = Some v.
