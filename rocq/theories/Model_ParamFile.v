(** Model of src/gcode-parser/gcode-parser-config.cc: the file with the parameters.

    printf's and sscanf's %f are parameters. Log messages are not modelled. *)
From Coq Require Import SpecFloat.
From Verif Require Import Base Text Model_StringUtil Model_Float Model_Gcode.

(** ** Content *)
(** std::map<int, float> *)
Fixpoint zm_set (n : Z) (v : fl) (m : list (Z * fl)) : list (Z * fl) :=
  match m with
  | [] => [(n, v)]
  | (k, w) :: r => if n =? k then (n, v) :: r else if n <? k then (n, v) :: m else (k, w) :: zm_set n v r
  end.
(** atoi() of a text that begins with a digit; beyond the range as in glibc with 32 bit long *)
Definition atoi (t : text) : Z := Z.min (fst (digits_loop 0 t)) (2 ^ 31 - 1).

Record cnum := mk_cnum {
  n_print : fl -> text;           (* printf("%f") *)
  n_scan : text -> option fl      (* sscanf("%f") *)
}.
Definition TAB : ascii := "009".

Section Content.
Variable e : cnum.
(** gcode-parser-config.cc:103-107: stops at the first name that does not begin with a digit *)
Fixpoint numeric (m : pmap) (acc : list (Z * fl)) : list (Z * fl) :=
  match m with
  | [] => acc
  | ([], _) :: r => numeric r acc
  | ((x :: _) as k, v) :: r => if is_digit x then numeric r (zm_set (atoi k) v acc) else acc
  end.
(** 113, 128 fprintf *)
Definition param_line (k : text) (v : fl) : text := k ++ TAB :: n_print e v ++ [LF].
Definition zero (v : fl) : bool := SFeqb v f0.
(** 109-116 *)
Definition numbered (l : list (Z * fl)) : list (text * fl) :=
  flat_map (fun '(n, v) => if (n =? 0) || zero v then [] else [(show_int n, v)]) l.
(** 120-130 *)
Definition named (m : pmap) : list (text * fl) :=
  flat_map (fun '(k, v) =>
    match k with
    | [] => []
    | x :: _ => if is_digit x then [] else if negb (Ascii.eqb x "_") then [] else if zero v then [] else [(k, v)]
    end) m.
(** 126 *)
Definition header : text := LF :: txt "# Alphanumeric global parameters" ++ [LF].
Definition written (l : list (text * fl)) : text := flat_map (fun '(k, v) => param_line k v) l.
(** 95-130: what is printed to the file *)
Definition content (m : pmap) : text :=
  written (numbered (numeric m [])) ++
  match named m with [] => [] | l => header ++ written l end.

(** fgets(line, 256, fp): up to and with the end of the line, at most 255 characters *)
Fixpoint fgets (n : nat) (t : text) : text * text :=
  match n, t with
  | S n, x :: r => if Ascii.eqb x LF then ([x], r) else let '(l, rest) := fgets n r in (x :: l, rest)
  | _, _ => ([], t)
  end.
Fixpoint file_lines (fuel : nat) (t : text) : list text :=
  match fuel, t with
  | _, [] => []
  | O, _ => []
  | S f, _ => let '(l, rest) := fgets 255 t in l :: file_lines f rest
  end.
Fixpoint word (t : text) : text * text :=
  match t with
  | x :: r => if is_space x then ([], t) else let '(w, rest) := word r in (x :: w, rest)
  | [] => ([], [])
  end.
(** 53: sscanf(line, "%s %f", name, &value) == 2 *)
Definition scan_line (line : text) : option (text * fl) :=
  match word (skip_spaces line) with
  | ([], _) => None
  | (name, rest) => match n_scan e (skip_spaces rest) with Some v => Some (name, v) | None => None end
  end.
(** gcode-parser-config.cc:32-65 LoadParams; [None]: the file cannot be opened *)
Definition load_params (file : option text) (m : pmap) : bool * pmap :=
  let m := pm_set (txt "5220") f1 m in
  match file with
  | None => (false, m)
  | Some t => (true, fold_left (fun m l => match scan_line l with Some (k, v) => pm_set k v m | None => m end)
                       (file_lines (length t) t) m)
  end.
End Content.

(** ** The file system *)
(** The content of a file, and the part of it that is safely on the disk. *)
Record file := mk_file { f_data : text; f_disk : text }.
Record dir := mk_dir { d_main : option file; d_bak : option file; d_tmp : option file }.
Inductive fname := Main | Bak | Tmp.
Definition get_file (d : dir) (n : fname) : option file := match n with Main => d_main d | Bak => d_bak d | Tmp => d_tmp d end.
Definition set_file (d : dir) (n : fname) (f : option file) : dir :=
  match n with
  | Main => mk_dir f (d_bak d) (d_tmp d)
  | Bak => mk_dir (d_main d) f (d_tmp d)
  | Tmp => mk_dir (d_main d) (d_bak d) f
  end.
Inductive fop := Create (n : fname) | Append (n : fname) (t : text) | Sync (n : fname) | Rename (a b : fname).
Definition fstep (d : dir) (o : fop) : dir :=
  match o with
  | Create n => set_file d n (Some (mk_file [] []))
  | Append n t => match get_file d n with Some f => set_file d n (Some (mk_file (f_data f ++ t) (f_disk f))) | None => d end
  | Sync n => match get_file d n with Some f => set_file d n (Some (mk_file (f_data f) (f_data f))) | None => d end
  | Rename a b => match get_file d a with Some f => set_file (set_file d b (Some f)) a None | None => d end
  end.
(** How the system calls end: what reaches the file of the text printed, in pieces. *)
Record answers := mk_answers { a_open : bool; a_pieces : list text; a_sync : bool; a_close : bool; a_first : bool; a_second : bool }.
(** gcode-parser-config.cc:67-139 SaveParams: its effects on the files, and the result. The
    results of fprintf, fflush, fdatasync and of the first rename are not looked at. *)
Definition save_params (a : answers) : list fop * bool :=
  if negb (a_open a) then ([], false)
  else
    let ops := Create Tmp :: map (Append Tmp) (a_pieces a) ++ (if a_sync a then [Sync Tmp] else []) in
    if negb (a_close a) then (ops, false)
    else
      let ops := ops ++ (if a_first a then [Rename Main Bak] else []) in
      if a_second a then (ops ++ [Rename Tmp Main], true) else (ops, false).
