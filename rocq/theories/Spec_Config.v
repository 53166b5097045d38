(** What a configuration file means, line by line, and what its arithmetic
    expressions are worth. Independent of the parser. *)
From Coq Require Import SpecFloat.
From Verif Require Import Text Spec_Text Model_Float Model_Axis Model_Machine Model_Config.

(** ** Lines *)
(** [t] is the line without its comment: up to the first '#' or CR. *)
Definition content_of (line t : text) : Prop :=
  exists tail, line = t ++ tail /\ ~ In "#"%char t /\ ~ In CR t /\
    (tail = [] \/ exists c r, tail = c :: r /\ (c = "#"%char \/ c = CR)).

Inductive item :=
| Blank
| Section (name : text)
| BadSection
| Pair (name value : text)
| NoPair.

(** Names are not case sensitive: they are delivered in lower case. *)
Definition lowered (s : text) : text := map to_lower s.

Inductive means : text -> item -> Prop :=
| m_blank : forall l t,
    content_of l t -> all_white t -> means l Blank
| m_section : forall l w name w' n,
    content_of l (w ++ "["%char :: name ++ "]"%char :: w') -> all_white w -> all_white w' ->
    is_trimmed name n -> means l (Section (lowered n))
| m_bad_section : forall l w rest,
    content_of l (w ++ "["%char :: rest) -> all_white w ->
    (forall name w', rest = name ++ "]"%char :: w' -> ~ all_white w') -> means l BadSection
| m_pair : forall l name value n v,
    content_of l (name ++ "="%char :: value) -> ~ In "="%char name ->
    is_trimmed name n -> (forall r, n <> "["%char :: r) -> is_trimmed value v ->
    means l (Pair (lowered n) v)
| m_no_pair : forall l t c r,
    content_of l t -> ~ In "="%char t -> is_trimmed t (c :: r) -> c <> "["%char -> means l NoPair.

(** What a reader is told about the lines numbered from [n] on, and the verdict on
    the file; [interested] is its answer to the last section. *)
Fixpoint deliver {R} (rd : reader R) (n : Z) (items : list item) (interested : bool) (r : R) : R * bool :=
  match items with
  | [] => (r, true)
  | Blank :: rest => deliver rd (n + 1) rest interested r
  | Section s :: rest =>
      let (r, answer) := rd_section rd r n s in deliver rd (n + 1) rest answer r
  | BadSection :: rest => (fst (deliver rd (n + 1) rest false (rd_error rd r n)), false)
  | NoPair :: rest => (fst (deliver rd (n + 1) rest interested (rd_error rd r n)), false)
  | Pair name value :: rest =>
      if interested then
        let (r, ok) := rd_pair rd r n name value in
        if ok then deliver rd (n + 1) rest true r
        else (fst (deliver rd (n + 1) rest true (rd_error rd r n)), false)
      else deliver rd (n + 1) rest false r
  end.

Definition lf_lines (lines : list text) : text := concat (map (fun l => l ++ [LF]) lines).

(** ** Arithmetic *)
Section Arithmetic.
(** How the C library reads a number. *)
Variable strtod : text -> option (fl * text).

(** It always takes something from the front. *)
Definition takes_prefix : Prop :=
  forall s v r, strtod s = Some (v, r) -> exists p, p <> [] /\ s = p ++ r.

(** Characters that can follow a number. *)
Definition number_ends (rest : text) : Prop :=
  rest = [] \/ exists c r, rest = c :: r /\ (white c \/ c = "*"%char \/ c = "/"%char \/ c = ")"%char).

(** [t] is a number of value [v]. *)
Definition numeral (t : text) (v : fl) : Prop :=
  (exists c r, t = c :: r /\ ~ white c /\ c <> "("%char) /\
  forall w rest, all_white w -> number_ends rest -> strtod (w ++ t ++ rest) = Some (v, rest).

(** Products of numbers and parenthesized products, from left to right. *)
Inductive product : text -> fl -> Prop :=
| p_one : forall t v, numeral t v -> product t v
| p_mul : forall s v w1 w2 t x,
    product s v -> all_white w1 -> all_white w2 -> factor t x ->
    product (s ++ w1 ++ "*"%char :: w2 ++ t) (f64_mul v x)
| p_div : forall s v w1 w2 t x,
    product s v -> all_white w1 -> all_white w2 -> factor t x ->
    product (s ++ w1 ++ "/"%char :: w2 ++ t) (f64_div v x)
with factor : text -> fl -> Prop :=
| f_num : forall t v, numeral t v -> factor t v
| f_paren : forall s v w1 w2,
    product s v -> all_white w1 -> all_white w2 -> factor ("("%char :: w1 ++ s ++ w2 ++ [")"%char]) v.
End Arithmetic.

(** ** The machine configuration *)
(** Every setting with the section it is in. *)
Fixpoint settings (section : text) (items : list item) : list (text * text * text) :=
  match items with
  | [] => []
  | Section s :: rest => settings s rest
  | Pair n v :: rest => (section, n, v) :: settings section rest
  | BadSection :: rest => settings [] rest     (* settings after it are ignored *)
  | _ :: rest => settings section rest
  end.

(** The section of an axis: its letter (in lower case) and "-axis". *)
Definition axis_section (a : axis) : text := to_lower (axis_letter a) :: txt "-axis".

(** The effect on something of the settings in [section] with one of the [names],
    one after the other; [change v old] is that of the value [v]. *)
Fixpoint settings_effect {A} (change : text -> A -> A) (section : text) (names : list text)
  (l : list (text * text * text)) (old : A) : A :=
  match l with
  | [] => old
  | (s, n, v) :: rest =>
      settings_effect change section names rest
        (if list_eq_dec Ascii.ascii_dec s section then
           if in_dec (list_eq_dec Ascii.ascii_dec) n names then change v old else old
         else old)
  end.

(** The last one that has a value decides; without any it stays as it was. *)
Definition last_setting {A} (read : text -> option A) : text -> list text -> list (text * text * text) -> A -> A :=
  settings_effect (fun v old => match read v with Some x => x | None => old end).

(** For the home position of an axis the first proper one decides. *)
Definition first_home (v : text) (old : trigger) : trigger :=
  match old with
  | TrigNone =>
      if list_eq_dec Ascii.ascii_dec (lowered v) (txt "min") then TrigMin
      else if list_eq_dec Ascii.ascii_dec (lowered v) (txt "max") then TrigMax
      else TrigNone
  | _ => old
  end.

(** No number of the configuration is negative. *)
Definition no_negative (c : mconf) : Prop :=
  forall a, SFltb (mc_steps c a) (f32_of_Z 0) = false /\ SFltb (mc_feed c a) (f32_of_Z 0) = false /\
    SFltb (mc_homefeed c a) (f32_of_Z 0) = false /\ SFltb (mc_probefeed c a) (f32_of_Z 0) = false /\
    SFltb (mc_accel c a) (f32_of_Z 0) = false /\ SFltb (mc_range c a) (f32_of_Z 0) = false.
