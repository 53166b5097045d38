(** Model of src/gcode-parser/simple-lexer.{h,cc}. Plain [char] is unsigned (ARM). *)
From Verif Require Import Text.

(** simple-lexer.cc:32-38 Node *)
Inductive node := Node (value : Z) (next_character : ascii -> option node).
Definition node_value (n : node) : Z := let 'Node v _ := n in v.
Definition node_next (n : node) : ascii -> option node := let 'Node _ f := n in f.
Definition new_node : node := Node 0 (fun _ => None).

(** simple-lexer.cc:64-78 AddKeywordAtNode; failing asserts are [Undefined]. *)
Fixpoint add_keyword_at_node (n : node) (keyword : text) (value : Z) {struct keyword} : outcome node :=
  match keyword with
  | [] => if node_value n =? 0 then Ok (Node value (node_next n)) else Undefined
  | c :: r =>
      if is_space c then Undefined
      else
        let up := to_upper c in
        let child := match node_next n up with Some k => k | None => new_node end in
        obind (add_keyword_at_node child r value) (fun child' =>
        Ok (Node (node_value n)
                 (fun x => if Ascii.eqb x up then Some child' else node_next n x)))
  end.

(** simple-lexer.h:40-42 root_, keyword_mappings_ (a map from value to keyword) *)
Record lexer := mk_lexer { lx_root : node; lx_names : list (Z * text) }.
Definition lexer_init : lexer := mk_lexer new_node [].

Fixpoint find_name (l : list (Z * text)) (v : Z) : option text :=
  match l with
  | [] => None
  | (x, k) :: r => if x =? v then Some k else find_name r v
  end.

(** simple-lexer.cc:49-55 AddKeywordIntValue *)
Definition add_keyword (l : lexer) (keyword : text) (value : Z) : outcome lexer :=
  if 0 <? value then
    obind (add_keyword_at_node (lx_root l) keyword value) (fun root =>
    Ok (mk_lexer root
          (match find_name (lx_names l) value with
           | None => (value, keyword) :: lx_names l
           | Some _ => lx_names l
           end)))
  else Undefined.

(** simple-lexer.cc:57-62 ReverseMapToString *)
Definition as_string (l : lexer) (value : Z) : option text :=
  if value =? 0 then Some (txt "?") else find_name (lx_names l) value.

(** simple-lexer.cc:84-90, the loop of ConsumeKeyword. [best] is the value of
    [result] and [*input]. Reading behind the NUL that ends the input is
    [Undefined]. *)
Fixpoint consume_loop (n : node) (word : text) (best : Z * text) {struct word} : outcome (Z * text) :=
  let best := if 0 <? node_value n then (node_value n, skip_spaces word) else best in
  match word with
  | [] => match node_next n (to_upper NUL) with None => Ok best | Some _ => Undefined end
  | c :: r => match node_next n (to_upper c) with None => Ok best | Some k => consume_loop k r best end
  end.

(** simple-lexer.cc:80-92 ConsumeKeyword / simple-lexer.h:70-72 MatchNext:
    the returned token and the new value of the input pointer *)
Definition match_next (l : lexer) (input : text) : outcome (Z * text) :=
  consume_loop (lx_root l) (skip_spaces input) (0, input).

(** simple-lexer.h:75-82 ExpectNext *)
Definition expect_next (l : lexer) (input : text) (e : Z) : outcome (bool * text) :=
  obind (match_next l input) (fun '(t, rest) => Ok (if t =? e then (true, rest) else (false, input))).

(** Registration of a list of keywords, in order. *)
Fixpoint add_keywords (l : lexer) (kws : list (text * Z)) : outcome lexer :=
  match kws with
  | [] => Ok l
  | (k, v) :: r => obind (add_keyword l k v) (fun l => add_keywords l r)
  end.
