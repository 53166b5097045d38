(** Specification: what a G-code expression means, as a grammar in the usual form.
    An expression of level [k] is a value, a minus sign before an expression, or
    [left op right] where [op] binds at least as tightly as [k], [left] is of the level of
    [op] and [right] of the next one: operators of equal precedence group to the left.
    A minus sign reaches over the powers behind it and nothing else. *)
From Coq Require Import SpecFloat.
From Verif Require Import Base Text Model_Float Model_Gcode.

Inductive binop :=
| Power | Divide | Modulo | Times | And | Xor | Minus | Or | Plus | Equal | Differ | Greater | AtLeast | Less | AtMost.

Definition binds (op : binop) : Z :=
  match op with
  | Power => 5
  | Divide | Modulo | Times => 4
  | And | Xor | Minus | Or | Plus => 3
  | Equal | Differ | Greater | AtLeast | Less | AtMost => 2
  end.

Definition spellings (op : binop) : list text :=
  match op with
  | Power => [txt "**"] | Divide => [txt "/"] | Modulo => [txt "MOD"] | Times => [txt "*"]
  | And => [txt "AND"; txt "&&"] | Xor => [txt "XOR"] | Minus => [txt "-"] | Or => [txt "OR"; txt "||"] | Plus => [txt "+"]
  | Equal => [txt "EQ"; txt "=="] | Differ => [txt "NE"; txt "!="] | Greater => [txt "GT"; txt ">"]
  | AtLeast => [txt "GE"; txt ">="] | Less => [txt "LT"; txt "<"] | AtMost => [txt "LE"; txt "<="]
  end.

Definition yes (b : bool) : fl := f32_of_Z (if b then 1 else 0).
Definition is_zero (x : fl) : bool := SFeqb x (f32_of_Z 0).
Definition is_negative (x : fl) : bool := SFltb x (f32_of_Z 0).

(** The value of [x op y]; none where it is not defined. *)
Definition apply2 (c : gcfg) (op : binop) (x y : fl) : option fl :=
  match op with
  | Power => if is_negative x && negb (SFeqb (fl_floor y) y) then None else Some (gc_pow c x y)
  | Divide => if is_zero y then None else Some (f32_div x y)
  | Modulo => let r := gc_fmod c x y in Some (if is_negative r then f32_add r (SFabs y) else r)
  | Times => Some (f32_mul x y)
  | And => Some (yes (negb (is_zero x) && negb (is_zero y)))
  | Xor => Some (yes (xorb (is_zero x) (is_zero y)))
  | Minus => Some (f32_sub x y)
  | Or => Some (yes (negb (is_zero x) || negb (is_zero y)))
  | Plus => Some (f32_add x y)
  | Equal => Some (yes (SFeqb x y))
  | Differ => Some (yes (negb (SFeqb x y)))
  | Greater => Some (yes (SFltb y x))
  | AtLeast => Some (yes (SFleb y x))
  | Less => Some (yes (SFltb x y))
  | AtMost => Some (yes (SFleb x y))
  end.

Inductive fn := Fabs | Facos | Fasin | Fcos | Fexp | Ffix | Ffup | Fln | Fround | Fsin | Fsqrt | Ftan.
Definition fn_name (g : fn) : text :=
  match g with
  | Fabs => txt "ABS" | Facos => txt "ACOS" | Fasin => txt "ASIN" | Fcos => txt "COS" | Fexp => txt "EXP" | Ffix => txt "FIX"
  | Ffup => txt "FUP" | Fln => txt "LN" | Fround => txt "ROUND" | Fsin => txt "SIN" | Fsqrt => txt "SQRT" | Ftan => txt "TAN"
  end.
Definition half : fl := f32_div (f32_of_Z 1) (f32_of_Z 2).
Definition in_unit (x : fl) : bool := negb (SFltb x (f32_of_Z (-1))) && negb (SFltb (f32_of_Z 1) x).
Definition apply1 (c : gcfg) (g : fn) (x : fl) : option fl :=
  match g with
  | Fabs => Some (SFabs x)
  | Facos => if in_unit x then Some (gc_math c ACOS x) else None
  | Fasin => if in_unit x then Some (gc_math c ASIN x) else None
  | Fcos => Some (gc_math c COS x)
  | Fexp => Some (gc_math c EXP x)
  | Ffix => Some (fl_floor x)
  | Ffup => Some (fl_ceil x)
  | Fln => if SFleb x (f32_of_Z 0) then None else Some (gc_math c LN x)
  | Fround => Some (f32_of_Z (int_of c (f32_add x (if is_negative x then SFopp half else half))))
  | Fsin => Some (gc_math c SIN x)
  | Fsqrt => if is_negative x then None else Some (f32_sqrt x)
  | Ftan => Some (gc_math c TAN x)
  end.

(** [word] in either letter case, then [rest]. *)
Definition written (word t rest : text) : Prop := exists w, map to_upper w = word /\ t = w ++ rest.

(** After white space the text [t] has the operator [op], then [rest]. *)
Definition operator_at (t : text) (op : binop) (rest : text) : Prop :=
  exists name r, In name (spellings op) /\ written name (skip_spaces t) r /\ rest = skip_spaces r /\
                 starts "*" r = false /\ starts "=" r = false.
Definition closing (t rest : text) : Prop := exists r, skip_spaces t = "]"%char :: r /\ rest = skip_spaces r.

Section Grammar.
Variables (c : gcfg) (s : gst).
Definition param (name : text) : fl := match read_parameter name s with Done (_, v) _ => v | _ => f32_of_Z 0 end.

(** [operand t r rest]: the text [t] begins with an operand, the value of which is [r]
    (None: not defined), and is followed by [rest].
    [level k o d m t r rest]: it begins with an expression of level [k]; [o]: a power behind
    it would be taken in by a minus sign; [d]: the number of operands that have to be kept at
    the same time; [m]: it has minus signs outside brackets. *)
Inductive operand : text -> option fl -> text -> Prop :=
| op_number t v rest x r :
    t = x :: r -> is_space x = false -> is_alpha x = false -> x <> "["%char -> x <> "#"%char ->
    gc_number c t = Some (v, rest) -> (length rest < length t)%nat ->
    operand t (Some v) rest
| op_name t name rest :
    skip_spaces t = name ++ rest -> name <> [] -> Forall (fun x => is_name_char x = true) name ->
    (forall x r, name = x :: r -> is_digit x = false) -> (forall x r, rest = x :: r -> is_name_char x = false) ->
    operand ("#"%char :: t) (Some (param name)) rest
| op_angle t name rest :
    skip_spaces t = "<"%char :: name ++ ">"%char :: rest ->
    Forall (fun x => is_name_char x = true \/ is_space x = true) name -> filter is_name_char name <> [] ->
    (forall x r, name = x :: r -> is_digit x = false) ->
    operand ("#"%char :: t) (Some (param (filter is_name_char name))) rest
| op_index t t' x r v rest :
    t' = skip_spaces t -> t' = x :: r -> (is_digit x = true \/ x = "#"%char) ->
    operand t' (Some v) rest ->
    operand ("#"%char :: t) (Some (param (show_int (int_of c v)))) rest
| op_bracket t o d m r t' rest :
    level 2 o d m (skip_spaces t) r t' -> (d <= 6)%nat -> closing t' rest ->
    operand ("["%char :: t) r rest
| op_function t g t1 t2 o d m r t' rest :
    written (fn_name g) t t1 -> skip_spaces t1 = "["%char :: t2 ->
    level 2 o d m (skip_spaces t2) r t' -> (d <= 6)%nat -> closing t' rest ->
    operand t (match r with Some v => apply1 c g v | None => None end) rest
| op_atan t t1 t2 o d m r t' t3 o2 d2 m2 r2 t4 rest :
    written (txt "ATAN") t t1 -> skip_spaces t1 = "["%char :: t2 ->
    level 2 o d m (skip_spaces t2) r t' -> (d <= 6)%nat -> closing t' ("/"%char :: "["%char :: t3) ->
    level 2 o2 d2 m2 (skip_spaces t3) r2 t4 -> (d2 <= 6)%nat -> closing t4 rest ->
    operand t (match r, r2 with Some v, Some v2 => Some (gc_atan2 c v v2) | _, _ => None end) rest
with level : Z -> bool -> nat -> bool -> text -> option fl -> text -> Prop :=
| lv_operand k t r rest : operand t r rest -> level k false 1 false t r rest
| lv_minus k o d m t t' r rest :
    gc_number c ("-"%char :: t) = None -> t' = skip_spaces t -> starts "-" t' = false ->
    level 5 o d m t' r rest ->
    level k true (S d) true ("-"%char :: t) (match r with Some v => apply2 c Times (f32_of_Z (-1)) v | None => None end) rest
| lv_binary k op o1 d1 m1 t1 r1 t2 t3 o2 d2 m2 r2 rest :
    k <= binds op ->
    level (binds op) o1 d1 m1 t1 r1 t2 -> (op = Power -> o1 = false) ->
    operator_at t2 op t3 ->
    level (binds op + 1) o2 d2 m2 t3 r2 rest ->
    level k o2 (Nat.max d1 (S d2)) (m1 || m2) t1
      (match r1, r2 with Some x, Some y => apply2 c op x y | _, _ => None end) rest.
End Grammar.

(** Operands, each perhaps behind a minus sign, with operators between them. *)
Inductive signed (c : gcfg) (s : gst) : bool -> text -> text -> Prop :=
| sg_plain t r rest : operand c s t r rest -> signed c s false t rest
| sg_minus t t' r rest :
    gc_number c ("-"%char :: t) = None -> t' = skip_spaces t -> starts "-" t' = false ->
    operand c s t' r rest -> signed c s true ("-"%char :: t) rest.
Inductive sequence (c : gcfg) (s : gst) : bool -> text -> text -> Prop :=
| sq_one m t rest : signed c s m t rest -> sequence c s m t rest
| sq_more m t t1 op t2 m2 rest :
    sequence c s m t t1 -> operator_at t1 op t2 -> signed c s m2 t2 rest -> sequence c s (m || m2) t rest.
