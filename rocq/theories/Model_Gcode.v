(** Model of src/gcode-parser/gcode-parser.cc. A line is a C string; a pointer into it
    is the rest of the text from there on, a null pointer is [None]. Reading or writing
    outside an object, a failed assert and printing with arguments that do not fit the
    format are [Bad]. Messages are not modelled, only the error count.
    The number reader (convert_strtof), the functions of the mathematics library, the
    conversion of floats outside the int range and the receiver of the events are
    parameters. *)
From Coq Require Import SpecFloat DecimalString.
From Verif Require Import Base Text Model_StringUtil Model_Float Model_Lexer Model_Axis.

Definition axes := axis -> fl.
Definition f0 : fl := f32_of_Z 0.
Definition f1 : fl := f32_of_Z 1.
Definition zero_axes : axes := fun _ => f0.

(** ** Parameters *)
(** gcode-parser.h:139 ParamMap: std::map<std::string, float>, kept in key order *)
Definition pmap := list (text * fl).
(** operator< of std::string *)
Fixpoint text_ltb (a b : text) : bool :=
  match a, b with
  | _, [] => false
  | [], _ :: _ => true
  | x :: a, y :: b => (code x <? code y) || ((code x =? code y) && text_ltb a b)
  end.
Fixpoint text_eqb (a b : text) : bool :=
  match a, b with
  | [], [] => true
  | x :: a, y :: b => Ascii.eqb x y && text_eqb a b
  | _, _ => false
  end.
(** std::map::find *)
Fixpoint pm_find (k : text) (m : pmap) : option fl :=
  match m with
  | [] => None
  | (k', v) :: r => if text_eqb k k' then Some v else pm_find k r
  end.
(** std::map::operator[] and assignment *)
Fixpoint pm_set (k : text) (x : fl) (m : pmap) : pmap :=
  match m with
  | [] => [(k, x)]
  | (k', v) :: r =>
      if text_eqb k k' then (k, x) :: r
      else if text_ltb k k' then (k, x) :: m else (k', v) :: pm_set k x r
  end.

(** StringPrintf("%d", z) *)
Definition show_int (z : Z) : text := txt (NilZero.string_of_int (Z.to_int z)).

(** ** Operations *)
(** gcode-parser.cc:203-217 enum Operation *)
Definition NO_OPERATION := 0.
Definition POWER := 2.
Definition DIVIDED_BY := 3.
Definition MODULO := 4.
Definition TIMES := 5.
Definition AND2 := 6.
Definition EXCLUSIVE_OR := 7.
Definition MINUS := 8.
Definition NON_EXCLUSIVE_OR := 9.
Definition PLUS := 10.
Definition EQ := 11.
Definition NE := 12.
Definition GT := 13.
Definition GE := 14.
Definition LT := 15.
Definition LE := 16.
Definition RIGHT_BRACKET := 17.
Definition UNARY_OP_START := 18.
Definition ABS := 19.
Definition ACOS := 20.
Definition ASIN := 21.
Definition ATAN := 22.
Definition COS := 23.
Definition EXP := 24.
Definition FIX := 25.
Definition FUP := 26.
Definition LN := 27.
Definition ROUND := 28.
Definition SIN := 29.
Definition SQRT := 30.
Definition TAN := 31.

(** gcode-parser.cc:220-226 precedence *)
Definition precedence (op : Z) : Z :=
  if op =? RIGHT_BRACKET then 1 else if op =? POWER then 5
  else if EQ <=? op then 2 else if AND2 <=? op then 3 else 4.

(** gcode-parser.cc:452-489 *)
Definition op_keywords : list (text * Z) :=
  [(txt "+", PLUS); (txt "-", MINUS); (txt "/", DIVIDED_BY); (txt "MOD", MODULO); (txt "*", TIMES); (txt "**", POWER);
   (txt "==", EQ); (txt "EQ", EQ); (txt "!=", NE); (txt "NE", NE); (txt ">", GT); (txt "GT", GT);
   (txt ">=", GE); (txt "GE", GE); (txt "<", LT); (txt "LT", LT); (txt "<=", LE); (txt "LE", LE);
   (txt "AND", AND2); (txt "&&", AND2); (txt "OR", NON_EXCLUSIVE_OR); (txt "||", NON_EXCLUSIVE_OR);
   (txt "XOR", EXCLUSIVE_OR); (txt "]", RIGHT_BRACKET);
   (txt "abs", ABS); (txt "tan", TAN); (txt "atan", ATAN); (txt "sin", SIN); (txt "asin", ASIN); (txt "cos", COS);
   (txt "acos", ACOS); (txt "exp", EXP); (txt "ln", LN); (txt "fix", FIX); (txt "fup", FUP); (txt "round", ROUND);
   (txt "sqrt", SQRT)].

(** gcode-parser.cc:346-355 enum ControlKeyword, 491-497 *)
Definition CK_IF := 1.
Definition CK_THEN := 2.
Definition CK_ELSE := 3.
Definition CK_ELSEIF := 4.
Definition CK_WHILE := 5.
Definition CK_DO := 6.
Definition CK_END := 7.
Definition control_keywords : list (text * Z) :=
  [(txt "if", CK_IF); (txt "then", CK_THEN); (txt "else", CK_ELSE); (txt "elseif", CK_ELSEIF); (txt "while", CK_WHILE);
   (txt "do", CK_DO); (txt "end", CK_END)].

Definition lexer_of (kws : list (text * Z)) : lexer :=
  match add_keywords lexer_init kws with Ok l => l | Undefined => lexer_init end.

(** floorf() and ceilf() *)
Definition fl_to_integer (up : bool) (x : fl) : fl :=
  match x with
  | S754_finite s m e =>
      if 0 <=? e then x
      else
        let q := Zpos m / 2 ^ (- e) in
        let exact := q * 2 ^ (- e) =? Zpos m in
        let a := if exact || Bool.eqb s up then q else q + 1 in
        if a =? 0 then S754_zero s else f32_of_Z (if s then - a else a)
  | _ => x
  end.
Definition fl_floor := fl_to_integer false.
Definition fl_ceil := fl_to_integer true.

(** ** Events and their receiver *)
(** gcode-parser.h:170-290 EventReceiver; SaveParams and LoadParams are calls to the
    parser's own configuration. [owner]: gcode_start() gets the parser; in the lines of a
    WHILE loop it gets the pointer while_owner_, which is never set (416, 1106). *)
Inductive event :=
| EStart (owner : bool)
| EFinished (end_of_stream : bool)
| EOrigin (offset : axes) (name : text)
| ECommandDone (letter : ascii) (value : fl)
| EBlockDone
| EWaitStart
| EHome (which : axis -> bool)
| EProbe (feed : fl) (a : axis)
| ESpindleSpeed (value : fl)
| ESpeedFactor (value : fl)
| EFan (value : fl)
| ETemperature (value : fl)
| EWaitTemperature
| EDwell (value : fl)
| EMotors (on : bool)
| EClamp (affected : axis -> bool) (pos : axes)
| EMove (coordinated : bool) (feed : fl) (pos : axes)
| EArc (feed : fl) (normal : axis) (clockwise : bool) (start center target : axes)
| ESpline (feed : fl) (start cp1 cp2 target : axes)
| EUnprocessed (letter : ascii) (value : fl) (rest : text)
| ESave
| ELoad.

(** What a receiver answers: the verdict on a move or probe with the probed position; the
    clamped position; for an unprocessed command the number of pairs it reads from the
    line and how many of them it keeps (None: it returns no line); for LoadParams the new
    parameters. *)
Record reply := mk_reply {
  r_ok : bool; r_probed : fl; r_pos : axes -> axes; r_parse : nat; r_keep : option nat; r_load : pmap -> pmap }.

Record gcfg := mk_gcfg {
  gc_origin : axes;                            (* machine_origin *)
  gc_m111 : bool;                              (* allow_m111 *)
  gc_number : text -> option (fl * text);      (* convert_strtof *)
  gc_math : Z -> fl -> fl;                     (* acosf asinf cosf expf logf sinf tanf with their unit conversion *)
  gc_pow : fl -> fl -> fl;                     (* powf *)
  gc_fmod : fl -> fl -> fl;                    (* fmodf *)
  gc_atan2 : fl -> fl -> fl;                   (* atan2f in degrees *)
  gc_center : fl -> fl -> fl -> fl -> fl -> bool -> option (fl * fl); (* arc_radius_to_center *)
  gc_int : fl -> Z;                            (* (int) of a float outside the int range *)
  gc_reply : list event -> reply }.            (* the receiver, knowing all events, the newest first *)

(** gcode-parser.cc:358-425 the fields; the line number and the message stream are not
    modelled. [g_origin]: None is the machine origin, Some i the coordinate system i;
    [g_offset]: false is kZeroOffset, true is global_offset_g92_. [g_iterating] is true
    while the text of a WHILE loop is being executed: changing it then is [Bad]. *)
Record gst := mk_gst {
  g_events : list event;
  g_params : option pmap;
  g_running : bool;                            (* program_in_progress_ *)
  g_modal : bool;                              (* modal_g0_g1_: true for G1 *)
  g_unit : fl;
  g_abs : axis -> bool;
  g_abs_g90 : bool;
  g_ijk_abs : bool;
  g_pos : axes;
  g_scale : axes;
  g_cs : Z -> axes;
  g_g92 : axes;
  g_origin : option Z;
  g_offset : bool;
  g_normal : axis;
  g_cp2 : axes;
  g_first_spline : bool;
  g_do_while : bool;
  g_cond : text;
  g_loop : text;
  g_iterating : bool;
  g_debug : Z;
  g_errors : Z }.

Definition with_events s x := mk_gst x (g_params s) (g_running s) (g_modal s) (g_unit s) (g_abs s) (g_abs_g90 s) (g_ijk_abs s) (g_pos s) (g_scale s) (g_cs s) (g_g92 s) (g_origin s) (g_offset s) (g_normal s) (g_cp2 s) (g_first_spline s) (g_do_while s) (g_cond s) (g_loop s) (g_iterating s) (g_debug s) (g_errors s).
Definition with_params s x := mk_gst (g_events s) x (g_running s) (g_modal s) (g_unit s) (g_abs s) (g_abs_g90 s) (g_ijk_abs s) (g_pos s) (g_scale s) (g_cs s) (g_g92 s) (g_origin s) (g_offset s) (g_normal s) (g_cp2 s) (g_first_spline s) (g_do_while s) (g_cond s) (g_loop s) (g_iterating s) (g_debug s) (g_errors s).
Definition with_running s x := mk_gst (g_events s) (g_params s) x (g_modal s) (g_unit s) (g_abs s) (g_abs_g90 s) (g_ijk_abs s) (g_pos s) (g_scale s) (g_cs s) (g_g92 s) (g_origin s) (g_offset s) (g_normal s) (g_cp2 s) (g_first_spline s) (g_do_while s) (g_cond s) (g_loop s) (g_iterating s) (g_debug s) (g_errors s).
Definition with_modal s x := mk_gst (g_events s) (g_params s) (g_running s) x (g_unit s) (g_abs s) (g_abs_g90 s) (g_ijk_abs s) (g_pos s) (g_scale s) (g_cs s) (g_g92 s) (g_origin s) (g_offset s) (g_normal s) (g_cp2 s) (g_first_spline s) (g_do_while s) (g_cond s) (g_loop s) (g_iterating s) (g_debug s) (g_errors s).
Definition with_unit s x := mk_gst (g_events s) (g_params s) (g_running s) (g_modal s) x (g_abs s) (g_abs_g90 s) (g_ijk_abs s) (g_pos s) (g_scale s) (g_cs s) (g_g92 s) (g_origin s) (g_offset s) (g_normal s) (g_cp2 s) (g_first_spline s) (g_do_while s) (g_cond s) (g_loop s) (g_iterating s) (g_debug s) (g_errors s).
Definition with_abs s x y := mk_gst (g_events s) (g_params s) (g_running s) (g_modal s) (g_unit s) x y (g_ijk_abs s) (g_pos s) (g_scale s) (g_cs s) (g_g92 s) (g_origin s) (g_offset s) (g_normal s) (g_cp2 s) (g_first_spline s) (g_do_while s) (g_cond s) (g_loop s) (g_iterating s) (g_debug s) (g_errors s).
Definition with_ijk s x := mk_gst (g_events s) (g_params s) (g_running s) (g_modal s) (g_unit s) (g_abs s) (g_abs_g90 s) x (g_pos s) (g_scale s) (g_cs s) (g_g92 s) (g_origin s) (g_offset s) (g_normal s) (g_cp2 s) (g_first_spline s) (g_do_while s) (g_cond s) (g_loop s) (g_iterating s) (g_debug s) (g_errors s).
Definition with_pos s x := mk_gst (g_events s) (g_params s) (g_running s) (g_modal s) (g_unit s) (g_abs s) (g_abs_g90 s) (g_ijk_abs s) x (g_scale s) (g_cs s) (g_g92 s) (g_origin s) (g_offset s) (g_normal s) (g_cp2 s) (g_first_spline s) (g_do_while s) (g_cond s) (g_loop s) (g_iterating s) (g_debug s) (g_errors s).
Definition with_scale s x := mk_gst (g_events s) (g_params s) (g_running s) (g_modal s) (g_unit s) (g_abs s) (g_abs_g90 s) (g_ijk_abs s) (g_pos s) x (g_cs s) (g_g92 s) (g_origin s) (g_offset s) (g_normal s) (g_cp2 s) (g_first_spline s) (g_do_while s) (g_cond s) (g_loop s) (g_iterating s) (g_debug s) (g_errors s).
Definition with_cs s x := mk_gst (g_events s) (g_params s) (g_running s) (g_modal s) (g_unit s) (g_abs s) (g_abs_g90 s) (g_ijk_abs s) (g_pos s) (g_scale s) x (g_g92 s) (g_origin s) (g_offset s) (g_normal s) (g_cp2 s) (g_first_spline s) (g_do_while s) (g_cond s) (g_loop s) (g_iterating s) (g_debug s) (g_errors s).
Definition with_g92 s x := mk_gst (g_events s) (g_params s) (g_running s) (g_modal s) (g_unit s) (g_abs s) (g_abs_g90 s) (g_ijk_abs s) (g_pos s) (g_scale s) (g_cs s) x (g_origin s) (g_offset s) (g_normal s) (g_cp2 s) (g_first_spline s) (g_do_while s) (g_cond s) (g_loop s) (g_iterating s) (g_debug s) (g_errors s).
Definition with_origin s x := mk_gst (g_events s) (g_params s) (g_running s) (g_modal s) (g_unit s) (g_abs s) (g_abs_g90 s) (g_ijk_abs s) (g_pos s) (g_scale s) (g_cs s) (g_g92 s) x (g_offset s) (g_normal s) (g_cp2 s) (g_first_spline s) (g_do_while s) (g_cond s) (g_loop s) (g_iterating s) (g_debug s) (g_errors s).
Definition with_offset s x := mk_gst (g_events s) (g_params s) (g_running s) (g_modal s) (g_unit s) (g_abs s) (g_abs_g90 s) (g_ijk_abs s) (g_pos s) (g_scale s) (g_cs s) (g_g92 s) (g_origin s) x (g_normal s) (g_cp2 s) (g_first_spline s) (g_do_while s) (g_cond s) (g_loop s) (g_iterating s) (g_debug s) (g_errors s).
Definition with_normal s x := mk_gst (g_events s) (g_params s) (g_running s) (g_modal s) (g_unit s) (g_abs s) (g_abs_g90 s) (g_ijk_abs s) (g_pos s) (g_scale s) (g_cs s) (g_g92 s) (g_origin s) (g_offset s) x (g_cp2 s) (g_first_spline s) (g_do_while s) (g_cond s) (g_loop s) (g_iterating s) (g_debug s) (g_errors s).
Definition with_cp2 s x := mk_gst (g_events s) (g_params s) (g_running s) (g_modal s) (g_unit s) (g_abs s) (g_abs_g90 s) (g_ijk_abs s) (g_pos s) (g_scale s) (g_cs s) (g_g92 s) (g_origin s) (g_offset s) (g_normal s) x (g_first_spline s) (g_do_while s) (g_cond s) (g_loop s) (g_iterating s) (g_debug s) (g_errors s).
Definition with_first s x := mk_gst (g_events s) (g_params s) (g_running s) (g_modal s) (g_unit s) (g_abs s) (g_abs_g90 s) (g_ijk_abs s) (g_pos s) (g_scale s) (g_cs s) (g_g92 s) (g_origin s) (g_offset s) (g_normal s) (g_cp2 s) x (g_do_while s) (g_cond s) (g_loop s) (g_iterating s) (g_debug s) (g_errors s).
Definition with_while s x c l := mk_gst (g_events s) (g_params s) (g_running s) (g_modal s) (g_unit s) (g_abs s) (g_abs_g90 s) (g_ijk_abs s) (g_pos s) (g_scale s) (g_cs s) (g_g92 s) (g_origin s) (g_offset s) (g_normal s) (g_cp2 s) (g_first_spline s) x c l (g_iterating s) (g_debug s) (g_errors s).
Definition with_iterating s x := mk_gst (g_events s) (g_params s) (g_running s) (g_modal s) (g_unit s) (g_abs s) (g_abs_g90 s) (g_ijk_abs s) (g_pos s) (g_scale s) (g_cs s) (g_g92 s) (g_origin s) (g_offset s) (g_normal s) (g_cp2 s) (g_first_spline s) (g_do_while s) (g_cond s) (g_loop s) x (g_debug s) (g_errors s).
Definition with_debug s x := mk_gst (g_events s) (g_params s) (g_running s) (g_modal s) (g_unit s) (g_abs s) (g_abs_g90 s) (g_ijk_abs s) (g_pos s) (g_scale s) (g_cs s) (g_g92 s) (g_origin s) (g_offset s) (g_normal s) (g_cp2 s) (g_first_spline s) (g_do_while s) (g_cond s) (g_loop s) (g_iterating s) x (g_errors s).
Definition with_errors s x := mk_gst (g_events s) (g_params s) (g_running s) (g_modal s) (g_unit s) (g_abs s) (g_abs_g90 s) (g_ijk_abs s) (g_pos s) (g_scale s) (g_cs s) (g_g92 s) (g_origin s) (g_offset s) (g_normal s) (g_cp2 s) (g_first_spline s) (g_do_while s) (g_cond s) (g_loop s) (g_iterating s) (g_debug s) x.

(** ** The programming language *)
(** [Out]: not finished within the given number of rounds. *)
Inductive res (A : Type) := Done (a : A) (s : gst) | Bad | Out.
Arguments Done {A}. Arguments Bad {A}. Arguments Out {A}.
Definition G (A : Type) := gst -> res A.
Definition ret {A} (a : A) : G A := fun s => Done a s.
Definition bad {A} : G A := fun _ => Bad.
Definition out {A} : G A := fun _ => Out.
Definition bind {A B} (m : G A) (f : A -> G B) : G B :=
  fun s => match m s with Done a s' => f a s' | Bad => Bad | Out => Out end.
Declare Scope g_scope.
Delimit Scope g_scope with g.
Notation "x <- a ;; b" := (bind a (fun x => b)) (at level 61, a at next level, right associativity) : g_scope.
Notation "' p <- a ;; b" := (bind a (fun p => b)) (at level 61, p pattern, a at next level, right associativity) : g_scope.
Notation "a ;;; b" := (bind a (fun _ => b)) (at level 61, right associativity) : g_scope.
Open Scope g_scope.
Definition get {A} (f : gst -> A) : G A := fun s => Done (f s) s.
Definition upd (f : gst -> gst) : G unit := fun s => Done tt (f s).
Definition when (b : bool) (m : G unit) : G unit := if b then m else ret tt.

(** gcode-parser.cc:511-533 gprintf with GLOG_SYNTAX_ERR or GLOG_SEMANTIC_ERR *)
Definition err : G unit := upd (fun s => with_errors s (g_errors s + 1)).
Definition fail {A} : G (option A) := err ;;; ret None.

Definition starts (c : ascii) (s : text) : bool := match s with x :: _ => Ascii.eqb x c | [] => false end.
Definition same_place (a b : text) : bool := Nat.eqb (length a) (length b).

Section Parser.
Variable c : gcfg.

(** A call of the event receiver. *)
Definition emit (e : event) : G reply :=
  fun s => let ev := e :: g_events s in Done (gc_reply c ev) (with_events s ev).
Definition tell (e : event) : G unit := emit e ;;; ret tt.

(** (int)value *)
Definition int_of (v : fl) : Z := match to_int (fl_trunc v) with Some z => z | None => gc_int c v end.

Definition lex (kws : list (text * Z)) (line : text) : G (Z * text) :=
  match match_next (lexer_of kws) line with Ok r => ret r | Undefined => bad end.
Definition expect (line : text) (e : Z) : G (bool * text) :=
  match expect_next (lexer_of control_keywords) line e with Ok r => ret r | Undefined => bad end.

(** gcode-parser.cc:297-317 read_parameter; the return value and *result *)
Definition read_parameter (name : text) : G (bool * fl) :=
  ps <- get g_params ;;
  match ps with
  | None => ret (false, f0)
  | Some m =>
      let name := trim_whitespace name in
      match pm_find (to_lower_text name) m with
      | Some v => ret (true, v)
      | None =>
          match name with
          | [x] => match letter_axis x with
                   | Some a => pos <- get g_pos ;; ret (true, pos a)
                   | None => ret (false, f0)
                   end
          | _ => ret (false, f0)
          end
      end
  end.

(** gcode-parser.cc:320-331 store_parameter (the return value is never used) *)
Definition store_parameter (name : text) (v : fl) : G unit :=
  ps <- get g_params ;;
  match ps with
  | None => ret tt
  | Some m =>
      let name := trim_whitespace name in
      if text_eqb name (txt "0") || (5400 <=? match convert_strto64 name with Some (z, _) => z | None => 0 end) then err
      else upd (fun s => with_params s (Some (pm_set (to_lower_text name) v m)))
  end.

(** gcode-parser.cc:620-669 execute_unary *)
Definition execute_unary (v : fl) (op : Z) : G (option fl) :=
  if op =? ABS then ret (Some (SFabs v))
  else if (op =? ACOS) || (op =? ASIN) then
    if SFltb v (SFopp f1) || SFltb f1 v then fail else ret (Some (gc_math c op v))
  else if (op =? COS) || (op =? EXP) || (op =? SIN) || (op =? TAN) then ret (Some (gc_math c op v))
  else if op =? FIX then ret (Some (fl_floor v))
  else if op =? FUP then ret (Some (fl_ceil v))
  else if op =? LN then if SFleb v f0 then fail else ret (Some (gc_math c op v))
  else if op =? ROUND then
    let half := f32_div f1 (f32_of_Z 2) in
    ret (Some (f32_of_Z (int_of (f32_add v (if SFltb v f0 then SFopp half else half)))))
  else if op =? SQRT then if SFltb v f0 then fail else ret (Some (f32_sqrt v))
  else fail.

(** gcode-parser.cc:751-802 execute_binary *)
Definition truth (b : bool) : fl := if b then f1 else f0.
Definition execute_binary (left : fl) (op : Z) (right : fl) : G (option fl) :=
  let zl := SFeqb left f0 in
  let zr := SFeqb right f0 in
  if op =? POWER then
    if SFltb left f0 && negb (SFeqb (fl_floor right) right) then fail else ret (Some (gc_pow c left right))
  else if op =? DIVIDED_BY then if zr then fail else ret (Some (f32_div left right))
  else if op =? MODULO then
    let v := gc_fmod c left right in
    ret (Some (if SFltb v f0 then f32_add v (SFabs right) else v))
  else if op =? TIMES then ret (Some (f32_mul left right))
  else if op =? AND2 then ret (Some (truth (negb (zl || zr))))
  else if op =? EXCLUSIVE_OR then ret (Some (truth ((zl && negb zr) || (negb zl && zr))))
  else if op =? MINUS then ret (Some (f32_sub left right))
  else if op =? NON_EXCLUSIVE_OR then ret (Some (truth (negb zl || negb zr)))
  else if op =? PLUS then ret (Some (f32_add left right))
  else if op =? EQ then ret (Some (truth (SFeqb left right)))
  else if op =? NE then ret (Some (truth (negb (SFeqb left right))))
  else if op =? GT then ret (Some (truth (SFltb right left)))
  else if op =? GE then ret (Some (truth (SFleb right left)))
  else if op =? LT then ret (Some (truth (SFltb left right)))
  else if op =? LE then ret (Some (truth (SFleb left right)))
  else fail.

(** gcode-parser.cc:804-813 gcodep_operation *)
Definition operation (line : text) : G (option (Z * text)) :=
  '(op, rest) <- lex op_keywords line ;;
  if (NO_OPERATION <? op) && (op <? UNARY_OP_START) then ret (Some (op, rest)) else ret None.

(** gcode-parser.cc:816 *)
Definition MAX_STACK : nat := 6.

(** The stack of the expression: a value and the operator behind it, top first; the
    number of entries is the variable [stack] of the code.
    gcode-parser.cc:866-878: the operator [o] behind the value [x] does not bind more
    tightly than the one before. *)
Fixpoint reduce (stack : list (fl * Z)) (x : fl) (o : Z) : G (option (list (fl * Z))) :=
  match stack with
  | [] => ret (Some [])
  | (u, p) :: rest =>
      r <- execute_binary u p x ;;
      match r with
      | None => ret None
      | Some u' =>
          match rest with
          | (_, p2) :: _ => if precedence o <=? precedence p2 then reduce rest u' o else ret (Some ((u', o) :: rest))
          | [] => ret (Some [(u', o)])
          end
      end
  end.

(** gcode-parser.cc:544-548 ParseGcodeNumber inside gcodep_value: nothing is consumed if
    there is no number; after leading white space the caller would take an unset value for
    a number. *)
Definition number (line : text) : G (option (fl * text)) :=
  let l := skip_spaces line in
  match gc_number c l with
  | Some (v, r) => ret (Some (v, r))
  | None => if same_place l line then ret None else bad
  end.

Definition is_name_char (x : ascii) : bool := is_alnum x || Ascii.eqb x "_".
(** gcode-parser.cc:586-594 *)
Fixpoint scan_name (bracketed : bool) (s : text) : text * text :=
  match s with
  | [] => ([], [])
  | x :: r =>
      if is_name_char x then let '(n, r) := scan_name bracketed r in (x :: n, r)
      else if bracketed && is_space x then scan_name bracketed r
      else ([], s)
  end.

(** gcode-parser.cc:818-883 gcodep_expression, the loop; every position of the arrays
    beyond the last is [Bad]. 888-904 gcodep_value, 609-618 gcodep_parameter,
    552-607 read_param_name, 711-749 gcodep_unary, 671-699 gcodep_atan *)
Fixpoint value (fuel : nat) (line : text) {struct fuel} : G (option (fl * text)) :=
  match fuel with
  | O => out
  | S f =>
      match line with
      | [] => ret None
      | x :: r =>
          p <- (if is_alpha (to_upper x) then unary f line
                else if Ascii.eqb x "[" then expr_loop f (skip_spaces r) []
                else if Ascii.eqb x "#" then
                  n <- param_name f r ;;
                  match n with
                  | None => ret None
                  | Some (name, rest) => '(_, v) <- read_parameter name ;; ret (Some (v, rest))
                  end
                else number line) ;;
          match p with
          | None => ret None
          | Some (v, rest) => if same_place rest line then ret None else ret (Some (v, skip_spaces rest))
          end
      end
  end
with expr_loop (fuel : nat) (line : text) (stack : list (fl * Z)) {struct fuel} : G (option (fl * text)) :=
  match fuel with
  | O => out
  | S f =>
      if Nat.leb MAX_STACK (length stack) then bad
      else
        p <- value f line ;;
        match p with
        | None =>
            match line with
            | x :: r =>
                if Ascii.eqb x "-" then
                  let line := skip_spaces r in
                  if starts "-" line then fail else expr_loop f line ((SFopp f1, TIMES) :: stack)
                else fail
            | [] => fail
            end
        | Some (v, line) =>
            o <- operation line ;;
            match o with
            | None => fail
            | Some (o, line) =>
                let line := skip_spaces line in
                match stack with
                | [] => if o =? RIGHT_BRACKET then ret (Some (v, line)) else expr_loop f line [(v, o)]
                | (_, p) :: _ =>
                    if precedence p <? precedence o then
                      if Nat.leb MAX_STACK (S (length stack)) then fail else expr_loop f line ((v, o) :: stack)
                    else
                      st <- reduce stack v o ;;
                      match st with
                      | None => ret None
                      | Some stack =>
                          let '(v0, o0) := last stack (f0, NO_OPERATION) in
                          if o0 =? RIGHT_BRACKET then ret (Some (v0, line)) else expr_loop f line stack
                      end
                end
            end
        end
  end
with param_name (fuel : nat) (line : text) {struct fuel} : G (option (text * text)) :=
  match fuel with
  | O => out
  | S f =>
      let line := skip_spaces line in
      match line with
      | [] => fail
      | x :: r =>
          let bracketed := Ascii.eqb x "<" in
          let line := if bracketed then r else line in
          let numeric := match line with y :: _ => Ascii.eqb y "#" || is_digit y | [] => false end in
          if numeric && bracketed then fail
          else
            p <- (if numeric then
                    v <- value f line ;;
                    match v with
                    | None => fail
                    | Some (index, rest) => ret (Some (show_int (int_of index), rest))
                    end
                  else ret (Some (scan_name bracketed line))) ;;
            match p with
            | None => ret None
            | Some (name, line) =>
                if bracketed then
                  if starts ">" line then
                    match name with [] => ret None | _ => ret (Some (name, skip_spaces (tl line))) end
                  else fail
                else match name with [] => ret None | _ => ret (Some (name, skip_spaces line)) end
            end
      end
  end
with unary (fuel : nat) (line : text) {struct fuel} : G (option (fl * text)) :=
  match fuel with
  | O => out
  | S f =>
      '(op, line) <- lex op_keywords line ;;
      if negb (UNARY_OP_START <? op) then fail
      else if negb (starts "[" line) then fail
      else
        e <- expr_loop f (skip_spaces (tl line)) [] ;;
        match e with
        | None => fail
        | Some (v, line) =>
            let line := skip_spaces line in
            if op =? ATAN then
              if negb (starts "/" line) then err ;;; fail
              else if negb (starts "[" (tl line)) then err ;;; fail
              else
                e2 <- expr_loop f (skip_spaces (tl (tl line))) [] ;;
                match e2 with
                | None => err ;;; fail
                | Some (v2, line) => ret (Some (gc_atan2 c v v2, skip_spaces line))
                end
            else
              r <- execute_unary v op ;;
              match r with None => fail | Some v => ret (Some (v, line)) end
        end
  end.

Definition expression (fuel : nat) (line : text) : G (option (fl * text)) := expr_loop fuel (skip_spaces line) [].

(** gcode-parser.cc:906-1020 gcodep_set_parameter. The messages at 975, 991 and 1003 are
    printed with their arguments in the wrong order: a number is taken for a string. *)
Definition assign_op (line : text) : option (option Z * text) :=
  match line with
  | x :: y :: r =>
      if Ascii.eqb y "=" then
        if Ascii.eqb x "+" then Some (Some PLUS, r)
        else if Ascii.eqb x "-" then Some (Some MINUS, r)
        else if Ascii.eqb x "*" then Some (Some TIMES, r)
        else if Ascii.eqb x "/" then Some (Some DIVIDED_BY, r)
        else if Ascii.eqb x "=" then Some (None, y :: r)
        else None
      else if Ascii.eqb x "=" then Some (None, y :: r) else None
  | [x] => if Ascii.eqb x "=" then Some (None, []) else None
  | [] => None
  end.

(** What the assignment operator is followed by: the value, for "?" one of two values. *)
Definition assigned (fuel : nat) (name line : text) (op : option Z) : G (option (fl * text)) :=
  v <- value fuel line ;;
  match v with
  | None => fail
  | Some (v, line) =>
      match op with
      | Some op =>
          '(_, lv) <- read_parameter name ;;
          r <- execute_binary lv op v ;;
          ret (match r with None => None | Some v => Some (v, line) end)
      | None =>
          if starts "?" line then
            a <- value fuel (skip_spaces (tl line)) ;;
            match a with
            | None => bad
            | Some (tv, line) =>
                if starts ":" line then
                  b <- value fuel (skip_spaces (tl line)) ;;
                  match b with
                  | None => bad
                  | Some (fv, line) => ret (Some (if negb (SFeqb v f0) then tv else fv, line))
                  end
                else bad
            end
          else ret (Some (v, line))
      end
  end.

Definition set_parameter (fuel : nat) (line : text) : G (option text) :=
  n <- param_name fuel line ;;
  match n with
  | None => ret None
  | Some (name, line) =>
      if starts "+" line && starts "+" (tl line) then
        '(_, v) <- read_parameter name ;; store_parameter name (f32_add v f1) ;;; ret (Some (skip_spaces (tl (tl line))))
      else if starts "-" line && starts "-" (tl line) then
        '(_, v) <- read_parameter name ;; store_parameter name (f32_sub v f1) ;;; ret (Some (skip_spaces (tl (tl line))))
      else
        match assign_op line with
        | None => match line with [] => ret None | _ => fail end
        | Some (op, rest) =>
            r <- assigned fuel name (skip_spaces rest) op ;;
            match r with
            | None => ret None
            | Some (v, line) => store_parameter name v ;;; tell (ECommandDone "#" v) ;;; ret (Some line)
            end
        end
  end.

(** ** Control structures *)
(** gcode-parser.cc:1055-1064: behind the first ELSE in the text *)
Fixpoint find_else (line : text) : option text :=
  match line with
  | [] => None
  | _ :: r => if has_prefix (map to_upper line) (txt "ELSE") then Some (skip_spaces (skipn 4 line)) else find_else r
  end.

(** gcode-parser.cc:1022-1085 gcodep_conditional *)
Fixpoint conditional (fuel : nat) (line : text) {struct fuel} : G unit :=
  match fuel with
  | O => out
  | S f =>
      if negb (starts "[" line) then err
      else
        e <- expression f (tl line) ;;
        match e with
        | None => ret tt
        | Some (v, line) =>
            '(ok, line) <- expect (skip_spaces line) CK_THEN ;;
            if negb ok then err
            else
              let line := skip_spaces line in
              if SFeqb v f1 then
                if starts "#" line then set_parameter f (tl line) ;;; ret tt else err
              else
                match find_else line with
                | None => ret tt
                | Some line =>
                    if has_prefix (map to_upper line) (txt "IF") then conditional f (skip_spaces (skipn 2 line))
                    else if starts "#" line then set_parameter f (tl line) ;;; ret tt else err
                end
        end
  end.

(** A for loop over texts. *)
Fixpoint each (f : text -> G unit) (l : list text) : G unit :=
  match l with [] => ret tt | x :: r => f x ;;; each f r end.

(** gcode-parser.cc:1087-1115 gcodep_while_end; [pb] is ParseBlock *)
Fixpoint while_end (fuel : nat) (pb : text -> G unit) {struct fuel} : G unit :=
  match fuel with
  | O => out
  | S f =>
      condition <- get g_cond ;;
      e <- expression f condition ;;
      match e with
      | None => err
      | Some (v, line) =>
          if SFeqb v f0 then ret tt
          else
            '(ok, _) <- expect (skip_spaces line) CK_DO ;;
            if ok : bool then
              body <- get g_loop ;;
              upd (fun s => with_iterating s true) ;;;
              each pb (split_string body [LF]) ;;;
              upd (fun s => with_iterating s false) ;;;
              while_end f pb
            else err
      end
  end.

(** gcode-parser.cc:1117-1125 gcodep_while_do *)
Definition while_do (fuel : nat) (pb : text -> G unit) (line : text) : G unit :=
  '(ok, _) <- expect line CK_END ;;
  if ok : bool then upd (fun s => with_while s false (g_cond s) (g_loop s)) ;;; while_end fuel pb
  else upd (fun s => with_while s (g_do_while s) (g_cond s) (g_loop s ++ line)).

(** gcode-parser.cc:1127-1140 gcodep_while_start; replacing the text of the loop that is
    being executed is [Bad] *)
Definition while_start (line : text) : G unit :=
  if negb (starts "[" line) then err
  else
    busy <- get g_iterating ;;
    if busy : bool then bad
    else upd (fun s => with_while s true (skip_spaces (tl line)) []).

(** Behind the comment; None if it is not closed. *)
Fixpoint skip_comment (line : text) : option text :=
  match line with
  | [] => None
  | x :: r => if Ascii.eqb x ")" then Some r else skip_comment r
  end.

(** gcode-parser.cc:1142-1205 gcodep_parse_pair_with_linenumber *)
Fixpoint parse_pair (fuel : nat) (pb : text -> G unit) (line : text) {struct fuel} : G (option (ascii * fl * text)) :=
  match fuel with
  | O => out
  | S f =>
      let line := skip_spaces line in
      if same_place line [] || starts ";" line || starts "%" line then ret None
      else
        in_loop <- get g_do_while ;;
        if in_loop : bool then while_do f pb line ;;; ret None
        else
          l <- (if starts "(" line then match skip_comment line with None => bad | Some r => ret (skip_spaces r) end
                else ret line) ;;
          if same_place l [] then ret None
          else
            '(is_if, l) <- expect l CK_IF ;;
            if is_if : bool then conditional f (skip_spaces l) ;;; ret None
            else
              '(is_while, l) <- expect l CK_WHILE ;;
              if is_while : bool then while_start (skip_spaces l) ;;; ret None
              else
                match l with
                | [] => ret None
                | x :: r =>
                    if Ascii.eqb x "#" then
                      p <- set_parameter f r ;;
                      match p with None => ret None | Some l => parse_pair f pb l end
                    else
                      match r with
                      | [] => fail
                      | _ =>
                          if Ascii.eqb x "*" then ret None
                          else
                            p <- value f (skip_spaces r) ;;
                            match p with
                            | None => fail
                            | Some (v, rest) => ret (Some (to_upper x, v, rest))
                            end
                      end
                end
  end.

(** ** Coordinates *)
(** gcode-parser.cc:333 current_origin, 334-336 current_global_offset *)
Definition origin_of (s : gst) : axes := match g_origin s with None => gc_origin c | Some i => g_cs s i end.
Definition offset_of (s : gst) : axes := if g_offset s then g_g92 s else zero_axes.

(** gcode-parser.cc:187-193 inform_origin_offset_change *)
Definition inform_origin (name : text) : G unit :=
  o <- get (fun s a => f32_add (origin_of s a) (offset_of s a)) ;; tell (EOrigin o name).

(** gcode-parser.cc:181-184 set_current_offset *)
Definition set_current_offset (g92 : bool) (name : text) : G unit :=
  upd (fun s => with_offset s g92) ;;; inform_origin name.

(** gcode-parser.h:76-78 is_rotational_axis, 72-74 is_linear_axis *)
Definition is_rotational_axis (a : axis) : bool := match a with AA | AB | AC => true | _ => false end.
Definition is_linear_axis (a : axis) : bool := match a with AX | AY | AZ => true | _ => false end.

(** gcode-parser.cc:261-270 abs_axis_pos; rotation_unit_to_degree_factor_ is always 1 *)
Definition abs_axis_pos (a : axis) (v : fl) (s : gst) : fl :=
  let unit_value := f32_mul v (if is_rotational_axis a then f1 else g_unit s) in
  let relative_to := if g_abs s a then f32_add (origin_of s a) (offset_of s a) else g_pos s a in
  f32_add relative_to (f32_mul unit_value (g_scale s a)).

Definition set_all_absolute (b : bool) : G unit := upd (fun s => with_abs s (fun _ => b) b).
Definition set_ijk_absolute (b : bool) : G unit := when b err ;;; upd (fun s => with_ijk s b).

(** gcode-parser.cc:114-134 InitProgramDefaults *)
Definition init_program_defaults : G unit :=
  upd (fun s => with_unit s f1) ;;;
  set_all_absolute true ;;;
  set_ijk_absolute false ;;;
  upd (fun s => with_scale s (fun _ => f1)) ;;;
  upd (fun s => with_g92 s zero_axes) ;;;
  set_current_offset true (txt "H") ;;;
  upd (fun s => with_normal s AZ) ;;;
  upd (fun s => with_cp2 s zero_axes) ;;;
  upd (fun s => with_first s false) ;;;
  upd (fun s => with_while s false (g_cond s) (g_loop s)) ;;;
  tell (ESpeedFactor f1) ;;; tell (EFan f0) ;;; tell (ETemperature f0).

(** gcode-parser.cc:195-200 finish_program_and_reset *)
Definition finish_program : G unit :=
  tell (EFinished false) ;;; init_program_defaults ;;; upd (fun s => with_running s false).

(** gcode-parser.cc:84-85 *)
Definition cs_name (i : Z) : text :=
  nth (Z.to_nat i) [txt "G54"; txt "G55"; txt "G56"; txt "G57"; txt "G58"; txt "G59"; txt "G59.1"; txt "G59.2"; txt "G59.3"] [].
(** The name of the parameter with the offset of an axis in a coordinate system. *)
Definition cs_param (i : Z) (a : axis) : text := show_int (5221 + 20 * i + axis_ix a).

(** gcode-parser.cc:1232-1266 InitCoordSystems *)
Definition init_coord_systems : G unit :=
  cs <- get (fun s i a => f32_add (gc_origin c a)
                            match read_parameter (cs_param i a) s with Done (_, v) _ => v | _ => f0 end) ;;
  upd (fun s => with_cs s cs) ;;;
  '(found, v) <- read_parameter (txt "5220") ;;
  v <- (if negb found || SFltb v f1 || SFltb (f32_of_Z 9) v
        then store_parameter (txt "5220") f1 ;;; ret f1 else ret v) ;;
  let i := int_of v - 1 in
  if (0 <=? i) && (i <? 9) then upd (fun s => with_origin s (Some i)) ;;; inform_origin (cs_name i) else bad.

(** gcode-parser.cc:430-451, 365-425: the constructor *)
Definition fresh (params : option pmap) : gst :=
  mk_gst [] params false false f1 (fun _ => true) true false (gc_origin c) (fun _ => f1) (fun _ => zero_axes) zero_axes
    None false AZ zero_axes false false [] [] false 0 0.
Definition new_parser (params : option pmap) : res unit :=
  (init_program_defaults ;;; init_coord_systems) (fresh params).

(** ** Commands *)
(** The loop of a command over its parameters; [step] says whether the parameter is
    consumed. *)
Fixpoint args {A} (fuel : nat) (gp : text -> G (option (ascii * fl * text))) (step : A -> ascii -> fl -> G (bool * A))
              (acc : A) (line : text) {struct fuel} : G (A * text) :=
  match fuel with
  | O => out
  | S f =>
      p <- gp line ;;
      match p with
      | None => ret (acc, line)
      | Some (l, v, rest) =>
          '(go, acc) <- step acc l v ;;
          if go : bool then args f gp step acc rest else ret (acc, line)
      end
  end.

Section Commands.
Variables (fuel : nat) (gp : text -> G (option (ascii * fl * text))).

(** gcode-parser.cc:159-175 set_xyz_scale *)
Definition set_xyz_scale (line : text) : G (option text) :=
  '(_, line) <- args fuel gp (fun (_ : unit) l v =>
    match letter_axis l with
    | None => ret (false, tt)
    | Some a => when (is_linear_axis a) (upd (fun s => with_scale s (set_axis (g_scale s) a v))) ;;; ret (true, tt)
    end) tt line ;;
  ret (Some line).

(** gcode-parser.cc:1207-1229 handle_home *)
Definition handle_home (line : text) : G (option text) :=
  '(flags, line) <- args fuel gp (fun flags l _ =>
    match letter_axis l with None => ret (false, flags) | Some a => ret (true, set_axis flags a true) end)
    (fun _ => false) line ;;
  let flags := if existsb flags all_axes then flags else fun _ => true in
  tell (EHome flags) ;;;
  upd (fun s => with_pos s (fun a => if flags a then gc_origin c a else g_pos s a)) ;;;
  ret (Some line).

(** A for loop over the axes. *)
Fixpoint each_axis (f : axis -> G unit) (l : list axis) : G unit :=
  match l with [] => ret tt | a :: r => f a ;;; each_axis f r end.

(** gcode-parser.cc:1269-1337 handle_G10 *)
Definition handle_G10 (line : text) : G (option text) :=
  '((l_val, p_val, coords, have), line) <- args fuel gp (fun '(l_val, p_val, coords, have) l v =>
    if Ascii.eqb l "L" then ret (true, (int_of v, p_val, coords, have))
    else if Ascii.eqb l "P" then ret (true, (l_val, int_of v, coords, have))
    else
      u <- get g_unit ;;
      match letter_axis l with
      | None => ret (false, (l_val, p_val, coords, have))
      | Some a => ret (true, (l_val, p_val, set_axis coords a (f32_mul v u), set_axis have a true))
      end) (-1, -1, zero_axes, fun _ => false) line ;;
  if negb (l_val =? 2) then err ;;; ret (Some line)
  else if (p_val <? 1) || (9 <? p_val) then err ;;; ret (Some line)
  else
    let i := p_val - 1 in
    upd (fun s => with_cs s (fun j a =>
      if (j =? i) && have a
      then f32_add (if g_abs_g90 s then gc_origin c a else g_cs s i a) (coords a)
      else g_cs s j a)) ;;;
    each_axis (fun a =>
      when (have a) (v <- get (fun s => f32_sub (g_cs s i a) (gc_origin c a)) ;; store_parameter (cs_param i a) v)) all_axes ;;;
    o <- get g_origin ;;
    when (match o with Some j => j =? i | None => false end) (inform_origin (cs_name i)) ;;;
    ret (Some line).

(** Decimal constants: the float nearest to n/10 *)
Definition tenths (n : Z) : fl := f32_div (f32_of_Z n) (f32_of_Z 10).

(** gcode-parser.cc:1339-1348 handle_G90_G91 *)
Definition handle_G90_G91 (v : fl) : G unit :=
  if SFeqb v (tenths 900) then set_all_absolute true
  else if SFeqb v (tenths 910) then set_all_absolute false
  else if SFeqb v (tenths 901) then set_ijk_absolute true
  else when (SFeqb v (tenths 911)) (set_ijk_absolute false).

(** gcode-parser.cc:1350-1383 change_coord_system *)
Definition change_coord_system (v : fl) : G unit :=
  let n := int_of v in
  let i :=
    if (54 <=? n) && (n <=? 58) then n - 53
    else if n =? 59 then
      if SFeqb v (tenths 590) then 6 else if SFeqb v (tenths 591) then 7
      else if SFeqb v (tenths 592) then 8 else if SFeqb v (tenths 593) then 9 else -1
    else -1 in
  if i =? -1 then err
  else
    store_parameter (txt "5220") (f32_of_Z i) ;;;
    upd (fun s => with_origin s (Some (i - 1))) ;;;
    inform_origin (cs_name (i - 1)).

(** gcode-parser.cc:1386-1414 handle_G92 *)
Definition handle_G92 (v : fl) (line : text) : G (option text) :=
  if SFeqb v (tenths 920) then
    '(_, line) <- args fuel gp (fun (_ : unit) l v =>
      match letter_axis l with
      | None => ret (false, tt)
      | Some a =>
          upd (fun s => with_g92 s (set_axis (g_g92 s) a
                 (f32_sub (f32_sub (g_pos s a) (f32_mul v (g_unit s))) (origin_of s a)))) ;;;
          ret (true, tt)
      end) tt line ;;
    set_current_offset true (txt "G92") ;;; ret (Some line)
  else if SFeqb v (tenths 921) then
    upd (fun s => with_g92 s zero_axes) ;;; set_current_offset true [] ;;; ret (Some line)
  else if SFeqb v (tenths 922) then set_current_offset false [] ;;; ret (Some line)
  else if SFeqb v (tenths 923) then set_current_offset true (txt "G92") ;;; ret (Some line)
  else ret (Some line).

(** gcode-parser.cc:1417-1428 set_param *)
Definition set_param (letter : ascii) (setter : fl -> event) (factor : fl) (line : text) : G (option text) :=
  p <- gp line ;;
  match p with
  | Some (l, v, rest) =>
      if Ascii.eqb l letter then tell (setter (f32_mul factor v)) ;;; ret (Some rest) else ret (Some line)
  | None => ret (Some line)
  end.

(** gcode-parser.cc:1430-1432 f_param_to_feedrate *)
Definition feedrate_of (v : fl) : fl := f32_div v (f32_of_Z 60).
Definition no_feedrate : fl := SFopp f1.

(** gcode-parser.cc:1434-1474 handle_move *)
Definition handle_move (line : text) (force_change : bool) : G (option text) :=
  pos <- get g_pos ;;
  '((any_change, feedrate, new_pos, affected), line) <- args fuel gp (fun '(any_change, feedrate, new_pos, affected) l v =>
    if Ascii.eqb l "F" then
      u <- get g_unit ;; ret (true, (true, feedrate_of (f32_mul v u), new_pos, affected))
    else if Ascii.eqb l "S" then
      tell (ESpindleSpeed v) ;;; ret (true, (any_change, feedrate, new_pos, affected))
    else
      match letter_axis l with
      | None => ret (false, (any_change, feedrate, new_pos, affected))
      | Some a => p <- get (abs_axis_pos a v) ;; ret (true, (true, feedrate, set_axis new_pos a p, set_axis affected a true))
      end) (force_change, no_feedrate, pos, fun _ => false) line ;;
  if any_change : bool then
    r <- emit (EClamp affected new_pos) ;;
    let new_pos := r_pos r new_pos in
    modal <- get g_modal ;;
    r <- emit (EMove modal feedrate new_pos) ;;
    when (r_ok r) (upd (fun s => with_pos s new_pos)) ;;;
    ret (Some line)
  else ret (Some line).

(** gcode-parser.cc:1524-1641 handle_arc; arc_radius_to_center (1483-1512) is gc_center *)
Definition handle_arc (line : text) (is_cw : bool) : G (option text) :=
  pos <- get g_pos ;;
  '((target, offset, feedrate, radius, have_ijk, have_r, turns), line) <- args fuel gp
    (fun '(target, offset, feedrate, radius, have_ijk, have_r, turns) l v =>
      u <- get g_unit ;; scale <- get g_scale ;;
      let d := f32_mul v u in
      if Ascii.eqb l "I" then ret (true, (target, set_axis offset AX (f32_mul d (scale AX)), feedrate, radius, true, have_r, turns))
      else if Ascii.eqb l "J" then ret (true, (target, set_axis offset AY (f32_mul d (scale AY)), feedrate, radius, true, have_r, turns))
      else if Ascii.eqb l "K" then ret (true, (target, set_axis offset AZ (f32_mul d (scale AZ)), feedrate, radius, true, have_r, turns))
      else if Ascii.eqb l "R" then ret (true, (target, offset, feedrate, d, have_ijk, true, turns))
      else if Ascii.eqb l "P" then ret (true, (target, offset, feedrate, radius, have_ijk, have_r, int_of v))
      else if Ascii.eqb l "F" then ret (true, (target, offset, feedrate_of d, radius, have_ijk, have_r, turns))
      else
        match letter_axis l with
        | None => ret (false, (target, offset, feedrate, radius, have_ijk, have_r, turns))
        | Some a => p <- get (abs_axis_pos a v) ;; ret (true, (set_axis target a p, offset, feedrate, radius, have_ijk, have_r, turns))
        end) (pos, zero_axes, no_feedrate, f0, false, false, 1) line ;;
  if Bool.eqb have_ijk have_r then err ;;; ret (Some line)
  else if negb (turns =? 1) then err ;;; ret (Some line)
  else
    normal <- get g_normal ;;
    pos <- get g_pos ;;
    let center :=
      if have_ijk then if SFeqb (offset normal) f0 then Some offset else None
      else
        let '(a, b) := match normal with AX => (AY, AZ) | AY => (AX, AZ) | _ => (AX, AY) end in
        match gc_center c (pos a) (pos b) (target a) (target b) radius is_cw with
        | None => None
        | Some (x, y) => Some (set_axis (set_axis offset a x) b y)
        end in
    match center with
    | None => err ;;; ret (Some line)
    | Some offset =>
        let center := fun a => if is_linear_axis a then f32_add (pos a) (offset a) else pos a in
        r <- emit (EArc feedrate normal is_cw pos center target) ;;
        when (r_ok r) (upd (fun s => with_pos s target)) ;;;
        ret (Some line)
    end.

(** gcode-parser.cc:1698-1809 handle_spline *)
Definition handle_spline (sub : fl) (line : text) : G (option text) :=
  normal <- get g_normal ;;
  let cubic := SFeqb sub (tenths 50) in
  if negb (axis_eqb normal AZ) then fail
  else if negb cubic && negb (SFeqb sub (tenths 51)) then fail
  else
    pos <- get g_pos ;;
    '((wrong, target, cp1, cp2, (i, j, p, q), feedrate), line) <- args fuel gp
      (fun '(wrong, target, cp1, cp2, (i, j, p, q), feedrate) l v =>
        u <- get g_unit ;; scale <- get g_scale ;;
        let d := f32_mul v u in
        if Ascii.eqb l "I" then ret (true, (wrong, target, set_axis cp1 AX (f32_mul d (scale AX)), cp2, (true, j, p, q), feedrate))
        else if Ascii.eqb l "J" then ret (true, (wrong, target, set_axis cp1 AY (f32_mul d (scale AY)), cp2, (i, true, p, q), feedrate))
        else if Ascii.eqb l "P" then ret (true, (wrong, target, cp1, set_axis cp2 AX (f32_mul d (scale AX)), (i, j, true, q), feedrate))
        else if Ascii.eqb l "Q" then ret (true, (wrong, target, cp1, set_axis cp2 AY (f32_mul d (scale AY)), (i, j, p, true), feedrate))
        else if Ascii.eqb l "F" then ret (true, (wrong, target, cp1, cp2, (i, j, p, q), feedrate_of d))
        else
          match letter_axis l with
          | None => ret (false, (true, target, cp1, cp2, (i, j, p, q), feedrate))
          | Some a => x <- get (abs_axis_pos a v) ;; ret (true, (wrong, set_axis target a x, cp1, cp2, (i, j, p, q), feedrate))
          end) (false, pos, zero_axes, zero_axes, (false, false, false, false), no_feedrate) line ;;
    if wrong : bool then fail
    else
      cps <- (if cubic then
                if negb p && negb q then fail
                else if xorb i j then fail
                else
                  first <- get g_first_spline ;;
                  if negb i && negb first then fail
                  else
                    last <- get g_cp2 ;; pos <- get g_pos ;;
                    let cp1 := if i then cp1 else set_axis (set_axis cp1 AX (SFopp (last AX))) AY (SFopp (last AY)) in
                    upd (fun s => with_first (with_cp2 s cp2) true) ;;;
                    ret (Some (set_axis (set_axis cp1 AX (f32_add (cp1 AX) (pos AX))) AY (f32_add (cp1 AY) (pos AY)),
                               set_axis (set_axis cp2 AX (f32_add (cp2 AX) (target AX))) AY (f32_add (cp2 AY) (target AY))))
              else if negb i && negb j then fail
              else if SFeqb (cp1 AX) f0 && SFeqb (cp1 AY) f0 then fail
              else
                pos <- get g_pos ;;
                upd (fun s => with_first s false) ;;;
                let third a n := f32_div (f32_mul (cp1 a) (f32_of_Z n)) (f32_of_Z 3) in
                let q1 a := f32_add (pos a) (third a 2) in
                let q2 a := f32_add (q1 a) (third a 1) in
                ret (Some (set_axis (set_axis zero_axes AX (q1 AX)) AY (q1 AY),
                           set_axis (set_axis zero_axes AX (q2 AX)) AY (q2 AY)))) ;;
      match cps with
      | None => ret None
      | Some (cp1, cp2) =>
          pos <- get g_pos ;;
          r <- emit (ESpline feedrate pos cp1 cp2 target) ;;
          when (r_ok r) (upd (fun s => with_pos s target)) ;;;
          ret (Some line)
      end.

(** gcode-parser.cc:1811-1838 handle_z_probe *)
Definition handle_z_probe (line : text) : G (option text) :=
  '((feedrate, thickness), line) <- args fuel gp (fun '(feedrate, thickness) l v =>
    u <- get g_unit ;;
    if Ascii.eqb l "F" then ret (true, (feedrate_of (f32_mul v u), thickness))
    else if Ascii.eqb l "Z" then ret (true, (feedrate, f32_mul v u))
    else ret (false, (feedrate, thickness))) (no_feedrate, f0) line ;;
  r <- emit (EProbe feedrate AZ) ;;
  if r_ok r then
    upd (fun s => with_pos s (set_axis (g_pos s) AZ (r_probed r))) ;;;
    upd (fun s => with_g92 s (set_axis (g_g92 s) AZ (f32_sub (f32_sub (g_pos s AZ) thickness) (origin_of s AZ)))) ;;;
    set_current_offset true (txt "G30") ;;; ret (Some line)
  else ret (Some line).

(** gcode-parser.cc:1840-1857 handle_M111 *)
Definition handle_M111 (line : text) : G (option text) :=
  if gc_m111 c then
    '(level, line) <- args fuel gp (fun level l v =>
      if Ascii.eqb l "S" then ret (true, int_of v) else ret (false, level)) (-1) line ;;
    when (0 <=? level) (upd (fun s => with_debug s level)) ;;;
    ret (Some line)
  else ret None.

(** EventReceiver::unprocessed (gcode-parser.h:283-288): the receiver may read parameters
    with GCodeParser::ParsePair. The positions behind them, the first first. *)
Fixpoint read_pairs (n : nat) (line : text) : G (list text) :=
  match n with
  | O => ret [line]
  | S n =>
      p <- gp line ;;
      match p with
      | None => ret [line]
      | Some (_, _, rest) => l <- read_pairs n rest ;; ret (line :: l)
      end
  end.
Definition unprocessed (letter : ascii) (v : fl) (line : text) : G (option text) :=
  r <- emit (EUnprocessed letter v line) ;;
  l <- read_pairs (r_parse r) line ;;
  ret (match r_keep r with None => None | Some k => Some (nth k l (last l [])) end).

(** gcode-parser.cc:1875-1976: one round of the loop in ParseBlock, for the command with
    this letter and value: the remaining line *)
Definition line_is (line : text) (m : G unit) : G (option text) := m ;;; ret (Some line).

(** gcode-parser.cc:1878-1919 *)
Definition run_G (v : fl) (line : text) (last_spline : bool) : G (option text) :=
  let n := int_of v in
  if n =? 0 then upd (fun s => with_modal s false) ;;; handle_move line false
  else if n =? 1 then upd (fun s => with_modal s true) ;;; handle_move line false
  else if n =? 2 then handle_arc line true
  else if n =? 3 then handle_arc line false
  else if n =? 4 then set_param "P" EDwell f1 line
  else if n =? 5 then upd (fun s => with_first s last_spline) ;;; handle_spline v line
  else if n =? 10 then handle_G10 line
  else if n =? 17 then line_is line (upd (fun s => with_normal s AZ))
  else if n =? 18 then line_is line (upd (fun s => with_normal s AY))
  else if n =? 19 then line_is line (upd (fun s => with_normal s AX))
  else if (n =? 20) || (n =? 70) then line_is line (upd (fun s => with_unit s (tenths 254)))
  else if (n =? 21) || (n =? 71) then line_is line (upd (fun s => with_unit s f1))
  else if n =? 28 then handle_home line
  else if n =? 30 then handle_z_probe line
  else if n =? 50 then line_is line (upd (fun s => with_scale s (fun _ => f1)))
  else if n =? 51 then set_xyz_scale line
  else if (54 <=? n) && (n <=? 59) then line_is line (change_coord_system v)
  else if (n =? 90) || (n =? 91) then line_is line (handle_G90_G91 v)
  else if n =? 92 then handle_G92 v line
  else unprocessed "G" v line.

(** gcode-parser.cc:1920-1953 *)
Definition run_M (v : fl) (line : text) : G (option text) :=
  let n := int_of v in
  if (n =? 2) || (n =? 30) then line_is line finish_program
  else if n =? 17 then line_is line (tell (EMotors true))
  else if (n =? 18) || (n =? 84) then line_is line (tell (EMotors false))
  else if n =? 24 then line_is line (tell EWaitStart)
  else if n =? 82 then line_is line (upd (fun s => with_abs s (set_axis (g_abs s) AE true) (g_abs_g90 s)))
  else if n =? 83 then line_is line (upd (fun s => with_abs s (set_axis (g_abs s) AE false) (g_abs_g90 s)))
  else if n =? 104 then set_param "S" ETemperature f1 line
  else if n =? 106 then set_param "S" EFan f1 line
  else if n =? 107 then line_is line (tell (EFan f0))
  else if n =? 109 then l <- set_param "S" ETemperature f1 line ;; tell EWaitTemperature ;;; ret l
  else if n =? 116 then line_is line (tell EWaitTemperature)
  else if n =? 111 then handle_M111 line
  else if n =? 220 then set_param "S" ESpeedFactor (f32_div f1 (f32_of_Z 100)) line
  else if n =? 500 then line_is line (tell ESave)
  else if n =? 501 then
    r <- emit ELoad ;;
    line_is line (upd (fun s => with_params s (match g_params s with None => None | Some m => Some (r_load r m) end)))
  else unprocessed "M" v line.

(** gcode-parser.cc:1954-1978 *)
Definition run_command (letter : ascii) (v : fl) (line : text) (last_spline : bool) : G (option text) :=
  if Ascii.eqb letter "G" then l <- run_G v line last_spline ;; tell (ECommandDone letter v) ;;; ret l
  else if Ascii.eqb letter "M" then l <- run_M v line ;; tell (ECommandDone letter v) ;;; ret l
  else if Ascii.eqb letter "F" then
    e <- get (fun s => EMove true (feedrate_of (f32_mul v (g_unit s))) (g_pos s)) ;;
    tell e ;;; tell (ECommandDone letter v) ;;; ret (Some line)
  else if Ascii.eqb letter "N" then ret (Some line)
  else
    match letter_axis letter with
    | None => l <- unprocessed letter v line ;; tell (ECommandDone letter v) ;;; ret l
    | Some a =>
        upd (fun s => with_pos s (set_axis (g_pos s) a (abs_axis_pos a v s))) ;;;
        l <- handle_move line true ;;
        modal <- get g_modal ;;
        tell (ECommandDone "G" (truth modal)) ;;; ret l
    end.
End Commands.

(** gcode-parser.cc:1870-1979 the loop of ParseBlock *)
Fixpoint block_loop (fuel : nat) (gp : text -> G (option (ascii * fl * text))) (line : option text) {struct fuel} : G unit :=
  match fuel with
  | O => out
  | S f =>
      match line with
      | None => ret tt
      | Some line =>
          p <- gp line ;;
          match p with
          | None => ret tt
          | Some (letter, v, line) =>
              running <- get g_running ;;
              when (negb running) (it <- get g_iterating ;; tell (EStart (negb it)) ;;; upd (fun s => with_running s true)) ;;;
              last_spline <- get g_first_spline ;;
              upd (fun s => with_first s false) ;;;
              l <- run_command f gp letter v line last_spline ;;
              block_loop f gp l
          end
      end
  end.

(** gcode-parser.cc:1860-1982 ParseBlock; within a WHILE loop it calls itself *)
Fixpoint parse_block (fuel : nat) (line : text) {struct fuel} : G unit :=
  match fuel with
  | O => out
  | S f => block_loop f (parse_pair f (parse_block f)) (Some line) ;;; tell EBlockDone
  end.

(** gcode-parser.cc:1991-2005 ReadFile, the lines as fgets() delivers them *)
Definition read_file (fuel : nat) (lines : list text) : G unit :=
  each (parse_block fuel) lines ;;; tell (EFinished true).
End Parser.
