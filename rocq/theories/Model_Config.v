(** Model of src/config-parser.cc and of the machine configuration reader in
    src/machine-control-config.cc. Not modelled: reading the file
    (SetContentFromFile 101-107), texts of error messages. *)
From Coq Require Import SpecFloat.
From Verif Require Import Text Model_StringUtil Model_Axis Model_Float Model_Hardware Model_Machine.

(** config-parser.cc:116-139 NextLine, the loop. [cur] are the characters between
    [start] and [endline], [result] the line if its end has been seen. The value is
    the line and the rest of the source; the caller has made sure that there is a
    character (118). *)
Fixpoint next_line_loop (cur : text) (result : option text) (s : text) : text * text :=
  match s with
  | [] => (cur, [])           (* 135-138: everything is the line *)
  | c :: r =>
      let result :=
        match result with
        | Some l => Some l
        | None => if Ascii.eqb c "#" || Ascii.eqb c CR || Ascii.eqb c LF then Some cur else None
        end in
      if Ascii.eqb c LF then (match result with Some l => l | None => cur end, r)
      else next_line_loop (cur ++ [c]) result r
  end.

(** [None] is the line whose data() is NULL. *)
Definition next_line (source : text) : option (text * text) :=
  match source with [] => None | _ => Some (next_line_loop [] None source) end.

(** config-parser.cc:141-143 CanonicalizeName *)
Definition canonicalize_name (s : text) : text := to_lower_text (trim_whitespace s).

(** The text before and after the first [c]; [None] if there is none (std::find). *)
Fixpoint cut_at (c : ascii) (s : text) : option (text * text) :=
  match s with
  | [] => None
  | x :: r =>
      if Ascii.eqb x c then Some ([], r)
      else match cut_at c r with Some (a, b) => Some (x :: a, b) | None => None end
  end.

(** config-parser.h:43-63 Reader: what it is told, and its answers. It has a state
    of any type. *)
Record reader (R : Type) := mk_reader {
  rd_section : R -> Z -> text -> R * bool;
  rd_pair : R -> Z -> text -> text -> R * bool;
  rd_error : R -> Z -> R
}.
Arguments rd_section {R}. Arguments rd_pair {R}. Arguments rd_error {R}.

(** config-parser.cc:146-151: the local variables of EmitConfigValues (the section
    name is only used in messages). *)
Record emit_state (R : Type) := mk_emit { em_reader : R; em_success : bool; em_interested : bool }.
Arguments mk_emit {R}. Arguments em_reader {R}. Arguments em_success {R}. Arguments em_interested {R}.

(** config-parser.cc:154-193: one line *)
Definition emit_line {R} (rd : reader R) (line_no : Z) (line : text) (st : emit_state R) : emit_state R :=
  let line := trim_whitespace line in
  match line with
  | [] => st
  | c :: rest =>
      if Ascii.eqb c "[" then
        if negb (Ascii.eqb (last line NUL) "]") then
          mk_emit (rd_error rd (em_reader st) line_no) false false
        else
          let section := canonicalize_name (firstn (length line - 2) rest) in
          let '(r, interested) := rd_section rd (em_reader st) line_no section in
          mk_emit r (em_success st) interested
      else
        match cut_at "=" line with
        | None => mk_emit (rd_error rd (em_reader st) line_no) false (em_interested st)
        | Some (name, value) =>
            if em_interested st then
              let '(r, could_parse) :=
                rd_pair rd (em_reader st) line_no (canonicalize_name name) (trim_whitespace value) in
              let r := if could_parse : bool then r else rd_error rd r line_no in
              mk_emit r (em_success st && could_parse) true
            else st
        end
  end.

(** config-parser.cc:152-194: the loop; every round takes at least one character,
    so [fuel] is the length of the text. *)
Fixpoint emit_loop {R} (rd : reader R) (fuel : nat) (line_no : Z) (source : text) (st : emit_state R)
  : emit_state R :=
  match fuel with
  | O => st
  | S f =>
      match next_line source with
      | None => st
      | Some (line, rest) => emit_loop rd f (line_no + 1) rest (emit_line rd (line_no + 1) line st)
      end
  end.

(** config-parser.cc:145-196 EmitConfigValues: the reader afterwards and the result *)
Definition emit_config_values {R} (rd : reader R) (content : text) (r : R) : R * bool :=
  let st := emit_loop rd (S (length content)) 0 content (mk_emit r true false) in
  (em_reader st, em_success st).

(** ** Values *)
Section Values.
(** strtod(): the value and the text from the end pointer on; [None] if the end
    pointer is the start. *)
Variable strtod : text -> option (fl * text).

(** config-parser.cc:37-72 ParseDoubleExpression: the value and the text at [*end].
    Both the loop and the recursion consume characters; [None] is out of fuel. *)
Fixpoint parse_double (fuel : nat) (input : text) (fallback : fl) {struct fuel} : option (fl * text) :=
  match fuel with
  | O => None
  | S f =>
      match strtod input with
      | None => Some (fallback, input)
      | Some (value, rest) => parse_factors f value rest fallback
      end
  end
with parse_factors (fuel : nat) (value : fl) (s : text) (fallback : fl) {struct fuel} : option (fl * text) :=
  match fuel with
  | O => None
  | S f =>
      match skip_spaces s with
      | [] => Some (value, [])
      | op :: r =>
          if negb (Ascii.eqb op "/" || Ascii.eqb op "*") then Some (value, op :: r)
          else
            let apply (x : fl) := if Ascii.eqb op "/" then f64_div value x else f64_mul value x in
            let input := skip_spaces r in
            let number :=
              match strtod input with
              | None => Some (fallback, input)
              | Some (operand, rest) => parse_factors f (apply operand) rest fallback
              end in
            match input with
            | p :: inner =>
                if Ascii.eqb p "(" then
                  match parse_double f inner (f64_of_Z 1) with
                  | None => None
                  | Some (operand, q :: rest) =>
                      if Ascii.eqb q ")" then parse_factors f (apply operand) rest fallback
                      else Some (fallback, q :: rest)
                  | Some (operand, []) => Some (fallback, [])
                  end
                else number
            | [] => number
            end
      end
  end.

(** config-parser.cc:100-112 ParseFloatExpr: the value stored (if any) and the result *)
Definition parse_float_expr (value : text) : option fl * bool :=
  let s := cstr value in
  match parse_double (S (S (2 * length s))) s (f64_of_Z 1) with
  | Some (eval, []) => let r := f32_of_f64 eval in (Some r, negb (SFltb r (f32_of_Z 0)))
  | _ => (None, false)
  end.

(** config-parser.cc:84-98 ParseInt, ParseBool *)
Definition parse_int (value : text) : option Z :=
  match convert_strto32 value with Some (v, _) => Some v | None => None end.
Definition parse_bool (value : text) : option bool :=
  if text_eqb value (txt "1") || text_eqb value (txt "yes") || text_eqb value (txt "true") then Some true
  else if text_eqb value (txt "0") || text_eqb value (txt "no") || text_eqb value (txt "false") then Some false
  else None.

(** ** machine-control-config.cc: the fields set from the configuration file *)
Record mconf := mk_mconf {
  mc_steps : axis -> fl; mc_feed : axis -> fl; mc_homefeed : axis -> fl; mc_probefeed : axis -> fl;
  mc_accel : axis -> fl; mc_range : axis -> fl; mc_home : axis -> trigger;
  mc_home_order : text; mc_require_homing : bool; mc_range_check : bool; mc_clamp : text;
  mc_synchronous : bool; mc_enable_pause : bool;
  mc_auto_motor : Z; mc_auto_fan : Z; mc_auto_fan_pwm : Z
}.

(** machine-control-config.cc:34-49; the registers are zero (container.h:38) *)
Definition mconf_init : mconf :=
  mk_mconf (fun _ => fzero) (fun _ => fzero) (fun _ => fzero) (fun _ => fzero) (fun _ => fzero) (fun _ => fzero)
    (fun _ => TrigNone) (txt "ZXY") true true [] false false (-1) (-1) 0.

(** machine-control-config.cc:54-57, 141-143: the reader: configuration, current
    section and axis *)
Record mreader := mk_mreader { mr_conf : mconf; mr_section : text; mr_axis : option axis }.

(** machine-control-config.cc:58-71 SeenSection *)
Definition mc_seen_section (r : mreader) (name : text) : mreader * bool :=
  if text_eqb name (txt "general") then (mk_mreader (mr_conf r) name (mr_axis r), true)
  else
    match name with
    | [] => (mk_mreader (mr_conf r) name None, false)
    | c :: rest =>
        match letter_axis c with
        | Some a => if text_eqb rest (txt "-axis") then (mk_mreader (mr_conf r) name (Some a), true)
                    else (mk_mreader (mr_conf r) name None, false)
        | None => (mk_mreader (mr_conf r) name None, false)
        end
    end.

Definition with_general c ho rh rc cl sy ep am af ap :=
  mk_mconf (mc_steps c) (mc_feed c) (mc_homefeed c) (mc_probefeed c) (mc_accel c) (mc_range c) (mc_home c)
    ho rh rc cl sy ep am af ap.
Definition with_axes c st fe hf pf ac ra ho :=
  mk_mconf st fe hf pf ac ra ho (mc_home_order c) (mc_require_homing c) (mc_range_check c) (mc_clamp c)
    (mc_synchronous c) (mc_enable_pause c) (mc_auto_motor c) (mc_auto_fan c) (mc_auto_fan_pwm c).

(** machine-control-config.cc:84-97, section "general" *)
Definition mc_general (c : mconf) (name value : text) : mconf * bool :=
  let is n := text_eqb name n in
  let bool_field (f : bool -> mconf) := match parse_bool value with Some b => (f b, true) | None => (c, false) end in
  let int_field (f : Z -> mconf) := match parse_int value with Some z => (f z, true) | None => (c, false) end in
  if is (txt "home-order") then
    (with_general c value (mc_require_homing c) (mc_range_check c) (mc_clamp c) (mc_synchronous c) (mc_enable_pause c) (mc_auto_motor c) (mc_auto_fan c) (mc_auto_fan_pwm c), true)
  else if is (txt "require-homing") then bool_field (fun b =>
    with_general c (mc_home_order c) b (mc_range_check c) (mc_clamp c) (mc_synchronous c) (mc_enable_pause c) (mc_auto_motor c) (mc_auto_fan c) (mc_auto_fan_pwm c))
  else if is (txt "range-check") then bool_field (fun b =>
    with_general c (mc_home_order c) (mc_require_homing c) b (mc_clamp c) (mc_synchronous c) (mc_enable_pause c) (mc_auto_motor c) (mc_auto_fan c) (mc_auto_fan_pwm c))
  else if is (txt "clamp-to-range") then
    (with_general c (mc_home_order c) (mc_require_homing c) (mc_range_check c) value (mc_synchronous c) (mc_enable_pause c) (mc_auto_motor c) (mc_auto_fan c) (mc_auto_fan_pwm c), true)
  else if is (txt "synchronous") then bool_field (fun b =>
    with_general c (mc_home_order c) (mc_require_homing c) (mc_range_check c) (mc_clamp c) b (mc_enable_pause c) (mc_auto_motor c) (mc_auto_fan c) (mc_auto_fan_pwm c))
  else if is (txt "enable-pause") then bool_field (fun b =>
    with_general c (mc_home_order c) (mc_require_homing c) (mc_range_check c) (mc_clamp c) (mc_synchronous c) b (mc_auto_motor c) (mc_auto_fan c) (mc_auto_fan_pwm c))
  else if is (txt "auto-motor-disable-seconds") then int_field (fun z =>
    with_general c (mc_home_order c) (mc_require_homing c) (mc_range_check c) (mc_clamp c) (mc_synchronous c) (mc_enable_pause c) z (mc_auto_fan c) (mc_auto_fan_pwm c))
  else if is (txt "auto-fan-disable-seconds") then int_field (fun z =>
    with_general c (mc_home_order c) (mc_require_homing c) (mc_range_check c) (mc_clamp c) (mc_synchronous c) (mc_enable_pause c) (mc_auto_motor c) z (mc_auto_fan_pwm c))
  else if is (txt "auto-fan-pwm") then int_field (fun z =>
    with_general c (mc_home_order c) (mc_require_homing c) (mc_range_check c) (mc_clamp c) (mc_synchronous c) (mc_enable_pause c) (mc_auto_motor c) (mc_auto_fan c) z)
  else (c, false).

(** machine-control-config.cc:124-147 SetHomePos *)
Definition mc_home_pos (c : mconf) (a : axis) (value : text) : mconf * bool :=
  match mc_home c a with
  | TrigNone =>
      let set t := (with_axes c (mc_steps c) (mc_feed c) (mc_homefeed c) (mc_probefeed c) (mc_accel c) (mc_range c) (set_axis (mc_home c) a t), true) in
      let choice := to_lower_text value in
      if text_eqb choice (txt "min") then set TrigMin
      else if text_eqb choice (txt "max") then set TrigMax
      else (c, false)
  | _ => (c, false)
  end.

(** machine-control-config.cc:99-117, section of axis [a]. A negative value is
    stored although it is refused (config-parser.cc:104-108). *)
Definition mc_axis_setting (c : mconf) (a : axis) (name value : text) : mconf * bool :=
  let is n := text_eqb name n in
  let expr (old : axis -> fl) (f : (axis -> fl) -> mconf) :=
    match parse_float_expr value with
    | (Some v, ok) => (f (set_axis old a v), ok)
    | (None, ok) => (c, ok)
    end in
  if is (txt "steps-per-mm") || is (txt "steps-per-degree") then expr (mc_steps c) (fun r =>
    with_axes c r (mc_feed c) (mc_homefeed c) (mc_probefeed c) (mc_accel c) (mc_range c) (mc_home c))
  else if is (txt "max-feedrate") || is (txt "max-anglerate") then expr (mc_feed c) (fun r =>
    with_axes c (mc_steps c) r (mc_homefeed c) (mc_probefeed c) (mc_accel c) (mc_range c) (mc_home c))
  else if is (txt "home-feedrate") then expr (mc_homefeed c) (fun r =>
    with_axes c (mc_steps c) (mc_feed c) r (mc_probefeed c) (mc_accel c) (mc_range c) (mc_home c))
  else if is (txt "max-probe-feedrate") then expr (mc_probefeed c) (fun r =>
    with_axes c (mc_steps c) (mc_feed c) (mc_homefeed c) r (mc_accel c) (mc_range c) (mc_home c))
  else if is (txt "max-acceleration") then expr (mc_accel c) (fun r =>
    with_axes c (mc_steps c) (mc_feed c) (mc_homefeed c) (mc_probefeed c) r (mc_range c) (mc_home c))
  else if is (txt "range") then expr (mc_range c) (fun r =>
    with_axes c (mc_steps c) (mc_feed c) (mc_homefeed c) (mc_probefeed c) (mc_accel c) r (mc_home c))
  else if is (txt "home-pos") then mc_home_pos c a value
  else (c, false).

(** machine-control-config.cc:73-121 SeenNameValue *)
Definition mc_seen_pair (r : mreader) (name value : text) : mreader * bool :=
  let back (x : mconf * bool) := (mk_mreader (fst x) (mr_section r) (mr_axis r), snd x) in
  if text_eqb (mr_section r) (txt "general") then back (mc_general (mr_conf r) name value)
  else
    match mr_axis r with
    | Some a => back (mc_axis_setting (mr_conf r) a name value)
    | None => (r, false)
    end.

Definition mc_reader : reader mreader :=
  mk_reader _ (fun r _ s => mc_seen_section r s) (fun r _ n v => mc_seen_pair r n v) (fun r _ => r).

(** machine-control-config.cc:150-153 ConfigureFromFile; current_axis_ is
    uninitialised (141) until the first section is seen. *)
Definition configure_from_file (content : text) (c : mconf) (garbage : option axis) : mconf * bool :=
  let '(r, ok) := emit_config_values mc_reader content (mk_mreader c [] garbage) in (mr_conf r, ok).
End Values.

(** hardware-mapping.cc:373-424, 550-554: the hardware mapping's reader *)
Definition hw_reader (c : cape) : reader (hw * text) :=
  mk_reader _ (fun r _ s => ((fst r, s), hw_section s))
    (fun r _ n v => let '(ok, h) := hw_name_value c (snd r) n v (fst r) in ((h, snd r), ok))
    (fun r _ => r).

Definition hw_configure (c : cape) (content : text) (h : hw) : hw * bool :=
  let '(r, ok) := emit_config_values (hw_reader c) content (h, []) in (fst r, ok).
