(** Model of src/gcode-parser/arc-gen.cc and of arc_radius_to_center() in gcode-parser.cc.

    The mathematical library is a parameter. Log messages are not modelled. *)
From Coq Require Import SpecFloat.
From Verif Require Import Base Model_Float Model_Axis Model_Gcode.

(** atan2f, hypotf, cosf, sinf, asinf; the conversion of a float to int outside of its range,
    which is undefined in C++: some int. *)
Record libm := mk_libm {
  m_atan2 : fl -> fl -> fl; m_hypot : fl -> fl -> fl; m_cos : fl -> fl; m_sin : fl -> fl; m_asin : fl -> fl; m_int : fl -> Z }.

(** (int)floorf(x) *)
Definition fl_floor (x : fl) : option Z :=
  match x with
  | S754_zero _ => Some 0
  | S754_finite s m e =>
      let z := if s then Zneg m else Zpos m in
      Some (if 0 <=? e then z * 2 ^ e else z / 2 ^ (- e))
  | _ => None
  end.
(** M_PI *)
Definition pi64 : fl := S754_finite false 7074237752028440 (-51).
Definition two_pi64 : fl := f64_mul (f64_of_Z 2) pi64.
Definition decimal64 (n d : Z) : fl := f64_div (f64_of_Z n) (f64_of_Z d).

(** A receiver with the default arc_move() and spline_move(): whether it accepts the last of
    the coordinated moves it was asked for, the latest first. *)
Definition moves := list (fl * axes).
Section Arc.
Variable m : libm.
Variable answer : moves -> bool.
Variable feed : fl.

Definition segment_output (pos : axes) (h : moves) : bool * moves := let h := (feed, pos) :: h in (answer h, h).

(** arc-gen.cc:53-73 *)
Definition plane (normal : axis) : option (axis * axis * axis) :=
  match normal with
  | AZ => Some (AX, AY, AZ)
  | AX => Some (AY, AZ, AX)
  | AY => Some (AX, AZ, AY)
  | _ => None
  end.
(** arc-gen.cc:43, 121-124: AllAxesFromA *)
Definition is_other (a : axis) : bool := negb (is_linear_axis a).

(** arc-gen.cc:126-144: the loop from [i], [n] rounds; the position is a local variable *)
Fixpoint arc_loop (n : nat) (i : Z) (p0 p1 p2 : axis) (o0 o1 c0 c1 theta linear : fl) (other : axes) (pos : axes) (h : moves) : bool * moves :=
  match n with
  | O => (true, h)
  | S n =>
      let cos_Ti := m_cos m (f32_mul (f32_of_Z i) theta) in
      let sin_Ti := m_sin m (f32_mul (f32_of_Z i) theta) in
      let r0 := f32_add (f32_mul (SFopp o0) cos_Ti) (f32_mul o1 sin_Ti) in
      let r1 := f32_sub (f32_mul (SFopp o0) sin_Ti) (f32_mul o1 cos_Ti) in
      let pos := set_axis pos p0 (f32_add c0 r0) in
      let pos := set_axis pos p1 (f32_add c1 r1) in
      let pos := set_axis pos p2 (f32_add (pos p2) linear) in
      let pos := fun a => if is_other a then f32_add (pos a) (other a) else pos a in
      let '(ok, h) := segment_output pos h in
      if ok then arc_loop n (i + 1) p0 p1 p2 o0 o1 c0 c1 theta linear other pos h else (false, h)
  end.

(** arc-gen.cc:98-105: angle from the start to the end *)
Definition angular_travel (is_cw : bool) (r0 r1 rt0 rt1 : fl) : fl :=
  let a := m_atan2 m (f32_sub (f32_mul r0 rt1) (f32_mul r1 rt0)) (f32_add (f32_mul r0 rt0) (f32_mul r1 rt1)) in
  if is_cw then if SFleb f0 a then f32_of_f64 (f64_sub (f64_of_f32 a) two_pi64) else a
  else if SFleb a f0 then f32_of_f64 (f64_add (f64_of_f32 a) two_pi64) else a.
(** arc-gen.cc:115 *)
Definition segments_of (mm : fl) : Z :=
  let x := f32_of_f64 (f64_div (f64_of_f32 mm) (decimal64 1 10)) in
  match to_int (fl_floor x) with Some z => z | None => Z.max (- 2 ^ 31) (Z.min (m_int m x) (2 ^ 31 - 1)) end.

(** arc-gen.cc:46-150 arc_gen *)
Definition arc_gen (normal : axis) (is_cw : bool) (position center target : axes) (h : moves) : bool * moves :=
  match plane normal with
  | None => (true, h)
  | Some (p0, p1, p2) =>
      let offset a := f32_sub (center a) (position a) in
      let radius := f32_sqrt (f32_add (f32_mul (offset p0) (offset p0)) (f32_mul (offset p1) (offset p1))) in
      let c0 := f32_add (position p0) (offset p0) in
      let c1 := f32_add (position p1) (offset p1) in
      let linear_travel := f32_sub (target p2) (position p2) in
      let rt0 := f32_sub (target p0) c0 in
      let rt1 := f32_sub (target p1) c1 in
      let ang := angular_travel is_cw (SFopp (offset p0)) (SFopp (offset p1)) rt0 rt1 in
      let mm := m_hypot m (f32_mul ang radius) (SFabs linear_travel) in
      if SFltb (f64_of_f32 mm) (decimal64 1 100000) then (true, h)
      else
        let n := segments_of mm in
        let theta := f32_div ang (f32_of_Z n) in
        let linear := f32_div linear_travel (f32_of_Z n) in
        let other a := f32_div (f32_sub (target a) (position a)) (f32_of_Z n) in
        let '(ok, h) := arc_loop (Z.to_nat (n - 1)) 1 p0 p1 p2 (offset p0) (offset p1) c0 c1 theta linear other position h in
        if ok then segment_output target h else (false, h)
  end.

(** arc-gen.cc:152-175 calc_bezier_point *)
Definition bezier_coord (t p0 p1 p2 p3 : fl) : fl :=
  let u := f32_sub f1 t in
  let uu := f32_mul u u in
  let tt := f32_mul t t in
  let uuu := f32_mul uu u in
  let ttt := f32_mul tt t in
  let x := f32_mul uuu p0 in
  let x := f32_add x (f32_mul (f32_mul (f32_mul (f32_of_Z 3) uu) t) p1) in
  let x := f32_add x (f32_mul (f32_mul (f32_mul (f32_of_Z 3) u) tt) p2) in
  f32_add x (f32_mul ttt p3).
Definition calc_bezier_point (t : fl) (p0 p1 p2 p3 : axes) : axes :=
  set_axis (set_axis p0 AX (bezier_coord t (p0 AX) (p1 AX) (p2 AX) (p3 AX)))
           AY (bezier_coord t (p0 AY) (p1 AY) (p2 AY) (p3 AY)).

(** arc-gen.cc:189-192: the loop; [None]: more than [fuel] rounds *)
Definition hundredth : fl := f32_div f1 (f32_of_Z 100).
Fixpoint spline_loop (fuel : nat) (t : fl) (start cp1 cp2 target : axes) (h : moves) : option (bool * moves) :=
  if SFltb t f1 then
    match fuel with
    | O => None
    | S f =>
        let '(ok, h) := segment_output (calc_bezier_point t start cp1 cp2 target) h in
        if ok then spline_loop f (f32_add t hundredth) start cp1 cp2 target h else Some (false, h)
    end
  else Some (true, h).
(** arc-gen.cc:177-194 spline_gen *)
Definition spline_gen (fuel : nat) (start cp1 cp2 target : axes) (h : moves) : option (bool * moves) :=
  match spline_loop fuel f0 start cp1 cp2 target h with
  | None => None
  | Some (true, h) => Some (segment_output target h)
  | Some (false, h) => Some (false, h)
  end.

(** arc-gen.cc:196-207 arc_move *)
Definition arc_move (normal : axis) (clockwise : bool) (start center target : axes) (h : moves) : bool * moves :=
  arc_gen normal clockwise start center target h.
(** arc-gen.cc:209-218 spline_move *)
Definition spline_move (fuel : nat) (start cp1 cp2 target : axes) (h : moves) : option (bool * moves) :=
  spline_gen fuel start cp1 cp2 target h.
End Arc.

(** gcode-parser.cc:1483-1512 arc_radius_to_center: the offset from the start to the centre *)
Definition arc_radius_to_center (m : libm) (start1 start2 end1 end2 radius : fl) (is_cw : bool) : option (fl * fl) :=
  if SFeqb end1 start1 && SFeqb end2 start2 then None
  else
    let abs_radius := SFabs radius in
    let mid1 := f32_div (f32_add end1 start1) (f32_of_Z 2) in
    let mid2 := f32_div (f32_add end2 start2) (f32_of_Z 2) in
    let half := m_hypot m (f32_sub mid1 end1) (f32_sub mid2 end2) in
    let ratio := f64_of_f32 (f32_div half abs_radius) in
    if SFltb (f64_add (f64_of_Z 1) (decimal64 1 1000000)) ratio then None
    else
      let half := if SFltb (f64_sub (f64_of_Z 1) (decimal64 1 1000000)) ratio then abs_radius else half in
      let quarter := f64_div pi64 (f64_of_Z 2) in
      let direction := f64_of_f32 (m_atan2 m (f32_sub end2 start2) (f32_sub end1 start1)) in
      let theta := f32_of_f64 (if (is_cw && SFltb f0 radius) || (negb is_cw && SFltb radius f0)
                               then f64_sub direction quarter else f64_add direction quarter) in
      let turn2 := m_asin m (f32_div half abs_radius) in
      let offset := f32_mul abs_radius (m_cos m turn2) in
      Some (f32_sub (f32_add mid1 (f32_mul offset (m_cos m theta))) start1,
            f32_sub (f32_add mid2 (f32_mul offset (m_sin m theta))) start2).
