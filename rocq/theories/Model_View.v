(** Model of src/gcode2ps.cc: the picture of the G-code path (GCodePrintVisualizer), its two
    passes and the range of the picture.

    The options that no flag of the command line sets are as in 84-91 (the machine origin is
    included, the bounding box of the machine is not). Not modelled: titles, frame, grid,
    measures, the help lines of arcs and splines, line widths, vertices for ThreeJS, the machine
    path; the projection of the points (in PostScript). *)
From Coq Require Import SpecFloat.
From Verif Require Import Base Model_Float Model_Axis Model_Gcode Model_Spindle.

(** gcode-parser.h EventReceiver: what a picture is made of. An arc or a spline comes as
    moves (gcode2ps.cc:742-763). *)
Inductive viz_event :=
  | VStart | VFinished (end_of_stream : bool) | VHome (which : axis -> bool)
  | VMove (rapid : bool) (pos : axes) | VSpindle (value : fl).
(** gcode2ps.cc:400-411, 458-467: what is written, without line widths *)
Inductive ink := Style (rapid : bool) | Gray (value : fl).
Inductive device_op := MoveTo (pos : axes) | LineTo (pos : axes) | Color (i : ink) | Stroke.
(** gcode2ps.cc:647 ProcessingStep *)
Inductive viz_pass := PassInit | PassPreprocess | PassOutput.

Record viz_config := { vc_origin : axes; vc_laser : bool }.
(** gcode2ps.cc:112-154, 816-836 *)
Record viz := mk_viz {
  vz_min : axes; vz_max : axes; vz_rapid : bool;
  vz_intensity : fl; vz_last_intensity : fl; vz_laser_min : fl; vz_laser_max : fl }.
Definition million : Z := 1000000.
Definition viz_init : viz :=
  mk_viz (fun _ => f32_of_Z million) (fun _ => f32_of_Z (- million)) false
         (f32_of_Z 1) (f32_of_Z 1) (f32_of_Z million) (f32_of_Z (- million)).

Definition with_range (z : viz) (mn mx : axes) : viz :=
  mk_viz mn mx (vz_rapid z) (vz_intensity z) (vz_last_intensity z) (vz_laser_min z) (vz_laser_max z).
(** gcode2ps.cc:120-127 AxesRange::Update; X, Y and Z are of interest *)
Definition range_update (p : axes) (z : viz) : viz :=
  with_range z (fun a => fl_min (p a) (vz_min z a)) (fun a => fl_max (p a) (vz_max z a)).
(** gcode2ps.cc:129-133 ZeroUnusedAxes *)
Definition zero_unused (z : viz) : viz :=
  with_range z (fun a => if SFltb (vz_max z a) (vz_min z a) then f32_of_Z 0 else vz_min z a)
               (fun a => if SFltb (vz_max z a) (vz_min z a) then f32_of_Z 0 else vz_max z a).

(** gcode2ps.cc:712-716 *)
Definition change_style (rapid : bool) (z : viz) : viz * list device_op :=
  if Bool.eqb rapid (vz_rapid z) then (z, [])
  else (mk_viz (vz_min z) (vz_max z) rapid (vz_intensity z) (vz_last_intensity z) (vz_laser_min z) (vz_laser_max z), [Color (Style rapid)]).
(** gcode2ps.cc:718-725 *)
Definition scaled_intensity (z : viz) : fl :=
  f32_div (f32_sub (vz_intensity z) (vz_laser_min z)) (f32_sub (vz_laser_max z) (vz_laser_min z)).
Definition change_intensity (c : viz_config) (z : viz) : viz * list device_op :=
  if vc_laser c && SFltb (vz_laser_min z) (vz_laser_max z) && negb (SFeqb (vz_intensity z) (vz_last_intensity z))
  then (mk_viz (vz_min z) (vz_max z) (vz_rapid z) (vz_intensity z) (vz_intensity z) (vz_laser_min z) (vz_laser_max z),
        [Color (Gray (f32_sub (f32_of_Z 1) (scaled_intensity z)))])
  else (z, []).
(** gcode2ps.cc:703-737 do_move *)
Definition viz_move (c : viz_config) (pass : viz_pass) (rapid : bool) (p : axes) (z : viz) : viz * list device_op :=
  match pass with
  | PassPreprocess => (range_update p z, [])
  | _ =>
      let '(z, o1) := change_style rapid z in
      let '(z, o2) := change_intensity c z in
      (z, o1 ++ o2 ++ [LineTo p])
  end.
(** gcode2ps.cc:670-814: go_home 675-682, change_spindle_speed 765-770, gcode_start 776-797,
    gcode_finished 799-809 *)
Definition viz_step (c : viz_config) (pass : viz_pass) (e : viz_event) (z : viz) : viz * list device_op :=
  match e with
  | VStart => (z, match pass with PassOutput => [MoveTo (vc_origin c)] | _ => [] end)
  | VFinished end_of_stream =>
      (match pass with PassPreprocess => zero_unused z | _ => z end,
       match pass with PassOutput => if end_of_stream then [Stroke] else [] | _ => [] end)
  | VHome _ => (range_update (vc_origin c) z, match pass with PassOutput => [MoveTo (vc_origin c)] | _ => [] end)
  | VMove rapid p => viz_move c pass rapid p z
  | VSpindle v =>
      (mk_viz (vz_min z) (vz_max z) (vz_rapid z) v (vz_last_intensity z) (fl_min v (vz_laser_min z)) (fl_max v (vz_laser_max z)), [])
  end.
Fixpoint viz_run (c : viz_config) (pass : viz_pass) (evs : list viz_event) (z : viz) : viz * list device_op :=
  match evs with
  | [] => (z, [])
  | e :: r => let '(z, o) := viz_step c pass e z in let '(z, o') := viz_run c pass r z in (z, o ++ o')
  end.
(** gcode2ps.cc:1140-1156 Reset: of its lines the picture is told of G28 and M02 *)
Definition reset_events : list viz_event := [VStart; VHome (fun _ => true); VFinished false].
(** gcode2ps.cc:1365-1378, 1452-1456: the first pass finds the range of the picture, the second
    draws it *)
Definition picture (c : viz_config) (evs : list viz_event) : viz * list device_op :=
  let z := fst (viz_run c PassPreprocess evs viz_init) in
  let z := fst (viz_run c PassInit reset_events z) in
  (z, snd (viz_run c PassOutput evs z)).
