(** Model of src/determine-print-stats.cc: the coordinate statistics. The times and the
    forwarding to the machine are not modelled. *)
From Coq Require Import SpecFloat.
From Verif Require Import Base Model_Float Model_Spindle.

(** A commanded position; axes other than these are not looked at. *)
Record point := mk_point { pt_x : fl; pt_y : fl; pt_z : fl; pt_e : fl }.

(** determine-print-stats.h:26-33 without the time *)
Record stats := mk_stats {
  st_x_min : fl; st_x_max : fl; st_y_min : fl; st_y_max : fl; st_z_min : fl; st_z_max : fl;
  st_last_z : fl; st_filament : fl }.

(** determine-print-stats.cc:129-132: everything zero, then 1e7 for x_min and (twice)
    y_min *)
Definition stats_init : stats :=
  let zero := f32_of_Z 0 in let big := f32_of_Z 10000000 in
  mk_stats big zero big zero zero zero zero zero.

(** determine-print-stats.cc:86-94 with set_min_max 82-85 *)
Definition update_stats (s : stats) (p : point) : stats :=
  mk_stats (fl_min (pt_x p) (st_x_min s)) (fl_max (pt_x p) (st_x_max s))
           (fl_min (pt_y p) (st_y_min s)) (fl_max (pt_y p) (st_y_max s))
           (fl_min (pt_z p) (st_z_min s)) (fl_max (pt_z p) (st_z_max s))
           (if SFltb (st_filament s) (pt_e p) then pt_z p else st_last_z s)
           (pt_e p).

(** determine-print-stats.cc:68-75: one update for each rapid and coordinated move *)
Definition stats_of (moves : list point) : stats := fold_left update_stats moves stats_init.
