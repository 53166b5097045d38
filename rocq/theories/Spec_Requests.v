(** Specification: commands that pass a request on to the machine, and probing. *)
From Coq Require Import SpecFloat.
From Verif Require Import Base Text Model_Float Model_Axis Model_Gcode Spec_Words Spec_Moves.

(** What the receiver is asked by the M commands without parameters. *)
Definition requests : list (Z * event) :=
  [(17, EMotors true); (18, EMotors false); (84, EMotors false); (24, EWaitStart); (107, EFan (f32_of_Z 0));
   (116, EWaitTemperature); (500, ESave)].

(** Commands with a parameter: letter and number of the command, letter of the parameter,
    what is asked with its value, and what is asked in any case afterwards. *)
Definition with_parameter : list (ascii * Z * ascii * (fl -> event) * list event) :=
  [("G"%char, 4, "P"%char, fun v => EDwell (f32_mul (f32_of_Z 1) v), []);
   ("M"%char, 104, "S"%char, fun v => ETemperature (f32_mul (f32_of_Z 1) v), []);
   ("M"%char, 106, "S"%char, fun v => EFan (f32_mul (f32_of_Z 1) v), []);
   ("M"%char, 109, "S"%char, fun v => ETemperature (f32_mul (f32_of_Z 1) v), [EWaitTemperature]);
   ("M"%char, 220, "S"%char, fun v => ESpeedFactor (f32_mul (f32_div (f32_of_Z 1) (f32_of_Z 100)) v), [])].

(** The commands the parser knows. *)
Definition known_G : list Z := [0; 1; 2; 3; 4; 5; 10; 17; 18; 19; 20; 21; 28; 30; 50; 51; 54; 55; 56; 57; 58; 59; 70; 71; 90; 91; 92].
Definition known_M : list Z := [2; 17; 18; 24; 30; 82; 83; 84; 104; 106; 107; 109; 111; 116; 220; 500; 501].
Definition foreign (c : gcfg) (letter : ascii) (v : fl) : Prop :=
  (letter = "G"%char /\ ~ In (int_of c v) known_G) \/ (letter = "M"%char /\ ~ In (int_of c v) known_M) \/
  (~ In letter ["G"; "M"; "F"; "N"]%char /\ is_axis_letter letter = false).

(** Probing: F is the speed in units per minute, Z the thickness of the probe in units. *)
Definition probe_letter (l : ascii) : bool := Ascii.eqb l "F" || Ascii.eqb l "Z".
Definition thickness (s : gst) (ws : list (ascii * fl)) : fl :=
  match last_value "Z" ws with Some v => f32_mul v (g_unit s) | None => f32_of_Z 0 end.
(** The position with another Z. *)
Definition at_height (p : axes) (z : fl) : axes := fun a => match a with AZ => z | _ => p a end.
