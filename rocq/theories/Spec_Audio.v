(** Specification: what the WAV file of a simulated run has to sound like. *)
From Coq Require Import String Ascii.
From Verif Require Import Base Model_Float Model_MotorOps Model_Pru.

(** Ticks of 10 ns that the firmware needs in each pass besides its busy loop: while
    accelerating, travelling and decelerating. *)
Definition overheads (s : motion_segment) : list Z :=
  repeat 71 (Z.to_nat (ms_loops_accel s)) ++ repeat 4 (Z.to_nat (ms_loops_travel s)) ++ repeat 72 (Z.to_nat (ms_loops_decel s)).
(** The passes of the firmware for a segment: the pins of the motors and how many ticks they
    stay so. The last pass, which ends the segment, is not heard. *)
Definition heard (s : motion_segment) : list ((motor -> bool) * Z) :=
  match pru_execute s with
  | Some ls => map (fun '(l, o) => (pl_pins l, pl_delay l + o)) (combine ls (overheads s))
  | None => []
  end.

(** All segments but the ones that end the program. *)
Definition played (segs : list motion_segment) : list (list ((motor -> bool) * Z)) := map heard (filter (fun s => negb (ms_state s =? STATE_EXIT)) segs).

(** The moments at which the passes end, in seconds: setting the pins takes 160 ns. *)
Fixpoint pass_ends (t : fl) (l : list ((motor -> bool) * Z)) : list (fl * (motor -> bool)) * fl :=
  let t := f64_add t (f64_div (f64_of_Z 160) (f64_of_Z 1000000000)) in
  match l with
  | [] => ([], t)
  | (pins, ticks) :: r =>
      let t := f64_add t (f64_div (f64_of_Z ticks) (f64_of_Z 100000000)) in
      let '(x, e) := pass_ends t r in ((t, pins) :: x, e)
  end.
Fixpoint run_ends (t : fl) (segs : list (list ((motor -> bool) * Z))) : list (fl * (motor -> bool)) :=
  match segs with [] => [] | l :: r => let '(x, e) := pass_ends t l in x ++ run_ends e r end.

(** The number of whole samples at 44.1 kHz before a moment. *)
Definition samples_before (t : fl) : Z := match fl_trunc (f64_mul t (f64_of_Z 44100)) with Some z => z | None => 0 end.
(** A moment that can be counted: 2^32 samples are 27 hours. *)
Definition countable (t : fl) : Prop := exists z, fl_trunc (f64_mul t (f64_of_Z 44100)) = Some z /\ 0 <= z < 2 ^ 32.
(** The pins while the sample [k] sounds: those of the first pass that ends later. *)
Definition pins_at (k : Z) (ends : list (fl * (motor -> bool))) : option (motor -> bool) :=
  match find (fun e => k <? samples_before (fst e)) ends with Some e => Some (snd e) | None => None end.
(** The number of samples of a run. *)
Definition samples_of (ends : list (fl * (motor -> bool))) : Z := fold_left (fun n e => Z.max n (samples_before (fst e))) ends 0.

(** Numbers in the file, little endian. *)
Definition u32_at (i : nat) (file : list Z) : Z :=
  nth i file 0 + 256 * nth (i + 1) file 0 + 65536 * nth (i + 2) file 0 + 16777216 * nth (i + 3) file 0.
Definition u16_at (i : nat) (file : list Z) : Z := nth i file 0 + 256 * nth (i + 1) file 0.
Definition s16_at (i : nat) (file : list Z) : Z :=
  let z := nth i file 0 + 256 * nth (i + 1) file 0 in if z <? 32768 then z else z - 65536.

(** The header of a WAV file: stereo, 44.1 kHz, samples of 16 bits. *)
Definition letters (w : string) : list Z := map (fun a => Z.of_N (N_of_ascii a)) (list_ascii_of_string w).
Definition word_at (i : nat) (w : string) (file : list Z) : Prop := firstn (String.length w) (skipn i file) = letters w.
Definition wav_format (file : list Z) : Prop :=
  word_at 0 "RIFF" file /\ word_at 8 "WAVE" file /\ word_at 12 "fmt " file /\ word_at 36 "data" file /\
  u32_at 16 file = 16 (* length of the format *) /\ u16_at 20 file = 1 (* PCM *) /\ u16_at 22 file = 2 (* channels *) /\
  u32_at 24 file = 44100 (* samples a second *) /\ u32_at 28 file = 44100 * 4 (* bytes a second *) /\
  u16_at 32 file = 4 (* bytes of a sample *) /\ u16_at 34 file = 16 (* bits of a channel *).

(** A segment that the firmware executes as meant: it fits its registers and no pass needs less
    time than its calculation. *)
Definition playable (s : motion_segment) : Prop :=
  0 <= ms_loops_accel s < 2 ^ 16 /\ 0 <= ms_loops_travel s < 2 ^ 16 /\ 0 <= ms_loops_decel s < 2 ^ 16 /\
  0 <= ms_hires_accel_cycles s < 2 ^ 32 /\ 0 <= ms_travel_delay_cycles s < 2 ^ 32 /\
  exists ls, pru_execute s = Some ls /\ length ls = S (length (overheads s)) /\ Forall (fun '(l, o) => pl_delay l + o < 2 ^ 32) (combine ls (overheads s)).
