(** Model of src/sim-audio-out.cc: the sound of the motors, written as a WAV file.

    Messages are not modelled; the file can always be written to. *)
From Verif Require Import Base Model_Float Model_MotorOps Model_Pru Model_PruQueue Model_Sim.

(** sim-audio-out.cc:33-38 kWavHeader *)
Definition wav_header : list Z :=
  [82; 73; 70; 70; 255; 255; 255; 255; 87; 65; 86;
   69; 102; 109; 116; 32; 16; 0; 0; 0; 1; 0;
   2; 0; 68; 172; 0; 0; 16; 177; 2; 0; 4;
   0; 16; 0; 100; 97; 116; 97; 255; 255; 255; 255].

(** sim-audio-out.cc:75, 84: sim_time, current_sample_; what is in the file behind the header *)
Record audio := mk_audio { au_time : fl; au_current : Z; au_data : list Z }.
(** sim-audio-out.cc:75, 84, 145-146 *)
Definition audio_init : audio := mk_audio (S754_zero false) 0 [].

(** sim-audio-out.cc:62-66: one sample, two little endian int16_t *)
Definition sample_bytes (channel : motor -> bool) : list Z :=
  le16 (u16 (if channel M1 then 16000 else -16000)) ++ le16 (u16 (if channel M2 then 16000 else -16000)).
(** sim-audio-out.cc:67: double to uint32_t, undefined outside of its range *)
Definition target_sample (until : fl) : option Z :=
  match fl_trunc (f64_mul until (f64_of_Z 44100)) with
  | Some z => if (0 <=? z) && (z <? 2 ^ 32) then Some z else None
  | None => None
  end.
(** sim-audio-out.cc:61-71 Update *)
Definition audio_update (channel : motor -> bool) (until : fl) (a : audio) : outcome audio :=
  match target_sample until with
  | None => Undefined
  | Some n => Ok (mk_audio until (Z.max (au_current a) n)
                    (au_data a ++ concat (repeat (sample_bytes channel) (Z.to_nat (n - au_current a)))))
  end.

(** sim-audio-out.cc:108: 160e-9 *)
Definition update_time : fl := f64_div (f64_of_Z 160) (f64_of_Z 1000000000).
(** sim-audio-out.cc:138, motor-interface-constants.h:28 *)
Definition wait_time (delay_loops : Z) : fl := f64_div (f64_of_Z delay_loops) (f64_of_Z 100000000).

(** sim-audio-out.cc:100-141: the loop of Enqueue. The calculation of the delay (110-136) is
    that of sim-firmware.cc, [sim_advance]. The loop needs one round more than the segment has
    loops. *)
Fixpoint audio_loop (fuel : nat) (s : motion_segment) (state : mreg) (t : travel) (a : audio) : outcome audio :=
  match fuel with
  | O => Undefined
  | S f =>
      let state := fun i => u32 (state i + ms_fractions s i) in
      let channel := fun i => negb (Z.land (state i) 2147483648 =? 0) in
      let time := f64_add (au_time a) update_time in
      match sim_advance t with
      | None => Ok (mk_audio time (au_current a) (au_data a))
      | Some (delay_loops, t) =>
          obind (audio_update channel (f64_add time (wait_time delay_loops)) a) (fun a => audio_loop f s state t a)
      end
  end.
(** sim-audio-out.cc:92-143 SimFirmwareAudioQueue::Enqueue *)
Definition audio_enqueue (s : motion_segment) (a : audio) : outcome audio :=
  if ms_state s =? STATE_EXIT then Ok a
  else audio_loop (Z.to_nat (total_loops s + 1)) s (fun _ => 0) (travel_of s) a.
(** The calls of Enqueue for a list of segments; the clock and the motor state are global
    variables (84-85), here those of one run. *)
Fixpoint audio_run (segs : list motion_segment) (a : audio) : outcome audio :=
  match segs with [] => Ok a | s :: r => obind (audio_enqueue s a) (audio_run r) end.

(** sim-audio-out.cc:48-54: fseek(out_, at, SEEK_SET), fwrite(bytes) *)
Definition patch (at_ : nat) (bytes file : list Z) : list Z := firstn at_ file ++ bytes ++ skipn (at_ + length bytes) file.
(** sim-audio-out.cc:42-59: the constructor writes the header, the destructor the two sizes *)
Definition wav_file (a : audio) : list Z :=
  let data_size := u32 (4 * au_current a) in
  patch 4 (le32 (u32 (data_size + 36))) (patch 40 (le32 data_size) (wav_header ++ au_data a)).
