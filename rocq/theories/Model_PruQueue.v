(** Model of the motion queue shared by host and firmware:
    src/pru-motion-queue.cc (host) and the main loop of
    src/motor-interface-pru.p (firmware), as two programs that run interleaved
    over byte-addressed shared memory. One step of either side performs at most
    one access to shared memory. Assumptions: the two header bytes are fetched
    at once, the status word is written and read at once
    (motion-queue.h:83-92 assumes this too), memory accesses happen in program
    order, and AllocateSharedMem returns zeroed memory
    (uio-pruss-interface.cc:70, uio-genirq-interface.cc:166). *)
From Verif Require Import Base Model_MotorOps Model_Pru.

(** motor-interface-constants.h:35 *)
Definition QUEUE_LEN : Z := 16.
(** motor-interface-pru.p:29-30: QUEUE_OFFSET (size of QueueStatus,
    motion-queue.h:87-90), size of QueueHeader and of an element. *)
Definition QUEUE_OFFSET : Z := 4.
Definition HEADER_SIZE : Z := 2.
Definition ELEMENT_SIZE : Z := 54.

(** motion-queue.h:51-77: the packed layout of MotionSegment, little endian *)
Definition le16 (x : Z) : list Z := [x mod 256; x / 256 mod 256].
Definition le32 (x : Z) : list Z := [x mod 256; x / 256 mod 256; x / 65536 mod 256; x / 16777216 mod 256].
Definition encode (s : motion_segment) : list Z :=
  [ms_state s mod 256; ms_direction_bits s mod 256] ++
  le16 (ms_loops_accel s) ++ le16 (ms_loops_travel s) ++ le16 (ms_loops_decel s) ++ le16 (ms_aux s) ++
  le32 (ms_accel_series_index s) ++ le32 (ms_hires_accel_cycles s) ++ le32 (ms_travel_delay_cycles s) ++
  concat (map (fun m => le32 (ms_fractions s m)) all_motors).

Definition byte_at (l : list Z) (i : Z) : Z := nth (Z.to_nat i) l 0.
Definition rd16 (l : list Z) (i : Z) : Z := byte_at l i + 256 * byte_at l (i + 1).
Definition rd32 (l : list Z) (i : Z) : Z :=
  byte_at l i + 256 * byte_at l (i + 1) + 65536 * byte_at l (i + 2) + 16777216 * byte_at l (i + 3).
(** motor-interface-pru.p:34-59, 209-212: registers r7..r19 after loading the 52
    bytes behind the header *)
Definition decode (state dir : Z) (p : list Z) : motion_segment :=
  {| ms_state := state; ms_direction_bits := dir;
     ms_loops_accel := rd16 p 0; ms_loops_travel := rd16 p 2; ms_loops_decel := rd16 p 4;
     ms_aux := rd16 p 6;
     ms_accel_series_index := rd32 p 8; ms_hires_accel_cycles := rd32 p 12;
     ms_travel_delay_cycles := rd32 p 16;
     ms_fractions := fun m => rd32 p (20 + 4 * motor_ix m) |}.

(** What can be observed. *)
Inductive qevent :=
(* host: *)
| EvAccepted (s : motion_segment)             (* Enqueue returns true *)
| EvRefused                                   (* Enqueue returns false *)
| EvEmpty                                     (* WaitQueueEmpty returns *)
| EvPending (n progress : Z)                  (* GetPendingElements returns *)
| EvShutdown (flushed : bool)                 (* Shutdown returns; firmware stopped *)
(* firmware: *)
| EvDirections (bits : Z)                     (* direction outputs set *)
| EvAux (bits : Z)                            (* aux outputs set *)
| EvPass (pins : list bool) (delay : Z)       (* step outputs set, then busy loop *)
| EvDone                                      (* segment finished *)
| EvAborted                                   (* segment aborted by emergency stop *)
| EvHalt.                                     (* firmware halted by exit element *)

(** What the host does after a part of Shutdown: nothing, or go on with it. *)
Inductive host_pc :=
| HIdle
| HEnq (s : motion_segment) (sd : bool)       (* pru-motion-queue.cc:133 *)
| HEnq2 (s : motion_segment) (sd : bool)      (* 134 *)
| HEnqWait (s : motion_segment) (sd : bool)   (* 138 *)
| HClear (sd : bool)                          (* 91-94, 135-136 *)
| HCopy (s : motion_segment) (slot i : Z) (sd : bool) (* 141-142 *)
| HFlip (s : motion_segment) (slot : Z) (sd : bool)   (* 145 *)
| HWait (sd : bool)                           (* 155 *)
| HWait2 (sd : bool)                          (* 156 *)
| HWaitWait (sd : bool)                       (* 159 *)
| HPend (status : Z)                          (* 104 *)
| HOff.                                       (* after Shutdown *)

(** A call of the public interface. *)
Inductive host_op := OpEnqueue (s : motion_segment) | OpWaitEmpty | OpPending | OpShutdown (flush : bool).

Inductive pru_pc :=
| PRead                                       (* motor-interface-pru.p:198-206 *)
| PLoad (state dir : Z) (p : list Z)          (* 209-212 *)
| PInit (s : motion_segment)                  (* 214-232 *)
| PStep (fr ms : mreg) (t : travel)           (* 243-281 *)
| PStore (v : Z)                              (* 285-297 *)
| PFinish                                     (* 299-301 *)
| PHalt.                                      (* 304 *)

Record qsys := mk_qsys {
  q_mem : Z -> Z;           (* ring_buffer, by byte address in PRU DRAM *)
  q_status : Z;             (* status word at address 0 *)
  q_pos : Z;                (* PRUMotionQueue::queue_pos_ *)
  q_host : host_pc;
  q_pru : pru_pc;
  q_r2 : Z; q_r28 : Z;      (* firmware registers *)
  q_log : list qevent       (* ghost: everything observed so far *)
}.

Definition upd (m : Z -> Z) (a v : Z) : Z -> Z := fun x => if x =? a then v else m x.
(** Address of ring_buffer[i] *)
Definition slot_addr (i : Z) : Z := QUEUE_OFFSET + ELEMENT_SIZE * i.
(** pru-motion-queue.cc:85-89 RingbufferOffset, unsigned arithmetic *)
Definition ring_offset (current offset : Z) : Z := u32 (QUEUE_LEN + current + offset) mod QUEUE_LEN.

(** pru-motion-queue.cc:188-202 Init; motor-interface-pru.p:182-191 INIT *)
Definition q_init : qsys :=
  mk_qsys (fun _ => 0) 0 0 HIdle PRead QUEUE_OFFSET 0 [].

Definition with_host (q : qsys) (h : host_pc) (ev : list qevent) : qsys :=
  mk_qsys (q_mem q) (q_status q) (q_pos q) h (q_pru q) (q_r2 q) (q_r28 q) (q_log q ++ ev).

Definition exit_element : motion_segment :=
  {| ms_state := STATE_EXIT; ms_direction_bits := 0; ms_loops_accel := 0; ms_loops_travel := 0;
     ms_loops_decel := 0; ms_aux := 0; ms_accel_series_index := 0; ms_hires_accel_cycles := 0;
     ms_travel_delay_cycles := 0; ms_fractions := fun _ => 0 |}.

(** A call starts. pru-motion-queue.cc:125-132 (Enqueue), 153, 96-102, 167-172
    (Shutdown; without flushing 173 stops the firmware at once). *)
Definition host_start (q : qsys) (op : host_op) : qsys :=
  match op with
  | OpEnqueue s => mk_qsys (q_mem q) (q_status q) (q_pos q mod QUEUE_LEN) (HEnq s false)
                           (q_pru q) (q_r2 q) (q_r28 q) (q_log q)
  | OpWaitEmpty => with_host q (HWait false) []
  | OpPending => with_host q (HPend (q_status q)) []
  | OpShutdown true => mk_qsys (q_mem q) (q_status q) (q_pos q mod QUEUE_LEN) (HEnq exit_element true)
                               (q_pru q) (q_r2 q) (q_r28 q) (q_log q)
  | OpShutdown false => mk_qsys (q_mem q) (q_status q) (q_pos q) HOff PHalt (q_r2 q) (q_r28 q)
                                (q_log q ++ [EvShutdown false])
  end.

(** One host step; [op] is the next call made if the host is idle. *)
Definition host_step (op : host_op) (q : qsys) : qsys :=
  let state i := q_mem q (slot_addr i) in
  let last := ring_offset (q_pos q) (-1) in
  match q_host q with
  | HIdle => host_start q op
  | HEnq s sd =>
      if state (q_pos q) =? STATE_EMPTY then
        (* 141: the slot is taken and queue_pos_ incremented *)
        mk_qsys (q_mem q) (q_status q) (q_pos q + 1) (HCopy s (q_pos q) 0 sd)
                (q_pru q) (q_r2 q) (q_r28 q) (q_log q)
      else with_host q (HEnq2 s sd) []
  | HEnq2 s sd =>
      if state (q_pos q) =? STATE_ABORT then with_host q (HClear sd) [] else with_host q (HEnqWait s sd) []
  | HEnqWait s sd => with_host q (HEnq s sd) []
  | HClear sd =>
      mk_qsys (upd (q_mem q) (slot_addr (q_pos q)) STATE_EMPTY) (q_status q) (q_pos q)
              (if sd then HWait true else HIdle) (q_pru q) (q_r2 q) (q_r28 q) (q_log q ++ [EvRefused])
  | HCopy s slot i sd =>
      if i <? ELEMENT_SIZE then
        (* 115-123; 130: the copy carries STATE_EMPTY *)
        mk_qsys (upd (q_mem q) (slot_addr slot + i) (if i =? 0 then STATE_EMPTY else byte_at (encode s) i))
                (q_status q) (q_pos q) (HCopy s slot (i + 1) sd) (q_pru q) (q_r2 q) (q_r28 q) (q_log q)
      else with_host q (HFlip s slot sd) []
  | HFlip s slot sd =>
      mk_qsys (upd (q_mem q) (slot_addr slot) (ms_state s)) (q_status q) (q_pos q)
              (if sd then HWait true else HIdle) (q_pru q) (q_r2 q) (q_r28 q) (q_log q ++ [EvAccepted s])
  | HWait sd =>
      if state last =? STATE_EMPTY then
        if sd then mk_qsys (q_mem q) (q_status q) (q_pos q) HOff PHalt (q_r2 q) (q_r28 q)
                           (q_log q ++ [EvEmpty; EvShutdown true])
        else with_host q HIdle [EvEmpty]
      else with_host q (HWait2 sd) []
  | HWait2 sd =>
      if state last =? STATE_ABORT then
        if sd then mk_qsys (q_mem q) (q_status q) (q_pos q) HOff PHalt (q_r2 q) (q_r28 q)
                           (q_log q ++ [EvEmpty; EvShutdown true])
        else with_host q HIdle [EvEmpty]
      else with_host q (HWaitWait sd) []
  | HWaitWait sd => with_host q (HWait sd) []
  | HPend st =>
      let counter := st mod 2 ^ 24 in
      let index := st / 2 ^ 24 in
      let n := if state last =? STATE_EMPTY then 0
               else let len := ring_offset (q_pos q) (- index) in
                    if len =? 0 then len + QUEUE_LEN else len in
      with_host q HIdle [EvPending n counter]
  | HOff => q
  end.

Definition with_pru (q : qsys) (p : pru_pc) (ev : list qevent) : qsys :=
  mk_qsys (q_mem q) (q_status q) (q_pos q) (q_host q) p (q_r2 q) (q_r28 q) (q_log q ++ ev).

(** Register r28: bits 0..23 loop counter, byte 3 slot number. *)
Definition low24 (x : Z) : Z := x mod 2 ^ 24.
Definition byte3 (x : Z) : Z := x / 2 ^ 24.

(** One firmware step; [estop] is what CheckForEStop finds if it is asked. *)
Definition pru_step (estop : bool) (q : qsys) : qsys :=
  match q_pru q with
  | PRead =>
      let state := q_mem q (q_r2 q) in
      let dir := q_mem q (q_r2 q + 1) in
      if state =? STATE_EMPTY then q
      else if state =? STATE_ABORT then q
      else if state =? STATE_EXIT then with_pru q PFinish []
      else with_pru q (PLoad state dir []) [EvDirections dir]
  | PLoad state dir p =>
      if Z.of_nat (length p) <? ELEMENT_SIZE - HEADER_SIZE then
        with_pru q (PLoad state dir (p ++ [q_mem q (q_r2 q + HEADER_SIZE + Z.of_nat (length p))])) []
      else with_pru q (PInit (decode state dir p)) [EvAux (ms_aux (decode state dir p))]
  | PInit s =>
      let r28 := u32 (q_r28 q + total_loops s) in
      mk_qsys (q_mem q) r28 (q_pos q) (q_host q) (PStep (ms_fractions s) (fun _ => 0) (travel_of s))
              (q_r2 q) r28 (q_log q)
  | PStep fr ms t =>
      if estop then
        (* 248-252 *)
        let r28 := 2 ^ 24 * byte3 (q_r28 q) in
        mk_qsys (q_mem q) r28 (q_pos q) (q_host q) (PStore STATE_ABORT) (q_r2 q) r28 (q_log q)
      else
        let ms' := fun m => u32 (ms m + fr m) in
        let pins := map (step_pins ms') all_motors in
        let '(delay, t') := calculate_delay t in
        if delay =? 0 then with_pru q (PStore STATE_EMPTY) [EvPass pins 0]
        else
          let r28 := u32 (q_r28 q - 1) in
          let r1 := u32 (delay - 4 / 2) in
          mk_qsys (q_mem q) r28 (q_pos q) (q_host q) (PStep fr ms' t') (q_r2 q) r28
                  (q_log q ++ [EvPass pins (if r1 =? 0 then 2 ^ 32 else r1)])
  | PStore v =>
      let r2 := q_r2 q + ELEMENT_SIZE in
      let r28 := low24 (q_r28 q) + 2 ^ 24 * u8 (byte3 (q_r28 q) + 1) in
      (* 294: QBLT jumps if r2 is below the end of the queue *)
      let wrap := negb (r2 <? QUEUE_LEN * ELEMENT_SIZE) in
      mk_qsys (upd (q_mem q) (q_r2 q) v) (q_status q) (q_pos q) (q_host q) PRead
              (if wrap then QUEUE_OFFSET else r2) (if wrap then 0 else r28)
              (q_log q ++ [if v =? STATE_EMPTY then EvDone else EvAborted])
  | PFinish =>
      mk_qsys (upd (q_mem q) (q_r2 q) STATE_EMPTY) (q_status q) (q_pos q) (q_host q) PHalt
              (q_r2 q) (q_r28 q) (q_log q ++ [EvHalt])
  | PHalt => q
  end.

(** A schedule: which side makes the next step. *)
Inductive qact := Host (op : host_op) | Pru (estop : bool).
Definition q_step (q : qsys) (a : qact) : qsys :=
  match a with Host op => host_step op q | Pru e => pru_step e q end.
Definition q_run (acts : list qact) : qsys := fold_left q_step acts q_init.
