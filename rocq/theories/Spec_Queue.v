(** Specification of the motion queue: what an observer of the firmware's outputs
    and of the host's calls should see. *)
From Verif Require Import Base Model_MotorOps Model_Pru Model_PruQueue.

(** The outputs of the firmware when it executes a segment from start to end, or
    the halt if it is the exit element. *)
Definition seg_events (s : motion_segment) : list qevent :=
  if ms_state s =? STATE_EXIT then [EvHalt]
  else
    match pru_execute s with
    | Some passes =>
        [EvDirections (ms_direction_bits s); EvAux (ms_aux s)] ++
        map (fun l => EvPass (map (pl_pins l) all_motors) (pl_delay l)) passes ++ [EvDone]
    | None => []
    end.

(** A segment executed to its end, or stopped somewhere before its end. *)
Definition seg_run (s : motion_segment) (evs : list qevent) : Prop :=
  evs = seg_events s \/
  exists pre post, seg_events s = pre ++ post /\ post <> [] /\ evs = pre ++ [EvAborted].

(** Segments accepted by Enqueue, in order. *)
Fixpoint accepted (l : list qevent) : list motion_segment :=
  match l with
  | [] => []
  | EvAccepted s :: r => s :: accepted r
  | _ :: r => accepted r
  end.

Definition is_firmware (e : qevent) : bool :=
  match e with
  | EvDirections _ | EvAux _ | EvPass _ _ | EvDone | EvAborted | EvHalt => true
  | _ => false
  end.
(** The firmware's outputs, in order. *)
Definition outputs (l : list qevent) : list qevent := filter is_firmware l.

Definition is_end (e : qevent) : bool :=
  match e with EvDone | EvAborted | EvHalt => true | _ => false end.
Definition is_aborted (e : qevent) : bool := match e with EvAborted => true | _ => false end.
Definition is_refused (e : qevent) : bool := match e with EvRefused => true | _ => false end.
Definition count (f : qevent -> bool) (l : list qevent) : Z := Z.of_nat (length (filter f l)).
(** Number of segments the firmware is through with. *)
Definition completed (l : list qevent) : Z := count is_end l.

(** A segment as the host may enqueue it: values fit their fields, the state is
    neither EMPTY (asserted in Enqueue) nor ABORT. *)
Definition seg_ok (s : motion_segment) : Prop :=
  0 < ms_state s < 256 /\ ms_state s <> STATE_ABORT /\ 0 <= ms_direction_bits s < 256 /\
  0 <= ms_loops_accel s < 2 ^ 16 /\ 0 <= ms_loops_travel s < 2 ^ 16 /\ 0 <= ms_loops_decel s < 2 ^ 16 /\
  0 <= ms_aux s < 2 ^ 16 /\
  0 <= ms_accel_series_index s < 2 ^ 32 /\ 0 <= ms_hires_accel_cycles s < 2 ^ 32 /\
  0 <= ms_travel_delay_cycles s < 2 ^ 32 /\ (forall m, 0 <= ms_fractions s m < 2 ^ 32).

Definition act_ok (a : qact) : Prop :=
  match a with Host (OpEnqueue s) => seg_ok s | _ => True end.
Definition no_estop (acts : list qact) : Prop := ~ In (Pru true) acts.

Definition is_pass (e : qevent) : bool := match e with EvPass _ _ => true | _ => false end.
(** How the segments ended, in order. *)
Definition ends (l : list qevent) : list qevent := filter is_end l.
(** All passes of the segment are made: it is not cut short by a stop value. *)
Definition full (s : motion_segment) : Prop :=
  ms_state s = STATE_EXIT \/
  exists ls, pru_execute s = Some ls /\ Z.of_nat (length ls) = total_loops s + 1.

