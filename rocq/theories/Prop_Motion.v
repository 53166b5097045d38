(** C30-C36: from requested moves to hardware segments to step pulses. *)
From Verif Require Import Base Model_Float Model_MotorOps Model_Speed Model_Pru Model_Sim Spec_Motion
  Proofs_MotorOps Proofs_Pru Proofs_Position.

(** ** Concrete instances used by the examples *)

(** A backend that accepts everything and has everything pending. *)
Definition accept_all : backend := {|
  b_state := list motion_segment;
  b_enqueue b s := (b ++ [s], true);
  b_pending b := (Z.of_nat (length b), 0) |}.

(** A backend with a fixed capacity that then refuses (abort). *)
Definition accept_n (n : nat) : backend := {|
  b_state := list motion_segment;
  b_enqueue b s := if Nat.ltb (length b) n then (b ++ [s], true) else (b, false);
  b_pending b := (Z.of_nat (length b), 0) |}.

Definition ex_flip (m : motor) : bool := match m with M2 => true | _ => false end.

Definition ex_move (v0 v1 : Z) (a b c : Z) : linear_segment ieee_speed :=
  {| ls_v0 := f32_of_Z v0 : spd ieee_speed; ls_v1 := f32_of_Z v1 : spd ieee_speed; ls_aux := 5;
     ls_steps := fun m => match m with M1 => a | M2 => b | M3 => c | _ => 0 end |}.

Definition ex_result {B} (r : outcome (mops B * bool)) : option (bool * list (Z * Z * Z)) :=
  match r with
  | Ok (st, ok) => Some (ok, map (fun '(s, _) =>
       (seg_motion ex_flip s M1, seg_motion ex_flip s M2, seg_motion ex_flip s M3)) (mo_sent st))
  | Undefined => None
  end.

(** ** C30: splitting keeps every step *)

(** Whatever the speed computations and the backend do: if a move is accepted,
    the segments handed to the backend for it add up to exactly the requested
    steps on every motor. *)
Theorem C30_split_conserves_steps :
  forall (S : speed_model) (B : backend) (mirrored : motor -> bool)
         (st st' : mops B) (req : linear_segment S) new,
    (forall m, is_abs_int (ls_steps req m)) ->
    mops_enqueue mirrored st req = Ok (st', true) ->
    mo_sent st' = mo_sent st ++ new ->
    forall m, total_motion mirrored (map fst new) m = ls_steps req m.
Proof.
  intros S B mirrored st st' req new Hint E Hnew m.
  destruct (mops_enqueue_spec mirrored st st' req true Hint E) as (l & Hl & _ & _ & _ & _ & Hmot & _).
  assert (l = new) as -> by (unfold sent_segments in Hl; rewrite Hl in Hnew; now apply app_inv_head in Hnew).
  now apply Hmot.
Qed.
Print Assumptions C30_split_conserves_steps.

(** A 100000-step move with odd ratios is cut into 4 pieces. *)
Example C30_example :
  ex_result (mops_enqueue ex_flip (mops_init accept_all []) (ex_move 5000 9000 100000 (-33333) 1))
  = Some (true, [(25000, -8334, 0); (25000, -8333, 0); (25000, -8333, 0); (25000, -8333, 1)]).
Proof. vm_compute. reflexivity. Qed.

(** A refused move: the pieces sent so far are a prefix, the last one is the
    refused one. *)
Theorem C30_refused_is_prefix :
  forall (S : speed_model) (B : backend) (mirrored : motor -> bool)
         (st st' : mops B) (req : linear_segment S) new,
    (forall m, is_abs_int (ls_steps req m)) ->
    mops_enqueue mirrored st req = Ok (st', false) ->
    mo_sent st' = mo_sent st ++ new ->
    exists accepted refused, new = accepted ++ [(refused, false)] /\
      Forall (fun '(_, b) => b = true) accepted.
Proof.
  intros S B mirrored st st' req new Hint E Hnew.
  destruct (mops_enqueue_spec mirrored st st' req false Hint E) as (l & Hl & _ & _ & _ & Hf & _).
  assert (l = new) as -> by (unfold sent_segments in Hl; rewrite Hl in Hnew; now apply app_inv_head in Hnew).
  now apply Hf.
Qed.
Print Assumptions C30_refused_is_prefix.

Example C30_refused_example :
  ex_result (mops_enqueue ex_flip (mops_init (accept_n 2) []) (ex_move 5000 9000 100000 (-33333) 1))
  = Some (false, [(25000, -8334, 0); (25000, -8333, 0); (25000, -8333, 0)]).
Proof. vm_compute. reflexivity. Qed.

(** ** C31: every piece fits the hardware format *)
Theorem C31_pieces_fit_hardware :
  forall (S : speed_model) (B : backend) (mirrored : motor -> bool)
         (st st' : mops B) (req : linear_segment S) ok new,
    (forall m, is_abs_int (ls_steps req m)) ->
    (exists m, ls_steps req m <> 0) ->
    mops_enqueue mirrored st req = Ok (st', ok) ->
    mo_sent st' = mo_sent st ++ new ->
    new <> [] /\
    Forall (fun '(s, _) => segment_fits s /\ ms_aux s = ls_aux req /\
                           forall m, Z.abs (seg_motion mirrored s m) <= 32767) new.
Proof.
  intros S B mirrored st st' req ok new Hint [m0 Hm0] E Hnew.
  destruct (mops_enqueue_spec mirrored st st' req ok Hint E) as (l & Hl & Hne & Ha & _ & _ & _ & Hfit & _).
  assert (l = new) as -> by (unfold sent_segments in Hl; rewrite Hl in Hnew; now apply app_inv_head in Hnew).
  split; [exact Hne|].
  assert (HD : get_defining_axis_steps (ls_steps req) <> 0).
  { pose proof (defining_ge (ls_steps req) m0). lia. }
  specialize (Hfit HD). rewrite Forall_forall in *. intros [s b] Hin.
  destruct (Hfit _ Hin) as [H1 (steps & _ & Hmot & D & HD' & _ & Hm)]. split; [exact H1|]. split; [apply (Ha _ Hin)|].
  intros m. rewrite Hmot. destruct (Hm m). lia.
Qed.
Print Assumptions C31_pieces_fit_hardware.

Example C31_example :
  match mops_enqueue ex_flip (mops_init accept_all []) (ex_move 5000 5000 32767 (-32768) 1) with
  | Ok (st, true) => map (fun '(s, _) => (ms_loops_travel s, ms_fractions s M1, ms_direction_bits s)) (mo_sent st)
  | _ => []
  end = [(32768, 2147352575, 0); (32768, 2147483647, 0)].
Proof. vm_compute. reflexivity. Qed.

(** The conversion problem is the only reason for undefined behaviour: splitting
    never divides by zero and never uses an empty shadow queue. *)
Theorem C31_no_undefined_when_speeds_convert :
  forall (S : speed_model) (B : backend) (mirrored : motor -> bool)
         (st : mops B) (req : linear_segment S),
    (forall v, travel_cycles S v <> None) ->
    (forall v0 v1 n, accel_params S v0 v1 n <> None) ->
    (forall v0 v1 n, decel_params S v0 v1 n <> None) ->
    (forall m, is_abs_int (ls_steps req m)) ->
    mo_shadow st <> [] ->
    exists r, mops_enqueue mirrored st req = Ok r.
Proof.
  intros S B mirrored st req Htr Hac Hde Hint Hne.
  assert (HM : INT_MAX = 2147483647) by reflexivity.
  assert (HX : MAX_STEPS_PER_SEGMENT = 32767) by reflexivity.
  assert (HI : forall (st : mops B) p D, mo_shadow st <> [] -> D <> 0 ->
     exists st' ok, enqueue_internal (S := S) mirrored st p D = Ok (st', ok) /\ mo_shadow st' <> []).
  { intros st1 p D Hne1 HD. unfold enqueue_internal. destruct (mo_shadow st1) as [|h q]; [easy|].
    cbn [shadow_front obind]. unfold make_segment. destruct (D =? 0) eqn:E0; [lia|].
    destruct (spd_eqb S (ls_v0 p) (ls_v1 p)).
    - specialize (Htr (ls_v0 p)). destruct (travel_cycles S (ls_v0 p)); [|easy]. cbn [obind].
      destruct (b_enqueue _ _ _). do 2 eexists. split; [reflexivity|]. discriminate.
    - destruct (spd_ltb S (ls_v0 p) (ls_v1 p)).
      + specialize (Hac (ls_v0 p) (ls_v1 p) D). destruct (accel_params S (ls_v0 p) (ls_v1 p) D) as [[? ?]|]; [|easy].
        cbn [obind]. destruct (b_enqueue _ _ _). do 2 eexists. split; [reflexivity|]. discriminate.
      + specialize (Hde (ls_v0 p) (ls_v1 p) D). destruct (decel_params S (ls_v0 p) (ls_v1 p) D) as [[? ?]|]; [|easy].
        cbn [obind]. destruct (b_enqueue _ _ _). do 2 eexists. split; [reflexivity|]. discriminate. }
  unfold mops_enqueue. set (D := get_defining_axis_steps (ls_steps req)).
  destruct (D =? 0) eqn:EZ.
  { destruct (mo_shadow st) as [|h q]; [easy|]. cbn [shadow_front obind].
    destruct (b_enqueue _ _ _). eexists. reflexivity. }
  destruct (MAX_STEPS_PER_SEGMENT <? D) eqn:EM.
  2:{ destruct (HI st req D Hne ltac:(lia)) as (st' & ok & -> & _). eexists. reflexivity. }
  assert (HDle : D <= INT_MAX).
  { apply defining_le. intros m. specialize (Hint m). unfold is_abs_int in Hint. lia. }
  assert (HL : forall n d v (st : mops B) ret, mo_shadow st <> [] ->
     exists st' ok, divide_loop mirrored req D (divisions_of D) n d v st ret = Ok (st', ok)).
  { induction n as [|n IH]; intros d v st1 ret Hne1; cbn [divide_loop]; [do 2 eexists; reflexivity|].
    set (steps := piece_steps (ls_steps req) (divisions_of D) d).
    match goal with |- context [enqueue_internal mirrored st1 ?o ?dd] =>
      destruct (HI st1 o dd Hne1) as (st2 & ok2 & -> & Hne2) end.
    { destruct (defining_attained (ls_steps req)) as [m Hm].
      pose proof (defining_ge steps m) as Hge.
      change (steps m) with (accumulated (ls_steps req m) (divisions_of D) (d + 1)
                             - accumulated (ls_steps req m) (divisions_of D) d) in Hge.
      pose proof (piece_nonzero (ls_steps req m) D d Hm ltac:(lia)). lia. }
    cbn [obind]. destruct ok2; [apply IH, Hne2|do 2 eexists; reflexivity]. }
  destruct (HL (Z.to_nat (divisions_of D)) 0 (ls_v0 req) st false Hne) as (st' & ok & ->). eexists. reflexivity.
Qed.
Print Assumptions C31_no_undefined_when_speeds_convert.

(** With the real floating point code a constant speed of zero is undefined
    (division by zero, conversion of infinity to int), so the hypotheses on the
    speed computations above are needed. *)
Theorem C31_zero_speed_undefined_refuted :
  exists req : linear_segment ieee_speed,
    (forall m, is_abs_int (ls_steps req m)) /\
    mops_enqueue ex_flip (mops_init accept_all []) req = Undefined.
Proof.
  exists (ex_move 0 0 10 0 0). split.
  - intros m. unfold is_abs_int, INT_MAX. destruct m; cbn; lia.
  - vm_compute. reflexivity.
Qed.
Print Assumptions C31_zero_speed_undefined_refuted.

(** ** C32: the firmware emits exactly the requested pulses *)

(** [no_stop s]: none of the delays computed for the loops of the segment is the
    firmware's stop value 0. Mirrored motors turn the other way. *)
Theorem C32_pulses_exact :
  forall (S : speed_model) (mirrored : motor -> bool) (req : linear_segment S) D seg,
    D = get_defining_axis_steps (ls_steps req) -> 1 <= D <= 32767 ->
    make_segment mirrored req D = Ok seg ->
    no_stop seg ->
    forall m level_before,
      pru_signed_steps level_before seg m =
      Some (if mirrored m then - ls_steps req m else ls_steps req m).
Proof.
  intros S mirrored req D seg HD HB E Hns m level.
  destruct (make_segment_describes mirrored req D seg HD HB E) as [Hd _].
  now apply pru_steps_describes.
Qed.
Print Assumptions C32_pulses_exact.

(** The execution takes exactly one pass per loop plus the final one, for every
    segment with counters in range it terminates. *)
Theorem C32_execution_terminates :
  forall s,
    0 <= ms_loops_accel s < 2 ^ 16 -> 0 <= ms_loops_travel s < 2 ^ 16 -> 0 <= ms_loops_decel s < 2 ^ 16 ->
    exists passes, pru_execute s = Some passes /\ 1 <= Z.of_nat (length passes) <= seg_loops s + 1 /\
      (no_stop s -> Z.of_nat (length passes) = seg_loops s + 1).
Proof.
  intros s Ha Ht Hd.
  assert (Hok : t_ok (travel_of s)) by (unfold t_ok; cbn; lia).
  unfold pru_execute. rewrite total_loops_seg.
  assert (H0 : 0 <= seg_loops s) by (unfold seg_loops; lia).
  replace (Z.to_nat (seg_loops s + 1)) with (S (Z.to_nat (seg_loops s))) by lia.
  destruct (step_gen_total (ms_fractions s) (Z.to_nat (seg_loops s)) (fun _ => 0) (travel_of s) (seg_loops s) Hok)
    as (ls & E & Hl).
  { unfold t_loops, seg_loops in *; cbn; lia. }
  exists ls. split; [exact E|]. split; [lia|]. intros Hns.
  destruct (pru_execute_pins s Hok Hns) as (ls' & E' & Hlen & _).
  unfold pru_execute in E'. rewrite total_loops_seg in E'.
  replace (Z.to_nat (seg_loops s + 1)) with (S (Z.to_nat (seg_loops s))) in E' by lia.
  congruence.
Qed.
Print Assumptions C32_execution_terminates.

(** For travel segments (constant speed) the stop value cannot occur for any
    delay other than 2 cycles; the code clips travel speed to 1 MHz = 50 cycles. *)
Theorem C32_travel_never_stops_early :
  forall s, segment_fits s -> ms_loops_accel s = 0 -> ms_loops_decel s = 0 ->
    ms_travel_delay_cycles s <> 2 -> no_stop s.
Proof. exact no_stop_travel. Qed.
Print Assumptions C32_travel_never_stops_early.

Definition ex_segment (v0 v1 a b c : Z) : motion_segment :=
  match make_segment ex_flip (ex_move v0 v1 a b c) (get_defining_axis_steps (ls_steps (ex_move v0 v1 a b c))) with
  | Ok s => s
  | Undefined => {| ms_state := 0; ms_direction_bits := 0; ms_loops_accel := 0; ms_loops_travel := 0;
      ms_loops_decel := 0; ms_aux := 0; ms_accel_series_index := 0; ms_hires_accel_cycles := 0;
      ms_travel_delay_cycles := 0; ms_fractions := fun _ => 0 |}
  end.

Lemma ex_segment_ok v0 v1 a b c :
  let D := get_defining_axis_steps (ls_steps (ex_move v0 v1 a b c)) in
  match make_segment ex_flip (ex_move v0 v1 a b c) D with Ok _ => true | Undefined => false end = true ->
  make_segment ex_flip (ex_move v0 v1 a b c) D = Ok (ex_segment v0 v1 a b c).
Proof. intros D. unfold ex_segment. fold D. now destruct (make_segment _ _ D). Qed.

Example C32_example_accel :
  (forallb (fun d => negb (d =? 0)) (delays 24 (travel_of (ex_segment 0 10000 12 (-5) 7))),
   map (pru_signed_steps true (ex_segment 0 10000 12 (-5) 7)) [M1; M2; M3; M4])
  = (true, [Some 12; Some 5; Some 7; Some 0]).
Proof. vm_compute. reflexivity. Qed.

Example C32_example_decel :
  (forallb (fun d => negb (d =? 0)) (delays 24 (travel_of (ex_segment 10000 0 (-12) (-5) 7))),
   map (pru_signed_steps true (ex_segment 10000 0 (-12) (-5) 7)) [M1; M2; M3; M4])
  = (true, [Some (-12); Some 5; Some 7; Some 0]).
Proof. vm_compute. reflexivity. Qed.

(** Without the guard the claim is false of the real code: accelerating from 600000
    to 750000 steps/s over 6 steps computes the stop value and loses 2 steps. *)
Theorem C32_fast_acceleration_loses_steps_refuted :
  exists req : linear_segment ieee_speed, exists seg,
    make_segment ex_flip req (get_defining_axis_steps (ls_steps req)) = Ok seg /\
    ls_steps req M1 = 6 /\ pru_signed_steps false seg M1 = Some 4.
Proof.
  exists (ex_move 600000 750000 6 0 0). exists (ex_segment 600000 750000 6 0 0).
  split; [|split]; [|reflexivity|vm_compute; reflexivity].
  apply ex_segment_ok. vm_compute. reflexivity.
Qed.
Print Assumptions C32_fast_acceleration_loses_steps_refuted.

(** ** C33: end to end *)

(** Signed pulses over a list of segments executed one after the other; [None] if
    one of them did not run. *)
Fixpoint pulses_of (level : motion_segment -> bool) (l : list motion_segment) (m : motor) : option Z :=
  match l with
  | [] => Some 0
  | s :: t => match pru_signed_steps (level s) s m, pulses_of level t m with
              | Some a, Some b => Some (a + b)
              | _, _ => None
              end
  end.

Theorem C33_end_to_end_steps :
  forall (S : speed_model) (B : backend) (mirrored : motor -> bool)
         (st st' : mops B) (req : linear_segment S) new level,
    (forall m, is_abs_int (ls_steps req m)) ->
    mops_enqueue mirrored st req = Ok (st', true) ->
    mo_sent st' = mo_sent st ++ new ->
    Forall no_stop (map fst new) ->
    forall m, pulses_of level (map fst new) m =
              Some (if mirrored m then - ls_steps req m else ls_steps req m).
Proof.
  intros S B mirrored st st' req new level Hint E Hnew Hns m.
  pose proof (C30_split_conserves_steps S B mirrored st st' req new Hint E Hnew m) as Hsum.
  destruct (mops_enqueue_spec mirrored st st' req true Hint E) as (l & Hl & _ & _ & _ & _ & _ & Hfit & Hz & _).
  assert (l = new) as -> by (unfold sent_segments in Hl; rewrite Hl in Hnew; now apply app_inv_head in Hnew).
  rewrite <- Hsum. clear Hsum.
  destruct (Z.eq_dec (get_defining_axis_steps (ls_steps req)) 0) as [E0|E0].
  - destruct (Hz E0) as (s & b & -> & Hsl & Hst & Hfr).
    cbn [map fst pulses_of].
    assert (Hok : t_ok (travel_of s) /\ 0 = seg_loops s).
    { clear - Hl E E0 Hint. unfold mops_enqueue in E. rewrite E0 in E. cbn [Z.eqb] in E.
      destruct (shadow_front (mo_shadow st)); [|discriminate]. cbn [obind] in E.
      destruct (b_enqueue _ _ _). cbn [obind] in E. injection E as <- ->. unfold sent_segments in Hl.
      cbn [shrink mo_sent] in Hl. apply app_inv_head in Hl. injection Hl as <- _. split; [|reflexivity].
      unfold t_ok; cbn; lia. }
    destruct Hok as [Hok _].
    destruct (pru_execute_pins s Hok) as (ls & El & _ & Hp).
    { unfold no_stop. rewrite Hsl. cbn. easy. }
    unfold pru_signed_steps. rewrite El, Hp, Hfr, edges_total by lia.
    unfold total_motion. cbn [map zsum fst]. unfold seg_motion. rewrite Hsl, Hfr.
    rewrite !Z.mul_0_r. cbn. destruct (dir_pin s m), (xorb _ _), (mirrored m); reflexivity.
  - specialize (Hfit E0). clear E Hnew Hl Hz.
    induction new as [|[s b] new IH]; [cbn; destruct (mirrored m); reflexivity|].
    inversion Hfit as [|x y Hx Hf']; subst. destruct Hx as [_ (steps & Hd)]. inversion Hns as [|x y Hs Hns']; subst.
    cbn [map fst pulses_of] in *. rewrite (pru_steps_describes mirrored s steps _ m Hd Hs).
    rewrite (IH Hns' Hf'). rewrite total_motion_cons. rewrite (proj1 (proj2 Hd)).
    f_equal. destruct (mirrored m); lia.
Qed.
Print Assumptions C33_end_to_end_steps.

Example C33_example :
  match mops_enqueue ex_flip (mops_init accept_all []) (ex_move 3000 3000 25 (-7) 0) with
  | Ok (st, true) =>
      map (pulses_of (fun _ => true) (map fst (mo_sent st))) [M1; M2; M3]
  | _ => []
  end = [Some 25; Some 7; Some 0].
Proof. vm_compute. reflexivity. Qed.

(** ** C34: firmware division *)
Theorem C34_idiv_exact :
  forall dividend divisor, 0 <= dividend < 2 ^ 32 -> 1 <= divisor < 2 ^ 32 ->
    idiv dividend divisor = (dividend mod divisor, dividend / divisor).
Proof. intros. apply idiv_correct; lia. Qed.
Print Assumptions C34_idiv_exact.

Example C34_example : idiv 4294967295 4294967295 = (0, 1) /\ idiv 4000000007 13 = (3, 307692308).
Proof. vm_compute. split; reflexivity. Qed.

(** ** C35: reported position *)

(** Commands at the motor operations level, with arbitrary backend activity in
    between ([CBackend]). *)
Inductive mcmd (S : speed_model) (B : backend) :=
| CEnqueue (req : linear_segment S)
| CExternal (m : motor) (steps : Z)
| CStatus
| CBackend (b : b_state B).
Arguments CEnqueue {S B}. Arguments CExternal {S B}. Arguments CStatus {S B}. Arguments CBackend {S B}.

Definition mrun1 {S B} (mirrored : motor -> bool) (st : mops B) (c : mcmd S B) : outcome (mops B) :=
  match c with
  | CEnqueue req => obind (mops_enqueue mirrored st req) (fun '(st', ok) => if ok then Ok st' else Undefined)
  | CExternal m steps => mops_set_external_position st m steps
  | CStatus => obind (mops_get_physical_status st) (fun '(st', _) => Ok st')
  | CBackend b => Ok {| mo_shadow := mo_shadow st; mo_backend := b; mo_sent := mo_sent st |}
  end.

Fixpoint mrun {S B} (mirrored : motor -> bool) (st : mops B) (cs : list (mcmd S B)) : outcome (mops B) :=
  match cs with
  | [] => Ok st
  | c :: cs' => obind (mrun1 mirrored st c) (fun st' => mrun mirrored st' cs')
  end.

(** Where the motor should be: sum of all steps since the last external position. *)
Fixpoint expected_position {S B} (p : Z) (cs : list (mcmd S B)) (m : motor) : Z :=
  match cs with
  | [] => p
  | CEnqueue req :: cs' => expected_position (p + ls_steps req m) cs' m
  | CExternal m' steps :: cs' => expected_position (if motor_eqb m m' then steps else p) cs' m
  | _ :: cs' => expected_position p cs' m
  end.

Definition cmd_in_range {S B} (c : mcmd S B) : Prop :=
  match c with CEnqueue req => forall m, is_abs_int (ls_steps req m) | _ => True end.

(** Front of the shadow queue is well formed. *)
Definition front_ok {B} (st : mops B) : Prop :=
  exists h q, mo_shadow st = h :: q /\ forall m, 0 <= pi_fraction (h_pos h m) < 2 ^ 31.

Lemma shrink_front_ok {B} (st : mops B) : front_ok st -> front_ok (shrink st) /\
  forall m, front_pos (mo_shadow (shrink st)) m = front_pos (mo_shadow st) m.
Proof.
  intros (h & q & E & Hf). split; [|intros m; apply shrink_front; rewrite E; discriminate].
  unfold front_ok, shrink. cbn [mo_shadow]. rewrite E. unfold resize.
  assert (exists n, Z.to_nat (if 0 <? fst (b_pending B (mo_backend st)) then fst (b_pending B (mo_backend st)) else 1) = S n) as [n ->].
  { exists (pred (Z.to_nat (if 0 <? fst (b_pending B (mo_backend st)) then fst (b_pending B (mo_backend st)) else 1))).
    destruct (0 <? fst (b_pending B (mo_backend st))) eqn:E0; lia. }
  cbn [firstn app]. eauto.
Qed.

Lemma mrun1_front {S B} mirrored (st st' : mops B) (c : mcmd S B) m :
  cmd_in_range c -> front_ok st -> mrun1 mirrored st c = Ok st' ->
  front_ok st' /\ front_pos (mo_shadow st') m = expected_position (front_pos (mo_shadow st) m) [c] m.
Proof.
  intros Hr Hf E. destruct c as [req|m' steps| |b]; cbn [mrun1 expected_position cmd_in_range] in *.
  - destruct (mops_enqueue mirrored st req) as [[st1 ok]|] eqn:Ee; [|discriminate]. cbn [obind] in E.
    destruct ok; [|discriminate]. injection E as <-.
    destruct (mops_enqueue_spec mirrored st st1 req true Hr Ee) as (l & Hl & _ & _ & _ & _ & Hmot & _ & _ & Hfr & _ & _).
    split; [|rewrite Hfr, Hmot; reflexivity].
    (* front entry *)
    destruct Hf as (h & q & Eq & Hfr0).
    assert (Ht : tracks mirrored (fun m => pi_position (h_pos h m)) [] [h]).
    { cbn. split; [reflexivity|]. intros m'. split; [reflexivity|apply Hfr0]. }
    clear - Ee Hr Eq Hfr0. unfold mops_enqueue in Ee.
    set (D := get_defining_axis_steps (ls_steps req)) in *.
    assert (HM : INT_MAX = 2147483647) by reflexivity.
    assert (HX : MAX_STEPS_PER_SEGMENT = 32767) by reflexivity.
    assert (HDle : D <= INT_MAX).
    { apply defining_le. intros m. specialize (Hr m). unfold is_abs_int in Hr. lia. }
    pose proof (defining_nonneg (ls_steps req)) as HD0. fold D in HD0.
    assert (HI : forall (a b : mops B) (p : linear_segment S) D ok, enqueue_internal mirrored a p D = Ok (b, ok) ->
      D = get_defining_axis_steps (ls_steps p) -> 1 <= D <= 32767 -> front_ok b).
    { intros a b p D0 ok E HD HB. destruct (enqueue_internal_spec mirrored a b p D0 ok E HD HB)
        as (seg & _ & Hd & _ & _ & h1 & Hsh & _ & Hh). exists h1, (mo_shadow a). split; [exact Hsh|].
      intros m. destruct (Hh m) as (_ & -> & _). apply (proj1 Hd). }
    destruct (D =? 0) eqn:EZ.
    + rewrite Eq in Ee. cbn [shadow_front obind] in Ee. destruct (b_enqueue _ _ _). cbn [obind] in Ee.
      injection Ee as <- _. apply shrink_front_ok. eexists _, _. split; [reflexivity|]. exact Hfr0.
    + destruct (MAX_STEPS_PER_SEGMENT <? D) eqn:EM.
      * destruct (divide_loop _ _ _ _ _ _ _ _ _) as [[st2 ok2]|] eqn:Ed; [|discriminate].
        cbn [obind] in Ee. injection Ee as <- _. apply shrink_front_ok.
        pose proof (divisions_bounds D HD0) as [Hdp _].
        assert (HL : forall n d v (a b : mops B) ret ok,
          divide_loop mirrored req D (divisions_of D) n d v a ret = Ok (b, ok) -> front_ok a -> front_ok b).
        { induction n as [|n IH]; intros d v a b ret ok E Ha; cbn [divide_loop] in E.
          - injection E as <- _. exact Ha.
          - destruct (enqueue_internal _ _ _ _) as [[a1 ok1]|] eqn:Ei; [|discriminate]. cbn [obind] in E.
            assert (front_ok a1).
            { eapply HI; [exact Ei|reflexivity|]. split.
              - destruct (defining_attained (ls_steps req)) as [m Hm].
                transitivity (Z.abs (piece_steps (ls_steps req) (divisions_of D) d m)); [|apply defining_ge].
                unfold piece_steps. apply piece_nonzero; [exact Hm|lia].
              - apply defining_le. intros m. unfold piece_steps. rewrite <- HX. apply piece_bound.
                split; [apply defining_ge|lia]. }
            destruct ok1; [eapply IH; eassumption|]. injection E as <- _. assumption. }
        eapply HL; [exact Ed|]. exists h, q. auto.
      * destruct (enqueue_internal _ _ _ _) as [[st2 ok2]|] eqn:Ei; [|discriminate].
        cbn [obind] in Ee. injection Ee as <- _. apply shrink_front_ok. eapply HI; [exact Ei|reflexivity|lia].
  - destruct Hf as (h & q & Eq & Hfr0). unfold mops_set_external_position in E. rewrite Eq in E.
    cbn [shadow_front obind] in E. injection E as <-.
    match goal with |- context [shrink ?x] => set (st1 := x) end.
    assert (front_ok st1) as Hf1.
    { unfold st1. eexists _, _. split; [reflexivity|]. intros k. cbn. destruct (motor_eqb k m'); cbn; apply Hfr0. }
    destruct (shrink_front_ok st1 Hf1) as [Hs1 Hs2]. split; [exact Hs1|]. rewrite Hs2.
    rewrite Eq. unfold st1. cbn. destruct (motor_eqb m m'); reflexivity.
  - unfold mops_get_physical_status in E. destruct (shadow_back _); [|discriminate]. cbn [obind] in E.
    injection E as <-. destruct (shrink_front_ok st Hf) as [H1 H2]. split; [exact H1|apply H2].
  - injection E as <-. destruct Hf as (h & q & Eq & Hf). split; [|reflexivity].
    exists h, q. auto.
Qed.

Theorem C35_idle_position_exact :
  forall (S : speed_model) (B : backend) (mirrored : motor -> bool) (b0 : b_state B)
         (cs : list (mcmd S B)) st st' n pos aux,
    Forall cmd_in_range cs ->
    mrun mirrored (mops_init B b0) cs = Ok st ->
    b_pending B (mo_backend st) = (n, 0) -> n <= 1 ->          (* queue idle *)
    mops_get_physical_status st = Ok (st', (pos, aux)) ->
    forall m, pos m = expected_position 0 cs m.
Proof.
  intros S B mirrored b0 cs st st' n pos aux Hr Hrun Hp Hn Hs m.
  assert (H : forall (cs : list (mcmd S B)) (s0 : mops B) p, Forall cmd_in_range cs -> front_ok s0 -> front_pos (mo_shadow s0) m = p ->
    mrun mirrored s0 cs = Ok st -> front_ok st /\ front_pos (mo_shadow st) m = expected_position p cs m).
  { clear. induction cs as [|c cs IH]; intros s0 p Hr Hf Hp E.
    - cbn in *. injection E as <-. auto.
    - inversion Hr as [|? ? Hc Hcs]; subst. cbn [mrun] in E.
      destruct (mrun1 mirrored s0 c) as [s1|] eqn:E1; [|discriminate]. cbn [obind] in E.
      destruct (mrun1_front mirrored s0 s1 c m Hc Hf E1) as [Hf1 Hp1].
      destruct (IH s1 _ Hcs Hf1 Hp1 E) as [H1 H2]. split; [exact H1|]. rewrite H2.
      destruct c; reflexivity. }
  destruct (H cs (mops_init B b0) 0 Hr) as [(h & q & Eq & Hf) Hpos]; try reflexivity; try exact Hrun.
  { exists history0, []. split; [reflexivity|]. intros k. cbn. lia. }
  rewrite <- Hpos. eapply status_idle; try eassumption.
  - rewrite Eq. discriminate.
  - rewrite Eq. exact Hf.
Qed.
Print Assumptions C35_idle_position_exact.

(** A backend that reports itself idle. *)
Definition idle_backend : backend := {|
  b_state := unit; b_enqueue b s := (tt, true); b_pending b := (0, 0) |}.

Example C35_idle_example :
  match mrun ex_flip (mops_init idle_backend tt)
          [CEnqueue (ex_move 100 100 40 (-3) 2); CExternal M1 7; CEnqueue (ex_move 100 100 70000 5 (-9)); CStatus] with
  | Ok st => match mops_get_physical_status st with
             | Ok (_, (pos, aux)) => Some (pos M1, pos M2, pos M3, aux)
             | _ => None end
  | _ => None
  end = Some (70007, 2, -7, 5).
Proof. vm_compute. reflexivity. Qed.

(** While the [n]+1-th newest segment [s] runs with [L] loops left, the reported
    position is between the start and end position of that segment, exact at
    both ends, and the aux bits are those of that segment. *)
Theorem C35_position_in_motion :
  forall (S : speed_model) (B : backend) (mirrored : motor -> bool) (st : mops B) p0 segs n L st' pos aux s,
    mops_history (S := S) mirrored st p0 segs ->
    b_pending B (mo_backend st) = (Z.of_nat n + 1, L) ->
    mops_get_physical_status st = Ok (st', (pos, aux)) ->
    nth_error segs n = Some s ->
    0 <= L <= seg_loops s ->
    aux = ms_aux s /\
    forall m,
      let finish := p0 m + total_motion mirrored (skipn n segs) m in
      let start := finish - seg_motion mirrored s m in
      between start (pos m) finish /\
      (L = 0 -> pos m = finish) /\ (L = seg_loops s -> pos m = start).
Proof.
  intros S B mirrored st p0 segs n L st' pos aux s Hh Hp E Hn HL.
  destruct (status_in_motion mirrored st p0 segs n L st' pos aux s Hh Hp E Hn HL) as [Ha H].
  split; [exact Ha|]. intros m. apply H.
Qed.
Print Assumptions C35_position_in_motion.

(** Progress is monotone: with fewer loops left the position is closer to the end. *)
Theorem C35_position_monotone :
  forall (S : speed_model) (B : backend) (mirrored : motor -> bool) (st1 st2 : mops B) p0 segs n L1 L2
         st1' st2' pos1 pos2 aux1 aux2 s,
    mops_history (S := S) mirrored st1 p0 segs -> mops_history (S := S) mirrored st2 p0 segs ->
    b_pending B (mo_backend st1) = (Z.of_nat n + 1, L1) ->
    b_pending B (mo_backend st2) = (Z.of_nat n + 1, L2) ->
    mops_get_physical_status st1 = Ok (st1', (pos1, aux1)) ->
    mops_get_physical_status st2 = Ok (st2', (pos2, aux2)) ->
    nth_error segs n = Some s ->
    0 <= L2 <= L1 -> L1 <= seg_loops s ->
    forall m, between (pos1 m) (pos2 m) (p0 m + total_motion mirrored (skipn n segs) m).
Proof.
  intros S B mirrored st1 st2 p0 segs n L1 L2 st1' st2' pos1 pos2 aux1 aux2 s H1 H2 Hp1 Hp2 E1 E2 Hn HL2 HL1 m.
  destruct (status_in_motion mirrored st1 p0 segs n L1 st1' pos1 aux1 s H1 Hp1 E1 Hn ltac:(lia)) as [_ A1].
  destruct (status_in_motion mirrored st2 p0 segs n L2 st2' pos2 aux2 s H2 Hp2 E2 Hn ltac:(lia)) as [_ A2].
  destruct (A1 m) as (P1 & _). destruct (A2 m) as (P2 & _).
  assert (Hfr : seg_loops s <> 0 -> 0 <= ms_fractions s m).
  { intros Hz. destruct (mops_history_inv mirrored st1 p0 segs H1) as (_ & _ & Hg).
    rewrite Forall_forall in Hg. destruct (Hg s (nth_error_In _ _ Hn)) as [(steps & Hfit & _)|[Hz' _]]; [|lia].
    apply Hfit. }
  unfold between. rewrite P1, P2. destruct (seg_loops s =? 0) eqn:E0; [lia|].
  pose proof (remaining_mono (ms_fractions s m) L2 L1 (Hfr ltac:(lia)) ltac:(lia)).
  pose proof (remaining_nonneg (ms_fractions s m) L2 (Hfr ltac:(lia)) ltac:(lia)).
  destruct (seg_motion mirrored s m <? 0); lia.
Qed.
Print Assumptions C35_position_monotone.

(** A backend that is told what to answer. *)
Definition told_backend : backend := {|
  b_state := Z * Z; b_enqueue b s := ((fst b + 1, seg_loops s), true); b_pending b := b |}.

Lemma ok_of {B} (r : outcome (mops B * bool)) d :
  match r with Ok (_, b) => b | Undefined => false end = true ->
  r = Ok (match r with Ok (s, _) => s | Undefined => d end, true).
Proof. destruct r as [[s b]|]; [intros ->; reflexivity|discriminate]. Qed.

Definition ex_st0 : mops told_backend := mops_init told_backend (0, 0).
Definition ex_st1 := match mops_enqueue ex_flip ex_st0 (ex_move 100 100 40 (-3) 2) with
                     | Ok (s, _) => s | Undefined => ex_st0 end.
Definition ex_st2 := match mops_enqueue ex_flip ex_st1 (ex_move 100 200 12 3 (-6)) with
                     | Ok (s, _) => s | Undefined => ex_st0 end.
(** The second segment is now running and has 12 loops left. *)
Definition ex_st3 : mops told_backend :=
  {| mo_shadow := mo_shadow ex_st2; mo_backend := (1, 12) : b_state told_backend; mo_sent := mo_sent ex_st2 |}.

Example C35_motion_example :
  exists segs, mops_history (S := ieee_speed) ex_flip ex_st3 (fun _ => 0) segs /\
    length segs = 2%nat /\
    match mops_get_physical_status ex_st3 with
    | Ok (_, (pos, aux)) => Some (pos M1, pos M2, pos M3, aux) | _ => None end = Some (46, -2, -1, 5).
Proof.
  assert (R1 : forall m, is_abs_int (ls_steps (ex_move 100 100 40 (-3) 2) m))
    by (intros m; unfold is_abs_int, INT_MAX; destruct m; cbn; lia).
  assert (R2 : forall m, is_abs_int (ls_steps (ex_move 100 200 12 3 (-6)) m))
    by (intros m; unfold is_abs_int, INT_MAX; destruct m; cbn; lia).
  assert (H1 : mops_enqueue ex_flip ex_st0 (ex_move 100 100 40 (-3) 2) = Ok (ex_st1, true)).
  { apply ok_of. vm_compute. reflexivity. }
  assert (H2 : mops_enqueue ex_flip ex_st1 (ex_move 100 200 12 3 (-6)) = Ok (ex_st2, true)).
  { apply ok_of. vm_compute. reflexivity. }
  destruct (mops_enqueue_spec ex_flip _ _ _ _ R1 H1) as (l1 & S1 & N1 & _).
  destruct (mops_enqueue_spec ex_flip _ _ _ _ R2 H2) as (l2 & S2 & N2 & _).
  unfold sent_segments in *.
  assert (P1 : pending_of ex_st1 = 1) by (vm_compute; reflexivity).
  assert (P2 : pending_of ex_st2 = 2) by (vm_compute; reflexivity).
  assert (L2 : length (mo_sent ex_st2) = 2%nat) by (vm_compute; reflexivity).
  exists (rev (map fst l2) ++ rev (map fst l1) ++ []).
  split; [|split].
  - unfold ex_st3. apply mh_progress; [|rewrite P2; vm_compute; discriminate].
    eapply mh_enqueue; [eapply mh_enqueue; [apply mh_start|exact R1|exact H1|exact S1|]|exact R2|exact H2|exact S2|].
    + vm_compute. discriminate.
    + rewrite P1. lia.
    + rewrite P1, P2. destruct l2; [congruence|cbn [length]; lia].
  - rewrite S2, S1 in L2. rewrite !app_length in *. rewrite !rev_length, !map_length.
    cbn [length mops_init mo_sent ex_st0] in *. lia.
  - vm_compute. reflexivity.
Qed.

(** The reported progress differs from the pulses really emitted so far by at
    most one step, in every pass of every segment. [progress] is what the status
    report is based on, see [C35_status_is_progress]. *)
Theorem C35_reported_close_to_emitted :
  forall mirrored s steps passes j pass m level,
    seg_describes mirrored s steps -> no_stop s -> pru_execute s = Some passes ->
    Z.of_nat j < seg_loops s -> nth_error passes j = Some pass ->
    let emitted := rising_edges level (map (fun x => pl_pins x m) (firstn (S j) passes)) in
    let progress := Z.abs (seg_motion mirrored s m) - remaining (ms_fractions s m) (pl_counter pass) in
    -1 <= progress - emitted <= 1 /\ 0 <= pl_counter pass <= seg_loops s.
Proof. exact status_tracks_pulses. Qed.
Print Assumptions C35_reported_close_to_emitted.

Theorem C35_status_is_progress :
  forall (S : speed_model) (B : backend) (mirrored : motor -> bool) (st : mops B) p0 segs n L st' pos aux s,
    mops_history (S := S) mirrored st p0 segs ->
    b_pending B (mo_backend st) = (Z.of_nat n + 1, L) ->
    mops_get_physical_status st = Ok (st', (pos, aux)) ->
    nth_error segs n = Some s -> 0 < seg_loops s ->
    0 <= L <= seg_loops s ->
    forall m,
      let start := p0 m + total_motion mirrored (skipn n segs) m - seg_motion mirrored s m in
      Z.abs (pos m - start) = Z.abs (seg_motion mirrored s m) - remaining (ms_fractions s m) L.
Proof.
  intros S B mirrored st p0 segs n L st' pos aux s Hh Hp E Hn Hpos HL m start.
  destruct (status_in_motion mirrored st p0 segs n L st' pos aux s Hh Hp E Hn HL) as [Ha H].
  destruct (H m) as (P & Hb & _). unfold between in Hb. cbv zeta in *.
  destruct (seg_loops s =? 0) eqn:E0; [lia|].
  unfold start. destruct (seg_motion mirrored s m <? 0) eqn:En; lia.
Qed.
Print Assumptions C35_status_is_progress.

(** ** C36: simulator and firmware agree *)
Theorem C36_sim_equals_firmware :
  forall s sim_steps,
    0 <= ms_loops_accel s < 2 ^ 16 -> 0 <= ms_loops_travel s < 2 ^ 16 -> 0 <= ms_loops_decel s < 2 ^ 16 ->
    (forall m, 0 <= ms_fractions s m < 2 ^ 31) ->
    ms_state s <> STATE_EXIT ->
    no_stop s ->
    exists sim_steps', sim_enqueue s sim_steps = Some sim_steps' /\
      forall m level, exists n, pru_signed_steps level s m = Some n /\ sim_steps' m = sim_steps m + n.
Proof.
  intros s steps Ha Ht Hd Hf Hst Hns. apply sim_steps_eq; auto. unfold t_ok; cbn; lia.
Qed.
Print Assumptions C36_sim_equals_firmware.

Example C36_example :
  match sim_enqueue (ex_segment 0 10000 12 (-5) 7) (fun _ => 100) with
  | Some r => map r [M1; M2; M3; M4] | None => [] end = [112; 105; 107; 100].
Proof. vm_compute. reflexivity. Qed.

(** Where the firmware hits its stop value, the simulator does not show it. *)
Theorem C36_sim_hides_lost_steps_refuted :
  exists s r, sim_enqueue s (fun _ => 0) = Some r /\ segment_fits s /\
    r M1 = 6 /\ pru_signed_steps false s M1 = Some 4.
Proof.
  set (s := ex_segment 600000 750000 6 0 0).
  assert (H : match sim_enqueue s (fun _ => 0) with Some r => r M1 =? 6 | None => false end = true)
    by (vm_compute; reflexivity).
  destruct (sim_enqueue s (fun _ => 0)) as [r|] eqn:E; [|discriminate].
  exists s, r. split; [exact E|]. split; [|split; [now apply Z.eqb_eq|vm_compute; reflexivity]].
  apply (make_segment_describes ex_flip (ex_move 600000 750000 6 0 0) 6).
  - reflexivity.
  - lia.
  - apply (ex_segment_ok 600000 750000 6 0 0). vm_compute. reflexivity.
Qed.
Print Assumptions C36_sim_hides_lost_steps_refuted.
