(** Property C71: what the commands for spindle, outputs, motors and the end of a
    program do at the machine. *)
From Verif Require Import Base Text Model_Axis Model_Float Model_Hardware Model_Machine Spec_Machine Spec_Commands.
From Verif Require Import Proofs_Machine Proofs_Machine2 Proofs_Machine3 Proofs_Commands.

(** Every command that does not depend on switches makes exactly the documented
    requests, in this order, and changes neither feedrate, speed factor nor the times
    at which motors and fan are switched off; only M120 and M121 change whether the
    pause switch counts. *)
Theorem C71_commands : forall c e s s' new acts, documented c e = Some acts -> readable e ->
  completes c e s s' -> adds c e s s' new ->
  does new acts /\ m_pause s' = pause_after e (m_pause s) /\
  ((forall f, e <> SetSpeedFactor f) ->
   m_feed s' = m_feed s /\ m_factor s' = m_factor s /\ m_off_motor s' = m_off_motor s /\ m_off_fan s' = m_off_fan s).
Proof.
  intros c e s s' new acts H R E [_ L]. destruct (documented_done _ _ _ _ _ H R E) as ((n & L2 & D) & P & Q).
  rewrite L in L2. apply app_inv_head in L2. subst n. split; [exact D|]. split; [exact P|]. intros N. specialize (Q N). unfold regs in Q. injection Q as -> -> -> ->. auto.
Qed.
Print Assumptions C71_commands.

(** M999 in the stop reads the switch; only if it is released, the stop is left and
    the outputs are written. Without a stop it does nothing. *)
Theorem C71_release : forall c s s' ps new, completes c (MCode 999 ps) s s' -> adds c (MCode 999 ps) s s' new ->
  (stop_on s = false -> new = []) /\
  (stop_on s = true -> exists z,
     (z <> 0 /\ new = [Ask QEstop z]) \/ (z = 0 /\ new = [Ask QEstop 0; Did (output OutEstop false); Did (DoHw HwSetAux)])).
Proof.
  intros c s s' ps new E [_ L]. destruct (release_done _ _ _ _ E) as (n & L2 & H). rewrite L in L2. apply app_inv_head in L2. subst n. exact H.
Qed.
Print Assumptions C71_release.

(** Dwelling (G4) and M400 bring the path to a halt and wait until the motors have
    done everything sent to them; that is all if neither switch is pressed. *)
Theorem C71_wait : forall c e s s' new, e = Dwell \/ (exists ps, e = MCode 400 ps) -> completes c e s s' -> adds c e s s' new ->
  no_stop_read new -> (forall z, In (Ask QPause z) new -> z = 0) -> does new [DoHalt; DoWait].
Proof.
  intros c e s s' new He E [_ L] N P. assert (X : dwell c s = (Some tt, s')) by (destruct He as [->|[ps ->]]; exact E).
  destruct (dwell_done _ _ _ _ X) as (n & L2 & H). rewrite L in L2. apply app_inv_head in L2. subst n. auto.
Qed.
Print Assumptions C71_wait.

(** If the spindle turns after any history of calls, the last M3 or M4 with a speed
    in the history asked for this direction and speed, and no M5, M0 and no end of a
    program came after it. *)
Theorem C71_spindle_history : forall c h answers es s ccw rpm, c_has_spindle c = true ->
  perform_all c es (start_state c h answers) = (Some tt, s) -> spindle_of (m_log s) = Some (ccw, rpm) ->
  exists es1 ps es2, es = es1 ++ MCode (if ccw then 4 else 3) ps :: es2 /\
    Forall idle_spindle es2 /\ 0 <= rpm /\
    (readable (MCode 3 ps) -> rpm = number_of "S" (leading ["S"%char] ps) (-1)).
Proof. intros c h answers es s ccw rpm Hs E H. exact (spindle_history _ _ _ _ _ Hs E _ _ H). Qed.
Print Assumptions C71_spindle_history.

(** The end of a program, M5 and M0 stop the spindle, and so does entering the
    emergency stop for whatever reason. *)
Theorem C71_spindle_stopped : forall c e s s', c_has_spindle c = true -> completes c e s s' ->
  stops_spindle e = true \/ (stop_on s = false /\ stop_on s' = true) -> spindle_of (m_log s') = None.
Proof.
  intros c e s s' Hs E [H|[A B]]; [exact (spindle_stopped _ _ _ _ Hs E H)|exact (stop_stops _ _ _ _ Hs E A B)].
Qed.
Print Assumptions C71_spindle_stopped.

(** The hardware (outputs, motor power, PWM) is what the calls in the log make of it,
    so what C41 to C45 say about such calls holds for the machine. *)
Theorem C71_hardware : forall c h answers es s, perform_all c es (start_state c h answers) = (Some tt, s) ->
  m_hw s = fold_left (hw_step (c_cape c)) (hw_ops (m_log s)) h.
Proof. intros c h answers es s E. destruct (all_follows _ _ _ _ E) as (new & L & H). cbn [start_state m_log app m_hw] in *. now subst. Qed.
Print Assumptions C71_hardware.

(** * Concrete cases *)
Definition ex_cape : cape := mk_cape (fun i => 100 + i) (fun i => 200 + i) (fun i => 300 + i) 99 false.
Definition ex_c : mcfg := mk_mcfg (fun _ => f32_of_Z 100) (fun _ => f32_of_Z 100) (fun a => f32_of_Z (10 + axis_ix a)) (fun _ => f32_of_Z 10)
  (fun _ => f32_of_Z 5) (fun _ => f32_of_Z 5) (f32_of_Z 1) (txt "XYZ") (fun a => match a with AX => TrigMin | _ => TrigNone end)
  60 0 128 true true (txt "z") false true ex_cape.
Definition ex_h : hw := hw_run ex_cape [HwAddMotor AX 1 false; HwAddAux OutMist 3; HwInit true; HwUpdateOutput OutEstop false].
Definition ex_run (es : list call) (answers : list Z) : machine := snd (perform_all ex_c es (start_state ex_c ex_h answers)).
Definition ex_done (es : list call) (answers : list Z) : bool :=
  match fst (perform_all ex_c es (start_state ex_c ex_h answers)) with Some _ => match m_in (ex_run es answers) with [] => true | _ => false end | None => false end.
Definition word (ch : ascii) (n : Z) : ascii * fl := (ch, f32_of_Z n).
(** M3 S1000 S2000 turns clockwise with 2000; M5 stops; so does the end of the program. *)
Example ex_spindle : let m3 := MCode 3 [word "S" 1000; word "S" 2000; word "X" 5] in
  ex_done [m3] [0] = true /\ spindle_of (m_log (ex_run [m3] [0])) = Some (false, 2000) /\
  documented ex_c m3 = Some [DoHalt; DoSpindleOn false 2000] /\
  ex_done [m3; MCode 7 []; GcodeFinished true] [0; 1; 0; 0] = true /\
  spindle_of (m_log (ex_run [m3; MCode 7 []] [0])) = Some (false, 2000) /\
  spindle_of (m_log (ex_run [m3; MCode 7 []; GcodeFinished true] [0; 1; 0; 0])) = None.
Proof. vm_compute. repeat split; reflexivity. Qed.
Example ex_readable : readable (MCode 3 [word "S" 1000; word "S" 2000; word "X" 5]).
Proof. repeat constructor; eexists; (split; [vm_compute; reflexivity|lia]). Qed.
(** The documented requests of some commands. *)
Example ex_documented :
  documented ex_c (MCode 42 [word "P" 5; word "S" 1]) = Some [DoHw (HwUpdateAux 5 true)] /\
  documented ex_c (MCode 42 [word "P" 5]) = Some [] /\
  documented ex_c (MCode 65 [word "P" 16; word "S" 1]) = Some [DoHw (HwUpdateAux 16 false); DoHw HwSetAux] /\
  documented ex_c (MCode 64 [word "P" 17]) = Some [] /\
  documented ex_c (MCode 181 [word "S" 16]) = Some [DoWait; DoLookahead 16] /\
  documented ex_c (MCode 181 [word "S" 1025]) = Some [] /\
  documented ex_c (GcodeFinished true) = Some ([DoHalt; DoHalt; DoSpindleOff; DoHalt; DoMotors false; DoHw (HwEnableMotors false)]).
Proof. vm_compute. repeat split; reflexivity. Qed.
(** M7 sets the output the configuration names, M9 clears it. *)
Example ex_mist : get_aux_bit (m_hw (ex_run [MCode 7 []] [])) 3 = true /\ get_aux_bit (m_hw (ex_run [MCode 7 []; MCode 9 []] [])) 3 = false /\
  ex_done [MCode 7 []; MCode 9 []] [] = true.
Proof. vm_compute. auto. Qed.
(** Stop (M0), M999 with the switch pressed and released; waiting. *)
Example ex_release : ex_done [MCode 0 []; MCode 999 []; MCode 999 []; MCode 999 []; MCode 400 []] [0; 0; 1; 0; 0; 0] = true /\
  stop_on (ex_run [MCode 0 []; MCode 999 []] [0; 0; 1]) = true /\ stop_on (ex_run [MCode 0 []; MCode 999 []; MCode 999 []] [0; 0; 1; 0]) = false.
Proof. vm_compute. auto. Qed.
