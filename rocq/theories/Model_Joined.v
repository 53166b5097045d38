(** G-code parser and machine control together: the machine control of [Model_Machine] is the
    receiver of the events of [Model_Gcode].

    What the parser's side does not tell is left open: the parameters that an M-code reads
    from its line ([j_pairs], [j_read]: they come from the parser itself), the file of
    parameters ([j_load]) and when the input is found idle ([j_idle]). *)
From Verif Require Import Base Text Model_Float Model_Axis Model_Gcode Model_Arc Model_Hardware Model_Machine.

Record joint := mk_joint {
  j_machine : mcfg;
  j_libm : libm;
  j_pairs : list Model_Gcode.event -> pairs;
  j_read : list Model_Gcode.event -> nat * option nat;
  j_load : pmap -> pmap;
  j_idle : list Model_Gcode.event -> list bool }.

(** A set of axes as bits; common/container.h AxisBitmap_t *)
Definition bitmap (which : axis -> bool) : Z :=
  fold_left (fun z a => if which a then Z.lor z (Z.shiftl 1 (axis_ix a)) else z) all_axes 0.
(** arc-gen.cc:196-218: the moves of an arc or a spline, the first first. They do not depend
    on the answers; the first one that is refused ends the request ([try_moves]). *)
Definition moves_of (j : joint) (e : Model_Gcode.event) : list (fl * axes) :=
  match e with
  | EArc feed normal cw start center target => rev (snd (arc_move (j_libm j) (fun _ => true) feed normal cw start center target []))
  | ESpline feed start cp1 cp2 target => match spline_move (fun _ => true) feed 200 start cp1 cp2 target [] with Some (_, h) => rev h | None => [] end
  | _ => []
  end.
Fixpoint try_moves (c : mcfg) (l : list (fl * axes)) : M bool :=
  match l with
  | [] => ret true
  | (feed, pos) :: r => ok <- coordinated_move c feed pos ;; if ok then try_moves c r else ret false
  end.
(** gcode-machine-control.cc:78-110: the methods called for the requests without an answer.
    Spindle speeds, origins, temperatures and the ends of commands and lines have no effect
    (gcode-parser.h:248, gcode-machine-control.cc:351-372); of the commands left to the receiver
    only those with M do something (535-538). *)
Definition calls_of (j : joint) (evs : list Model_Gcode.event) : list call :=
  match evs with
  | EStart _ :: _ => [GcodeStart]
  | EFinished b :: _ => [GcodeFinished b]
  | EWaitStart :: _ => [WaitForStart]
  | EHome which :: _ => [GoHome (bitmap which)]
  | ESpeedFactor f :: _ => [SetSpeedFactor f]
  | EFan f :: _ => [SetFanspeed f]
  | EDwell _ :: _ => [Dwell]
  | EMotors b :: _ => [MotorsEnable b]
  | EUnprocessed letter v _ :: _ => if Ascii.eqb letter "M" then match to_int (fl_trunc v) with Some n => [MCode n (j_pairs j evs)] | None => [] end else []
  | _ => []
  end.
(** The newest request [e], all requests are [evs]. *)
Definition reply_with (j : joint) (evs : list Model_Gcode.event) (ok : bool) (probed : fl) (clamp : axes -> axes) : reply :=
  mk_reply ok probed clamp (fst (j_read j evs)) (snd (j_read j evs)) (j_load j).
Definition serve (j : joint) (evs : list Model_Gcode.event) : M reply :=
  let c := j_machine j in
  match evs with
  | EMove true feed pos :: _ => ok <- coordinated_move c feed pos ;; ret (reply_with j evs ok fzero (fun p => p))
  | EMove false feed pos :: _ => ok <- rapid_move c feed pos ;; ret (reply_with j evs ok fzero (fun p => p))
  | (EArc _ _ _ _ _ _ | ESpline _ _ _ _ _) as e :: _ => ok <- try_moves c (moves_of j e) ;; ret (reply_with j evs ok fzero (fun p => p))
  | EProbe feed a :: _ =>
      r <- probe_axis c feed a ;;
      ret (match r with Some p => reply_with j evs true p (fun p => p) | None => reply_with j evs false fzero (fun p => p) end)
  | EClamp affected _ :: _ => ret (reply_with j evs true fzero (clamp_to_range c (bitmap affected)))
  | _ => perform_all c (calls_of j evs) ;;; ret (reply_with j evs true fzero (fun p => p))
  end.

(** The machine that began as [s0] after all requests and the idle times behind each; the
    answer to the newest request. A call that has not returned has no answer. *)
Fixpoint machine_after (j : joint) (s0 : machine) (evs : list Model_Gcode.event) : option unit * machine :=
  match (match evs with
         | [] => (Some tt, s0)
         | _ :: r => match machine_after j s0 r with (Some _, s) => (serve j evs ;;; ret tt) s | x => x end
         end) with
  | (Some _, s) => perform_all (j_machine j) (map InputIdle (j_idle j evs)) s
  | x => x
  end.
Definition reply_of (j : joint) (s0 : machine) (evs : list Model_Gcode.event) : reply :=
  match evs with
  | [] => reply_with j evs true fzero (fun p => p)
  | _ :: r =>
      match machine_after j s0 r with
      | (Some _, s) => match fst (serve j evs s) with Some x => x | None => reply_with j evs true fzero (fun p => p) end
      | _ => reply_with j evs true fzero (fun p => p)
      end
  end.
(** machine-control.cc: main() gives the parser the home position of the machine
    (gcode-machine-control.cc:1112-1121 GetHomePos) and the machine control as receiver. *)
Definition connected (j : joint) (s0 : machine) (g : gcfg) : Prop :=
  (forall evs, gc_reply g evs = reply_of j s0 evs) /\ (forall a, gc_origin g a = home_pos (j_machine j) a).
