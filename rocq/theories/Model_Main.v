(** Model of main() of src/machine-control.cc:355-674: what the program does from its
    start to its exit, for every command line and every answer of the system. What
    happens while it runs (the event loop and all that hangs on it) is one effect here. *)
From Verif Require Import Text Model_Float Model_StringUtil.

(** Credentials of the process (credentials(7)): real, effective and saved user and
    group, supplementary groups. *)
Record cred := mk_cred { ruid : Z; euid : Z; suid : Z; rgid : Z; egid : Z; sgid : Z; groups : list Z }.
(** The user and group database, and whether the kernel finds another reason to refuse
    a change of ids (setresuid(2): EAGAIN). *)
Record users := mk_users { getgrnam : text -> option Z; getpwnam : text -> option Z; refuse_gid : bool; refuse_uid : bool }.
(** setresgid(2), setresuid(2) with three times the same id: without privileges it must
    be one the process has. *)
Definition setresgid (u : users) (g : Z) (c : cred) : option cred :=
  if ((euid c =? 0) || (g =? rgid c) || (g =? egid c) || (g =? sgid c)) && negb (refuse_gid u)
  then Some (mk_cred (ruid c) (euid c) (suid c) g g g (groups c)) else None.
Definition setresuid (u : users) (i : Z) (c : cred) : option cred :=
  if ((euid c =? 0) || (i =? ruid c) || (i =? euid c) || (i =? suid c)) && negb (refuse_uid u)
  then Some (mk_cred i i i (rgid c) (egid c) (sgid c) (groups c)) else None.

Definition COLON : ascii := ":".
(** machine-control.cc:118-153 drop_privileges. [None]: it returns false (the process
    then exits, whatever its ids are). *)
Definition drop_privileges (u : users) (privs : text) (c : cred) : option cred :=
  let user (name : text) (c : cred) :=
    match getpwnam u name with None => None | Some i => setresuid u i c end in
  match split_string privs [COLON] with
  | [name] => user name c
  | [name; group] =>
      match getgrnam u group with
      | None => None
      | Some g => match setresgid u g c with None => None | Some c' => user name c' end
      end
  | _ => None
  end.

(** The command line as getopt_long gives it (389-417); numbers are read by atof and atoi. *)
Inductive opt :=
| OSpeed (x : fl) | OThreshold (x : fl) | OTune (x : fl)
| OHoming | ONoHoming | ONoRange | ONoAck
| ODry | OSim | OWav | ODebug | OSync | OLoop
| OPort (n : Z) | OStatus (n : Z) | OBind (a : text) | OLog (f : text)
| OParam (f : text) | ODaemon | OConfig (f : text) | OPriv (p : text) | OM111 | OHelp | OUnknown.

Record settings := mk_set {
  o_speed : fl; o_threshold : fl; o_tune : fl;
  o_homing : bool; o_nohoming : bool; o_norange : bool; o_noack : bool;
  o_dry : bool; o_port : Z; o_status : Z;
  o_param : text; o_daemon : bool; o_config : option text; o_privs : text; o_m111 : bool }.

Definition fl_ninety : fl := f32_of_Z 90.
(** machine-control.cc:356-363, 423-431; machine-control-config.cc:37 *)
Definition settings0 : settings :=
  mk_set (f32_of_Z 1) (f32_of_Z 10) (f32_of_Z 60) false false false false false (-1) (-1) [] false None (txt "daemon:daemon") false.

(** machine-control.cc:343-352 MakeAbsoluteFile *)
Definition make_absolute (cwd : text) (f : text) : text :=
  match f with
  | [] => []
  | c :: _ => if Ascii.eqb c "/" then f else cwd ++ "/"%char :: f
  end.

(** machine-control.cc:437-491: one option; [None]: usage, the program ends. Bind
    address, log file, debug output, synchronous mode and the output of the simulator
    are left out. *)
Definition set_option (cwd : text) (o : opt) (s : settings) : option settings :=
  let '(mk_set sp th tu ho nh nr na dr po st pa da co pr m1) := s in
  match o with
  | OSpeed x => if SFleb x (f32_of_Z 0) then None else Some (mk_set x th tu ho nh nr na dr po st pa da co pr m1)
  | OThreshold x => Some (mk_set sp x tu ho nh nr na dr po st pa da co pr m1)
  | OTune x => Some (mk_set sp th x ho nh nr na dr po st pa da co pr m1)
  | OHoming => Some (mk_set sp th tu true nh nr na dr po st pa da co pr m1)
  | ONoHoming => Some (mk_set sp th tu ho true nr na dr po st pa da co pr m1)
  | ONoRange => Some (mk_set sp th tu ho nh true na dr po st pa da co pr m1)
  | ONoAck => Some (mk_set sp th tu ho nh nr true dr po st pa da co pr m1)
  | ODry | OSim | OWav => Some (mk_set sp th tu ho nh nr na true po st pa da co pr m1)
  | OPort n => Some (mk_set sp th tu ho nh nr na dr n st pa da co pr m1)
  | OStatus n => Some (mk_set sp th tu ho nh nr na dr po n pa da co pr m1)
  | OParam f => Some (mk_set sp th tu ho nh nr na dr po st (make_absolute cwd f) da co pr m1)
  | ODaemon => Some (mk_set sp th tu ho nh nr na dr po st pa true co pr m1)
  | OConfig f => Some (mk_set sp th tu ho nh nr na dr po st pa da (Some f) pr m1)
  | OPriv p => Some (mk_set sp th tu ho nh nr na dr po st pa da co p m1)
  | OM111 => Some (mk_set sp th tu ho nh nr na dr po st pa da co pr true)
  | OBind _ | OLog _ | ODebug | OSync | OLoop => Some s
  | OHelp | OUnknown => None
  end.
Fixpoint read_options (cwd : text) (os : list opt) (s : settings) : option settings :=
  match os with
  | [] => Some s
  | o :: r => match set_option cwd o s with None => None | Some s' => read_options cwd r s' end
  end.

(** What the program does to the world, in order. *)
Inductive effect :=
| FConfig                            (* the configuration file is read and fine *)
| FSpindleDevice                     (* the serial port of the spindle is opened, the spindle told to stop *)
| FDaemon                            (* the process goes into the background; its directory is / *)
| FListen (port : Z)                 (* the G-code port is bound *)
| FHardware                          (* GPIO and timers are mapped, all outputs off *)
| FFirmware                          (* the firmware is loaded and started *)
| FMachine (homing range ack : bool) (* the machine is created with these settings *)
| FLoadParams (f : text)
| FFile (f : text)                   (* a G-code file is opened *)
| FServe (port : Z)                  (* G-code clients may connect *)
| FStatus (port : Z)                 (* status clients may connect *)
| FLoop                              (* the event loop runs; the machine is operated *)
| FFirmwareStop (flush : bool)
| FSaveParams (f : text)
| FOutputsOff.                       (* all outputs off, GPIO and timers unmapped *)
Inductive ending := Exit (code : Z) | Aborted.

(** Answers of the system. *)
Record env := mk_env {
  v_cwd : text;                      (* directory the program is started in *)
  v_config : bool; v_machine : bool; v_mapping : bool; v_spindle : bool;  (* 543-570: files and sections are fine *)
  v_homing : bool; v_range : bool;   (* what the file says of require-homing and range-check *)
  v_device : bool;                   (* the spindle is one at a serial port, its port opens *)
  v_daemon : bool;                   (* daemon(3) succeeds *)
  v_bind : Z -> bool;                (* the port is not in use *)
  v_hardware : bool;                 (* mapping memory succeeds *)
  v_switches : bool;                 (* no axis has both end switches triggered *)
  v_pru : bool;                      (* the firmware can be loaded *)
  v_users : users;
  v_create : bool;                   (* GCodeMachineControl::Create succeeds *)
  v_listen : bool;                   (* listen(2) succeeds *)
  v_clean : bool;                    (* the event loop ends without a signal *)
  v_cred : cred                      (* credentials at the start *)
}.
(** machine-control.cc:167-194 open_server; ports below 1024 are for root (ip(7)). *)
Definition open_server (v : env) (c : cred) (port : Z) : bool :=
  (0 <=? port) && (port <=? 65535) && ((1024 <=? port) || (port =? 0) || (euid c =? 0)) && v_bind v port.
(** open(2) of a relative name *)
Definition open_path (cwd f : text) : text := make_absolute cwd f.

Definition at_cred (c : cred) (l : list effect) : list (effect * cred) := map (fun e => (e, c)) l.

(** machine-control.cc:613-673, from the creation of the machine on; [off]: what
    happens on leaving main when the destructor of HardwareMapping runs
    (hardware-mapping.cc:48-54), in the order of the source: hardware_mapping lives
    until after SaveParams. *)
Definition run_machine (v : env) (s : settings) (file : option text) (cwd : text) (c : cred)
  : list (effect * cred) * ending :=
  let off := if o_dry s then [] else [FOutputsOff] in
  if negb (v_create v) then (at_cred c off, Exit 1)
  else
    (* 577-579 with 536: overrides *)
    let homing := if o_nohoming s then false else if o_homing s then true else v_homing v in
    let range := if o_norange s then false else v_range v in
    let ack := negb (o_noack s) && match file with None => true | Some _ => false end in
    let serve :=
      match file with
      | Some f => [FFile (open_path cwd f)]
      | None => if v_listen v then [FServe (o_port s)] else []
      end in
    let status :=
      match file with
      | Some _ => []
      | None =>
          if 0 <? o_status s then
            if open_server v c (o_status s) && v_listen v then [FStatus (o_status s)] else []
          else []
      end in
    let stop := if o_dry s then [] else [FFirmwareStop (v_clean v)] in
    (at_cred c ([FMachine homing range ack; FLoadParams (o_param s)] ++ serve ++ status ++ [FLoop] ++ stop ++
                [FSaveParams (o_param s)] ++ off),
     Exit (if v_clean v then 0 else 1)).

(** machine-control.cc:492-612: from the checks of the settings to the creation of
    the machine. A failing drop_privileges may leave other ids for the rest of the exit;
    this is not shown in the trace. *)
Definition main (v : env) (os : list opt) (file : option text) : list (effect * cred) * ending :=
  let c := v_cred v in
  match read_options (v_cwd v) os settings0 with
  | None => ([], Exit 1)
  | Some s =>
      let listening := 0 <? o_port s in
      let has_file := match file with Some _ => true | None => false end in
      if SFleb fl_ninety (f32_add (o_threshold s) (o_tune s)) then ([], Exit 1)
      else if o_homing s && o_nohoming s then ([], Exit 1)
      else if negb (xorb has_file listening) then ([], Exit 1)
      else match o_config s with
      | None => ([], Exit 1)
      | Some _ =>
          if negb (v_config v && v_machine v && v_mapping v && v_spindle v) then ([], Exit 1)
          else
            let t0 := [FConfig] ++ (if v_device v then [FSpindleDevice] else []) ++
                      (if o_daemon s && v_daemon v then [FDaemon] else []) in
            let cwd := if o_daemon s && v_daemon v then ["/"%char] else v_cwd v in
            if negb has_file && negb (open_server v c (o_port s)) then (at_cred c t0, Exit 1)
            else
              let t1 := t0 ++ (if has_file then [] else [FListen (o_port s)]) in
              (* 585-610; hardware-mapping.cc:136-194 *)
              if negb (o_dry s) && negb ((euid c =? 0) && v_hardware v) then (at_cred c t1, Exit 1)
              else if negb (o_dry s) && negb (v_switches v) then (at_cred c (t1 ++ [FHardware; FOutputsOff]), Exit 1)
              else if negb (o_dry s) && negb (v_pru v) then (at_cred c (t1 ++ [FHardware]), Aborted)
              else
                let t2 := t1 ++ (if o_dry s then [] else [FHardware; FFirmware]) in
                let off := if o_dry s then [] else [FOutputsOff] in
                (* 603-611 *)
                match (if (euid c =? 0) && negb (length (o_privs s) =? 0)%nat
                       then drop_privileges (v_users v) (o_privs s) c else Some c) with
                | None => (at_cred c (t2 ++ off), Exit 1)
                | Some c' =>
                    let '(t3, e) := run_machine v s file cwd c' in
                    (at_cred c t2 ++ t3, e)
                end
      end
  end.
