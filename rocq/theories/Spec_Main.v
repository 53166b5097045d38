(** Specification of how the program starts and ends. *)
From Verif Require Import Text Model_Float Model_Main.

(** The command line asks for a dry run. *)
Definition dry_run (os : list opt) : Prop := In ODry os \/ In OSim os \/ In OWav os.
(** The last --priv of the command line, or the default. *)
Definition chosen_privs (os : list opt) : text :=
  fold_left (fun p o => match o with OPriv p' => p' | _ => p end) os (txt "daemon:daemon").

(** [privs] names a user alone, or a user and a group with one colon between. *)
Definition names (privs user : text) (group : option text) : Prop :=
  ~ In ":"%char user /\
  match group with
  | None => privs = user
  | Some g => ~ In ":"%char g /\ privs = user ++ ":"%char :: g
  end.
(** What the process may do is what the user, and the group if there is one, may do. *)
Definition runs_as (u : users) (user : text) (group : option text) (c : cred) : Prop :=
  (exists i, getpwnam u user = Some i /\ ruid c = i /\ euid c = i /\ suid c = i) /\
  match group with
  | None => True
  | Some g => exists j, getgrnam u g = Some j /\ rgid c = j /\ egid c = j /\ sgid c = j
  end.

(** Effects that let G-code, parameters or clients from outside act. *)
Definition exposed (e : effect) : bool :=
  match e with
  | FMachine _ _ _ | FLoadParams _ | FFile _ | FServe _ | FStatus _ | FLoop | FFirmwareStop _ | FSaveParams _ => true
  | _ => false
  end.
(** Effects on the motors, outputs and on the firmware. *)
Definition touches (e : effect) : bool :=
  match e with FHardware | FFirmware | FFirmwareStop _ | FOutputsOff => true | _ => false end.
(** In the trace [x] comes before every [y]. *)
Definition before (t : list (effect * cred)) (x y : effect -> bool) : Prop :=
  forall t1 e t2, t = t1 ++ e :: t2 -> y (fst e) = true -> exists e', In e' t1 /\ x (fst e') = true.
(** ... and after every [y] comes an [x]. *)
Definition followed (t : list (effect * cred)) (y x : effect -> bool) : Prop :=
  forall t1 e t2, t = t1 ++ e :: t2 -> y (fst e) = true -> exists e', In e' t2 /\ x (fst e') = true.
Definition is_config (e : effect) : bool := match e with FConfig => true | _ => false end.
Definition is_listen (e : effect) : bool := match e with FListen _ => true | _ => false end.
Definition is_loop (e : effect) : bool := match e with FLoop => true | _ => false end.
Definition is_firmware (e : effect) : bool := match e with FFirmware => true | _ => false end.
Definition is_stop (e : effect) : bool := match e with FFirmwareStop _ => true | _ => false end.
Definition is_hardware (e : effect) : bool := match e with FHardware => true | _ => false end.
Definition is_off (e : effect) : bool := match e with FOutputsOff => true | _ => false end.
