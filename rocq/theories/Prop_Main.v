(** C79: how the program starts and ends. *)
From Verif Require Import Text Model_Float Model_StringUtil Model_Main Spec_Main.

(** ** Orders in traces, decided *)
Fixpoint beforeb (seen : bool) (x y : effect -> bool) (t : list (effect * cred)) : bool :=
  match t with
  | [] => true
  | e :: r => (negb (y (fst e)) || seen) && beforeb (seen || x (fst e)) x y r
  end.
Lemma beforeb_ok : forall x y t, beforeb false x y t = true -> before t x y.
Proof.
  intros x y t H.
  assert (G : forall t pre seen, (seen = true -> exists e', In e' pre /\ x (fst e') = true) -> beforeb seen x y t = true ->
     forall t1 e t2, t = t1 ++ e :: t2 -> y (fst e) = true -> exists e', In e' (pre ++ t1) /\ x (fst e') = true).
  { clear. induction t as [|a t IH]; intros pre seen Hs Hb t1 e t2 E Hy; [destruct t1; discriminate E|].
    cbn [beforeb] in Hb. apply andb_prop in Hb. destruct Hb as [B1 B2]. destruct t1 as [|a' t1]; injection E as E1 E2; subst.
    - rewrite app_nil_r. apply Hs. rewrite Hy in B1. exact B1.
    - destruct (IH (pre ++ [a']) (seen || x (fst a')) ) with (t1 := t1) (e := e) (t2 := t2) as (e' & I1 & I2); auto.
      + intros Q. apply orb_prop in Q. destruct Q as [Q|Q].
        * destruct (Hs Q) as (e' & I1 & I2). exists e'. split; auto. apply in_or_app; auto.
        * exists a'. split; auto. apply in_or_app. right. now left.
      + exists e'. split; auto. rewrite <- app_assoc in I1. exact I1. }
  intros t1 e t2 E Hy. exact (G t [] false ltac:(discriminate) H t1 e t2 E Hy).
Qed.
Fixpoint followedb (y x : effect -> bool) (t : list (effect * cred)) : bool :=
  match t with
  | [] => true
  | e :: r => (negb (y (fst e)) || existsb (fun e' => x (fst e')) r) && followedb y x r
  end.
Lemma followedb_ok : forall y x t, followedb y x t = true -> followed t y x.
Proof.
  intros y x. induction t as [|a t IH]; intros H t1 e t2 E Hy; [destruct t1; discriminate E|].
  cbn [followedb] in H. apply andb_prop in H. destruct H as [B1 B2]. destruct t1 as [|a' t1]; injection E as E1 E2; subst.
  - rewrite Hy in B1. cbn [negb orb] in B1. apply existsb_exists in B1. destruct B1 as (e' & I1 & I2). eauto.
  - exact (IH B2 t1 e t2 eq_refl Hy).
Qed.

(** A machine to start on: the users bob and daemon, root at the prompt. *)
Definition ex_root : cred := mk_cred 0 0 0 0 0 0 [0; 4; 6].
Definition ex_users : users :=
  mk_users (fun g => if list_eq_dec ascii_dec g (txt "daemon") then Some 1 else None)
           (fun n => if list_eq_dec ascii_dec n (txt "daemon") then Some 1 else if list_eq_dec ascii_dec n (txt "bob") then Some 1000 else None) false false.
Definition ex_env (device switches free : bool) : env :=
  mk_env (txt "/home/bob") true true true true true true device true (fun _ => free) true switches true ex_users true true true ex_root.

(** ** The command line *)
Definition is_dry (o : opt) : bool := match o with ODry | OSim | OWav => true | _ => false end.
Lemma options : forall cwd os s s', read_options cwd os s = Some s' ->
  o_dry s' = o_dry s || existsb is_dry os /\
  o_privs s' = fold_left (fun p o => match o with OPriv p' => p' | _ => p end) os (o_privs s) /\
  o_homing s' = o_homing s || existsb (fun o => match o with OHoming => true | _ => false end) os /\
  o_nohoming s' = o_nohoming s || existsb (fun o => match o with ONoHoming => true | _ => false end) os /\
  o_norange s' = o_norange s || existsb (fun o => match o with ONoRange => true | _ => false end) os /\
  o_noack s' = o_noack s || existsb (fun o => match o with ONoAck => true | _ => false end) os.
Proof.
  intros cwd. induction os as [|o os IH]; intros s s' H; cbn [read_options existsb fold_left] in *.
  - injection H as <-. rewrite !orb_false_r. tauto.
  - destruct (set_option cwd o s) as [s1|] eqn:E; [|discriminate H]. specialize (IH _ _ H).
    destruct s as [sp th tu ho nh nr na dr po st pa da co pr m1]. cbn [set_option] in E.
    destruct o; try (destruct (SFleb _ _); [discriminate E|]); try discriminate E; injection E as <-;
      cbn [o_dry o_privs o_homing o_nohoming o_norange o_noack is_dry] in *; rewrite ?orb_false_l, ?orb_true_r, ?orb_true_l in *; cbn [orb] in *; exact IH.
Qed.

Ltac main_trace v os file :=
  unfold main, run_machine; destruct (read_options (v_cwd v) os settings0) as [s|] eqn:E; [|reflexivity];
  destruct (SFleb fl_ninety (f32_add (o_threshold s) (o_tune s))); [reflexivity|];
  destruct (o_homing s && o_nohoming s); [reflexivity|];
  destruct file as [f|]; cbn [xorb negb andb];
  destruct (0 <? o_port s); cbn [xorb negb andb]; try reflexivity;
  destruct (o_config s); try reflexivity;
  destruct (v_config v && v_machine v && v_mapping v && v_spindle v); cbn [negb]; try reflexivity.
(** All answers of the system. *)
Ltac answers :=
  repeat (match goal with
  | |- context [v_device ?v] => destruct (v_device v)
  | |- context [o_daemon ?s && v_daemon ?v] => destruct (o_daemon s && v_daemon v)
  | |- context [negb (open_server ?v ?c (o_port ?s))] => destruct (open_server v c (o_port s))
  | |- context [o_dry ?s] => destruct (o_dry s)
  | |- context [(euid ?c =? 0) && v_hardware ?v] => destruct ((euid c =? 0) && v_hardware v)
  | |- context [v_switches ?v] => destruct (v_switches v)
  | |- context [v_pru ?v] => destruct (v_pru v)
  | |- context [match (if ?b then ?x else ?y) with Some _ => _ | None => _ end] => destruct (if b then x else y) as [c'|]
  | |- context [v_create ?v] => destruct (v_create v)
  | |- context [v_listen ?v] => destruct (v_listen v)
  | |- context [0 <? o_status ?s] => destruct (0 <? o_status s)
  | |- context [open_server ?v ?c (o_status ?s)] => destruct (open_server v c (o_status s))
  end; cbn [negb andb]; try reflexivity).

(** C79: a dry run leaves motors, outputs and firmware alone. Otherwise they are
    touched only once the configuration is known to be good and, for a server, the port
    is bound. The firmware is started only as root, and not with both end switches of an
    axis pressed. *)
Theorem C79_hardware : forall v os file, let t := fst (main v os file) in
  (dry_run os -> forall e c, In (e, c) t -> touches e = false) /\
  before t is_config touches /\
  (file = None -> before t is_listen touches) /\
  (forall c, In (FFirmware, c) t -> v_switches v = true /\ euid c = 0).
Proof.
  intros v os file t. split; [|split; [|split]].
  - intros Hd. assert (G : forallb (fun e => negb (touches (fst e))) t = true).
    { subst t. main_trace v os file.
      all: assert (D : o_dry s = true) by (destruct (options _ _ _ _ E) as (-> & _); apply orb_true_intro; right; apply existsb_exists;
             destruct Hd as [Hd|[Hd|Hd]]; eexists; split; eauto); rewrite D; cbn [negb andb].
      all: answers. }
    intros e c Hi. rewrite forallb_forall in G. specialize (G _ Hi). now apply negb_true_iff in G.
  - apply beforeb_ok. subst t. main_trace v os file. all: answers.
  - intros ->. apply beforeb_ok. subst t. main_trace v os (@None text). all: answers.
  - assert (G : forallb (fun e => match fst e with FFirmware => v_switches v && (euid (snd e) =? 0) | _ => true end) t = true).
    { subst t. main_trace v os file.
      all: destruct (euid (v_cred v) =? 0) eqn:U; [|answers]; destruct (v_switches v), (v_hardware v); answers; cbn; rewrite ?U; reflexivity. }
    intros c I. rewrite forallb_forall in G. specialize (G _ I). cbn [fst snd] in G. apply andb_prop in G. split; [tauto|]. apply Z.eqb_eq. tauto.
Qed.
Print Assumptions C79_hardware.

(** C79: whenever the event loop has run, the firmware is stopped and the outputs are
    switched off after it; and whenever outputs have been touched and the program ends by
    itself, they are switched off at the end. The exit code tells whether the loop ended
    without a signal, and then only is the queue waited for. *)
Theorem C79_left_off : forall v os file, let t := fst (main v os file) in
  (~ dry_run os -> followed t is_loop is_stop /\ followed t is_loop is_off) /\
  (forall k, snd (main v os file) = Exit k -> followed t is_hardware is_off) /\
  (snd (main v os file) = Exit 0 <-> (exists c, In (FLoop, c) t) /\ v_clean v = true) /\
  (forall flush c, In (FFirmwareStop flush, c) t -> flush = v_clean v).
Proof.
  intros v os file t. split; [|split; [|split]].
  - intros Hd.
    assert (D : forall s, read_options (v_cwd v) os settings0 = Some s -> o_dry s = false).
    { intros s E. destruct (options _ _ _ _ E) as (-> & _). cbn [settings0 o_dry orb].
      destruct (existsb is_dry os) eqn:X; auto. exfalso. apply existsb_exists in X. destruct X as (o & O1 & O2).
      apply Hd. unfold dry_run. destruct o; try discriminate O2; tauto. }
    split; apply followedb_ok; subst t; main_trace v os file; rewrite (D s eq_refl); cbn [negb andb]; answers.
  - intros k. assert (G : match snd (main v os file) with Exit _ => followedb is_hardware is_off t | Aborted => true end = true).
    { subst t. main_trace v os file. all: answers. }
    intros X. rewrite X in G. now apply followedb_ok.
  - assert (G : match snd (main v os file) with Exit 0 => v_clean v && existsb (fun e => is_loop (fst e)) t
                | _ => negb (v_clean v) || negb (existsb (fun e => is_loop (fst e)) t) end = true).
    { subst t. unfold main, run_machine. destruct (v_clean v); main_trace v os file; answers. }
    split.
    + intros X. rewrite X in G. apply andb_prop in G. destruct G as [G1 G2]. split; auto.
      apply existsb_exists in G2. destruct G2 as ([e c] & I1 & I2). destruct e; try discriminate I2. exists c. exact I1.
    + intros [(c & I1) C]. rewrite C in G.
      assert (L : existsb (fun e => is_loop (fst e)) t = true) by (apply existsb_exists; exists (FLoop, c); auto).
      rewrite L in G. destruct (snd (main v os file)) as [[|p|p]|]; try discriminate G; reflexivity.
  - assert (G : forallb (fun e => match fst e with FFirmwareStop b => Bool.eqb b (v_clean v) | _ => true end) t = true).
    { subst t. unfold main, run_machine. destruct (v_clean v); main_trace v os file; answers. }
    intros b c I. rewrite forallb_forall in G. specialize (G _ I). now apply eqb_prop in G.
Qed.
Print Assumptions C79_left_off.

(** C79: the overrides of the command line count, whatever the configuration says. *)
Theorem C79_overrides : forall v os file homing range ack c,
  In (FMachine homing range ack, c) (fst (main v os file)) ->
  (In ONoHoming os -> homing = false) /\ (In OHoming os -> homing = true) /\
  (~ In ONoHoming os -> ~ In OHoming os -> homing = v_homing v) /\
  (In ONoRange os -> range = false) /\ (~ In ONoRange os -> range = v_range v) /\
  (ack = true <-> ~ In ONoAck os /\ file = None).
Proof.
  intros v os file homing range ack c H.
  assert (G : exists s, read_options (v_cwd v) os settings0 = Some s /\ o_homing s && o_nohoming s = false /\
     homing = (if o_nohoming s then false else if o_homing s then true else v_homing v) /\
     range = (if o_norange s then false else v_range v) /\
     ack = negb (o_noack s) && match file with None => true | Some _ => false end).
  { assert (G : forallb (fun e => match fst e with
        | FMachine h r a =>
            match read_options (v_cwd v) os settings0 with
            | Some s => negb (o_homing s && o_nohoming s) &&
                Bool.eqb h (if o_nohoming s then false else if o_homing s then true else v_homing v) &&
                Bool.eqb r (if o_norange s then false else v_range v) &&
                Bool.eqb a (negb (o_noack s) && match file with None => true | Some _ => false end)
            | None => false
            end
        | _ => true end) (fst (main v os file)) = true).
    { unfold main, run_machine. destruct (read_options (v_cwd v) os settings0) as [s|]; [|reflexivity].
      destruct (SFleb fl_ninety (f32_add (o_threshold s) (o_tune s))); [reflexivity|].
      destruct (o_homing s && o_nohoming s); [reflexivity|].
      generalize (if o_nohoming s then false else if o_homing s then true else v_homing v) as h.
      generalize (if o_norange s then false else v_range v) as r. intros r h.
      destruct file as [f|]; cbn [xorb negb andb];
        destruct (0 <? o_port s); cbn [xorb negb andb]; try reflexivity;
        destruct (o_config s); try reflexivity;
        destruct (v_config v && v_machine v && v_mapping v && v_spindle v); cbn [negb]; try reflexivity;
        destruct (o_noack s), r, h; answers. }
    rewrite forallb_forall in G. specialize (G _ H). cbn [fst] in G.
    destruct (read_options (v_cwd v) os settings0) as [s|]; [|discriminate G]. exists s. split; auto.
    apply andb_prop in G. destruct G as [G G4]. apply andb_prop in G. destruct G as [G G3]. apply andb_prop in G. destruct G as [G1 G2].
    apply eqb_prop in G2, G3, G4. apply negb_true_iff in G1. auto. }
  destruct G as (s & E & G1 & -> & -> & ->).
  destruct (options _ _ _ _ E) as (_ & _ & O1 & O2 & O3 & O4). rewrite O1, O2, O3, O4 in *. cbn [settings0 o_homing o_nohoming o_norange o_noack orb] in *.
  assert (X : forall (f : opt -> bool) o, (forall o', f o' = true <-> o' = o) -> (existsb f os = true <-> In o os)).
  { intros f o Hf. rewrite existsb_exists. split; [intros (x & X1 & X2); apply Hf in X2; now subst|intros I; exists o; split; auto; now apply Hf]. }
  pose proof (X (fun o => match o with OHoming => true | _ => false end) OHoming ltac:(intros []; split; congruence)) as X1.
  pose proof (X (fun o => match o with ONoHoming => true | _ => false end) ONoHoming ltac:(intros []; split; congruence)) as X2.
  pose proof (X (fun o => match o with ONoRange => true | _ => false end) ONoRange ltac:(intros []; split; congruence)) as X3.
  pose proof (X (fun o => match o with ONoAck => true | _ => false end) ONoAck ltac:(intros []; split; congruence)) as X4.
  destruct (existsb (fun o => match o with OHoming => true | _ => false end) os),
    (existsb (fun o => match o with ONoHoming => true | _ => false end) os),
    (existsb (fun o => match o with ONoRange => true | _ => false end) os),
    (existsb (fun o => match o with ONoAck => true | _ => false end) os); try discriminate G1; destruct file;
    cbn [negb andb]; repeat split; try tauto; try (intros; discriminate); try (intros; exfalso; tauto); try (intros [? ?]; congruence); try (intros [? ?]; exfalso; tauto).
  all: intros I; first [apply X1 in I | apply X2 in I | apply X3 in I | apply X4 in I]; discriminate I.
Qed.
Print Assumptions C79_overrides.

(** ** Privileges *)
Lemma split_loop_no : forall s cur, ~ In ":"%char s -> split_loop [COLON] cur s = [cur ++ s].
Proof.
  induction s as [|c s IH]; intros cur H; cbn [split_loop]; [now rewrite app_nil_r|].
  assert (C : contains [COLON] c = false).
  { cbn. rewrite orb_false_r. destruct (Ascii.eqb_spec c COLON) as [->|]; auto. exfalso. apply H. now left. }
  rewrite C, IH; [now rewrite <- app_assoc|]. intros X. apply H. now right.
Qed.
Lemma split_loop_shape : forall s cur, ~ In ":"%char cur ->
  (exists a, split_loop [COLON] cur s = [a] /\ cur ++ s = a /\ ~ In ":"%char a) \/
  (exists a b, split_loop [COLON] cur s = [a; b] /\ cur ++ s = a ++ ":"%char :: b /\ ~ In ":"%char a /\ ~ In ":"%char b) \/
  (exists a b c r, split_loop [COLON] cur s = a :: b :: c :: r).
Proof.
  induction s as [|x s IH]; intros cur H; cbn [split_loop].
  - left. exists cur. rewrite app_nil_r. auto.
  - destruct (Ascii.eqb_spec x COLON) as [->|Hx].
    + change (contains [COLON] COLON) with true. cbn match. destruct (IH [] ltac:(intros [])) as [(a & A1 & A2 & A3)|[(a & b & A1 & _)|(a & b & c & r & A1)]]; rewrite A1.
      * right. left. exists cur, a. cbn [app] in A2. rewrite A2. auto.
      * right. right. eauto.
      * right. right. eauto.
    + assert (C : contains [COLON] x = false) by (cbn; rewrite orb_false_r; now apply Ascii.eqb_neq). rewrite C.
      assert (H' : ~ In ":"%char (cur ++ [x])) by (intros X; apply in_app_or in X; destruct X as [X|[X|[]]]; auto).
      destruct (IH (cur ++ [x]) H') as [(a & A1 & A2 & A3)|[(a & b & A1 & A2 & A3)|(a & b & c & r & A1)]]; rewrite A1.
      * left. exists a. rewrite <- app_assoc in A2. auto.
      * right. left. exists a, b. rewrite <- app_assoc in A2. auto.
      * right. right. eauto 8.
Qed.

Lemma drop_ok : forall u privs c c', drop_privileges u privs c = Some c' ->
  exists user group, names privs user group /\ runs_as u user group c' /\ groups c' = groups c /\
    (group = None -> rgid c' = rgid c /\ egid c' = egid c /\ sgid c' = sgid c).
Proof.
  intros u privs c c' H. unfold drop_privileges, split_string in H.
  assert (U : forall name c0 c1, match getpwnam u name with None => None | Some i => setresuid u i c0 end = Some c1 ->
     (exists i, getpwnam u name = Some i /\ ruid c1 = i /\ euid c1 = i /\ suid c1 = i) /\
     groups c1 = groups c0 /\ rgid c1 = rgid c0 /\ egid c1 = egid c0 /\ sgid c1 = sgid c0).
  { intros name c0 c1 X. destruct (getpwnam u name) as [i|]; [|discriminate X]. unfold setresuid in X.
    destruct (_ && _); [|discriminate X]. injection X as <-. cbn. split; eauto. }
  destruct (split_loop_shape privs [] ltac:(intros [])) as [(a & A1 & A2 & A3)|[(a & b & A1 & A2 & A3 & A4)|(a & b & d & r & A1)]];
    rewrite A1 in H; cbn [app] in *.
  - destruct (U _ _ _ H) as (U1 & U2 & U3). exists a, None. split; [split; auto|]. split; [split; auto|]. split; auto.
  - destruct (getgrnam u b) as [g|] eqn:Eg; [|discriminate H]. destruct (setresgid u g c) as [c0|] eqn:Es; [|discriminate H].
    destruct (U _ _ _ H) as (U1 & U2 & U3 & U4 & U5). unfold setresgid in Es. destruct (_ && _) in Es; [|discriminate Es]. injection Es as <-.
    cbn in *. exists a, (Some b). split; [split; auto|]. split; [split; auto; exists g; auto|]. split; auto. discriminate.
  - discriminate H.
Qed.

(** C79: started as root and with a user to change to, the program reads parameters,
    opens G-code files, talks to clients, moves the machine and writes the parameters
    only as that user, and as the group if one is named; from there it cannot become root
    again. If it cannot change to them it ends. *)
Theorem C79_privileges : forall v os file e c,
  euid (v_cred v) = 0 -> chosen_privs os <> [] ->
  In (e, c) (fst (main v os file)) -> exposed e = true ->
  exists user group, names (chosen_privs os) user group /\ runs_as (v_users v) user group c /\
    (euid c <> 0 -> forall u, setresuid u 0 c = None).
Proof.
  intros v os file e c H0 Hp Hi He.
  assert (G : exists c', drop_privileges (v_users v) (chosen_privs os) (v_cred v) = Some c' /\ c = c').
  { revert Hi. unfold main. destruct (read_options (v_cwd v) os settings0) as [s|] eqn:E; [|intros []].
    destruct (options _ _ _ _ E) as (_ & P & _). change (o_privs settings0) with (txt "daemon:daemon") in P. fold (chosen_privs os) in P. rewrite P.
    assert (N : forall c0 l, forallb (fun e => negb (exposed e)) l = true -> In (e, c) (at_cred c0 l) -> False).
    { intros c0 l L X. apply in_map_iff in X. destruct X as (e' & X1 & X2). injection X1 as -> _. rewrite forallb_forall in L. specialize (L _ X2). rewrite He in L. discriminate L. }
    destruct (SFleb fl_ninety (f32_add (o_threshold s) (o_tune s))); [intros []|].
    destruct (o_homing s && o_nohoming s); [intros []|].
    destruct (negb (xorb match file with Some _ => true | None => false end (0 <? o_port s))); [intros []|].
    destruct (o_config s); [|intros []].
    destruct (negb (v_config v && v_machine v && v_mapping v && v_spindle v)); [intros []|].
    set (t0 := [FConfig] ++ (if v_device v then [FSpindleDevice] else []) ++ (if o_daemon s && v_daemon v then [FDaemon] else [])).
    assert (T0 : forallb (fun e => negb (exposed e)) t0 = true) by (unfold t0; destruct (v_device v), (o_daemon s && v_daemon v); reflexivity).
    clearbody t0. destruct (_ && _) in |- *; [intros X; exfalso; exact (N _ _ T0 X)|].
    set (t1 := t0 ++ _).
    assert (T1 : forallb (fun e => negb (exposed e)) t1 = true) by (unfold t1; rewrite forallb_app, T0; destruct file; reflexivity).
    clearbody t1. destruct (_ && _) in |- *; [intros X; exfalso; exact (N _ _ T1 X)|].
    destruct (_ && _) in |- *; [intros X; exfalso; refine (N _ _ _ X); now rewrite forallb_app, T1|].
    destruct (_ && _) in |- *; [intros X; exfalso; refine (N _ _ _ X); now rewrite forallb_app, T1|].
    set (t2 := t1 ++ _).
    assert (T2 : forallb (fun e => negb (exposed e)) t2 = true) by (unfold t2; rewrite forallb_app, T1; destruct (o_dry s); reflexivity).
    clearbody t2. rewrite H0. cbn [Z.eqb andb].
    destruct (length (chosen_privs os)) eqn:L; [apply length_zero_iff_nil in L; contradiction|]. cbn [Nat.eqb negb].
    destruct (drop_privileges (v_users v) (chosen_privs os) (v_cred v)) as [c'|].
    - intros X. exists c'. split; auto.
      assert (R : forall cwd x, In x (fst (run_machine v s file cwd c')) -> snd x = c').
      { intros cwd x. unfold run_machine. destruct (negb (v_create v)); cbn [fst]; intros Y; apply in_map_iff in Y; destruct Y as (y & <- & _); reflexivity. }
      match type of X with context [run_machine v s file ?d c'] => specialize (R d); destruct (run_machine v s file d c') as [t3 en] end. cbn [fst] in *.
      apply in_app_or in X. destruct X as [X|X]; [exfalso; exact (N _ _ T2 X)|]. exact (R _ X).
    - cbn [fst]. intros X. exfalso. refine (N _ _ _ X). rewrite forallb_app, T2. destruct (o_dry s); reflexivity. }
  destruct G as (c' & D & ->). destruct (drop_ok _ _ _ _ D) as (user & group & D1 & D2 & _). exists user, group. split; auto. split; auto.
  destruct D2 as [(i & _ & I1 & I2 & I3) _]. intros Hn u. unfold setresuid. rewrite I1, I2, I3 in *.
  destruct (Z.eqb_spec i 0) as [|]; [contradiction|]. destruct (Z.eqb_spec 0 i) as [|]; [congruence|]. reflexivity.
Qed.
Print Assumptions C79_privileges.

(** C79: changing to a user and group leaves the supplementary groups of root, and
    with a user alone also its group: files of group root stay open to the program.
    (drop_privileges calls neither setgroups nor initgroups.) *)
Theorem C79_groups_refuted : exists v os c,
  In (FLoop, c) (fst (main v os (Some (txt "a.ngc")))) /\ euid (v_cred v) = 0 /\ chosen_privs os <> [] /\
  euid c <> 0 /\ egid c = 0 /\ In 0 (groups c).
Proof.
  exists (ex_env true true true), [OConfig (txt "c"); OPriv (txt "bob")], (mk_cred 1000 1000 1000 0 0 0 [0; 4; 6]).
  vm_compute. repeat split; try discriminate; auto 10.
Qed.
Print Assumptions C79_groups_refuted.

(** C79: the program may end while the firmware it started still runs: it stops the
    firmware only on the way through the event loop. *)
Theorem C79_firmware_left_refuted : exists v os,
  let t := fst (main v os (Some (txt "a.ngc"))) in
  (exists c, In (FFirmware, c) t) /\ (forall e c, In (e, c) t -> is_stop e = false) /\ snd (main v os (Some (txt "a.ngc"))) = Exit 1.
Proof.
  exists (ex_env true true true), [OConfig (txt "c"); OPriv (txt "nobody:nowhere")]. cbv zeta. split; [|split].
  - exists ex_root. vm_compute. tauto.
  - intros e c H. vm_compute in H. repeat (destruct H as [H|H]; [injection H as <- _; reflexivity|]). destruct H.
  - vm_compute. reflexivity.
Qed.
Print Assumptions C79_firmware_left_refuted.

(** C79: a dry run is not without effects: it opens the serial port of the spindle and
    tells a spindle that may be running to stop. The same holds for a second start of
    the program on a port in use: it ends with an error, but has stopped the spindle of
    the first. *)
Theorem C79_dry_run_refuted : exists v os,
  dry_run os /\ (exists c, In (FSpindleDevice, c) (fst (main v os (Some (txt "a.ngc"))))).
Proof.
  exists (ex_env true true true), [ODry; OConfig (txt "c")]. split; [left; now left|]. exists ex_root. vm_compute. tauto.
Qed.
Print Assumptions C79_dry_run_refuted.
Theorem C79_second_start_refuted : exists v os c,
  v_bind v 4000 = false /\ main v os None = ([(FConfig, c); (FSpindleDevice, c)], Exit 1).
Proof.
  exists (ex_env true true false), [OPort 4000; OConfig (txt "c")], ex_root. split; reflexivity.
Qed.
Print Assumptions C79_second_start_refuted.

(** C79: in the background the name of the G-code file, unlike that of the parameters,
    is no longer relative to the directory the program was started in. *)
Theorem C79_daemon_file_refuted : exists v os c,
  v_cwd v = txt "/home/bob" /\
  In (FFile (txt "//a.ngc"), c) (fst (main v os (Some (txt "a.ngc")))) /\
  In (FLoadParams (txt "/home/bob/p"), c) (fst (main v os (Some (txt "a.ngc")))).
Proof.
  exists (ex_env true true true), [ODaemon; OConfig (txt "c"); OPriv []; OParam (txt "p")], ex_root.
  vm_compute. tauto.
Qed.
Print Assumptions C79_daemon_file_refuted.

(** C79: the G-code port may be below 1024, it is bound as root; the status port may not:
    the program then serves G-code without it, and does not end with an error. *)
Theorem C79_status_refuted : exists v os,
  let t := fst (main v os None) in
  (exists c, In (FServe 80, c) t) /\ (forall p, v_bind v p = true) /\ In (OStatus 81) os /\
  (forall p c, ~ In (FStatus p, c) t) /\ snd (main v os None) = Exit 0.
Proof.
  exists (ex_env true true true), [OPort 80; OStatus 81; OConfig (txt "c")]. cbv zeta. split; [|split; [|split; [|split]]].
  - exists (mk_cred 1 1 1 1 1 1 [0; 4; 6]). vm_compute. tauto.
  - reflexivity.
  - cbn. tauto.
  - intros p c H. vm_compute in H. repeat (destruct H as [H|H]; [discriminate H|]). destruct H.
  - vm_compute. reflexivity.
Qed.
Print Assumptions C79_status_refuted.

(** C79: a speed factor must be above zero; one that is no number is taken. *)
Theorem C79_speed_refuted : exists s,
  read_options (txt "/") [OSpeed S754_nan] settings0 = Some s /\ SFltb (f32_of_Z 0) (o_speed s) = false.
Proof. eexists. split; reflexivity. Qed.
Print Assumptions C79_speed_refuted.

(** A start as root with a G-code port, a status port and the default user. *)
Example C79_example :
  main (ex_env false true true) [OPort 4000; OStatus 4001; ONoHoming; OConfig (txt "c"); OParam (txt "p")] None =
  (let d := mk_cred 1 1 1 1 1 1 [0; 4; 6] in
   [(FConfig, ex_root); (FListen 4000, ex_root); (FHardware, ex_root); (FFirmware, ex_root);
    (FMachine false true true, d); (FLoadParams (txt "/home/bob/p"), d); (FServe 4000, d); (FStatus 4001, d);
    (FLoop, d); (FFirmwareStop true, d); (FSaveParams (txt "/home/bob/p"), d); (FOutputsOff, d)], Exit 0).
Proof. vm_compute. reflexivity. Qed.
(** Both end switches of an axis pressed: all off, no firmware. *)
Example C79_example_switches :
  main (ex_env false false true) [OConfig (txt "c")] (Some (txt "a.ngc")) =
  ([(FConfig, ex_root); (FHardware, ex_root); (FOutputsOff, ex_root)], Exit 1).
Proof. vm_compute. reflexivity. Qed.
