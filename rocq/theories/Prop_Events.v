(** Theorems about what the receiver of the G-code parser sees: C15. *)
From Coq Require Import SpecFloat.
From Verif Require Import Base Text Model_StringUtil Model_Float Model_Lexer Model_Axis Model_Number Model_Gcode
  Spec_Expr Spec_Line Proofs_Expr Proofs_Value Proofs_Fuel Proofs_Total Proofs_Progress Spec_Events Proofs_Run Proofs_Events
  Prop_Expr Prop_Line.

(** What is done with a parser: lines and files are given to it. *)
Inductive call := GiveLine (line : text) | GiveFile (lines : list text).
Definition give (c : gcfg) (f : nat) (x : call) : G unit :=
  match x with GiveLine line => parse_block c f line | GiveFile lines => read_file c f lines end.
Fixpoint give_all (c : gcfg) (f : nat) (l : list call) : G unit :=
  match l with [] => ret tt | x :: r => give c f x ;;; give_all c f r end.

Lemma defaults_events : forall c s, exists s' o, init_program_defaults c s = Done tt s' /\ g_running s' = g_running s /\
  g_events s' = reset o ++ g_events s.
Proof. intros c s. eexists _, _. split; [reflexivity|]. split; [reflexivity|]. reflexivity. Qed.

Lemma origin_events : forall c s0 o, g_running s0 = false -> g_events s0 = reset o ->
  yields (init_coord_systems c) s0 (fun _ s => g_running s = false /\ exists o' name, g_events s = EOrigin o' name :: reset o).
Proof.
  intros c s0 o R V. unfold init_coord_systems. set (P := fun s => g_running s = false /\ g_events s = reset o).
  assert (Hp : forall A (m : G A) s, keeps m -> P s -> yields m s (fun _ s' => P s')).
  { intros A m s H Hs. eapply y_weaken; [apply H|]. intros a s' (e & -> & _). exact Hs. }
  assert (P0 : P s0) by (split; assumption).
  eapply y_bind; [apply Hp; [apply k_get|exact P0]|]. intros cs s1 P1.
  eapply y_bind with (P := fun _ s => P s); [exact P1|]. intros u2 s2 P2.
  eapply y_bind; [apply Hp; [apply k_read|exact P2]|]. intros [found v] s3 P3. cbv beta in P3.
  eapply y_bind with (P := fun _ s => P s).
  { destruct (_ || _ || _); [|exact P3]. eapply y_bind with (P := fun _ s => P s); [|intros u s4 P4; exact P4].
    unfold store_parameter. eapply y_bind; [apply Hp; [apply k_get|exact P3]|]. intros [m|] s4 P4; [|exact P4].
    cbv zeta. destruct (_ || _); [apply Hp; [apply k_err|exact P4]|exact P4]. }
  intros v' s4 P4. cbv zeta. destruct (_ && _); [|exact I].
  eapply y_bind with (P := fun _ s => P s); [exact P4|]. intros u5 s5 (R5 & V5). unfold inform_origin.
  eapply y_bind with (P := fun _ s => s = s5); [reflexivity|]. intros o' s6 ->. split; [exact R5|]. cbn. rewrite V5. eauto.
Qed.
Lemma y_done : forall A (m : G A) s Q a s', yields m s Q -> m s = Done a s' -> Q a s'.
Proof. unfold yields. intros A m s Q a s' H E. rewrite E in H. exact H. Qed.
Lemma y_known : forall A (m : G A) s (Q : A -> gst -> Prop) a s', m s = Done a s' -> Q a s' -> yields m s Q.
Proof. unfold yields. intros A m s Q a s' E H. rewrite E. exact H. Qed.
Strategy expand [new_parser].
Lemma new_fits : forall c params s, new_parser c params = Done tt s -> fits c s.
Proof.
  intros c params s H. apply (y_done _ (init_program_defaults c ;;; init_coord_systems c) (fresh c params) (fun _ s => fits c s) tt s); [|exact H].
  eapply y_bind with (P := fun _ s => g_running s = false /\ exists o, g_events s = reset o).
  - destruct (defaults_events c (fresh c params)) as (s1 & o & E1 & R1 & V1). eapply y_known; [exact E1|].
    split; [rewrite R1; reflexivity|]. exists o. rewrite V1. apply app_nil_r.
  - intros u s1 (R1 & o & V1). eapply y_weaken; [apply origin_events; eassumption|].
    intros u' s2 (R & o' & name & V). unfold fits. rewrite R, V. split; [apply lg_new|reflexivity].
Qed.

(** ** C15 *)
(** C15: whatever is given to a new parser, with any answers of the receiver: what the
    receiver sees is legal (Spec_Events). *)
Theorem C15_protocol : forall c params s0 f calls s,
  new_parser c params = Done tt s0 -> give_all c f calls s0 = Done tt s -> legal c (g_events s).
Proof.
  intros c params s0 f calls s Hnew.
  assert (H0 := new_fits _ _ _ Hnew).
  clear Hnew. revert s0 H0. induction calls as [|x calls IH]; intros s0 H0 E; [injection E as <-; apply H0|].
  cbn [give_all] in E. unfold bind at 1 in E. destruct (give c f x s0) as [[] s1| |] eqn:E1; [|discriminate..].
  apply (IH s1); [|exact E]. destruct x as [line|lines]; cbn [give] in E1.
  - pose proof (y_parse_block c f line s0 H0) as Y. unfold yields in Y. rewrite E1 in Y. exact Y.
  - unfold read_file in E1. pose proof (y_each c (parse_block c f) (y_parse_block c f) lines s0 H0) as Y.
    unfold yields, bind in *. destruct (each (parse_block c f) lines s0) as [u s2| |]; [|discriminate..].
    injection E1 as <-. destruct Y as (Y1 & Y2). split; [apply lg_stream, Y1|exact Y2].
Qed.
Print Assumptions C15_protocol.

(** The last event of a line is its completion. *)
Theorem C15_line_done : forall c f line s s', parse_block c f line s = Done tt s' -> exists h, g_events s' = EBlockDone :: h.
Proof.
  intros c [|f] line s s' E; [discriminate|]. cbn [parse_block] in E. unfold bind in E.
  destruct (block_loop _ _ _ _ s) as [u s1| |]; [|discriminate..]. injection E as <-. eexists. reflexivity.
Qed.
Print Assumptions C15_line_done.

(** For a line without WHILE, outside a loop, there is no other completion of a line, no end
    of the stream, and if a program is started the receiver gets the parser itself. *)
Theorem C15_one_line : forall c f line s s', reads_numbers c -> ~ In NUL line -> no_while line ->
  g_do_while s = false -> g_iterating s = false -> parse_block c f line s = Done tt s' ->
  g_do_while s' = false /\ g_iterating s' = false /\
  exists l, g_events s' = EBlockDone :: l ++ g_events s /\
    forall e, In e l -> e <> EBlockDone /\ e <> EFinished true /\ e <> EStart false.
Proof.
  intros c f line s s' N Hn Hw Hc Hi E. pose proof (y_line c N f line s Hn Hw Hc Hi) as Y. unfold yields in Y. rewrite E in Y.
  destruct Y as (C & J & l & El & F). split; [exact C|]. split; [exact J|]. exists l. split; [exact El|]. rewrite Forall_forall in F.
  intros e He. specialize (F e He). repeat split; intros ->; cbn in F; [contradiction|contradiction|discriminate].
Qed.
Print Assumptions C15_one_line.

(** In a file of such lines every line is completed once, and at its end the end of the
    stream is reported, once. *)
Definition is_line_done (e : event) : bool := match e with EBlockDone => true | _ => false end.
Definition is_stream_end (e : event) : bool := match e with EFinished b => b | _ => false end.
Theorem C15_file : forall c f lines s s', reads_numbers c -> (forall line, In line lines -> ~ In NUL line /\ no_while line) ->
  g_do_while s = false -> g_iterating s = false -> read_file c f lines s = Done tt s' ->
  exists l, g_events s' = EFinished true :: l ++ g_events s /\
    length (filter is_line_done l) = length lines /\ filter is_stream_end l = [].
Proof.
  intros c f lines s s' N Hl Hc Hi E. unfold read_file in E.
  assert (Y : yields (each (parse_block c f) lines) s (fun _ s1 => exists l, g_events s1 = l ++ g_events s /\
     length (filter is_line_done l) = length lines /\ filter is_stream_end l = [])).
  { clear E. revert s Hl Hc Hi. induction lines as [|line lines IH]; intros s Hl Hc Hi; cbn [each]; [exists []; auto|].
    destruct (Hl line (or_introl eq_refl)) as (Hn & Hw). pose proof (y_line c N f line s Hn Hw Hc Hi) as Y.
    eapply y_bind; [exact Y|]. intros u s1 (C & J & l & El & F). eapply y_weaken; [apply IH; auto; intros x Hx; apply Hl; now right|].
    intros u' s2 (l2 & E2 & H2 & H3). exists (l2 ++ EBlockDone :: l). split; [rewrite E2, El; rewrite <- app_assoc; reflexivity|].
    assert (Z : filter is_line_done l = [] /\ filter is_stream_end l = []).
    { clear - F. induction F as [|e l He F (I1 & I2)]; [auto|]. cbn. rewrite I1, I2. destruct e as [| [|] | | | | | | | | | | | | | | | | | | | |]; cbn in *; try contradiction; auto. }
    destruct Z as (Z1 & Z2). rewrite !filter_app. cbn. rewrite Z1, Z2, app_length, H2, H3. cbn. split; [lia|reflexivity]. }
  unfold yields, bind in *. destruct (each (parse_block c f) lines s) as [u s1| |]; [|discriminate..].
  injection E as <-. destruct Y as (l & El & H). exists l. cbn. rewrite El. auto.
Qed.
Print Assumptions C15_file.

(** ** Example *)
Definition kinds (s : gst) : list Z := map (fun e => match e with
  | EStart b => if b then 1 else -1 | EFinished b => if b then 3 else 2 | ECommandDone _ _ => 4 | EBlockDone => 5 | EMove _ _ _ => 6 | _ => 0 end)
  (rev (g_events s)).
Example C15_example :
  match read_file ex_cfg 200 [txt "#1=2"; txt "G1 X[#1]"; txt "Y3 F100"; txt "M2"; txt "; done"] ex_state with
  | Done _ s => kinds s = [0; 0; 0; 0; 0; 4; 5; 1; 0; 6; 4; 5; 0; 6; 4; 5; 2; 0; 0; 0; 0; 4; 5; 5; 3]
  | _ => False
  end.
Proof. vm_compute. reflexivity. Qed.

(** The pointer given to the receiver when a program starts in a WHILE loop was never set. *)
Theorem C15_start_in_loop_refuted : ~ (forall c params s0 f lines s, reads_numbers c ->
  new_parser c params = Done tt s0 -> read_file c f lines s0 = Done tt s -> ~ In (EStart false) (g_events s)).
Proof.
  intros H.
  assert (B : match new_parser ex_cfg (Some []) with
    | Done _ s0 => match read_file ex_cfg 100 [txt "WHILE [#1 LT 1] DO"; txt "G1 X1" ++ [LF]; txt "#1=1"; txt "END"] s0 with
                   | Done _ s => existsb (fun e => match e with EStart false => true | _ => false end) (g_events s)
                   | _ => false end
    | _ => false end = true) by (vm_compute; reflexivity).
  destruct (new_parser ex_cfg (Some [])) as [[] s0| |] eqn:E0; [|discriminate..].
  destruct (read_file ex_cfg 100 [txt "WHILE [#1 LT 1] DO"; txt "G1 X1" ++ [LF]; txt "#1=1"; txt "END"] s0) as [[] s| |] eqn:E; [|discriminate..].
  apply (H ex_cfg _ s0 100%nat _ s ex_reads E0 E). apply existsb_exists in B as (e & He & B). destruct e as [[|]| | | | | | | | | | | | | | | | | | | | |]; try discriminate. exact He.
Qed.
Print Assumptions C15_start_in_loop_refuted.
