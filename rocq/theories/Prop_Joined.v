(** C81: G-code parser, machine control and planner together; all agree on the position. *)
From Coq Require Import SpecFloat.
From Verif Require Import Base Text Model_Float Model_Axis Model_Number Model_Gcode Model_Arc Spec_Track Proofs_Progress Proofs_Track Prop_Expr Prop_Line Prop_Events
  Model_Hardware Model_Machine Model_Planner Model_Whole Model_Joined
  Spec_Machine Spec_Planner Spec_Whole Spec_Joined Proofs_Machine Proofs_Machine2 Proofs_Machine3 Proofs_Planner Proofs_Whole Proofs_Joined Prop_Whole.
Open Scope Z_scope.

(** ** The parser *)

(** Whatever lines are given to a parser and whatever its receiver does, the position the
    parser reckons with is the one that follows from what it asked for, so long as no move
    was refused. *)
Lemma give_follows : forall c f calls t0 t, give_all c f calls t0 = Done tt t -> follows c t0 -> follows c t.
Proof.
  intros c f. induction calls as [|x l IH]; intros t0 t E F; [injection E as <-; exact F|]. cbn [give_all] in E. unfold Model_Gcode.bind at 1 in E.
  destruct (give c f x t0) as [[] t1| |] eqn:E1; [|discriminate..]. apply (IH t1 t E). destruct x as [line|lines]; cbn [give] in E1.
  - exact (y_done _ _ _ _ _ _ (i_parse_block c f line t0 F) E1).
  - exact (y_done _ _ _ _ _ _ (i_read_file c f lines t0 F) E1).
Qed.
Lemma new_follows : forall c params t0, new_parser c params = Done tt t0 -> follows c t0.
Proof.
  intros c params t0 H. refine (y_done _ (Model_Gcode.bind (init_program_defaults c) (fun _ => init_coord_systems c)) (fresh c params) (fun _ s => follows c s) tt t0 _ H).
  eapply y_bind; [exact (i_defaults c (fresh c params) (fresh_follows c params))|]. intros [] s F. exact (i_systems c s F).
Qed.
Theorem C81_parser : forall c params f calls t0 t, new_parser c params = Done tt t0 -> give_all c f calls t0 = Done tt t ->
  nothing_refused c (g_events t) -> forall a, g_pos t a = believed c (g_events t) a.
Proof. intros c params f calls t0 t N E. exact (give_follows c f calls t0 t E (new_follows c params t0 N)). Qed.
Print Assumptions C81_parser.

(** ** Parser and machine *)

(** The parser's receiver is the machine control. Whatever lines are given: the path of the
    planner ends where the parser thinks the machine is, to the step, for each axis that was
    homed whenever homing it was asked for. *)
Theorem C81_agree : forall j h answers s0 g p a, machine_init (j_machine j) h answers = Some s0 -> plans_for (j_machine j) (m_hw s0) p -> connected j s0 g ->
  forall params f calls t0 t s, new_parser g params = Done tt t0 -> give_all g f calls t0 = Done tt t ->
    machine_after j s0 (g_events t) = (Some tt, s) -> nothing_refused g (g_events t) -> well_homed j s0 a (g_events t) ->
    ends p (at_home p) (planner_calls (j_machine j) (m_hw s0) (m_log s)) a = in_steps (j_machine j) p a (g_pos t a).
Proof.
  intros j h answers s0 g p a I (PS & PR & _ & _ & PM & _) Jn params f calls t0 t s N E M R W.
  rewrite (C81_parser g params f calls t0 t N E R a). unfold in_steps. rewrite <- PS. refine (sync j s0 g p a Jn (g_events t) s (init_log _ _ _ _ I) _ M R W (m_hw s0)).
  intros x. unfold home_pos. rewrite PM, PR. now destruct (c_home (j_machine j) x).
Qed.
Print Assumptions C81_agree.

(** The steps: between two moments when the machine rests, without homing or probing in
    between, every motor of the axis has made just the steps between the positions the parser
    had at these moments. *)
Theorem C81_steps : forall j h answers s0 g p a, machine_init (j_machine j) h answers = Some s0 -> plans_for (j_machine j) (m_hw s0) p -> willing p -> connected j s0 g ->
  forall params f calls more t0 t1 t2 between s1 s2, new_parser g params = Done tt t0 -> give_all g f calls t0 = Done tt t1 -> give_all g f more t1 = Done tt t2 ->
    g_events t2 = between ++ g_events t1 -> existsb moves_blindly between = false ->
    machine_after j s0 (g_events t1) = (Some tt, s1) -> machine_after j s0 (g_events t2) = (Some tt, s2) ->
    rests j (g_events t1) -> rests j (g_events t2) -> nothing_refused g (g_events t2) -> well_homed j s0 a (g_events t2) ->
  forall st1 st2 m, plan (j_machine j) (m_hw s0) p s1 = Ok st1 -> plan (j_machine j) (m_hw s0) p s2 = Ok st2 -> drives (m_hw s0) m a ->
    sent_steps m st2 - sent_steps m st1 = in_steps (j_machine j) p a (g_pos t2 a) - in_steps (j_machine j) p a (g_pos t1 a).
Proof.
  intros j h answers s0 g p a I PF W Jn params f calls more t0 t1 t2 between s1 s2 N E1 E2 Ev B M1 M2 R1 R2 NR WH st1 st2 m P1 P2 D.
  pose proof (init_known _ _ _ _ I) as K0. pose proof (rests_halted j s0 _ _ K0 M1 R1) as H1. pose proof (rests_halted j s0 _ _ K0 M2 R2) as H2.
  pose proof (plan_halted _ _ _ _ _ H1 P1) as HT1. pose proof (plan_halted _ _ _ _ _ H2 P2) as HT2.
  assert (NR1 : nothing_refused g (g_events t1)) by (rewrite Ev in NR; clear - NR; induction between; [exact NR|apply IHbetween, NR]).
  assert (WH1 : well_homed j s0 a (g_events t1)) by (rewrite Ev in WH; clear - WH; induction between; [exact WH|apply IHbetween, WH]).
  assert (E12 : give_all g f (calls ++ more) t0 = Done tt t2).
  { clear - E1 E2. revert t0 E1. induction calls as [|x l IH]; intros t0 E1; [injection E1 as ->; exact E2|]. cbn [app give_all] in *. unfold Model_Gcode.bind at 1 in E1. unfold Model_Gcode.bind at 1.
    destruct (give g f x t0) as [u t| |]; [|discriminate..]. exact (IH t E1). }
  rewrite <- (C81_agree j h answers s0 g p a I PF Jn params f calls t0 t1 s1 N E1 M1 NR1 WH1).
  rewrite <- (C81_agree j h answers s0 g p a I PF Jn params f (calls ++ more) t0 t2 s2 N E12 M2 NR WH).
  rewrite Ev in M2. destruct (between_calls j s0 _ s1 M1 between s2 M2 B) as (es & Ee & F). destruct (between_moves _ _ _ _ Ee F) as (new & L & OM).
  destruct PF as (_ & _ & _ & _ & _ & PH). assert (T : turns_for p m a) by (intros x; rewrite PH; apply D).
  rewrite plan_is in P1, P2. unfold sent_steps. rewrite (halted_inv p _ st2 W P2 HT2 m a T), (halted_inv p _ st1 W P1 HT1 m a T).
  rewrite L, calls_app, legs_app, sum_app, ends_app, (sum_moves p (planner_calls _ _ new) _ a (OM _)). lia.
Qed.
Print Assumptions C81_steps.

(** ** An example: the machine with two axes, X homed to its far end

    Coordinates are counted from there. *)
Definition plain_libm : libm :=
  mk_libm (fun _ _ => f32_of_Z 0) (fun x y => f32_sqrt (f32_add (f32_mul x x) (f32_mul y y))) (fun _ => f32_of_Z 1) (fun x => x) (fun x => x) (fun _ => 0).
Definition jx : joint := mk_joint wc plain_libm (fun _ => []) (fun _ => (0%nat, Some 0%nat)) (fun m => m) (fun _ => []).
Definition jg (s0 : machine) : gcfg :=
  mk_gcfg (home_pos wc) true strtof_decimal (fun _ x => x) f32_mul (fun x _ => x) (fun x _ => x) (fun _ _ _ _ _ _ => None) (fun _ => 0) (reply_of jx s0).
Definition j0 (ans : list Z) : machine := match machine_init wc wh ans with Some s => s | None => start_state wc wh [] end.
Definition jt0 (ans : list Z) : gst := match new_parser (jg (j0 ans)) (Some []) with Done _ t => t | _ => fresh (jg (j0 ans)) (Some []) end.
Definition jrun (ans : list Z) (ls : list text) (t0 : gst) : gst := match give_all (jg (j0 ans)) 60 (map GiveLine ls) t0 with Done _ t => t | _ => t0 end.
Definition jafter (ans : list Z) (t : gst) : machine := snd (machine_after jx (j0 ans) (g_events t)).
Definition j_answers : list Z := firstn 14 w_answers ++ [0; 1; 0; 0; 0; 0; 0; 0; 0; 0].
Definition j_lines1 : list text := [txt "G28 X0"; txt "G1 X-70 Y10 F1200"; txt "G4 P1"].
Definition j_lines2 : list text := [txt "G0 X-40"; txt "G4 P1"].
Definition jt1 : gst := jrun j_answers j_lines1 (jt0 j_answers).
Definition jt2 : gst := jrun j_answers j_lines2 jt1.
Lemma j_connected : forall ans, connected jx (j0 ans) (jg (j0 ans)).
Proof. split; reflexivity. Qed.
Lemma j_new : forall ans, (match new_parser (jg (j0 ans)) (Some []) with Done _ _ => true | _ => false end) = true -> new_parser (jg (j0 ans)) (Some []) = Done tt (jt0 ans).
Proof. intros ans H. unfold jt0. destruct (new_parser _ _) as [[] t| |]; try discriminate H. reflexivity. Qed.
Lemma j_given : forall ans ls t0, (match give_all (jg (j0 ans)) 60 (map GiveLine ls) t0 with Done _ _ => true | _ => false end) = true ->
  give_all (jg (j0 ans)) 60 (map GiveLine ls) t0 = Done tt (jrun ans ls t0).
Proof. intros ans ls t0 H. unfold jrun. destruct (give_all _ _ _ _) as [[] t| |]; try discriminate H. reflexivity. Qed.
Lemma j_done : forall ans t, fst (machine_after jx (j0 ans) (g_events t)) = Some tt -> machine_after jx (j0 ans) (g_events t) = (Some tt, jafter ans t).
Proof. intros ans t H. unfold jafter. destruct (machine_after _ _ _) as [r s]. cbn [fst] in H. now subst. Qed.
(** The hypotheses that are propositions, computed *)
Fixpoint refused_none (c : gcfg) (evs : list Model_Gcode.event) : bool :=
  match evs with
  | [] => true
  | e :: r => refused_none c r && match e with EMove _ _ _ | EArc _ _ _ _ _ _ | ESpline _ _ _ _ _ => r_ok (gc_reply c evs) | _ => true end
  end.
Lemma refused_none_ok : forall c evs, refused_none c evs = true -> nothing_refused c evs.
Proof. intros c. induction evs as [|e r IH]; intros H; [exact I|]. cbn [refused_none] in H. apply andb_true_iff in H. destruct H as [H1 H2]. split; [exact (IH H1)|]. destruct e; auto. Qed.
Fixpoint homed_well (j : joint) (s0 : machine) (a : axis) (evs : list Model_Gcode.event) : bool :=
  match evs with
  | [] => true
  | e :: r =>
      homed_well j s0 a r &&
      match e with
      | EHome which => implb (which a) (existsb (axis_eqb a) (axes_to_home (j_machine j) (bitmap which) (c_home_order (j_machine j))) && negb (stop_on (snd (machine_after j s0 r))))
      | EArc _ _ _ _ _ _ | ESpline _ _ _ _ _ => match moves_of j e with [] => false | _ => true end
      | _ => true
      end
  end.
Lemma homed_well_ok : forall j s0 a evs, homed_well j s0 a evs = true -> well_homed j s0 a evs.
Proof.
  intros j s0 a. induction evs as [|e r IH]; intros H; [exact I|]. cbn [homed_well] in H. apply andb_true_iff in H. destruct H as [H1 H2]. split; [exact (IH H1)|].
  destruct e; auto; try (intros X; rewrite X in H2; discriminate H2).
  intros X. rewrite X in H2. cbn [implb] in H2. apply andb_true_iff in H2. destruct H2 as [H2 H3]. split; [|now apply negb_true_iff].
  apply existsb_exists in H2. destruct H2 as (b & Ib & E). destruct (axis_eqb_spec a b); [now subst|discriminate E].
Qed.
Definition j_between : list Model_Gcode.event := firstn (length (g_events jt2) - length (g_events jt1)) (g_events jt2).
Definition j_ends (ans : list Z) (t : gst) (a : axis) : Z := ends (wp (m_hw (j0 ans))) (at_home (wp (m_hw (j0 ans)))) (planner_calls wc (m_hw (j0 ans)) (m_log (jafter ans t))) a.
Definition j_steps (ans : list Z) (t : gst) (a : axis) : Z := in_steps wc (wp (m_hw (j0 ans))) a (g_pos t a).
Definition j_sent (ans : list Z) (t : gst) : option Z := match plan wc (m_hw (j0 ans)) (wp (m_hw (j0 ans))) (jafter ans t) with Ok st => Some (sent_steps M1 st) | Undefined => None end.
Example C81_example :
  machine_init wc wh j_answers = Some (j0 j_answers) /\ plans_for wc (m_hw (j0 j_answers)) (wp (m_hw (j0 j_answers))) /\ willing (wp (m_hw (j0 j_answers))) /\
  connected jx (j0 j_answers) (jg (j0 j_answers)) /\ new_parser (jg (j0 j_answers)) (Some []) = Done tt (jt0 j_answers) /\
  give_all (jg (j0 j_answers)) 60 (map GiveLine j_lines1) (jt0 j_answers) = Done tt jt1 /\ give_all (jg (j0 j_answers)) 60 (map GiveLine j_lines2) jt1 = Done tt jt2 /\
  existsb moves_blindly j_between = false /\
  machine_after jx (j0 j_answers) (g_events jt1) = (Some tt, jafter j_answers jt1) /\ machine_after jx (j0 j_answers) (g_events jt2) = (Some tt, jafter j_answers jt2) /\
  nothing_refused (jg (j0 j_answers)) (g_events jt2) /\ well_homed jx (j0 j_answers) AX (g_events jt2) /\ drives (m_hw (j0 j_answers)) M1 AX.
Proof.
  split; [reflexivity|]. split; [repeat split|]. split; [intros l; reflexivity|]. split; [apply j_connected|]. split; [apply j_new; vm_compute; reflexivity|].
  split; [apply j_given; vm_compute; reflexivity|]. split; [apply j_given; vm_compute; reflexivity|]. split; [vm_compute; reflexivity|].
  split; [apply j_done; vm_compute; reflexivity|]. split; [apply j_done; vm_compute; reflexivity|]. split; [apply refused_none_ok; vm_compute; reflexivity|]. split; [apply homed_well_ok; vm_compute; reflexivity|].
  intros b. split; [|intros ->; vm_compute; reflexivity]. intros H. destruct b; [reflexivity| | | | | | | | |]; vm_compute in H; discriminate H.
Qed.
Example C81_example_rests : rests jx (g_events jt1) /\ rests jx (g_events jt2).
Proof. split; vm_compute; right; right; right; exact I. Qed.
Lemma front : forall A (x y l : list A), x = l ++ y -> x = firstn (length x - length y) x ++ y.
Proof. intros A x y l ->. rewrite app_length, Nat.add_sub, firstn_app, Nat.sub_diag, firstn_all. cbn [firstn]. now rewrite app_nil_r. Qed.
Example C81_example_between : g_events jt2 = j_between ++ g_events jt1.
Proof.
  assert (K : forall ls t, forallb (fun l => harmless_line l) ls = true -> g_do_while t = false -> g_iterating t = false ->
    (match give_all (jg (j0 j_answers)) 60 (map GiveLine ls) t with Done _ _ => true | _ => false end) = true -> exists l, g_events (jrun j_answers ls t) = l ++ g_events t).
  { intros ls t F D I H. apply j_given in H. revert t D I H. generalize (jrun j_answers ls) as run. intros run t. generalize (run t) as t'. revert t.
    induction ls as [|x ls IH]; intros t t' D I H; [injection H as <-; now exists []|]. cbn [map give_all give forallb] in *. apply andb_true_iff in F. destruct F as [F1 F2].
    unfold Model_Gcode.bind at 1 in H. destruct (parse_block (jg (j0 j_answers)) 60 x t) as [[] t1| |] eqn:E; [|discriminate..].
    destruct (harmless_line_right x F1) as [HN W].
    destruct (C15_one_line (jg (j0 j_answers)) 60 x t t1 (decimal_reads (jg (j0 j_answers)) eq_refl) ltac:(apply HN) W D I E) as (D1 & I1 & l & El & _).
    destruct (IH F2 t1 t' D1 I1 H) as (l2 & E2). exists (l2 ++ EBlockDone :: l). rewrite E2, El, <- app_assoc. reflexivity. }
  destruct (K j_lines2 jt1) as (l & El); [vm_compute; reflexivity|vm_compute; reflexivity|vm_compute; reflexivity|vm_compute; reflexivity|].
  exact (front _ (g_events jt2) (g_events jt1) l El).
Qed.
(** Rests at 30 mm and at 60 mm: 3000 steps in between. *)
Example C81_example_steps :
  map (j_ends j_answers jt1) [AX; AY] = [3000; 1000] /\ map (j_steps j_answers jt1) [AX; AY] = [3000; 1000] /\
  map (j_ends j_answers jt2) [AX; AY] = [6000; 1000] /\ map (j_steps j_answers jt2) [AX; AY] = [6000; 1000] /\
  match j_sent j_answers jt1, j_sent j_answers jt2 with Some x, Some y => y - x = 3000 | _, _ => False end.
Proof. split; [vm_compute; reflexivity|]. split; [vm_compute; reflexivity|]. split; [vm_compute; reflexivity|]. split; [vm_compute; reflexivity|]. vm_compute. reflexivity. Qed.

(** ** Where they do not agree *)
Lemma j_apart : forall ans ls a, machine_init wc wh ans = Some (j0 ans) ->
  (match new_parser (jg (j0 ans)) (Some []) with Done _ _ => true | _ => false end) = true ->
  (match give_all (jg (j0 ans)) 60 (map GiveLine ls) (jt0 ans) with Done _ _ => true | _ => false end) = true ->
  fst (machine_after jx (j0 ans) (g_events (jrun ans ls (jt0 ans)))) = Some tt ->
  (j_ends ans (jrun ans ls (jt0 ans)) a =? j_steps ans (jrun ans ls (jt0 ans)) a) = false ->
  exists j h s0 g p params t0 t s, machine_init (j_machine j) h ans = Some s0 /\ plans_for (j_machine j) (m_hw s0) p /\ connected j s0 g /\
    new_parser g params = Done tt t0 /\ give_all g 60 (map GiveLine ls) t0 = Done tt t /\ machine_after j s0 (g_events t) = (Some tt, s) /\
    (refused_none (jg (j0 ans)) (g_events (jrun ans ls (jt0 ans))) = true -> nothing_refused g (g_events t)) /\
    (homed_well jx (j0 ans) a (g_events (jrun ans ls (jt0 ans))) = true -> well_homed j s0 a (g_events t)) /\
    ends p (at_home p) (planner_calls (j_machine j) (m_hw s0) (m_log s)) a <> in_steps (j_machine j) p a (g_pos t a).
Proof.
  intros ans ls a H1 H2 H3 H4 H5. exists jx, wh, (j0 ans), (jg (j0 ans)), (wp (m_hw (j0 ans))), (Some []), (jt0 ans), (jrun ans ls (jt0 ans)), (jafter ans (jrun ans ls (jt0 ans))).
  split; [exact H1|]. split; [repeat split|]. split; [apply j_connected|]. split; [exact (j_new ans H2)|]. split; [exact (j_given _ _ _ H3)|]. split; [exact (j_done _ _ H4)|].
  split; [apply refused_none_ok|]. split; [apply homed_well_ok|]. apply Z.eqb_neq. exact H5.
Qed.

(** A line with a coordinate and no command: it is refused as it leaves the machine, but the
    parser goes on from there. The next relative move starts at a place where the machine is
    not. *)
Theorem C81_refused_refuted : exists j h answers s0 g p params t0 t s, machine_init (j_machine j) h answers = Some s0 /\ plans_for (j_machine j) (m_hw s0) p /\ connected j s0 g /\
  new_parser g params = Done tt t0 /\ give_all g 60 (map GiveLine [txt "G28 X0"; txt "G1 X-70 Y10 F1200"; txt "X500"]) t0 = Done tt t /\ machine_after j s0 (g_events t) = (Some tt, s) /\
  well_homed j s0 AX (g_events t) /\
  ends p (at_home p) (planner_calls (j_machine j) (m_hw s0) (m_log s)) AX <> in_steps (j_machine j) p AX (g_pos t AX).
Proof.
  destruct (j_apart j_answers [txt "G28 X0"; txt "G1 X-70 Y10 F1200"; txt "X500"] AX) as (j & h & s0 & g & p & params & t0 & t & s & H1 & H2 & H3 & H4 & H5 & H6 & H7 & H8 & H9); [reflexivity|vm_compute; reflexivity|vm_compute; reflexivity|vm_compute; reflexivity|vm_compute; reflexivity|].
  exists j, h, j_answers, s0, g, p, params, t0, t, s. repeat (split; [assumption|]). split; [apply H8; vm_compute; reflexivity|exact H9].
Qed.
Print Assumptions C81_refused_refuted.

(** G28 without an axis: an axis that has no switch for homing stays where it is, but the
    parser thinks that it went to its origin. No move was refused. *)
Theorem C81_home_refuted : exists j h answers s0 g p params t0 t s, machine_init (j_machine j) h answers = Some s0 /\ plans_for (j_machine j) (m_hw s0) p /\ connected j s0 g /\
  new_parser g params = Done tt t0 /\ give_all g 60 (map GiveLine [txt "G28 X0"; txt "G1 X-70 Y10 F1200"; txt "G28"]) t0 = Done tt t /\ machine_after j s0 (g_events t) = (Some tt, s) /\
  nothing_refused g (g_events t) /\
  ends p (at_home p) (planner_calls (j_machine j) (m_hw s0) (m_log s)) AY <> in_steps (j_machine j) p AY (g_pos t AY).
Proof.
  destruct (j_apart (firstn 14 w_answers ++ [0; 1; 0; 0; 0; 0; 0; 1; 0; 0]) [txt "G28 X0"; txt "G1 X-70 Y10 F1200"; txt "G28"] AY) as (j & h & s0 & g & p & params & t0 & t & s & H1 & H2 & H3 & H4 & H5 & H6 & H7 & H8 & H9); [reflexivity|vm_compute; reflexivity|vm_compute; reflexivity|vm_compute; reflexivity|vm_compute; reflexivity|].
  exists j, h, (firstn 14 w_answers ++ [0; 1; 0; 0; 0; 0; 0; 1; 0; 0]), s0, g, p, params, t0, t, s. repeat (split; [assumption|]). split; [apply H7; vm_compute; reflexivity|exact H9].
Qed.
Print Assumptions C81_home_refuted.

(** An arc around its own start is accepted without any move, but the parser goes to the end
    of it. Again no move was refused. *)
Theorem C81_arc_refuted : exists j h answers s0 g p params t0 t s, machine_init (j_machine j) h answers = Some s0 /\ plans_for (j_machine j) (m_hw s0) p /\ connected j s0 g /\
  new_parser g params = Done tt t0 /\ give_all g 60 (map GiveLine [txt "G28 X0"; txt "G1 X-70 Y10 F1200"; txt "G2 X-50 I0 J0"]) t0 = Done tt t /\ machine_after j s0 (g_events t) = (Some tt, s) /\
  nothing_refused g (g_events t) /\
  ends p (at_home p) (planner_calls (j_machine j) (m_hw s0) (m_log s)) AX <> in_steps (j_machine j) p AX (g_pos t AX).
Proof.
  destruct (j_apart j_answers [txt "G28 X0"; txt "G1 X-70 Y10 F1200"; txt "G2 X-50 I0 J0"] AX) as (j & h & s0 & g & p & params & t0 & t & s & H1 & H2 & H3 & H4 & H5 & H6 & H7 & H8 & H9); [reflexivity|vm_compute; reflexivity|vm_compute; reflexivity|vm_compute; reflexivity|vm_compute; reflexivity|].
  exists j, h, j_answers, s0, g, p, params, t0, t, s. repeat (split; [assumption|]). split; [apply H7; vm_compute; reflexivity|exact H9].
Qed.
Print Assumptions C81_arc_refuted.

(** ** Clamping *)

(** With Z to be clamped, a line that moves no other axis never asks for a Z outside of the
    range of the machine: the parser takes the position the machine gives it. *)
Theorem C81_clamped : forall j s0 g affected pos evs s, connected j s0 g -> machine_after j s0 evs = (Some tt, s) ->
  clamps_z (j_machine j) = true -> (forall a, affected a = true -> a = AZ) -> Spec_Machine.is_number (pos AZ) = true ->
  let answer := r_pos (gc_reply g (EClamp affected pos :: evs)) pos in
  SFleb zero (answer AZ) = true /\ (SFltb zero (c_range (j_machine j) AZ) = true -> SFleb (answer AZ) (c_range (j_machine j) AZ) = true) /\
  forall a, a <> AZ -> answer a = pos a.
Proof.
  intros j s0 g affected pos evs s [Jr _] M Cz Oz N answer.
  assert (A : answer = clamp_to_range (j_machine j) (bitmap affected) pos) by (unfold answer; rewrite Jr; unfold reply_of; rewrite M; reflexivity).
  destruct (Proofs_Machine3.clamp_spec (j_machine j) (bitmap affected) pos) as (_ & K & R & _). rewrite <- A in K, R.
  assert (O : only_z (bitmap affected)).
  { assert (F : forall a, a <> AZ -> affected a = false) by (intros a H; destruct (affected a) eqn:E; [apply Oz in E; contradiction|reflexivity]).
    unfold bitmap, only_z. cbn [fold_left all_axes]. rewrite (F AX), (F AY), (F AA), (F AB), (F AC), (F AU), (F AV), (F AW), (F AE) by discriminate. destruct (affected AZ); [right|left]; reflexivity. }
  destruct (R Cz O N) as [R1 R2]. split; [exact R1|]. split; [exact R2|exact K].
Qed.
Print Assumptions C81_clamped.

(** G1 Z-5 on the machine of the examples, whose Z has no range: the parser goes on from Z0. *)
Definition z_below : axis -> fl := fun a => match a with AZ => f32_of_Z (-5) | _ => f32_of_Z 7 end.
Example C81_clamped_example :
  connected jx (j0 []) (jg (j0 [])) /\ machine_after jx (j0 []) [] = (Some tt, j0 []) /\ clamps_z (j_machine jx) = true /\
  Spec_Machine.is_number (z_below AZ) = true /\
  map (r_pos (gc_reply (jg (j0 [])) [EClamp (fun a => match a with AZ => true | _ => false end) z_below]) z_below) [AX; AZ] = [f32_of_Z 7; f32_of_Z 0].
Proof. split; [apply j_connected|]. split; [reflexivity|]. split; [vm_compute; reflexivity|]. split; vm_compute; reflexivity. Qed.
