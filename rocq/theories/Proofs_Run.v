(** What the commands do to the state and the events: partial correctness. *)
From Coq Require Import SpecFloat.
From Verif Require Import Base Text Model_StringUtil Model_Float Model_Lexer Model_Axis Model_Gcode Spec_Lexer Proofs_Lexer
  Spec_Expr Proofs_Expr Spec_Line Proofs_Value Proofs_Total Proofs_Progress Spec_Events.

(** ** Evaluation changes nothing but the error count. *)
Definition keeps {A} (m : G A) : Prop := forall s, yields m s (fun _ s' => quiet s s').
Lemma k_ret : forall A (a : A), keeps (ret a).
Proof. intros A a s. apply quiet_refl. Qed.
Lemma k_get : forall A (f : gst -> A), keeps (get f).
Proof. intros A f s. apply quiet_refl. Qed.
Lemma k_bad : forall A, keeps (bad (A := A)).
Proof. intros A s. exact I. Qed.
Lemma k_out : forall A, keeps (out (A := A)).
Proof. intros A s. exact I. Qed.
Lemma k_err : keeps err.
Proof. intros s. apply quiet_err. Qed.
Lemma k_bind : forall A B (m : G A) (f : A -> G B), keeps m -> (forall a, keeps (f a)) -> keeps (bind m f).
Proof.
  intros A B m f H I s. eapply y_bind; [apply H|]. intros a s1 Q1. cbv beta in Q1. eapply y_weaken; [apply I|].
  intros b s2 Q2. cbv beta in Q2. eapply quiet_trans; eauto.
Qed.
Lemma k_fail : forall A, keeps (fail (A := A)).
Proof. intros A. unfold fail. apply k_bind; [apply k_err|intros; apply k_ret]. Qed.
Ltac kstep :=
  match goal with
  | |- forall _, _ => intros
  | |- keeps (bind _ _) => apply k_bind
  | |- keeps (ret _) => apply k_ret
  | |- keeps (get _) => apply k_get
  | |- keeps bad => apply k_bad
  | |- keeps out => apply k_out
  | |- keeps err => apply k_err
  | |- keeps fail => apply k_fail
  | H : _ |- keeps _ => apply H
  | |- keeps (if ?b then _ else _) => destruct b
  | |- keeps (match ?x with _ => _ end) => destruct x
  end.
Ltac ktac := repeat kstep.

Section Evaluation.
Variable c : gcfg.
Lemma k_lex : forall k l, keeps (lex k l).
Proof. intros. unfold lex. ktac. Qed.
Lemma k_expect : forall l e, keeps (expect l e).
Proof. intros. unfold expect. ktac. Qed.
Lemma k_read : forall n, keeps (read_parameter n).
Proof. intros. unfold read_parameter. cbv zeta. ktac. Qed.
Lemma k_binary : forall x o y, keeps (execute_binary c x o y).
Proof. intros x o y s. apply ok_yields, ok_execute_binary. Qed.
Lemma k_unary : forall x o, keeps (execute_unary c x o).
Proof. intros x o s. apply ok_yields, ok_execute_unary. Qed.
Lemma k_operation : forall l, keeps (operation l).
Proof. intros. unfold operation. pose proof k_lex. ktac. Qed.
Lemma k_reduce : forall st x o, keeps (reduce c st x o).
Proof. induction st as [|[y o'] st IH]; intros; cbn [reduce]; pose proof k_binary; ktac. Qed.
Lemma k_number : forall l, keeps (number c l).
Proof. intros. unfold number. cbv zeta. ktac. Qed.

Lemma k_evaluation : forall f,
  (forall l, keeps (value c f l)) /\ (forall l st, keeps (expr_loop c f l st)) /\
  (forall l, keeps (param_name c f l)) /\ (forall l, keeps (unary c f l)).
Proof.
  pose proof k_lex. pose proof k_read. pose proof k_binary. pose proof k_unary. pose proof k_operation. pose proof k_reduce. pose proof k_number.
  induction f as [|f (HV & HE & HN & HU)]; [repeat split; intros; apply k_out|].
  split; [|split; [|split]]; intros.
  - rewrite value_S. ktac.
  - rewrite expr_loop_S. cbv zeta. ktac.
  - rewrite param_name_S. cbv zeta. ktac.
  - rewrite unary_S. cbv zeta. ktac.
Qed.
End Evaluation.

(** ** Within a command *)
Definition mild (s s' : gst) : Prop :=
  g_do_while s' = g_do_while s /\ g_running s' = g_running s /\ g_iterating s' = g_iterating s /\
  exists l, g_events s' = l ++ g_events s /\ Forall (fun e => action e = true) l.
Lemma mild_refl : forall s, mild s s.
Proof. intros s. repeat split. exists []. auto. Qed.
Lemma mild_trans : forall a b d, mild a b -> mild b d -> mild a d.
Proof.
  intros a b d (H1 & H2 & H3 & l & E & F) (H1' & H2' & H3' & l' & E' & F'). repeat split; try congruence.
  exists (l' ++ l). rewrite E', E, app_assoc. split; [reflexivity|]. apply Forall_app. auto.
Qed.
Lemma mild_quiet : forall s s', quiet s s' -> mild s s'.
Proof. intros s s' (e & -> & _). repeat split. exists []. auto. Qed.

Definition mildly {A} (m : G A) : Prop := forall s, yields m s (fun _ s' => mild s s').
Lemma m_bind : forall A B (m : G A) (f : A -> G B), mildly m -> (forall a, mildly (f a)) -> mildly (bind m f).
Proof.
  intros A B m f H I s. eapply y_bind; [apply H|]. intros a s1 Q1. cbv beta in Q1. eapply y_weaken; [apply I|].
  intros b s2 Q2. cbv beta in Q2. eapply mild_trans; eauto.
Qed.
Lemma m_keeps : forall A (m : G A), keeps m -> mildly m.
Proof. intros A m H s. eapply y_weaken; [apply H|]. intros a s' Q. apply mild_quiet, Q. Qed.
Lemma m_ret : forall A (a : A), mildly (ret a).
Proof. intros A a s. apply mild_refl. Qed.
Lemma m_get : forall A (f : gst -> A), mildly (get f).
Proof. intros A f s. apply mild_refl. Qed.
Lemma m_upd : forall f, (forall s, mild s (f s)) -> mildly (upd f).
Proof. intros f H s. apply H. Qed.
Lemma m_when : forall b m, mildly m -> mildly (when b m).
Proof. intros [|] m H; [exact H|apply m_ret]. Qed.

Section Run.
Variable c : gcfg.
Lemma m_emit : forall e, action e = true -> mildly (emit c e).
Proof. intros e H s. repeat split. exists [e]. auto. Qed.
Lemma m_tell : forall e, action e = true -> mildly (tell c e).
Proof. intros e H. apply m_bind; [now apply m_emit|]. intros. apply m_ret. Qed.
Ltac mstep :=
  match goal with
  | |- forall _, _ => intros
  | |- mildly (bind _ _) => apply m_bind
  | |- mildly (ret _) => apply m_ret
  | |- mildly (get _) => apply m_get
  | |- mildly (emit _ _) => apply m_emit; reflexivity
  | |- mildly (tell _ _) => apply m_tell; reflexivity
  | |- mildly err => apply m_keeps, k_err
  | |- mildly fail => apply m_keeps, k_fail
  | |- mildly (when _ _) => apply m_when
  | |- mildly (upd _) => apply m_upd; intros; repeat split; exists []; split; [reflexivity|constructor]
  | H : _ |- mildly _ => apply H
  | |- mildly (if ?b then _ else _) => destruct b
  | |- mildly (match ?x with _ => _ end) => destruct x
  | |- mildly ((match ?x with _ => _ end) _ _) => destruct x
  end.
Ltac mtac := repeat mstep.
Lemma m_store : forall n v, mildly (store_parameter n v).
Proof. intros. unfold store_parameter. cbv zeta. mtac. Qed.
Lemma m_inform : forall n, mildly (inform_origin c n).
Proof. intros. unfold inform_origin. mtac. Qed.
Lemma m_offset : forall b n, mildly (set_current_offset c b n).
Proof. intros. unfold set_current_offset. pose proof m_inform. mtac. Qed.
Lemma m_each_axis : forall f l, (forall a, mildly (f a)) -> mildly (each_axis f l).
Proof. induction l; intros; cbn [each_axis]; mtac. Qed.

(** [K]: while the parameters of a command are read; [L]: afterwards; [E]: at its end;
    [T]: for the places in the line. *)
Section Command.
Variables (K L E : gst -> Prop) (T : text -> Prop).
Hypothesis HK : forall s s', mild s s' -> K s -> K s'.
Hypothesis HL : forall s s', mild s s' -> L s -> L s'.
Hypothesis HKL : forall s, K s -> L s.
Hypothesis HKE : forall s, K s -> E s.
Hypothesis HDone : forall letter v s s', L s -> ends_program c letter v = false -> Ascii.eqb letter "#" = false ->
  s' = with_events s (ECommandDone letter v :: g_events s) -> E s'.
Hypothesis HEnd : forall v s, K s -> ends_program c "M" v = true -> yields (finish_program c ;;; tell c (ECommandDone "M" v)) s (fun _ s' => E s').
Variables (fuel : nat) (gp : text -> G (option (ascii * fl * text))).
Hypothesis Gp : forall line s, T line -> K s ->
  yields (gp line) s (fun r s' => match r with Some (_, _, rest) => K s' /\ T rest | None => L s' end).

Definition placed (r : option text) : Prop := match r with Some l => T l | None => True end.
Definition runs (m : G (option text)) : Prop := forall s, K s -> yields m s (fun r s' => L s' /\ placed r).
Definition after (m : G (option text)) : Prop := forall s, L s -> yields m s (fun r s' => L s' /\ placed r).
Lemma after_runs : forall m, after m -> runs m.
Proof. intros m H s Hs. apply H, HKL, Hs. Qed.
Lemma after_bind : forall A (m : G A) f, mildly m -> (forall a, after (f a)) -> after (bind m f).
Proof. intros A m f H I s Hs. eapply y_bind; [apply H|]. intros a s' Hm. cbv beta in Hm. apply I. eapply HL; eauto. Qed.
Lemma runs_bind : forall A (m : G A) f, mildly m -> (forall a, runs (f a)) -> runs (bind m f).
Proof. intros A m f H I s Hs. eapply y_bind; [apply H|]. intros a s' Hm. cbv beta in Hm. apply I. eapply HK; eauto. Qed.
Lemma after_ret : forall r, placed r -> after (ret r).
Proof. intros r H s Hs. apply y_ret. auto. Qed.
Lemma after_fail : after fail.
Proof. intros s Hs. unfold fail. apply after_bind; [apply m_keeps, k_err| |exact Hs]. intros. now apply after_ret. Qed.

Lemma y_args : forall A (step : A -> ascii -> fl -> G (bool * A)), (forall acc l v, mildly (step acc l v)) ->
  forall n acc line s, T line -> K s -> yields (args n gp step acc line) s (fun r s' => L s' /\ T (snd r)).
Proof.
  intros A step Hst. induction n as [|n IH]; intros acc line s Ht Hs; [exact I|]. cbn [args].
  eapply y_bind; [apply Gp; auto|]. intros [[[l v] rest]|] s1 H1; [|apply y_ret; cbn; auto]. destruct H1 as (H1 & Hr).
  eapply y_bind; [apply Hst|]. intros [go acc'] s2 M. cbv beta in M. assert (H2 : K s2) by (eapply HK; eauto).
  destruct go; [apply IH; auto|]. apply y_ret. cbn. auto.
Qed.
Lemma runs_args : forall A (step : A -> ascii -> fl -> G (bool * A)) acc line k, T line ->
  (forall acc l v, mildly (step acc l v)) -> (forall a rest, T rest -> after (k (a, rest))) ->
  runs (bind (args fuel gp step acc line) k).
Proof.
  intros A step acc line k Ht Hst Hk s Hs. eapply y_bind; [apply y_args; eauto|]. intros [a rest] s' [Hs' Hr]. apply Hk; auto.
Qed.
Ltac rstep :=
  match goal with
  | |- forall _, _ => intros
  | |- runs (bind (args _ _ _ _ _) _) => apply runs_args; auto
  | |- runs (bind _ _) => apply runs_bind
  | |- runs (if ?b then _ else _) => destruct b
  | |- runs (match ?x with _ => _ end) => destruct x
  | |- runs (ret _) => apply after_runs
  | |- runs fail => apply after_runs
  | |- after (bind _ _) => apply after_bind
  | |- after (ret _) => apply after_ret; first [exact I | assumption]
  | |- after fail => apply after_fail
  | |- after (if ?b then _ else _) => destruct b
  | |- after (match ?x with _ => _ end) => destruct x
  | |- mildly _ => mstep
  end.
Ltac rtac := pose proof m_store; pose proof m_inform; pose proof m_offset; repeat rstep.

Variable line : text.
Hypothesis Hline : T line.
Lemma runs_move : forall b, runs (handle_move c fuel gp line b).
Proof. intros. unfold handle_move. rtac. Qed.
Lemma runs_arc : forall b, runs (handle_arc c fuel gp line b).
Proof. intros. unfold handle_arc. cbv zeta. rtac. Qed.
Lemma runs_spline : forall v, runs (handle_spline c fuel gp v line).
Proof. intros. unfold handle_spline. cbv zeta. rtac. Qed.
Lemma runs_G10 : runs (handle_G10 c fuel gp line).
Proof. unfold handle_G10. cbv zeta. pose proof m_each_axis. rtac. Qed.
Lemma runs_home : runs (handle_home c fuel gp line).
Proof. unfold handle_home. cbv zeta. rtac. Qed.
Lemma runs_probe : runs (handle_z_probe c fuel gp line).
Proof. unfold handle_z_probe. rtac. Qed.
Lemma runs_scale : runs (set_xyz_scale fuel gp line).
Proof. unfold set_xyz_scale. rtac. Qed.
Lemma runs_G92 : forall v, runs (handle_G92 c fuel gp v line).
Proof. intros. unfold handle_G92. rtac. Qed.
Lemma runs_M111 : runs (handle_M111 c fuel gp line).
Proof. unfold handle_M111. rtac. Qed.
Lemma runs_param : forall a b d, (forall v, action (b v) = true) -> runs (set_param c gp a b d line).
Proof.
  intros a b d Hb s Hs. unfold set_param. eapply y_bind; [apply Gp; auto|]. intros [[[l v] rest]|] s1 H1.
  - destruct H1 as (H1 & Hr).
    assert (X : after (if Ascii.eqb l a then tell c (b (f32_mul d v)) ;;; ret (Some rest) else ret (Some line))).
    { destruct (Ascii.eqb l a); [|now apply after_ret]. apply after_bind; [apply m_tell, Hb|]. intros. now apply after_ret. }
    apply X, HKL, H1.
  - apply y_ret. cbn. auto.
Qed.
Lemma y_read_pairs : forall n l s, T l -> K s ->
  yields (read_pairs gp n l) s (fun r s' => L s' /\ Forall T r /\ r <> []).
Proof.
  induction n as [|n IH]; intros l s Hl Hs; cbn [read_pairs]; [apply y_ret; repeat split; auto; discriminate|].
  eapply y_bind; [apply Gp; auto|].
  intros [[[x v] rest]|] s1 H1; [|apply y_ret; repeat split; auto; discriminate]. destruct H1 as (H1 & Hr).
  eapply y_bind; [apply (IH rest s1); auto|]. intros r s2 (H2 & F & _). apply y_ret. repeat split; auto. discriminate.
Qed.
Lemma runs_unprocessed : forall a v, runs (unprocessed c gp a v line).
Proof.
  intros a v s Hs. unfold unprocessed. eapply y_bind; [apply m_emit; reflexivity|]. intros r s1 H1. cbv beta in H1.
  eapply y_bind; [apply y_read_pairs; [exact Hline|eapply HK; eauto]|]. intros l s2 (H2 & F & Ne). apply y_ret. split; [exact H2|].
  destruct (r_keep r) as [k|]; [|exact I]. rewrite Forall_forall in F. cbn [placed].
  destruct (Nat.lt_ge_cases k (length l)) as [Hk|Hk].
  - apply F. now apply nth_In.
  - rewrite nth_overflow by exact Hk. apply F. destruct (exists_last Ne) as (x & y & ->). rewrite last_last. apply in_or_app. right. now left.
Qed.
Lemma runs_line_is : forall m, mildly m -> runs (line_is line m).
Proof. intros m H. apply after_runs. unfold line_is. apply after_bind; [exact H|]. intros. now apply after_ret. Qed.

Lemma runs_G : forall v b, runs (run_G c fuel gp v line b).
Proof.
  intros. pose proof m_store; pose proof m_inform; pose proof m_offset. unfold run_G. cbv zeta.
  repeat match goal with |- runs (if ?b then _ else _) => destruct b end;
    try (apply runs_line_is; unfold change_coord_system, handle_G90_G91, set_all_absolute, set_ijk_absolute; cbv zeta; mtac; fail);
    try first [ apply runs_arc | apply runs_G10 | apply runs_home
      | apply runs_probe | apply runs_scale | apply runs_G92 | apply runs_unprocessed ];
    try (apply runs_param; reflexivity);
    (apply runs_bind; [mtac|intros; first [apply runs_move | apply runs_spline]]).
Qed.
Lemma runs_M : forall v, ends_program c "M" v = false -> runs (run_M c fuel gp v line).
Proof.
  intros v Hv. unfold run_M. cbv zeta. unfold ends_program in Hv. cbn in Hv. rewrite Hv.
  repeat match goal with |- runs (if ?b then _ else _) => destruct b end.
  all: try (apply runs_param; reflexivity).
  all: try apply runs_unprocessed.
  all: try apply runs_M111.
  all: try (apply runs_line_is; mtac; fail).
  - intros s Hs. eapply y_bind; [apply runs_param; [reflexivity|exact Hs]|]. intros r s1 (H1 & Hr).
    eapply y_bind; [apply m_tell; reflexivity|]. intros u s2 M. cbv beta in M. apply y_ret. split; [eapply HL; eauto|exact Hr].
  - apply runs_bind; [mtac|]. intros. apply runs_line_is. mtac.
Qed.

Lemma y_run_command : forall letter v b s, letter <> "#"%char -> K s ->
  yields (run_command c fuel gp letter v line b) s (fun r s' => E s' /\ placed r).
Proof.
  intros letter v b s Hsharp Hs. apply Ascii.eqb_neq in Hsharp. unfold run_command.
  assert (D : forall a w r s, ends_program c a w = false -> Ascii.eqb a "#" = false -> L s -> placed r ->
     yields (tell c (ECommandDone a w) ;;; ret r) s (fun r s' => E s' /\ placed r)).
  { intros a w r s1 He Ha H1 Hr. unfold yields, tell, emit, bind, ret. split; [|exact Hr]. eapply HDone; eauto. }
  assert (F : forall m a w s, runs m -> ends_program c a w = false -> Ascii.eqb a "#" = false -> K s ->
     yields (l <- m ;; tell c (ECommandDone a w) ;;; ret l) s (fun r s' => E s' /\ placed r)).
  { intros m a w s1 H He Ha H1. eapply y_bind; [apply H, H1|]. intros r s2 (H2 & Hr). apply D; auto. }
  destruct (Ascii.eqb_spec letter "G") as [->|]; [apply F; auto; apply runs_G|].
  destruct (Ascii.eqb_spec letter "M") as [->|].
  { destruct (ends_program c "M" v) eqn:He; [|apply F; auto; now apply runs_M].
    unfold run_M. cbv zeta. assert (He' := He). unfold ends_program in He'. cbn in He'. rewrite He'.
    specialize (HEnd v s Hs He). unfold line_is. unfold yields, bind, ret in *.
    destruct (finish_program c s) as [u s1| |]; [|exact I..]. destruct (tell c (ECommandDone "M" v) s1); [|exact I..]. split; [exact HEnd|exact Hline]. }
  assert (He : ends_program c letter v = false) by (unfold ends_program; destruct (Ascii.eqb_spec letter "M"); [contradiction|reflexivity]).
  destruct (Ascii.eqb_spec letter "F") as [->|].
  { eapply y_bind with (P := fun e s' => action e = true /\ s' = s); [split; reflexivity|]. intros e s1 (He1 & ->).
    eapply y_bind; [apply m_tell; exact He1|]. intros u s2 M. cbv beta in M. apply D; auto. eapply HL; eauto. }
  destruct (Ascii.eqb letter "N"); [apply y_ret; split; [auto|exact Hline]|].
  destruct (letter_axis letter) eqn:Ea; [|apply F; auto; apply runs_unprocessed].
  eapply y_bind; [apply m_upd; intros; repeat split; exists []; split; [reflexivity|constructor]|]. intros u s1 M. cbv beta in M.
  eapply y_bind; [apply runs_move; eapply HK; eauto|]. intros r s2 (H2 & Hr).
  eapply y_bind; [apply m_get|]. intros md s3 M3. cbv beta in M3. apply D; auto. eapply HL; eauto.
Qed.
End Command.
End Run.
