(** More rounds do not change a result. *)
From Coq Require Import SpecFloat.
From Verif Require Import Base Text Model_Float Model_Axis Model_Gcode Proofs_Expr.

Definition more {A} (m m' : G A) : Prop := forall s, m s = Out \/ m s = m' s.
Lemma more_refl : forall A (m : G A), more m m.
Proof. intros A m s. auto. Qed.
Lemma more_out : forall A (m : G A), more out m.
Proof. intros A m s. left. reflexivity. Qed.
Lemma more_bind : forall A B (m m' : G A) (f f' : A -> G B), more m m' -> (forall a, more (f a) (f' a)) -> more (bind m f) (bind m' f').
Proof.
  intros A B m m' f f' H I s. unfold bind. destruct (H s) as [->| ->]; [auto|]. destruct (m' s) as [a s1| |]; [apply I|auto|auto].
Qed.
Lemma more_trans : forall A (a b d : G A), more a b -> more b d -> more a d.
Proof. intros A a b d H I s. destruct (H s) as [->| ->]; auto. Qed.
Lemma more_done : forall A (m m' : G A) s a s', more m m' -> m s = Done a s' -> m' s = Done a s'.
Proof. intros A m m' s a s' H E. destruct (H s) as [H'|H']; congruence. Qed.
Lemma more_bad : forall A (m m' : G A) s, more m m' -> m s = Bad -> m' s = Bad.
Proof. intros A m m' s H E. destruct (H s) as [H'|H']; congruence. Qed.

Ltac more_step :=
  match goal with
  | |- more ?m ?m => apply more_refl
  | |- more out _ => apply more_out
  | |- more (bind _ _) (bind _ _) => apply more_bind; [|intros]
  | |- more (if ?b then _ else _) (if ?b then _ else _) => destruct b
  | |- more (match ?x with _ => _ end) (match ?x with _ => _ end) => destruct x
  | |- more (let '(_, _) := ?x in _) _ => destruct x
  | |- more (when ?b _) (when ?b _) => unfold when; destruct b
  | H : forall _, more _ _ |- more _ _ => apply H
  | H : forall _ _, more _ _ |- more _ _ => apply H
  | H : forall _ _ _, more _ _ |- more _ _ => apply H
  | H : more _ _ |- more _ _ => apply H
  end.
Ltac more_tac := repeat more_step.

Section Fuel.
Variable c : gcfg.

Lemma more_evaluation : forall f,
  (forall line, more (value c f line) (value c (S f) line)) /\
  (forall line st, more (expr_loop c f line st) (expr_loop c (S f) line st)) /\
  (forall line, more (param_name c f line) (param_name c (S f) line)) /\
  (forall line, more (unary c f line) (unary c (S f) line)).
Proof.
  induction f as [|f (HV & HE & HN & HU)].
  - repeat split; intros; apply more_out.
  - split; [|split; [|split]].
    + intros line. rewrite (value_S c f), (value_S c (S f)). more_tac.
    + intros line st. rewrite (expr_loop_S c f), (expr_loop_S c (S f)). cbv zeta. more_tac.
    + intros line. rewrite (param_name_S c f), (param_name_S c (S f)). cbv zeta. more_tac.
    + intros line. rewrite (unary_S c f), (unary_S c (S f)). cbv zeta. more_tac.
Qed.

Lemma more_up : forall A (F : nat -> G A), (forall f, more (F f) (F (S f))) -> forall f f', (f <= f')%nat -> more (F f) (F f').
Proof. intros A F H f f' L. induction L; [apply more_refl|]. eapply more_trans; eauto. Qed.

Lemma more_value : forall f f' line, (f <= f')%nat -> more (value c f line) (value c f' line).
Proof. intros f f' line. apply (more_up _ (fun f => value c f line)). intros. apply more_evaluation. Qed.
Lemma more_expr_loop : forall f f' line st, (f <= f')%nat -> more (expr_loop c f line st) (expr_loop c f' line st).
Proof. intros f f' line st. apply (more_up _ (fun f => expr_loop c f line st)). intros. apply more_evaluation. Qed.
Lemma more_param_name : forall f f' line, (f <= f')%nat -> more (param_name c f line) (param_name c f' line).
Proof. intros f f' line. apply (more_up _ (fun f => param_name c f line)). intros. apply more_evaluation. Qed.
Lemma more_expression : forall f f' line, (f <= f')%nat -> more (expression c f line) (expression c f' line).
Proof. intros f f' line. apply more_expr_loop. Qed.

Lemma more_set_parameter : forall f f' line, (f <= f')%nat -> more (set_parameter c f line) (set_parameter c f' line).
Proof.
  intros f f' line L. pose proof (fun l => more_value f f' l L). pose proof (fun l => more_param_name f f' l L).
  unfold set_parameter, assigned. more_tac.
Qed.

Lemma more_conditional : forall f f' line, (f <= f')%nat -> more (conditional c f line) (conditional c f' line).
Proof.
  induction f as [|f IH]; intros f' line L; [apply more_out|]. destruct f' as [|f']; [lia|].
  pose proof (fun l => more_expression f f' l ltac:(lia)). pose proof (fun l => more_set_parameter f f' l ltac:(lia)).
  pose proof (fun l => IH f' l ltac:(lia)). cbn [conditional]. more_tac.
Qed.

Lemma more_each : forall (g g' : text -> G unit) l, (forall t, more (g t) (g' t)) -> more (each g l) (each g' l).
Proof. intros g g' l H. induction l; cbn [each]; more_tac. Qed.

Lemma more_while_end : forall f f' pb pb', (f <= f')%nat -> (forall t, more (pb t) (pb' t)) ->
  more (while_end c f pb) (while_end c f' pb').
Proof.
  induction f as [|f IH]; intros f' pb pb' L P; [apply more_out|]. destruct f' as [|f']; [lia|].
  pose proof (fun l => more_expression f f' l ltac:(lia)). pose proof (fun l => more_each pb pb' l P).
  pose proof (IH f' pb pb' ltac:(lia) P). cbn [while_end]. more_tac.
Qed.

Lemma more_parse_pair : forall f f' pb pb' line, (f <= f')%nat -> (forall t, more (pb t) (pb' t)) ->
  more (parse_pair c f pb line) (parse_pair c f' pb' line).
Proof.
  induction f as [|f IH]; intros f' pb pb' line L P; [apply more_out|]. destruct f' as [|f']; [lia|].
  pose proof (fun l => more_conditional f f' l ltac:(lia)). pose proof (fun l => more_set_parameter f f' l ltac:(lia)).
  pose proof (fun l => more_value f f' l ltac:(lia)). pose proof (more_while_end f f' pb pb' ltac:(lia) P).
  pose proof (fun l => IH f' pb pb' l ltac:(lia) P).
  cbn [parse_pair]. cbv zeta. unfold while_do. more_tac.
Qed.

Section Words.
Variables (f f' : nat) (gp gp' : text -> G (option (ascii * fl * text))).
Hypothesis L : (f <= f')%nat.
Hypothesis P : forall t, more (gp t) (gp' t).

Lemma more_args : forall A (step : A -> ascii -> fl -> G (bool * A)) n n' acc line, (n <= n')%nat ->
  more (args n gp step acc line) (args n' gp' step acc line).
Proof.
  intros A step. induction n as [|n IH]; intros n' acc line Ln; [apply more_out|]. destruct n' as [|n']; [lia|].
  pose proof (fun a l => IH n' a l ltac:(lia)). cbn [args]. more_tac.
Qed.
Lemma more_read_pairs : forall n line, more (read_pairs gp n line) (read_pairs gp' n line).
Proof. induction n as [|n IH]; intros line; cbn [read_pairs]; more_tac. Qed.

Lemma more_run_command : forall letter v line ls,
  more (run_command c f gp letter v line ls) (run_command c f' gp' letter v line ls).
Proof.
  intros.
  pose proof (fun A (step : A -> ascii -> fl -> G (bool * A)) acc line => more_args A step f f' acc line L) as HA.
  pose proof more_read_pairs.
  assert (HM : forall line b, more (handle_move c f gp line b) (handle_move c f' gp' line b)).
  { intros. unfold handle_move. more_tac; apply HA. }
  assert (HP : forall a b d line, more (set_param c gp a b d line) (set_param c gp' a b d line)).
  { intros. unfold set_param. more_tac. }
  assert (HU : forall a b line, more (unprocessed c gp a b line) (unprocessed c gp' a b line)).
  { intros. unfold unprocessed. more_tac. }
  assert (HArc : forall line b, more (handle_arc c f gp line b) (handle_arc c f' gp' line b)).
  { intros. unfold handle_arc. more_tac; apply HA. }
  assert (HS : forall v line, more (handle_spline c f gp v line) (handle_spline c f' gp' v line)).
  { intros. unfold handle_spline. cbv zeta. more_tac; apply HA. }
  assert (H10 : forall line, more (handle_G10 c f gp line) (handle_G10 c f' gp' line)).
  { intros. unfold handle_G10. more_tac; apply HA. }
  assert (HH : forall line, more (handle_home c f gp line) (handle_home c f' gp' line)).
  { intros. unfold handle_home. more_tac; apply HA. }
  assert (HZ : forall line, more (handle_z_probe c f gp line) (handle_z_probe c f' gp' line)).
  { intros. unfold handle_z_probe. more_tac; apply HA. }
  assert (HX : forall line, more (set_xyz_scale f gp line) (set_xyz_scale f' gp' line)).
  { intros. unfold set_xyz_scale. more_tac; apply HA. }
  assert (H92 : forall v line, more (handle_G92 c f gp v line) (handle_G92 c f' gp' v line)).
  { intros. unfold handle_G92. more_tac; apply HA. }
  assert (H111 : forall line, more (handle_M111 c f gp line) (handle_M111 c f' gp' line)).
  { intros. unfold handle_M111. more_tac; apply HA. }
  assert (HG : forall v line b, more (run_G c f gp v line b) (run_G c f' gp' v line b)).
  { intros. unfold run_G. cbv zeta. repeat (more_step || apply HP). }
  assert (HMM : forall v line, more (run_M c f gp v line) (run_M c f' gp' v line)).
  { intros. unfold run_M. cbv zeta. repeat (more_step || apply HP). }
  unfold run_command. more_tac.
Qed.
End Words.

Lemma more_block_loop : forall f f' gp gp' line, (f <= f')%nat -> (forall t, more (gp t) (gp' t)) ->
  more (block_loop c f gp line) (block_loop c f' gp' line).
Proof.
  induction f as [|f IH]; intros f' gp gp' line L P; [apply more_out|]. destruct f' as [|f']; [lia|].
  pose proof (fun l => IH f' gp gp' l ltac:(lia) P).
  pose proof (fun a b l s => more_run_command f f' gp gp' ltac:(lia) P a b l s).
  cbn [block_loop]. repeat (more_step || match goal with H : forall _ _ _ _, more _ _ |- _ => apply H end).
Qed.

Lemma more_parse_block : forall f f' line, (f <= f')%nat -> more (parse_block c f line) (parse_block c f' line).
Proof.
  induction f as [|f IH]; intros f' line L; [apply more_out|]. destruct f' as [|f']; [lia|].
  cbn [parse_block]. apply more_bind; [|intros; apply more_refl]. apply more_block_loop; [lia|].
  intros t. apply more_parse_pair; [lia|]. intros t'. apply IH. lia.
Qed.
End Fuel.
