(** A line is executed within a WHILE loop as it is outside. *)
From Coq Require Import SpecFloat.
From Verif Require Import Base Text Model_Float Model_Axis Model_Gcode Spec_Loop Proofs_Expr Proofs_Fuel.

Section Loop.
Variable c : gcfg.
Hypothesis IO : ignores_owner c.
Variables (i j : bool) (cond loop : text).

Definition like (s t : gst) : Prop :=
  exists ev,
  t = mk_gst ev (g_params s) (g_running s) (g_modal s) (g_unit s) (g_abs s) (g_abs_g90 s) (g_ijk_abs s) (g_pos s) (g_scale s) (g_cs s) (g_g92 s) (g_origin s)
        (g_offset s) (g_normal s) (g_cp2 s) (g_first_spline s) (g_do_while s) cond loop j (g_debug s) (g_errors s) /\
  map owned (g_events s) = map owned ev /\ g_iterating s = i /\ g_do_while s = false.
Definition sim {A} (m : G A) : Prop := forall s t, like s t -> forall a t', m t = Done a t' -> exists s', m s = Done a s' /\ like s' t'.

Lemma sim_ret : forall A (a : A), sim (ret a).
Proof. intros A a s t L b t' E. injection E as <- <-. exists s. split; [reflexivity|exact L]. Qed.
Lemma sim_bad : forall A, sim (@bad A). Proof. intros A s t L b t' E. discriminate E. Qed.
Lemma sim_out : forall A, sim (@out A). Proof. intros A s t L b t' E. discriminate E. Qed.
Lemma sim_bind : forall A B (m : G A) (f : A -> G B), sim m -> (forall a, sim (f a)) -> sim (bind m f).
Proof.
  intros A B m f H I s t L b t' E. unfold bind in *. destruct (m t) as [a t1| |] eqn:E1; [|discriminate..]. destruct (H s t L a t1 E1) as (s1 & -> & L1).
  apply (I a s1 t1 L1 b t' E).
Qed.
Lemma sim_upd : forall f, (forall s t, like s t -> like (f s) (f t)) -> sim (upd f).
Proof. intros f H s t L a t' E. injection E as <- <-. eexists. split; [reflexivity|]. apply H, L. Qed.
Lemma sim_get : forall A (f : gst -> A), (forall s t, like s t -> f s = f t) -> sim (get f).
Proof. intros A f H s t L a t' E. injection E as <- <-. exists s. split; [unfold get; f_equal; apply H, L|exact L]. Qed.
Lemma sim_emit : forall e, sim (emit c e).
Proof.
  intros e s t (ev & -> & E & I & W) a t' D. injection D as <- <-. unfold emit. cbn [g_events with_events]. exists (with_events s (e :: g_events s)).
  assert (M : map owned (e :: g_events s) = map owned (e :: ev)) by (cbn [map]; rewrite E; reflexivity). split.
  - f_equal. rewrite <- (IO (e :: g_events s)), M, IO. reflexivity.
  - destruct s. cbn in *. eexists. split; [reflexivity|]. split; [exact M|]. auto.
Qed.
Lemma sim_tell : forall e, sim (tell c e).
Proof. intros e. apply sim_bind; [apply sim_emit|intros; apply sim_ret]. Qed.

Ltac like_tac := let ev := fresh in
  intros [] ? (ev & -> & ? & ? & ?); cbn in *; eexists; split; [reflexivity|]; auto.
Ltac same_tac := intros [] ? (? & -> & ? & ? & ?); reflexivity.
Lemma sim_err : sim err. Proof. apply sim_upd. like_tac. Qed.
Lemma sim_fail : forall A, sim (@fail A). Proof. intros A. apply sim_bind; [apply sim_err|intros; apply sim_ret]. Qed.

Ltac sim_step :=
  match goal with
  | |- sim (ret _) => apply sim_ret
  | |- sim bad => apply sim_bad
  | |- sim out => apply sim_out
  | |- sim err => apply sim_err
  | |- sim fail => apply sim_fail
  | |- sim (emit _ _) => apply sim_emit
  | |- sim (tell _ _) => apply sim_tell
  | |- sim (bind _ _) => apply sim_bind; [|intros]
  | |- sim (if ?b then _ else _) => destruct b
  | |- sim (match ?x with _ => _ end) => destruct x
  | |- sim (let '(_, _) := ?x in _) => destruct x
  | |- sim (when ?b _) => unfold when; destruct b
  | |- sim (get _) => apply sim_get; same_tac
  | |- sim (upd _) => apply sim_upd; like_tac
  | H : forall _, sim _ |- sim _ => apply H
  | H : forall _ _, sim _ |- sim _ => apply H
  | H : forall _ _ _, sim _ |- sim _ => apply H
  | H : sim _ |- sim _ => apply H
  end.
Ltac sim_tac := repeat sim_step.

Lemma sim_lex : forall kws line, sim (lex kws line). Proof. intros. unfold lex. sim_tac. Qed.
Lemma sim_expect : forall line e, sim (expect line e). Proof. intros. unfold expect. sim_tac. Qed.
Lemma sim_read_parameter : forall name, sim (read_parameter name). Proof. intros. unfold read_parameter. sim_tac. Qed.
Lemma sim_store_parameter : forall name v, sim (store_parameter name v). Proof. intros. unfold store_parameter. sim_tac. Qed.
Lemma sim_execute_unary : forall v op, sim (execute_unary c v op). Proof. intros. unfold execute_unary. sim_tac. Qed.
Lemma sim_execute_binary : forall l op r, sim (execute_binary c l op r). Proof. intros. unfold execute_binary. cbv zeta. sim_tac. Qed.
Lemma sim_operation : forall line, sim (operation line). Proof. intros. unfold operation. pose proof sim_lex. sim_tac. Qed.
Lemma sim_reduce : forall st x o, sim (reduce c st x o).
Proof. induction st as [|(u, p) st IH]; intros x o; cbn [reduce]; [sim_tac|]. pose proof sim_execute_binary. sim_tac. Qed.
Lemma sim_number : forall line, sim (number c line). Proof. intros. unfold number. cbv zeta. sim_tac. Qed.
Lemma sim_evaluation : forall f,
  (forall line, sim (value c f line)) /\ (forall line st, sim (expr_loop c f line st)) /\ (forall line, sim (param_name c f line)) /\ (forall line, sim (unary c f line)).
Proof.
  pose proof sim_lex. pose proof sim_read_parameter. pose proof sim_execute_unary. pose proof sim_operation. pose proof sim_reduce. pose proof sim_number.
  induction f as [|f (HV & HE & HN & HU)].
  - repeat split; intros; apply sim_out.
  - split; [|split; [|split]].
    + intros line. rewrite value_S. sim_tac.
    + intros line st. rewrite expr_loop_S. cbv zeta. sim_tac.
    + intros line. rewrite param_name_S. cbv zeta. sim_tac.
    + intros line. rewrite unary_S. cbv zeta. sim_tac.
Qed.
Lemma sim_value : forall f line, sim (value c f line). Proof. intros. apply sim_evaluation. Qed.
Lemma sim_expression : forall f line, sim (expression c f line). Proof. intros. unfold expression. apply sim_evaluation. Qed.
Lemma sim_param_name : forall f line, sim (param_name c f line). Proof. intros. apply sim_evaluation. Qed.
Lemma sim_assigned : forall f name line op, sim (assigned c f name line op).
Proof. intros. unfold assigned. pose proof sim_value. pose proof sim_read_parameter. pose proof sim_execute_binary. sim_tac. Qed.
Lemma sim_set_parameter : forall f line, sim (set_parameter c f line).
Proof.
  intros. unfold set_parameter. pose proof sim_param_name. pose proof sim_read_parameter. pose proof sim_store_parameter.
  repeat (sim_step || apply sim_assigned).
Qed.
Lemma sim_conditional : forall f line, sim (conditional c f line).
Proof.
  pose proof sim_expression. pose proof sim_expect. pose proof sim_set_parameter.
  induction f as [|f IH]; intros line; [apply sim_out|]. cbn [conditional]. cbv zeta. sim_tac.
Qed.

Section Inside.
Hypothesis J : j = true.

Lemma sim_parse_pair : forall f pb line, sim (parse_pair c f pb line).
Proof.
  pose proof sim_conditional. pose proof sim_expect. pose proof sim_set_parameter. pose proof sim_value.
  induction f as [|f IH]; intros pb line; [apply sim_out|]. cbn [parse_pair]. cbv zeta.
  destruct (_ || _); [apply sim_ret|].
  intros s t L a t' E. assert (W : g_do_while s = false /\ g_do_while t = false) by (destruct L as (? & -> & ? & ? & W); split; exact W). destruct W as (Ws & Wt).
  match type of E with bind (get ?g) ?F t = _ => change (F (g t) t = Done a t') in E; change (exists s', F (g s) s = Done a s' /\ like s' t') end.
  cbv beta in E |- *. rewrite Wt in E. rewrite Ws. cbv iota in E |- *.
  match type of E with ?m t = _ => assert (M : sim m) end.
  { apply (sim_bind _ _ (if starts "(" (skip_spaces line) then match skip_comment (skip_spaces line) with None => bad | Some r => ret (skip_spaces r) end else ret (skip_spaces line))); [sim_tac|].
    intros l. sim_step; [sim_tac|]. apply sim_bind; [sim_tac|]. intros (is_if, l1). sim_step; [sim_tac|]. apply sim_bind; [sim_tac|]. intros (is_while, l2).
    destruct is_while; [|sim_tac].
    apply sim_bind; [|intros; apply sim_ret]. unfold while_start. sim_step; [apply sim_err|].
    intros s1 t1 L1 b t1' E1. exfalso. unfold bind, get in E1. destruct L1 as (? & -> & _). cbn [g_iterating] in E1. rewrite J in E1. discriminate E1. }
  exact (M s t L a t' E).
Qed.

Section Words.
Variables (f : nat) (gp : text -> G (option (ascii * fl * text))).
Hypothesis P : forall t, sim (gp t).

Lemma sim_args : forall A (step : A -> ascii -> fl -> G (bool * A)) n acc line, (forall a l v, sim (step a l v)) -> sim (args n gp step acc line).
Proof. intros A step n acc line H. revert acc line. induction n as [|n IH]; intros acc line; [apply sim_out|]. cbn [args]. sim_tac. Qed.
Lemma sim_read_pairs : forall n line, sim (read_pairs gp n line).
Proof. induction n as [|n IH]; intros line; cbn [read_pairs]; sim_tac. Qed.
Lemma sim_each_axis : forall (g : axis -> G unit) l, (forall a, sim (g a)) -> sim (each_axis g l).
Proof. intros g l H. induction l; cbn [each_axis]; sim_tac. Qed.
Ltac words_tac := repeat (sim_step || (apply sim_args; intros) || match goal with x : (_ * _)%type |- _ => destruct x end).
Lemma sim_inform : forall n, sim (inform_origin c n). Proof. intros. unfold inform_origin. sim_tac. Qed.
Lemma sim_set_current : forall b n, sim (set_current_offset c b n). Proof. intros. unfold set_current_offset. pose proof sim_inform. sim_tac. Qed.
Lemma sim_defaults : sim (init_program_defaults c).
Proof. pose proof sim_set_current. unfold init_program_defaults, set_all_absolute, set_ijk_absolute. sim_tac. Qed.

Lemma sim_run_command : forall letter v line ls, sim (run_command c f gp letter v line ls).
Proof.
  intros. pose proof sim_read_pairs. pose proof sim_inform. pose proof sim_set_current. pose proof sim_defaults. pose proof sim_store_parameter.
  assert (HM : forall line b, sim (handle_move c f gp line b)).
  { intros. unfold handle_move. words_tac. }
  assert (HP : forall a b d line, sim (set_param c gp a b d line)).
  { intros. unfold set_param. words_tac. }
  assert (HU : forall a b line, sim (unprocessed c gp a b line)).
  { intros. unfold unprocessed. words_tac. }
  assert (HArc : forall line b, sim (handle_arc c f gp line b)).
  { intros. unfold handle_arc. words_tac. }
  assert (HS : forall v line, sim (handle_spline c f gp v line)).
  { intros. unfold handle_spline. cbv zeta. words_tac. }
  assert (H10 : forall line, sim (handle_G10 c f gp line)).
  { intros. unfold handle_G10. words_tac; apply sim_each_axis; intros; sim_tac. }
  assert (HH : forall line, sim (handle_home c f gp line)).
  { intros. unfold handle_home. words_tac. }
  assert (HZ : forall line, sim (handle_z_probe c f gp line)).
  { intros. unfold handle_z_probe. words_tac. }
  assert (HX : forall line, sim (set_xyz_scale f gp line)).
  { intros. unfold set_xyz_scale. words_tac. }
  assert (H92 : forall v line, sim (handle_G92 c f gp v line)).
  { intros. unfold handle_G92. words_tac. }
  assert (H111 : forall line, sim (handle_M111 c f gp line)).
  { intros. unfold handle_M111. words_tac. }
  assert (H90 : forall v, sim (handle_G90_G91 v)).
  { intros. unfold handle_G90_G91, set_all_absolute, set_ijk_absolute. sim_tac. }
  assert (HC : forall v, sim (change_coord_system c v)).
  { intros. unfold change_coord_system. cbv zeta. sim_tac. }
  assert (HG : forall v line b, sim (run_G c f gp v line b)).
  { intros. unfold run_G, line_is. cbv zeta. repeat (sim_step || apply HP). }
  assert (HMM : forall v line, sim (run_M c f gp v line)).
  { intros. unfold run_M, line_is, finish_program. cbv zeta. 
    repeat match goal with
    | |- sim (init_program_defaults _) => apply sim_defaults
    | |- sim (set_param _ _ _ _ _ _) => apply HP
    | |- sim (unprocessed _ _ _ _ _) => apply HU
    | |- sim (handle_M111 _ _ _ _) => apply H111
    | _ => sim_step
    end. }
  unfold run_command. sim_tac.
Qed.
End Words.

Lemma sim_block_loop : forall f gp line, (forall t, sim (gp t)) -> sim (block_loop c f gp line).
Proof.
  induction f as [|f IH]; intros gp line P; [apply sim_out|]. pose proof (fun l => IH gp l P). pose proof (sim_run_command f gp P) as HC.
  cbn [block_loop]. destruct line as [line|]; [|apply sim_ret]. apply sim_bind; [apply P|]. intros [((letter, v), line')|]; [|apply sim_ret].
  apply sim_bind; [sim_tac|]. intros running. apply sim_bind.
  - unfold when. destruct running; cbn [negb]; [apply sim_ret|].
    intros s t L a t' E. unfold bind at 1, get in E. unfold bind at 1, get.
    assert (Q : g_iterating t = j /\ g_iterating s = i) by (destruct L as (? & -> & ? & ? & ?); split; [reflexivity|assumption]). destruct Q as (Qt & Qs). rewrite Qt in E. rewrite Qs.
    unfold bind, tell, emit, upd, ret in E |- *. injection E as <- <-. eexists. split; [reflexivity|].
    destruct L as (ev & -> & Ev & I & W). destruct s. cbn in *. eexists. split; [reflexivity|]. split; [cbn; f_equal; exact Ev|]. auto.
  - intros _. apply sim_bind; [sim_tac|]. intros ls. apply sim_bind; [sim_tac|]. intros _. apply sim_bind; [apply HC|]. intros l. apply IH, P.
Qed.
Lemma sim_parse_block : forall f line, sim (parse_block c f line).
Proof.
  intros [|f] line; [apply sim_out|]. cbn [parse_block]. apply sim_bind; [|intros; apply sim_tell]. apply sim_block_loop. intros t. apply sim_parse_pair.
Qed.
Lemma sim_each : forall f lines, sim (each (parse_block c f) lines).
Proof. intros f lines. induction lines as [|l lines IH]; cbn [each]; [apply sim_ret|]. apply sim_bind; [apply sim_parse_block|intros; apply IH]. Qed.
End Inside.
End Loop.
