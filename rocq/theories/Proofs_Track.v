(** The position of the parser follows from its requests and their answers. *)
From Coq Require Import SpecFloat.
From Verif Require Import Base Text Model_StringUtil Model_Float Model_Lexer Model_Axis Model_Gcode Spec_Lexer Proofs_Lexer
  Spec_Expr Proofs_Expr Spec_Line Proofs_Value Proofs_Total Proofs_Progress Spec_Events Proofs_Run Spec_Track.

Section Track.
Variable c : gcfg.
Definition follows (s : gst) : Prop := nothing_refused c (g_events s) -> forall a, g_pos s a = believed c (g_events s) a.
Definition inv {A} (m : G A) : Prop := forall s, follows s -> yields m s (fun _ s' => follows s').
Lemma follows_same : forall s s', g_events s' = g_events s -> g_pos s' = g_pos s -> follows s -> follows s'.
Proof. unfold follows. intros s s' -> ->. auto. Qed.
(** Requests that do not concern the position. *)
Definition neutral (e : event) : Prop := match e with EMove _ _ _ | EArc _ _ _ _ _ _ | ESpline _ _ _ _ _ | EHome _ | EProbe _ _ => False | _ => True end.
Lemma follows_neutral : forall s e, neutral e -> follows s -> follows (with_events s (e :: g_events s)).
Proof. intros s e H F N a. cbn [with_events g_events g_pos] in *. destruct N as [N _]. specialize (F N a). destruct e; try contradiction; exact F. Qed.

Lemma i_keeps : forall A (m : G A), keeps m -> inv m.
Proof. intros A m H s F. eapply y_weaken; [apply H|]. intros a s' (e & -> & _). now apply (follows_same s). Qed.
Lemma i_ret : forall A (a : A), inv (ret a).
Proof. intros A a s F. exact F. Qed.
Lemma i_get : forall A (f : gst -> A), inv (get f).
Proof. intros A f s F. exact F. Qed.
Lemma i_bad : forall A, inv (bad (A := A)).
Proof. intros A s F. exact I. Qed.
Lemma i_out : forall A, inv (out (A := A)).
Proof. intros A s F. exact I. Qed.
Lemma i_bind : forall A B (m : G A) (f : A -> G B), inv m -> (forall a, inv (f a)) -> inv (bind m f).
Proof. intros A B m f H I s F. eapply y_bind; [apply H, F|]. intros a s1 F1. exact (I a s1 F1). Qed.
Lemma i_upd : forall f, (forall s, g_events (f s) = g_events s /\ g_pos (f s) = g_pos s) -> inv (upd f).
Proof. intros f H s F. destruct (H s) as [H1 H2]. exact (follows_same _ _ H1 H2 F). Qed.
Lemma i_when : forall b m, inv m -> inv (when b m).
Proof. intros [|] m H; [exact H|apply i_ret]. Qed.
Lemma i_emit : forall e, neutral e -> inv (emit c e).
Proof. intros e H s F. exact (follows_neutral s e H F). Qed.
Lemma i_tell : forall e, neutral e -> inv (tell c e).
Proof. intros e H. apply i_bind; [now apply i_emit|intros; apply i_ret]. Qed.
(** A request for a target: whatever the position was before. *)
Definition leads_to (e : event) (target : axes) : Prop :=
  match e with EMove _ _ t | EArc _ _ _ _ _ t | ESpline _ _ _ _ t => t = target | _ => False end.
Lemma y_ask : forall A e target (k : G A) s, leads_to e target -> inv k ->
  yields (r <- emit c e ;; when (r_ok r) (upd (fun s => with_pos s target)) ;;; k)%g s (fun _ s' => follows s').
Proof.
  intros A e target k s L K. unfold yields, bind, emit. destruct (r_ok (gc_reply c (e :: g_events s))) eqn:E; cbn [when upd ret].
  - apply K. intros N a. cbn [with_pos with_events g_events g_pos believed]. destruct e; try contradiction; rewrite E; now rewrite L.
  - apply K. intros N. exfalso. cbn [with_events g_events] in N. destruct e; try contradiction; destruct N as [_ N]; congruence.
Qed.
Lemma i_ask : forall A e target (k : G A), leads_to e target -> inv k ->
  inv (r <- emit c e ;; when (r_ok r) (upd (fun s => with_pos s target)) ;;; k)%g.
Proof. intros A e target k L K s _. now apply y_ask. Qed.
Ltac istep :=
  match goal with
  | |- forall _, _ => intros
  | |- inv (bind (emit _ _) (fun r => bind (when (r_ok r) _) _)) => apply i_ask; [reflexivity|]
  | |- inv (bind _ _) => apply i_bind
  | |- inv (ret _) => apply i_ret
  | |- inv (get _) => apply i_get
  | |- inv bad => apply i_bad
  | |- inv out => apply i_out
  | |- inv err => apply i_keeps, k_err
  | |- inv fail => apply i_keeps, k_fail
  | |- inv (value _ _ _) => apply i_keeps, k_evaluation
  | |- inv (param_name _ _ _) => apply i_keeps, k_evaluation
  | |- inv (expression _ _ _) => apply i_keeps, k_evaluation
  | |- inv (read_parameter _) => apply i_keeps, k_read
  | |- inv (execute_binary _ _ _ _) => apply i_keeps, k_binary
  | |- inv (expect _ _) => apply i_keeps, k_expect
  | |- inv (emit _ _) => apply i_emit; exact I
  | |- inv (tell _ _) => apply i_tell; exact I
  | |- inv (when _ _) => apply i_when
  | |- inv (upd _) => apply i_upd; intros; split; reflexivity
  | H : _ |- inv _ => apply H
  | |- inv (if ?b then _ else _) => destruct b
  | |- inv (match ?x with _ => _ end) => destruct x
  | |- inv ((match ?x with _ => _ end) _ _) => destruct x
  end.
Ltac itac := repeat istep.

Lemma i_store : forall n v, inv (store_parameter n v).
Proof. intros. unfold store_parameter. cbv zeta. itac. Qed.
Lemma i_assigned : forall f n l o, inv (assigned c f n l o).
Proof. intros. unfold assigned. itac. Qed.
Lemma i_set_parameter : forall f l, inv (set_parameter c f l).
Proof. intros. unfold set_parameter. pose proof i_store. pose proof i_assigned. itac. Qed.
Lemma i_conditional : forall f l, inv (conditional c f l).
Proof. pose proof i_set_parameter. induction f as [|f IH]; intros; cbn [conditional]; itac. Qed.
Lemma i_inform : forall n, inv (inform_origin c n).
Proof. intros. unfold inform_origin. itac. Qed.
Lemma i_offset : forall b n, inv (set_current_offset c b n).
Proof. intros. unfold set_current_offset. pose proof i_inform. itac. Qed.
Lemma i_each_axis : forall f l, (forall a, inv (f a)) -> inv (each_axis f l).
Proof. induction l; intros; cbn [each_axis]; itac. Qed.
Lemma i_each : forall (f : text -> G unit) l, (forall a, inv (f a)) -> inv (each f l).
Proof. induction l; intros; cbn [each]; itac. Qed.
Lemma i_defaults : inv (init_program_defaults c).
Proof. unfold init_program_defaults, set_all_absolute, set_ijk_absolute. pose proof i_offset. itac. Qed.
Lemma i_finish : inv (finish_program c).
Proof. unfold finish_program. pose proof i_defaults. itac. Qed.
Lemma i_systems : inv (init_coord_systems c).
Proof. unfold init_coord_systems. cbv zeta. pose proof i_store. pose proof i_inform. itac. Qed.

Section Words.
Variable pb : text -> G unit.
Hypothesis Pb : forall l, inv (pb l).
Lemma i_while_end : forall f, inv (while_end c f pb).
Proof. induction f as [|f IH]; cbn [while_end]; [apply i_out|]. pose proof (fun l => i_each pb l Pb). itac. Qed.
Lemma i_while_do : forall f l, inv (while_do c f pb l).
Proof. intros. unfold while_do. pose proof i_while_end. itac. Qed.
Lemma i_while_start : forall l, inv (while_start l).
Proof. intros. unfold while_start. itac. Qed.
Lemma i_pair : forall f l, inv (parse_pair c f pb l).
Proof.
  pose proof i_while_do. pose proof i_while_start. pose proof i_conditional. pose proof i_set_parameter.
  induction f as [|f IH]; intros l; cbn [parse_pair]; cbv zeta; itac.
Qed.
End Words.

Section Commands.
Variables (fuel : nat) (gp : text -> G (option (ascii * fl * text))).
Hypothesis Gp : forall l, inv (gp l).
Lemma i_args : forall A (step : A -> ascii -> fl -> G (bool * A)) n acc l, (forall acc l v, inv (step acc l v)) -> inv (args n gp step acc l).
Proof. intros A step. induction n as [|n IH]; intros acc l H; cbn [args]; itac. Qed.
Ltac atac := repeat first [istep | match goal with |- inv (args _ _ _ _ _) => apply i_args end].
Lemma i_scale : forall l, inv (set_xyz_scale fuel gp l).
Proof. intros. unfold set_xyz_scale. atac. Qed.
Lemma i_G10 : forall l, inv (handle_G10 c fuel gp l).
Proof. intros. unfold handle_G10. cbv zeta. pose proof i_store. pose proof i_inform. pose proof i_each_axis. atac. Qed.
Lemma i_G92 : forall v l, inv (handle_G92 c fuel gp v l).
Proof. intros. unfold handle_G92. pose proof i_offset. atac. Qed.
Lemma i_M111 : forall l, inv (handle_M111 c fuel gp l).
Proof. intros. unfold handle_M111. atac. Qed.
Lemma i_home : forall l, inv (handle_home c fuel gp l).
Proof.
  intros. unfold handle_home. cbv zeta. apply i_bind; [atac|]. intros [flags rest]. set (w := if existsb flags all_axes then flags else fun _ => true).
  intros s F. unfold yields, bind, tell, bind, emit, upd, ret. intros N a. cbn [with_pos with_events g_events g_pos believed] in *. destruct N as [N _]. now rewrite (F N a).
Qed.
Lemma i_probe : forall l, inv (handle_z_probe c fuel gp l).
Proof.
  intros. unfold handle_z_probe. apply i_bind; [atac|]. intros [[feed th] rest]. cbv beta.
  assert (K : inv (upd (fun s => with_g92 s (set_axis (g_g92 s) AZ (f32_sub (f32_sub (g_pos s AZ) th) (origin_of c s AZ)))) ;;; set_current_offset c true (txt "G30") ;;; ret (Some rest))%g)
    by (pose proof i_offset; itac).
  intros s F. unfold bind at 1, yields, emit. set (ev := EProbe feed AZ :: g_events s). destruct (r_ok (gc_reply c ev)) eqn:E.
  - unfold bind at 1, upd at 1. apply K. intros N a. cbn [with_pos with_events g_events g_pos] in *. unfold ev in *. cbn [believed] in *. destruct N as [N _].
    unfold set_axis. rewrite E, andb_true_r. destruct (axis_eqb a AZ); [reflexivity|apply (F N)].
  - intros N a. cbn [ret with_events g_events g_pos] in *. unfold ev in *. cbn [believed]. destruct N as [N _]. now rewrite (F N a), E, andb_false_r.
Qed.
Lemma i_arc : forall l b, inv (handle_arc c fuel gp l b).
Proof. intros. unfold handle_arc. cbv zeta. atac. Qed.
Lemma i_spline : forall v l, inv (handle_spline c fuel gp v l).
Proof. intros. unfold handle_spline. cbv zeta. atac. Qed.
Lemma i_move : forall l b, inv (handle_move c fuel gp l b).
Proof. intros. unfold handle_move. cbv zeta. atac. Qed.
(** A move that is asked for in any case restores what was lost. *)
Lemma move_restores : forall l s, yields (handle_move c fuel gp l true) s (fun _ s' => follows s').
Proof.
  intros l s. unfold handle_move. cbv zeta. apply y_then. intros pos0 sa.
  match goal with |- yields (bind (args _ _ ?st ?i _) _) _ _ => set (step := st); set (init := i) end.
  assert (X : forall n acc l s, fst (fst (fst acc)) = true -> yields (args n gp step acc l) s (fun r _ => fst (fst (fst (fst r))) = true)).
  { induction n as [|n IH]; intros acc l0 s0 H; [exact I|]. cbn [args]. apply y_then. intros [[[x v] rest]|] s1; [|apply y_ret; exact H].
    eapply y_bind with (P := fun r _ => fst (fst (fst (snd r))) = true).
    - destruct acc as [[[ch fe] np] af]. cbn [fst] in H. subst ch. unfold step. destruct (Ascii.eqb x "F"); [reflexivity|]. destruct (Ascii.eqb x "S"); [reflexivity|]. destruct (letter_axis x); reflexivity.
    - intros [go acc'] s2 H2. cbn [snd] in H2. destruct go; [now apply IH|apply y_ret; exact H2]. }
  eapply y_bind; [apply (X fuel init l sa); reflexivity|]. intros [[[[ch fe] np] af] rest] s1 H. cbn [fst] in H. rewrite H.
  apply y_then. intros r s2. apply y_then. intros modal s3. apply y_ask; [reflexivity|apply i_ret].
Qed.
Lemma i_param : forall a b d l, (forall v, neutral (b v)) -> inv (set_param c gp a b d l).
Proof. intros a b d l H. unfold set_param. apply i_bind; [apply Gp|]. intros [[[x v] rest]|]; [|apply i_ret]. destruct (Ascii.eqb x a); [|apply i_ret]. apply i_bind; [apply i_tell, H|intros; apply i_ret]. Qed.
Lemma i_read_pairs : forall n l, inv (read_pairs gp n l).
Proof. induction n as [|n IH]; intros; cbn [read_pairs]; itac. Qed.
Lemma i_unprocessed : forall a v l, inv (unprocessed c gp a v l).
Proof. intros. unfold unprocessed. pose proof i_read_pairs. itac. Qed.
Lemma i_run_G : forall v l b, inv (run_G c fuel gp v l b).
Proof.
  intros. pose proof i_move. pose proof i_arc. pose proof i_spline. pose proof i_G10. pose proof i_home. pose proof i_probe. pose proof i_scale. pose proof i_G92. pose proof i_unprocessed.
  pose proof i_store. pose proof i_inform.
  unfold run_G, line_is, change_coord_system, handle_G90_G91, set_all_absolute, set_ijk_absolute. cbv zeta. repeat first [istep | apply i_param; intros; exact I].
Qed.
Lemma i_run_M : forall v l, inv (run_M c fuel gp v l).
Proof.
  intros. pose proof i_finish. pose proof i_M111. pose proof i_unprocessed. unfold run_M, line_is. cbv zeta.
  repeat first [match goal with |- inv (set_param _ _ _ _ _ _) => apply i_param; intros; exact I end | istep].
Qed.
Lemma i_run_command : forall letter v l b, inv (run_command c fuel gp letter v l b).
Proof.
  intros. pose proof i_run_G. pose proof i_run_M. pose proof i_unprocessed. unfold run_command.
  destruct (Ascii.eqb letter "G"); [itac|]. destruct (Ascii.eqb letter "M"); [itac|]. destruct (Ascii.eqb letter "F").
  { intros s F. unfold yields, bind, get, tell, bind, emit, ret. apply follows_neutral; [exact I|]. intros N a. cbn [with_events g_events g_pos believed] in *. destruct N as [N ->]. reflexivity. }
  destruct (Ascii.eqb letter "N"); [itac|]. destruct (letter_axis letter); [|itac].
  intros s F. apply y_then. intros u s1. eapply y_bind; [apply move_restores|]. intros r s2 F2.
  assert (K : inv (modal <- get g_modal ;; tell c (ECommandDone "G" (truth modal)) ;;; ret r)%g) by itac. exact (K s2 F2).
Qed.
End Commands.

Lemma i_block_loop : forall f gp l, (forall l, inv (gp l)) -> inv (block_loop c f gp l).
Proof.
  induction f as [|f IH]; intros gp l Gp; cbn [block_loop]; [apply i_out|]. pose proof (fun a b d e => i_run_command f gp Gp a b d e). pose proof (fun l => IH gp l Gp). itac.
Qed.
Lemma i_parse_block : forall f l, inv (parse_block c f l).
Proof. induction f as [|f IH]; intros l; cbn [parse_block]; [apply i_out|]. pose proof (fun l => i_block_loop f _ l (i_pair _ IH f)). itac. Qed.
Lemma i_read_file : forall f ls, inv (read_file c f ls).
Proof. intros. unfold read_file. pose proof (fun l => i_each _ l (i_parse_block f)). itac. Qed.
Lemma fresh_follows : forall m, follows (fresh c m).
Proof. intros m N a. reflexivity. Qed.
End Track.
