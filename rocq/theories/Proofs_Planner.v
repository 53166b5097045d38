(** Proofs about the planner: steps, order, the size of the buffer. *)
From Coq Require Import SpecFloat.
From Verif Require Import Base Model_Float Model_Axis Model_Hardware Model_Planner Spec_Planner.

Lemma axis_eqb_spec : forall a b, reflect (a = b) (axis_eqb a b).
Proof. intros a b. destruct a, b; constructor; congruence. Qed.
Lemma all_axes_in : forall a, In a all_axes.
Proof. intros []; cbn; tauto. Qed.
Lemma all_axes_nodup : NoDup all_axes.
Proof. repeat constructor; cbn; intuition discriminate. Qed.

Section Planner.
Variable c : pcfg.

(** ** Motors *)
Lemma assign_fold : forall steps l out m,
  fold_left (fun out a => assign_motor_steps (p_hw c) a (steps a) out) l out m =
  fold_left (fun v a => if Z.testbit (hw_drivers (p_hw c) a) (motor_ix m) then steps a else v) l (out m).
Proof. intros steps. induction l as [|a l IH]; intros out m; [reflexivity|]. cbn [fold_left]. rewrite IH. reflexivity. Qed.
Lemma assign_turns : forall steps m a, turns_for c m a -> assign_all c steps m = steps a.
Proof.
  intros steps m a H. unfold assign_all. rewrite assign_fold.
  assert (G : forall l v, fold_left (fun v b => if Z.testbit (hw_drivers (p_hw c) b) (motor_ix m) then steps b else v) l v = if existsb (axis_eqb a) l then steps a else v).
  { induction l as [|b l IH]; intros v; [reflexivity|]. cbn [fold_left existsb]. rewrite IH.
    destruct (axis_eqb_spec a b) as [<-|N]; cbn [orb].
    - rewrite (proj2 (H a) eq_refl). now destruct (existsb (axis_eqb a) l).
    - destruct (Z.testbit (hw_drivers (p_hw c) b) (motor_ix m)) eqn:E; [|reflexivity]. apply H in E. congruence. }
  rewrite G. replace (existsb (axis_eqb a) all_axes) with true; [reflexivity|]. now destruct a.
Qed.
Lemma assign_none : forall steps m, (forall a, ~ Z.testbit (hw_drivers (p_hw c) a) (motor_ix m) = true) -> assign_all c steps m = 0.
Proof.
  intros steps m H. unfold assign_all. rewrite assign_fold. generalize 0 as v. induction all_axes as [|a l IH]; intros v; [reflexivity|].
  cbn [fold_left]. rewrite IH. specialize (H a). now destruct (Z.testbit _ _).
Qed.

(** ** The commands of a segment *)
Definition leg_of (s : pseg) : leg := mk_leg (t_delta (s_target s)) (t_aux (s_target s)).
(** The commands sent if all are accepted. *)
Definition group (s : pseg) : list command :=
  let '(a, m, d, has) := commands c s in
  (if f_accel (s_plan s) =? 0 then [] else [a]) ++ (if has then [m] else []) ++ (if f_decel (s_plan s) =? 0 then [] else [d]).

Lemma no_steps : forall v s, snd (subtract_steps v s) = false -> forall m, fst (subtract_steps v s) m = 0.
Proof.
  intros v s H m. unfold subtract_steps in *. cbn [fst snd] in *.
  destruct (Z.eq_dec (v m - s m) 0) as [E|E]; [exact E|]. exfalso.
  assert (X : existsb (fun m => negb (v m - s m =? 0)) all_motors = true); [|congruence].
  apply existsb_exists. exists m. split; [destruct m; cbn; tauto|]. lia.
Qed.
Lemma group_steps : forall s m, total (fun x => c_steps x m) (group s) = assign_all c (t_delta (s_target s)) m.
Proof.
  intros s m. unfold group, commands.
  set (A := if f_accel (s_plan s) =? 0 then _ else _). set (D := if f_decel (s_plan s) =? 0 then _ else _).
  destruct (subtract_steps (assign_all c (t_delta (s_target s))) (c_steps A)) as [m1 b1] eqn:E1.
  destruct (subtract_steps m1 (c_steps D)) as [m2 has] eqn:E2.
  assert (M1 : forall k, m1 k = assign_all c (t_delta (s_target s)) k - c_steps A k) by (unfold subtract_steps in E1; injection E1 as <- _; reflexivity).
  assert (M2 : forall k, m2 k = m1 k - c_steps D k) by (unfold subtract_steps in E2; injection E2 as <- _; reflexivity).
  assert (A0 : (f_accel (s_plan s) =? 0) = true -> c_steps A m = 0) by (intros E; unfold A; now rewrite E).
  assert (D0 : (f_decel (s_plan s) =? 0) = true -> c_steps D m = 0) by (intros E; unfold D; now rewrite E).
  assert (H0 : has = false -> m2 m = 0).
  { intros ->. pose proof (no_steps m1 (c_steps D)) as X. rewrite E2 in X. apply X. reflexivity. }
  specialize (M1 m). specialize (M2 m).
  destruct (f_accel (s_plan s) =? 0), has, (f_decel (s_plan s) =? 0); cbn [app total fold_right c_steps]; lia.
Qed.
Lemma group_carries : forall s, carries_out c (group s) (leg_of s).
Proof.
  intros s. split; [|split; [|split; [|split]]].
  - intros m a H. rewrite group_steps. now apply assign_turns.
  - intros m H. rewrite group_steps. now apply assign_none.
  - unfold group, commands. destruct (subtract_steps _ _) as [m1 b1]. destruct (subtract_steps _ _) as [m2 has].
    destruct (f_accel (s_plan s) =? 0), has, (f_decel (s_plan s) =? 0); repeat constructor.
  - unfold group, commands. destruct (subtract_steps _ _) as [m1 b1]. destruct (subtract_steps _ _) as [m2 has].
    destruct (f_accel (s_plan s) =? 0), has, (f_decel (s_plan s) =? 0); cbn; lia.
  - unfold group, commands. destruct (subtract_steps _ _) as [m1 b1]. destruct (subtract_steps _ _) as [m2 has].
    destruct (f_accel (s_plan s) =? 0), has, (f_decel (s_plan s) =? 0); cbn; auto.
Qed.
Lemma sent_app : forall l1 l2, sent (l1 ++ l2) = sent l1 ++ sent l2.
Proof. intros. unfold sent. apply flat_map_app. Qed.
Lemma send_willing : willing c -> forall s log, exists log', send c s true log = (true, log') /\ sent log' = rev (group s) ++ sent log.
Proof.
  intros W s log. unfold send, group. destruct (commands c s) as [[[a m] d] has]. unfold enqueue.
  destruct (f_accel (s_plan s) =? 0), has, (f_decel (s_plan s) =? 0); cbn [andb negb]; rewrite ?W; cbn [andb]; eexists; split; try reflexivity.
Qed.

Lemma tries_app : forall l1 l2, tries (l1 ++ l2) = tries l1 ++ tries l2.
Proof. intros. unfold tries. apply flat_map_app. Qed.
Lemma tries_sent : forall log, map fst (tries log) = sent log.
Proof. induction log as [|[x b|m p] log IH]; cbn; [reflexivity| |exact IH]. unfold tries, sent in *. now rewrite IH. Qed.
(** What is tried for a segment. *)
Definition going (ret : bool) (log : list told) : Prop := ret = true \/ stopped (rev (tries log)).
Lemma send_tries : forall s ret log, going ret log -> exists g rest, group s = map fst g ++ rest /\ tries (snd (send c s ret log)) = rev g ++ tries log /\
  (forall g1 x g2, g = g1 ++ x :: g2 -> g2 <> [] -> snd x = true) /\ (rest = [] \/ stopped (rev (tries log) ++ g)) /\ going (fst (send c s ret log)) (snd (send c s ret log)) /\
  (willing c -> Forall (fun x => snd x = true) g).
Proof.
  assert (N1 : forall (u : command * bool) g1 x g2, [u] = g1 ++ x :: g2 -> g2 <> [] -> snd x = true).
  { intros u [|? [|? ?]] x g2 E N; injection E as E1 E2; subst; congruence. }
  assert (N2 : forall (u v : command * bool) g1 x g2, snd u = true -> [u; v] = g1 ++ x :: g2 -> g2 <> [] -> snd x = true).
  { intros u v [|? [|? [|? ?]]] x g2 T E N; injection E as E1 E2; subst; try congruence. }
  assert (N3 : forall (u v w : command * bool) g1 x g2, snd u = true -> snd v = true -> [u; v; w] = g1 ++ x :: g2 -> g2 <> [] -> snd x = true).
  { intros u v w [|? [|? [|? [|? ?]]]] x g2 T T2 E N; injection E as E1 E2; subst; try congruence. }
  assert (N0 : forall g1 (x : command * bool) g2, [] = g1 ++ x :: g2 -> g2 <> [] -> snd x = true) by (intros [|? ?] x g2 E; discriminate).
  intros s ret log G. unfold send, group. destruct (commands c s) as [[[a m] d] has]. unfold enqueue.
  assert (F : forall x b l, tries (Segment x b :: l) = (x, b) :: tries l) by reflexivity.
  assert (St : forall l x, stopped (l ++ [(x, false)])) by (intros l x; exists l, x; reflexivity).
  assert (St2 : forall l u x, stopped (l ++ [u; (x, false)])) by (intros l u x; exists (l ++ [u]), x; now rewrite <- app_assoc).
  assert (St3 : forall l u v x, stopped (l ++ [u; v; (x, false)])) by (intros l u v x; exists (l ++ [u; v]), x; now rewrite <- app_assoc).
  assert (Sn : forall l, stopped l -> stopped (l ++ [])) by (intros l H; now rewrite app_nil_r).
  assert (Go : forall b l, (b = false -> stopped (rev (tries l))) -> going b l) by (intros [|] l H; [now left|right; auto]).
  assert (Wt : forall (b : bool) x, willing c -> b = p_accepts c x -> b = true) by (intros b x W ->; apply W).
  assert (Al : Forall (fun x : command * bool => snd x = true) []) by constructor.
  assert (Ac : forall u l, snd u = true -> Forall (fun x : command * bool => snd x = true) l -> Forall (fun x => snd x = true) (u :: l)) by (intros; now constructor).
  assert (Wf : forall l, willing c -> false = p_accepts c l -> False) by (intros l W E; specialize (W l); congruence).
  destruct (f_accel (s_plan s) =? 0), has, (f_decel (s_plan s) =? 0), ret; cbn [andb negb fst snd app];
    repeat match goal with |- context [p_accepts c (?x :: ?l)] => let b := fresh "b" in let E := fresh "E" in remember (p_accepts c (x :: l)) as b eqn:E; destruct b; cbn [andb negb fst snd app] end;
    rewrite ?F;
    match goal with
    | |- exists g rest, ?G = _ /\ tries log = _ /\ _ => exists [], G
    | |- exists g rest, ?x :: ?G = _ /\ ?u :: tries log = _ /\ _ => exists [u], G
    | |- exists g rest, ?x :: ?y :: ?G = _ /\ ?v :: ?u :: tries log = _ /\ _ => exists [u; v], G
    | |- exists g rest, ?x :: ?y :: ?z :: ?G = _ /\ ?w :: ?v :: ?u :: tries log = _ /\ _ => exists [u; v; w], G
    end;
    (split; [reflexivity|split; [reflexivity|split; [eauto using eq_refl|split; [|split]]]]);
    try (left; reflexivity); try exact G;
    try (right; (apply St || apply St2 || apply St3 || (rewrite app_nil_r; destruct G as [G|G]; [discriminate G|exact G])));
    try (right; apply St);
    try (intros W; repeat match goal with E : false = p_accepts c _ |- _ => destruct (Wf _ W E) end; repeat (apply Ac; [reflexivity|]); exact Al);
    try (intros g1 x g2 Eg; first [eapply N2; [|exact Eg]|eapply N3; [| |exact Eg]]; reflexivity).
Qed.

(** The segment that only keeps the position. *)
Definition holds (s : pseg) : Prop :=
  (forall a, t_delta (s_target s) a = 0) /\ t_speed (s_target s) = d0 /\ f_accel (s_plan s) = 0 /\ f_decel (s_plan s) = 0 /\ f_v1 (s_plan s) = d0.
Lemma assign_zero : forall steps m, (forall a, steps a = 0) -> assign_all c steps m = 0.
Proof.
  intros steps m H. unfold assign_all. rewrite assign_fold. cbv beta. generalize (eq_refl 0). generalize 0 at 1 3 as v. 
  induction all_axes as [|a l IH]; intros v Hv; [auto|]. cbn [fold_left]. apply IH. rewrite H. now destruct (Z.testbit _ _).
Qed.
Lemma holds_silent : forall s, holds s -> group s = [] /\ forall ret log, send c s ret log = (ret, log).
Proof.
  intros s (H1 & _ & H2 & H3 & _).
  assert (X : snd (commands c s) = false).
  { unfold commands. rewrite H2, H3. cbn [Z.eqb c_steps]. unfold subtract_steps. cbn [snd].
    destruct (existsb _ all_motors) eqn:E; [|reflexivity]. apply existsb_exists in E. destruct E as (m & _ & E).
    rewrite (assign_zero _ m H1) in E. discriminate. }
  unfold group, send. destruct (commands c s) as [[[a m] d] has]. cbn [snd] in X. subst has. rewrite H2, H3. split; reflexivity.
Qed.
Lemma holder_holds : forall pos, holds (holder pos).
Proof. intros pos. repeat split. Qed.

(** ** Planning changes the profiles only *)
Lemma backward_targets : forall l done kept behind, backward c l done = (kept, behind) ->
  map s_target kept ++ map s_target behind = rev (map s_target l) ++ map s_target done.
Proof.
  induction l as [|s l IH]; intros done kept behind E; cbn [backward] in E.
  - injection E as <- <-. reflexivity.
  - destruct (decelerate c s _) as [go p]. destruct go.
    + apply IH in E. rewrite E. cbn [map rev with_plan s_target]. now rewrite <- app_assoc.
    + injection E as <- <-. cbn [rev map]. now rewrite map_app, map_rev.
Qed.
Lemma forward_targets : forall l prev ix l' first, forward c prev ix l = (l', first) -> map s_target l' = map s_target l.
Proof.
  induction l as [|s l IH]; intros prev ix l' first E; cbn [forward] in E.
  - injection E as <- _. reflexivity.
  - destruct (accelerate c prev s) as [acc p]. destruct (forward c _ _ l) as [r' f] eqn:F. injection E as <- _.
    cbn [map with_plan s_target]. f_equal. eauto.
Qed.
Lemma update_targets : forall buf ready, map s_target (fst (update_profile c buf ready)) = map s_target buf.
Proof.
  intros buf ready. unfold update_profile. destruct (backward c _ _) as [kept behind] eqn:B. destruct (forward c _ _ behind) as [planned first] eqn:F.
  cbn [fst]. apply backward_targets in B. apply forward_targets in F. rewrite !map_app, F, <- app_assoc, B, map_rev, rev_involutive. cbn [map]. rewrite app_nil_r.
  rewrite <- map_app, firstn_skipn. reflexivity.
Qed.
(** Neither of the passes touches a segment that only keeps the position. *)
Lemma decelerate_holds : forall s next, holds s -> decelerate c s next = (true, s_plan s).
Proof. intros s next (_ & H & _). unfold decelerate. rewrite H. reflexivity. Qed.
Lemma accelerate_holds : forall prev s, holds s -> holds (with_plan s (snd (accelerate c prev s))).
Proof.
  intros prev s (H1 & H2 & H3 & H4 & H5). unfold accelerate. rewrite H5. cbn [SFeqb SFcompare d0 snd]. repeat split; assumption.
Qed.
Definition same_kind (s s' : pseg) : Prop := s_target s' = s_target s /\ (holds s -> holds s').
Lemma kind_refl : forall s, same_kind s s.
Proof. split; auto. Qed.
Lemma kind_trans : forall s t u, same_kind s t -> same_kind t u -> same_kind s u.
Proof. intros s t u [A B] [C D]. split; [congruence|auto]. Qed.
Lemma kind_list_refl : forall l, Forall2 same_kind l l.
Proof. induction l; constructor; auto using kind_refl. Qed.
Lemma backward_kind : forall l done kept behind done0, backward c l done = (kept, behind) -> Forall2 same_kind done0 done ->
  Forall2 same_kind (rev l ++ done0) (kept ++ behind).
Proof.
  induction l as [|s l IH]; intros done kept behind done0 E F; cbn [backward] in E.
  - injection E as <- <-. exact F.
  - destruct (decelerate c s _) as [go p] eqn:D. destruct go.
    + apply (IH _ _ _ (s :: done0)) in E.
      * cbn [rev]. now rewrite <- app_assoc.
      * constructor; [|exact F]. split; [reflexivity|]. intros H. rewrite decelerate_holds in D by exact H. injection D as <-. destruct s; exact H.
    + injection E as <- <-. apply Forall2_app; [apply kind_list_refl|exact F].
Qed.
Lemma forward_kind : forall l prev ix l' first, forward c prev ix l = (l', first) -> Forall2 same_kind l l'.
Proof.
  induction l as [|s l IH]; intros prev ix l' first E; cbn [forward] in E.
  - injection E as <- _. constructor.
  - destruct (accelerate c prev s) as [acc p] eqn:A. destruct (forward c _ _ l) as [r' f] eqn:F. injection E as <- _. constructor; [|eauto].
    split; [reflexivity|]. intros H. apply (accelerate_holds prev) in H. now rewrite A in H.
Qed.
Lemma kind_list_trans : forall l1 l2 l3, Forall2 same_kind l1 l2 -> Forall2 same_kind l2 l3 -> Forall2 same_kind l1 l3.
Proof.
  intros l1 l2 l3 H. revert l3. induction H; intros l3 H2; inversion H2; subst; constructor; eauto using kind_trans.
Qed.
Lemma update_kind : forall buf ready, Forall2 same_kind buf (fst (update_profile c buf ready)).
Proof.
  intros buf ready. unfold update_profile. destruct (backward c _ _) as [kept behind] eqn:B. destruct (forward c _ _ behind) as [planned first] eqn:F. cbn [fst].
  apply (backward_kind _ _ _ _ []) in B; [|constructor]. apply forward_kind in F. rewrite rev_involutive, app_nil_r in B.
  rewrite <- (firstn_skipn (Z.to_nat ready) buf) at 1. rewrite <- app_assoc. apply Forall2_app; [apply kind_list_refl|].
  eapply kind_list_trans; [exact B|]. apply Forall2_app; [apply kind_list_refl|exact F].
Qed.

(** ** Issuing *)
Definition last_pos (buf : list pseg) : axis -> Z := t_pos (s_target (last buf (holder (fun _ => 0)))).
Lemma issue_part : forall n ret st, (n < length (p_buf st))%nat -> exists ret' ready' log',
  issue c n ret st = Ok (ret', mk_planner (skipn n (p_buf st)) ready' (p_look st) (p_halted st) (p_known st) log') /\
  (Forall holds (firstn n (p_buf st)) -> ret' = ret) /\
  (willing c -> ret = true -> ret' = true /\ sent log' = rev (concat (map group (firstn n (p_buf st)))) ++ sent (p_log st)).
Proof.
  induction n as [|n IH]; intros ret st L.
  - exists ret, (p_ready st), (p_log st). destruct st; cbn. repeat split; auto.
  - cbn [issue]. destruct (p_buf st) as [|s rest] eqn:B; [cbn in L; lia|]. destruct (send c s ret (p_log st)) as [r1 l1] eqn:S.
    destruct rest as [|s2 rest]; [cbn in L; lia|]. set (st1 := mk_planner (s2 :: rest) _ _ _ _ _).
    destruct (IH r1 st1) as (r' & ready' & log' & E & H1 & H2); [cbn [p_buf st1]; cbn in *; lia|].
    exists r', ready', log'. split; [exact E|]. cbn [p_buf p_log st1] in *. cbn [firstn]. split.
    + intros F. inversion F as [|? ? Hs Hr]; subst. rewrite (H1 Hr). pose proof (proj2 (holds_silent _ Hs) ret (p_log st)) as X. congruence.
    + intros W ->. destruct (send_willing W s (p_log st)) as (l2 & E2 & E3). rewrite E2 in S. injection S as <- <-.
      destruct (H2 W eq_refl) as [-> ->]. split; [reflexivity|]. cbn [map concat]. now rewrite rev_app_distr, <- app_assoc, E3.
Qed.
Lemma issue_all : forall l ret st, p_buf st = l -> l <> [] -> exists log',
  issue c (length l) ret st = Ok (false, mk_planner [holder (last_pos l)] 0 (p_look st) true (p_known st) log') /\
  (willing c -> ret = true -> sent log' = rev (concat (map group l)) ++ sent (p_log st)).
Proof.
  induction l as [|s l IH]; intros ret st B N; [congruence|]. cbn [length issue]. rewrite B. destruct (send c s ret (p_log st)) as [r1 l1] eqn:S.
  assert (X : willing c -> ret = true -> r1 = true /\ sent l1 = rev (group s) ++ sent (p_log st)).
  { intros W ->. destruct (send_willing W s (p_log st)) as (l2 & E2 & E3). rewrite E2 in S. injection S as <- <-. auto. }
  destruct l as [|s2 l].
  - cbn [length issue]. exists l1. split; [reflexivity|]. intros W R. cbn [map concat]. rewrite app_nil_r. now apply X.
  - destruct (IH r1 (mk_planner (s2 :: l) (if 0 <? p_ready st then p_ready st - 1 else p_ready st) (p_look st) (p_halted st) (p_known st) l1)) as (log' & E & H); [reflexivity|discriminate|].
    exists log'. split; [exact E|]. intros W R. destruct (X W R) as [-> E1]. rewrite (H W eq_refl). cbn [p_log]. rewrite E1. cbn [map concat]. now rewrite (rev_app_distr (group s)), <- app_assoc.
Qed.

Lemma issue_tries : forall n ret st ret' st', issue c n ret st = Ok (ret', st') -> (n <= length (p_buf st))%nat ->
  forall hs l, firstn n (p_buf st) = hs ++ l -> Forall holds hs -> going ret (p_log st) ->
  (forall D, delivered c (rev (tries (p_log st))) D -> delivered c (rev (tries (p_log st'))) (D ++ map leg_of l)) /\
  (willing c -> Forall (fun x => snd x = true) (tries (p_log st)) -> Forall (fun x => snd x = true) (tries (p_log st'))).
Proof.
  induction n as [|n IH]; intros ret st ret' st' E Le hs l Ef H G; cbn [issue] in E.
  - injection E as _ <-. cbn [firstn] in Ef. destruct hs, l; try discriminate. cbn [map]. split; [intros D; now rewrite app_nil_r|auto].
  - destruct (p_buf st) as [|s rest] eqn:B; [discriminate|]. destruct (send c s ret (p_log st)) as [r1 l1] eqn:S. cbn [firstn length] in *.
    destruct (send_tries s ret (p_log st) G) as (g & cut & E1 & E2 & E3 & E4 & E5 & E6). rewrite S in *. cbn [fst snd] in *.
    assert (NX : exists st1, issue c n (match rest with [] => false | _ => r1 end) st1 = Ok (ret', st') /\ p_log st1 = l1 /\ (n <= length (p_buf st1))%nat /\ (rest <> [] -> p_buf st1 = rest) /\ (rest = [] -> n = O)).
    { destruct rest; eexists; (split; [exact E|]); cbn [p_log p_buf length] in *; repeat split; try lia; congruence. }
    destruct NX as (st1 & E0 & El & Ln & Br & Bn).
    assert (Step : forall hs l, firstn n (p_buf st1) = hs ++ l -> Forall holds hs -> (forall D, delivered c (rev (tries l1)) D -> delivered c (rev (tries (p_log st'))) (D ++ map leg_of l)) /\
                     (willing c -> Forall (fun x => snd x = true) (tries l1) -> Forall (fun x => snd x = true) (tries (p_log st')))).
    { intros hs' l' Ef' H'. destruct rest as [|s2 rest].
      - rewrite (Bn eq_refl) in *. cbn [issue firstn] in *. injection E0 as _ <-. destruct hs', l'; try discriminate. rewrite El. split; [intros D; now rewrite app_nil_r|auto].
      - rewrite <- El in *. eapply (IH r1 st1 ret' st' E0 Ln hs' l' Ef' H'). exact E5. }
    assert (Fr : firstn n (p_buf st1) = firstn n rest) by (destruct rest; [rewrite (Bn eq_refl); reflexivity|now rewrite Br by discriminate]).
    destruct hs as [|h hs].
    + destruct l as [|s' l]; [discriminate|]. cbn [app] in Ef. injection Ef as <- Ef. destruct (Step [] l) as [S1 S2]; [now rewrite Fr|constructor|]. split.
      * intros D HD. cbn [map]. replace (D ++ leg_of s :: map leg_of l) with ((D ++ [leg_of s]) ++ map leg_of l) by now rewrite <- app_assoc. apply S1. rewrite E2, rev_app_distr, rev_involutive.
        eapply delivered_more; eauto. rewrite <- E1. apply group_carries.
      * intros W F. apply S2; [exact W|]. rewrite E2. apply Forall_app. split; [|exact F]. apply Forall_rev. auto.
    + cbn [app] in Ef. injection Ef as Es Ef. pose proof (Forall_inv H) as Hh. destruct (Step hs l) as [S1 S2]; [now rewrite Fr|exact (Forall_inv_tail H)|].
      rewrite Es, (proj2 (holds_silent h Hh)) in S. injection S as _ Sl. rewrite Sl in *. auto.
Qed.

(** ** The axis that leads *)
Lemma defining_zero : forall d, (fst (defining d) =? 0) = forallb (fun a => d a =? 0) all_axes.
Proof.
  intros d. unfold defining.
  assert (G : forall l m a, -1 <= m -> let r := fst (fold_left (fun '(m, x) b => if m <? Z.abs (d b) then (Z.abs (d b), b) else (m, x)) l (m, a)) in
            m <= r /\ (forall b, In b l -> Z.abs (d b) <= r) /\ (r = m \/ exists b, In b l /\ r = Z.abs (d b))).
  { induction l as [|b l IH]; intros m a Hm; cbn [fold_left fst].
    - split; [lia|]. split; [intros b []|auto].
    - destruct (m <? Z.abs (d b)) eqn:E.
      + destruct (IH (Z.abs (d b)) b ltac:(lia)) as (H1 & H2 & H3). cbn zeta in *. split; [lia|]. split.
        * intros b' [<-|I]; [exact H1|auto].
        * right. destruct H3 as [->|(b' & I & ->)]; [exists b|exists b']; cbn; auto.
      + destruct (IH m a Hm) as (H1 & H2 & H3). cbn zeta in *. split; [lia|]. split.
        * intros b' [<-|I]; [lia|auto].
        * destruct H3 as [->|(b' & I & ->)]; [auto|]. right. exists b'. cbn; auto. }
  destruct (G all_axes (-1) AX ltac:(lia)) as (_ & H2 & H3). set (r := fst _) in *.
  destruct (forallb _ all_axes) eqn:F.
  - rewrite forallb_forall in F. destruct H3 as [E|(b & I & E)].
    + specialize (H2 AX (all_axes_in _)). lia.
    + apply F in I. lia.
  - apply Z.eqb_neq. intros E. assert (X : forallb (fun a => d a =? 0) all_axes = true); [|congruence].
    apply forallb_forall. intros a I. specialize (H2 a I). lia.
Qed.

(** ** The invariant *)
Definition same_leg (l l' : leg) : Prop := (forall a, l_steps l a = l_steps l' a) /\ l_aux l = l_aux l'.
Lemma carries_same : forall g l l', carries_out c g l -> same_leg l l' -> carries_out c g l'.
Proof.
  intros g l l' (H1 & H2 & H3 & H4 & H5) [S1 S2]. split; [|split; [|split; [|split]]]; auto.
  - intros m a T. rewrite <- S1. auto.
  - now rewrite <- S2.
Qed.
Record shape (hs pend : list pseg) (pos : axis -> Z) (b : bool) (st : planner) : Prop := {
  sh_buf : p_buf st = hs ++ pend;
  sh_some : p_buf st <> [];
  sh_holds : Forall holds hs;
  sh_one : (length hs <= 1)%nat;
  sh_halted : b = true -> pend = [];
  sh_pos : forall a, last_pos (p_buf st) a = pos a
}.
Record ledger (done pl : list leg) (pend : list pseg) (st : planner) : Prop := {
  le_sent : delivered c (rev (tries (p_log st))) done;
  le_flags : willing c -> Forall (fun x => snd x = true) (tries (p_log st));
  le_pend : Forall2 same_leg (map leg_of pend) pl
}.
(** [b]: nothing is pending. *)
Definition ok (pos : axis -> Z) (L : list leg) (b : bool) (st : planner) : Prop :=
  exists hs pend, shape hs pend pos b st /\ exists done pl, L = done ++ pl /\ ledger done pl pend st.
Lemma delivered_same : forall ts D, delivered c ts D -> forall D', Forall2 same_leg D D' -> delivered c ts D'.
Proof.
  induction 1 as [|ts ls g rest l H IH C O R]; intros D' F; [inversion F; constructor|]. apply Forall2_app_inv_l in F. destruct F as (d1 & d2 & F1 & F2 & ->). inversion F2 as [|? l' ? d3 F3 F4]; subst. inversion F4; subst.
  eapply delivered_more; eauto using carries_same.
Qed.
Lemma delivered_app : forall ts D, delivered c ts D -> Forall (fun x => snd x = true) ts -> exists gs, Forall2 (carries_out c) gs D /\ concat gs = map fst ts.
Proof.
  induction 1 as [|ts ls g rest l H IH C O R]; intros F; [exists []; split; constructor|]. apply Forall_app in F. destruct F as [F1 F2]. destruct (IH F1) as (gs & G1 & G2). exists (gs ++ [map fst g]). split.
  - apply Forall2_app; [exact G1|]. constructor; [|constructor]. destruct R as [->|(u & x & R)]; [now rewrite app_nil_r in C|]. exfalso. assert (X : Forall (fun x => snd x = true) (ts ++ g)) by (apply Forall_app; auto). rewrite R in X.
    apply Forall_app in X. destruct X as [_ X]. inversion X as [|? ? X1]. discriminate X1.
  - rewrite concat_app, G2, map_app. cbn [concat]. now rewrite app_nil_r.
Qed.
(** With a willing backend. *)
Lemma ledger_willing : forall done pl pend st, willing c -> ledger done pl pend st -> exists gs, Forall2 (carries_out c) gs done /\ concat gs = rev (sent (p_log st)).
Proof.
  intros done pl pend st W [S F P]. destruct (delivered_app _ _ S) as (gs & G1 & G2); [apply Forall_rev; auto|]. exists gs. split; [exact G1|]. now rewrite G2, map_rev, tries_sent.
Qed.

Lemma Forall2_snoc : forall (A B : Type) (R : A -> B -> Prop) l l' x y, Forall2 R l l' -> R x y -> Forall2 R (l ++ [x]) (l' ++ [y]).
Proof. intros. apply Forall2_app; auto. Qed.
Lemma map_group_holds : forall hs, Forall holds hs -> concat (map group hs) = [].
Proof. induction 1 as [|s l H _ IH]; [reflexivity|]. cbn [map concat]. rewrite IH. now rewrite (proj1 (holds_silent _ H)). Qed.
(** Sending segments moves legs from pending to done. *)
Lemma ledger_step : forall done pl p1 p2 hs n ret ret' st st', ledger done pl (p1 ++ p2) st -> Forall holds hs -> issue c n ret st = Ok (ret', st') -> (n <= length (p_buf st))%nat ->
  firstn n (p_buf st) = hs ++ p1 -> ret = true -> exists pl1 pl2, pl = pl1 ++ pl2 /\ ledger (done ++ pl1) pl2 p2 st'.
Proof.
  intros done pl p1 p2 hs n ret ret' st st' [S F P] H E Le Ef ->. rewrite map_app in P. apply Forall2_app_inv_l in P. destruct P as (pl1 & pl2 & P1 & P2 & ->).
  destruct (issue_tries n true st ret' st' E Le hs p1 Ef H (or_introl eq_refl)) as [S1 S2]. exists pl1, pl2. split; [reflexivity|]. split; [|auto|exact P2].
  eapply delivered_same; [apply S1; exact S|]. apply Forall2_app; [|exact P1]. clear. induction done; constructor; [split; reflexivity|assumption].
Qed.
Lemma last_skipn : forall (A : Type) n (l : list A) d, (n < length l)%nat -> last (skipn n l) d = last l d.
Proof.
  induction n as [|n IH]; intros l d L; [reflexivity|]. destruct l as [|x l]; [cbn in L; lia|]. cbn [skipn]. cbn in L. rewrite IH by lia. destruct l; [cbn in L; lia|reflexivity].
Qed.

Lemma ok_issue : forall pos L st n, ok pos L false st -> (0 < n <= length (p_buf st))%nat -> exists ret st',
  issue c n true st = Ok (ret, st') /\ p_look st' = p_look st /\ p_known st' = p_known st /\
  length (p_buf st') = Nat.max 1 (length (p_buf st) - n) /\
  (n = length (p_buf st) -> ret = false /\ p_halted st' = true /\ ok pos L true st') /\
  ((n < length (p_buf st))%nat -> p_halted st' = p_halted st /\ ok pos L false st' /\ (willing c \/ Forall holds (firstn n (p_buf st)) -> ret = true)).
Proof.
  intros pos L st n (hs & pend & [B N H O Ha P] & (done & pl & -> & Le)) [R1 R2]. destruct (Nat.eq_dec n (length (p_buf st))) as [->|NE].
  - destruct (issue_all (p_buf st) true st eq_refl N) as (log' & E & _). eexists false, _. split; [exact E|]. split; [reflexivity|split; [reflexivity|split; [|split]]].
    + cbn [p_buf length]. lia.
    + intros _. split; [reflexivity|]. split; [reflexivity|]. exists [holder (last_pos (p_buf st))], []. split.
      * split; cbn [p_buf p_halted]; auto; try discriminate. constructor; [apply holder_holds|constructor].
      * rewrite <- (app_nil_r pend) in Le. destruct (ledger_step done pl pend [] hs _ _ _ _ _ Le H E (le_n _)) as (pl1 & pl2 & -> & Le2); [rewrite firstn_all; exact B|reflexivity|].
        exists (done ++ pl1), pl2. split; [apply app_assoc|exact Le2].
    + intros X. lia.
  - destruct (issue_part n true st ltac:(lia)) as (ret' & ready' & log' & E & F & S). eexists ret', _. split; [exact E|].
    assert (SK : exists hs2 p1 p2, skipn n (p_buf st) = hs2 ++ p2 /\ firstn n (p_buf st) = firstn n hs ++ p1 /\ pend = p1 ++ p2 /\ hs2 = skipn n hs).
    { exists (skipn n hs), (firstn (n - length hs) pend), (skipn (n - length hs) pend). rewrite B, skipn_app, firstn_app, firstn_skipn. auto. }
    destruct SK as (hs2 & p1 & p2 & SK1 & SK2 & -> & ->).
    split; [reflexivity|split; [reflexivity|split; [|split]]].
    + cbn [p_buf]. rewrite skipn_length. lia.
    + intros X. lia.
    + intros _. split; [reflexivity|]. split.
      * exists (skipn n hs), p2. split.
        -- split; cbn [p_buf p_halted]; auto; try discriminate.
           ++ intros X. apply (f_equal (@length pseg)) in X. rewrite skipn_length in X. cbn in X. lia.
           ++ apply Forall_forall. intros x I. rewrite Forall_forall in H. apply H. rewrite <- (firstn_skipn n hs). apply in_or_app. auto.
           ++ rewrite skipn_length. lia.
           ++ intros a. rewrite <- P. unfold last_pos. now rewrite last_skipn by lia.
        -- assert (Hn : Forall holds (firstn n hs)) by (apply Forall_forall; intros x I; rewrite Forall_forall in H; apply H; rewrite <- (firstn_skipn n hs); apply in_or_app; auto).
           destruct (ledger_step done pl p1 p2 (firstn n hs) n true ret' st _ Le Hn E R2 SK2 eq_refl) as (pl1 & pl2 & -> & Le2).
           exists (done ++ pl1), pl2. split; [apply app_assoc|exact Le2].
      * intros [Wi|X]; [now apply S|auto].
Qed.

(** ** The calls keep the invariant *)
Definition inv (pos : axis -> Z) (L : list leg) (st : planner) : Prop := ok pos L (p_halted st) st.
Lemma ok_false : forall pos L b st, ok pos L b st -> ok pos L false st.
Proof. intros pos L b st (hs & pend & [] & W). exists hs, pend. split; [|exact W]. split; auto; discriminate. Qed.
Lemma shape_kind : forall hs pend pos b st buf, shape hs pend pos b st -> Forall2 same_kind (p_buf st) buf ->
  exists hs' pend', buf = hs' ++ pend' /\ Forall holds hs' /\ length hs' = length hs /\ map s_target pend' = map s_target pend.
Proof.
  intros hs pend pos b st buf [B _ H _ _ _] K. rewrite B in K. apply Forall2_app_inv_l in K. destruct K as (hs' & pend' & K1 & K2 & ->).
  exists hs', pend'. split; [reflexivity|]. split; [|split].
  - clear - H K1. induction K1 as [|x y l l' [_ K] _ IH]; [constructor|]. inversion H; subst. constructor; auto.
  - clear - K1. induction K1; cbn; congruence.
  - clear - K2. induction K2 as [|x y l l' [K _] _ IH]; cbn; congruence.
Qed.
Lemma last_pos_targets : forall b1 b2, map s_target b1 = map s_target b2 -> last_pos b1 = last_pos b2.
Proof.
  intros b1. induction b1 as [|x b1 IH]; intros [|y b2] E; try discriminate; [reflexivity|]. injection E as E1 E2. unfold last_pos in *.
  destruct b1, b2; try discriminate; cbn [last]; [now rewrite E1|]. apply (IH (_ :: _)). exact E2.
Qed.
Lemma last_pos_snoc : forall b s, last_pos (b ++ [s]) = t_pos (s_target s).
Proof. intros b s. unfold last_pos. now rewrite last_last. Qed.
Lemma rev_last : forall b s r, rev b = s :: r -> last_pos b = t_pos (s_target s).
Proof. intros b s r E. apply (f_equal (@rev pseg)) in E. rewrite rev_involutive in E. subst. cbn [rev]. apply last_pos_snoc. Qed.

(** Adding a segment and planning. *)
Lemma ok_append : forall pos L st t ready b, ok pos L b st ->
  ok (t_pos t) (L ++ [mk_leg (t_delta t) (t_aux t)]) false
     (mk_planner (fst (update_profile c (p_buf st ++ [mk_pseg t no_plan]) ready)) (snd (update_profile c (p_buf st ++ [mk_pseg t no_plan]) ready)) (p_look st) (p_halted st) (p_known st) (p_log st)).
Proof.
  intros pos L st t ready b O. apply ok_false in O. destruct O as (hs & pend & S & W).
  pose proof (update_kind (p_buf st ++ [mk_pseg t no_plan]) ready) as K. set (buf := fst (update_profile c _ _)) in *.
  set (st1 := mk_planner (p_buf st ++ [mk_pseg t no_plan]) (p_ready st) (p_look st) (p_halted st) (p_known st) (p_log st)).
  assert (S1 : shape hs (pend ++ [mk_pseg t no_plan]) (t_pos t) false st1).
  { destruct S. split; cbn [p_buf st1]; auto; try discriminate.
    - rewrite sh_buf0. now rewrite app_assoc.
    - now destruct (p_buf st).
    - intros a. now rewrite last_pos_snoc. }
  destruct (shape_kind _ _ _ _ _ _ S1 K) as (hs' & pend' & E & H & Le & M). exists hs', pend'. split.
  - destruct S1. split; cbn [p_buf]; auto; try discriminate.
    + intros X. rewrite X in K. cbn [p_buf st1] in *. destruct (p_buf st); inversion K.
    + now rewrite Le.
    + intros a. rewrite <- sh_pos0. cbn [p_buf st1]. exact (f_equal (fun f => f a) (last_pos_targets _ _ (update_targets _ _))).
  - destruct W as (done & pl & -> & [G Fl P]). exists done, (pl ++ [mk_leg (t_delta t) (t_aux t)]). split; [now rewrite app_assoc|]. split; [exact G|exact Fl|].
    assert (X : map leg_of pend' = map leg_of pend ++ [mk_leg (t_delta t) (t_aux t)]).
    { transitivity (map (fun t => mk_leg (t_delta t) (t_aux t)) (map s_target pend')); [now rewrite map_map|]. rewrite M, !map_app, map_map. reflexivity. }
    rewrite X. apply Forall2_snoc; [exact P|]. split; reflexivity.
Qed.
Lemma update_length : forall buf ready, length (fst (update_profile c buf ready)) = length buf.
Proof. intros. rewrite <- (map_length s_target), update_targets. apply map_length. Qed.

Lemma ok_ext : forall pos pos' L L' b st, ok pos L b st -> (forall a, pos a = pos' a) -> Forall2 same_leg L L' -> ok pos' L' b st.
Proof.
  intros pos pos' L L' b st (hs & pend & [] & W) E F. exists hs, pend. split.
  - split; auto. intros a. rewrite sh_pos0. apply E.
  - destruct W as (done & pl & -> & [G Fl P]). apply Forall2_app_inv_l in F. destruct F as (d' & p' & F1 & F2 & ->).
    exists d', p'. split; [reflexivity|]. split; [eapply delivered_same; eauto|exact Fl|].
    + clear - P F2. revert p' F2. induction P as [|l l' q pl [A B] _ IH]; intros p' F2; inversion F2 as [|? ? ? ? [C D]]; subst; constructor; eauto.
      split; [intros a; now rewrite A|congruence].
Qed.
Lemma ok_same : forall pos L b st st', ok pos L b st -> p_buf st' = p_buf st -> p_log st' = p_log st -> ok pos L b st'.
Proof.
  intros pos L b st st' (hs & pend & [] & W) E1 E2. exists hs, pend. split.
  - split; rewrite ?E1; auto.
  - destruct W as (done & pl & -> & [G Fl P]). exists done, pl. split; [reflexivity|]. split; [| |exact P]; now rewrite E2.
Qed.
Lemma same_legs_refl : forall L, Forall2 same_leg L L.
Proof. induction L; constructor; auto. split; reflexivity. Qed.

(** What a move does, in terms of the specification. *)
Lemma move_ok : forall pos L st to f aux, inv pos L st -> p_known st = true -> 1 <= p_look st -> size st < capacity ->
  exists ret st', machine_move c to f aux st = Ok (ret, st') /\
    inv (after c pos (Move to f aux)) (L ++ asks c pos (Move to f aux)) st' /\ p_look st' = p_look st /\ p_known st' = p_known st /\
    (if match asks c pos (Move to f aux) with [] => true | _ => false end then ret = true /\ st' = st
     else size st' = (if size st + 1 <? p_look st then size st + 1 else Z.max 1 (p_look st - 1)) /\
          (willing c -> ret = (1 <? p_look st)) /\ (1 < p_look st -> p_halted st = true -> ret = true) /\
          (p_look st = 1 -> ret = false /\ p_halted st' = true)).
Proof.
  intros pos L st to f aux I K LK C. unfold machine_move. replace (negb (p_known st)) with false by now rewrite K. replace (size st <? capacity) with true by lia. cbn [negb].
  destruct (rev (p_buf st)) as [|s r] eqn:R.
  { exfalso. destruct I as (hs & pend & [] & _). apply sh_some0. apply (f_equal (@rev pseg)) in R. now rewrite rev_involutive in R. }
  assert (P : forall a, t_pos (s_target s) a = pos a).
  { intros a. rewrite <- (rev_last _ _ _ R). destruct I as (hs & pend & [] & _). apply sh_pos0. }
  rewrite defining_zero. cbn [after asks]. unfold steps_at.
  assert (D : forallb (fun a => (lround c (f32_mul (to a) (spm c a)) - t_pos (s_target s) a) =? 0) all_axes =
              forallb (fun a => (lround c (f32_mul (to a) (p_steps_per_mm c a)) - pos a) =? 0) all_axes).
  { clear - P. unfold spm. induction all_axes as [|a l IH]; [reflexivity|]. cbn [forallb]. now rewrite IH, P. }
  rewrite D. clear D. destruct (forallb (fun a => (lround c (f32_mul (to a) (p_steps_per_mm c a)) - pos a) =? 0) all_axes) eqn:Z0.
  - exists true, st. rewrite app_nil_r. split; [reflexivity|]. split; [|auto]. eapply ok_ext; [exact I| |apply same_legs_refl].
    intros a. rewrite forallb_forall in Z0. specialize (Z0 a (all_axes_in a)). cbn beta in Z0. lia.
  - set (t := new_target c (s_target s) _ f aux).
    pose proof (ok_append pos L st t (p_ready st) _ I) as A.
    destruct (update_profile c (p_buf st ++ [mk_pseg t no_plan]) (p_ready st)) as [buf ready] eqn:U. cbn [fst snd] in A.
    assert (BL : length buf = S (length (p_buf st))).
    { pose proof (update_length (p_buf st ++ [mk_pseg t no_plan]) (p_ready st)) as X. rewrite U in X. cbn [fst] in X. rewrite X, app_length. cbn. lia. }
    set (st1 := mk_planner buf ready (p_look st) (p_halted st) (p_known st) (p_log st)) in *.
    assert (A' : ok (fun a => lround c (f32_mul (to a) (p_steps_per_mm c a))) (L ++ [mk_leg (fun a => lround c (f32_mul (to a) (p_steps_per_mm c a)) - pos a) aux]) false st1).
    { eapply ok_ext; [exact A|reflexivity|]. apply Forall2_snoc; [apply same_legs_refl|]. split; [|reflexivity]. intros a. cbn. now rewrite P. }
    unfold issue_if_possible. cbn [Z.eqb andb]. cbn [p_look st1]. unfold size at 1 2. cbn [p_buf st1].
    assert (HH : p_halted st = true -> exists h, p_buf st = [h] /\ holds h).
    { intros HT. destruct I as (hs & pend & [] & _). rewrite (sh_halted0 HT), app_nil_r in sh_buf0. rewrite sh_buf0 in *.
      destruct hs as [|h [|? ?]]; [congruence| |cbn in sh_one0; lia]. exists h. split; [reflexivity|]. now inversion sh_holds0. }
    destruct (0 <=? Z.of_nat (length buf) - p_look st) eqn:X.
    + set (n := Z.to_nat (Z.of_nat (length buf) - p_look st + 1)). assert (HL : (0 < length (p_buf st))%nat).
      { destruct I as (hs & pend & [] & _). destruct (p_buf st); [congruence|cbn; lia]. }
      destruct (ok_issue _ _ st1 n A') as (ret & st2 & E & E1 & E2 & E3 & E4 & E5); [cbn [p_buf st1]; unfold n; lia|].
      rewrite E. cbn [obind]. eexists ret, _. split; [reflexivity|]. cbn [p_buf p_halted p_look p_known st1 size] in *. unfold size in *. cbn [p_buf] in *.
      split; [|split; [exact E1|split; [exact E2|split; [|split; [|split]]]]].
      * destruct (Nat.eq_dec n (length buf)) as [NE|NE].
        -- destruct (E4 NE) as (-> & HT & O). cbn [negb]. rewrite HT. unfold inv. cbn [p_halted]. eapply ok_same; [exact O|reflexivity|reflexivity].
        -- destruct (E5 ltac:(unfold n in *; lia)) as (HT & O & RT). unfold inv. cbn [p_halted].
           destruct ret; [eapply ok_same; [exact O|reflexivity|reflexivity]|]. rewrite HT. destruct (p_halted st) eqn:HS; [|eapply ok_same; [exact O|reflexivity|reflexivity]]. exfalso.
           destruct (HH eq_refl) as (h & Bh & Hh). assert (N1 : n = 1%nat) by (rewrite Bh in *; cbn in BL; unfold n in *; lia).
           assert (true = false); [|discriminate]. symmetry. apply RT. right. rewrite N1.
           pose proof (update_kind (p_buf st ++ [mk_pseg t no_plan]) (p_ready st)) as K2. rewrite U, Bh in K2. cbn [fst app] in K2. inversion K2 as [|? y ? l' [_ Ky]]; subst. cbn [firstn]. auto.
      * rewrite E3. destruct (_ <? _) eqn:Q; unfold n in *; lia.
      * intros Wi. destruct (Nat.eq_dec n (length buf)) as [NE|NE].
        -- destruct (E4 NE) as (-> & _). unfold n in *. lia.
        -- destruct (E5 ltac:(unfold n in *; lia)) as (HT & O & RT). rewrite RT by auto. unfold n in *. lia.
      * intros L1 HT. destruct (HH HT) as (h & Bh & Hh). assert (N1 : n = 1%nat) by (rewrite Bh in *; cbn in BL; unfold n in *; lia).
        apply E5; [lia|]. right. rewrite N1.
        pose proof (update_kind (p_buf st ++ [mk_pseg t no_plan]) (p_ready st)) as K2. rewrite U, Bh in K2. cbn [fst app] in K2. inversion K2 as [|? y ? l' [_ Ky]]; subst. cbn [firstn]. auto.
      * intros L1. destruct (E4 ltac:(unfold n; lia)) as (-> & HT & _). auto.
    + cbn [Z.to_nat issue obind]. exists true. eexists. split; [reflexivity|]. cbn [p_look p_known p_halted st1]. unfold size in *. cbn [p_buf st1] in *.
      split; [|split; [reflexivity|split; [reflexivity|split; [destruct (_ <? _) eqn:Q; lia|split; [|split]]]]].
      * eapply ok_same; [exact A'|reflexivity|reflexivity].
      * intros _. destruct I as (hs & pend & [] & _). destruct (p_buf st); [congruence|]. cbn in BL. lia.
      * auto.
      * intros L1. lia.
Qed.

Lemma halt_ok : forall pos L st, inv pos L st -> exists st', bring_to_halt c st = Ok st' /\ inv pos L st' /\ p_halted st' = true /\ size st' = 1 /\
  p_look st' = p_look st /\ p_known st' = p_known st /\ (p_halted st = true -> st' = st).
Proof.
  intros pos L st I. unfold bring_to_halt. destruct (p_halted st) eqn:HT.
  - exists st. split; [reflexivity|]. split; [exact I|]. split; [exact HT|]. split; [|auto].
    destruct I as (hs & pend & [] & _). rewrite (sh_halted0 HT), app_nil_r in sh_buf0. unfold size. rewrite sh_buf0 in *. destruct hs as [|h [|? ?]]; [congruence|reflexivity|cbn in *; lia].
  - assert (HL : (0 < length (p_buf st))%nat). { destruct I as (hs & pend & [] & _). destruct (p_buf st); [congruence|cbn; lia]. }
    unfold issue_if_possible, size. cbv beta iota zeta. replace (Z.of_nat (length (p_buf st)) =? 0) with false by lia. cbn [andb]. rewrite Nat2Z.id.
    apply ok_false in I. destruct (ok_issue _ _ st (length (p_buf st)) I ltac:(lia)) as (ret & st' & E & E1 & E2 & E3 & E4 & _). rewrite E. cbn [obind].
    exists st'. destruct (E4 eq_refl) as (_ & H & O). unfold inv, size. rewrite H. repeat split; auto; [lia|discriminate].
Qed.
Lemma sent_external : forall a steps l log, sent (fold_left (fun log m => if Z.testbit (hw_drivers (p_hw c) a) (motor_ix m) then External m steps :: log else log) l log) = sent log.
Proof. intros a steps. induction l as [|m l IH]; intros log; [reflexivity|]. cbn [fold_left]. rewrite IH. now destruct (Z.testbit _ _). Qed.
Lemma tries_external : forall a steps l log, tries (fold_left (fun log m => if Z.testbit (hw_drivers (p_hw c) a) (motor_ix m) then External m steps :: log else log) l log) = tries log.
Proof. intros a steps. induction l as [|m l IH]; intros log; [reflexivity|]. cbn [fold_left]. rewrite IH. now destruct (Z.testbit _ _). Qed.
Lemma position_ok : forall pos L st a p, inv pos L st -> p_halted st = true -> exists st', external_position c a p st = Ok st' /\
  inv (after c pos (Position a p)) L st' /\ p_halted st' = true /\ size st' = 1 /\ p_look st' = p_look st /\ p_known st' = true.
Proof.
  intros pos L st a p (hs & pend & [B N H O Ha P] & W) HT. pose proof (Ha HT) as ->. rewrite app_nil_r in B. unfold external_position. rewrite HT. destruct hs as [|s [|? ?]]; [congruence| |cbn in O; lia].
  rewrite B. eexists. split; [reflexivity|]. cbn [p_halted size p_buf p_look p_known]. split; [|repeat split]. unfold inv. cbn [p_halted].
  match goal with |- ok _ _ _ {| p_buf := ?b |} => exists b, [] end. split.
  - split; cbn [p_buf]; auto; try discriminate.
    + constructor; [|constructor]. inversion H as [|? ? Hh]; subst. destruct Hh as (H1 & H2 & H3 & H4 & H5). repeat split; auto.
    + intros b. cbn [last_pos last after s_target t_pos]. unfold set_axis. destruct (axis_eqb b a); [reflexivity|]. rewrite <- P, B. reflexivity.
  - destruct W as (done & pl & -> & [G Fl Q]). exists done, pl. split; [reflexivity|]. split; [| |exact Q]; cbn [p_log]; now rewrite tries_external.
Qed.
Lemma drive_ok : forall pos L st a d v0 v1 aux, inv pos L st -> exists n st', direct_drive c a d v0 v1 aux st = Ok (n, st') /\
  inv pos (L ++ asks c pos (Drive a d v0 v1 aux)) st' /\ p_halted st' = true /\ size st' = 1 /\ p_look st' = p_look st /\ p_known st' = false.
Proof.
  intros pos L st a d v0 v1 aux I. destruct (halt_ok _ _ _ I) as (st1 & E & I1 & H1 & S1 & L1 & K1 & _). unfold direct_drive. rewrite E. cbn [obind].
  unfold enqueue. eexists _, _. split; [reflexivity|]. cbn [p_halted p_look p_known]. unfold size in *. cbn [p_buf]. split; [|auto].
  destruct I1 as (hs & pend & [B N H O Ha P] & W). exists hs, pend. unfold inv. cbn [p_halted]. split.
  - split; cbn [p_buf]; auto.
  - destruct W as (done & pl & -> & [G Fl Q]). rewrite (Ha H1) in *. inversion Q; subst. cbn [asks]. rewrite app_nil_r.
    eexists (done ++ [_]), []. split; [rewrite app_nil_r; reflexivity|]. split; [|intros Wi; constructor; [apply Wi|exact (Fl Wi)]|constructor]. cbn [p_log].
    set (cmd := mk_command _ _ _ _). set (bb := p_accepts c _). change (tries (Segment cmd bb :: p_log st1)) with ((cmd, bb) :: tries (p_log st1)). cbn [rev]. apply (delivered_more c _ _ _ []); [exact G| | |now left].
    + rewrite app_nil_r. cbn [map fst]. split; [|split; [|split; [|split]]].
      * intros m b T. cbn [total fold_right cmd c_steps l_steps]. unfold assign_motor_steps. rewrite Z.add_0_r. specialize (T a).
        destruct (Z.testbit (hw_drivers (p_hw c) a) (motor_ix m)) eqn:Tb.
        -- rewrite (proj1 T eq_refl). now destruct (axis_eqb_spec b b).
        -- destruct (axis_eqb_spec b a) as [->|NE]; [|reflexivity]. destruct T as [_ T]. specialize (T eq_refl). discriminate.
      * intros m T. cbn [total fold_right cmd c_steps]. unfold assign_motor_steps. specialize (T a). now destruct (Z.testbit _ _).
      * repeat constructor.
      * cbn. lia.
      * exact Logic.I.
    + intros [|? [|? ?]] x g2 E2 N2; injection E2 as E3 E4; subst; congruence.
Qed.

(** ** Histories *)
Definition ready (known : bool) (pos : axis -> Z) (L : list leg) (st : planner) : Prop :=
  inv pos L st /\ p_halted st = true /\ size st = 1 /\ p_look st = 1024 /\ p_known st = known.
Definition homes (a : axis) : fl := if p_home_max c a then p_range c a else d0.
Lemma new_fold : forall l pos st, ready true pos [] st -> exists st',
  fold_left (fun o a => obind o (external_position c a (homes a))) l (Ok st) = Ok st' /\
  ready true (fun b => if existsb (axis_eqb b) l then steps_at c b (homes b) else pos b) [] st'.
Proof.
  induction l as [|a l IH]; intros pos st (I & H & S & K & N).
  - exists st. split; [reflexivity|]. repeat split; assumption.
  - cbn [fold_left obind]. destruct (position_ok pos [] st a (homes a) I H) as (st1 & E & I1 & H1 & S1 & K1 & N1). rewrite E.
    destruct (IH _ st1 (conj I1 (conj H1 (conj S1 (conj (eq_trans K1 K) N1))))) as (st' & E' & I' & R'). exists st'. split; [exact E'|]. split; [|exact R'].
    eapply ok_ext; [exact I'| |apply same_legs_refl]. intros b. cbn [after existsb]. unfold set_axis.
    destruct (axis_eqb_spec b a) as [->|NE]; cbn [orb]; [now destruct (existsb (axis_eqb a) l)|reflexivity].
Qed.
Lemma new_ok : exists st, new_planner c = Ok st /\ ready true (at_home c) [] st.
Proof.
  destruct (new_fold all_axes (fun _ => 0) (mk_planner [holder (fun _ => 0)] 0 PLANNING_BUFFER_CAPACITY true true [])) as (st & E & I & R).
  - split; [|repeat split]. exists [holder (fun _ => 0)], []. split.
    + split; cbn [p_buf]; auto; try discriminate. constructor; [apply holder_holds|constructor].
    + exists [], []. split; [reflexivity|]. split; cbn; constructor.
  - exists st. split; [exact E|]. split; [|exact R]. eapply ok_ext; [exact I| |apply same_legs_refl]. intros a. cbn beta.
    replace (existsb (axis_eqb a) all_axes) with true by now destruct a. reflexivity.
Qed.
Lemma legs_app : forall os1 os2 pos, legs c pos (os1 ++ os2) = legs c pos os1 ++ legs c (ends c pos os1) os2.
Proof. induction os1 as [|o os IH]; intros os2 pos; [reflexivity|]. cbn [app legs ends]. now rewrite IH, app_assoc. Qed.
Lemma perform_ok : forall o pos L st st', inv pos L st -> 1 <= p_look st -> perform c o st = Ok st' ->
  inv (after c pos o) (L ++ asks c pos o) st' /\ 1 <= p_look st' /\
  (match o with Halt | Drive _ _ _ _ _ => p_halted st' = true | _ => True end).
Proof.
  intros o pos L st st' I LK E. destruct o as [to f aux| |a d v0 v1 aux|a p|n]; cbn [perform] in E.
  - destruct (machine_move c to f aux st) as [[ret s1]|] eqn:M; [|discriminate]. injection E as <-.
    assert (K : p_known st = true) by (unfold machine_move in M; now destruct (p_known st)).
    assert (C : size st < capacity) by (unfold machine_move in M; rewrite K in M; cbn [negb] in M; destruct (size st <? capacity) eqn:X; [lia|discriminate]).
    destruct (move_ok pos L st to f aux I K LK C) as (ret' & s2 & M2 & I2 & L2 & _). rewrite M in M2. injection M2 as <- <-. split; [exact I2|]. split; [lia|trivial].
  - destruct (halt_ok _ _ _ I) as (s2 & E2 & I2 & H2 & _ & L2 & _). rewrite E in E2. injection E2 as <-. cbn [after asks]. rewrite app_nil_r. split; [exact I2|]. split; [lia|exact H2].
  - destruct (direct_drive c a d v0 v1 aux st) as [[n s1]|] eqn:M; [|discriminate]. injection E as <-.
    destruct (drive_ok _ _ _ a d v0 v1 aux I) as (n2 & s2 & E2 & I2 & H2 & _ & L2 & _). rewrite M in E2. injection E2 as <- <-. split; [exact I2|]. split; [lia|exact H2].
  - assert (H : p_halted st = true) by (unfold external_position in E; destruct (p_buf st) as [|? [|? ?]]; try discriminate; now destruct (p_halted st)).
    destruct (position_ok pos L st a p I H) as (s2 & E2 & I2 & H2 & _ & L2 & _). rewrite E in E2. injection E2 as <-. cbn [asks]. rewrite app_nil_r. split; [exact I2|]. split; [lia|trivial].
  - injection E as <-. cbn [after asks]. rewrite app_nil_r. unfold set_lookahead. destruct ((n <=? 0) || _) eqn:X; cbn [snd]; [auto|]. split; [|split; [cbn; lia|trivial]].
    unfold inv in *. cbn [p_halted]. eapply ok_same; [exact I|reflexivity|reflexivity].
Qed.
Lemma perform_all_ok : forall os pos L st st', inv pos L st -> 1 <= p_look st -> perform_all c os st = Ok st' ->
  inv (ends c pos os) (L ++ legs c pos os) st' /\ 1 <= p_look st'.
Proof.
  induction os as [|o os IH]; intros pos L st st' I LK E; cbn [perform_all] in E.
  - injection E as <-. cbn [legs ends]. rewrite app_nil_r. auto.
  - destruct (perform c o st) as [s1|] eqn:P; [|discriminate]. cbn [obind] in E. destruct (perform_ok _ _ _ _ _ I LK P) as (I1 & L1 & _).
    cbn [legs ends]. rewrite app_assoc. eauto.
Qed.
Lemma perform_all_app : forall os1 os2 st, perform_all c (os1 ++ os2) st = obind (perform_all c os1 st) (perform_all c os2).
Proof.
  induction os1 as [|o os IH]; intros os2 st; [reflexivity|]. cbn [app perform_all]. destruct (perform c o st) as [s1|]; [apply IH|reflexivity].
Qed.
Lemma history_unfold : forall os, history c os = obind (new_planner c) (perform_all c os).
Proof. reflexivity. Qed.
Lemma history_from : forall os st, history c os = Ok st -> exists s0, ready true (at_home c) [] s0 /\ perform_all c os s0 = Ok st.
Proof. intros os st E. rewrite history_unfold in E. destruct new_ok as (s0 & E0 & R). rewrite E0 in E. exists s0. split; [exact R|exact E]. Qed.
Lemma history_ok : forall os st, history c os = Ok st -> inv (ends c (at_home c) os) (legs c (at_home c) os) st /\ 1 <= p_look st.
Proof.
  intros os st E. apply history_from in E. destruct E as (s0 & (I & _ & _ & K & _) & E).
  assert (LK : 1 <= p_look s0) by (rewrite K; clear; lia). pose proof (perform_all_ok os (at_home c) [] s0 st I LK E) as X. rewrite app_nil_l in X. exact X.
Qed.
Lemma history_app : forall os1 os2, history c (os1 ++ os2) = obind (history c os1) (perform_all c os2).
Proof. intros os1 os2. rewrite !history_unfold. destruct (new_planner c) as [s0|]; [|reflexivity]. cbn [obind]. apply perform_all_app. Qed.

(** Nothing goes wrong with a lookahead below the capacity. *)
Lemma proper_ok : forall os pos L st halted known, inv pos L st -> proper halted known os -> looks_at_most 1023 os ->
  (halted = true -> p_halted st = true) -> (known = true -> p_known st = true) -> 1 <= p_look st <= 1023 -> size st <= 1022 ->
  exists st', perform_all c os st = Ok st' /\ size st' <= 1022.
Proof.
  induction os as [|o os IH]; intros pos L st halted known I P LA H K LK S; [exists st; split; [reflexivity|exact S]|].
  inversion LA as [|? ? LA1 LA2]; subst. cbn [perform_all].
  destruct o as [to f aux| |a d v0 v1 aux|a p|n]; cbn [proper] in P; cbn [perform].
  - destruct P as [-> P]. destruct (move_ok pos L st to f aux I (K eq_refl) ltac:(lia)) as (ret & s1 & E & I1 & L1 & K1 & X); [unfold capacity, PLANNING_BUFFER_CAPACITY; lia|].
    rewrite E. cbn [obind]. eapply IH; [exact I1|exact P|exact LA2| | | |]; try discriminate; [intros _; rewrite K1; auto|lia|].
    destruct (asks c pos _); [destruct X as [_ ->]; exact S|]. destruct X as [X _]. rewrite X. destruct (size st + 1 <? p_look st) eqn:Q; lia.
  - destruct (halt_ok _ _ _ I) as (s1 & E & I1 & H1 & S1 & L1 & K1 & _). rewrite E. cbn [obind]. eapply IH; [exact I1|exact P|exact LA2|auto|intros Q; rewrite K1; auto|lia|lia].
  - destruct (drive_ok _ _ _ a d v0 v1 aux I) as (n & s1 & E & I1 & H1 & S1 & L1 & K1). rewrite E. cbn [obind]. eapply IH; [exact I1|exact P|exact LA2|auto|discriminate|lia|lia].
  - destruct P as [-> P]. destruct (position_ok pos L st a p I (H eq_refl)) as (s1 & E & I1 & H1 & S1 & L1 & K1). rewrite E. cbn [obind].
    eapply IH; [exact I1|exact P|exact LA2|auto|auto|lia|lia].
  - unfold set_lookahead. destruct ((n <=? 0) || _) eqn:X; cbn [snd obind]; [eauto|]. eapply (IH pos L); [|exact P|exact LA2|auto|auto| |exact S].
    + unfold inv in *. cbn [p_halted]. eapply ok_same; [exact I|reflexivity|reflexivity].
    + cbn [p_look]. unfold PLANNING_BUFFER_CAPACITY in X. lia.
Qed.

(** With the lookahead of 1024, that many moves do not fit. *)
Definition is_move (o : call) : Prop := match o with Move _ _ _ => True | _ => False end.
Lemma too_many : forall os pos L st, inv pos L st -> Forall is_move os -> p_known st = true -> p_look st = 1024 -> size st <= 1023 ->
  1023 < size st + Z.of_nat (length (legs c pos os)) -> perform_all c os st = Undefined.
Proof.
  induction os as [|o os IH]; intros pos L st I M K LK S N; [cbn in N; lia|]. inversion M as [|? ? M1 M2]; subst. destruct o as [to f aux| | | |]; try contradiction.
  cbn [perform_all perform]. destruct (Z.ltb_spec (size st) capacity) as [C|C].
  - destruct (move_ok pos L st to f aux I K ltac:(lia) C) as (ret & s1 & E & I1 & L1 & K1 & X). rewrite E. cbn [obind]. cbn [legs] in N. rewrite app_length in N.
    unfold capacity, PLANNING_BUFFER_CAPACITY in C.
    eapply IH; [exact I1|exact M2|congruence|congruence| |].
    + destruct (asks c pos _); [destruct X as [_ ->]; lia|]. destruct X as [X _]. rewrite X. destruct (size st + 1 <? p_look st) eqn:Q; lia.
    + assert (LE : (length (asks c pos (Move to f aux)) <= 1)%nat) by (cbn [asks]; destruct (forallb _ _); cbn; lia).
      destruct (asks c pos (Move to f aux)) as [|l r] eqn:A; [destruct X as [_ ->]; cbn [length] in N; lia|]. destruct X as [X _]. rewrite X. cbn [length] in *. destruct (size st + 1 <? p_look st) eqn:Q; lia.
  - unfold machine_move. rewrite K. cbn [negb]. replace (size st <? capacity) with false by lia. reflexivity.
Qed.

(** The lookahead in force. *)
Lemma perform_look : forall o pos L st st', inv pos L st -> 1 <= p_look st -> perform c o st = Ok st' -> p_look st' = next_look (p_look st) o.
Proof.
  intros o pos L st st' I LK E. destruct o as [to f aux| |a d v0 v1 aux|a p|n]; cbn [perform] in E; cbn [next_look].
  - destruct (machine_move c to f aux st) as [[ret s1]|] eqn:M; [|discriminate]. injection E as <-.
    assert (K : p_known st = true) by (unfold machine_move in M; now destruct (p_known st)).
    assert (C : size st < capacity) by (unfold machine_move in M; rewrite K in M; cbn [negb] in M; destruct (size st <? capacity) eqn:X; [lia|discriminate]).
    destruct (move_ok pos L st to f aux I K LK C) as (ret' & s2 & M2 & I2 & L2 & _). rewrite M in M2. injection M2 as <- <-. exact L2.
  - destruct (halt_ok _ _ _ I) as (s2 & E2 & I2 & H2 & _ & L2 & _). rewrite E in E2. injection E2 as <-. exact L2.
  - destruct (direct_drive c a d v0 v1 aux st) as [[n s1]|] eqn:M; [|discriminate]. injection E as <-.
    destruct (drive_ok _ _ _ a d v0 v1 aux I) as (n2 & s2 & E2 & I2 & H2 & _ & L2 & _). rewrite M in E2. injection E2 as <- <-. exact L2.
  - assert (H : p_halted st = true) by (unfold external_position in E; destruct (p_buf st) as [|? [|? ?]]; try discriminate; now destruct (p_halted st)).
    destruct (position_ok pos L st a p I H) as (s2 & E2 & I2 & H2 & _ & L2 & _). rewrite E in E2. injection E2 as <-. exact L2.
  - injection E as <-. unfold set_lookahead, PLANNING_BUFFER_CAPACITY. destruct ((n <=? 0) || _) eqn:X; cbn [snd p_look]; destruct (_ && _) eqn:Y; lia.
Qed.
Lemma history_look : forall os st, history c os = Ok st -> p_look st = lookahead os.
Proof.
  intros os st E. apply history_from in E. destruct E as (s0 & (I & _ & _ & K & _) & E). unfold lookahead. rewrite <- K.
  assert (LK : 1 <= p_look s0) by (rewrite K; clear; lia). clear K. revert s0 I LK E. generalize (at_home c) (@nil leg). induction os as [|o os IH]; intros pos L s0 I LK E; cbn [perform_all] in E.
  - injection E as <-. reflexivity.
  - destruct (perform c o s0) as [s1|] eqn:P; [|discriminate]. cbn [obind] in E. destruct (perform_ok _ _ _ _ _ I LK P) as (I1 & L1 & _).
    cbn [fold_left]. rewrite <- (perform_look _ _ _ _ _ I LK P). eauto.
Qed.
End Planner.
