(** Proofs about the evaluation of expressions. *)
From Coq Require Import SpecFloat.
From Verif Require Import Base Text Model_StringUtil Model_Float Model_Lexer Model_Axis Model_Gcode Spec_Expr.

(** ** Texts *)
Lemma skip_spaces_idem : forall t, skip_spaces (skip_spaces t) = skip_spaces t.
Proof. induction t as [|x t IH]; cbn [skip_spaces]; auto. destruct (is_space x) eqn:E; auto. cbn [skip_spaces]. now rewrite E. Qed.
Lemma skip_spaces_length : forall t, (length (skip_spaces t) <= length t)%nat.
Proof. induction t as [|x t IH]; cbn [skip_spaces length]; auto. destruct (is_space x); cbn [length]; lia. Qed.
Lemma skip_spaces_head : forall t x r, skip_spaces t = x :: r -> is_space x = false.
Proof.
  induction t as [|y t IH]; intros x r H; cbn [skip_spaces] in H; [discriminate|].
  destruct (is_space y) eqn:E; eauto. injection H as <- _. exact E.
Qed.
Lemma skip_spaces_keep : forall x r, is_space x = false -> skip_spaces (x :: r) = x :: r.
Proof. intros x r E. cbn [skip_spaces]. now rewrite E. Qed.
Lemma same_place_false : forall a b : text, (length a < length b)%nat -> same_place a b = false.
Proof. intros a b H. unfold same_place. apply Nat.eqb_neq. lia. Qed.
Lemma all_ascii : forall (P : ascii -> bool), forallb (fun i => P (ascii_of_nat i)) (seq 0 256) = true -> forall x, P x = true.
Proof.
  intros P H x. rewrite forallb_forall in H. specialize (H (nat_of_ascii x)).
  rewrite ascii_nat_embedding in H. apply H. apply in_seq. pose proof (nat_ascii_bounded x). lia.
Qed.
Lemma starts_true : forall x t, starts x t = true -> exists r, t = x :: r.
Proof. intros x [|y t] H; cbn in H; [discriminate|]. apply Ascii.eqb_eq in H as ->. eauto. Qed.

(** ** Keywords *)
Fixpoint run (n : node) (w : text) {struct w} : option node :=
  match w with
  | [] => Some n
  | x :: w => match node_next n x with None => None | Some k => run k w end
  end.
Definition lead (x : ascii) : bool := Ascii.eqb x "*" || Ascii.eqb x "=".
Definition stops (n : node) : bool :=
  forallb (fun i => lead (ascii_of_nat i) || match node_next n (ascii_of_nat i) with None => true | Some _ => false end) (seq 0 256).

Lemma lead_upper : forall x, lead (to_upper x) = lead x.
Proof.
  intros x. apply Bool.eqb_prop. revert x. apply (all_ascii (fun x => Bool.eqb (lead (to_upper x)) (lead x))).
  vm_compute. reflexivity.
Qed.

Lemma consume_run : forall w n r best n', run n (map to_upper w) = Some n' ->
  exists best', consume_loop n (w ++ r) best = consume_loop n' r best'.
Proof.
  induction w as [|x w IH]; intros n r best n' H; cbn [run map app] in *.
  - injection H as <-. eauto.
  - destruct (node_next n (to_upper x)) as [k|] eqn:E; [|discriminate].
    cbn [consume_loop]. rewrite E. apply IH. exact H.
Qed.
Lemma consume_stop : forall n r best, stops n = true -> 0 < node_value n -> starts "*" r = false -> starts "=" r = false ->
  consume_loop n r best = Ok (node_value n, skip_spaces r).
Proof.
  intros n r best Hs Hv H1 H2. unfold stops in Hs.
  pose proof (all_ascii (fun x => lead x || match node_next n x with None => true | Some _ => false end) Hs) as A.
  destruct r as [|x r]; cbn [consume_loop].
  - specialize (A (to_upper NUL)). cbv beta in A. change (lead (to_upper NUL)) with false in A. cbn [orb] in A.
    destruct (node_next n (to_upper NUL)); [discriminate|]. destruct (Z.ltb_spec 0 (node_value n)); [reflexivity|lia].
  - specialize (A (to_upper x)). cbv beta in A. rewrite lead_upper in A. unfold starts in *. unfold lead in A. rewrite H1, H2 in A. cbn [orb] in A.
    destruct (node_next n (to_upper x)); [discriminate|]. destruct (Z.ltb_spec 0 (node_value n)); [reflexivity|lia].
Qed.

Definition known (word : text) (v : Z) : bool :=
  match run (lx_root (lexer_of op_keywords)) word with Some n => (node_value n =? v) && stops n | None => false end.
Lemma lex_known : forall word v t r, known word v = true -> 0 < v -> written word (skip_spaces t) r ->
  starts "*" r = false -> starts "=" r = false ->
  lex op_keywords t = @ret (Z * text) (v, skip_spaces r).
Proof.
  intros word v t r K Hv (w & Hw & Ht) H1 H2. unfold lex, match_next, known in *. rewrite Ht.
  destruct (run (lx_root (lexer_of op_keywords)) word) as [n|] eqn:E; [|discriminate].
  apply andb_prop in K as [K1 K2]. apply Z.eqb_eq in K1. rewrite <- Hw in E.
  destruct (consume_run w _ r (0, t) _ E) as (b & ->). rewrite consume_stop by (auto; lia). now rewrite K1.
Qed.

Definition op_code (op : binop) : Z :=
  match op with
  | Power => POWER | Divide => DIVIDED_BY | Modulo => MODULO | Times => TIMES | And => AND2 | Xor => EXCLUSIVE_OR | Minus => MINUS
  | Or => NON_EXCLUSIVE_OR | Plus => PLUS | Equal => EQ | Differ => NE | Greater => GT | AtLeast => GE | Less => LT | AtMost => LE
  end.
Lemma known_op : forall op name, In name (spellings op) -> known name (op_code op) = true.
Proof. intros op name H. destruct op; cbn [spellings In] in H; decompose [or] H; subst; try contradiction; vm_compute; reflexivity. Qed.
Lemma op_code_range : forall op, 0 < op_code op < UNARY_OP_START.
Proof. destruct op; vm_compute; auto. Qed.
Lemma op_code_prec : forall op, precedence (op_code op) = binds op.
Proof. destruct op; reflexivity. Qed.
Lemma op_code_not_rb : forall op, (op_code op =? RIGHT_BRACKET) = false.
Proof. destruct op; reflexivity. Qed.
Lemma binds_range : forall op, 2 <= binds op <= 5.
Proof. destruct op; cbn; lia. Qed.

(** The operator that follows, as the code sees it: a binary one or the closing bracket. *)
Definition next_op (t : text) (q : Z) (rest : text) : Prop :=
  (exists op, q = op_code op /\ operator_at t op rest) \/ (q = RIGHT_BRACKET /\ closing t rest).
Lemma operation_next : forall t q rest, next_op t q rest -> exists r, rest = skip_spaces r /\ operation t = ret (Some (q, r)) .
Proof.
  intros t q rest H.
  assert (E : exists r, rest = skip_spaces r /\ lex op_keywords t = ret (q, r) /\ 0 < q < UNARY_OP_START).
  { destruct H as [(op & -> & name & r & Hn & Hw & -> & H1 & H2)|(-> & r & E & ->)].
    - exists (skip_spaces r). rewrite skip_spaces_idem. split; [reflexivity|]. split; [|apply op_code_range].
      eapply lex_known; eauto; [now apply known_op|]. apply op_code_range.
    - exists (skip_spaces r). rewrite skip_spaces_idem. split; [reflexivity|]. split; [|vm_compute; auto].
      destruct r as [|x r].
      + apply (lex_known (txt "]") RIGHT_BRACKET t []); [vm_compute; reflexivity|vm_compute; reflexivity| |reflexivity|reflexivity].
        exists (txt "]"). split; [reflexivity|]. rewrite E. reflexivity.
      + unfold lex, match_next. rewrite E. cbn [consume_loop].
        set (root := lx_root (lexer_of op_keywords)).
        assert (K : known (txt "]") RIGHT_BRACKET = true) by (vm_compute; reflexivity).
        unfold known in K. fold root in K. cbn [txt run] in K.
        destruct (node_next root "]"%char) as [n|] eqn:En; [|discriminate].
        change (to_upper "]") with "]"%char. rewrite En. cbn [consume_loop].
        assert (K2 : match node_next root "]"%char with
                     | Some n => forallb (fun i => match node_next n (ascii_of_nat i) with None => true | Some _ => false end) (seq 0 256)
                     | None => false end = true) by (vm_compute; reflexivity).
        rewrite En in K2.
        pose proof (all_ascii (fun x => match node_next n x with None => true | Some _ => false end) K2 (to_upper x)) as A.
        cbv beta in A. destruct (node_next n (to_upper x)); [discriminate|].
        apply andb_prop in K as [K _]. apply Z.eqb_eq in K. rewrite K. reflexivity. }
  destruct E as (r & E1 & E2 & E3). exists r. split; [exact E1|]. unfold operation. rewrite E2. unfold bind, ret at 1.
  destruct (Z.ltb_spec NO_OPERATION q); [|unfold NO_OPERATION in *; lia].
  destruct (Z.ltb_spec q UNARY_OP_START); [|lia]. reflexivity.
Qed.

(** ** Operators *)
(** Unfolding of the mutually recursive functions by one step. *)
Lemma value_S : forall c f (line : text), value c (S f) line =
  (match line with
      | [] => ret None
      | x :: r =>
          p <- (if is_alpha (to_upper x) then unary c f line
                else if Ascii.eqb x "[" then expr_loop c f (skip_spaces r) []
                else if Ascii.eqb x "#" then
                  n <- param_name c f r ;;
                  match n with
                  | None => ret None
                  | Some (name, rest) => '(_, v) <- read_parameter name ;; ret (Some (v, rest))
                  end
                else number c line) ;;
          match p with
          | None => ret None
          | Some (v, rest) => if same_place rest line then ret None else ret (Some (v, skip_spaces rest))
          end
      end)%g.
Proof. reflexivity. Qed.
Lemma expr_loop_S : forall c f (line : text) (stack : list (fl * Z)), expr_loop c (S f) line stack =
  (if Nat.leb MAX_STACK (length stack) then bad
      else
        p <- value c f line ;;
        match p with
        | None =>
            match line with
            | x :: r =>
                if Ascii.eqb x "-" then
                  let line := skip_spaces r in
                  if starts "-" line then fail else expr_loop c f line ((SFopp f1, TIMES) :: stack)
                else fail
            | [] => fail
            end
        | Some (v, line) =>
            o <- operation line ;;
            match o with
            | None => fail
            | Some (o, line) =>
                let line := skip_spaces line in
                match stack with
                | [] => if o =? RIGHT_BRACKET then ret (Some (v, line)) else expr_loop c f line [(v, o)]
                | (_, p) :: _ =>
                    if precedence p <? precedence o then
                      if Nat.leb MAX_STACK (S (length stack)) then fail else expr_loop c f line ((v, o) :: stack)
                    else
                      st <- reduce c stack v o ;;
                      match st with
                      | None => ret None
                      | Some stack =>
                          let '(v0, o0) := last stack (f0, NO_OPERATION) in
                          if o0 =? RIGHT_BRACKET then ret (Some (v0, line)) else expr_loop c f line stack
                      end
                end
            end
        end)%g.
Proof. reflexivity. Qed.
Lemma param_name_S : forall c f (line : text), param_name c (S f) line =
  (let line := skip_spaces line in
      match line with
      | [] => fail
      | x :: r =>
          let bracketed := Ascii.eqb x "<" in
          let line := if bracketed then r else line in
          let numeric := match line with y :: _ => Ascii.eqb y "#" || is_digit y | [] => false end in
          if numeric && bracketed then fail
          else
            p <- (if numeric then
                    v <- value c f line ;;
                    match v with
                    | None => fail
                    | Some (index, rest) => ret (Some (show_int (int_of c index), rest))
                    end
                  else ret (Some (scan_name bracketed line))) ;;
            match p with
            | None => ret None
            | Some (name, line) =>
                if bracketed then
                  if starts ">" line then
                    match name with [] => ret None | _ => ret (Some (name, skip_spaces (tl line))) end
                  else fail
                else match name with [] => ret None | _ => ret (Some (name, skip_spaces line)) end
            end
      end)%g.
Proof. reflexivity. Qed.
Lemma unary_S : forall c f (line : text), unary c (S f) line =
  ('(op, line) <- lex op_keywords line ;;
      if negb (UNARY_OP_START <? op) then fail
      else if negb (starts "[" line) then fail
      else
        e <- expr_loop c f (skip_spaces (tl line)) [] ;;
        match e with
        | None => fail
        | Some (v, line) =>
            let line := skip_spaces line in
            if op =? ATAN then
              if negb (starts "/" line) then err ;;; fail
              else if negb (starts "[" (tl line)) then err ;;; fail
              else
                e2 <- expr_loop c f (skip_spaces (tl (tl line))) [] ;;
                match e2 with
                | None => err ;;; fail
                | Some (v2, line) => ret (Some (gc_atan2 c v v2, skip_spaces line))
                end
            else
              r <- execute_unary c v op ;;
              match r with None => fail | Some v => ret (Some (v, line)) end
        end)%g.
Proof. reflexivity. Qed.

Lemma bind_done : forall A B (m : G A) (f : A -> G B) s a s', m s = Done a s' -> bind m f s = f a s'.
Proof. intros A B m f s a s' H. unfold bind. now rewrite H. Qed.
Lemma bind_ret : forall A B (a : A) (f : A -> G B) s, bind (ret a) f s = f a s.
Proof. reflexivity. Qed.
Lemma bind_assoc : forall A B C (m : G A) (f : A -> G B) (g : B -> G C) s,
  bind (bind m f) g s = bind m (fun a => bind (f a) g) s.
Proof. intros A B C m f g s. unfold bind. destruct (m s); reflexivity. Qed.
Ltac br := repeat (rewrite bind_assoc || (rewrite bind_ret; cbv beta iota)).
Ltac bd H := br; erewrite bind_done by (exact H); cbv beta iota; br.

Ltac eqs :=
  repeat match goal with |- context [?a =? ?b] => let e := eval vm_compute in (a =? b) in replace (a =? b) with e by reflexivity end.

Section Eval.
Variables (c : gcfg) (s : gst).
Definition failed (r : res (option (fl * text))) : Prop := exists s', r = Done None s' /\ g_errors s < g_errors s'.
Definition err_state : gst := with_errors s (g_errors s + 1).

Lemma exec2 : forall x op y,
  execute_binary c x (op_code op) y s =
  match apply2 c op x y with Some v => Done (Some v) s | None => Done None err_state end.
Proof.
  intros x op y. unfold execute_binary, apply2, is_zero, is_negative, yes, truth.
  change (f32_of_Z 0) with f0. change (f32_of_Z 1) with f1.
  destruct op; cbn [op_code]; cbv beta zeta; eqs.
  all: repeat match goal with |- context [if ?b then _ else _] => destruct b eqn:? end; try reflexivity.
  all: repeat match goal with
       | H : (negb _) = _ |- _ => apply (f_equal negb) in H; rewrite negb_involutive in H; cbn [negb] in H
       end.
  all: repeat match goal with H : context [SFeqb ?a ?b] |- _ => destruct (SFeqb a b) end; cbn in *; try discriminate; reflexivity.
Qed.
Lemma exec2_minus : forall v, execute_binary c (SFopp f1) TIMES v s = Done (apply2 c Times (f32_of_Z (-1)) v) s.
Proof. reflexivity. Qed.

Definition fn_code (g : fn) : Z :=
  match g with
  | Fabs => ABS | Facos => ACOS | Fasin => ASIN | Fcos => COS | Fexp => EXP | Ffix => FIX | Ffup => FUP | Fln => LN
  | Fround => ROUND | Fsin => SIN | Fsqrt => SQRT | Ftan => TAN
  end.
Lemma minus_one : f32_of_Z (-1) = SFopp f1.
Proof. vm_compute. reflexivity. Qed.
Lemma exec1 : forall x g,
  execute_unary c x (fn_code g) s =
  match apply1 c g x with Some v => Done (Some v) s | None => Done None err_state end.
Proof.
  intros x g. unfold execute_unary, apply1, is_negative, in_unit, half. rewrite minus_one.
  change (f32_of_Z 0) with f0. change (f32_of_Z 1) with f1.
  generalize (SFopp f1) f0 f1 (f32_of_Z 2). intros m1 z one two.
  destruct g; cbn [fn_code]; cbv beta zeta; eqs; cbn [orb];
    repeat (match goal with |- context [SFltb ?a ?b] => destruct (SFltb a b) | |- context [SFleb ?a ?b] => destruct (SFleb a b) end;
            cbn [orb andb negb]); reflexivity.
Qed.
Lemma known_fn : forall g, known (fn_name g) (fn_code g) = true.
Proof. destruct g; vm_compute; reflexivity. Qed.

(** ** The loop after a value and an operator *)
Definition stack_t := list (fl * Z).
Definition step_op (f : nat) (st : stack_t) (v : fl) (o : Z) (line : text) : G (option (fl * text)) :=
  match st with
  | [] => if o =? RIGHT_BRACKET then ret (Some (v, line)) else expr_loop c f line [(v, o)]
  | (_, p) :: _ =>
      if precedence p <? precedence o then
        if Nat.leb MAX_STACK (S (length st)) then fail else expr_loop c f line ((v, o) :: st)
      else
        bind (reduce c st v o) (fun st =>
        match st with
        | None => ret None
        | Some stack =>
            let '(v0, o0) := last stack (f0, NO_OPERATION) in
            if o0 =? RIGHT_BRACKET then ret (Some (v0, line)) else expr_loop c f line stack
        end)
  end.
Definition good (st : stack_t) : Prop := Forall (fun e => (snd e =? RIGHT_BRACKET) = false) st.

Lemma expr_loop_value : forall f line st v line1 q rest, (length st < 6)%nat ->
  value c f line s = Done (Some (v, line1)) s -> next_op line1 q rest ->
  expr_loop c (S f) line st s = step_op f st v q rest s.
Proof.
  intros f line st v line1 q rest Hl Hv Hn. rewrite expr_loop_S. unfold MAX_STACK at 1.
  destruct (Nat.leb_spec 6 (length st)); [lia|]. bd Hv.
  destruct (operation_next _ _ _ Hn) as (r & -> & ->). rewrite bind_ret. reflexivity.
Qed.

Lemma step_reduce : forall f u p st v v' q line, precedence q <= precedence p ->
  execute_binary c u p v s = Done (Some v') s -> good st -> (length st < 5)%nat ->
  step_op f ((u, p) :: st) v q line s = step_op f st v' q line s.
Proof.
  intros f u p st v v' q line Hp He Hg Hl. cbn [step_op reduce].
  destruct (Z.ltb_spec (precedence p) (precedence q)); [lia|].
  unfold bind at 1 2. rewrite He. destruct st as [|[u2 p2] st].
  - reflexivity.
  - cbn [step_op]. destruct (Z.leb_spec (precedence q) (precedence p2)).
    + destruct (Z.ltb_spec (precedence p2) (precedence q)); [lia|]. reflexivity.
    + destruct (Z.ltb_spec (precedence p2) (precedence q)); [|lia]. unfold ret at 1.
      unfold MAX_STACK. destruct (Nat.leb_spec 6 (S (length ((u2, p2) :: st)))); [cbn [length] in *; lia|].
      assert (E : exists v0 o0, last ((v', q) :: (u2, p2) :: st) (f0, NO_OPERATION) = (v0, o0) /\ (o0 =? RIGHT_BRACKET) = false).
      { clear - Hg. revert u2 p2 v' q Hg. induction st as [|[u3 p3] st IH]; intros u2 p2 v' q Hg.
        - exists u2, p2. split; [reflexivity|]. now inversion Hg.
        - inversion Hg as [|? ? ? Hg2]; subst. destruct (IH u3 p3 u2 p2 Hg2) as (v0 & o0 & E & R).
          exists v0, o0. split; [|exact R]. rewrite <- E. reflexivity. }
      destruct E as (v0 & o0 & -> & ->). reflexivity.
Qed.
Lemma step_fail : forall f u p st v q line s', precedence q <= precedence p ->
  execute_binary c u p v s = Done None s' ->
  step_op f ((u, p) :: st) v q line s = Done None s'.
Proof.
  intros f u p st v q line s' Hp He. cbn [step_op reduce].
  destruct (Z.ltb_spec (precedence p) (precedence q)); [lia|]. unfold bind at 1 2. rewrite He. reflexivity.
Qed.

(** ** The grammar is what is evaluated *)
Lemma written_shorter : forall word t r, written word t r -> (length r + length word = length t)%nat.
Proof. intros word t r (w & <- & ->). rewrite map_length, app_length. lia. Qed.
Lemma closing_shorter : forall t rest, closing t rest -> (length rest < length t)%nat.
Proof.
  intros t rest (r & E & ->). pose proof (skip_spaces_length t) as H. rewrite E in H. cbn [length] in H.
  pose proof (skip_spaces_length r). lia.
Qed.
Lemma operator_shorter : forall t op rest, operator_at t op rest -> (length rest < length t)%nat.
Proof.
  intros t op rest (name & r & Hn & Hw & -> & _). pose proof (skip_spaces_length t). pose proof (skip_spaces_length r).
  apply written_shorter in Hw. assert (0 < length name)%nat; [|lia].
  destruct op; cbn [spellings In] in Hn; decompose [or] Hn; subst; try contradiction; cbn; lia.
Qed.
Lemma name_pos : forall g, (0 < length (fn_name g))%nat.
Proof. destruct g; cbn; lia. Qed.

Scheme operand_mut := Minimality for operand Sort Prop with level_mut := Minimality for level Sort Prop.
Combined Scheme grammar_ind from operand_mut, level_mut.

Lemma shorter : (forall t r rest, operand c s t r rest -> (length rest < length t)%nat) /\
                (forall k o d m t r rest, level c s k o d m t r rest -> (length rest < length t)%nat).
Proof.
  apply (grammar_ind c s); intros; subst; cbn [length] in *; auto.
  - pose proof (skip_spaces_length t) as L. rewrite H in L. rewrite app_length in L. lia.
  - pose proof (skip_spaces_length t) as L. rewrite H in L. cbn [length] in L. rewrite app_length in L. cbn [length] in L. lia.
  - pose proof (skip_spaces_length t) as L. lia.
  - apply closing_shorter in H2. pose proof (skip_spaces_length t). lia.
  - apply closing_shorter in H4. apply written_shorter in H. pose proof (skip_spaces_length t1) as L. rewrite H0 in L.
    cbn [length] in L. pose proof (skip_spaces_length t2). lia.
  - apply closing_shorter in H4, H8. apply written_shorter in H. pose proof (skip_spaces_length t1) as L. rewrite H0 in L.
    cbn [length] in *. pose proof (skip_spaces_length t2). pose proof (skip_spaces_length t3). lia.
  - pose proof (skip_spaces_length t). lia.
  - apply operator_shorter in H3. lia.
Qed.

Definition ready (t : text) (r : option fl) (rest : text) : Prop :=
  exists n, forall f, (n <= f)%nat ->
    match r with
    | Some v => value c f t s = Done (Some (v, skip_spaces rest)) s
    | None => failed (value c f t s)
    end.
Definition top_below (k : Z) (st : stack_t) : Prop := match st with [] => True | (_, p) :: _ => precedence p < k end.
Definition delivers (k : Z) (o : bool) (d : nat) (t : text) (r : option fl) (rest : text) : Prop :=
  (1 <= d)%nat /\
  forall st q rest', good st -> (length st + d <= 6)%nat -> top_below k st -> next_op rest q rest' ->
    precedence q <= k -> (o = true -> precedence q <= 4) ->
    exists j n, forall f, (n <= f)%nat ->
      match r with
      | Some v => expr_loop c (j + f) t st s = step_op f st v q rest' s
      | None => failed (expr_loop c (j + f) t st s)
      end.

(** What a bracket holds. *)
Lemma bracket : forall o d t r t' rest, delivers 2 o d t r t' -> (d <= 6)%nat -> closing t' rest ->
  exists n, forall f, (n <= f)%nat ->
    match r with
    | Some v => expr_loop c f t [] s = Done (Some (v, rest)) s
    | None => failed (expr_loop c f t [] s)
    end.
Proof.
  intros o d t r t' rest [_ H] Hd Hc.
  destruct (H [] RIGHT_BRACKET rest) as (j & n & E).
  - constructor.
  - cbn. lia.
  - exact I.
  - right. auto.
  - vm_compute. discriminate.
  - intros _. vm_compute. discriminate.
  - exists (j + n)%nat. intros f Hf. specialize (E (f - j)%nat). replace (j + (f - j))%nat with f in E by lia.
    specialize (E ltac:(lia)). destruct r as [v|]; exact E.
Qed.

Lemma not_dash : forall x, is_alpha x = true -> Ascii.eqb x "-" = false.
Proof.
  intros x. enough (negb (is_alpha x) || negb (Ascii.eqb x "-") = true) as H by (intros E; rewrite E in H; now destruct (Ascii.eqb x "-")).
  revert x. apply all_ascii. vm_compute. reflexivity.
Qed.
Lemma upper_alpha : forall x, is_alpha (to_upper x) = is_alpha x.
Proof.
  intros x. apply Bool.eqb_prop. revert x. apply (all_ascii (fun x => Bool.eqb (is_alpha (to_upper x)) (is_alpha x))).
  vm_compute. reflexivity.
Qed.
Lemma fn_alpha : forall g t r, written (fn_name g) t r -> exists x t', t = x :: t' /\ is_alpha x = true.
Proof.
  intros g t r (w & Hw & ->). destruct w as [|x w]; [destruct g; discriminate|].
  exists x, (w ++ r). split; [reflexivity|]. rewrite <- upper_alpha.
  destruct g; cbn [fn_name txt map] in Hw; injection Hw as -> _; reflexivity.
Qed.

Lemma alpha_space : forall x, is_alpha x = true -> is_space x = false.
Proof.
  intros x. enough (negb (is_alpha x) || negb (is_space x) = true) as H by (intros E; rewrite E in H; now destruct (is_space x)).
  revert x. apply all_ascii. vm_compute. reflexivity.
Qed.
Lemma read_param : forall name, exists b, read_parameter name s = Done (b, param s name) s.
Proof.
  intros name. unfold param, read_parameter, bind, get, ret. destruct (g_params s) as [m|]; [|eauto].
  destruct (pm_find _ m); [eauto|]. destruct (trim_whitespace name) as [|y [|z l]]; eauto. destruct (letter_axis y); eauto.
Qed.

Lemma evaluates :
  (forall t r rest, operand c s t r rest -> ready t r rest /\ (r = None -> starts "-" t = false)) /\
  (forall k o d m t r rest, level c s k o d m t r rest -> delivers k o d t r rest).
Proof.
  apply (grammar_ind c s).
  - (* number *)
    intros t v rest x r -> Hs Ha Hb Hh Hn Hl. split; [|discriminate]. exists 1%nat. intros [|f] Hf; [lia|].
    cbn [value]. rewrite upper_alpha, Ha.
    destruct (Ascii.eqb_spec x "["); [congruence|]. destruct (Ascii.eqb_spec x "#"); [congruence|].
    unfold number. rewrite (skip_spaces_keep x r Hs), Hn. cbn [bind ret]. unfold bind, ret.
    rewrite same_place_false by exact Hl. reflexivity.
  - (* name *)
    intros t name rest Ht Hne Hf Hd Hr. split; [|discriminate]. exists 2%nat. intros [|[|f]] Hfu; [lia|lia|].
    rewrite value_S. change (is_alpha (to_upper "#")) with false. change (Ascii.eqb "#" "[") with false.
    change (Ascii.eqb "#" "#") with true. cbv iota. rewrite param_name_S. cbv zeta.
    destruct name as [|x name]; [congruence|]. rewrite Ht. cbn [app].
    inversion Hf as [|? ? Hx Hf']; subst.
    assert (Ex : Ascii.eqb x "<" = false /\ Ascii.eqb x "#" = false).
    { assert (A : forall y, negb (is_name_char y) || (negb (Ascii.eqb y "<") && negb (Ascii.eqb y "#")) = true)
        by (apply all_ascii; vm_compute; reflexivity).
      specialize (A x). rewrite Hx in A. cbn in A. apply andb_prop in A as [A B]. split.
      - now destruct (Ascii.eqb x "<").
      - now destruct (Ascii.eqb x "#"). }
    destruct Ex as [E1 E2]. rewrite E1, E2, (Hd x name eq_refl). cbn [orb andb].
    assert (Es : forall n, Forall (fun x => is_name_char x = true) n -> scan_name false (n ++ rest) = (n, rest)).
    { induction n as [|y n IH]; intros F; cbn [app scan_name].
      - destruct rest as [|z rest]; [reflexivity|]. cbn [scan_name]. rewrite (Hr z rest eq_refl). reflexivity.
      - inversion F; subst. rewrite H1, (IH H2). reflexivity. }
    change (x :: name ++ rest) with ((x :: name) ++ rest).
    rewrite (Es _ Hf). destruct (read_param (x :: name)) as (b & Hb).
    assert (L : same_place (skip_spaces rest) ("#"%char :: t) = false).
    { apply same_place_false. pose proof (skip_spaces_length rest). pose proof (skip_spaces_length t) as L. rewrite Ht in L.
      rewrite app_length in L. cbn [length] in *. lia. }
    bd Hb. rewrite L, ?skip_spaces_idem. reflexivity.
  - (* name in angle brackets *)
    intros t name rest Ht Hf Hne Hd. split; [|discriminate]. exists 2%nat. intros [|[|f]] Hfu; [lia|lia|].
    rewrite value_S. change (is_alpha (to_upper "#")) with false. change (Ascii.eqb "#" "[") with false.
    change (Ascii.eqb "#" "#") with true. cbv iota. rewrite param_name_S. cbv zeta.
    rewrite Ht. change (Ascii.eqb "<" "<") with true. cbv iota.
    assert (En : match name ++ ">"%char :: rest with y :: _ => Ascii.eqb y "#" || is_digit y | [] => false end = false).
    { destruct name as [|x name]; [reflexivity|]. cbn [app]. rewrite (Hd x name eq_refl), orb_false_r.
      inversion Hf as [|? ? Hx _]; subst.
      assert (A : forall y, negb (is_name_char y || is_space y) || negb (Ascii.eqb y "#") = true)
        by (apply all_ascii; vm_compute; reflexivity).
      specialize (A x). destruct Hx as [Hx|Hx]; rewrite Hx in A; rewrite ?orb_true_r in A; cbn in A; now destruct (Ascii.eqb x "#"). }
    rewrite En. cbn [andb].
    assert (Es : forall n, Forall (fun x => is_name_char x = true \/ is_space x = true) n ->
      scan_name true (n ++ ">"%char :: rest) = (filter is_name_char n, ">"%char :: rest)).
    { induction n as [|y n IH]; intros F; cbn [app scan_name filter]; [reflexivity|].
      inversion F as [|? ? Hy F']; subst. rewrite (IH F'). destruct (is_name_char y); [reflexivity|].
      destruct Hy as [Hy|Hy]; [discriminate|]. rewrite Hy. reflexivity. }
    rewrite (Es _ Hf). destruct (read_param (filter is_name_char name)) as (b & Hb).
    assert (L : same_place (skip_spaces rest) ("#"%char :: t) = false).
    { apply same_place_false. pose proof (skip_spaces_length rest). pose proof (skip_spaces_length t) as L. rewrite Ht in L.
      cbn [length] in L. rewrite app_length in L. cbn [length] in *. lia. }
    destruct (filter is_name_char name) as [|y l] eqn:El; [congruence|].
    br. change (starts ">" (">"%char :: rest)) with true. cbv iota. cbn [tl].
    bd Hb. rewrite L, ?skip_spaces_idem. reflexivity.
  - (* number of a parameter *)
    intros t t' x r v rest -> Ht Hx Ho ((n & IH) & _). split; [|discriminate]. exists (S (S n)). intros [|[|f]] Hfu; [lia|lia|].
    rewrite value_S. change (is_alpha (to_upper "#")) with false. change (Ascii.eqb "#" "[") with false.
    change (Ascii.eqb "#" "#") with true. cbv iota. rewrite param_name_S. cbv zeta. specialize (IH f ltac:(lia)). 
    rewrite Ht in *.
    assert (Ex : Ascii.eqb x "<" = false).
    { destruct (Ascii.eqb_spec x "<") as [->|]; [|reflexivity]. destruct Hx; discriminate. }
    assert (En : Ascii.eqb x "#" || is_digit x = true).
    { destruct Hx as [->| ->]; [apply orb_true_r|reflexivity]. }
    rewrite Ex. cbv iota. rewrite En. cbn [andb].
    destruct (read_param (show_int (int_of c v))) as (b & Hb).
    assert (L : same_place (skip_spaces (skip_spaces rest)) ("#"%char :: t) = false).
    { rewrite skip_spaces_idem. apply same_place_false. pose proof (skip_spaces_length rest).
      pose proof (skip_spaces_length t) as L. rewrite Ht in L. apply (proj1 shorter) in Ho. cbn [length] in *. lia. }
    assert (Ne : show_int (int_of c v) <> []).
    { unfold show_int. destruct (Z.to_int (int_of c v)) as [u|u]; cbn [DecimalString.NilZero.string_of_int]; [destruct u|]; discriminate. }
    destruct (show_int (int_of c v)) as [|y l] eqn:El; [congruence|].
    bd IH. rewrite El. bd Hb. rewrite L, ?skip_spaces_idem. reflexivity.
  - (* bracket *)
    intros t o d m r t' rest Hl IH Hd Hc. split; [|reflexivity].
    destruct (bracket _ _ _ _ _ _ IH Hd Hc) as (n & E). exists (S n). intros [|f] Hf; [lia|]. specialize (E f ltac:(lia)).
    rewrite value_S. change (is_alpha (to_upper "[")) with false. change (Ascii.eqb "[" "[") with true. cbv iota.
    destruct r as [v|].
    + bd E. rewrite same_place_false; [reflexivity|]. apply closing_shorter in Hc. apply (proj2 shorter) in Hl.
      pose proof (skip_spaces_length t). cbn [length]. lia.
    + destruct E as (s' & E & Lt). exists s'. split; [|exact Lt]. bd E. reflexivity.
  - (* function *)
    intros t g t1 t2 o d m r t' rest Hw H1 Hl IH Hd Hc.
    destruct (fn_alpha _ _ _ Hw) as (x & t0 & -> & Hx).
    split; [|intros _; cbn [starts]; now apply not_dash].
    destruct (bracket _ _ _ _ _ _ IH Hd Hc) as (n & E). exists (S (S n)). intros [|[|f]] Hf; [lia|lia|]. specialize (E f ltac:(lia)).
    rewrite value_S, upper_alpha, Hx. rewrite unary_S.
    assert (K : lex op_keywords (x :: t0) = ret (fn_code g, skip_spaces t1)).
    { eapply lex_known; [apply known_fn|destruct g; vm_compute; reflexivity| | |].
      - rewrite skip_spaces_keep; [exact Hw|now apply alpha_space].
      - destruct t1 as [|y t1]; [reflexivity|]. cbn [starts]. destruct (Ascii.eqb_spec y "*") as [->|]; [|reflexivity].
        rewrite skip_spaces_keep in H1 by reflexivity. discriminate.
      - destruct t1 as [|y t1]; [reflexivity|]. cbn [starts]. destruct (Ascii.eqb_spec y "=") as [->|]; [|reflexivity].
        rewrite skip_spaces_keep in H1 by reflexivity. discriminate. }
    rewrite K.
    assert (U : (UNARY_OP_START <? fn_code g) = true) by (destruct g; reflexivity).
    assert (A : (fn_code g =? ATAN) = false) by (destruct g; reflexivity).
    rewrite H1. 
    destruct r as [v|].
    + pose proof (exec1 v g) as X. destruct (apply1 c g v) as [v'|].
      * br. rewrite U. cbn [negb starts tl]. change (Ascii.eqb "[" "[") with true. cbn [negb].
        bd E. cbv zeta. rewrite A. bd X. rewrite skip_spaces_idem.
        rewrite same_place_false; [reflexivity|]. apply closing_shorter in Hc. apply (proj2 shorter) in Hl.
        apply written_shorter in Hw. pose proof (skip_spaces_length t1) as L1. rewrite H1 in L1. cbn [length] in *.
        pose proof (skip_spaces_length t2). pose proof (skip_spaces_length rest). pose proof (name_pos g). lia.
      * eexists. split.
        { br. rewrite U. cbn [negb starts tl]. change (Ascii.eqb "[" "[") with true. cbn [negb].
          bd E. cbv zeta. rewrite A. bd X. reflexivity. }
        cbn. lia.
    + destruct E as (s' & E & Lt). eexists. split.
      { br. rewrite U. cbn [negb starts tl]. change (Ascii.eqb "[" "[") with true. cbn [negb].
        bd E. reflexivity. }
      cbn. lia.
  - (* atan *)
    intros t t1 t2 o d m r t' t3 o2 d2 m2 r2 t4 rest Hw H1 Hl IH Hd Hc Hl2 IH2 Hd2 Hc2.
    assert (Hx : exists x t0, t = x :: t0 /\ is_alpha x = true).
    { destruct Hw as (w & Hw & ->). destruct w as [|x w]; [discriminate|]. exists x, (w ++ t1). split; [reflexivity|].
      rewrite <- upper_alpha. cbn [txt map] in Hw. injection Hw as -> _. reflexivity. }
    destruct Hx as (x & t0 & -> & Hx).
    split; [|intros _; cbn [starts]; now apply not_dash].
    destruct (bracket _ _ _ _ _ _ IH Hd Hc) as (n & E). destruct (bracket _ _ _ _ _ _ IH2 Hd2 Hc2) as (n2 & E2).
    exists (S (S (n + n2))). intros [|[|f]] Hf; [lia|lia|]. specialize (E f ltac:(lia)). specialize (E2 f ltac:(lia)).
    rewrite value_S, upper_alpha, Hx. rewrite unary_S.
    assert (K : lex op_keywords (x :: t0) = ret (ATAN, skip_spaces t1)).
    { apply (lex_known (txt "ATAN")); [vm_compute; reflexivity|vm_compute; reflexivity| | |].
      - rewrite skip_spaces_keep; [exact Hw|now apply alpha_space].
      - destruct t1 as [|y t1]; [reflexivity|]. cbn [starts]. destruct (Ascii.eqb_spec y "*") as [->|]; [|reflexivity].
        rewrite skip_spaces_keep in H1 by reflexivity. discriminate.
      - destruct t1 as [|y t1]; [reflexivity|]. cbn [starts]. destruct (Ascii.eqb_spec y "=") as [->|]; [|reflexivity].
        rewrite skip_spaces_keep in H1 by reflexivity. discriminate. }
    rewrite K, H1. br. change (UNARY_OP_START <? ATAN) with true. cbn [negb starts tl]. change (Ascii.eqb "[" "[") with true. cbn [negb].
    destruct r as [v|].
    + bd E. cbv zeta. rewrite Z.eqb_refl. rewrite skip_spaces_keep by reflexivity. cbn [starts tl].
      change (Ascii.eqb "/" "/") with true. change (Ascii.eqb "[" "[") with true. cbn [negb].
      destruct r2 as [v2|].
      * bd E2. rewrite same_place_false; [now rewrite skip_spaces_idem|].
        apply closing_shorter in Hc, Hc2. apply (proj2 shorter) in Hl, Hl2. apply written_shorter in Hw.
        pose proof (skip_spaces_length t1) as L1. rewrite H1 in L1. cbn [length] in *.
        pose proof (skip_spaces_length t2). pose proof (skip_spaces_length t3). pose proof (skip_spaces_length rest). lia.
      * destruct E2 as (s' & E2 & Lt). eexists. split; [bd E2; reflexivity|]. cbn. lia.
    + destruct E as (s' & E & Lt). eexists. split; [bd E; reflexivity|]. cbn. lia.
  - (* an operand *)
    intros k t r rest Ho ((n & IH) & Nd). split; [lia|]. intros st q rest' Hg Hd Ht Hq Hk Hopen.
    exists 1%nat, n. intros f Hf. specialize (IH f Hf). cbn [plus]. destruct r as [v|].
    + eapply expr_loop_value; [lia|exact IH|]. destruct Hq as [(op & -> & name & r & A & B & C & D & F)|(-> & r & A & B)].
      * left. exists op. split; [reflexivity|]. exists name, r. rewrite skip_spaces_idem. auto.
      * right. split; [reflexivity|]. exists r. rewrite skip_spaces_idem. auto.
    + destruct IH as (s' & E & Lt). rewrite expr_loop_S. unfold MAX_STACK at 1. destruct (Nat.leb_spec 6 (length st)); [lia|].
      specialize (Nd eq_refl). eexists. split.
      * bd E. destruct t as [|x t]; [reflexivity|]. cbn [starts] in Nd. rewrite Nd. reflexivity.
      * cbn. lia.
  - (* minus *)
    intros k o d m t t' r rest Hn -> Hs Hl [Hd1 IH]. split; [lia|]. intros st q rest' Hg Hd Ht Hq Hk Hopen.
    specialize (Hopen eq_refl).
    destruct (IH ((SFopp f1, TIMES) :: st) q rest') as (j & n & E).
    { constructor; [reflexivity|exact Hg]. }
    { cbn [length]. lia. }
    { cbn [top_below]. vm_compute. reflexivity. }
    { exact Hq. }
    { lia. }
    { lia. }
    exists (S j), (S n). intros f Hf. cbn [plus]. specialize (E f ltac:(lia)).
    assert (Hv : value c (j + f) ("-"%char :: t) s = Done None s).
    { destruct f as [|f]; [lia|]. replace (j + S f)%nat with (S (j + f)) by lia. rewrite value_S.
      change (is_alpha (to_upper "-")) with false. change (Ascii.eqb "-" "[") with false. change (Ascii.eqb "-" "#") with false. cbv iota.
      unfold number. rewrite (skip_spaces_keep "-" t) by reflexivity. rewrite Hn. unfold same_place. rewrite Nat.eqb_refl. reflexivity. }
    destruct r as [v|]; rewrite expr_loop_S; unfold MAX_STACK at 1; (destruct (Nat.leb_spec 6 (length st)); [lia|]).
    + bd Hv. change (Ascii.eqb "-" "-") with true. cbv iota zeta. rewrite Hs. rewrite E.
      cbn [apply2]. apply step_reduce; [exact Hopen|reflexivity|exact Hg|lia].
    + destruct E as (s' & E & Lt). exists s'. split; [|exact Lt]. bd Hv. change (Ascii.eqb "-" "-") with true. cbv iota zeta. rewrite Hs. exact E.
  - (* a binary operator *)
    intros k op o1 d1 m1 t1 r1 t2 t3 o2 d2 m2 r2 rest Hk Hl1 [Hd1 IH1] Hp Ho Hl2 [Hd2 IH2].
    split; [lia|]. intros st q rest' Hg Hd Ht Hq Hqk Hopen.
    destruct (IH1 st (op_code op) t3) as (j1 & n1 & E1).
    { exact Hg. }
    { lia. }
    { destruct st as [|[u p] st]; [exact I|]. cbn [top_below] in *. lia. }
    { left. eauto. }
    { rewrite op_code_prec. lia. }
    { intros ->. rewrite op_code_prec. destruct op; cbn [binds]; try lia. specialize (Hp eq_refl). discriminate. }
    destruct r1 as [x|].
    2:{ exists j1, n1. intros f Hf. destruct r2; apply E1; exact Hf. }
    destruct (IH2 ((x, op_code op) :: st) q rest') as (j2 & n2 & E2).
    { constructor; [apply op_code_not_rb|exact Hg]. }
    { cbn [length]. lia. }
    { cbn [top_below]. rewrite op_code_prec. lia. }
    { exact Hq. }
    { lia. }
    { exact Hopen. }
    exists (j1 + j2)%nat, (n1 + n2)%nat. intros f Hf.
    assert (E : expr_loop c (j1 + j2 + f) t1 st s = expr_loop c (j2 + f) t3 ((x, op_code op) :: st) s).
    { rewrite <- Nat.add_assoc. rewrite E1 by lia. unfold step_op. destruct st as [|[u p] st].
      - now rewrite op_code_not_rb.
      - cbn [top_below] in Ht. rewrite op_code_prec. destruct (Z.ltb_spec (precedence p) (binds op)); [|lia].
        unfold MAX_STACK. destruct (Nat.leb_spec 6 (S (length ((u, p) :: st)))); [cbn [length] in *; lia|]. reflexivity. }
    rewrite E. specialize (E2 f ltac:(lia)). destruct r2 as [y|]; [|exact E2]. rewrite E2.
    pose proof (exec2 x op y) as X. destruct (apply2 c op x y) as [v|].
    + apply step_reduce; [rewrite op_code_prec; lia|exact X|exact Hg|lia].
    + eexists. split; [apply step_fail; [rewrite op_code_prec; lia|exact X]|]. cbn. lia.
Qed.
End Eval.

Section Readings.
Variables (c : gcfg) (s : gst).

(** Every sequence of operands has a reading. *)
Lemma signed_level : forall m t rest k, signed c s m t rest -> exists o d r, level c s k o d m t r rest.
Proof.
  intros m t rest k H. inversion H; subst.
  - exists false, 1%nat, r. now constructor.
  - eexists true, _, _. eapply lv_minus; eauto. apply lv_operand. eassumption.
Qed.

Lemma insert : forall k o d m t r t1, level c s k o d m t r t1 -> forall op t2 m2 rest, operator_at t1 op t2 ->
  signed c s m2 t2 rest -> (k <= binds op \/ (op = Power /\ o = true)) ->
  exists o' d' r', level c s k o' d' (m || m2) t r' rest.
Proof.
  intros k o d m t r t1 H.
  refine (level_mut c s (fun _ _ _ => True)
    (fun k o d m t r t1 => forall op t2 m2 rest, operator_at t1 op t2 -> signed c s m2 t2 rest ->
       (k <= binds op \/ (op = Power /\ o = true)) -> exists o' d' r', level c s k o' d' (m || m2) t r' rest)
    _ _ _ _ _ _ _ _ _ _ _ _ _ _ _ _ _ H); try (intros; exact I).
  - intros k0 t0 r0 rest0 Ho _ op t2 m2 rest Hop Hs Hk. destruct Hk as [Hk|[_ Hk]]; [|discriminate].
    destruct (signed_level m2 t2 rest (binds op + 1) Hs) as (o' & d' & r' & L). eexists _, _, _.
    exact (lv_binary c s k0 op false _ false _ _ _ _ _ _ _ _ _ Hk (lv_operand c s (binds op) _ _ _ Ho) (fun _ => eq_refl) Hop L).
  - intros k0 o0 d0 m0 t0 t' r0 rest0 Hn Ht Hst Hl IH op t2 m2 rest Hop Hs Hk.
    assert (Dec : op = Power \/ (op <> Power /\ binds op <= 4)).
    { destruct op; [left; reflexivity|..]; right; (split; [discriminate|cbn; lia]). }
    destruct Dec as [->|[Dec _]].
    + destruct (IH Power t2 m2 rest Hop Hs) as (o' & d' & r' & L); [left; cbn; lia|]. eexists _, _, _. eapply lv_minus; eauto.
    + destruct Hk as [Hk|[Hk _]]; [|congruence].
      destruct (signed_level m2 t2 rest (binds op + 1) Hs) as (o' & d' & r' & L). eexists _, _, _.
      apply (lv_binary c s k0 op true _ true _ _ _ _ _ _ _ _ _ Hk (lv_minus c s (binds op) _ _ _ _ _ _ _ Hn Ht Hst Hl) ltac:(congruence) Hop L).
  - intros k0 op1 o1 d1 m1 t1' r1 t2' t3 o2 d2 m2' r2 rest0 Hk0 Hl1 IH1 Ho1 Hop1 Hl2 IH2 op t2 m2 rest Hop Hs Hk.
    assert (Dec : (op = Power /\ o2 = true) \/ binds op1 + 1 <= binds op \/
                  (binds op <= binds op1 /\ (op = Power -> o2 = false))).
    { destruct (Z.leb_spec (binds op1 + 1) (binds op)); [auto|].
      destruct o2; [|right; right; split; [lia|auto]]. destruct op; auto; right; right; (split; [lia|discriminate]). }
    destruct Dec as [[-> ->]|[Dec|[Dec1 Dec2]]].
    + destruct (IH2 Power t2 m2 rest Hop Hs) as (o' & d' & r' & L); [right; auto|]. eexists _, _, _.
      rewrite <- orb_assoc. exact (lv_binary c s k0 op1 o1 _ m1 _ _ _ _ _ _ _ _ _ Hk0 Hl1 Ho1 Hop1 L).
    + destruct (IH2 op t2 m2 rest Hop Hs) as (o' & d' & r' & L); [left; lia|]. eexists _, _, _.
      rewrite <- orb_assoc. exact (lv_binary c s k0 op1 o1 _ m1 _ _ _ _ _ _ _ _ _ Hk0 Hl1 Ho1 Hop1 L).
    + destruct Hk as [Hk|[Hk1 Hk2]]; [|specialize (Dec2 Hk1); congruence].
      destruct (signed_level m2 t2 rest (binds op + 1) Hs) as (o' & d' & r' & L). eexists _, _, _.
      refine (lv_binary c s k0 op o2 _ (m1 || m2') _ _ _ _ _ _ _ _ _ Hk _ Dec2 Hop L).
      exact (lv_binary c s (binds op) op1 o1 _ m1 _ _ _ _ _ _ _ _ _ Dec1 Hl1 Ho1 Hop1 Hl2).
Qed.

Lemma sequence_level : forall m t rest, sequence c s m t rest -> exists o d r, level c s 2 o d m t r rest.
Proof.
  induction 1 as [m t rest H|m t t1 op t2 m2 rest H (o & d & r & L) Hop Hs].
  - now apply signed_level.
  - apply (insert _ _ _ _ _ _ _ L op t2 m2 rest Hop Hs). left. pose proof (binds_range op). lia.
Qed.

(** Without minus signs five places suffice. *)
Lemma level_slots : forall k o d m t r rest, level c s k o d m t r rest -> m = false -> 2 <= k ->
  Z.of_nat d <= Z.max 1 (7 - k).
Proof.
  intros k o d m t r rest H.
  refine (level_mut c s (fun _ _ _ => True) (fun k o d m t r rest => m = false -> 2 <= k -> Z.of_nat d <= Z.max 1 (7 - k))
    _ _ _ _ _ _ _ _ _ _ _ _ _ _ _ _ _ H); try (intros; exact I).
  - intros. lia.
  - discriminate.
  - intros k0 op o1 d1 m1 t1 r1 t2 t3 o2 d2 m2 r2 rest0 Hk0 _ IH1 _ _ _ IH2 Hm Hk. apply orb_false_elim in Hm as [-> ->].
    pose proof (binds_range op). specialize (IH1 eq_refl ltac:(lia)). specialize (IH2 eq_refl ltac:(lia)). lia.
Qed.

Lemma expression_value : forall o d m t r t' rest, level c s 2 o d m (skip_spaces t) r t' -> closing t' rest -> (d <= 6)%nat ->
  exists n, forall f, (n <= f)%nat ->
    match r with
    | Some v => expression c f t s = Done (Some (v, rest)) s
    | None => exists s', expression c f t s = Done None s' /\ g_errors s < g_errors s'
    end.
Proof. intros o d m t r t' rest H Hc Hd. exact (bracket c s _ _ _ _ _ _ (proj2 (evaluates c s) _ _ _ _ _ _ _ H) Hd Hc). Qed.
End Readings.
