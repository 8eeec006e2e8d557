(** The option that allows synthesized RC811 instructions. *)
From Coq Require Import ZArith List Bool String Lia.
From Verif Require Import Base Arith ExprSpec ExprModel Rc8Model.
Import ListNotations.
Open Scope Z_scope.

Section Handlers.
Variable F : fmath.
Definition kept (a b : outcome) : Prop := forall l, a = Ok (true, l) -> b = Ok (true, l).
Lemma kept_same : forall a, kept a a. Proof. intros a l H. exact H. Qed.
Lemma kept_no : forall b, kept no b. Proof. intros b l H. discriminate H. Qed.
Lemma kept_refuse : forall n b, kept (refuse n) b. Proof. intros n b l H. discriminate H. Qed.
Ltac easy_case := first [apply kept_same | apply kept_no | apply kept_refuse].
Ltac cases := repeat match goal with |- kept (if ?c then _ else _) _ => destruct c eqn:?; try easy_case end.
Lemma kept_long : forall a b c d x y, kept (handle_LongLoad false a b c d x y) (handle_LongLoad true a b c d x y).
Proof. intros. apply kept_no. Qed.
Lemma kept_ADD : forall d s, kept (handle_ADD F false d s) (handle_ADD F true d s).
Proof.
  intros d0 s0. unfold handle_ADD. destruct (ensureSource d0 s0) as [d s]. cbv zeta. cases.
  destruct (check_range (am_expr s) (-32768) 65535) as [[e0 w]| |]; cbn [bind]; try apply kept_same.
  destruct (bin F OpAsl e0 (expr_Const 16)) as [e1| |]; cbn [bind]; try apply kept_same.
  destruct (bin F OpAsr e1 (expr_Const 16)) as [e| |]; cbn [bind]; try apply kept_same. cases.
  intros l H. discriminate H.
Qed.
Lemma kept_EXG : forall b d s, kept (handle_EXG false b d s) (handle_EXG true b d s).
Proof. intros b d0 s0. unfold handle_EXG. destruct (ensureSource d0 s0) as [d s]. cbv zeta. cases. Qed.
Lemma kept_J : forall b cc d s, kept (handle_J false b cc d s) (handle_J true b cc d s).
Proof. intros. unfold handle_J. cases. Qed.
Lemma kept_JAL : forall b d s, kept (handle_JAL F false b d s) (handle_JAL F true b d s).
Proof.
  intros. unfold handle_JAL. rewrite andb_false_r, andb_true_r. destruct (Z.eqb_spec (am_mode d) MODE_ADDR) as [->|_]; [apply kept_no|apply kept_same].
Qed.
Lemma kept_LCO : forall b d s, kept (handle_LCO false b d s) (handle_LCO true b d s).
Proof. intros. unfold handle_LCO. destruct (has (am_mode s) MODE_IND_16BIT_INC_DEC); [apply kept_long|apply kept_same]. Qed.
Lemma kept_LIO : forall b d s, kept (handle_LIO false b d s) (handle_LIO true b d s).
Proof. intros. unfold handle_LIO. cbv zeta. destruct (has (am_mode s) MODE_IND_16BIT_INC_DEC || has (am_mode d) MODE_IND_16BIT_INC_DEC); [apply kept_long|apply kept_same]. Qed.
Lemma kept_LD : forall d s, kept (handle_LD F false d s) (handle_LD F true d s).
Proof.
  intros d s. unfold handle_LD. cbv zeta. rewrite andb_false_r, andb_true_r.
  destruct (has (am_mode d) MODE_REG_8BIT && (am_mode s =? MODE_IMM)); [apply kept_same|].
  destruct (Z.eqb_spec (am_mode s) MODE_IMM) as [Es|_].
  - rewrite Es. rewrite !andb_false_r. rewrite andb_true_r.
    change (MODE_IMM =? MODE_REG_T) with false. change (has MODE_IMM MODE_REG_8BIT_BCDEHL) with false. change (has MODE_IMM MODE_IND_16BIT) with false.
    change (MODE_IMM =? MODE_IND_FT) with false. change (has MODE_IMM MODE_REG_8BIT_FBCDEHL) with false. change (MODE_IMM =? MODE_REG_FT) with false.
    apply kept_no.
  - rewrite andb_false_r. repeat match goal with |- kept (if ?c then _ else _) _ => destruct c; [apply kept_same|] end. apply kept_long.
Qed.
Lemma kept_stack : forall b d, kept (handle_RegisterStack false b d) (handle_RegisterStack true b d).
Proof. intros. unfold handle_RegisterStack. cases. Qed.
Lemma kept_NOT : forall b d, kept (handle_NOT false b d) (handle_NOT true b d).
Proof. intros. unfold handle_NOT. cases. Qed.
Lemma kept_SUB : forall d s, kept (handle_SUB F false d s) (handle_SUB F true d s).
Proof. intros d0 s0. unfold handle_SUB. destruct (ensureSource d0 s0) as [d s]. cbv zeta. cases. Qed.

Definition alike (p q : parser) : Prop := p_base p = p_base q /\ p_pass p = p_pass q /\ p_first p = p_first q /\ p_second p = p_second q /\
  forall cc d s, kept (p_handler p (p_base p) cc d s) (p_handler q (p_base q) cc d s).
Lemma alike_all : Forall2 alike (g_Parsers F false) (g_Parsers F true).
Proof.
  unfold g_Parsers, stack. repeat (apply Forall2_cons; [repeat (split; [reflexivity|]); intros cc d s; cbn [p_handler p_base];
    first [apply kept_same | apply kept_ADD | apply kept_EXG | apply kept_J | apply kept_JAL | apply kept_LCO | apply kept_LD | apply kept_LIO | apply kept_NOT | apply kept_stack | apply kept_SUB]|]).
  apply Forall2_nil.
Qed.
Lemma alike_nth : forall n p, nth_error (g_Parsers F false) n = Some p -> exists q, nth_error (g_Parsers F true) n = Some q /\ alike p q.
Proof.
  intro n. pose proof alike_all as H. revert n. induction H as [|a b l l' A _ IH]; intros [|n] p E; try discriminate E.
  - injection E as <-. exists b. split; [reflexivity|exact A].
  - exact (IH n p E).
Qed.
Theorem option_kept : forall target ts items rest b,
  rc8_ParseIntegerInstruction F false target ts = Ok (Some (items, rest, b)) -> (forall n, ~ In (Error n) items) ->
  rc8_ParseIntegerInstruction F true target ts = Ok (Some (items, rest, b)).
Proof.
  intros target ts items rest b H N. unfold rc8_ParseIntegerInstruction in *. destruct ts as [|[id| | | | | | |] r]; try discriminate H.
  destruct ((T_RC8_ADD <=? id) && (id <=? T_RC8_XOR)); [|discriminate H].
  destruct (nth_error (g_Parsers F false) (Z.to_nat (id - T_RC8_ADD))) as [p|] eqn:E; [|discriminate H].
  destruct (alike_nth _ _ E) as (q & -> & A1 & A2 & A3 & A4 & A5).
  destruct (condition r) as [[cc r1]|]; [|injection H as <- <- <-; exfalso; apply (N MERROR_EXPECTED_CONDITION_CODE); left; reflexivity].
  rewrite <- A2, <- A3, <- A4. destruct (parseAddressingMode r1 (p_first p)) as [[o1 w1]| |]; cbn [bind] in H |- *; try discriminate H.
  destruct o1 as [[m1 r2]|]; [|exact H].
  match type of H with context [bind ?x _] => destruct x as [[o2 w2]| |] end; cbn [bind] in H |- *; try discriminate H.
  destruct o2 as [[m2 r4]|]; [|exact H].
  specialize (A5 cc m1 m2). destruct (p_handler p (p_base p) cc m1 m2) as [[[|] l]| |]; cbn [bind] in H; try discriminate H.
  - rewrite (A5 l eq_refl). exact H.
  - injection H as <- <- <-. exfalso. apply (N ERROR_OPERAND). rewrite !app_assoc. apply in_or_app. right. left. reflexivity.
Qed.
End Handlers.
