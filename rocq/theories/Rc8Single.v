(** Without synthesized RC811 instructions a line is one instruction. *)
From Coq Require Import ZArith List Bool String Lia.
From Verif Require Import Base Arith ExprSpec ExprModel Rc8Model Rc8Spec Rc8MoreSpec Rc8Jump.
Import ListNotations.
Open Scope string_scope.
Open Scope list_scope.
Open Scope Z_scope.

Definition single (o : outcome) : Prop := forall l, o = Ok (true, l) -> at_most_one l \/ reports l.
Lemma single_no : single no. Proof. intros l H. discriminate H. Qed.
Lemma single_refuse : forall n, single (refuse n). Proof. intros n l H. discriminate H. Qed.
Lemma single_done : forall l, at_most_one l -> single (done l). Proof. intros l A l' H. injection H as <-. left. exact A. Qed.
Lemma single_noted : forall w l, (w = [] \/ exists n, w = [Error n]) -> at_most_one l -> single (done (w ++ l)).
Proof. intros w l [->|(n & ->)] A; [apply single_done, A|]. intros l' H. injection H as <-. right. exists n. left. reflexivity. Qed.
Section Single.
Variable F : fmath.
Ltac leaf := first [apply single_no | apply single_refuse | apply single_done; exact Logic.I].
Ltac cases := cbn [negb]; repeat match goal with |- single (if ?c then _ else _) => destruct c; try leaf end.
Lemma single_imm : forall b l h m e, single (handle_Op_Reg_Imm F b l h m e).
Proof.
  intros b l h m e. unfold handle_Op_Reg_Imm. destruct (check_range e l h) as [[e1 w]| |] eqn:C; cbn [bind]; try (intros ? X; discriminate X).
  destruct (bin F OpAnd e1 (expr_Const 0xFF)) as [e2| |]; cbn [bind]; try (intros ? X; discriminate X).
  apply single_noted; [exact (check_notes _ _ _ _ _ C)|]. destruct m; exact Logic.I.
Qed.
Lemma single_ADD : forall d s, single (handle_ADD F false d s).
Proof.
  intros d0 s0. unfold handle_ADD. destruct (ensureSource d0 s0) as [d s]. cbv zeta. cases; try apply single_imm.
  destruct (check_range (am_expr s) (-32768) 65535) as [[e0 w]| |] eqn:C; cbn [bind]; try (intros ? X; discriminate X).
  destruct (bin F OpAsl e0 (expr_Const 16)) as [e1| |]; cbn [bind]; try (intros ? X; discriminate X).
  destruct (bin F OpAsr e1 (expr_Const 16)) as [e| |]; cbn [bind]; try (intros ? X; discriminate X). cases; [|intros ? X; discriminate X].
  pose proof (single_imm 0xBC (-128) 127 (Some d) e) as Q. destruct (handle_Op_Reg_Imm F 0xBC (-128) 127 (Some d) e) as [[ok l]| |]; cbn [bind]; try (intros ? X; discriminate X).
  intros l' X. injection X as -> <-. destruct (Q l eq_refl) as [A|(n & N)].
  - destruct (check_notes _ _ _ _ _ C) as [->|(n & ->)]; [left; exact A|right; exists n; left; reflexivity].
  - right. exists n. apply in_or_app. right. exact N.
Qed.
Lemma single_Bitwise : forall b d s, single (handle_Bitwise F b d s).
Proof. intros b d0 s0. unfold handle_Bitwise. destruct (ensureSource d0 s0) as [d s]. cases. apply single_imm. Qed.
Lemma single_EXG : forall b d s, single (handle_EXG false b d s).
Proof. intros b d0 s0. unfold handle_EXG. destruct (ensureSource d0 s0) as [d s]. cbv zeta. cases. Qed.
Lemma single_J : forall b cc d s, single (handle_J false b cc d s).
Proof. intros. unfold handle_J. cases. Qed.
Lemma single_JAL : forall b d s, single (handle_JAL F false b d s).
Proof. intros. unfold handle_JAL. rewrite andb_false_r. cases. Qed.
Lemma single_LCO : forall b d s, single (handle_LCO false b d s).
Proof. intros. unfold handle_LCO. cases. Qed.
Lemma single_LCR : forall b d s, single (handle_LCR b d s).
Proof. intros. unfold handle_LCR, handle_Implicit. cases. Qed.
Lemma single_LIO : forall b d s, single (handle_LIO false b d s).
Proof. intros. unfold handle_LIO. cbv zeta. cases. Qed.
Lemma single_LD : forall d s, single (handle_LD F false d s).
Proof. intros. unfold handle_LD. cbv zeta. rewrite andb_false_r. cases. apply single_imm. Qed.
Lemma single_stack : forall b d, single (handle_RegisterStack false b d).
Proof. intros. unfold handle_RegisterStack. cases. Qed.
Lemma single_NOT : forall b d, single (handle_NOT false b d).
Proof. intros. unfold handle_NOT. cases. Qed.
Lemma single_SUB : forall d s, single (handle_SUB F false d s).
Proof. intros d0 s0. unfold handle_SUB. destruct (ensureSource d0 s0) as [d s]. cbv zeta. cases. Qed.
Lemma single_CMP : forall d s, single (handle_CMP d s).
Proof. intros d0 s0. unfold handle_CMP. destruct (ensureSource d0 s0) as [d s]. cases. Qed.
Lemma single_Shift : forall b d s, single (handle_Shift b d s).
Proof.
  intros b d0 s0. unfold handle_Shift. destruct (ensureSource d0 s0) as [d s]. cases.
  destruct (check_range (am_expr s) 0 15) as [[e w]| |] eqn:C; cbn [bind]; try (intros ? X; discriminate X).
  apply single_noted; [exact (check_notes _ _ _ _ _ C)|exact Logic.I].
Qed.
Definition is_pick (n : nat) : bool := Nat.eqb n 19.
Lemma single_all : forall n p cc d s, nth_error (g_Parsers F false) n = Some p -> is_pick n = false -> single (p_handler p (p_base p) cc d s).
Proof.
  intros n p cc d s H N. unfold g_Parsers, stack, bitwise, shift, implicit in H.
  do 33 (destruct n as [|n]; [try discriminate N; cbn [nth_error] in H; injection H as <-; cbn [p_handler p_base];
    first [apply single_ADD | apply single_Bitwise | apply single_CMP | apply single_EXG | apply single_J | apply single_JAL | apply single_LCO | apply single_LCR
      | apply single_LD | apply single_LIO | apply single_NOT | apply single_stack | apply single_SUB | apply single_Shift | apply single_done; exact Logic.I]|]).
  destruct n; discriminate H.
Qed.
Theorem one_instruction : forall target ts items rest,
  rc8_ParseIntegerInstruction F false target ts = Ok (Some (items, rest, false)) ->
  (forall r, ts <> lex1 (Word "PICK") :: r) -> at_most_one items \/ reports items.
Proof.
  intros target ts items rest H Np. unfold rc8_ParseIntegerInstruction in H. destruct ts as [|[id| | | | | | |] r]; try discriminate H.
  destruct ((T_RC8_ADD <=? id) && (id <=? T_RC8_XOR)) eqn:B; [|discriminate H].
  destruct (nth_error (g_Parsers F false) (Z.to_nat (id - T_RC8_ADD))) as [p|] eqn:E; [|discriminate H].
  assert (Pk : is_pick (Z.to_nat (id - T_RC8_ADD)) = false).
  { destruct (is_pick (Z.to_nat (id - T_RC8_ADD))) eqn:Q; [|reflexivity]. apply Nat.eqb_eq in Q. apply andb_true_iff in B. destruct B as [B _]. apply Z.leb_le in B.
    exfalso. apply (Np r). f_equal. change (lex1 (Word "PICK")) with (TId 6019). f_equal. unfold T_RC8_ADD in *. lia. }
  destruct (condition r) as [[cc r1]|]; [|injection H as <- <-; right; eexists; left; reflexivity].
  destruct (parseAddressingMode r1 (p_first p)) as [[o1 w1]| |] eqn:M1; cbn [bind] in H; try discriminate H.
  pose proof (mode_notes _ _ _ _ M1) as N1.
  destruct o1 as [[m1 r2]|]; [|injection H as <- <-; right; exists ERROR_OPERAND; apply in_or_app; right; left; reflexivity].
  match type of H with context [bind ?b _] => destruct b as [[o2 w2]| |] eqn:M2 end; cbn [bind] in H; try discriminate H.
  assert (N2 : w2 = [] \/ exists n, w2 = [Error n]).
  { destruct r2 as [|[] r3]; try (destruct (has (p_second p) MODE_NONE); injection M2 as <- <-; auto). exact (mode_notes _ _ _ _ M2). }
  destruct o2 as [[m2 r4]|]; [|injection H as <- <-; right; exists MERROR_ILLEGAL_ADDRMODE; apply in_or_app; right; apply in_or_app; right; left; reflexivity].
  pose proof (single_all _ _ cc m1 m2 E Pk) as Q. destruct (p_handler p (p_base p) cc m1 m2) as [[[|] l]| |]; cbn [bind] in H; try discriminate H.
  - injection H as H1 _ H2. rewrite H2 in H1. cbn [app] in H1. subst items. destruct (Q l eq_refl) as [A|(n & A)].
    + destruct N1 as [->|(n & ->)]; [|right; exists n; left; reflexivity]. destruct N2 as [->|(n & ->)]; [left; exact A|right; exists n; left; reflexivity].
    + right. exists n. apply in_or_app. right. apply in_or_app. right. exact A.
  - injection H as <- <-. right. exists ERROR_OPERAND. rewrite !app_assoc. apply in_or_app. right. left. reflexivity.
Qed.
End Single.
