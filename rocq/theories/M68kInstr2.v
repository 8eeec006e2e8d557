(** Proofs about the 680x0 instruction parser: arithmetic and MOVE. *)
From Coq Require Import String ZArith List Bool Lia ZifyBool.
From Verif Require Import Base BaseFacts Arith ArithProofs ExprSpec ExprModel ExprLayout ExprTree ExprProofs ObjWriteModel OptModel
  SectModel SectSpec SectProofs InstrSpec InstrProofs.
From Verif Require X65Proofs X65Run Z80Run M6809Proofs.
From Verif Require Import X65Spec M68kModel M68kSpec M68kProofs M68kEa M68kFull M68kParse M68kModes M68kShapes M68kParen M68kOperand M68kHandlers M68kInstr.
Import ListNotations.
Open Scope string_scope.
Open Scope list_scope.
Open Scope Z_scope.

Ltac s32 := unfold is_s32; lia.
Lemma quick_stage : forall S0 cur t e v c st, setting_ok S0 cur -> now 240 S0 cur t e v -> 1 <= v <= 8 -> is_s32 c ->
  exists e0 e1 e2 e3, range_checked e 1 8 st = Ok (e0, st) /\ expr_And (s_F S0) e0 7 = Ok e1 /\ expr_Asl (s_F S0) e1 9 = Ok e2 /\
    expr_Or (s_F S0) (expr_Const c) e2 = Ok e3 /\ now 245 S0 cur t e3 (Z.lor c (v mod 8 * 512)).
Proof.
  intros S0 cur t e v c st SO Nw V C.
  destruct (now_checked 240 _ cur _ _ v 1 8 st SO Nw ltac:(lia) ltac:(s32) ltac:(s32) V) as (e0 & E0 & N0).
  destruct (now_bin (240 + 2) S0 cur OpAnd _ e0 v 7 (v mod 8) SO N0 ltac:(lia) ltac:(s32)) as (e1 & E1 & N1).
  { left. reflexivity. } { cbn [op_meaning]. rewrite land_7. reflexivity. }
  assert (R : 0 <= v mod 8 < 8) by (apply Z.mod_pos_bound; lia).
  destruct (now_bin (240 + 2 + 1) S0 cur OpAsl _ e1 (v mod 8) 9 (v mod 8 * 512) SO N1 ltac:(lia) ltac:(s32)) as (e2 & E2 & N2).
  { right. right. left. reflexivity. }
  { assert (Rn : reg_ok (v mod 8) = true) by (unfold reg_ok; lia). destruct (reg_cases (v mod 8) Rn) as [->|[->|[->|[->|[->|[->|[->| ->]]]]]]]; reflexivity. }
  destruct (now_or (240 + 2 + 1 + 1) S0 cur _ e2 _ c _ SO N2 ltac:(lia) C eq_refl) as (e3 & E3 & N3).
  exists e0, e1, e2, e3. split; [exact E0|]. split; [exact E1|]. split; [exact E2|]. split; [exact E3|exact N3].
Qed.
Lemma eight_of : forall v, 1 <= v <= 8 -> eight (v mod 8) = v.
Proof.
  intros v H. unfold eight. destruct (Z.eq_dec v 8) as [-> |Ne]; [reflexivity|]. rewrite Z.mod_small by lia. replace (v =? 0) with false by lia. reflexivity.
Qed.

Section Handlers.
Variables (new : bool) (S0 : setting) (fl : bool) (k : nat) (st : xstate) (m0 : msect).
Hypothesis G : good fl S0 k st m0 24.
Notation F := (s_F S0).
Notation pc := (e_pc (s_env S0)).
Ltac kinds_of H := let A := fresh "K" in pose proof (kind_tests _ _ (proj1 (proj2 (proj2 H)))) as A; destruct A as (?Kd & ?Ka & ?Ki & ?Kn & ?Kc & ?Ke).
Lemma imm_arg : forall s a md, opd0 new s S0 (OImm a) md -> a_imm md = g_expr a /\ argh S0 a /\ afact a /\ imm_fits s (g_value a) /\ (a_mode md =? AM_IMM) = true.
Proof.
  intros s a md (_ & D & K & Ga & V). cbn in D. inversion Ga as [|? ? (H & Af) _ E]; subst. split; [exact D|]. split; [exact H|]. split; [exact Af|].
  split; [apply V; reflexivity|]. apply (kind_tests _ _ K).
Qed.
Lemma h_quick : forall op up name s a o2 src dest A, In (op, up, name) [(0x5000, 0, "ADD"); (0x5100, 4, "SUB")] ->
  opd0 new s S0 (OImm a) src -> opd new s S0 fl o2 dest -> 1 <= g_value a <= 8 -> in_class new s CAlt o2 = true -> incl [a] A -> incl (opnd_args o2) A ->
  done new S0 fl k st A (handleQuick F op (code s) src dest st) (fun mc => Act name (Some s) [opnd_place mc s (OImm a); opnd_place mc s o2]).
Proof.
  intros op up name s a o2 src dest A Ho O1 (O2 & K & N & mode & reg & Fi & Sh) V C I1 I2.
  destruct (imm_arg _ _ _ O1) as (Da & H & _). pose proof G as (SO & _). pose proof (argh_now _ (here m0) a H) as Nw.
  pose proof Sh as (Ef & Mo & Re & _).
  assert (X : 0 <= g_value a mod 8 < 8) by (apply Z.mod_pos_bound; lia).
  destruct (quick_ea new up name s (g_value a mod 8)) as (h & r & m & Eo & Hh & R & M & Dec); [destruct Ho as [E|[E|[]]]; injection E as _ <- <-; cbn; tauto|lia|].
  set (c := orl [op; mode * 8 + reg; field s * 64]).
  assert (W : Z.lor c (g_value a mod 8 * 512) = h * 4096 + r * 512 + m * 64 + (mode * 8 + reg)).
  { unfold c. rewrite orl3, <- Eo.
    assert (Q : orl [op; field s * 64; g_value a mod 8 * 512] = 5 * 4096 + g_value a mod 8 * 512 + (up + field s) * 64).
    { clear -Ho X. assert (Rn : reg_ok (g_value a mod 8) = true) by (unfold reg_ok; lia).
      destruct Ho as [E|[E|[]]]; injection E as <- <- _; destruct s;
        destruct (reg_cases (g_value a mod 8) Rn) as [->|[->|[->|[->|[->|[->|[->| ->]]]]]]]; reflexivity. }
    rewrite Q. apply join_word; [|lia]. clear. Z.div_mod_to_equations. lia. }
  assert (Cs : is_s32 c).
  { assert (Q : c = Z.lor (orl [op; field s * 64; 0]) (mode * 8 + reg)) by (unfold c; rewrite <- orl3, Z.lor_0_r; reflexivity). rewrite Q.
    clear -Ho Mo Re. destruct Ho as [E|[E|[]]]; injection E as <- _ _; destruct s; rewrite join_word; try reflexivity; try lia;
      match goal with |- is_s32 (?x + _) => let y := eval vm_compute in x in change x with y end; s32. }
  destruct (quick_stage S0 (here m0) _ _ _ c st SO Nw V Cs) as (e0 & e1 & e2 & e3 & E0 & E1 & E2 & E3 & N3).
  destruct (good_expr16 fl S0 k st m0 245 _ e3 _ 22 G ltac:(lia) N3 ltac:(lia)) as (st1 & m1 & E4 & Em & G1).
  apply (done_first new S0 fl k st h r m s _ _ A dest mode reg _ _ st1 m1 (g_term a) (Z.lor c (g_value a mod 8 * 512)) _ Sh); try assumption.
  - unfold handleQuick. rewrite Da, E0. cbn [bind]. rewrite Ef, size_field. fold c. rewrite E1. cbn [bind]. rewrite E2. cbn [bind]. rewrite E3. cbn [bind].
    rewrite E4. reflexivity.
  - right. apply src_arg, I1. left. reflexivity.
  - intros mc ws rest E. rewrite (Dec mc pc mode reg ws _ rest (fields_calt new s o2 mode reg C Fi) E). rewrite eight_of by exact V.
    cbn [opnd_place]. rewrite Z.mod_small; [reflexivity|]. destruct s; cbn [bits]; lia.
Qed.
Lemma quick_test : forall s a md, opd0 new s S0 (OImm a) md -> is_quick md = true -> 1 <= g_value a <= 8.
Proof.
  intros s a md O Q. destruct (imm_arg _ _ _ O) as (D & _ & (_ & Af) & _ & Ki). unfold is_quick in Q. rewrite D, !andb_true_iff in Q.
  destruct Q as (((_ & Kc) & L) & U). rewrite (Af Kc) in L, U. lia.
Qed.
Lemma not_quick : forall s o md, opd0 new s S0 o md -> immediate o = false -> is_quick md = false.
Proof. intros s o md O I. kinds_of O. unfold is_quick. rewrite Ki, I. reflexivity. Qed.
Lemma imm_is : forall o, immediate o = true -> exists a, o = OImm a.
Proof. intros [] H; try discriminate H. eexists. reflexivity. Qed.
Lemma class_ok : forall s c o, in_class new s c o = true -> opnd_ok new o = true.
Proof. intros s c o H. unfold in_class in H. apply andb_true_iff in H. apply H. Qed.
Lemma class_dn : forall s o, in_class new s CDn o = true -> exists n, o = ODreg n.
Proof. intros s o H. unfold in_class in H. apply andb_true_iff in H. destruct H as (_ & H). destruct o; try discriminate H. eexists. reflexivity. Qed.
Lemma class_an : forall s o, in_class new s CAn o = true -> exists n, o = OAreg n /\ s <> SB.
Proof.
  intros s o H. unfold in_class in H. apply andb_true_iff in H. destruct H as (_ & H). destruct o; try discriminate H. eexists. split; [reflexivity|].
  destruct s; discriminate.
Qed.
Lemma class_imm : forall s o, in_class new s CImm o = true -> exists a, o = OImm a.
Proof. intros s o H. unfold in_class in H. apply andb_true_iff in H. apply imm_is, H. Qed.
Lemma class_dalt : forall s o, in_class new s CDataAlt o = true -> data_alterable o = true /\ in_class new s CAlt o = true.
Proof.
  intros s o H. pose proof (class_ok _ _ _ H) as Hok. unfold in_class in *. rewrite Hok in *. cbn [andb] in *. split; [exact H|]. destruct o; try exact H. discriminate H.
Qed.
Lemma class_malt : forall s o, in_class new s CMemAlt o = true -> data_alterable o = true /\ plain_reg o = false.
Proof.
  intros s o H. unfold in_class in *. rewrite !andb_true_iff in H. destruct H as (_ & H1 & H2). split; [exact H1|]. destruct (plain_reg o); [discriminate H2|reflexivity].
Qed.
(** The operands of arithmetic instructions. *)
Definition two (s : size) (c1 c2 : cls) (o1 o2 : opnd) : Prop := in_class new s c1 o1 = true /\ in_class new s c2 o2 = true.
Lemma h_arith_a : forall quick up h name s o1 n src dest A, In (quick, up, h, name) [(0x5000, 0, 13, "ADD"); (0x5100, 4, 9, "SUB")] ->
  opd new s S0 fl o1 src -> opd new s S0 fl (OAreg n) dest -> two s CAny CAn o1 (OAreg n) -> incl (opnd_args o1) A ->
  done new S0 fl k st A (handleArithmeticA F quick (h * 4096) (code s) src dest st) (fun mc => Act name (Some s) [opnd_place mc s o1; InA n]).
Proof.
  intros quick up h name s o1 n src dest A Ho O1 O2 (C1 & C2) I. destruct (class_an _ _ C2) as (n' & _ & Ns).
  destruct (an_facts new S0 s n dest (proj1 O2)) as (Dd & N & Rn & _). unfold handleArithmeticA.
  destruct (is_quick src) eqn:Q.
  - destruct (immediate o1) eqn:Im; [|rewrite (not_quick _ _ _ (proj1 O1) Im) in Q; discriminate Q]. destruct (imm_is _ Im) as (a & ->).
    apply (h_quick quick up name s a (OAreg n)); try assumption.
    + destruct Ho as [E|[E|[]]]; injection E as <- <- <- <-; cbn; tauto.
    + apply O1.
    + apply (quick_test s a src); [apply O1|exact Q].
    + cbn. intros x [].
  - rewrite wl_is, Dd by exact Ns. apply (a_not_quick new S0 fl k st m0 G h name s o1 n src dest); try assumption.
    + destruct Ho as [E|[E|[]]]; injection E as <- <- <- <-; cbn; tauto.
    + apply O2.
    + clear -Ho Rn Ns. destruct Ho as [E|[E|[]]]; injection E as <- <- <- <-; destruct s; try congruence; each_reg n Rn; reflexivity.
Qed.
Lemma h_arith_i : forall quick up r name s a o2 src dest A, In (quick, up, r, name) [(0x5000, 0, 3, "ADD"); (0x5100, 4, 2, "SUB")] ->
  opd0 new s S0 (OImm a) src -> opd new s S0 fl o2 dest -> in_class new s CDataAlt o2 = true -> incl [a] A -> incl (opnd_args o2) A ->
  done new S0 fl k st A (handleArithmeticI F quick (r * 512) (code s) src dest st) (fun mc => Act name (Some s) [opnd_place mc s (OImm a); opnd_place mc s o2]).
Proof.
  intros quick up r name s a o2 src dest A Ho O1 O2 C I1 I2. destruct (class_dalt _ _ C) as (C1 & C2). unfold handleArithmeticI. destruct (is_quick src) eqn:Q.
  - apply (h_quick quick up name s a o2); try assumption.
    + destruct Ho as [E|[E|[]]]; injection E as <- <- <- <-; cbn; tauto.
    + apply (quick_test s a src); assumption.
  - apply (h_logical_i new S0 fl k st m0 G r name); try assumption. destruct Ho as [E|[E|[]]]; injection E as <- <- <- <-; cbn; tauto.
Qed.
Lemma dn_dalt : forall s n, in_class new s CDn (ODreg n) = true -> in_class new s CDataAlt (ODreg n) = true.
Proof. intros s n H. exact H. Qed.
Lemma any_not_byte : forall s o, in_class new s CAny o = true -> is_areg o = true -> s <> SB.
Proof.
  intros s o H I. unfold in_class in H. apply andb_true_iff in H. destruct H as (_ & H). destruct o; try discriminate I. destruct s; discriminate.
Qed.
Lemma h_arith : forall quick opi op name s o1 o2 src dest A,
  In (quick, opi, op, name) [(0x5000, 0x0600, 0xD000, "ADD"); (0x5100, 0x0400, 0x9000, "SUB")] ->
  opd new s S0 fl o1 src -> opd new s S0 fl o2 dest ->
  two s CAny CDn o1 o2 \/ two s CDn CMemAlt o1 o2 \/ two s CImm CDataAlt o1 o2 \/ two s CAny CAn o1 o2 -> incl (opnd_args o1) A -> incl (opnd_args o2) A ->
  done new S0 fl k st A (handleArithmetic F quick opi op (code s) src dest st) (fun mc => Act name (Some s) [opnd_place mc s o1; opnd_place mc s o2]).
Proof.
  intros quick opi op name s o1 o2 src dest A Ho O1 O2 C I1 I2. pose proof (proj1 O1) as P1. pose proof (proj1 O2) as P2.
  assert (T : exists up h r, In (quick, up, h, name) [(0x5000, 0, 13, "ADD"); (0x5100, 4, 9, "SUB")] /\ In (quick, up, r, name) [(0x5000, 0, 3, "ADD"); (0x5100, 4, 2, "SUB")] /\
    opi = r * 512 /\ op = h * 4096).
  { destruct Ho as [E|[E|[]]]; injection E as <- <- <- <-; [exists 0, 13, 3|exists 4, 9, 2]; cbn; tauto. }
  destruct T as (up & h & r & T1 & T2 & -> & ->).
  assert (T3 : In (h, name) [(13, "ADD"); (9, "SUB"); (11, "CMP")]) by (destruct T1 as [E|[E|[]]]; injection E as <- <- <- <-; cbn; tauto).
  assert (T4 : In (h, name) [(13, "ADD"); (9, "SUB"); (12, "AND"); (8, "OR")]) by (destruct T1 as [E|[E|[]]]; injection E as <- <- <- <-; cbn; tauto).
  assert (T5 : In h [13; 9; 11; 12; 8]) by (destruct T1 as [E|[E|[]]]; injection E as <- <- <- <-; cbn; tauto).
  unfold handleArithmetic. destruct (kind_tests _ _ (proj1 (proj2 (proj2 P1)))) as (_ & _ & Ki1 & _). destruct (kind_tests _ _ (proj1 (proj2 (proj2 P2)))) as (_ & Ka2 & _).
  rewrite Ki1, Ka2. destruct C as [(C1 & C2)|[(C1 & C2)|[(C1 & C2)|(C1 & C2)]]].
  - destruct (class_dn _ _ C2) as (n & ->). cbn [is_areg]. destruct (immediate o1) eqn:Im.
    + destruct (imm_is _ Im) as (a & ->). apply (h_arith_i quick up r name s a (ODreg n)); assumption.
    + destruct (dn_facts _ _ _ _ _ P2) as (_ & N & _).
      apply (al_to_dn new S0 fl k st m0 G h (fun p => Act name (Some s) [p; InD n]) (any_modes s) s o1 n); try assumption.
      * apply to_dn; assumption.
      * apply any_not_byte, C1.
      * intros mode reg. apply (fields_cany new), C1.
  - destruct (class_dn _ _ C1) as (n & ->). destruct (class_malt _ _ C2) as (D1 & D2). cbn [immediate].
    replace (is_areg o2) with false by (destruct o2; try reflexivity; discriminate D2).
    apply (al_from_dn new S0 fl k st m0 G h name s n o2); assumption.
  - destruct (class_imm _ _ C1) as (a & ->). destruct (class_dalt _ _ C2) as (D1 & D2). cbn [immediate].
    replace (is_areg o2) with false by (destruct o2; try reflexivity; discriminate D1).
    apply (h_arith_i quick up r name s a o2); assumption.
  - destruct (class_an _ _ C2) as (n & -> & Ns). cbn [is_areg]. apply (h_arith_a quick up h name s o1 n); try assumption. split; assumption.
Qed.
Lemma h_logical : forall opi op name s o1 o2 src dest A, In (opi, op, name) [(0x0200, 0xC000, "AND"); (0, 0x8000, "OR")] ->
  opd new s S0 fl o1 src -> opd new s S0 fl o2 dest -> two s CData CDn o1 o2 \/ two s CDn CMemAlt o1 o2 \/ two s CImm CDataAlt o1 o2 ->
  incl (opnd_args o1) A -> incl (opnd_args o2) A ->
  done new S0 fl k st A (handleLogical F opi op (code s) src dest st) (fun mc => Act name (Some s) [opnd_place mc s o1; opnd_place mc s o2]).
Proof.
  intros opi op name s o1 o2 src dest A Ho O1 O2 C I1 I2. pose proof (proj1 O1) as P1. pose proof (proj1 O2) as P2.
  assert (T : exists h r, opi = r * 512 /\ op = h * 4096 /\ In (h, name) [(12, "AND"); (8, "OR")] /\ In (r, name) [(0, "OR"); (1, "AND"); (2, "SUB"); (3, "ADD"); (5, "EOR")]).
  { destruct Ho as [E|[E|[]]]; injection E as <- <- <-; [exists 12, 1|exists 8, 0]; cbn; tauto. }
  destruct T as (h & r & -> & -> & T1 & T2).
  assert (T4 : In (h, name) [(13, "ADD"); (9, "SUB"); (12, "AND"); (8, "OR")]) by (destruct T1 as [E|[E|[]]]; injection E as <- <-; cbn; tauto).
  assert (T5 : In h [13; 9; 11; 12; 8]) by (destruct T1 as [E|[E|[]]]; injection E as <- <-; cbn; tauto).
  unfold handleLogical. destruct (kind_tests _ _ (proj1 (proj2 (proj2 P1)))) as (_ & _ & Ki1 & _). rewrite Ki1.
  destruct C as [(C1 & C2)|[(C1 & C2)|(C1 & C2)]].
  - destruct (class_dn _ _ C2) as (n & ->). destruct (immediate o1) eqn:Im.
    + destruct (imm_is _ Im) as (a & ->). apply (h_logical_i new S0 fl k st m0 G r name s a (ODreg n)); assumption || reflexivity.
    + destruct (dn_facts _ _ _ _ _ P2) as (_ & N & _).
      assert (Na : is_areg o1 = false) by (unfold in_class in C1; apply andb_true_iff in C1; destruct C1 as (_ & C1); destruct o1; try reflexivity; discriminate C1).
      apply (al_to_dn new S0 fl k st m0 G h (fun p => Act name (Some s) [p; InD n]) dalt s o1 n); try assumption.
      * apply data_to_dn; assumption.
      * rewrite Na. discriminate.
      * intros mode reg Fi. apply (fields_noreg o1); assumption.
  - destruct (class_dn _ _ C1) as (n & ->). destruct (class_malt _ _ C2) as (D1 & D2). cbn [immediate].
    apply (al_from_dn new S0 fl k st m0 G h name s n o2); assumption.
  - destruct (class_imm _ _ C1) as (a & ->). destruct (class_dalt _ _ C2) as (D1 & D2). cbn [immediate].
    apply (h_logical_i new S0 fl k st m0 G r name s a o2); assumption.
Qed.
End Handlers.
