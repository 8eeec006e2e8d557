(** Proofs about the 680x0 instruction parser: the other handlers. *)
From Coq Require Import String ZArith List Bool Lia ZifyBool.
From Verif Require Import Base BaseFacts Arith ArithProofs ExprSpec ExprModel ExprLayout ExprTree ExprProofs ObjWriteModel OptModel
  SectModel SectSpec SectProofs InstrSpec InstrProofs.
From Verif Require X65Proofs X65Run Z80Run M6809Proofs.
From Verif Require Import X65Spec M68kModel M68kSpec M68kProofs M68kEa M68kFull M68kParse M68kModes M68kShapes M68kParen M68kOperand M68kHandlers M68kInstr M68kInstr2.
Import ListNotations.
Open Scope string_scope.
Open Scope list_scope.
Open Scope Z_scope.

(** *** Words with a byte in them *)
Lemma low_word : forall c x, c mod 256 = 0 -> 0 <= x < 256 -> Z.lor x c = c + x.
Proof. intros c x C X. rewrite Z.lor_comm. apply (sum_lor c x 8); [lia|exact X|exact C]. Qed.
Lemma low_fields : forall up x, 0 <= up <= 1 -> 0 <= x < 256 -> low_byte (up * 4 + x / 64) (x / 8 mod 8) (x mod 8) = x /\ (up * 4 + x / 64) / 4 = up /\ 0 <= up * 4 + x / 64 < 8.
Proof.
  intros up x U X. unfold low_byte. repeat split; Z.div_mod_to_equations; lia.
Qed.
Lemma decode_low : forall new mc pc h r up x ws, 0 <= h < 16 -> 0 <= r < 8 -> 0 <= up <= 1 -> 0 <= x < 256 ->
  decode new mc pc (word (h * 4096 + r * 512 + up * 256 + x) :: ws) = decode_fields new mc pc r (up * 4 + x / 64) (x / 8 mod 8) (x mod 8) ws h.
Proof.
  intros new mc pc h r up x ws H R U X. destruct (low_fields up x U X) as (_ & _ & M).
  replace (h * 4096 + r * 512 + up * 256 + x) with (h * 4096 + r * 512 + (up * 4 + x / 64) * 64 + (x / 8 mod 8 * 8 + x mod 8)) by (Z.div_mod_to_equations; lia).
  apply decode_word; try assumption; Z.div_mod_to_equations; lia.
Qed.
Lemma now_assert : forall N S cur t e v c w, setting_ok S cur -> now N S cur t e v -> now N S cur t c w -> w <> 0 -> 1 <= N ->
  exists e1, expr_Assert (s_garbage S) e c = Ok e1 /\ now (N + 1) S cur t e1 v.
Proof.
  intros N S cur t e v c w SO (T & O & D & W & K) (T2 & O2 & D2 & W2 & K2) Nz HN.
  destruct (operand_bin S cur OpAssert T T2 e c v w v SO O O2) as (e1 & B & O1); [cbn; replace (w =? 0) with false by lia; reflexivity|exact Logic.I|].
  exists e1. split; [exact B|]. exists (Bin OpAssert T T2). split; [exact O1|]. split; [cbn [tdepth]; lia|]. split; [apply within_bin; assumption|].
  cbn [known]. tauto.
Qed.

Section Handlers.
Variables (new : bool) (S0 : setting) (fl : bool) (k : nat) (st : xstate) (m0 : msect).
Hypothesis G : good fl S0 k st m0 24.
Notation F := (s_F S0).
Notation pc := (e_pc (s_env S0)).
Ltac kinds_of H := let A := fresh "K" in pose proof (kind_tests _ _ (proj1 (proj2 (proj2 H)))) as A; destruct A as (?Kd & ?Ka & ?Ki & ?Kn & ?Kc & ?Ke).
(** A word and a cell. *)
Lemma done_cell : forall W K n t v A act, (n = 2 \/ n = 4)%nat -> t = Num v \/ src A t ->
  (forall st1 m1, good fl (moved 2 S0) k st1 m1 22 -> exists st2 m2, K st1 = Ok (true, st2) /\
     emits (moved 2 S0) k st1 st2 [(n, t, v)] /\ good fl (moved (Z.of_nat n) (moved 2 S0)) k st2 m2 18) ->
  (forall mc more, decode new mc pc (word W :: words [(n, t, v)] ++ more) = Some (act mc, more)) ->
  done new S0 fl k st A (let! st1 := sect_OutputConst16 W st in K st1) act.
Proof.
  intros W K n t v A act N Ts Mid Dec.
  destruct (good_16 fl S0 k st m0 W (Num W) 22) as (st1 & m1 & E1 & Em & G1); [exact G|lia|].
  destruct (Mid st1 m1 G1) as (st2 & m2 & E2 & Em2 & G2).
  exists st2, m2, [(2%nat, Num W, W); (n, t, v)]. split; [rewrite E1; exact E2|]. split; [|split].
  - pose proof (sent_one fl S0 k st 2 (Num W) W st1 m1 22 Em G1) as X.
    assert (X2 : sent fl (moved (width [(2%nat, Num W, W)]) S0) k st1 [(n, t, v)] st2 m2 18) by (apply sent_one; [exact Em2|exact G2]).
    pose proof (sent_app _ _ _ _ _ _ _ _ _ _ _ _ X X2) as (Y1 & Y2). split; [exact Y1|]. apply (good_less _ _ _ _ _ _ _ Y2). lia.
  - apply (stored_app A [_]); [apply stored_num; left; reflexivity|]. destruct Ts as [-> | Ts]; [apply stored_num|apply stored_src; [|exact Ts]]; exact N.
  - intros mc more. apply Dec.
Qed.
(** *** CMP *)
Lemma inc_facts : forall s n md, opd0 new s S0 (OInc n) md -> low_base md = n /\ 0 <= n <= 7 /\ reg_ok n = true.
Proof.
  intros s n md (Hok & D & _). cbn in Hok, D. unfold low_base. rewrite D. split; [apply (low_reg n Hok)|]. split; [apply reg_range, Hok|exact Hok].
Qed.
Lemma dec_facts : forall s n md, opd0 new s S0 (ODec n) md -> low_base md = n /\ 0 <= n <= 7 /\ reg_ok n = true /\ a_mode md = AM_ADEC.
Proof.
  intros s n md (Hok & D & K & _). cbn in Hok, D. unfold low_base. rewrite D. split; [apply (low_reg n Hok)|]. split; [apply reg_range, Hok|]. split; [exact Hok|].
  cbn in K. destruct K as [K|[]]. symmetry. exact K.
Qed.
Lemma h_cmpm : forall s n1 n2 src dest A, opd0 new s S0 (OInc n1) src -> opd0 new s S0 (OInc n2) dest ->
  done new S0 fl k st A (handleCMPM (code s) src dest st) (fun mc => Act "CMP" (Some s) [PostInc n1; PostInc n2]).
Proof.
  intros s n1 n2 src dest A O1 O2. destruct (inc_facts _ _ _ O1) as (E1 & N1 & R1). destruct (inc_facts _ _ _ O2) as (E2 & N2 & R2).
  unfold handleCMPM. rewrite size_field, E1, E2.
  apply (done_fields new S0 fl k st m0 _ 11 n2 (4 + field s) 1 n1 _ _ G); try lia.
  - clear -R1 R2. destruct s; each_reg n1 R1; each_reg n2 R2; reflexivity.
  - destruct s; cbn; lia.
  - intros mc more. destruct s; reflexivity.
Qed.
Lemma h_cmp : forall s o1 o2 src dest A, opd new s S0 fl o1 src -> opd new s S0 fl o2 dest ->
  two new s CAny CDn o1 o2 \/ two new s CAny CAn o1 o2 \/ two new s CImm CSimple o1 o2 \/ two new s CPostInc CPostInc o1 o2 -> incl (opnd_args o1) A -> incl (opnd_args o2) A ->
  done new S0 fl k st A (handleCMP F (code s) src dest st) (fun mc => Act "CMP" (Some s) [opnd_place mc s o1; opnd_place mc s o2]).
Proof.
  intros s o1 o2 src dest A O1 O2 C I1 I2. pose proof (proj1 O1) as P1. pose proof (proj1 O2) as P2.
  unfold handleCMP. destruct (kind_tests _ _ (proj1 (proj2 (proj2 P1)))) as (_ & _ & Ki1 & Kn1 & _). destruct (kind_tests _ _ (proj1 (proj2 (proj2 P2)))) as (Kd2 & Ka2 & _ & Kn2 & _).
  rewrite Ki1, Kn1, Kd2, Ka2, Kn2.
  destruct C as [(C1 & C2)|[(C1 & C2)|[(C1 & C2)|(C1 & C2)]]].
  - destruct (class_dn _ _ _ C2) as (n & ->). cbn [is_inc is_areg is_dreg]. rewrite andb_false_r. destruct (immediate o1) eqn:Im.
    + destruct (imm_is _ Im) as (a & ->). apply (h_cmpi new S0 fl k st m0 G); try assumption. unfold in_class. rewrite (class_ok _ _ _ _ C2). destruct new; reflexivity.
    + destruct (dn_facts _ _ _ _ _ P2) as (_ & N & _).
      apply (al_to_dn new S0 fl k st m0 G 11 (fun p => Act "CMP" (Some s) [p; InD n]) (any_modes s) s o1 n); try assumption.
      * apply to_dn; [cbn; tauto|exact N].
      * cbn; tauto.
      * apply (any_not_byte new), C1.
      * intros mode reg. apply (fields_cany new), C1.
  - destruct (class_an _ _ _ C2) as (n & -> & Ns). cbn [is_inc is_areg is_dreg]. rewrite andb_false_r.
    unfold handleCMPA. destruct (an_facts _ _ _ _ _ P2) as (Dd & N & Rn & _). rewrite wl_is, Dd by exact Ns.
    apply (a_not_quick new S0 fl k st m0 G 11 "CMP" s o1 n src dest); try assumption; [cbn; tauto|].
    clear -Rn Ns. destruct s; try congruence; each_reg n Rn; reflexivity.
  - destruct (class_imm _ _ _ C1) as (a & ->). cbn [is_inc andb immediate].
    assert (C3 : data_alterable o2 = true) by (unfold in_class in C2; rewrite !andb_true_iff in C2; apply C2).
    replace (is_areg o2) with false by (destruct o2; try reflexivity; discriminate C3).
    apply (h_cmpi new S0 fl k st m0 G); try assumption. pose proof (class_ok _ _ _ _ C2) as Hok. unfold in_class. rewrite Hok. clear -C3. 
    destruct o2; try discriminate C3; cbn [andb]; rewrite ?C3, ?orb_true_r; reflexivity.
  - assert (T : forall o, in_class new s CPostInc o = true -> exists n, o = OInc n).
    { intros o H. unfold in_class in H. apply andb_true_iff in H. destruct H as (_ & H). destruct o; try discriminate H. eexists. reflexivity. }
    destruct (T _ C1) as (n1 & ->). destruct (T _ C2) as (n2 & ->). cbn [is_inc andb]. apply (h_cmpm s n1 n2 src dest A P1 P2).
Qed.
(** *** MOVE *)
Lemma h_moveq : forall a n src dest A, opd0 new SL S0 (OImm a) src -> opd0 new SL S0 (ODreg n) dest -> -128 <= g_value a <= 127 -> incl [a] A ->
  done new S0 fl k st A (handleMOVEQ F src dest st) (fun mc => Act "MOVE" (Some SL) [opnd_place mc SL (OImm a); InD n]).
Proof.
  intros a n src dest A O1 O2 V I. destruct (imm_arg _ _ _ _ _ O1) as (Da & H & _). destruct (dn_facts _ _ _ _ _ O2) as (Dd & N & Rn & _).
  pose proof G as (SO & _). pose proof (argh_now _ (here m0) a H) as Nw. set (v := g_value a) in *.
  destruct (now_checked 240 _ (here m0) _ _ v (-128) 127 st SO Nw ltac:(lia) ltac:(s32) ltac:(s32) V) as (e1 & E1 & N1).
  destruct (now_bin (240 + 2) S0 (here m0) OpAnd _ e1 v 255 (v mod 256) SO N1 ltac:(lia) ltac:(s32)) as (e2 & E2 & N2).
  { left. reflexivity. } { cbn [op_meaning]. rewrite land_255. reflexivity. }
  assert (X : 0 <= v mod 256 < 256) by (apply Z.mod_pos_bound; lia).
  assert (C : Z.lor 0x7000 (n * 512) = 7 * 4096 + n * 512 + 0 * 256) by (clear -Rn; each_reg n Rn; reflexivity).
  destruct (now_bin (240 + 2 + 1) S0 (here m0) OpOr _ e2 (v mod 256) (Z.lor 0x7000 (n * 512)) (7 * 4096 + n * 512 + 0 * 256 + v mod 256) SO N2 ltac:(lia)) as (e3 & E3 & N3).
  { rewrite C. s32. } { right. left. reflexivity. }
  { cbn [op_meaning]. rewrite C, low_word; [reflexivity| |exact X]. clear. Z.div_mod_to_equations. lia. }
  unfold handleMOVEQ. rewrite Da, E1, Dd. cbn [bind]. unfold expr_And, expr_Or. rewrite E2. cbn [bind]. rewrite E3. cbn [bind].
  apply (done_expr16 new S0 fl k st m0 244 (g_term a) e3 _ A _ G N3); [lia|apply src_arg, I; left; reflexivity|].
  intros mc more. rewrite decode_low by lia. destruct (low_fields 0 (v mod 256) ltac:(lia) X) as (L & M & R).
  change (decode_fields new mc pc n (0 * 4 + v mod 256 / 64) (v mod 256 / 8 mod 8) (v mod 256 mod 8) more 7) with
    (only_if (0 * 4 + v mod 256 / 64 <? 4) (Some (Act "MOVE" (Some SL) [Val (addr (signed 8 (low_byte (0 * 4 + v mod 256 / 64) (v mod 256 / 8 mod 8) (v mod 256 mod 8)))); InD n], more))).
  rewrite L. replace (0 * 4 + v mod 256 / 64 <? 4) with true by (clear -X; Z.div_mod_to_equations; lia). cbn [only_if].
  rewrite (signed_8 v V) by (rewrite Z.mod_mod; [reflexivity|lia]). reflexivity.
Qed.
Lemma h_movea : forall s o1 n src dest A, opd new s S0 fl o1 src -> opd0 new s S0 (OAreg n) dest -> s <> SB -> in_class new s CAny o1 = true -> incl (opnd_args o1) A ->
  done new S0 fl k st A (handleMOVEA F (code s) src dest st) (fun mc => Act "MOVE" (Some s) [opnd_place mc s o1; InA n]).
Proof.
  intros s o1 n src dest A (O1 & K & N & mode & reg & Fi & Sh) O2 Ns C I. destruct (an_facts _ _ _ _ _ O2) as (Dd & Nn & Rn & _).
  pose proof Sh as (Ef & Mo & Re & _). unfold handleMOVEA. rewrite Ef, Dd.
  destruct (movea_an new s n Ns Nn) as (h & r & m & Eo & Hh & R & M & Dec).
  set (l := [64; n * 512; (if code s =? SIZE_WORD then 3 else 2) * 4096]).
  assert (El : orl l = h * 4096 + r * 512 + m * 64).
  { rewrite <- Eo. clear -Rn Ns. unfold l. destruct s; try congruence; each_reg n Rn; reflexivity. }
  set (W := orl (l ++ [mode * 8 + reg])).
  destruct (good_16 fl S0 k st m0 W (Num W) 22) as (st1 & m1 & E1 & Em & G1); [exact G|lia|].
  apply (done_first new S0 fl k st h r m s _ _ A src mode reg _ _ st1 m1 (Num W) W _ Sh); try assumption; [|left; reflexivity|apply word_head; assumption|].
  - unfold outputOpcode, opword. rewrite Ef.
    assert (Ew : orl ([64; n * 512; (if code s =? SIZE_WORD then 3 else 2) * 4096; mode * 8 + reg] ++ [mode * 8 + reg]) = W).
    { unfold W. rewrite orl_app. change [64; n * 512; (if code s =? SIZE_WORD then 3 else 2) * 4096; mode * 8 + reg] with (l ++ [mode * 8 + reg]).
      rewrite orl_app, <- Z.lor_assoc, Z.lor_diag. reflexivity. }
    rewrite Ew, E1. reflexivity.
  - intros mc ws rest E. apply (Dec mc pc mode reg ws _ rest (fields_cany new s o1 mode reg C Fi) E).
Qed.
Definition move_h (s : size) : Z := match s with SB => 1 | SW => 3 | SL => 2 end.
Lemma move_dec : forall s mc pc0 m r mode reg ws p l q rest, mode_set (any_modes s) sevens mode reg -> mode_set dalt [0; 1] m r ->
  effective new mc s mode reg (pc0 + 2) ws = Some (p, l) -> effective new mc s m r (after pc0 ws l) l = Some (q, rest) ->
  decode_fields new mc pc0 r m mode reg ws (move_h s) = Some (Act "MOVE" (Some s) [p; q], rest).
Proof.
  intros s mc pc0 m r mode reg ws p l q rest M1 M2 E1 E2.
  assert (D : decode_fields new mc pc0 r m mode reg ws (move_h s) = move new mc pc0 r m mode reg ws s) by (destruct s; reflexivity).
  rewrite D. unfold move. rewrite E1, E2.
  assert (T : negb (byte_areg mode s) && negb (size_eqb s SB && (m =? 1)) && is_alterable m r = true).
  { unfold mode_set, any_modes, dalt, sevens, byte_areg, is_alterable in *. destruct s; cbn [In size_eqb] in *; lia. }
  rewrite T. reflexivity.
Qed.
Lemma h_move : forall s o1 o2 src dest A, opd new s S0 fl o1 src -> opd new s S0 fl o2 dest ->
  two new s CAny CDataAlt o1 o2 \/ two new s CAny CAn o1 o2 -> incl (opnd_args o1) A -> incl (opnd_args o2) A ->
  done new S0 fl k st A (handleMOVE F (code s) src dest st) (fun mc => Act "MOVE" (Some s) [opnd_place mc s o1; opnd_place mc s o2]).
Proof.
  intros s o1 o2 src dest A O1 O2 C I1 I2. pose proof (proj1 O1) as P1. pose proof (proj1 O2) as P2.
  unfold handleMOVE. destruct (kind_tests _ _ (proj1 (proj2 (proj2 P1)))) as (_ & _ & Ki1 & _). destruct (kind_tests _ _ (proj1 (proj2 (proj2 P2)))) as (Kd2 & Ka2 & _).
  rewrite Ki1, Kd2, Ka2.
  assert (C1 : in_class new s CAny o1 = true) by (destruct C as [(C & _)|(C & _)]; exact C).
  match goal with |- context[if ?b then _ else _] => destruct b eqn:Q end.
  - rewrite !andb_true_iff in Q. destruct Q as (((((Q1 & Q2) & Q3) & Q4) & Q5) & Q6). destruct (imm_is _ Q1) as (a & ->). destruct o2; try discriminate Q2.
    assert (s = SL) by (destruct s; try discriminate Q3; reflexivity). subst s. destruct (imm_arg _ _ _ _ _ P1) as (Da & _ & (_ & Af) & _).
    rewrite Da in *. rewrite (Af Q4) in *. apply (h_moveq a n); try assumption. lia.
  - clear Q. destruct C as [(_ & C2)|(_ & C2)].
    2: { destruct (class_an _ _ _ C2) as (n & -> & Ns). cbn [is_areg]. apply (h_movea s o1 n src dest); assumption. }
    destruct (class_dalt _ _ _ C2) as (C3 & _). replace (is_areg o2) with false by (destruct o2; try reflexivity; discriminate C3).
    destruct O1 as (_ & _ & _ & mode & reg & Fi1 & Sh1). destruct O2 as (_ & _ & _ & m & r & Fi2 & Sh2).
    destruct Sh1 as (Ef1 & Mo1 & Re1 & D1). destruct Sh2 as (Ef2 & Mo2 & Re2 & D2). rewrite Ef1, Ef2, swap_fields by assumption.
    assert (B : (if code s =? SIZE_BYTE then 1 else if code s =? SIZE_WORD then 3 else 2) = move_h s) by (destruct s; reflexivity). rewrite B.
    set (W := orl [mode * 8 + reg; (r * 8 + m) * 64; move_h s * 4096]).
    assert (Ew : W = move_h s * 4096 + r * 512 + m * 64 + (mode * 8 + reg)).
    { unfold W, orl. cbn [fold_left]. rewrite Z.lor_0_l, <- Z.lor_assoc, Z.lor_comm.
      rewrite (Z.lor_comm _ (move_h s * 4096)), (sum_lor (move_h s * 4096) ((r * 8 + m) * 64) 12); [|lia|change (2 ^ 12) with 4096; lia|apply Z.mod_mul; discriminate].
      rewrite join_word; [lia| |lia]. clear. Z.div_mod_to_equations. lia. }
    destruct (good_16 fl S0 k st m0 W (Num W) 22) as (st1 & m1 & E1 & Em & G1); [exact G|lia|].
    destruct (D1 2 k st1 m1 12) as (st2 & m2 & c1 & X1 & X2 & X3 & X4 & X5); [split; [lia|intros _; left; reflexivity]|exact G1|lia|].
    pose proof (sent_one fl S0 k st 2 (Num W) W st1 m1 22 Em G1) as Y1. pose proof (sent_app _ _ _ _ _ _ _ _ _ _ _ _ Y1 X2) as Y2. cbn [app] in Y2.
    assert (Wd : width ((2%nat, Num W, W) :: c1) = 2 + width c1) by (rewrite width_cons; lia).
    assert (Wc : 0 <= width c1) by (rewrite (words_width _ _ X3); unfold zlen; lia).
    destruct (D2 (2 + width c1) k st2 m2 2) as (st3 & m3 & c2 & Z1 & Z2 & Z3 & Z4 & Z5).
    { split; [lia|]. intro T. exfalso. clear -T C3. destruct o2; cbn in *; try discriminate; rewrite T in C3; discriminate C3. }
    { rewrite <- Wd. exact (proj2 Y2). } { lia. }
    rewrite <- Wd in Z2. pose proof (sent_app _ _ _ _ _ _ _ _ _ _ _ _ Y2 Z2) as (Y3 & Y4).
    exists st3, m3, (((2%nat, Num W, W) :: c1) ++ c2). split; [|split; [|split]].
    + rewrite E1. cbn [bind]. rewrite X1. cbn [bind negb]. exact Z1.
    + split; [exact Y3|]. apply (good_less _ _ _ _ _ _ _ Y4). lia.
    + apply stored_app; [|apply (stored_more (opnd_args o2)); assumption]. apply (stored_app A [_]); [apply stored_num; left; reflexivity|].
      apply (stored_more (opnd_args o1)); assumption.
    + intros mc more. rewrite words_app. change (words ((2%nat, Num W, W) :: c1)) with (word W :: words c1). cbn [app]. rewrite <- app_assoc, Ew.
      rewrite decode_word; [|destruct s; cbn; lia|lia..].
      apply (move_dec s mc pc m r mode reg _ _ (words c2 ++ more)).
      * apply (fields_cany new s o1); assumption.
      * apply (fields_dalt o2); assumption.
      * apply X5.
      * rewrite after_mid, <- (words_width _ _ X3), <- Z.add_assoc. apply Z5.
Qed.
End Handlers.
