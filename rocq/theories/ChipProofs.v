(** Proofs about the CHIP-8 instruction parser. *)
From Coq Require Import ZArith List Bool Lia ZifyBool String.
From Verif Require Import Base BaseFacts Arith ExprSpec ExprModel ExprLayout OptModel SectModel SectSpec SectProofs
  InstrSpec InstrProofs ChipModel ChipSpec.
Import ListNotations.
Open Scope string_scope.
Open Scope Z_scope.

Ltac split_reg H x :=
  unfold reg_ok in H;
  let E := fresh in
  assert (E : x = 0 \/ x = 1 \/ x = 2 \/ x = 3 \/ x = 4 \/ x = 5 \/ x = 6 \/ x = 7 \/ x = 8 \/ x = 9 \/ x = 10 \/
              x = 11 \/ x = 12 \/ x = 13 \/ x = 14 \/ x = 15) by lia;
  clear H; repeat (destruct E as [E|E]; [subst x|]); try subst x.

Definition no_plus (r : list token) : Prop := match r with TPlus :: _ => False | _ => True end.

Lemma lex_register : forall x, reg_ok x -> lex1 (register x) = TId (6030 + x).
Proof. intros x H. split_reg H x; reflexivity. Qed.
Lemma mode_register : forall x r st, reg_ok x -> no_plus r ->
  parseAddressMode (TId (6030 + x) :: r) st = Ok (true, AMode MODE_REG x ENull, r, st).
Proof.
  intros x r st H N. unfold parseAddressMode, getRegister.
  replace ((T_CHIP_REG_V0 <=? 6030 + x) && (6030 + x <=? T_CHIP_REG_V15)) with true
    by (unfold reg_ok, T_CHIP_REG_V0, T_CHIP_REG_V15 in *; lia).
  replace (6030 + x - T_CHIP_REG_V0) with x by (unfold T_CHIP_REG_V0; lia).
  replace (x =? REGISTER_NONE) with false by (unfold reg_ok, REGISTER_NONE in *; lia). cbn [negb].
  destruct r as [|[] r]; try reflexivity. destruct N.
Qed.

(** Register and opcode fields. *)
Lemma byte_fields : forall q n, 0 <= q ->
  Z.lor (q * 256) (Z.land n 255) = q * 256 + n mod 256.
Proof.
  intros q n Q. replace (Z.land n 255) with (n mod 256).
  - apply (lor_low q (n mod 256) 8); [lia|]. apply Z.mod_pos_bound. lia.
  - symmetry. apply (Z.land_ones n 8). lia.
Qed.
Lemma height_fields : forall q n, 0 <= q ->
  Z.lor (q * 16) (Z.land n 15) = q * 16 + n mod 16.
Proof.
  intros q n Q. replace (Z.land n 15) with (n mod 16).
  - apply (lor_low q (n mod 16) 4); [lia|]. apply Z.mod_pos_bound. lia.
  - symmetry. apply (Z.land_ones n 4). lia.
Qed.
Lemma digits_byte : forall a x n, digits a x (hi4 n) (lo4 n) = (a * 16 + x) * 256 + n mod 256.
Proof. intros. unfold digits, hi4, lo4. Z.div_mod_to_equations. lia. Qed.

Lemma emits_term : forall S k st st' n t1 t2 v, emits S k st st' [(n, t1, v)] -> known (s_world S) t1 ->
  emits S k st st' [(n, t2, v)].
Proof.
  intros S k st st' n t1 t2 v (m & m1 & bs & ps & A & B & Wr & C) K.
  exists m, m1, bs, ps. split; [exact A|]. split; [exact B|]. split; [|exact C].
  inversion Wr; subst; [apply written_now; assumption|contradiction].
Qed.

Section Run.
Variable F : fmath.
Variable S : setting.
Hypothesis HF : F = s_F S.
Variable st : xstate.
Variable k : nat.
Variable m : msect.
Hypothesis R : ready st k m 2.
Hypothesis SO : setting_ok S (here m).

Lemma run_reg : forall mode x e op v t, u16 (Z.lor op (Z.shiftl x 8)) = v ->
  exists st', handleModeReg (AMode mode x e) op st = Ok (true, st') /\ emits S k st st' [(2%nat, t, v)].
Proof.
  intros mode x e op v t V. unfold handleModeReg, reg8. cbn [am_register]. rewrite V.
  destruct (out_const16 S v t k st m R) as (st' & E & M). exists st'. rewrite E. split; [reflexivity|exact M].
Qed.
Lemma run_regreg : forall a x e b y f op v t, u16 (Z.lor (Z.lor op (Z.shiftl x 8)) (Z.shiftl y 4)) = v ->
  exists st', handleModeRegReg (AMode a x e) (AMode b y f) op st = Ok (true, st') /\ emits S k st st' [(2%nat, t, v)].
Proof.
  intros a x e b y f op v t V. unfold handleModeRegReg, reg8, reg4. cbn [am_register]. rewrite V.
  destruct (out_const16 S v t k st m R) as (st' & E & M). exists st'. rewrite E. split; [reflexivity|exact M].
Qed.
Lemma run_none : forall v t, exists st', handleModeNone v st = Ok (true, st') /\ emits S k st st' [(2%nat, t, v)].
Proof.
  intros v t. unfold handleModeNone.
  destruct (out_const16 S v t k st m R) as (st' & E & M). exists st'. rewrite E. split; [reflexivity|exact M].
Qed.
(** An operand combined with an opcode. *)
Lemma run_out : forall T t e v, operand S (here m) T e v -> tdepth T <= 256 -> symbols_within T t ->
  (known (s_world S) t -> known (s_world S) T) ->
  exists st', done (sect_OutputExpr16 e st) = Ok (true, st') /\ emits S k st st' [(2%nat, t, v)].
Proof.
  intros T t e v Op De Wi Kn.
  destruct (out_expr S (here m) 2 T t e v k st m (or_intror (or_introl eq_refl)) SO Op De Wi Kn R) as (st' & E & M).
  exists st'. unfold done. cbn [sect_OutputExpr] in E. rewrite E. split; [reflexivity|exact M].
Qed.
Ltac num := unfold is_s32; lia.
Lemma run_imm12 : forall mode x T t e n q v, operand S (here m) T e n -> tdepth T <= 252 -> symbols_within T t ->
  (known (s_world S) t -> known (s_world S) T) -> 0 <= n <= 4095 -> 0 <= q <= 15 -> v = q * 4096 + n ->
  exists st', handleModeImm12 F (AMode mode x e) (q * 4096) st = Ok (true, st') /\ emits S k st st' [(2%nat, t, v)].
Proof.
  intros mode x T t e n q v Op De Wi Kn B Q ->. unfold handleModeImm12. cbn [am_expr].
  destruct (operand_checked S (here m) T e n 0 4095 st SO Op) as (e1 & C & O1); try num.
  rewrite C. cbn [bind].
  assert (L : Z.lor (q * 4096) n = q * 4096 + n) by (apply (lor_low q n 12); lia).
  destruct (operand_bin S (here m) OpOr (Num (q * 4096)) (limited T 0 4095) (expr_Const (q * 4096)) e1 (q * 4096) n
              (q * 4096 + n) SO) as (e2 & B2 & O2).
  { apply operand_num. num. }
  { exact O1. }
  { cbn. rewrite L. reflexivity. }
  { exact I. }
  cbn [build2 is_unary] in B2. unfold expr_Or. rewrite HF, B2. cbn [bind].
  apply (run_out _ t _ _ O2).
  - unfold limited. cbn [tdepth]. lia.
  - apply within_bin; [apply within_num|apply within_limited, Wi].
  - intro K. unfold limited. cbn [known]. specialize (Kn K). tauto.
Qed.
Lemma run_masked : forall T t e n lo hi mask c v, operand S (here m) T e n -> tdepth T <= 252 -> symbols_within T t ->
  (known (s_world S) t -> known (s_world S) T) -> lo <= n <= hi -> is_s32 lo -> is_s32 hi -> is_s32 mask -> is_s32 c ->
  v = Z.lor c (Z.land n mask) ->
  exists st', (let! (e0, st1) := range_checked e lo hi st in
               let! e1 := expr_And F e0 (expr_Const mask) in
               let! e2 := expr_Or F (expr_Const c) e1 in
               done (sect_OutputExpr16 e2 st1)) = Ok (true, st') /\ emits S k st st' [(2%nat, t, v)].
Proof.
  intros T t e n lo hi mask c v Op De Wi Kn B L H M C V.
  destruct (operand_checked S (here m) T e n lo hi st SO Op L H B) as (e1 & Ch & O1).
  rewrite Ch. cbn [bind].
  destruct (operand_bin S (here m) OpAnd (limited T lo hi) (Num mask) e1 (expr_Const mask) n mask (Z.land n mask) SO)
    as (e2 & B2 & O2).
  { exact O1. } { apply operand_num, M. } { reflexivity. } { exact I. }
  cbn [build2 is_unary] in B2. unfold expr_And. rewrite HF, B2. cbn [bind].
  destruct (operand_bin S (here m) OpOr (Num c) (Bin OpAnd (limited T lo hi) (Num mask)) (expr_Const c) e2 c
              (Z.land n mask) v SO) as (e3 & B3 & O3).
  { apply operand_num, C. } { exact O2. } { cbn. rewrite V. reflexivity. } { exact I. }
  cbn [build2 is_unary] in B3. unfold expr_Or. rewrite B3. cbn [bind].
  apply (run_out _ t _ _ O3).
  - unfold limited. cbn [tdepth]. lia.
  - apply within_bin; [apply within_num|]. apply within_bin; [apply within_limited, Wi|apply within_num].
  - intro K. unfold limited. cbn [known]. specialize (Kn K). tauto.
Qed.
End Run.

(** ** Whole instructions *)
Definition entry (cpu id : Z) (i : instruction) : Prop :=
  nth_error instructionHandlers (Z.to_nat (id - 6000)) = Some i /\ 6000 <= id <= 6029 /\
  (Z.land (i_cpu i) cpu =? 0) = false.
Lemma at_entry : forall F cpu id i r st, entry cpu id i ->
  schip_ParseIntegerInstruction F cpu (TId id :: r) st =
  let! (o, ts1, st1) := parseOperands i r st in
  match o with
  | None => finish (refuse ERROR_OPERAND st1) ts1
  | Some (m1, m2, m3) => finish (apply_parser F cpu (i_parser i) m1 m2 m3 (i_opcode i) st1) ts1
  end.
Proof.
  intros F cpu id i r st (N & B & C). unfold schip_ParseIntegerInstruction.
  replace ((T_CHIP_INSTR_FIRST <=? id) && (id <=? T_CHIP_INSTR_LAST)) with true
    by (unfold T_CHIP_INSTR_FIRST, T_CHIP_INSTR_LAST; lia).
  change T_CHIP_INSTR_FIRST with 6000. rewrite N, C. reflexivity.
Qed.
Definition takes (mask : Z) (ts : list token) (st : xstate) (m : amode) (rest : list token) (st1 : xstate) : Prop :=
  (mask =? 0) = false /\ parseAddressMode ts st = Ok (true, m, rest, st1) /\ (Z.land mask (am_mode m) =? 0) = false.
Lemma parse0 : forall F cpu id i r st, entry cpu id i -> i_mode1 i = 0 ->
  schip_ParseIntegerInstruction F cpu (TId id :: r) st =
  finish (apply_parser F cpu (i_parser i) no_mode no_mode no_mode (i_opcode i) st) r.
Proof. intros F cpu id i r st E M. rewrite (at_entry F cpu id i r st E). unfold parseOperands. rewrite M. reflexivity. Qed.
Lemma parse1 : forall F cpu id i r st m1 r1 st1, entry cpu id i -> takes (i_mode1 i) r st m1 r1 st1 -> i_mode2 i = 0 ->
  schip_ParseIntegerInstruction F cpu (TId id :: r) st =
  finish (apply_parser F cpu (i_parser i) m1 no_mode no_mode (i_opcode i) st1) r1.
Proof.
  intros F cpu id i r st m1 r1 st1 E (A & B & C) M. rewrite (at_entry F cpu id i r st E).
  unfold parseOperands, parseSecond. rewrite A, B. cbn [bind negb]. rewrite C, M. reflexivity.
Qed.
Lemma parse2 : forall F cpu id i r st m1 r1 st1 m2 r2 st2, entry cpu id i -> takes (i_mode1 i) r st m1 (TComma :: r1) st1 ->
  takes (i_mode2 i) r1 st1 m2 r2 st2 -> i_mode3 i = 0 ->
  schip_ParseIntegerInstruction F cpu (TId id :: r) st =
  finish (apply_parser F cpu (i_parser i) m1 m2 no_mode (i_opcode i) st2) r2.
Proof.
  intros F cpu id i r st m1 r1 st1 m2 r2 st2 E (A & B & C) (A2 & B2 & C2) M. rewrite (at_entry F cpu id i r st E).
  unfold parseOperands, parseSecond, parseThird. rewrite A, B. cbn [bind negb]. rewrite C, A2.
  cbn [parse_ExpectComma negb]. rewrite B2. cbn [bind negb]. rewrite C2, M. reflexivity.
Qed.
Lemma parse3 : forall F cpu id i r st m1 r1 st1 m2 r2 st2 m3 r3 st3, entry cpu id i ->
  takes (i_mode1 i) r st m1 (TComma :: r1) st1 ->
  takes (i_mode2 i) r1 st1 m2 (TComma :: r2) st2 -> takes (i_mode3 i) r2 st2 m3 r3 st3 ->
  schip_ParseIntegerInstruction F cpu (TId id :: r) st =
  finish (apply_parser F cpu (i_parser i) m1 m2 m3 (i_opcode i) st3) r3.
Proof.
  intros F cpu id i r st m1 r1 st1 m2 r2 st2 m3 r3 st3 E (A & B & C) (A2 & B2 & C2) (A3 & B3 & C3).
  rewrite (at_entry F cpu id i r st E).
  unfold parseOperands, parseSecond, parseThird. rewrite A, B. cbn [bind negb]. rewrite C, A2.
  cbn [parse_ExpectComma negb]. rewrite B2. cbn [bind negb]. rewrite C2, A3.
  cbn [parse_ExpectComma negb]. rewrite B3. cbn [bind andb]. rewrite C3. reflexivity.
Qed.

Lemma takes_reg : forall mask x r st, reg_ok x -> no_plus r -> (mask =? 0) = false -> (Z.land mask 1 =? 0) = false ->
  takes mask (TId (6030 + x) :: r) st (AMode MODE_REG x ENull) r st.
Proof. intros mask x r st X N M L. split; [exact M|]. split; [apply mode_register; assumption|exact L]. Qed.

Lemma finish_done : forall S k st cells (f : handled) r,
  (exists st', f = Ok (true, st') /\ emits S k st st' cells) ->
  exists st', finish f r = Ok (true, r, st') /\ emits S k st st' cells.
Proof. intros S k st cells f r (st' & -> & E). exists st'. split; [reflexivity|exact E]. Qed.

Ltac is_entry := unfold entry; split; [reflexivity|split; [lia|]];
  match goal with H : _ = 1 \/ _ = 2 |- _ => destruct H as [-> | ->]; reflexivity
                | H : _ = SCHIP |- _ => rewrite H; reflexivity end.
Ltac takes_now := first
  [ apply takes_reg; [assumption|first [exact I|assumption]|reflexivity|reflexivity]
  | split; [reflexivity|split; [reflexivity|reflexivity]] ].
Ltac reg1 := match goal with X : reg_ok ?x |- u16 (Z.lor _ (Z.shiftl ?x 8)) = _ => split_reg X x; reflexivity end.
Ltac reg2 := match goal with X : reg_ok ?x, Y : reg_ok ?y |- u16 (Z.lor (Z.lor _ (Z.shiftl ?x 8)) (Z.shiftl ?y 4)) = _ =>
  split_reg X x; split_reg Y y; reflexivity end.

Theorem encoded : forall S i cpu st k m rest,
  ready st k m 2 -> setting_ok S (here m) -> args_known S (here m) i -> valid (cmap g_value i) ->
  available cpu i -> no_plus rest -> (forall n, i <> Scd n) ->
  exists st', schip_ParseIntegerInstruction (s_F S) cpu (lex (text (cmap g_expr i)) ++ rest) st = Ok (true, rest, st') /\
    emits S k st st' [(2%nat, term_of i, encoding (cmap g_value i))].
Proof.
  intros S i cpu st k m rest R SO A V Av NP NS.
  assert (CP : cpu = 1 \/ cpu = 2) by (destruct Av as [->|[-> _]]; auto).
  assert (CS : needs_schip i = true -> cpu = SCHIP).
  { intro H. destruct Av as [->|[_ N]]; [reflexivity|congruence]. }
  assert (WI := within_refl).
  destruct i; cbn [valid cmap] in V; cbn [needs_schip] in CS;
    try (exfalso; eapply NS; reflexivity);
    try (specialize (CS eq_refl); clear CP);
    try (destruct (A _ eq_refl) as [Op De]);
    unfold term_of; cbn [operand_of cmap text encoding lex map app lex1];
    repeat match goal with H : reg_ok _ /\ _ |- _ => destruct H end;
    rewrite ?lex_register by assumption;
    repeat match goal with
    | |- context [assoc ?s g_tokens] =>
        let v := eval vm_compute in (assoc s g_tokens) in change (assoc s g_tokens) with v
    end.
  all: try (erewrite parse0; [|is_entry|reflexivity]; apply finish_done; eapply run_none; exact R).
  all: try (erewrite parse1; [|is_entry|takes_now|reflexivity]; apply finish_done;
            cbn [apply_parser i_parser i_opcode]; eapply run_reg; [exact R|reg1]).
  all: try (erewrite parse2; [|is_entry|takes_now|takes_now|reflexivity]; apply finish_done;
            cbn [apply_parser i_parser i_opcode]; eapply run_regreg; [exact R|reg2]).
  all: try (erewrite parse2; [|is_entry|takes_now|takes_now|reflexivity]; apply finish_done;
            cbn [apply_parser i_parser i_opcode]; unfold handleLD, handleLDM, handleADD, modes;
            cbn [am_mode]; eapply run_reg; [exact R|reg1]).
  (* bytes *)
  all: match goal with
  | X : reg_ok ?x, V : -128 <= ?n <= 255 |- context [digits ?a ?x (hi4 ?n) (lo4 ?n)] =>
      erewrite parse2; [|is_entry|takes_now|takes_now|reflexivity]; apply finish_done;
      cbn [apply_parser i_parser i_opcode]; unfold handleLD, handleADD, handleSkips, modes; cbn [am_mode];
      eapply (run_masked _ S eq_refl st k m R SO); [exact Op|lia|apply WI|auto|exact V| | | | |];
      [unfold is_s32; lia|unfold is_s32; lia|unfold is_s32; lia
      |unfold reg8; cbn [am_register]; clear - X; split_reg X x; unfold is_s32; vm_compute; split; congruence
      |rewrite digits_byte, <- byte_fields by (unfold reg_ok in X; lia);
       unfold reg8; cbn [am_register]; f_equal; clear - X; split_reg X x; reflexivity]
  | _ => idtac
  end.
  - erewrite parse1; [|is_entry|takes_now|reflexivity]. apply finish_done. cbn [apply_parser i_parser i_opcode].
    eapply (run_imm12 _ S eq_refl st k m R SO _ _ _ _ _ _ 1); [exact Op|lia|apply WI|auto|exact V|lia|lia].
  - erewrite parse1; [|is_entry|takes_now|reflexivity]. apply finish_done. cbn [apply_parser i_parser i_opcode].
    eapply (run_imm12 _ S eq_refl st k m R SO _ _ _ _ _ _ 2); [exact Op|lia|apply WI|auto|exact V|lia|lia].
  - erewrite parse2; [|is_entry|takes_now|takes_now|reflexivity]. apply finish_done. cbn [apply_parser i_parser i_opcode].
    eapply (run_imm12 _ S eq_refl st k m R SO _ _ _ _ _ _ 10); [exact Op|lia|apply WI|auto|exact V|lia|lia].
  - destruct (operand_checked S (here m) _ _ _ 0 4095 st SO Op) as (e1 & C & O1); [unfold is_s32; lia|unfold is_s32; lia|exact V|].
    erewrite parse1; [|is_entry| |reflexivity]; cycle 1.
    { split; [reflexivity|]. split.
      - cbn -[range_checked]. rewrite C. reflexivity.
      - reflexivity. }
    apply finish_done. cbn [apply_parser i_parser i_opcode].
    eapply (run_imm12 _ S eq_refl st k m R SO _ _ _ _ _ _ 11);
      [exact O1|unfold limited; cbn [tdepth]; lia|apply within_limited, WI|unfold limited; cbn [known]; tauto|exact V|lia|lia].
  - erewrite parse3; [|is_entry|takes_now|takes_now|takes_now]. apply finish_done. cbn [apply_parser i_parser i_opcode].
    match goal with X : reg_ok x, Y : reg_ok y, V : 0 <= _ <= 16 |- _ =>
    eapply (run_masked _ S eq_refl st k m R SO); [exact Op|lia|apply WI|auto|exact V| | | | |];
      [unfold is_s32; lia|unfold is_s32; lia|unfold is_s32; lia
      |unfold reg8, reg4; cbn [am_register]; clear - X Y; split_reg X x; split_reg Y y; unfold is_s32; vm_compute; split; congruence
      |transitivity (((13 * 16 + x) * 16 + y) * 16 + g_value n mod 16);
       [reflexivity|rewrite <- height_fields by (unfold reg_ok in X, Y; lia);
       unfold reg8, reg4; cbn [am_register]; f_equal; clear - X Y; split_reg X x; split_reg Y y; reflexivity]]
    end.
Qed.

(** ** The opposite direction *)
(** The digits of an opcode. *)
Definition digit (k : Z) (v : Z) : Z := v / 16 ^ k mod 16.
Definition decode4 (a x y z : Z) : option (cinstr Z) :=
  let n8 := y * 16 + z in
  let n12 := (x * 16 + y) * 16 + z in
  if a =? 0 then
    if n12 =? 0x00E0 then Some Cls else if n12 =? 0x00EE then Some Ret else if n12 =? 0x00FB then Some Scr else
    if n12 =? 0x00FC then Some Scl else if n12 =? 0x00FD then Some Exit else if n12 =? 0x00FE then Some Low else
    if n12 =? 0x00FF then Some High else if (x =? 0) && (y =? 0xC) then Some (Scd z) else None
  else if a =? 1 then Some (Jp n12)
  else if a =? 2 then Some (Call n12)
  else if a =? 3 then Some (SeImm x n8)
  else if a =? 4 then Some (SneImm x n8)
  else if a =? 5 then if z =? 0 then Some (Se x y) else None
  else if a =? 6 then Some (LdImm x n8)
  else if a =? 7 then Some (AddImm x n8)
  else if a =? 8 then
    if z =? 0 then Some (Ld x y) else if z =? 1 then Some (Or x y) else if z =? 2 then Some (And x y) else
    if z =? 3 then Some (Xor x y) else if z =? 4 then Some (Add x y) else if z =? 5 then Some (Sub x y) else
    if z =? 6 then Some (Shr x) else if z =? 7 then Some (Subn x y) else if z =? 0xE then Some (Shl x) else None
  else if a =? 9 then if z =? 0 then Some (Sne x y) else None
  else if a =? 0xA then Some (LdI n12)
  else if a =? 0xB then Some (JpV0 n12)
  else if a =? 0xC then Some (Rnd x n8)
  else if a =? 0xD then Some (Drw x y z)
  else if a =? 0xE then if n8 =? 0x9E then Some (Skp x) else if n8 =? 0xA1 then Some (Sknp x) else None
  else if n8 =? 0x07 then Some (LdFromDT x) else if n8 =? 0x0A then Some (Wkp x) else
    if n8 =? 0x15 then Some (LdDT x) else if n8 =? 0x18 then Some (LdST x) else if n8 =? 0x1E then Some (AddI x) else
    if n8 =? 0x29 then Some (Ldf x) else if n8 =? 0x33 then Some (Bcd x) else if n8 =? 0x55 then Some (Store x) else
    if n8 =? 0x65 then Some (Load x) else if n8 =? 0x30 then Some (Ldf10 x) else if n8 =? 0x75 then Some (StoreRPL x) else
    if n8 =? 0x85 then Some (LoadRPL x) else None.
Definition decode (v : Z) : option (cinstr Z) := decode4 (digit 3 v) (digit 2 v) (digit 1 v) (digit 0 v).
Lemma digits_of : forall a b c d, 0 <= b <= 15 -> 0 <= c <= 15 -> 0 <= d <= 15 -> 0 <= a <= 15 ->
  digit 3 (digits a b c d) = a /\ digit 2 (digits a b c d) = b /\ digit 1 (digits a b c d) = c /\
  digit 0 (digits a b c d) = d /\ digits a b c d mod 256 = c * 16 + d /\
  digits a b c d mod 4096 = (b * 16 + c) * 16 + d.
Proof.
  intros a b c d B C D A. unfold digit, digits.
  change (16 ^ 3) with 4096. change (16 ^ 2) with 256. change (16 ^ 1) with 16. change (16 ^ 0) with 1.
  repeat split; Z.div_mod_to_equations; lia.
Qed.
Lemma addr_digits : forall a n, 0 <= n <= 4095 -> a * 4096 + n = digits a (n / 256) (n / 16 mod 16) (n mod 16).
Proof. intros a n N. unfold digits. Z.div_mod_to_equations. lia. Qed.
Lemma hi4_range : forall n, 0 <= hi4 n <= 15 /\ 0 <= lo4 n <= 15 /\ hi4 n * 16 + lo4 n = n mod 256.
Proof. intro n. unfold hi4, lo4. Z.div_mod_to_equations. lia. Qed.

Lemma decode_digits : forall a b c d, 0 <= a <= 15 -> 0 <= b <= 15 -> 0 <= c <= 15 -> 0 <= d <= 15 ->
  decode (digits a b c d) = decode4 a b c d.
Proof.
  intros a b c d A B C D. destruct (digits_of a b c d B C D A) as (E3 & E2 & E1 & E0 & _).
  unfold decode. rewrite E3, E2, E1, E0. reflexivity.
Qed.
Lemma decode_addr : forall a n, 0 <= a <= 15 -> 0 <= n <= 4095 ->
  decode (a * 4096 + n) = decode4 a (n / 256) (n / 16 mod 16) (n mod 16) /\
  (n / 256 * 16 + n / 16 mod 16) * 16 + n mod 16 = n.
Proof.
  intros a n A N. split.
  - rewrite addr_digits by exact N. apply decode_digits; Z.div_mod_to_equations; lia.
  - Z.div_mod_to_equations. lia.
Qed.
Ltac addr a := match goal with V : 0 <= ?n <= 4095 |- _ =>
  destruct (decode_addr a n ltac:(lia) V) as [D1 D2]; etransitivity; [exact D1|];
  unfold decode4; cbn [Z.eqb Pos.eqb]; rewrite D2; reflexivity end.
Lemma decoded : forall i, valid i -> decode (encoding i) = Some (canonical i).
Proof.
  intros i V. destruct i; cbn [valid] in V; unfold reg_ok in V; cbn [encoding canonical]; try reflexivity.
  1: addr 1.
  1: addr 2.
  all: try match goal with |- context [hi4 ?n] => destruct (hi4_range n) as (H1 & H2 & H3) end.
  all: try (rewrite decode_digits by lia; unfold decode4; cbn [Z.eqb Pos.eqb]; rewrite H3; reflexivity).
  all: try (rewrite decode_digits by lia; reflexivity).
  - addr 10.
  - addr 11.
  - assert (0 <= lo4 n <= 15) by (unfold lo4; Z.div_mod_to_equations; lia).
    rewrite decode_digits by lia. reflexivity.
  - assert (E : n = 0 \/ n = 1 \/ n = 2 \/ n = 3 \/ n = 4 \/ n = 5 \/ n = 6 \/ n = 7 \/ n = 8 \/ n = 9 \/ n = 10 \/
              n = 11 \/ n = 12 \/ n = 13 \/ n = 14 \/ n = 15) by lia.
    clear V. repeat (destruct E as [E|E]; [subst n; reflexivity|]). subst n. reflexivity.
Qed.
Lemma distinct : forall i j, valid i -> valid j -> encoding i = encoding j -> canonical i = canonical j.
Proof.
  intros i j Vi Vj E. apply decoded in Vi. apply decoded in Vj. rewrite E in Vi. congruence.
Qed.
Lemma encoding_range : forall i, valid i -> 0 <= encoding i < 65536.
Proof.
  intros i V. destruct i; cbn [valid] in V; unfold reg_ok in V; cbn [encoding]; unfold digits;
    try match goal with |- context [hi4 ?n] => destruct (hi4_range n) as (H1 & H2 & H3) end;
    try (unfold lo4 in *; Z.div_mod_to_equations; lia); lia.
Qed.
