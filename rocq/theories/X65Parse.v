(** Proofs about the 6502 instruction parser: operands that are written as the manual
    says are recognised. *)
From Coq Require Import ZArith List Bool Lia ZifyBool String.
From Verif Require Import Base BaseFacts Arith ArithProofs ExprSpec ExprModel ExprLayout ObjWriteModel OptModel
  SectModel SectSpec InstrSpec InstrProofs X65Model X65Spec X65Proofs.
Import ListNotations.
Open Scope string_scope.
Open Scope Z_scope.

Lemma has_sub : forall allowed a mask, Z.land a mask = a -> has allowed a = true -> has allowed mask = true.
Proof.
  intros allowed a mask S H. unfold has in *. destruct (Z.land allowed mask =? 0) eqn:E; [|reflexivity].
  apply Z.eqb_eq in E. replace (Z.land allowed a) with 0 in H; [discriminate|].
  rewrite <- S, (Z.land_comm a), Z.land_assoc, E. reflexivity.
Qed.
Lemma hasnt_sub : forall allowed a mask, Z.land a mask = a -> has allowed mask = false -> has allowed a = false.
Proof. intros allowed a mask S H. destruct (has allowed a) eqn:E; [|reflexivity]. rewrite (has_sub _ _ _ S E) in H. discriminate. Qed.

(** The modes of the later processors. *)
Definition LATER : Z :=
  M_IMM_IMM + M_816_DISP_S + M_816_LONG_IND_ZP + M_816_LONG_ABS + M_816_IND_DISP_S_Y + M_816_LONG_IND_ZP_Y +
  M_816_LONG_ABS_X + M_816_LONG_IND_ABS + M_4510_IND_ZP_Z + M_4510_ABS_X + M_4510_ABS_Y + M_45GS02_IND_ZP_Z_QUAD +
  M_45GS02_IND_ZP_QUAD + M_45GS02_Q.

(** The tokens of an operand. *)
Definition tokens (f : form (list token)) : list token :=
  match f with
  | FNone => [] | FAcc => [TId T_6502_REG_A]
  | FImm a => THash :: a | FLow a => THash :: TLess :: a | FHigh a => THash :: TGreater :: a
  | FBank a => THash :: TXor :: a | FSwap a => THash :: TLess :: TGreater :: a
  | FAddr a => a | FAddrX a => a ++ [TComma; TId T_6502_REG_X] | FAddrY a => a ++ [TComma; TId T_6502_REG_Y]
  | FZp a => TLess :: a | FZpX a => TLess :: a ++ [TComma; TId T_6502_REG_X]
  | FZpY a => TLess :: a ++ [TComma; TId T_6502_REG_Y]
  | FIndX a => TLp :: a ++ [TComma; TId T_6502_REG_X; TRp] | FIndY a => TLp :: a ++ [TRp; TComma; TId T_6502_REG_Y]
  | FInd a => TLp :: a ++ [TRp]
  | FTwo a b => a ++ TComma :: b
  | FThree a b c => a ++ TComma :: b ++ TComma :: c
  end%list.
Lemma lex_app : forall n a b, lex n (a ++ b) = (lex n a ++ lex n b)%list.
Proof. intros. apply map_app. Qed.
Lemma lex_text : forall n f, lex n (text f) = tokens (fmap (lex n) f).
Proof.
  intros n f. unfold lex. destruct f; cbn [text fmap tokens map]; repeat (rewrite map_app; cbn [map]); reflexivity.
Qed.

(** The mode an operand is given. *)
Definition mode_for {A : Type} (allowed : Z) (near : bool) (f : form A) : Z :=
  let if_has m n := if has allowed m then m else n in
  match f with
  | FNone => if_has M_NONE (if_has M_A 0)
  | FAcc => if_has M_A 0
  | FImm _ | FLow _ | FHigh _ | FBank _ | FSwap _ => if_has M_IMM 0
  | FAddr _ => if near then if_has M_ZP (if_has M_ABS 0) else if_has M_ABS 0
  | FAddrX _ => if near then if_has M_ZP_X (if_has M_ABS_X 0) else if_has M_ABS_X 0
  | FAddrY _ => if near then if_has M_ZP_Y (if_has M_ABS_Y 0) else if_has M_ABS_Y 0
  | FZp _ => if_has M_ZP (if_has M_ABS 0)
  | FZpX _ => if_has M_ZP_X (if_has M_ABS_X 0)
  | FZpY _ => if_has M_ZP_Y (if_has M_ABS_Y 0)
  | FIndX _ => if Z.land allowed (M_IND_ZP_X + M_IND_ABS_X) =? M_IND_ZP_X then M_IND_ZP_X else
               if Z.land allowed (M_IND_ZP_X + M_IND_ABS_X) =? M_IND_ABS_X then M_IND_ABS_X else 0
  | FIndY _ => if_has M_IND_ZP_Y 0
  | FInd _ => if near then if_has M_IND_ZP (if_has M_IND_ABS 0) else if_has M_IND_ABS 0
  | FTwo _ _ => if Z.land allowed (M_BIT_ZP + M_ZP_ABS) =? M_BIT_ZP then M_BIT_ZP else
                if Z.land allowed (M_BIT_ZP + M_ZP_ABS) =? M_ZP_ABS then M_ZP_ABS else 0
  | FThree _ _ _ => if_has M_BIT_ZP_ABS 0
  end.

Section Parse.
Variable S : setting.
Notation F := (s_F S).
Variable c : cpu.
Notation o := (x65_options (cpu_number c)).
Variable cur : option asect.
Hypothesis SO : setting_ok S cur.
Variable allowed : Z.
Hypothesis later : has allowed LATER = false.
Variable size : immsize.
Hypothesis size8 : size <> IMM_16_BIT.
Variable rest : list token.
Hypothesis Re : ends rest.
Variable st : xstate.
Notation core := (x65_ParseAddressingModeCore F o allowed size).
Notation parse := (x65_ParseAddressingMode F o allowed size).

Lemma size_8 : imm_is_16 o size = false.
Proof. destruct size; try reflexivity. congruence. Qed.
Lemma cpu_8 : (o_cpu o =? MOPT_CPU_65C816S) = false.
Proof. destruct c; reflexivity. Qed.

(** After the core. *)
Lemma post_as_is : forall ts m st1, core ts st = Ok (Found m rest st1) -> (am_mode m =? 0) = false ->
  am_forced m || negb (has (am_mode m) HANDLE_MODES) || negb (expr_IsConstant (am_expr m)) = true ->
  parse ts st = Ok (Some (m, rest), st1).
Proof. intros ts m st1 C N P. unfold x65_ParseAddressingMode. rewrite C. cbn [bind]. rewrite P, N. reflexivity. Qed.
(** An address that is known and not in the zero page. *)
Lemma post_far : forall ts mode e v, core ts st = Ok (Found (simple mode e) rest st) -> (mode =? 0) = false ->
  (mode =? M_BIT_ZP) || (mode =? M_BIT_ZP_ABS) = false -> has mode ZP_MODES = false ->
  (expr_IsConstant e = true -> e_v e = v) -> expr_IsConstant e && (0 <=? v) && (v <=? 255) = false ->
  parse ts st = Ok (Some (simple mode e, rest), st).
Proof.
  intros ts mode e v C N B Zm V Nr. destruct (expr_IsConstant e) eqn:K.
  - unfold x65_ParseAddressingMode. rewrite C. cbn [bind simple am_mode am_forced am_expr am_expr2 orb].
    destruct (negb (has mode HANDLE_MODES) || negb (expr_IsConstant e)) eqn:P; [rewrite N; reflexivity|].
    rewrite B, Zm, (V eq_refl). change (o_bp_base o) with 0.
    replace ((0 <=? v) && (v <=? 0 + 255)) with false by lia. reflexivity.
  - apply post_as_is; [exact C|exact N|]. cbn [simple am_expr am_forced am_mode]. rewrite K. apply orb_true_r.
Qed.
(** An address that is known and in the zero page. *)
Lemma post_near : forall ts mode e e2 e3 t v, core ts st = Ok (Found (AMode mode e e2 e3 false) rest st) -> (mode =? 0) = false ->
  (mode =? M_BIT_ZP) || (mode =? M_BIT_ZP_ABS) = false -> has mode HANDLE_MODES = true ->
  carries S cur t e v -> expr_IsConstant e && (0 <=? v) && (v <=? 255) = true ->
  exists e1, carries S cur t e1 v /\
    parse ts st = Ok (Some (AMode (match page_mode allowed mode with Some mode1 => mode1 | None => mode end) e1 e2 e3 false, rest), st).
Proof.
  intros ts mode e e2 e3 t v C N B H Ca Nr. destruct (carries_facts _ _ _ _ _ SO Ca) as (_ & V & _).
  assert (K : expr_IsConstant e = true) by (destruct (expr_IsConstant e); [reflexivity|discriminate]). specialize (V K).
  rewrite K in Nr. cbn [andb] in Nr.
  unfold x65_ParseAddressingMode. rewrite C. cbn [bind am_mode am_forced am_expr am_expr2 am_expr3 orb].
  rewrite H, K. cbn [negb orb]. rewrite B, V. change (o_bp_base o) with 0.
  replace ((0 <=? v) && (v <=? 0 + 255)) with true by lia. cbn [negb].
  destruct (page_mode allowed mode) as [mode1|].
  - destruct (carries_bin S cur OpAnd t e v 0xFF v SO Ca) as (e1 & E & C1).
    { left. reflexivity. } { unfold is_s32. lia. }
    { cbn [op_meaning]. f_equal. change 0xFF with (Z.ones 8). rewrite Z.land_ones by lia. apply Z.mod_small. lia. }
    exists e1. split; [exact C1|]. unfold expr_And. rewrite E. reflexivity.
  - exists e. split; [exact Ca|reflexivity].
Qed.

(** The core.  Blocks that come before the one that matters. *)
Lemma later_has : forall a, Z.land a LATER = a -> has allowed a = false.
Proof. intros a H. exact (hasnt_sub _ _ _ H later). Qed.

Ltac blocks := unfold x65_ParseAddressingModeCore, or_else, block_register, block_imm, block_indexed, block_long, block_indirect,
  block_address, block_none; cbn [app isReg bind].
Ltac miss := repeat first [rewrite andb_false_r; cbn [bind] | rewrite (later_has M_45GS02_Q eq_refl); cbn [andb bind]].

Lemma core_none : has allowed M_NONE = true ->
  core rest st = Ok (Found (simple M_NONE ENull) rest st).
Proof.
  intro H. blocks. destruct rest as [|[] r]; try contradiction; cbn [isReg]; miss; cbn [bind parse_Expression].
  - destruct (negb _); cbn [bind]; rewrite H, orb_true_r; reflexivity.
  - destruct (negb _); cbn [bind]; rewrite H, orb_true_r; reflexivity.
Qed.
Lemma core_acc_none : has allowed M_NONE = false -> has allowed M_A = true ->
  core rest st = Ok (Found (simple M_A ENull) rest st).
Proof.
  intros H A. assert (Za : (allowed =? 0) = false).
  { destruct (allowed =? 0) eqn:E; [|reflexivity]. apply Z.eqb_eq in E. subst. discriminate. }
  blocks. destruct rest as [|[] r]; try contradiction; cbn [isReg]; miss; cbn [bind parse_Expression].
  - destruct (negb _); cbn [bind]; rewrite H, A, Za; reflexivity.
  - destruct (negb _); cbn [bind]; rewrite H, A, Za; reflexivity.
Qed.
Lemma core_acc : has allowed M_A = true -> core (TId T_6502_REG_A :: rest) st = Ok (Found (simple M_A ENull) rest st).
Proof. intro H. blocks. rewrite H. reflexivity. Qed.
Lemma core_imm : forall ts e, has allowed M_IMM = true -> parseImmExpression F false ts = Ok (Some (e, rest)) ->
  core (THash :: ts) st = Ok (Found (simple M_IMM e) rest st).
Proof.
  intros ts e H P. blocks. miss. rewrite (has_sub _ M_IMM (M_IMM + M_IMM_IMM) eq_refl H). cbn [negb]. rewrite size_8, P. cbn [bind].
  destruct rest as [|[] r]; try contradiction; reflexivity.
Qed.
Notation INDEXED := (M_IND_ZP_X + M_IND_ZP_Y + M_4510_IND_ZP_Z + M_IND_ABS_X + M_816_IND_DISP_S_Y).
Lemma core_indx : forall e, (Z.land allowed (M_IND_ZP_X + M_IND_ABS_X) =? 0) = false ->
  core (TLp :: TExpr e :: TComma :: TId T_6502_REG_X :: TRp :: rest) st =
  Ok (Found (simple (Z.land allowed (M_IND_ZP_X + M_IND_ABS_X)) e) rest st).
Proof.
  intros e H. blocks. miss. rewrite (has_sub allowed (M_IND_ZP_X + M_IND_ABS_X) INDEXED eq_refl) by (unfold has; rewrite H; reflexivity).
  reflexivity.
Qed.
Lemma core_indy : forall e, has allowed M_IND_ZP_Y = true ->
  core (TLp :: TExpr e :: TRp :: TComma :: TId T_6502_REG_Y :: rest) st = Ok (Found (simple M_IND_ZP_Y e) rest st).
Proof. intros e H. blocks. miss. rewrite (has_sub _ M_IND_ZP_Y INDEXED eq_refl H). reflexivity. Qed.
Lemma core_ind : forall e, has allowed M_IND_ABS = true \/ has allowed M_IND_ZP = true ->
  core (TLp :: TExpr e :: TRp :: rest) st = Ok (Found (simple M_IND_ABS e) rest st).
Proof.
  intros e H. assert (H1 : has allowed (M_IND_ABS + M_IND_ZP) = true).
  { destruct H as [H|H]; revert H; apply has_sub; reflexivity. }
  blocks. miss. destruct (negb (has allowed INDEXED)); cbn [bind parse_Expression].
  - rewrite H1. reflexivity.
  - destruct rest as [|[] r]; try contradiction; cbn [bind]; rewrite H1; reflexivity.
Qed.
Notation ADDRESS := (M_ZP + M_ZP_X + M_ZP_Y + M_ABS + M_ABS_X + M_ABS_Y + M_ZP_ABS + M_BIT_ZP_ABS + M_BIT_ZP +
                        M_816_DISP_S + M_816_LONG_ABS_X + M_4510_ABS_X + M_4510_ABS_Y).
Definition here_now (e : expr) : bool := expr_IsConstant e && (0 <=? e_v e) && (e_v e <=? 255).
Lemma core_addr : forall e, has allowed ADDRESS = true -> e_isParens e = false ->
  let mode := if has allowed M_ZP && here_now e then M_ZP else if has allowed M_ABS then M_ABS else 0 in
  (mode =? 0) = false -> core (TExpr e :: rest) st = Ok (Found (simple mode e) rest st).
Proof.
  intros e H P mode N. blocks. miss. rewrite H. cbn [negb parse_Expression bind]. rewrite P. cbn [bind].
  assert (M : forall b, address_mode allowed (in_base_page o e || false) b = mode).
  { intro b. unfold address_mode. rewrite (later_has M_816_LONG_ABS eq_refl). cbn [andb]. rewrite orb_false_r. reflexivity. }
  destruct rest as [|[] r]; try contradiction; rewrite M, N; reflexivity.
Qed.
Lemma core_zp : forall e e1 st1, has allowed ADDRESS = true -> e_isParens e = false -> e_isParens e1 = false ->
  range_checked e 0 255 st = Ok (e1, st1) ->
  let mode := if has allowed M_ZP then M_ZP else if has allowed M_ABS then M_ABS else 0 in
  (mode =? 0) = false -> core (TLess :: TExpr e :: rest) st = Ok (Found (AMode mode e1 ENull ENull true) rest st1).
Proof.
  intros e e1 st1 H P P1 R mode N. blocks. miss. rewrite H. cbn [negb parse_Expression bind]. rewrite P, R. cbn [bind].
  assert (M : forall b, address_mode allowed (in_base_page o e1 || true) b = mode).
  { intro b. unfold address_mode. rewrite (later_has M_816_LONG_ABS eq_refl). cbn [andb]. rewrite orb_true_r, andb_true_r. reflexivity. }
  destruct rest as [|[] r]; try contradiction; rewrite P1, M, N; reflexivity.
Qed.
Lemma land_one : forall m n, (forall i, Z.testbit m i && Z.testbit n i = Z.testbit m i) -> Z.land m n = m.
Proof. intros m n H. apply Z.bits_inj. intro i. rewrite Z.land_spec. apply H. Qed.
(** A mode of two that may be allowed. *)
Lemma only_first : forall m1 m2 p, m1 = 2 ^ p -> 0 <= p -> has allowed m2 = false ->
  Z.land (m1 + m2) allowed = Z.land (Z.lor m1 m2) allowed -> Z.land (m1 + m2) allowed = if has allowed m1 then m1 else 0.
Proof.
  intros m1 m2 p -> Hp H2 ->. rewrite Z.land_lor_distr_l.
  unfold has in H2. rewrite (Z.land_comm m2). replace (Z.land allowed m2) with 0 by lia. rewrite Z.lor_0_r.
  unfold has. rewrite (Z.land_comm allowed). destruct (Z.testbit allowed p) eqn:B.
  - assert (E : Z.land (2 ^ p) allowed = 2 ^ p).
    { apply Z.bits_inj'. intros i Hi. rewrite Z.land_spec, Z.pow2_bits_eqb by lia. destruct (Z.eqb_spec p i); [subst; rewrite B; reflexivity|reflexivity]. }
    rewrite E. pose proof (Z.pow_pos_nonneg 2 p). replace (2 ^ p =? 0) with false by lia. reflexivity.
  - assert (E : Z.land (2 ^ p) allowed = 0).
    { apply Z.bits_inj'. intros i Hi. rewrite Z.land_spec, Z.bits_0, Z.pow2_bits_eqb by lia. destruct (Z.eqb_spec p i); [subst; rewrite B; reflexivity|reflexivity]. }
    rewrite E. reflexivity.
Qed.
Lemma index_x : Z.land (M_ABS_X + M_4510_ABS_X) allowed = if has allowed M_ABS_X then M_ABS_X else 0.
Proof. apply (only_first M_ABS_X M_4510_ABS_X 6); [reflexivity|lia|apply later_has; reflexivity|reflexivity]. Qed.
Lemma index_y : Z.land (M_ABS_Y + M_4510_ABS_Y) allowed = if has allowed M_ABS_Y then M_ABS_Y else 0.
Proof. apply (only_first M_ABS_Y M_4510_ABS_Y 7); [reflexivity|lia|apply later_has; reflexivity|reflexivity]. Qed.
Lemma core_addrx : forall e, has allowed ADDRESS = true -> e_isParens e = false ->
  core (TExpr e :: TComma :: TId T_6502_REG_X :: rest) st =
  Ok (Found (simple (if here_now e && has allowed M_ZP_X then M_ZP_X else if has allowed M_ABS_X then M_ABS_X else 0) e) rest st).
Proof.
  intros e H P. blocks. miss. rewrite H. cbn [negb parse_Expression bind]. rewrite P. cbn [bind isReg Z.eqb T_6502_REG_X Pos.eqb].
  rewrite (later_has M_816_LONG_ABS_X eq_refl), andb_false_r, index_x, orb_false_r. reflexivity.
Qed.
Lemma core_addry : forall e, has allowed ADDRESS = true -> e_isParens e = false ->
  core (TExpr e :: TComma :: TId T_6502_REG_Y :: rest) st =
  Ok (Found (simple (if here_now e && has allowed M_ZP_Y then M_ZP_Y else if has allowed M_ABS_Y then M_ABS_Y else 0) e) rest st).
Proof.
  intros e H P. blocks. miss. rewrite H. cbn [negb parse_Expression bind]. rewrite P. cbn [bind].
  change (isReg T_6502_REG_X (TId T_6502_REG_Y)) with false. change (isReg T_6502_REG_Y (TId T_6502_REG_Y)) with true. cbv iota.
  rewrite index_y, orb_false_r. reflexivity.
Qed.
Lemma core_zpx : forall e e1 st1, has allowed ADDRESS = true -> e_isParens e = false -> range_checked e 0 255 st = Ok (e1, st1) ->
  core (TLess :: TExpr e :: TComma :: TId T_6502_REG_X :: rest) st =
  Ok (Found (AMode (if has allowed M_ZP_X then M_ZP_X else if has allowed M_ABS_X then M_ABS_X else 0) e1 ENull ENull true) rest st1).
Proof.
  intros e e1 st1 H P R. blocks. miss. rewrite H. cbn [negb parse_Expression bind]. rewrite P, R. cbn [bind].
  change (isReg T_6502_REG_X (TId T_6502_REG_X)) with true. cbv iota.
  rewrite (later_has M_816_LONG_ABS_X eq_refl), andb_false_r, index_x, orb_true_r. reflexivity.
Qed.
Lemma core_zpy : forall e e1 st1, has allowed ADDRESS = true -> e_isParens e = false -> range_checked e 0 255 st = Ok (e1, st1) ->
  core (TLess :: TExpr e :: TComma :: TId T_6502_REG_Y :: rest) st =
  Ok (Found (AMode (if has allowed M_ZP_Y then M_ZP_Y else if has allowed M_ABS_Y then M_ABS_Y else 0) e1 ENull ENull true) rest st1).
Proof.
  intros e e1 st1 H P R. blocks. miss. rewrite H. cbn [negb parse_Expression bind]. rewrite P, R. cbn [bind].
  change (isReg T_6502_REG_X (TId T_6502_REG_Y)) with false. change (isReg T_6502_REG_Y (TId T_6502_REG_Y)) with true. cbv iota.
  rewrite index_y, orb_true_r. reflexivity.
Qed.
Lemma core_two : forall e e2, has allowed ADDRESS = true -> e_isParens e = false ->
  core (TExpr e :: TComma :: TExpr e2 :: rest) st =
  Ok (Found (AMode (Z.land allowed (M_BIT_ZP + M_ZP_ABS)) e e2 ENull false) rest st).
Proof.
  intros e e2 H P. blocks. miss. rewrite H. cbn [negb parse_Expression bind]. rewrite P. cbn [bind isReg parse_Expression].
  destruct rest as [|[] r]; try contradiction; reflexivity.
Qed.
Lemma core_three : forall e e2 e3, has allowed ADDRESS = true -> e_isParens e = false ->
  core (TExpr e :: TComma :: TExpr e2 :: TComma :: TExpr e3 :: rest) st =
  Ok (Found (AMode M_BIT_ZP_ABS e e2 e3 false) rest st).
Proof.
  intros e e2 e3 H P. blocks. miss. rewrite H. cbn [negb parse_Expression bind]. rewrite P. reflexivity.
Qed.

(** Immediate operands. *)
Notation car := (carriesN 240 S cur).
Ltac num := unfold is_s32; lia.
Lemma mask_ok : forall N t e v, 2 <= N -> carriesN N S cur t e v ->
  exists e1, maskExpression F e false = Ok e1 /\ carriesN N S cur t e1 (v mod 256).
Proof.
  intros N t e v HN C. apply (carriesN_bin N S cur OpAnd t e v 0xFF (v mod 256) HN SO C); [left; reflexivity|num|].
  cbn [op_meaning]. f_equal. apply (Z.land_ones v 8). lia.
Qed.
Lemma shift_ok : forall t e v n, car t e v -> 0 <= n <= 31 ->
  exists e1, expr_Asr F e (expr_Const n) = Ok e1 /\ car t e1 (v / 2 ^ n).
Proof.
  intros t e v n C H. apply (carriesN_bin 240 S cur OpAsr t e v n (v / 2 ^ n)); [lia|exact SO|exact C| |num|].
  { right. right. right. reflexivity. }
  cbn [op_meaning]. replace ((0 <=? n) && (n <=? 31)) with true by lia. f_equal. apply Z.shiftr_div_pow2. lia.
Qed.
Lemma swap_value : forall v, Z.lor (s32 (Z.shiftl v 8)) (Z.shiftr (Z.land v 0xFF00) 8) mod 256 = v / 256 mod 256.
Proof.
  intro v. change 256 with (2 ^ 8). rewrite <- !Z.land_ones by lia. rewrite Z.land_lor_distr_l.
  replace (Z.land (s32 (Z.shiftl v 8)) (Z.ones 8)) with 0.
  - rewrite Z.lor_0_l, Z.shiftr_land. change (Z.shiftr 0xFF00 8) with (Z.ones 8).
    rewrite <- Z.land_assoc, Z.land_diag, Z.shiftr_div_pow2 by lia. reflexivity.
  - rewrite Z.land_ones by lia. rewrite Z.shiftl_mul_pow2 by lia. unfold s32. Z.div_mod_to_equations. lia.
Qed.
Lemma imm_parts : forall (f : form arg) a, operands f = [a] -> kinds true f = [Imm] -> car (g_term a) (g_expr a) (g_value a) ->
  exists ts e, (tokens (fmap (fun a => [TExpr (g_expr a)]) f) ++ rest)%list = THash :: ts /\
    parseImmExpression F false ts = Ok (Some (e, rest)) /\ carries S cur (g_term a) e (part f (g_value a)) /\
    (f = FImm a -> e = g_expr a).
Proof.
  intros f a Of K C. destruct f; try discriminate; injection Of as ->; eexists;
    cbn [fmap tokens app part]; [exists (g_expr a)|..].
  - split; [reflexivity|]. split; [reflexivity|]. split; [apply (carries_more _ _ _ _ _ _ _ C); lia|reflexivity].
  - destruct (mask_ok 240 _ _ _ ltac:(lia) C) as (e1 & E & C1). exists e1. split; [reflexivity|].
    split; [|split; [apply (carries_more _ _ _ _ _ _ _ C1); lia|discriminate]].
    cbn [parseImmExpression prefixed parse_Expression bind]. rewrite E. reflexivity.
  - destruct (shift_ok _ _ _ 8 C ltac:(lia)) as (e0 & E0 & C0).
    destruct (mask_ok 240 _ _ _ ltac:(lia) C0) as (e1 & E & C1). exists e1. split; [reflexivity|].
    split; [|split; [apply (carries_more _ _ _ _ _ _ _ C1); lia|discriminate]].
    cbn [parseImmExpression prefixed parse_Expression bind]. rewrite E0. cbn [bind]. rewrite E. reflexivity.
  - destruct (shift_ok _ _ _ 16 C ltac:(lia)) as (e0 & E0 & C0).
    destruct (mask_ok 240 _ _ _ ltac:(lia) C0) as (e1 & E & C1). exists e1. split; [reflexivity|].
    split; [|split; [apply (carries_more _ _ _ _ _ _ _ C1); lia|discriminate]].
    cbn [parseImmExpression prefixed parse_Expression bind]. rewrite E0. cbn [bind]. rewrite E. reflexivity.
  - destruct (carriesN_bin 240 S cur OpAnd _ _ _ 0xFF00 (Z.land (g_value a) 0xFF00) ltac:(lia) SO C) as (eh & Eh & Ch);
      [left; reflexivity|num|reflexivity|].
    destruct (carriesN_bin 240 S cur OpAsl _ _ _ 8 (s32 (Z.shiftl (g_value a) 8)) ltac:(lia) SO C) as (el & El & Cl);
      [right; right; left; reflexivity|num|reflexivity|].
    destruct (carriesN_bin 240 S cur OpAsr _ _ _ 8 (Z.shiftr (Z.land (g_value a) 0xFF00) 8) ltac:(lia) SO Ch) as (es & Es & Cs);
      [right; right; right; reflexivity|num|reflexivity|].
    destruct (carries_or 240 S cur _ _ _ _ _ SO Cl Cs) as (e0 & E0 & C0).
    destruct (mask_ok (240 + 1) _ _ _ ltac:(lia) C0) as (e1 & E & C1). exists e1. split; [reflexivity|].
    rewrite swap_value in C1. split; [|split; [apply (carries_more _ _ _ _ _ _ _ C1); lia|discriminate]].
    cbn [parseImmExpression prefixed parse_Expression bind]. unfold expr_And, expr_Asl, expr_Asr. rewrite Eh. cbn [bind].
    rewrite El. cbn [bind]. rewrite Es. cbn [bind]. rewrite E0. cbn [bind]. rewrite E. reflexivity.
Qed.

(** Whole operands. *)
Definition ranged (mode : Z) (f : form arg) : Prop :=
  match f with
  | FZp a | FZpX a | FZpY a => byte (g_value a)
  | FIndX a => mode = M_IND_ZP_X -> byte (g_value a)
  | FIndY a => byte (g_value a)
  | FTwo a _ => mode = M_ZP_ABS -> byte (g_value a)
  | FThree a b _ => byte (g_value b) /\ (expr_IsConstant (g_expr a) = true -> expr_IsConstant (g_expr b) = true)
  | _ => True
  end.
Definition delivered (f : form arg) (m : amode) : Prop :=
  match operands f with
  | [] => True
  | [a] => carries S cur (g_term a) (am_expr m) (part f (g_value a))
  | [a; b] => carries S cur (g_term a) (am_expr m) (g_value a) /\ carries S cur (g_term b) (am_expr2 m) (g_value b)
  | a :: b :: d :: _ => carries S cur (g_term a) (am_expr m) (g_value a) /\ carries S cur (g_term b) (am_expr2 m) (g_value b) /\
                   carries S cur (g_term d) (am_expr3 m) (g_value d)
  end.
(** Operands that are passed on as they are. *)
Definition kept (f : form arg) (m : amode) : Prop :=
  match f with
  | FImm a => am_expr m = g_expr a
  | FAddr a | FAddrX a | FAddrY a | FInd a | FIndX a | FIndY a => near a = false -> am_expr m = g_expr a
  | FTwo a b => am_mode m = M_BIT_ZP -> am_expr m = g_expr a /\ am_expr2 m = g_expr b
  | _ => True
  end.
Lemma here_near : forall t e v, car t e v -> here_now e = expr_IsConstant e && (0 <=? v) && (v <=? 255).
Proof.
  intros t e v C. apply (carries_more _ 245) in C; [|lia]. destruct (carries_facts _ _ _ _ _ SO C) as (_ & V & _).
  unfold here_now. destruct (expr_IsConstant e); [rewrite V by reflexivity; reflexivity|reflexivity].
Qed.
Lemma not_parens : forall t e v, car t e v -> e_isParens e = false.
Proof. intros t e v C. apply (carries_more _ 245) in C; [|lia]. apply (carries_facts _ _ _ _ _ SO C). Qed.
Lemma value_of : forall t e v, car t e v -> expr_IsConstant e = true -> e_v e = v.
Proof. intros t e v C. apply (carries_more _ 245) in C; [|lia]. apply (carries_facts _ _ _ _ _ SO C). Qed.

Lemma near_of : forall a, near a = expr_IsConstant (g_expr a) && (0 <=? g_value a) && (g_value a <=? 255).
Proof. reflexivity. Qed.
Lemma near_byte : forall a, byte (g_value a) -> near a = false -> expr_IsConstant (g_expr a) = false.
Proof. intros a B N. unfold near in N. unfold byte in B. destruct (expr_IsConstant (g_expr a)); [|reflexivity]. lia. Qed.

Ltac wide C := apply (carries_more 240 245) in C; [exact C|lia].
(** A single operand: what remains is decided by [post_near], [post_far] and [post_as_is]. *)
Lemma single : forall ts mode mode1 a nr, near a = nr -> core ts st = Ok (Found (simple mode (g_expr a)) rest st) ->
  (mode =? 0) = false -> (mode =? M_BIT_ZP) || (mode =? M_BIT_ZP_ABS) = false -> has mode HANDLE_MODES = true ->
  car (g_term a) (g_expr a) (g_value a) ->
  (near a = true -> match page_mode allowed mode with Some m1 => m1 | None => mode end = mode1) ->
  (near a = false -> mode1 = mode /\ (has mode ZP_MODES = true -> byte (g_value a))) ->
  exists m, parse ts st = Ok (Some (m, rest), st) /\ am_mode m = mode1 /\ carries S cur (g_term a) (am_expr m) (g_value a) /\
    (nr = false -> am_expr m = g_expr a).
Proof.
  intros ts mode mode1 a nr <- C N B H Ca P1 P2. destruct (near a) eqn:Nr.
  - destruct (post_near ts mode (g_expr a) ENull ENull (g_term a) (g_value a) C N B H) as (e1 & C1 & E).
    { wide Ca. } { exact Nr. }
    rewrite E. eexists. split; [reflexivity|]. split; [cbn [am_mode]; exact (P1 eq_refl)|]. split; [exact C1|discriminate].
  - destruct (P2 eq_refl) as (-> & Z2). exists (simple mode (g_expr a)). split.
    + destruct (has mode ZP_MODES) eqn:Zm.
      * apply post_as_is; [exact C|exact N|]. cbn [simple am_expr am_forced am_mode].
        rewrite (near_byte a (Z2 eq_refl) Nr). apply orb_true_r.
      * apply (post_far ts mode (g_expr a) (g_value a) C N B Zm); [apply (value_of _ _ _ Ca)|exact Nr].
    + split; [reflexivity|]. split; [wide Ca|reflexivity].
Qed.
Lemma forced : forall ts mode a e1, core ts st = Ok (Found (AMode mode e1 ENull ENull true) rest st) -> (mode =? 0) = false ->
  carries S cur (g_term a) e1 (g_value a) ->
  exists m, parse ts st = Ok (Some (m, rest), st) /\ am_mode m = mode /\ carries S cur (g_term a) (am_expr m) (g_value a) /\ True.
Proof.
  intros ts mode a e1 C N Ca. eexists. split; [apply (post_as_is ts _ _ C); [exact N|reflexivity]|]. split; [reflexivity|]. split; [exact Ca|exact I].
Qed.

Ltac flags N := repeat match type of N with context [has allowed ?x] => destruct (has allowed x) eqn:? end; try discriminate N.
Ltac known := repeat match goal with H : has allowed ?x = _ |- context [has allowed ?x] => rewrite H end.
Ltac known_in C := repeat match goal with H : has allowed ?x = _ |- _ => rewrite H in C end.
Ltac in_address := match goal with H : has allowed ?x = true |- has allowed _ = true => exact (has_sub allowed x ADDRESS eq_refl H) end.

Lemma parsed : forall f : form arg, (forall a, In a (operands f) -> car (g_term a) (g_expr a) (g_value a)) ->
  let mode := mode_for allowed (is_near f) f in
  (mode =? 0) = false -> ranged mode f ->
  exists m, parse (tokens (fmap (fun a => [TExpr (g_expr a)]) f) ++ rest) st = Ok (Some (m, rest), st) /\
    am_mode m = mode /\ delivered f m /\ kept f m.
Proof.
  intros f Ca mode N Ra.
  assert (C1 : match operands f with a :: _ => car (g_term a) (g_expr a) (g_value a) | [] => True end).
  { destruct (operands f); [exact I|]. apply Ca. left. reflexivity. }
  assert (IMMEDIATE : kinds true f = [Imm] -> mode = (if has allowed M_IMM then M_IMM else 0) ->
            exists m, parse (tokens (fmap (fun a => [TExpr (g_expr a)]) f) ++ rest) st = Ok (Some (m, rest), st) /\
    am_mode m = mode /\ delivered f m /\ kept f m).
  { intros K M. assert (H : exists a, operands f = [a]) by (destruct f; try discriminate K; eexists; reflexivity).
    destruct H as (a & Of). rewrite Of in C1. destruct (imm_parts f a Of K C1) as (ts & e & -> & P & Cp & Ke).
    rewrite M in *. flags N. eexists. split; [apply post_as_is; [apply core_imm; [assumption|exact P]|reflexivity|reflexivity]|].
    split; [reflexivity|]. split; [unfold delivered; rewrite Of; exact Cp|].
    destruct f; try exact I; try discriminate K. cbn [operands] in Of. injection Of as ->. exact (Ke eq_refl). }
  unfold mode in *. clear mode.
  destruct f as [| |a|a|a|a|a|a|a|a|a|a|a|a|a|a|a b|a b d]; try (apply IMMEDIATE; reflexivity); clear IMMEDIATE;
    unfold is_near in *; cbn [operands] in *; cbn [fmap tokens app mode_for ranged delivered kept operands part] in *.
  - (* FNone *)
    destruct (has allowed M_NONE) eqn:H; [|destruct (has allowed M_A) eqn:HA; [|discriminate]].
    + eexists. split; [apply post_as_is; [apply core_none, H|reflexivity|reflexivity]|]. split; [reflexivity|split; exact I].
    + eexists. split; [apply post_as_is; [apply core_acc_none; assumption|reflexivity|reflexivity]|]. split; [reflexivity|split; exact I].
  - (* FAcc *)
    destruct (has allowed M_A) eqn:HA; [|discriminate].
    eexists. split; [apply post_as_is; [apply core_acc, HA|reflexivity|reflexivity]|]. split; [reflexivity|split; exact I].
  - (* FAddr *)
    pose proof (core_addr (g_expr a)) as C. rewrite (here_near _ _ _ C1), <- near_of in C. pose proof (not_parens _ _ _ C1) as P.
    destruct (near a) eqn:Nr; flags N; known_in C; specialize (C ltac:(in_address) P); rewrite ?andb_false_r, ?andb_true_r in C; cbn [andb] in C;
      (eapply single; [exact Nr|apply C; reflexivity| | | |exact C1|..]; [reflexivity..| |]); intro Nr1; try congruence;
      unfold page_mode; cbn; known; try reflexivity;
      split; try reflexivity; discriminate.
  - (* FAddrX *)
    pose proof (core_addrx (g_expr a)) as C. rewrite (here_near _ _ _ C1), <- near_of in C. pose proof (not_parens _ _ _ C1) as P.
    destruct (near a) eqn:Nr; flags N; known_in C; specialize (C ltac:(in_address) P); rewrite ?andb_false_r, ?andb_true_r in C; cbn [andb] in C;
      (eapply single; [exact Nr|apply C| | | |exact C1|..]; [reflexivity..| |]); intro Nr1; try congruence;
      unfold page_mode; cbn; known; try reflexivity;
      split; try reflexivity; discriminate.
  - (* FAddrY *)
    pose proof (core_addry (g_expr a)) as C. rewrite (here_near _ _ _ C1), <- near_of in C. pose proof (not_parens _ _ _ C1) as P.
    destruct (near a) eqn:Nr; flags N; known_in C; specialize (C ltac:(in_address) P); rewrite ?andb_false_r, ?andb_true_r in C; cbn [andb] in C;
      (eapply single; [exact Nr|apply C| | | |exact C1|..]; [reflexivity..| |]); intro Nr1; try congruence;
      unfold page_mode; cbn; known; try reflexivity;
      split; try reflexivity; discriminate.
  - (* FZp *)
    pose proof C1 as Cw. apply (carries_more 240 245) in Cw; [|lia].
    destruct (carries_checked S cur _ _ _ 0 255 st SO Cw) as (e1 & E & Ce); [num|num|exact Ra|].
    destruct (carries_facts _ _ _ _ _ SO Ce) as (_ & _ & P1 & _).
    pose proof (core_zp (g_expr a) e1 st) as C. cbv zeta in C.
    eapply forced; [apply C; [|apply (not_parens _ _ _ C1)|exact P1|exact E|]| |exact Ce]; flags N; try in_address; reflexivity.
  - (* FZpX *)
    pose proof C1 as Cw. apply (carries_more 240 245) in Cw; [|lia].
    destruct (carries_checked S cur _ _ _ 0 255 st SO Cw) as (e1 & E & Ce); [num|num|exact Ra|].
    eapply forced; [apply (core_zpx (g_expr a) e1 st); [|apply (not_parens _ _ _ C1)|exact E]| |exact Ce]; flags N; try in_address; reflexivity.
  - (* FZpY *)
    pose proof C1 as Cw. apply (carries_more 240 245) in Cw; [|lia].
    destruct (carries_checked S cur _ _ _ 0 255 st SO Cw) as (e1 & E & Ce); [num|num|exact Ra|].
    eapply forced; [apply (core_zpy (g_expr a) e1 st); [|apply (not_parens _ _ _ C1)|exact E]| |exact Ce]; flags N; try in_address; reflexivity.
  - (* FIndX *)
    pose proof (core_indx (g_expr a)) as C.
    destruct (Z.land allowed (M_IND_ZP_X + M_IND_ABS_X) =? M_IND_ZP_X) eqn:E1.
    { apply Z.eqb_eq in E1. rewrite E1 in *. specialize (C eq_refl).
      eapply single; [reflexivity|exact C|reflexivity|reflexivity|reflexivity|exact C1|intros _; reflexivity|intros _].
      split; [reflexivity|intros _; apply Ra; reflexivity]. }
    destruct (Z.land allowed (M_IND_ZP_X + M_IND_ABS_X) =? M_IND_ABS_X) eqn:E2; [|discriminate].
    apply Z.eqb_eq in E2. rewrite E2 in *. specialize (C eq_refl).
    eapply single; [reflexivity|exact C|reflexivity|reflexivity|reflexivity|exact C1|intros _; reflexivity|intros _].
    split; [reflexivity|discriminate].
  - (* FIndY *)
    flags N. eapply single; [reflexivity|apply core_indy; assumption|reflexivity|reflexivity|reflexivity|exact C1|intros _; reflexivity|intros _].
    split; [reflexivity|intros _; exact Ra].
  - (* FInd *)
    pose proof (core_ind (g_expr a)) as C.
    destruct (near a) eqn:Nr; flags N; (eapply single; [exact Nr|apply C; auto| | | |exact C1|..]; [reflexivity..| |]); intro Nr1; try congruence;
      unfold page_mode; cbn; known; try reflexivity;
      split; try reflexivity; discriminate.
  - (* FTwo *)
    assert (C2 : car (g_term b) (g_expr b) (g_value b)) by (apply Ca; right; left; reflexivity).
    pose proof (core_two (g_expr a) (g_expr b)) as C.
    destruct (Z.land allowed (M_BIT_ZP + M_ZP_ABS) =? M_BIT_ZP) eqn:E1.
    { apply Z.eqb_eq in E1. rewrite E1 in *.
      assert (Ad : has allowed ADDRESS = true).
      { apply (has_sub allowed (M_BIT_ZP + M_ZP_ABS)); [reflexivity|]. unfold has. rewrite E1. reflexivity. }
      specialize (C Ad (not_parens _ _ _ C1)).
      eexists. split; [apply (post_as_is _ _ _ C); [reflexivity|]|].
      - reflexivity.
      - split; [reflexivity|]. split; [split; [wide C1|wide C2]|]. intros _. split; reflexivity. }
    destruct (Z.land allowed (M_BIT_ZP + M_ZP_ABS) =? M_ZP_ABS) eqn:E2; [|discriminate].
    apply Z.eqb_eq in E2. rewrite E2 in *. specialize (Ra eq_refl).
    assert (Ad : has allowed ADDRESS = true).
    { apply (has_sub allowed (M_BIT_ZP + M_ZP_ABS)); [reflexivity|]. unfold has. rewrite E2. reflexivity. }
    specialize (C Ad (not_parens _ _ _ C1)). destruct (near a) eqn:Nr.
    + destruct (post_near _ _ _ _ _ (g_term a) (g_value a) C eq_refl eq_refl eq_refl) as (e1 & Ce & E).
      { wide C1. } { exact Nr. }
      eexists. split; [exact E|]. split; [reflexivity|]. split; [split; [exact Ce|wide C2]|]. discriminate.
    + eexists. split; [apply (post_as_is _ _ _ C); [reflexivity|]|].
      * cbn [am_forced am_mode am_expr]. rewrite (near_byte a Ra Nr). apply orb_true_r.
      * split; [reflexivity|]. split; [split; [wide C1|wide C2]|]. discriminate.
  - (* FThree *)
    assert (C2 : car (g_term b) (g_expr b) (g_value b)) by (apply Ca; right; left; reflexivity).
    assert (C3 : car (g_term d) (g_expr d) (g_value d)) by (apply Ca; right; right; left; reflexivity).
    destruct Ra as (Rb & Rc). flags N.
    pose proof (core_three (g_expr a) (g_expr b) (g_expr d) (has_sub allowed M_BIT_ZP_ABS ADDRESS eq_refl ltac:(assumption)) (not_parens _ _ _ C1)) as C.
    destruct (expr_IsConstant (g_expr a)) eqn:Ka.
    + specialize (Rc eq_refl). pose proof (value_of _ _ _ C2 Rc) as Vb.
      destruct (carriesN_bin 240 S cur OpAnd _ _ _ 0xFF (g_value b) ltac:(lia) SO C2) as (e1 & E & Ce);
        [left; reflexivity|num|cbn [op_meaning]; f_equal; change 0xFF with (Z.ones 8); rewrite Z.land_ones by lia; apply Z.mod_small; unfold byte in Rb; lia|].
      exists (AMode M_BIT_ZP_ABS (g_expr a) e1 (g_expr d) false). split; [|split; [|split; [split; [|split; [|wide C3]]|exact I]]].
      * unfold x65_ParseAddressingMode. rewrite C. cbn [bind am_forced am_mode am_expr am_expr2 am_expr3]. rewrite Ka.
        change (false || negb (has M_BIT_ZP_ABS HANDLE_MODES) || negb true) with false. cbv iota.
        change ((M_BIT_ZP_ABS =? M_BIT_ZP) || (M_BIT_ZP_ABS =? M_BIT_ZP_ABS)) with true. cbv iota zeta. rewrite Vb.
        change (o_bp_base o) with 0. replace ((0 <=? g_value b) && (g_value b <=? 0 + 255)) with true by (unfold byte in Rb; lia).
        change (page_mode allowed M_BIT_ZP_ABS) with (Some M_BIT_ZP_ABS). cbn [negb]. unfold expr_And. rewrite E. reflexivity.
      * reflexivity.
      * wide C1.
      * cbn [am_expr2]. wide Ce.
    + eexists. split; [apply (post_as_is _ _ _ C); [reflexivity|]|].
      * cbn [am_forced am_mode am_expr]. rewrite Ka. apply orb_true_r.
      * split; [reflexivity|]. split; [|exact I]. split; [wide C1|]. split; [wide C2|wide C3].
Qed.
End Parse.
