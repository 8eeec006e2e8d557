(** Proofs about the MIPS instruction parser. *)
From Coq Require Import ZArith List Bool Lia ZifyBool String Btauto.
From Verif Require Import Base BaseFacts Arith ExprSpec ExprModel ExprLayout ObjWriteModel OptModel SectModel SectSpec SectProofs
  InstrSpec InstrProofs MipsModel MipsSpec.
Import ListNotations.
Open Scope string_scope.
Open Scope Z_scope.

(** ** Words and their fields *)
Lemma lor_shift : forall a k b, 0 <= k -> 0 <= b < 2 ^ k -> Z.lor (Z.shiftl a k) b = a * 2 ^ k + b.
Proof. intros a k b K B. rewrite Z.shiftl_mul_pow2 by lia. apply lor_low; assumption. Qed.
Definition chain (op rs rt rd sa fn : Z) : Z :=
  Z.lor (Z.shiftl op 26) (Z.lor (Z.shiftl rs 21) (Z.lor (Z.shiftl rt 16) (Z.lor (Z.shiftl rd 11) (Z.lor (Z.shiftl sa 6) fn)))).
Lemma rtype_chain : forall op rs rt rd sa fn, reg rs -> reg rt -> reg rd -> reg sa -> 0 <= fn <= 63 ->
  rtype op rs rt rd sa fn = chain op rs rt rd sa fn.
Proof.
  unfold reg, chain, rtype. intros op rs rt rd sa fn RS RT RD SA FN.
  rewrite (lor_shift sa 6) by lia. rewrite (lor_shift rd 11) by lia. rewrite (lor_shift rt 16) by lia.
  rewrite (lor_shift rs 21) by lia. rewrite (lor_shift op 26) by lia. lia.
Qed.
Lemma code_fields : forall n, 0 <= n -> Z.shiftl n 6 = Z.lor (Z.shiftl (n / 32) 11) (Z.shiftl (n mod 32) 6).
Proof.
  intros n N. rewrite !Z.shiftl_mul_pow2 by lia.
  rewrite (lor_low (n / 32) (n mod 32 * 2 ^ 6) 11); [|lia|].
  - Z.div_mod_to_equations. lia.
  - pose proof (Z.mod_pos_bound n 32). lia.
Qed.
Lemma s32_imm : forall q n, s32 (q * 65536 + n mod 65536) = Z.lor (Z.land n 65535) (s32 (q * 65536)).
Proof.
  intros q n. replace (Z.land n 65535) with (n mod 65536) by (symmetry; apply (Z.land_ones n 16); lia).
  rewrite Z.lor_comm.
  assert (E : s32 (q * 65536) = ((q + 32768) mod 65536 - 32768) * 2 ^ 16).
  { unfold s32. Z.div_mod_to_equations. lia. }
  rewrite E, lor_low; [|lia|pose proof (Z.mod_pos_bound n 65536); lia]. rewrite <- E. unfold s32.
  Z.div_mod_to_equations. lia.
Qed.
Lemma land_small : forall n, 0 <= n <= 65535 -> Z.land n 65535 = n.
Proof. intros n N. change 65535 with (Z.ones 16). rewrite Z.land_ones by lia. apply Z.mod_small. lia. Qed.

(** ** Tokens *)
Lemma lex_register : forall r, reg r -> lex1 (register r) = TId (6136 + r).
Proof.
  unfold reg. intros r H.
  assert (E : exists n, r = Z.of_nat n /\ (n < 32)%nat) by (exists (Z.to_nat r); lia).
  destruct E as (n & -> & L). clear H.
  do 32 (destruct n as [|n]; [reflexivity|]). lia.
Qed.
Lemma exp_reg : forall r ts st k, reg r -> expectRegister (TId (6136 + r) :: ts) st k = k r ts.
Proof.
  unfold reg. intros r ts st k H. unfold expectRegister, getRegister, T_MIPS_REG_R0, T_MIPS_REG_R31.
  replace ((6136 <=? 6136 + r) && (6136 + r <=? 6167)) with true by lia.
  replace (6136 + r - 6136) with r by lia. reflexivity.
Qed.
Lemma get_reg : forall r ts, reg r -> getRegister (TId (6136 + r) :: ts) = Some (r, ts).
Proof.
  unfold reg. intros r ts H. unfold getRegister, T_MIPS_REG_R0, T_MIPS_REG_R31.
  replace ((6136 <=? 6136 + r) && (6136 + r <=? 6167)) with true by lia.
  replace (6136 + r - 6136) with r by lia. reflexivity.
Qed.

(** ** Output *)
Lemma little_add : forall n v k, little n (v + k * 256 ^ Z.of_nat n) = little n v.
Proof.
  induction n as [|n IH]; intros v k; [reflexivity|]. cbn [little].
  replace (v + k * 256 ^ Z.of_nat (S n)) with (v + k * 256 ^ Z.of_nat n * 256)
    by (rewrite Nat2Z.inj_succ, Z.pow_succ_r by lia; lia).
  rewrite Z_mod_plus_full, Z_div_plus_full by lia. f_equal. apply IH.
Qed.
Lemma number_s32 : forall e v, number e 4 (s32 v) = number e 4 v.
Proof.
  assert (L : forall v, little 4 (s32 v) = little 4 v).
  { intro v. assert (E : s32 v = v + - ((v + 2 ^ 31) / 2 ^ 32) * 256 ^ Z.of_nat 4).
    - change (256 ^ Z.of_nat 4) with (2 ^ 32). unfold s32. Z.div_mod_to_equations. lia.
    - rewrite E. apply little_add. }
  intros [] v; cbn [number]; rewrite L; reflexivity.
Qed.

Section Run.
Variable S : setting.
Variable st : xstate.
Variable k : nat.
Variable m : msect.
Hypothesis R : ready st k m 4.
Hypothesis SO : setting_ok S (here m).
Notation F := (s_F S).
Notation op := (operand S (here m)).

Lemma current_here : sect_Current st = here m.
Proof. destruct R as ((C & N & _) & _). unfold sect_Current, here. rewrite C, N. reflexivity. Qed.

Lemma fin_const : forall v w t ts, v = w ->
  exists st', yes ts (sect_OutputConst32 v st) = Ok (true, ts, st') /\ emits S k st st' [(4%nat, t, s32 w)].
Proof.
  intros v w t ts ->.
  assert (A : appends S (sect_OutputConst32 w) k st m [(4%nat, t, s32 w)]).
  { apply appends_const. rewrite number_s32. apply const32_does. destruct R as (_ & _ & -> & _). lia. }
  destruct (appends_emits S _ k st m [(4%nat, t, s32 w)] R A) as (st' & E & M). exists st'. unfold yes. rewrite E. split; [reflexivity|exact M].
Qed.
Lemma fin_expr : forall T t e v w ts, op T e v -> tdepth T <= 256 -> symbols_within T t ->
  (known (s_world S) t -> known (s_world S) T) -> v = w ->
  exists st', yes ts (sect_OutputExpr32 e st) = Ok (true, ts, st') /\ emits S k st st' [(4%nat, t, w)].
Proof.
  intros T t e v w ts Op De Wi Kn <-.
  destruct (out_expr S (here m) 4 T t e v k st m (or_intror (or_intror eq_refl)) SO Op De Wi Kn R) as (st' & E & M).
  exists st'. unfold yes. cbn [sect_OutputExpr] in E. rewrite E. split; [reflexivity|exact M].
Qed.
Lemma checked : forall T e v lo hi, op T e v -> is_s32 lo -> is_s32 hi -> lo <= v <= hi ->
  exists e1, range_checked e lo hi st = Ok (e1, st) /\ op (limited T lo hi) e1 v.
Proof. intros T e v lo hi Op L H B. apply operand_checked; assumption. Qed.
Lemma with_const : forall o T e a c b, op T e a -> is_s32 c -> op_meaning F o a c = Some b ->
  match o with OpAnd | OpOr | OpAsl | OpAsr => True | _ => False end ->
  exists e1, expr_Binary F o e (expr_Const c) = Ok e1 /\ op (Bin o T (Num c)) e1 b.
Proof.
  intros o T e a c b Op C M O.
  destruct (operand_bin S (here m) o T (Num c) e (expr_Const c) a c b SO Op (operand_num _ _ _ C) M) as (e1 & B & O1).
  { destruct o; tauto. }
  exists e1. split; [|exact O1]. destruct o; try tauto; exact B.
Qed.
Definition orT (T : term) (l : list Z) : term := Bin OpOr T (Num (s32 (bits l))).
Lemma or_word : forall T e a l, op T e a ->
  exists e1, expr_Or F e (word_Const l) = Ok e1 /\ op (orT T l) e1 (Z.lor a (s32 (bits l))).
Proof. intros T e a l Op. apply with_const with (a := a); [exact Op|apply s32_range|reflexivity|exact I]. Qed.
Definition s16T (T : term) : term := Bin OpAnd (limited T (-32768) 32767) (Num 65535).
Lemma parse_s16 : forall T e n ts, op T e n -> -32768 <= n <= 32767 ->
  exists e1, parse_ExpressionS16 F (TExpr e :: ts) st = Ok (Some e1, ts, st) /\ op (s16T T) e1 (Z.land n 65535).
Proof.
  intros T e n ts Op B.
  destruct (checked T e n (-32768) 32767 Op) as (e1 & C & O1); [unfold is_s32; lia|unfold is_s32; lia|exact B|].
  destruct (with_const OpAnd _ _ _ 65535 (Z.land n 65535) O1) as (e2 & A & O2); [unfold is_s32; lia|reflexivity|exact I|].
  exists e2. split; [|exact O2]. unfold parse_ExpressionS16, parse_Expression, expr_And. rewrite C. cbn [bind]. rewrite A. reflexivity.
Qed.
Definition u16T (T : term) : term := limited T 0 65535.
Lemma parse_u16 : forall T e n ts, op T e n -> 0 <= n <= 65535 ->
  exists e1, parse_ExpressionU16 (TExpr e :: ts) st = Ok (Some e1, ts, st) /\ op (u16T T) e1 (Z.land n 65535).
Proof.
  intros T e n ts Op B.
  destruct (checked T e n 0 65535 Op) as (e1 & C & O1); [unfold is_s32; lia|unfold is_s32; lia|exact B|].
  exists e1. split; [|rewrite land_small by exact B; exact O1]. unfold parse_ExpressionU16, parse_Expression.
  rewrite C. reflexivity.
Qed.
Definition shiftT (T : term) (hi : Z) (l : list Z) : term := orT (Bin OpAsl (limited T 0 hi) (Num 6)) l.
Lemma run_shifted : forall T t e n hi l w ts, op T e n -> tdepth T <= 240 -> symbols_within T t ->
  (known (s_world S) t -> known (s_world S) T) -> 0 <= n <= hi -> hi <= 1023 -> 0 <= bits l < 2 ^ 31 ->
  Z.lor (Z.shiftl n 6) (bits l) = w ->
  exists st', shifted F hi l e ts st = Ok (true, ts, st') /\ emits S k st st' [(4%nat, t, w)].
Proof.
  intros T t e n hi l w ts Op De Wi Kn B Hi Bl W. unfold shifted.
  destruct (checked T e n 0 hi Op) as (e1 & C & O1); [unfold is_s32; lia|unfold is_s32; lia|exact B|]. rewrite C. cbn [bind].
  assert (Sh : s32 (Z.shiftl n 6) = Z.shiftl n 6).
  { apply s32_id. rewrite Z.shiftl_mul_pow2 by lia. unfold is_s32. lia. }
  destruct (with_const OpAsl _ _ _ 6 (Z.shiftl n 6) O1) as (e2 & A & O2);
    [unfold is_s32; lia|cbn [op_meaning Z.leb Z.compare Pos.compare Pos.compare_cont andb]; rewrite Sh; reflexivity|exact I|].
  unfold expr_Asl. rewrite A. cbn [bind].
  destruct (or_word _ _ _ l O2) as (e3 & Or & O3). rewrite Or. cbn [bind].
  rewrite (s32_id (bits l)) in O3 by (unfold is_s32; lia).
  eapply fin_expr; [exact O3| | | |exact W].
  - unfold orT, limited. cbn [tdepth]. lia.
  - apply within_bin; [apply within_bin; [apply within_limited, Wi|]|]; apply within_num.
  - intro K. unfold orT, limited. cbn [known]. specialize (Kn K). tauto.
Qed.
Lemma run_imm : forall T' T t e a l q n w ts, op T' e a -> a = Z.land n 65535 -> (T' = s16T T \/ T' = u16T T) ->
  tdepth T <= 240 -> symbols_within T t -> (known (s_world S) t -> known (s_world S) T) ->
  bits l = q * 65536 -> w = q * 65536 + n mod 65536 ->
  exists st', (let! e1 := expr_Or F e (word_Const l) in yes ts (sect_OutputExpr32 e1 st)) = Ok (true, ts, st') /\
    emits S k st st' [(4%nat, t, s32 w)].
Proof.
  intros T' T t e a l q n w ts Op -> T1 De Wi Kn Q ->.
  destruct (or_word _ _ _ l Op) as (e1 & Or & O1). rewrite Or. cbn [bind].
  eapply fin_expr; [exact O1| | | |].
  - destruct T1 as [-> | ->]; unfold orT, s16T, u16T, limited; cbn [tdepth]; lia.
  - destruct T1 as [-> | ->]; unfold orT; (apply within_bin; [|apply within_num]).
    + apply within_bin; [apply within_limited, Wi|apply within_num].
    + apply within_limited, Wi.
  - intro K. specialize (Kn K). destruct T1 as [-> | ->]; unfold orT, s16T, u16T, limited; cbn [known]; tauto.
  - rewrite Q. symmetry. apply s32_imm.
Qed.
Definition jumpT (T : term) (l : list Z) : term := orT (Bin OpAnd (Bin OpAsr T (Num 2)) (Num 0x03FFFFFF)) l.
Lemma run_jump : forall T t e n c w ts, op T e n -> tdepth T <= 240 -> symbols_within T t ->
  (known (s_world S) t -> known (s_world S) T) -> 0 <= c <= 16 -> w = c * 2 ^ 26 + n / 4 mod 2 ^ 26 ->
  exists st', handleJumpAbs F (c * 2 ^ 26) (TExpr e :: ts) st = Ok (true, ts, st') /\ emits S k st st' [(4%nat, t, w)].
Proof.
  intros T t e n c w ts Op De Wi Kn C W. unfold handleJumpAbs, parse_Expression.
  destruct (with_const OpAsr _ _ _ 2 (Z.shiftr n 2) Op) as (e1 & A & O1); [unfold is_s32; lia|reflexivity|exact I|].
  unfold expr_Asr. rewrite A. cbn [bind].
  destruct (with_const OpAnd _ _ _ 0x03FFFFFF (Z.land (Z.shiftr n 2) 0x03FFFFFF) O1) as (e2 & A2 & O2);
    [unfold is_s32; lia|reflexivity|exact I|].
  unfold expr_And. rewrite A2. cbn [bind].
  destruct (or_word _ _ _ [c * 2 ^ 26] O2) as (e3 & Or & O3). rewrite Or. cbn [bind].
  eapply fin_expr; [exact O3| | | |].
  - unfold orT. cbn [tdepth]. lia.
  - apply within_bin; [apply within_bin; [apply within_bin; [exact Wi|]|]|]; apply within_num.
  - intro K. unfold orT. cbn [known]. specialize (Kn K). tauto.
  - unfold bits. cbn [fold_left]. rewrite Z.lor_0_l.
    rewrite s32_id by (unfold is_s32; lia). rewrite Z.shiftr_div_pow2 by lia. change (2 ^ 2) with 4.
    change 0x03FFFFFF with (Z.ones 26). rewrite Z.land_ones by lia. rewrite Z.lor_comm, lor_low; [lia|lia|].
    apply Z.mod_pos_bound. lia.
Qed.
Definition branchT (T : term) : term := Bin OpAnd (limited (Bin OpAsr (PcRel (-4) T) (Num 2)) (-32768) 32767) (Num 65535).
Lemma run_branch : forall T e n oc rs rt q w ts, op T e n -> tdepth T <= 240 -> ~ paren_head T ->
  is_s32 (n - 4) -> is_s32 (-4 - e_pc (s_env S)) -> reaches (e_pc (s_env S)) n ->
  bits [oc; field rs 21; field rt 16] = q * 65536 -> w = q * 65536 + offset (e_pc (s_env S)) n mod 65536 ->
  exists st', branchTo F oc rs rt (TExpr e :: ts) st = Ok (true, ts, st') /\ emits S k st st' [(4%nat, PcRel (-4) T, s32 w)].
Proof.
  intros T e n oc rs rt q w ts Op De Pa N4 P4 (Al & Re) Q ->. unfold branchTo, parse_Expression. rewrite current_here.
  set (pc := e_pc (s_env S)) in *.
  assert (Off : n - 4 - pc = 4 * offset pc n) by (unfold offset in *; Z.div_mod_to_equations; lia).
  destruct (operand_pcrel S (here m) (-4) T e n (n - 4 - pc) SO Op) as (e1 & A & O1).
  { unfold is_s32. lia. }
  { exact Pa. }
  { unfold pcrel_meaning, inr. fold pc.
    replace (n + -4) with (n - 4) by lia.
    replace ((- 2 ^ 31 <=? n - 4) && (n - 4 <? 2 ^ 31)) with true by (unfold is_s32 in *; lia).
    replace ((- 2 ^ 31 <=? -4 - pc) && (-4 - pc <? 2 ^ 31)) with true by (unfold is_s32 in *; lia).
    replace ((- 2 ^ 31 <=? n - 4 - pc) && (n - 4 - pc <? 2 ^ 31)) with true by (unfold is_s32 in *; lia).
    reflexivity. }
  rewrite A. cbn [bind].
  destruct (with_const OpAsr _ _ _ 2 (offset pc n) O1) as (e2 & A2 & O2).
  { unfold is_s32; lia. }
  { cbn [op_meaning Z.leb Z.compare Pos.compare Pos.compare_cont andb]. f_equal.
    rewrite Z.shiftr_div_pow2 by lia. change (2 ^ 2) with 4. unfold offset. f_equal. lia. }
  { exact I. }
  unfold expr_Asr. rewrite A2. cbn [bind].
  destruct (checked _ e2 _ (-32768) 32767 O2) as (e3 & C & O3); [unfold is_s32; lia|unfold is_s32; lia|exact Re|].
  rewrite C. cbn [bind].
  destruct (with_const OpAnd _ _ _ 65535 (Z.land (offset pc n) 65535) O3) as (e4 & A4 & O4);
    [unfold is_s32; lia|reflexivity|exact I|].
  unfold expr_And. rewrite A4. cbn [bind].
  destruct (or_word _ _ _ [oc; field rs 21; field rt 16] O4) as (e5 & A5 & O5). rewrite A5. cbn [bind].
  eapply fin_expr; [exact O5| | | |].
  - unfold orT, limited. cbn [tdepth]. lia.
  - apply within_bin; [apply within_bin; [apply within_limited, within_bin; [apply within_refl|]|]|]; apply within_num.
  - intros [].
  - rewrite Q. symmetry. apply s32_imm.
Qed.
End Run.

(** ** Whole instructions *)
Ltac const_chain x c :=
  let op := eval vm_compute in (c / 2 ^ 26) in
  let rs := eval vm_compute in (c / 2 ^ 21 mod 32) in
  let rt := eval vm_compute in (c / 2 ^ 16 mod 32) in
  let rd := eval vm_compute in (c / 2 ^ 11 mod 32) in
  let sa := eval vm_compute in (c / 2 ^ 6 mod 32) in
  let fn := eval vm_compute in (c mod 64) in
  change (Z.lor x c) with (Z.lor x (chain op rs rt rd sa fn)).
Ltac field_bits :=
  unfold chain, field;
  apply Z.bits_inj'; intros ? _; cbn [bits fold_left];
  rewrite ?Z.lor_spec;
  repeat match goal with |- context [Z.testbit (Z.shiftl 0 ?n) ?x] => change (Z.shiftl 0 n) with 0 end;
  rewrite ?Z.bits_0; btauto.
Ltac rtype_bits :=
  unfold bits; cbn [fold_left];
  match goal with |- context [Z.lor ?x (Zpos ?p)] => const_chain x (Zpos p) | _ => idtac end;
  rewrite rtype_chain by (unfold reg in *; Z.div_mod_to_equations; lia);
  field_bits.
Example rtype_bits_works : forall rs rt rd, reg rs -> reg rt -> reg rd ->
  bits [0x70000002; field rs 21; field rt 16; field rd 11] = rtype 28 rs rt rd 0 2.
Proof. intros. rtype_bits. Qed.
Ltac at_h first table d h :=
  match goal with |- context [mips_ParseIntegerInstruction ?F (TId ?id :: ?r) ?st] =>
    let oc := eval vm_compute in (nth (Z.to_nat (id - first)) table d) in
    change (mips_ParseIntegerInstruction F (TId id :: r) st) with (h oc r st)
  end.
Ltac words :=
  cbn [mmap text lex map app lex1];
  rewrite ?lex_register by assumption;
  repeat match goal with
  | |- context [assoc ?s g_tokens] =>
      let v := eval vm_compute in (assoc s g_tokens) in change (assoc s g_tokens) with v
  end.
Ltac regs := repeat (rewrite exp_reg by assumption; cbn [expectChar is_char]).
Ltac names L := repeat (destruct L as [L|L]; [subst|]); try (destruct L; fail).
Ltac enc := unfold encoding; cbn [mmap]; cbn [row reg3 shiftv imm br2 br1 br0 shift mem rsrt rdrt trap trapimm count plain_table intr
  movefrom moveto jump String.eqb Ascii.eqb Bool.eqb fst snd].

Definition supported {A : Type} (i : minstr A) : Prop :=
  match i with ShiftV _ _ _ _ => False | Br1 s _ _ => s <> "BLTZL" | _ => True end.
Lemma high_bits : forall op rs rt, reg rs -> reg rt -> (op * 1024 + rs * 32 + rt) * 65536 = rtype op rs rt 0 0 0.
Proof. intros. unfold rtype. lia. Qed.
Lemma itype_high : forall op rs rt n, itype op rs rt n = (op * 1024 + rs * 32 + rt) * 65536 + n mod 65536.
Proof. intros. unfold itype. change (2 ^ 16) with 65536. lia. Qed.


Ltac prep V A :=
  cbn [valid mmap] in V;
  try (destruct (A _ eq_refl) as (Op & De & Br); cbn [is_branch] in Br; cbn [mmap g_expr g_value] in *);
  repeat match goal with H : _ /\ _ |- _ => destruct H end;
  try match goal with L : listed _ _ |- _ =>
    unfold listed in L; cbn [map fst reg3 imm br2 br1 br0 shift mem rsrt rdrt trap trapimm count plain_table intr movefrom moveto jump] in L;
    names L end;
  words; unfold term_of; cbn [operand_of is_branch].
Ltac rbits := first [reflexivity | rtype_bits].
Ltac ibits := rewrite high_bits by (unfold reg in *; lia); rtype_bits.
Ltac range := unfold within in *; cbn [row imm trapimm String.eqb Ascii.eqb Bool.eqb fst snd] in *; lia.

Theorem encoded : forall S i st k m rest,
  ready st k m 4 -> setting_ok S (here m) -> args_known S (here m) i -> valid (e_pc (s_env S)) (mmap g_value i) ->
  supported i -> follows i rest ->
  exists st', mips_ParseIntegerInstruction (s_F S) (lex (text (mmap g_expr i)) ++ rest) st = Ok (true, rest, st') /\
    emits S k st st' [(4%nat, term_of i, s32 (encoding (e_pc (s_env S)) (mmap g_value i)))].
Proof.
  intros S i st k m rest R SO A V Su Fo.
  assert (Z0 : reg 0) by (unfold reg; lia).
  destruct i; cbn [supported] in Su; cbn [follows] in Fo.
  - (* three registers *)
    prep V A; at_h 6000 s_InstructionsRRR 0 handleRRR; unfold handleRRR; regs; (eapply fin_const; [exact R|]); enc.
    all: rbits.
  - contradiction.
  - (* immediate *)
    prep V A; at_h 6017 g_RRIInstructions (0, false) (handleRRI (s_F S)); unfold handleRRI; regs;
      cbn [parse_Expression16 snd fst].
    all: match goal with
    | |- context [parse_ExpressionS16] =>
        destruct (parse_s16 S st m SO _ _ _ rest Op) as (e1 & E1 & O1); [range|]; rewrite E1; cbn [bind]
    | |- context [parse_ExpressionU16] =>
        destruct (parse_u16 S st m SO _ _ _ rest Op) as (e1 & E1 & O1); [range|]; rewrite E1; cbn [bind]
    end.
    all: eapply run_imm; [exact R|exact SO|exact O1|reflexivity|first [left; reflexivity|right; reflexivity]|exact De|
      apply within_refl|trivial| |enc; apply itype_high].
    all: ibits.
  - (* branch, two registers *)
    prep V A; at_h 6024 g_branchInstructions (0, 0) (handleBranch (s_F S)); unfold handleBranch;
      cbn [branchRegister fst snd Z.leb Z.compare Pos.compare Pos.compare_cont]; unfold branchRegister; regs.
    all: destruct (Br eq_refl) as (B1 & B2 & B3).
    all: eapply run_branch; [exact R|exact SO|exact Op|exact De|exact B1|exact B2|exact B3|assumption| |enc; apply itype_high].
    all: ibits.
  - (* branch, one register *)
    prep V A; try congruence;
      at_h 6024 g_branchInstructions (0, 0) (handleBranch (s_F S)); unfold handleBranch;
      cbn [branchRegister fst snd Z.leb Z.compare Pos.compare Pos.compare_cont]; unfold branchRegister; regs.
    all: destruct (Br eq_refl) as (B1 & B2 & B3).
    all: eapply run_branch; [exact R|exact SO|exact Op|exact De|exact B1|exact B2|exact B3|assumption| |enc; apply itype_high].
    all: ibits.
  - (* branch, no register *)
    prep V A;
      at_h 6024 g_branchInstructions (0, 0) (handleBranch (s_F S)); unfold handleBranch;
      cbn [branchRegister fst snd Z.leb Z.compare Pos.compare Pos.compare_cont]; unfold branchRegister; regs.
    all: destruct (Br eq_refl) as (B1 & B2 & B3).
    all: eapply run_branch; [exact R|exact SO|exact Op|exact De|exact B1|exact B2|exact B3|assumption| |enc; apply itype_high].
    all: ibits.
  - (* shift *)
    prep V A; at_h 6042 g_shiftInstructions 0 (handleShift (s_F S)); unfold handleShift; regs; cbn [parse_Expression].
    all: rewrite s32_id by (enc; unfold is_s32, rtype, reg in *; lia).
    all: eapply run_shifted; [exact R|exact SO|exact Op|exact De|apply within_refl|trivial|lia|lia| |].
    all: try (match goal with |- 0 <= bits [?c; _; _] < _ =>
      let rs := eval vm_compute in (c / 2 ^ 21 mod 32) in let fn := eval vm_compute in (c mod 64) in
      replace (bits [c; field rt 16; field rd 11]) with (rtype 0 rs rt rd 0 fn) by (symmetry; rtype_bits) end;
      unfold rtype, reg in *; lia).
    all: enc; rtype_bits.
  - (* memory *)
    prep V A; at_h 6046 g_loadStoreInstructions 0 (handleLoadStore (s_F S)); unfold handleLoadStore; regs.
    all: destruct (parse_s16 S st m SO _ _ _ (TLeft :: TId (6136 + base) :: TRight :: rest) Op) as (e1 & E1 & O1); [range|].
    all: rewrite E1; cbn [bind]; cbn [expectChar is_char]; regs.
    all: eapply run_imm; [exact R|exact SO|exact O1|reflexivity|first [left; reflexivity|right; reflexivity]|exact De|
      apply within_refl|trivial| |enc; apply itype_high].
    all: ibits.
  - prep V A; at_h 6064 g_RSRTInstructions 0 handleRSRT; unfold handleRSRT, twoRegisters; regs; (eapply fin_const; [exact R|]); enc; rbits.
  - prep V A; at_h 6072 g_RDRTInstructions 0 handleRDRT; unfold handleRDRT, twoRegisters; regs; (eapply fin_const; [exact R|]); enc; rbits.
  - prep V A; at_h 6077 g_RSRTCodeInstructions 0 (handleRSRTCode (s_F S)); unfold handleRSRTCode; regs.
    all: destruct rest as [|[]]; try contradiction; (eapply fin_const; [exact R|]); enc; rbits.
  - (* trap with a code *)
    prep V A; at_h 6077 g_RSRTCodeInstructions 0 (handleRSRTCode (s_F S)); unfold handleRSRTCode; regs; cbn [parse_Expression].
    all: rewrite s32_id by (enc; unfold is_s32, rtype, reg in *; Z.div_mod_to_equations; lia).
    all: eapply run_shifted; [exact R|exact SO|exact Op|exact De|apply within_refl|trivial|lia|lia| |].
    all: try (match goal with |- 0 <= bits [?c; _; _] < _ =>
      replace (bits [c; field rs 21; field rt 16]) with (rtype 0 rs rt 0 0 c) by (symmetry; rtype_bits) end;
      unfold rtype, reg in *; lia).
    all: enc; rewrite code_fields by lia; rtype_bits.
  - (* trap with an immediate *)
    prep V A; at_h 6083 g_RIInstructions (0, false) (handleRI (s_F S)); unfold handleRI; regs;
      cbn [parse_Expression16 snd fst].
    all: match goal with
    | |- context [parse_ExpressionS16] =>
        destruct (parse_s16 S st m SO _ _ _ rest Op) as (e1 & E1 & O1); [range|]; rewrite E1; cbn [bind]
    | |- context [parse_ExpressionU16] =>
        destruct (parse_u16 S st m SO _ _ _ rest Op) as (e1 & E1 & O1); [range|]; rewrite E1; cbn [bind]
    end.
    all: eapply run_imm; [exact R|exact SO|exact O1|reflexivity|first [left; reflexivity|right; reflexivity]|exact De|
      apply within_refl|trivial| |enc; apply itype_high].
    all: ibits.
  - prep V A; at_h 6089 g_RDRSRTCopyInstructions 0 handleRDRSRTCopy; unfold handleRDRSRTCopy, twoRegisters; regs; (eapply fin_const; [exact R|]); enc; rbits.
  - prep V A; at_h 6091 g_noParameterInstructions 0 handleNoParameter; unfold handleNoParameter; (eapply fin_const; [exact R|]); enc; rbits.
  - prep V A; at_h 6100 g_RTInstructions 0 handleRT; unfold handleRT.
    all: assert (G : getRegister rest = None) by
      (destruct rest as [|[]]; try reflexivity; unfold getRegister, T_MIPS_REG_R0, T_MIPS_REG_R31;
       match goal with |- (if ?c then _ else _) = _ => replace c with false by lia end; reflexivity).
    all: rewrite G; (eapply fin_const; [exact R|]); enc; rbits.
  - prep V A; at_h 6100 g_RTInstructions 0 handleRT; unfold handleRT; rewrite get_reg by assumption; (eapply fin_const; [exact R|]); enc; rbits.
  - prep V A; at_h 6102 g_RDInstructions 0 (fun o => oneRegister o 11); unfold oneRegister; regs; (eapply fin_const; [exact R|]); enc; rbits.
  - prep V A; at_h 6104 g_RSInstructions 0 (fun o => oneRegister o 21); unfold oneRegister; regs; (eapply fin_const; [exact R|]); enc; rbits.
  - prep V A; at_h 6108 g_jumpAbsInstructions 0 (handleJumpAbs (s_F S)).
    all: rewrite s32_id by (enc; unfold is_s32, jtype; match goal with |- context [?a mod 2 ^ 26] => pose proof (Z.mod_pos_bound a (2 ^ 26)) end; lia).
    + apply (run_jump S st k m R SO (g_term n) (g_term n) (g_expr n) (g_value n) 2); try assumption; [apply within_refl|trivial|lia|reflexivity].
    + apply (run_jump S st k m R SO (g_term n) (g_term n) (g_expr n) (g_value n) 3); try assumption; [apply within_refl|trivial|lia|reflexivity].
  - prep V A.
    match goal with |- context [mips_ParseIntegerInstruction ?F (TId ?id :: ?r) ?st] => 
      change (mips_ParseIntegerInstruction F (TId id :: r) st) with (handleLUI F r st) end.
    unfold handleLUI; regs.
    destruct (parse_u16 S st m SO _ _ _ rest Op) as (e1 & E1 & O1); [range|]; rewrite E1; cbn [bind].
    edestruct run_imm as (st' & E & M); [exact R|exact SO|exact O1|reflexivity|right; reflexivity|exact De|apply within_refl|trivial| |enc; apply itype_high|].
    2: { exists st'. rewrite E. split; [reflexivity|exact M]. }
    ibits.
Qed.
