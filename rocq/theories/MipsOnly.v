(** Proofs about the MIPS instruction parser: what is accepted, and that encodings differ. *)
From Coq Require Import ZArith List Bool Lia ZifyBool String.
From Verif Require Import Base BaseFacts Arith ExprSpec ExprModel ExprLayout ObjWriteModel OptModel SectModel SectSpec SectProofs
  InstrSpec InstrProofs MipsModel MipsSpec MipsProofs.
Import ListNotations.
Open Scope string_scope.
Open Scope Z_scope.

(** ** Only instructions of the manual are accepted *)
Definition quiet (st st' : xstate) : Prop := x_errors st' = x_errors st.
Lemma loud : forall c st, ~ quiet st (err_Error c st).
Proof. intros c st H. unfold quiet in H. apply (f_equal (@List.length Z)) in H. cbn in H. rewrite ?app_length in H. cbn in H. lia. Qed.

Section Accept.
Variable F : fmath.
Variables st st' : xstate.
Variable rest : list token.
Hypothesis Q : quiet st st'.
Hypothesis D : st' <> st.
Notation took o := (o = Ok (true, rest, st')).

Lemma took_reg : forall s ts k, took (expectRegister ts s k) -> exists r ts', reg r /\ ts = TId (6136 + r) :: ts' /\ took (k r ts').
Proof.
  intros s ts k H. unfold expectRegister, getRegister, T_MIPS_REG_R0, T_MIPS_REG_R31 in H.
  destruct ts as [|[id| | | | |] r]; try discriminate.
  destruct ((6136 <=? id) && (id <=? 6167)) eqn:E; [|discriminate].
  exists (id - 6136), r. split; [unfold reg; lia|]. split; [do 2 f_equal; lia|exact H].
Qed.
Lemma took_comma : forall s ts k, took (expectChar TComma ts s k) -> exists ts', ts = TComma :: ts' /\ took (k ts').
Proof. intros s ts k H. destruct ts as [|[] r]; try discriminate. exists r. split; [reflexivity|exact H]. Qed.
Lemma took_left : forall s ts k, took (expectChar TLeft ts s k) -> exists ts', ts = TLeft :: ts' /\ took (k ts').
Proof. intros s ts k H. destruct ts as [|[] r]; try discriminate. exists r. split; [reflexivity|exact H]. Qed.
Lemma took_right : forall s ts k, took (expectChar TRight ts s k) -> exists ts', ts = TRight :: ts' /\ took (k ts').
Proof. intros s ts k H. destruct ts as [|[] r]; try discriminate. exists r. split; [reflexivity|exact H]. Qed.
Lemma took_yes : forall ts r, took (yes ts r) -> ts = rest.
Proof. intros ts r H. unfold yes in H. destruct r; try discriminate. cbn in H. inversion H. reflexivity. Qed.
Lemma took_or : forall e c ts s, took (let! e1 := expr_Or F e c in yes ts (sect_OutputExpr32 e1 s)) -> ts = rest.
Proof. intros e c ts s H. destruct (expr_Or F e c); try discriminate. cbn [bind] in H. eapply took_yes, H. Qed.
(** A handler that takes an operand, or reports, or leaves things as they are. *)
Lemma took_s16 : forall ts o ts1 st1, parse_ExpressionS16 F ts st = Ok (o, ts1, st1) ->
  (o = None /\ st1 = st) \/ exists e, ts = TExpr e :: ts1.
Proof.
  intros ts o ts1 st1 H. unfold parse_ExpressionS16, parse_Expression in H.
  destruct ts as [|[] r]; try (inversion H; subst; auto; fail).
  destruct (range_checked e (-32768) 32767 st) as [[e1 s1]| |]; try discriminate. cbn [bind] in H.
  destruct (expr_And F _ _); try discriminate. cbn [bind] in H. inversion H; subst. right. eexists. reflexivity.
Qed.
Lemma took_u16 : forall ts o ts1 st1, parse_ExpressionU16 ts st = Ok (o, ts1, st1) ->
  (o = None /\ st1 = st) \/ exists e, ts = TExpr e :: ts1.
Proof.
  intros ts o ts1 st1 H. unfold parse_ExpressionU16, parse_Expression in H.
  destruct ts as [|[] r]; try (inversion H; subst; auto; fail).
  destruct (range_checked e 0 65535 st) as [[e1 s1]| |]; try discriminate. cbn [bind] in H.
  inversion H; subst. right. eexists. reflexivity.
Qed.
Lemma took_16 : forall b ts o ts1 st1, parse_Expression16 F b ts st = Ok (o, ts1, st1) ->
  (o = None /\ st1 = st) \/ exists e, ts = TExpr e :: ts1.
Proof. intros [] ts o ts1 st1 H; [eapply took_s16, H|eapply took_u16, H]. Qed.
Lemma took_shifted : forall hi l e ts, took (shifted F hi l e ts st) -> ts = rest.
Proof.
  intros hi l e ts H. unfold shifted in H.
  destruct (range_checked e 0 hi st) as [[e1 s1]| |]; try discriminate. cbn [bind] in H.
  destruct (expr_Asl F _ _); try discriminate. cbn [bind] in H. eapply took_or, H.
Qed.

Ltac next H :=
  match type of H with
  | took (expectRegister _ _ _) => apply took_reg in H; destruct H as (? & ? & ? & -> & H)
  | took (expectChar TComma _ _ _) => apply took_comma in H; destruct H as (? & -> & H)
  | took (expectChar TLeft _ _ _) => apply took_left in H; destruct H as (? & -> & H)
  | took (expectChar TRight _ _ _) => apply took_right in H; destruct H as (? & -> & H)
  | took (yes _ _) => apply took_yes in H; subst
  end.
Notation R r := (TId (6136 + r)).

Lemma took_RRR : forall oc ts, took (handleRRR oc ts st) -> exists a b c, reg a /\ reg b /\ reg c /\
  ts = R a :: TComma :: R b :: TComma :: R c :: rest.
Proof. intros oc ts H. unfold handleRRR in H. repeat next H. eexists _, _, _. eauto. Qed.
Lemma took_RRI : forall oc ts, took (handleRRI F oc ts st) -> exists a b e, reg a /\ reg b /\
  ts = R a :: TComma :: R b :: TComma :: TExpr e :: rest.
Proof.
  intros oc ts H. unfold handleRRI in H. repeat next H.
  destruct (parse_Expression16 F (snd oc) _ st) as [[[o ts1] st1]| |] eqn:E; try discriminate. cbn [bind] in H.
  apply took_16 in E. destruct E as [(-> & ->)|(e & ->)].
  - inversion H; subst. contradiction.
  - exists x, x0, e. split; [assumption|]. split; [assumption|]. do 5 f_equal. destruct o; [eapply took_or, H|inversion H; reflexivity].
Qed.
Lemma took_to : forall oc rs rt ts, took (branchTo F oc rs rt ts st) -> exists e, ts = TExpr e :: rest.
Proof.
  intros oc rs rt ts H. unfold branchTo, parse_Expression in H.
  destruct ts as [|[] r]; try discriminate. exists e. f_equal.
  destruct (expr_PcRelative F _ e (-4)); try discriminate. cbn [bind] in H.
  destruct (expr_Asr F _ _); try discriminate. cbn [bind] in H.
  destruct (range_checked _ (-32768) 32767 st) as [[e1 s1]| |]; try discriminate. cbn [bind] in H.
  destruct (expr_And F _ _); try discriminate. cbn [bind] in H. eapply took_or, H.
Qed.
Lemma took_Branch2 : forall oc ts, took (handleBranch F (2, oc) ts st) -> exists a b e, reg a /\ reg b /\
  ts = R a :: TComma :: R b :: TComma :: TExpr e :: rest.
Proof.
  intros oc ts H. unfold handleBranch, branchRegister in H. cbn [fst snd Z.leb Z.compare Pos.compare Pos.compare_cont] in H.
  repeat next H. apply took_to in H. destruct H as (e & ->). eexists _, _, _. eauto.
Qed.
Lemma took_Branch1 : forall oc ts, took (handleBranch F (1, oc) ts st) -> exists a e, reg a /\
  ts = R a :: TComma :: TExpr e :: rest.
Proof.
  intros oc ts H. unfold handleBranch, branchRegister in H. cbn [fst snd Z.leb Z.compare Pos.compare Pos.compare_cont] in H.
  repeat next H. apply took_to in H. destruct H as (e & ->). eexists _, _. eauto.
Qed.
Lemma took_Branch0 : forall oc ts, took (handleBranch F (0, oc) ts st) -> exists e, ts = TExpr e :: rest.
Proof.
  intros oc ts H. unfold handleBranch, branchRegister in H. cbn [fst snd Z.leb Z.compare Pos.compare Pos.compare_cont] in H.
  apply took_to in H. exact H.
Qed.
Lemma took_Shift : forall oc ts, took (handleShift F oc ts st) -> exists a b e, reg a /\ reg b /\
  ts = R a :: TComma :: R b :: TComma :: TExpr e :: rest.
Proof.
  intros oc ts H. unfold handleShift in H. repeat next H. unfold parse_Expression in H.
  match type of H with context [match ?l with _ => _ end] => destruct l as [|[] r]; try discriminate end.
  apply took_shifted in H. subst. eexists _, _, _. eauto.
Qed.
Lemma took_Mem : forall oc ts, took (handleLoadStore F oc ts st) -> exists a e b, reg a /\ reg b /\
  ts = R a :: TComma :: TExpr e :: TLeft :: R b :: TRight :: rest.
Proof.
  intros oc ts H. unfold handleLoadStore in H. repeat next H.
  destruct (parse_ExpressionS16 F _ st) as [[[o ts1] st1]| |] eqn:E; try discriminate. cbn [bind] in H.
  apply took_s16 in E. destruct o as [e1|]; [|discriminate].
  destruct E as [(E & _)|(e & ->)]; [discriminate|]. repeat next H. apply took_or in H. subst. eexists _, _, _. eauto.
Qed.
Lemma took_two : forall w ts, took (twoRegisters ts st w) -> exists a b, reg a /\ reg b /\ ts = R a :: TComma :: R b :: rest.
Proof. intros w ts H. unfold twoRegisters in H. repeat next H. eexists _, _. eauto. Qed.
Lemma took_Code : forall oc ts, took (handleRSRTCode F oc ts st) -> exists a b, reg a /\ reg b /\
  (ts = R a :: TComma :: R b :: rest \/ exists e, ts = R a :: TComma :: R b :: TComma :: TExpr e :: rest).
Proof.
  intros oc ts H. unfold handleRSRTCode in H. repeat next H.
  match type of H with context [match ?l with [] => _ | _ => _ end] => destruct l as [|t r] end;
    [next H; eexists _, _; eauto|].
  destruct t; try (apply took_yes in H; subst; eexists _, _; eauto; fail).
  unfold parse_Expression in H. destruct r as [|[] r]; try (inversion H; subst; destruct (loud _ _ Q); fail).
  apply took_shifted in H. subst. eexists _, _. eauto 6.
Qed.
Lemma took_RI : forall oc ts, took (handleRI F oc ts st) -> exists a e, reg a /\ ts = R a :: TComma :: TExpr e :: rest.
Proof.
  intros oc ts H. unfold handleRI in H. repeat next H.
  destruct (parse_Expression16 F (snd oc) _ st) as [[[o ts1] st1]| |] eqn:E; try discriminate. cbn [bind] in H.
  destruct o as [e1|]; [|discriminate]. apply took_16 in E. destruct E as [(E & _)|(e & ->)]; [discriminate|].
  apply took_or in H. subst. eexists _, _. eauto.
Qed.
Lemma took_RT : forall oc ts, took (handleRT oc ts st) -> ts = rest \/ exists a, reg a /\ ts = R a :: rest.
Proof.
  intros oc ts H. unfold handleRT in H. destruct (getRegister ts) as [[rt ts1]|] eqn:G.
  - unfold getRegister, T_MIPS_REG_R0, T_MIPS_REG_R31 in G. destruct ts as [|[id| | | | |] r]; try discriminate.
    destruct ((6136 <=? id) && (id <=? 6167)) eqn:E; [|discriminate]. inversion G; subst. next H. right.
    exists (id - 6136). split; [unfold reg; lia|]. do 2 f_equal. lia.
  - next H. auto.
Qed.
Lemma took_one : forall oc n ts, took (oneRegister oc n ts st) -> exists a, reg a /\ ts = R a :: rest.
Proof. intros oc n ts H. unfold oneRegister in H. repeat next H. eauto. Qed.
Lemma took_Jump : forall oc ts, took (handleJumpAbs F oc ts st) -> exists e, ts = TExpr e :: rest.
Proof.
  intros oc ts H. unfold handleJumpAbs, parse_Expression in H. destruct ts as [|[] r]; try discriminate. exists e. f_equal.
  destruct (expr_Asr F _ _); try discriminate. cbn [bind] in H. destruct (expr_And F _ _); try discriminate. cbn [bind] in H.
  eapply took_or, H.
Qed.
Lemma took_LUI : forall ts, took (handleLUI F ts st) -> exists a e, reg a /\ ts = R a :: TComma :: TExpr e :: rest.
Proof.
  intros ts H. unfold handleLUI, always in H.
  match type of H with (let! x := ?o in _) = _ => destruct o as [[[b t1] s1]| |] eqn:E; try discriminate end.
  cbn [bind] in H. inversion H; subst. clear H.
  unfold expectRegister in E. destruct (getRegister ts) as [[r ts1]|] eqn:G; [|inversion E; subst; destruct (loud _ _ Q)].
  unfold getRegister, T_MIPS_REG_R0, T_MIPS_REG_R31 in G. destruct ts as [|[id| | | | |] tl]; try discriminate.
  destruct ((6136 <=? id) && (id <=? 6167)) eqn:B; [|discriminate]. inversion G; subst. clear G.
  destruct ts1 as [|t ts2]; [inversion E; subst; destruct (loud _ _ Q)|].
  destruct t; cbn [expectChar is_char] in E; try (inversion E; subst; destruct (loud _ _ Q)).
  destruct (parse_ExpressionU16 ts2 st) as [[[o ts1] st1]| |] eqn:P; try discriminate. cbn [bind] in E.
  apply took_u16 in P. destruct P as [(-> & ->)|(e & ->)].
  - inversion E; subst. contradiction.
  - destruct o; [|inversion E; subst; exists (id - 6136), e; split; [unfold reg; lia|]; do 2 f_equal; lia].
    destruct (expr_Or F _ _); try discriminate. cbn [bind] in E. unfold yes in E. destruct (sect_OutputExpr32 _ _); try discriminate.
    cbn [bind] in E. inversion E; subst. exists (id - 6136), e. split; [unfold reg; lia|]. do 2 f_equal. lia.
Qed.
End Accept.

Ltac name_of id :=
  let l := eval vm_compute in (map fst (filter (fun p => snd p =? id) g_tokens)) in
  match l with ?s :: _ => s end.
Ltac in_table := unfold shape, listed; cbn [map fst reg3 shiftv imm br2 br1 br0 shift mem rsrt rdrt trap trapimm count plain_table intr
  movefrom moveto jump]; repeat match goal with |- _ /\ _ => split end; try assumption; solve [repeat first [left; reflexivity | right]].
Ltac is_instr i := exists i; split; [in_table|cbn [text lex map app]; rewrite ?lex_register by assumption; reflexivity].
Ltac entered H id F r st h :=
  let o := eval cbv beta in (h r st) in change (mips_ParseIntegerInstruction F (TId id :: r) st) with o in H.

Ltac split_cases n k :=
  match k with O => lia | Datatypes.S ?j => destruct n as [|n]; [|split_cases n j] end.

Theorem only_manual : forall F ts st rest st',
  mips_ParseIntegerInstruction F ts st = Ok (true, rest, st') -> x_errors st' = x_errors st -> st' <> st ->
  exists i : minstr expr, shape i /\ ts = (lex (text i) ++ rest)%list.
Proof.
  intros F ts st rest st' H Q D.
  destruct ts as [|[id| | | | |] r]; try discriminate.
  assert (B : 6000 <= id <= 6110).
  { unfold mips_ParseIntegerInstruction, T_MIPS_ADD, T_MIPS_LUI in H.
    destruct ((6000 <=? id) && (id <=? 6110)) eqn:E; [lia|discriminate]. }
  assert (E : exists n, id = 6000 + Z.of_nat n /\ (n < 111)%nat) by (exists (Z.to_nat (id - 6000)); lia).
  destruct E as (n & -> & L). clear B.
  split_cases n 111%nat.
  all: match goal with |- context [6000 + Z.of_nat ?k] =>
    let v := eval vm_compute in (6000 + Z.of_nat k) in change (6000 + Z.of_nat k) with v in H |- * end.
  all: match type of H with mips_ParseIntegerInstruction _ (TId ?id :: _) _ = _ =>
    let s := name_of id in
    let h := eval vm_compute in (nth (Z.to_nat (id - 6000)) g_mnemonicHandlers HLUI) in
    match h with
    | HRRR => let oc := eval vm_compute in (nth (Z.to_nat (id - 6000)) s_InstructionsRRR 0) in
        entered H id F r st (handleRRR oc);
        destruct (took_RRR _ _ _ _ _ H) as (a & b & c & RA & RB & RC & ->); first [is_instr (@Reg3 expr s a b c)|is_instr (@ShiftV expr s a b c)]
    | HRRI => let oc := eval vm_compute in (nth (Z.to_nat (id - 6017)) g_RRIInstructions (0, false)) in
        entered H id F r st (handleRRI F oc);
        destruct (took_RRI _ _ _ _ Q D _ _ H) as (a & b & e & RA & RB & ->); is_instr (Imm s a b e)
    | HBranch => let oc := eval vm_compute in (nth (Z.to_nat (id - 6024)) g_branchInstructions (0, 0)) in
        entered H id F r st (handleBranch F oc);
        match oc with
        | (2, _) => destruct (took_Branch2 _ _ _ _ _ _ H) as (a & b & e & RA & RB & ->); is_instr (Br2 s a b e)
        | (1, _) => destruct (took_Branch1 _ _ _ _ _ _ H) as (a & e & RA & ->); is_instr (Br1 s a e)
        | (0, _) => destruct (took_Branch0 _ _ _ _ _ _ H) as (e & ->); is_instr (Br0 s e)
        end
    | HShift => let oc := eval vm_compute in (nth (Z.to_nat (id - 6042)) g_shiftInstructions 0) in
        entered H id F r st (handleShift F oc);
        destruct (took_Shift _ _ _ _ _ _ H) as (a & b & e & RA & RB & ->); is_instr (Shift s a b e)
    | HLoadStore => let oc := eval vm_compute in (nth (Z.to_nat (id - 6046)) g_loadStoreInstructions 0) in
        entered H id F r st (handleLoadStore F oc);
        destruct (took_Mem _ _ _ _ Q D _ _ H) as (a & e & b & RA & RB & ->); is_instr (Mem s a e b)
    | HRSRT => let oc := eval vm_compute in (nth (Z.to_nat (id - 6064)) g_RSRTInstructions 0) in
        entered H id F r st (handleRSRT oc);
        destruct (took_two _ _ _ _ _ H) as (a & b & RA & RB & ->); is_instr (@RsRt expr s a b)
    | HRDRT => let oc := eval vm_compute in (nth (Z.to_nat (id - 6072)) g_RDRTInstructions 0) in
        entered H id F r st (handleRDRT oc);
        destruct (took_two _ _ _ _ _ H) as (a & b & RA & RB & ->); is_instr (@RdRt expr s a b)
    | HRSRTCode => let oc := eval vm_compute in (nth (Z.to_nat (id - 6077)) g_RSRTCodeInstructions 0) in
        entered H id F r st (handleRSRTCode F oc);
        destruct (took_Code _ _ _ _ Q D _ _ H) as (a & b & RA & RB & [->|(e & ->)]);
        [is_instr (@Trap expr s a b)|is_instr (TrapCode s a b e)]
    | HRI => let oc := eval vm_compute in (nth (Z.to_nat (id - 6083)) g_RIInstructions (0, false)) in
        entered H id F r st (handleRI F oc);
        destruct (took_RI _ _ _ _ Q D _ _ H) as (a & e & RA & ->); is_instr (TrapImm s a e)
    | HRDRSRTCopy => let oc := eval vm_compute in (nth (Z.to_nat (id - 6089)) g_RDRSRTCopyInstructions 0) in
        entered H id F r st (handleRDRSRTCopy oc);
        destruct (took_two _ _ _ _ _ H) as (a & b & RA & RB & ->); is_instr (@Count expr s a b)
    | HNoParameter => let oc := eval vm_compute in (nth (Z.to_nat (id - 6091)) g_noParameterInstructions 0) in
        entered H id F r st (handleNoParameter oc);
        apply took_yes in H; subst r; is_instr (@Plain expr s)
    | HRT => let oc := eval vm_compute in (nth (Z.to_nat (id - 6100)) g_RTInstructions 0) in
        entered H id F r st (handleRT oc);
        destruct (took_RT _ _ _ _ _ H) as [->|(a & RA & ->)]; [is_instr (@Intr expr s)|is_instr (@IntrReg expr s a)]
    | HRD => let oc := eval vm_compute in (nth (Z.to_nat (id - 6102)) g_RDInstructions 0) in
        entered H id F r st (oneRegister oc 11);
        destruct (took_one _ _ _ _ _ _ H) as (a & RA & ->); is_instr (@MoveFrom expr s a)
    | HRS => let oc := eval vm_compute in (nth (Z.to_nat (id - 6104)) g_RSInstructions 0) in
        entered H id F r st (oneRegister oc 21);
        destruct (took_one _ _ _ _ _ _ H) as (a & RA & ->); is_instr (@MoveTo expr s a)
    | HJumpAbs => let oc := eval vm_compute in (nth (Z.to_nat (id - 6108)) g_jumpAbsInstructions 0) in
        entered H id F r st (handleJumpAbs F oc);
        destruct (took_Jump _ _ _ _ _ _ H) as (e & ->); is_instr (Jump s e)
    | HLUI =>
        entered H id F r st (handleLUI F);
        destruct (took_LUI _ _ _ _ Q D _ H) as (a & e & RA & ->); is_instr (Lui a e)
    end
  end.
Qed.

(** ** Constants out of range *)
Section Big.
Variable S : setting.
Variable st : xstate.
Variable k : nat.
Variable m : msect.
Hypothesis R : ready st k m 4.
Hypothesis SO : setting_ok S (here m).
Notation F := (s_F S).
Notation op := (operand S (here m)).
Notation st1 := (err_Error ERROR_OPERAND_RANGE st).

Lemma R1 : ready st1 k m 4.
Proof. exact R. Qed.
Lemma big : forall n lo hi, ~ (lo <= n <= hi) -> range_checked (expr_Const n) lo hi st = Ok (expr_Const 0, st1).
Proof.
  intros n lo hi B. unfold range_checked, expr_CheckRange, expr_LowLimit. cbn [isNull expr_Const orb expr_IsConstant e_v andb bind].
  destruct (n <? lo) eqn:E; [reflexivity|]. cbn [bind]. unfold expr_HighLimit.
  cbn [isNull node2 orb expr_IsConstant e_v andb bind].
  change (e_v (expr_Const hi)) with hi. replace (n >? hi) with true by lia. reflexivity.
Qed.
Lemma num0 : op (Num 0) (expr_Const 0) 0.
Proof. apply operand_num. unfold is_s32. lia. Qed.
Lemma big_16 : forall (b : bool) n ts, ~ (if b then -32768 <= n <= 32767 else 0 <= n <= 65535) ->
  exists e1 T, parse_Expression16 F b (TExpr (expr_Const n) :: ts) st = Ok (Some e1, ts, st1) /\ op T e1 0 /\
    (T = Num 0 \/ T = Bin OpAnd (Num 0) (Num 65535)).
Proof.
  intros [] n ts B; cbn [parse_Expression16].
  - unfold parse_ExpressionS16, parse_Expression. rewrite big by exact B. cbn [bind].
    destruct (with_const S m SO OpAnd _ _ _ 65535 0 num0) as (e1 & A & O1); [unfold is_s32; lia|reflexivity|exact I|].
    exists e1, (Bin OpAnd (Num 0) (Num 65535)). unfold expr_And. rewrite A. auto.
  - unfold parse_ExpressionU16, parse_Expression. rewrite big by exact B. cbn [bind].
    exists (expr_Const 0), (Num 0). split; [reflexivity|]. split; [exact num0|auto].
Qed.
Lemma big_or : forall T e l q w ts, op T e 0 -> (T = Num 0 \/ T = Bin OpAnd (Num 0) (Num 65535)) ->
  bits l = q * 65536 -> w = q * 65536 ->
  exists st', (let! e1 := expr_Or F e (word_Const l) in yes ts (sect_OutputExpr32 e1 st1)) = Ok (true, ts, st') /\
    emits S k st1 st' [(4%nat, Num 0, s32 w)].
Proof.
  intros T e l q w ts Op T1 Q ->.
  destruct (or_word S m SO _ _ _ l Op) as (e1 & Or & O1). rewrite Or. cbn [bind].
  apply (fin_expr S st1 k m R1 SO _ _ _ _ _ _ O1).
  - destruct T1 as [-> | ->]; unfold orT; cbn [tdepth]; lia.
  - destruct T1 as [-> | ->]; unfold orT; repeat apply within_bin; apply within_num.
  - intros _. destruct T1 as [-> | ->]; unfold orT; cbn [known]; tauto.
  - rewrite Q. apply Z.lor_0_l.
Qed.
Lemma big_shifted : forall n hi l w ts, ~ (0 <= n <= hi) -> bits l = w ->
  exists st', shifted F hi l (expr_Const n) ts st = Ok (true, ts, st') /\ emits S k st1 st' [(4%nat, Num 0, s32 w)].
Proof.
  intros n hi l w ts B <-. unfold shifted. rewrite big by exact B. cbn [bind].
  destruct (with_const S m SO OpAsl _ _ _ 6 0 num0) as (e2 & A & O2); [unfold is_s32; lia|reflexivity|exact I|].
  unfold expr_Asl. rewrite A. cbn [bind].
  destruct (or_word S m SO _ _ _ l O2) as (e3 & Or & O3). rewrite Or. cbn [bind].
  apply (fin_expr S st1 k m R1 SO _ _ _ _ _ _ O3).
  - unfold orT. cbn [tdepth]. lia.
  - unfold orT; repeat apply within_bin; apply within_num.
  - intros _. unfold orT; cbn [known]; tauto.
  - apply Z.lor_0_l.
Qed.
End Big.

Ltac prep_big V :=
  cbn [shape mmap] in V;
  repeat match goal with H : _ /\ _ |- _ => destruct H end;
  try match goal with L : listed _ _ |- _ =>
    unfold listed in L; cbn [map fst reg3 imm br2 br1 br0 shift mem rsrt rdrt trap trapimm count plain_table intr movefrom moveto jump] in L;
    names L end;
  words.
Lemma itype_zero : forall op rs rt, itype op rs rt 0 = (op * 1024 + rs * 32 + rt) * 65536.
Proof. intros. rewrite itype_high. change (0 mod 65536) with 0. lia. Qed.

Theorem too_big : forall S i st k m rest n lo hi,
  ready st k m 4 -> setting_ok S (here m) -> shape i -> operand_of i = Some n -> limits i = Some (lo, hi) -> ~ (lo <= n <= hi) ->
  exists st', mips_ParseIntegerInstruction (s_F S) (lex (text (mmap expr_Const i)) ++ rest)%list st = Ok (true, rest, st') /\
    emits S k (err_Error ERROR_OPERAND_RANGE st) st' [(4%nat, Num 0, s32 (encoding 0 (mmap (fun _ => 0) i)))].
Proof.
  intros S i st k m rest n lo hi R SO V O L N.
  assert (Z0 : reg 0) by (unfold reg; lia).
  assert (R1 : ready (err_Error ERROR_OPERAND_RANGE st) k m 4) by exact R.
  destruct i; cbn [limits operand_of] in L, O; try discriminate; injection O as ->.
  - prep_big V; injection L as <- <-; at_h 6017 g_RRIInstructions (0, false) (handleRRI (s_F S)); unfold handleRRI; regs;
      cbn [snd fst].
    all: match goal with |- context [parse_Expression16 _ ?b _ _] =>
      destruct (big_16 S st m SO b n rest) as (e1 & T & E1 & O1 & D); [exact N|]; rewrite E1; cbn [bind] end.
    all: eapply big_or; [exact R|exact SO|exact O1|exact D| |enc; apply itype_zero].
    all: ibits.
  - prep_big V; injection L as <- <-; at_h 6042 g_shiftInstructions 0 (handleShift (s_F S)); unfold handleShift; regs; cbn [parse_Expression].
    all: apply (big_shifted S st k m R SO); [exact N|]; enc; rtype_bits.
  - prep_big V; injection L as <- <-; at_h 6046 g_loadStoreInstructions 0 (handleLoadStore (s_F S)); unfold handleLoadStore; regs.
    all: destruct (big_16 S st m SO true n (TLeft :: TId (6136 + base) :: TRight :: rest)) as (e1 & T & E1 & O1 & D); [exact N|].
    all: cbn [parse_Expression16] in E1; rewrite E1; cbn [bind]; cbn [expectChar is_char]; regs.
    all: eapply big_or; [exact R|exact SO|exact O1|exact D| |enc; apply itype_zero].
    all: ibits.
  - prep_big V; injection L as <- <-; at_h 6077 g_RSRTCodeInstructions 0 (handleRSRTCode (s_F S)); unfold handleRSRTCode; regs; cbn [parse_Expression].
    all: apply (big_shifted S st k m R SO); [exact N|]; enc; change (0 / 32) with 0; change (0 mod 32) with 0; rtype_bits.
  - prep_big V; injection L as <- <-; at_h 6083 g_RIInstructions (0, false) (handleRI (s_F S)); unfold handleRI; regs;
      cbn [snd fst].
    all: match goal with |- context [parse_Expression16 _ ?b _ _] =>
      destruct (big_16 S st m SO b n rest) as (e1 & T & E1 & O1 & D); [exact N|]; rewrite E1; cbn [bind] end.
    all: eapply big_or; [exact R|exact SO|exact O1|exact D| |enc; apply itype_zero].
    all: ibits.
  - prep_big V; injection L as <- <-.
    match goal with |- context [mips_ParseIntegerInstruction ?F (TId ?id :: ?r) ?st] => 
      change (mips_ParseIntegerInstruction F (TId id :: r) st) with (handleLUI F r st) end.
    unfold handleLUI; regs.
    destruct (big_16 S st m SO false n rest) as (e1 & T & E1 & O1 & D); [exact N|].
    cbn [parse_Expression16] in E1; rewrite E1; cbn [bind].
    edestruct big_or as (st' & E & M); [exact R|exact SO|exact O1|exact D| |enc; apply itype_zero|].
    2: { exists st'. rewrite E. split; [reflexivity|exact M]. }
    ibits.
Qed.
