(** Proofs that only instructions of the manual are accepted. *)
From Coq Require Import ZArith List Bool Lia ZifyBool String.
From Verif Require Import Base BaseFacts Arith ExprSpec ExprModel ExprLayout OptModel SectModel SectSpec SectProofs
  SectErrors InstrSpec InstrProofs ChipModel ChipSpec ChipProofs.
Import ListNotations.
Open Scope string_scope.
Open Scope Z_scope.

Definition opnd_mode (o : opnd) : amode :=
  match o with
  | OReg x => AMode MODE_REG x ENull
  | OI => AMode MODE_I 255 ENull | ODT => AMode MODE_DT 255 ENull | OST => AMode MODE_ST 255 ENull
  | OInd => AMode MODE_I_IND 255 ENull | ORpl => AMode MODE_RPL 255 ENull
  | OExpr e => AMode MODE_IMM 255 e
  | OV0 e => AMode MODE_IMM_V0 0 e
  end.
Definition kind_of (o : opnd) : Z := am_mode (opnd_mode o).

Lemma mode_opnd : forall o r st m b ts st1, opnd_ok o -> no_plus r ->
  parseAddressMode (lex (opnd_text o) ++ r) st = Ok (b, m, ts, st1) ->
  b = true /\ am_mode m = kind_of o /\ ts = r.
Proof.
  intros o r st m b ts st1 O N H.
  destruct o; cbn [opnd_ok] in O; cbn [opnd_text lex map app] in H;
    try (cbn [lex1] in H; inversion H; subst; repeat split; fail).
  - rewrite lex_register in H by exact O. rewrite mode_register in H by assumption. inversion H; subst. repeat split.
  - cbn -[range_checked] in H. destruct (range_checked e 0 4095 st) as [[e1 st2]| |]; try discriminate.
    cbn [bind] in H. inversion H; subst. repeat split.
Qed.
Lemma lex_app : forall a b, lex (a ++ b) = (lex a ++ lex b)%list.
Proof. intros. apply map_app. Qed.

(** The operands of an accepted instruction are of the kinds in its table entry. *)
Definition kinds_ok (i : instruction) (l : list opnd) : bool :=
  match l with
  | [] => true
  | [a] => negb (Z.land (i_mode1 i) (kind_of a) =? 0)
  | [a; b] => negb (Z.land (i_mode1 i) (kind_of a) =? 0) && negb (Z.land (i_mode2 i) (kind_of b) =? 0)
  | [a; b; c] => negb (Z.land (i_mode1 i) (kind_of a) =? 0) && negb (Z.land (i_mode2 i) (kind_of b) =? 0) &&
                 negb (Z.land (i_mode3 i) (kind_of c) =? 0)
  | _ => false
  end.
Definition arity_of (i : instruction) : nat :=
  if i_mode1 i =? 0 then 0 else if i_mode2 i =? 0 then 1 else if i_mode3 i =? 0 then 2 else 3.

Lemma accepted_kinds : forall i l st ts st1 m1 m2 m3,
  List.length l = arity_of i -> Forall opnd_ok l ->
  parseOperands i (lex (opnds_text l)) st = Ok (Some (m1, m2, m3), ts, st1) ->
  kinds_ok i l = true /\ ts = [] /\
  match l with
  | [] => True
  | [a] => am_mode m1 = kind_of a
  | a :: b :: _ => am_mode m1 = kind_of a /\ am_mode m2 = kind_of b
  end.
Proof.
  intros i l st ts st1 m1 m2 m3 L O H. unfold arity_of in L.
  destruct l as [|a [|b [|c [|]]]]; cbn [List.length] in L.
  - destruct (i_mode1 i =? 0) eqn:M1; [|destruct (i_mode2 i =? 0); [discriminate|destruct (i_mode3 i =? 0); discriminate]].
    unfold parseOperands in H. rewrite M1 in H. inversion H; subst. repeat split.
  - destruct (i_mode1 i =? 0) eqn:M1; [discriminate|]. destruct (i_mode2 i =? 0) eqn:M2; [|destruct (i_mode3 i =? 0); discriminate].
    unfold parseOperands in H. rewrite M1 in H. cbn [opnds_text] in H.
    inversion O; subst.
    destruct (parseAddressMode (lex (opnd_text a)) st) as [[[[b m] t] s]| |] eqn:E; try discriminate.
    rewrite <- (app_nil_r (lex _)) in E. apply mode_opnd in E; [|assumption|exact I]. destruct E as (-> & K & ->).
    cbn [bind negb] in H. rewrite K in H. destruct (Z.land (i_mode1 i) (kind_of a) =? 0) eqn:C1; [discriminate|].
    unfold parseSecond in H. rewrite M2 in H. cbn [bind] in H. inversion H; subst.
    cbn [kinds_ok]. rewrite C1. repeat split. exact K.
  - destruct (i_mode1 i =? 0) eqn:M1; [discriminate|]. destruct (i_mode2 i =? 0) eqn:M2; [discriminate|].
    destruct (i_mode3 i =? 0) eqn:M3; [|discriminate].
    inversion O as [|? ? Oa Or]; subst. inversion Or as [|? ? Ob _]; subst.
    unfold parseOperands in H. rewrite M1 in H. cbn [opnds_text] in H. rewrite lex_app in H.
    destruct (parseAddressMode (lex (opnd_text a) ++ lex (Comma :: opnd_text b)) st) as [[[[b0 m] t] s]| |] eqn:E; try discriminate.
    apply mode_opnd in E; [|assumption|exact I]. destruct E as (-> & K & ->).
    cbn [bind negb] in H. rewrite K in H. destruct (Z.land (i_mode1 i) (kind_of a) =? 0) eqn:C1; [discriminate|].
    unfold parseSecond in H. rewrite M2 in H. cbn [lex map lex1 parse_ExpectComma negb] in H.
    fold (lex (opnd_text b)) in H.
    destruct (parseAddressMode (lex (opnd_text b)) s) as [[[[b0 m0] t0] s0]| |] eqn:E; try discriminate.
    rewrite <- (app_nil_r (lex _)) in E. apply mode_opnd in E; [|assumption|exact I]. destruct E as (-> & K2 & ->).
    cbn [bind negb] in H. rewrite K2 in H. destruct (Z.land (i_mode2 i) (kind_of b) =? 0) eqn:C2; [discriminate|].
    unfold parseThird in H. rewrite M3 in H. cbn [bind] in H. inversion H; subst.
    cbn [kinds_ok]. rewrite C1, C2. repeat split; assumption.
  - destruct (i_mode1 i =? 0) eqn:M1; [discriminate|]. destruct (i_mode2 i =? 0) eqn:M2; [discriminate|].
    destruct (i_mode3 i =? 0) eqn:M3; [discriminate|].
    inversion O as [|? ? Oa Or]; subst. inversion Or as [|? ? Ob Oc]; subst. inversion Oc as [|? ? Oc1 _]; subst.
    unfold parseOperands in H. rewrite M1 in H. cbn [opnds_text] in H. rewrite lex_app in H.
    match type of H with context [parseAddressMode ?x ?y] => destruct (parseAddressMode x y) as [[[[b0 m] t] s]| |] eqn:E; try discriminate end.
    apply mode_opnd in E; [|assumption|exact I]. destruct E as (-> & K & ->).
    cbn [bind negb] in H. rewrite K in H. destruct (Z.land (i_mode1 i) (kind_of a) =? 0) eqn:C1; [discriminate|].
    unfold parseSecond in H. rewrite M2 in H. cbn [lex map lex1 parse_ExpectComma negb] in H.
    rewrite map_app in H. fold (lex (opnd_text b)) in H.
    match type of H with context [parseAddressMode ?x ?y] => destruct (parseAddressMode x y) as [[[[b0 m0] t0] s0]| |] eqn:E; try discriminate end.
    apply mode_opnd in E; [|assumption|exact I]. destruct E as (-> & K2 & ->).
    cbn [bind negb] in H. rewrite K2 in H. destruct (Z.land (i_mode2 i) (kind_of b) =? 0) eqn:C2; [discriminate|].
    unfold parseThird in H. rewrite M3 in H. cbn [map lex1 parse_ExpectComma negb] in H. fold (lex (opnd_text c)) in H.
    match type of H with context [parseAddressMode ?x ?y] => destruct (parseAddressMode x y) as [[[[b0 m4] t0] s4]| |] eqn:E; try discriminate end.
    rewrite <- (app_nil_r (lex _)) in E. apply mode_opnd in E; [|assumption|exact I]. destruct E as (-> & K3 & ->).
    cbn [bind andb] in H. rewrite K3 in H. destruct (Z.land (i_mode3 i) (kind_of c) =? 0) eqn:C3; [discriminate|].
    cbn [bind] in H. inversion H; subst.
    cbn [kinds_ok]. rewrite C1, C2, C3. repeat split; assumption.
  - destruct (i_mode1 i =? 0); [discriminate|]. destruct (i_mode2 i =? 0); [discriminate|].
    destruct (i_mode3 i =? 0); discriminate.
Qed.

Lemma assoc_in : forall s l id, assoc s l = TId id -> In (s, id) l.
Proof.
  intros s l id. induction l as [|[k v] l IH]; cbn [assoc]; intro H; [discriminate|].
  destruct (String.eqb s k) eqn:E.
  - apply String.eqb_eq in E. subst. inversion H; subst. left. reflexivity.
  - right. apply IH, H.
Qed.
Lemma parse_true : forall F cpu id r st ts st', schip_ParseIntegerInstruction F cpu (TId id :: r) st = Ok (true, ts, st') ->
  exists i m1 m2 m3 st1 st2, entry cpu id i /\ parseOperands i r st = Ok (Some (m1, m2, m3), ts, st1) /\
    apply_parser F cpu (i_parser i) m1 m2 m3 (i_opcode i) st1 = Ok (true, st2).
Proof.
  intros F cpu id r st ts st' H. unfold schip_ParseIntegerInstruction in H.
  destruct ((T_CHIP_INSTR_FIRST <=? id) && (id <=? T_CHIP_INSTR_LAST)) eqn:B; [|discriminate].
  destruct (nth_error instructionHandlers _) as [i|] eqn:N; [|discriminate].
  destruct (Z.land (i_cpu i) cpu =? 0) eqn:C; [discriminate|].
  destruct (parseOperands i r st) as [[[o t1] s1]| |] eqn:P; try discriminate. cbn [bind] in H.
  destruct o as [[[m1 m2] m3]|]; [|discriminate].
  unfold finish in H. destruct (apply_parser F cpu (i_parser i) m1 m2 m3 (i_opcode i) s1) as [[b s2]| |] eqn:A; try discriminate.
  cbn [bind] in H. inversion H; subst. exists i, m1, m2, m3, s1, st'. split; [|split; [exact P|exact A]].
  split; [exact N|]. split; [|exact C]. unfold T_CHIP_INSTR_FIRST, T_CHIP_INSTR_LAST in B. lia.
Qed.
Lemma entry_is : forall cpu id i j, entry cpu id i -> nth_error instructionHandlers (Z.to_nat (id - 6000)) = Some j -> i = j.
Proof. intros cpu id i j (N & _) N1. congruence. Qed.

Ltac witness AV X := exists X; split; [reflexivity|]; first [right; exact I | left; apply AV; [reflexivity|solve [left; reflexivity | right; reflexivity]]].
Theorem only_manual : forall F cpu s l st ts st',
  cpu = CHIP8 \/ cpu = SCHIP -> List.length l = arity s -> Forall opnd_ok l ->
  schip_ParseIntegerInstruction F cpu (lex (Word s :: opnds_text l)) st = Ok (true, ts, st') ->
  ts = [] /\ exists i : cinstr expr, text i = Word s :: opnds_text l /\ (available cpu i \/ rpl_transfer i).
Proof.
  intros F cpu s l st ts st' Cp L O H. cbn [lex map lex1] in H. fold (lex (opnds_text l)) in H.
  destruct (assoc s g_tokens) as [id| | | |] eqn:A; try discriminate. apply assoc_in in A.
  destruct (parse_true _ _ _ _ _ _ _ H) as (i & m1 & m2 & m3 & st1 & st2 & En & P & Ap). clear H.
  destruct (proj2 En) as [B Cpu].
  assert (AV : forall X : cinstr expr, needs_schip X = negb (i_cpu i =? 3) -> i_cpu i = 3 \/ i_cpu i = 2 -> available cpu X).
  { intros X NX [I3|I2].
    - rewrite I3 in NX. cbn in NX. destruct Cp as [-> | ->]; [right; split; [reflexivity|exact NX]|left; reflexivity].
    - rewrite I2 in Cpu. destruct Cp as [-> | ->]; [discriminate|left; reflexivity]. }
  repeat (destruct A as [A|A]; [inversion A; subst; try lia|]); try (destruct A; fail).
  all: let j := fresh in
    pose proof (entry_is _ _ _ _ En eq_refl) as j; subst i; clear En; cbn in L.
  all: apply accepted_kinds in P; [|exact L|exact O].
  all: destruct P as (K & -> & M).
  all: split; [reflexivity|].
  all: destruct l as [|a [|b [|c [|]]]]; try discriminate; clear L.
  all: cbn [kinds_ok i_mode1 i_mode2 i_mode3] in K.
  all: try (destruct a; try discriminate).
  all: try (destruct b; try discriminate).
  all: try (destruct c; try discriminate).
  all: cbn [apply_parser i_parser i_opcode] in Ap;
       unfold handleLD, handleLDM, handleADD, handleSkips, handleJP, modes in Ap;
       try (rewrite (proj1 M), (proj2 M) in Ap; cbn in Ap; try discriminate).
  all: cbn [i_cpu] in AV; clear - AV.
  all: match goal with
  | |- exists i : cinstr expr, text i = Word ?s :: opnds_text ?l /\ _ =>
    match l with
    | [OReg ?x; OReg ?y; OExpr ?e] => first [witness AV (Drw x y e)]
    | [OReg ?x; OReg ?y] => first [witness AV (@And expr x y) | witness AV (@Or expr x y) | witness AV (@Xor expr x y) | witness AV (@Sub expr x y)
        | witness AV (@Subn expr x y) | witness AV (@Ld expr x y) | witness AV (@Add expr x y) | witness AV (@Se expr x y) | witness AV (@Sne expr x y)]
    | [OReg ?x; OExpr ?e] => first [witness AV (LdImm x e) | witness AV (AddImm x e) | witness AV (SeImm x e) | witness AV (SneImm x e) | witness AV (Rnd x e)]
    | [OReg ?x; ODT] => witness AV (@LdFromDT expr x)
    | [OReg ?x; OInd] => witness AV (@Load expr x)
    | [OReg ?x; ORpl] => witness AV (@LoadRPL expr x)
    | [OI; OExpr ?e] => witness AV (LdI e)
    | [ODT; OReg ?x] => witness AV (@LdDT expr x)
    | [OST; OReg ?x] => witness AV (@LdST expr x)
    | [OInd; OReg ?x] => witness AV (@Store expr x)
    | [ORpl; OReg ?x] => witness AV (@StoreRPL expr x)
    | [OI; OReg ?x] => witness AV (@AddI expr x)
    | [OReg ?x] => first [witness AV (@Bcd expr x) | witness AV (@Ldf expr x) | witness AV (@Ldf10 expr x) | witness AV (@Shl expr x)
        | witness AV (@Shr expr x) | witness AV (@Skp expr x) | witness AV (@Sknp expr x) | witness AV (@Wkp expr x)]
    | [OExpr ?e] => first [witness AV (Jp e) | witness AV (Call e) | witness AV (Scd e)]
    | [OV0 ?e] => witness AV (JpV0 e)
    | [] => first [witness AV (@Cls expr) | witness AV (@Ret expr) | witness AV (@Scr expr) | witness AV (@Scl expr) | witness AV (@Exit expr)
        | witness AV (@Low expr) | witness AV (@High expr)]
    end
  end.
Qed.

(** ** Constant operands that are too large or too small *)
Lemma range_out : forall v lo hi st, v < lo \/ hi < v ->
  range_checked (expr_Const v) lo hi st = Ok (expr_Const 0, err_Error ERROR_OPERAND_RANGE st).
Proof.
  intros v lo hi st B. unfold range_checked, expr_CheckRange, expr_LowLimit. cbn -[Z.ltb Z.gtb].
  destruct (v <? lo) eqn:L; [reflexivity|]. cbn [bind]. unfold expr_HighLimit. cbn -[Z.ltb Z.gtb].
  replace (v >? hi) with true by lia. reflexivity.
Qed.
Lemma done_const : forall S k m E e v t, ready E k m 2 -> isNull e = false -> expr_IsConstant e = true -> u16 (e_v e) = v ->
  exists st', done (sect_OutputExpr16 e E) = Ok (true, st') /\ emits S k E st' [(2%nat, t, v)].
Proof.
  intros S k m E e v t R N C V. unfold sect_OutputExpr16.
  replace (x_wordSize E >? 2) with false by (destruct R as (_ & _ & -> & _); reflexivity).
  rewrite N, C, V. destruct (out_const16 S v t k E m R) as (st' & X & M). exists st'. rewrite X. split; [reflexivity|exact M].
Qed.
Theorem too_big : forall S F i cpu st k m rest,
  ready st k m 2 -> valid (cmap (fun _ => 0) i) -> ~ valid i -> available cpu i -> no_plus rest -> (forall n, i <> Scd n) ->
  exists st', schip_ParseIntegerInstruction F cpu (lex (text (cmap expr_Const i)) ++ rest) st = Ok (true, rest, st') /\
    emits S k (err_Error ERROR_OPERAND_RANGE st) st' [(2%nat, Num 0, encoding (cmap (fun _ => 0) i))].
Proof.
  intros S F i cpu st k m rest R V0 NV Av NP NS.
  assert (CP : cpu = 1 \/ cpu = 2) by (destruct Av as [->|[-> _]]; auto).
  assert (RE : ready (err_Error ERROR_OPERAND_RANGE st) k m 2) by exact R.
  destruct i; cbn [valid cmap] in V0, NV; try tauto; try (exfalso; eapply NS; reflexivity);
    cbn [cmap text encoding lex map app lex1];
    repeat match goal with H : reg_ok _ /\ _ |- _ => destruct H end;
    rewrite ?lex_register by assumption;
    repeat match goal with
    | |- context [assoc ?s g_tokens] =>
        let v := eval vm_compute in (assoc s g_tokens) in change (assoc s g_tokens) with v
    end.
  all: try (erewrite parse2; [|is_entry|takes_now|takes_now|reflexivity];
            unfold apply_parser, i_parser, i_opcode, handleLD, handleADD, handleSkips, modes, handleModeRegImm, handleModeImm12;
            cbn [am_mode am_expr MODE_REG MODE_I MODE_IMM Z.eqb Pos.eqb andb];
            rewrite range_out by (unfold reg_ok in *; lia); cbn [bind];
            eapply finish_done, (done_const S k m); [exact RE|reflexivity|reflexivity|];
            first [reflexivity | match goal with X : reg_ok ?x |- _ => clear - X; split_reg X x; reflexivity end]).
  - erewrite parse1; [|is_entry|takes_now|reflexivity].
    unfold apply_parser, i_parser, i_opcode, handleJP, handleModeImm12. cbn [am_mode am_expr MODE_IMM Z.eqb Pos.eqb].
    rewrite range_out by (unfold reg_ok in *; lia). cbn [bind].
    eapply finish_done, (done_const S k m); [exact RE|reflexivity|reflexivity|reflexivity].
  - erewrite parse1; [|is_entry|takes_now|reflexivity].
    unfold apply_parser, i_parser, i_opcode, handleModeImm12. cbn [am_mode am_expr].
    rewrite range_out by (unfold reg_ok in *; lia). cbn [bind].
    eapply finish_done, (done_const S k m); [exact RE|reflexivity|reflexivity|reflexivity].
  - erewrite parse1; [|is_entry| |reflexivity]; cycle 1.
    { split; [reflexivity|]. split.
      - cbn -[range_checked]. rewrite range_out by (unfold reg_ok in *; lia). reflexivity.
      - reflexivity. }
    eapply finish_done, (done_const S k m); [exact RE|reflexivity|reflexivity|reflexivity].
  - erewrite parse3; [|is_entry|takes_now|takes_now|takes_now].
    unfold apply_parser, i_parser, i_opcode, handleDRW. cbn [am_expr].
    rewrite range_out by (unfold reg_ok in *; lia). cbn [bind].
    eapply finish_done, (done_const S k m); [exact RE|reflexivity|reflexivity|].
    match goal with X : reg_ok x, Y : reg_ok y |- _ => clear - X Y; split_reg X x; split_reg Y y; reflexivity end.
Qed.
