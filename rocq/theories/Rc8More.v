(** Proofs about the RC811 instructions of [Rc8MoreSpec]. *)
From Coq Require Import ZArith List Bool String Lia ZifyBool.
From Verif Require Import Base BaseFacts Arith ExprSpec ExprModel ExprLayout ArithProofs ExprProofs ObjWriteModel SectModel SectSpec InstrSpec InstrProofs
  X65Spec Rc8Model Rc8Spec Rc8Run Rc8Imm Rc8Proofs Rc8JumpSpec Rc8Jump Rc8MoreSpec.
From Verif Require X65Run.
Import ListNotations.
Open Scope string_scope.
Open Scope list_scope.
Open Scope Z_scope.

Lemma plain_parsed : forall F target (i : more expr) v rest, more_operand i = None -> more_valid (more_map v i) -> ends rest ->
  rc8_ParseIntegerInstruction F true target (lex (more_text i) ++ rest) = Ok (Some (map Byte (more_bytes (more_map v i)), rest, false)).
Proof.
  intros F target i v rest N V E.
  assert (E' : rest = [] \/ exists r, rest = TOther :: r) by (destruct rest as [|[]]; try contradiction E; eauto). clear E.
  destruct i as [d b r|d b n|b r|b p|r n|p|p|p n|n|p| | | | | |]; try discriminate N; cbn [more_map more_valid] in V.
  - destruct V as [V1 V2]. destruct r; try congruence; destruct d, b, E' as [->|(r' & ->)]; reflexivity.
  - destruct r; try congruence; destruct b, E' as [->|(r' & ->)]; reflexivity.
  - destruct p; try congruence; destruct b, E' as [->|(r' & ->)]; reflexivity.
  - destruct p, E' as [->|(r' & ->)]; reflexivity.
  - destruct p, E' as [->|(r' & ->)]; reflexivity.
  - destruct p, E' as [->|(r' & ->)]; reflexivity.
  - destruct E' as [->|(r' & ->)]; reflexivity.
  - destruct E' as [->|(r' & ->)]; reflexivity.
  - destruct E' as [->|(r' & ->)]; reflexivity.
  - destruct E' as [->|(r' & ->)]; reflexivity.
  - destruct E' as [->|(r' & ->)]; reflexivity.
  - destruct E' as [->|(r' & ->)]; reflexivity.
Qed.
Lemma parse_one : forall F target id p r m1 r2, (T_RC8_ADD <=? id) && (id <=? T_RC8_XOR) = true ->
  nth_error (g_Parsers F true) (Z.to_nat (id - T_RC8_ADD)) = Some p -> condition r = Some (CC_ALWAYS, r) ->
  parseAddressingMode r (p_first p) = Ok (Some (m1, r2), []) -> ends r2 -> has (p_second p) MODE_NONE = true ->
  rc8_ParseIntegerInstruction F true target (TId id :: r) = ended r2 (p_handler p (p_base p) CC_ALWAYS m1 no_mode).
Proof.
  intros F target id p r m1 r2 I N C P1 E H. unfold rc8_ParseIntegerInstruction. rewrite I, N, C, P1. cbn [bind].
  replace (match r2 with TComma :: r3 => parseAddressingMode r3 (p_second p)
           | _ => if has (p_second p) MODE_NONE then Ok (Some (no_mode, r2), []) else Ok (None, []) end)
    with (@Ok (option (amode * list token) * list item) (Some (no_mode, r2), []))
    by (rewrite H; destruct r2 as [|[]]; try contradiction E; reflexivity).
  cbn [bind]. rewrite Z.eqb_refl. cbn [negb]. rewrite andb_false_r. unfold ended. destruct (p_handler p (p_base p) CC_ALWAYS m1 no_mode) as [[ok l]| |]; cbn [bind]; reflexivity.
Qed.
Ltac parsed C :=
  match goal with |- rc8_ParseIntegerInstruction _ _ _ (?l ++ ?rest) = _ =>
    let x := eval cbv -[app] in l in change l with x; cbn [app] end;
  erewrite parse_two; [|reflexivity|reflexivity|reflexivity|reflexivity|apply parse_number; [reflexivity..|exact C]];
  try reflexivity.
Ltac parsed1 C E :=
  match goal with |- rc8_ParseIntegerInstruction _ _ _ (?l ++ ?rest) = _ =>
    let x := eval cbv -[app] in l in change l with x; cbn [app] end;
  erewrite parse_one; [|reflexivity|reflexivity|reflexivity|apply parse_number; [reflexivity..|exact C]|exact E|reflexivity];
  try reflexivity.
Definition shift_base (d : direction) : Z := match d with LeftShift => 0xE0 | RightShift => 0xE8 | RightShiftArithmetic => 0xF8 end.
Definition shift_imm (d : direction) (e : expr) : outcome :=
  if expr_IsConstant e && ((e_v e <? 0) || (e_v e >? 15)) then refuse MERROR_SHIFT_COUNT_RANGE
  else let! (e1, w) := check_range e 0 15 in done (w ++ [Byte (0xB8 + Z.land (Z.shiftr (shift_base d) 3) 3); Value e1]).
Section Lines.
Variables (S : setting) (target : expr).
Notation parse i rest := (rc8_ParseIntegerInstruction (s_F S) true target (lex (more_text i) ++ rest)).
Lemma parse_ShiftImm : forall d b e e1 rest, ends rest -> check_range e (-32768) 65535 = Ok (e1, []) ->
  parse (ShiftImm d b e) rest = ended rest (shift_imm d e1).
Proof. intros d b e e1 rest E C. destruct d, b; [parsed C|parsed1 C E|parsed C|parsed1 C E|parsed C|parsed1 C E]. Qed.
Lemma parse_CmpImm : forall r e e1 rest, check_range e (-32768) 65535 = Ok (e1, []) ->
  parse (CmpImm r e) rest = ended rest (done [Byte (0xA8 + number_of r); Value e1]).
Proof. intros r e e1 rest C. destruct r; parsed C. Qed.
Lemma parse_PickImm : forall p e e1 rest, check_range e (-32768) 65535 = Ok (e1, []) ->
  parse (PickImm p e) rest = ended rest (let! (e2, w) := check_range e1 0 255 in done (w ++ [Byte (0x80 + number_of (lo p)); Value e2; Byte (0x1C + pair_number p)])).
Proof. intros p e e1 rest C. destruct p; parsed C. Qed.
Lemma parse_Sys : forall e e1 rest, ends rest -> check_range e (-32768) 65535 = Ok (e1, []) ->
  parse (Sys e) rest = ended rest (done [Byte 0x9B; Value e1]).
Proof. intros e e1 rest E C. parsed1 C E. Qed.
End Lines.

Lemma number_parsed : forall S cur t target i a rest, setting_ok S cur -> more_operand i = Some a -> t = g_term a ->
  operand S cur (g_term a) (g_expr a) (g_value a) -> tdepth (g_term a) <= 240 -> more_valid (more_map g_value i) -> ends rest ->
  exists items, rc8_ParseIntegerInstruction (s_F S) true target (lex (more_text (more_map g_expr i)) ++ rest) = Ok (Some (items, rest, false)) /\
    Forall2 (item_ok S cur t) items (more_bytes (more_map g_value i)).
Proof.
  intros S cur t target i a rest SO Oa Et O D V E. rewrite <- Et in O, D. pose proof (K_given S cur t _ _ O D) as Ka.
  assert (Mono : forall n e v, n <= 250 -> K S cur t n e v -> K S cur t 250 e v).
  { intros n e v N (T & X1 & X2 & X3 & X4). exists T. split; [exact X1|]. split; [lia|]. split; [lia|exact X4]. }
  destruct i; try discriminate Oa; injection Oa as ->; cbn [more_map more_valid] in V |- *;
    (destruct (K_check S cur t SO _ _ _ (-32768) 65535 Ka) as (e1 & C & K1 & I1); [unfold is_s32; lia|unfold is_s32; lia|lia|]).
  - destruct (K_check S cur t SO _ _ _ 0 15 K1) as (e2 & C2 & K2 & _); [unfold is_s32; lia|unfold is_s32; lia|exact V|].
    exists [Byte (0xB8 + Z.land (Z.shiftr (shift_base d) 3) 3); Value e2]. split.
    + rewrite (parse_ShiftImm _ _ _ _ _ _ _ E C). unfold shift_imm.
      replace (expr_IsConstant e1 && ((e_v e1 <? 0) || (e_v e1 >? 15))) with false.
      2:{ destruct (expr_IsConstant e1) eqn:Q; [|reflexivity]. rewrite (K_const S cur t SO _ _ _ K1 Q). lia. }
      rewrite C2. reflexivity.
    + constructor; [destruct d; reflexivity|]. constructor; [|constructor]. apply (Mono 240); [lia|exact K2].
  - eexists. split; [rewrite (parse_CmpImm _ _ _ _ _ _ C); reflexivity|]. constructor; [reflexivity|]. constructor; [|constructor].
    apply (Mono 240); [lia|exact K1].
  - destruct (K_check S cur t SO _ _ _ 0 255 K1) as (e2 & C2 & K2 & _); [unfold is_s32; lia|unfold is_s32; lia|exact V|].
    eexists. split; [rewrite (parse_PickImm _ _ _ _ _ _ C), C2; reflexivity|]. constructor; [reflexivity|]. constructor; [apply (Mono 240); [lia|exact K2]|].
    constructor; [reflexivity|constructor].
  - eexists. split; [rewrite (parse_Sys _ _ _ _ _ E C); reflexivity|]. constructor; [reflexivity|]. constructor; [|constructor].
    apply (Mono 240); [lia|exact K1].
Qed.
Lemma more_parsed : forall S cur i target rest, setting_ok S cur ->
  more_known S cur i -> more_valid (more_map g_value i) -> ends rest ->
  exists items, rc8_ParseIntegerInstruction (s_F S) true target (lex (more_text (more_map g_expr i)) ++ rest) = Ok (Some (items, rest, false)) /\
    Forall2 (item_ok S cur (more_term i)) items (more_bytes (more_map g_value i)).
Proof.
  intros S cur i target rest SO A V E. destruct (more_operand i) as [a|] eqn:Oa.
  - destruct (A a Oa) as (O & D). apply (number_parsed S cur (more_term i) target i a rest SO Oa); try assumption. unfold more_term. rewrite Oa. reflexivity.
  - assert (X : more_map g_value i = more_map (fun _ => 0) (more_map g_expr i)) by (destruct i; try discriminate Oa; reflexivity).
    rewrite X in *. eexists. split; [apply plain_parsed; [destruct i; try discriminate Oa; reflexivity|exact V|exact E]|].
    clear. induction (more_bytes (more_map (fun _ => 0) (more_map g_expr i))); constructor; [reflexivity|assumption].
Qed.
Theorem more_assembled : forall S i target st k m rest, ready st k m 3 -> setting_ok S (here m) ->
  more_known S (here m) i -> more_valid (more_map g_value i) -> ends rest ->
  exists st', rc8_ParseInstruction (s_F S) true target (lex (more_text (more_map g_expr i)) ++ rest) st = Ok (Some (false, rest, st')) /\
    emits S k st st' (map (fun v => (1%nat, more_term i, v)) (more_bytes (more_map g_value i))).
Proof.
  intros S i target st k m rest R SO A V E.
  destruct (more_parsed S (here m) i target rest SO A V E) as (items & P & It).
  destruct (performs S (here m) (more_term i) SO items _ st k m It) as (st' & P1 & M1).
  { apply (X65Run.ready_less _ _ _ _ _ R). destruct i; cbn; lia. }
  exists st'. split; [|exact M1]. unfold rc8_ParseInstruction. rewrite P. cbn [bind]. rewrite P1. reflexivity.
Qed.

(** ** With a condition *)
Lemma more_first_word : forall F (i : more expr), exists w id r p, more_text i = Word w :: r /\ lex1 (Word w) = TId id /\
  (T_RC8_ADD <=? id) && (id <=? T_RC8_XOR) = true /\ nth_error (g_Parsers F true) (Z.to_nat (id - T_RC8_ADD)) = Some p /\
  p_pass p = false /\ (forall cc cc' a b, p_handler p (p_base p) cc a b = p_handler p (p_base p) cc' a b) /\
  match r with Slash :: _ => False | _ => True end.
Proof.
  intros F i. destruct i; try match goal with x : direction |- _ => destruct x end; try match goal with x : bool |- _ => destruct x end;
    do 4 eexists; (split; [reflexivity|]); (split; [reflexivity|]); (split; [reflexivity|]);
    (split; [reflexivity|]); (split; [reflexivity|]); (split; [reflexivity|]); cbn; exact Logic.I.
Qed.
Theorem more_on_condition : forall S i st k m rest c name target t, ready st k m 5 -> setting_ok S (here m) ->
  more_known S (here m) i -> more_valid (more_map g_value i) -> ends rest -> In name (names c) ->
  let vs := more_bytes (more_map g_value i) in
  let x := e_pc (s_env S) + 2 + Z.of_nat (List.length vs) in
  operand S (here m) t target x -> source_term t -> ~ paren_head t -> tdepth t <= 240 -> 0 <= x <= 65535 ->
  exists st1 st2 st',
    rc8_ParseInstruction (s_F S) true target (lex (on_condition name (more_text (more_map g_expr i))) ++ rest) st = Ok (Some (true, rest, st')) /\
    emits S k st st1 [(1%nat, Num (0x90 + code (opposite c)), 0x90 + code (opposite c))] /\
    emits (moved 1 S) k st1 st2 [(1%nat, PcRel 0 t, x - (e_pc (s_env S) + 1))] /\
    emits S k st2 st' (map (fun v => (1%nat, more_term i, v)) vs).
Proof.
  intros S i st k m rest c name target t R SO A V E In vs x Op So Np De Bx.
  destruct (more_parsed S (here m) i ENull rest SO A V E) as (items & P & It). fold vs in It.
  assert (L : (List.length vs <= 3)%nat) by (subst vs; destruct i; cbn; lia).
  destruct (more_first_word (s_F S) (more_map g_expr i)) as (w & id & r & p & Ht & Hw & Hi & Hp & Hf & Hh & Hr).
  destruct (condition_at c name (lex r ++ rest) In) as (ccid & C1 & C2 & C3 & C4).
  assert (Ne : no_error items).
  { intros n I. destruct (in_split _ _ I) as (a & b & ->). apply Forall2_app_inv_l in It. destruct It as (v1 & v2 & _ & I2 & _). inversion I2; subst. contradiction. }
  rewrite Ht in P. cbn [lex map app] in P. rewrite Hw in P.
  assert (Hc : condition (lex r ++ rest) = Some (CC_ALWAYS, lex r ++ rest)).
  { destruct r as [|[] r]; try contradiction Hr; try reflexivity; [destruct rest as [|[]]; try contradiction E; reflexivity|].
    cbn [lex map lex1 app]. generalize g_tokens. intro g. induction g as [|[k0 v0] g IH]; [reflexivity|]. cbn [assoc]. destruct (s =? k0)%string; [reflexivity|exact IH]. }
  pose proof (conditioned (s_F S) ENull target id p (lex r ++ rest) (code c) ccid items rest Hi Hp Hf Hh Hc C2 C3 P Ne) as Q.
  rewrite C4 in Q.
  destruct (jump_out S (0x90 + code (opposite c)) target t x k st m SO) with (room := 3) as (st1 & st2 & m2 & Pf & E1 & E2 & R2).
  { exists t. split; [exact Op|]. split; [exact De|]. split; [apply within_refl|]. tauto. }
  { exact Bx. } { subst x. lia. } { exact R. } { lia. }
  destruct (performs S (here m) (more_term i) SO items vs st2 k m2 It) as (st' & P1 & M1).
  { apply (X65Run.ready_less _ _ _ _ _ R2). lia. }
  exists st1, st2, st'. split; [|split; [exact E1|split; [exact E2|exact M1]]].
  rewrite Ht. cbn [on_condition lex map app]. rewrite Hw, C1. cbn [lex1]. unfold rc8_ParseInstruction.
  replace (map lex1 r ++ rest) with (lex r ++ rest) by reflexivity. rewrite Q. cbn [bind]. rewrite Pf, P1. reflexivity.
Qed.
