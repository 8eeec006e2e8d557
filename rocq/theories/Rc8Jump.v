(** Proofs about RC811 jumps and instructions with a condition. *)
From Coq Require Import ZArith List Bool String Lia ZifyBool Permutation.
From Verif Require Import Base BaseFacts Arith ExprSpec ExprModel ExprLayout ArithProofs ExprProofs ObjWriteModel SectModel SectSpec InstrSpec InstrProofs
  X65Spec Rc8Model Rc8Spec Rc8Run Rc8Imm Rc8Proofs Rc8JumpSpec.
From Verif Require X65Run X65Proofs Z80Run.
Import ListNotations.
Open Scope string_scope.
Open Scope list_scope.
Open Scope Z_scope.

Lemma current_now : forall st k m n, ready st k m n -> Rc8Model.sect_Current st = here m.
Proof. intros st k m n R. exact (Z80Run.current_now st k m n R). Qed.
Definition held := Z80Run.held.
Lemma out_rel : forall S k st m t e v room, setting_ok S (here m) -> ready st k m (1 + room) -> 0 <= room ->
  held 240 true S (here m) t e v -> 0 <= v <= 65535 -> -128 <= v - e_pc (s_env S) <= 127 ->
  exists st1 m1, (let! e1 := expr_PcRelative (s_F S) (Rc8Model.sect_Current st) e 0 in
                  let! (e2, st2) := range_checked e1 (-128) 127 st in sect_OutputExpr8 e2 st2) = Ok st1 /\
    emits S k st st1 [(1%nat, PcRel 0 t, v - e_pc (s_env S))] /\ ready st1 k m1 room /\ setting_ok (moved 1 S) (here m1).
Proof.
  intros S k st m t e v room SO R Ro (T & O & D & W & K & So & P) Av Ra. specialize (P eq_refl).
  rewrite (current_now _ _ _ _ R). set (pc := e_pc (s_env S)) in *.
  destruct (operand_pcrel S (here m) 0 T e v (v - pc) SO O) as (e1 & E1 & O1).
  { unfold is_s32. lia. } { exact P. }
  { unfold pcrel_meaning, inr. fold pc.
    replace ((- 2 ^ 31 <=? v + 0) && (v + 0 <? 2 ^ 31)) with true by lia.
    replace ((- 2 ^ 31 <=? 0 - pc) && (0 - pc <? 2 ^ 31)) with true by lia.
    replace ((- 2 ^ 31 <=? v + 0 - pc) && (v + 0 - pc <? 2 ^ 31)) with true by lia. f_equal. lia. }
  rewrite E1. cbn [bind].
  destruct (operand_checked S (here m) _ e1 _ (-128) 127 st SO O1) as (e2 & E2 & O2); [unfold is_s32; lia|unfold is_s32; lia|lia|].
  rewrite E2. cbn [bind].
  destruct (out_expr S (here m) 1 _ (PcRel 0 t) e2 _ k st m (or_introl eq_refl) SO O2) as (st1 & E & Em).
  { unfold limited. cbn [tdepth]. lia. }
  { apply within_limited. exact W. }
  { intro Kn. destruct Kn. }
  { apply (X65Run.ready_less _ _ _ _ _ R). lia. }
  destruct (X65Proofs.next_place S k st st1 m 1 _ _ room SO R Em) as (m1 & R2 & S2). exists st1, m1. split; [exact E|].
  split; [exact Em|]. split; assumption.
Qed.
Lemma jump_parsed : forall F target j e rest, spelled j -> ends rest ->
  rc8_ParseIntegerInstruction F true target (lex (jump_text j e) ++ rest) = Ok (Some ([Byte (jump_opcode j); Relative e], rest, false)).
Proof.
  intros F target j e rest Sp E. destruct j as [|c name|r].
  - destruct rest as [|[]]; try contradiction E; reflexivity.
  - cbn [spelled] in Sp. destruct c; cbn in Sp; repeat (destruct Sp as [<-|Sp]; [destruct rest as [|[]]; try contradiction E; reflexivity|]); contradiction Sp.
  - destruct r; destruct rest as [|[]]; try contradiction E; reflexivity.
Qed.
Lemma jump_out : forall S op e t v k st m, setting_ok S (here m) -> held 240 true S (here m) t e v ->
  0 <= v <= 65535 -> -128 <= v - (e_pc (s_env S) + 1) <= 127 ->
  forall room, ready st k m (2 + room) -> 0 <= room -> exists st1 st2 m2, (forall l, perform (s_F S) (Byte op :: Relative e :: l) st = perform (s_F S) l st2) /\
    emits S k st st1 [(1%nat, Num op, op)] /\ emits (moved 1 S) k st1 st2 [(1%nat, PcRel 0 t, v - (e_pc (s_env S) + 1))] /\ ready st2 k m2 room.
Proof.
  intros S op e t v k st m SO He Av Ra room R Ro.
  destruct (X65Run.op_step S k st m op (1 + room) SO) as (st1 & m1 & E & Em & R1 & S1); [replace (1 + (1 + room)) with (2 + room) by lia; exact R|lia|].
  destruct (out_rel (moved 1 S) k st1 m1 t e v room S1 R1 Ro) as (st2 & m2 & E2 & Em2 & R2 & S2).
  { apply (Z80Run.held_moved _ _ _ _ _ _ _ _ _ He). } { exact Av. } { exact Ra. }
  exists st1, st2, m2. split; [|split; [exact Em|split; [exact Em2|exact R2]]].
  intro l. cbn [perform]. rewrite E. cbn [bind]. change (s_F (moved 1 S)) with (s_F S) in E2. rewrite E2. reflexivity.
Qed.

(** ** Conditions *)
Definition no_error (l : list item) : Prop := forall n, ~ In (Error n) l.
Lemma check_notes : forall e l h x w, check_range e l h = Ok (x, w) -> w = [] \/ exists n, w = [Error n].
Proof.
  intros e l h x w. unfold check_range. destruct (isNull e); [discriminate|]. destruct (expr_CheckRange e l h); intro X; try discriminate X; injection X as <- <-; eauto.
Qed.
Lemma mode_notes : forall ts a o w, parseAddressingMode ts a = Ok (o, w) -> w = [] \/ exists n, w = [Error n].
Proof.
  intros ts a o w. unfold parseAddressingMode.
  destruct (if has a MODE_REGISTER_MASK then parse_mask (List.length ts) ts 0 0 else (0, 0, ts)) as [[mask count] r].
  destruct (has a MODE_REGISTER_MASK && (count >=? 2)); [intro X; injection X as <- <-; auto|].
  assert (Rest : forall o w, match ts with
      | TExpr e :: r =>
          if has a MODE_ADDR then Ok (Some (AMode MODE_ADDR 0 e, r), [])
          else if has a MODE_IMM then let! (e1, w) := check_range e (-32768) 65535 in Ok (Some (AMode MODE_IMM 0 e1, r), w)
          else if has a MODE_NONE then Ok (Some (no_mode, ts), []) else Ok (None, [])
      | _ => if has a MODE_NONE then Ok (Some (no_mode, ts), []) else Ok (None, [])
      end = Ok (o, w) -> w = [] \/ exists n, w = [Error n]).
  { clear. intros o w X.
    destruct ts as [|[] ts]; try (destruct (has a MODE_NONE); injection X as <- <-; auto).
    destruct (has a MODE_ADDR); [injection X as <- <-; auto|]. destruct (has a MODE_IMM).
    - destruct (check_range e (-32768) 65535) as [[e1 w1]| |] eqn:C; cbn [bind] in X; try discriminate X. injection X as <- <-. exact (check_notes _ _ _ _ _ C).
    - destruct (has a MODE_NONE); injection X as <- <-; auto. }
  cbv zeta. intro X.
  destruct ts as [|[id| | | | | |e|] ts]; try exact (Rest o w X).
  - match type of X with (if ?c then _ else _) = _ => destruct c end; [injection X as <- <-; auto|exact (Rest o w X)].
  - destruct ts as [|[id| | | | | |e|] ts]; try exact (Rest o w X). destruct ts as [|[id1| | | | | |e|] ts]; try exact (Rest o w X).
    match type of X with (if ?c then _ else _) = _ => destruct c end; [injection X as <- <-; auto|exact (Rest o w X)].
Qed.
Lemma clean : forall (w : list item), (w = [] \/ exists n, w = [Error n]) -> no_error w -> w = [].
Proof. intros w [->|(n & ->)] N; [reflexivity|]. exfalso. apply (N n). left. reflexivity. Qed.
Lemma no_error_app : forall a b, no_error (a ++ b) -> no_error a /\ no_error b.
Proof. intros a b N. split; intros n I; apply (N n), in_or_app; auto. Qed.
Lemma conditioned : forall F t0 target id p r c ccid items rest, (T_RC8_ADD <=? id) && (id <=? T_RC8_XOR) = true ->
  nth_error (g_Parsers F true) (Z.to_nat (id - T_RC8_ADD)) = Some p -> p_pass p = false ->
  (forall cc cc' a b, p_handler p (p_base p) cc a b = p_handler p (p_base p) cc' a b) ->
  condition r = Some (CC_ALWAYS, r) -> condition (TDiv :: TId ccid :: r) = Some (c, r) -> c <> CC_ALWAYS ->
  rc8_ParseIntegerInstruction F true t0 (TId id :: r) = Ok (Some (items, rest, false)) -> no_error items ->
  rc8_ParseIntegerInstruction F true target (TId id :: TDiv :: TId ccid :: r) =
    Ok (Some (Byte (0x90 + invertCondition c) :: Relative target :: items, rest, true)).
Proof.
  intros F t0 target id p r c ccid items rest I N P H C1 C2 Nc X Ne.
  unfold rc8_ParseIntegerInstruction in X |- *. rewrite I, N in *. rewrite C1 in X. rewrite C2.
  destruct (parseAddressingMode r (p_first p)) as [[o1 w1]| |] eqn:M1; cbn [bind] in X |- *; try discriminate X.
  pose proof (mode_notes _ _ _ _ M1) as N1.
  destruct o1 as [[m1 r2]|]; [|injection X as <- <-; exfalso; apply (Ne ERROR_OPERAND), in_or_app; right; left; reflexivity].
  match type of X with context [bind ?b _] => destruct b as [[o2 w2]| |] eqn:M2 end; cbn [bind] in X |- *; try discriminate X.
  assert (N2 : w2 = [] \/ exists n, w2 = [Error n]).
  { destruct r2 as [|[] r3]; try (destruct (has (p_second p) MODE_NONE); injection M2 as <- <-; auto). exact (mode_notes _ _ _ _ M2). }
  destruct o2 as [[m2 r4]|]; [|injection X as <- <-; exfalso; apply (Ne MERROR_ILLEGAL_ADDRMODE), in_or_app; right; apply in_or_app; right; left; reflexivity].
  rewrite P in *. cbn [negb andb] in X |- *. rewrite Z.eqb_refl in X. cbn [negb] in X.
  rewrite (H c CC_ALWAYS). destruct (p_handler p (p_base p) CC_ALWAYS m1 m2) as [[ok l]| |]; cbn [bind] in X |- *; try discriminate X.
  destruct (Z.eqb_spec c CC_ALWAYS) as [Ec|_]; [congruence|]. cbn [negb].
  destruct ok; injection X as <- <-.
  - apply no_error_app in Ne. destruct Ne as [Na Ne]. apply no_error_app in Ne. destruct Ne as [Nb Ne].
    rewrite (clean _ N1 Na), (clean _ N2 Nb). reflexivity.
  - exfalso. apply (Ne ERROR_OPERAND). rewrite !app_assoc. apply in_or_app. right. left. reflexivity.
Qed.
(** The first word of an instruction. *)
Lemma first_word : forall F (i : instr expr), exists w id r p, text i = Word w :: r /\ lex1 (Word w) = TId id /\
  (T_RC8_ADD <=? id) && (id <=? T_RC8_XOR) = true /\ nth_error (g_Parsers F true) (Z.to_nat (id - T_RC8_ADD)) = Some p /\
  p_pass p = false /\ (forall cc cc' a b, p_handler p (p_base p) cc a b = p_handler p (p_base p) cc' a b) /\
  match r with Slash :: _ => False | _ => True end.
Proof.
  intros F i. destruct i; try match goal with x : space |- _ => destruct x | x : logic |- _ => destruct x | x : list pair |- _ => destruct x as [|? [|? ?]] end; do 4 eexists; (split; [reflexivity|]); (split; [reflexivity|]); (split; [reflexivity|]);
    (split; [reflexivity|]); (split; [reflexivity|]); (split; [reflexivity|]); cbn; try exact Logic.I.
Qed.

Lemma condition_at : forall c name r, In name (names c) -> exists ccid, lex1 (Word name) = TId ccid /\
  condition (TDiv :: TId ccid :: r) = Some (code c, r) /\ code c <> CC_ALWAYS /\ 0x90 + invertCondition (code c) = 0x90 + code (opposite c).
Proof.
  intros c name r I. destruct c; cbn in I; repeat (destruct I as [<-|I]; [eexists; (split; [reflexivity|]); (split; [reflexivity|]); (split; [discriminate|reflexivity])|]); contradiction I.
Qed.
Theorem on_condition_assembled : forall S i st k m rest c name, ready st k m 10 -> setting_ok S (here m) ->
  args_known S (here m) i -> valid (imap g_value i) -> ends rest -> In name (names c) ->
  exists vs, (List.length vs <= 8)%nat /\ does vs (imap g_value i) /\
  forall target t, let x := e_pc (s_env S) + 2 + Z.of_nat (List.length vs) in
    operand S (here m) t target x -> source_term t -> ~ paren_head t -> tdepth t <= 240 -> 0 <= x <= 65535 ->
  exists st1 st2 st',
    rc8_ParseInstruction (s_F S) true target (lex (on_condition name (text (imap g_expr i))) ++ rest) st = Ok (Some (true, rest, st')) /\
    emits S k st st1 [(1%nat, Num (0x90 + code (opposite c)), 0x90 + code (opposite c))] /\
    emits (moved 1 S) k st1 st2 [(1%nat, PcRel 0 t, 1 + Z.of_nat (List.length vs))] /\
    emits S k st2 st' (map (fun v => (1%nat, term_of i, v)) vs).
Proof.
  intros S i st k m rest c name R SO A V E In.
  assert (Fi : fine S (here m) (term_of i) ENull (imap g_expr i) (imap g_value i) rest).
  { destruct (operand_of i) as [a|] eqn:Oa.
    - destruct (A a Oa) as (O & D). apply (number_fine S (here m) (term_of i) SO ENull i a rest Oa); [unfold term_of; rewrite Oa; reflexivity|exact O|exact D|exact V].
    - apply plain_fine; assumption. }
  destruct Fi as (items & vs & P & It & L & D). exists vs. split; [exact L|]. split; [exact D|].
  intros target t x Op So Np De Bx.
  destruct (first_word (s_F S) (imap g_expr i)) as (w & id & r & p & Ht & Hw & Hi & Hp & Hf & Hh & Hr).
  destruct (condition_at c name (lex r ++ rest) In) as (ccid & C1 & C2 & C3 & C4).
  assert (Ne : no_error items).
  { intros n I. destruct (in_split _ _ I) as (a & b & ->). apply Forall2_app_inv_l in It. destruct It as (v1 & v2 & _ & I2 & _). inversion I2; subst. contradiction. }
  rewrite Ht in P. cbn [lex map app] in P. rewrite Hw in P.
  assert (Hc : condition (lex r ++ rest) = Some (CC_ALWAYS, lex r ++ rest)).
  { destruct r as [|[] r]; try contradiction Hr; try reflexivity; [destruct rest as [|[]]; try contradiction E; reflexivity|].
    cbn [lex map lex1 app]. generalize g_tokens. intro g. induction g as [|[k0 v0] g IH]; [reflexivity|]. cbn [assoc]. destruct (s =? k0)%string; [reflexivity|exact IH]. }
  pose proof (conditioned (s_F S) ENull target id p (lex r ++ rest) (code c) ccid items rest Hi Hp Hf Hh Hc C2 C3 P Ne) as Q.
  rewrite C4 in Q.
  destruct (jump_out S (0x90 + code (opposite c)) target t x k st m SO) with (room := 8) as (st1 & st2 & m2 & Pf & E1 & E2 & R2).
  { exists t. split; [exact Op|]. split; [exact De|]. split; [apply within_refl|]. tauto. }
  { exact Bx. } { subst x. lia. } { exact R. } { lia. }
  destruct (performs S (here m) (term_of i) SO items vs st2 k m2 It) as (st' & P1 & M1).
  { apply (X65Run.ready_less _ _ _ _ _ R2). lia. }
  exists st1, st2, st'. split; [|split; [exact E1|split; [|exact M1]]].
  - rewrite Ht. cbn [on_condition lex map app]. rewrite Hw, C1. cbn [lex1]. unfold rc8_ParseInstruction.
    replace (map lex1 r ++ rest) with (lex r ++ rest) by reflexivity. rewrite Q. cbn [bind]. rewrite Pf, P1. reflexivity.
  - replace (1 + Z.of_nat (List.length vs)) with (x - (e_pc (s_env S) + 1)) by (subst x; lia). exact E2.
Qed.
Theorem jump_assembled : forall S j t e v target st k m rest, ready st k m 2 -> setting_ok S (here m) -> spelled j -> ends rest ->
  operand S (here m) t e v -> source_term t -> ~ paren_head t -> tdepth t <= 240 -> 0 <= v <= 65535 ->
  -128 <= v - (e_pc (s_env S) + 1) <= 127 ->
  exists st1 st', rc8_ParseInstruction (s_F S) true target (lex (jump_text j e) ++ rest) st = Ok (Some (false, rest, st')) /\
    emits S k st st1 [(1%nat, Num (jump_opcode j), jump_opcode j)] /\
    emits (moved 1 S) k st1 st' [(1%nat, PcRel 0 t, v - (e_pc (s_env S) + 1))].
Proof.
  intros S j t e v target st k m rest R SO Sp E Op So Np De Bv Ra.
  destruct (jump_out S (jump_opcode j) e t v k st m SO) with (room := 0) as (st1 & st2 & m2 & Pf & E1 & E2 & R2).
  { exists t. split; [exact Op|]. split; [exact De|]. split; [apply within_refl|]. tauto. }
  { exact Bv. } { exact Ra. } { exact R. } { lia. }
  exists st1, st2. split; [|split; assumption]. unfold rc8_ParseInstruction. rewrite (jump_parsed _ _ _ _ _ Sp E). cbn [bind]. rewrite Pf. reflexivity.
Qed.
(** ** Through a pair *)
Lemma through_parsed : forall F target j rest, through_spelled j -> ends rest ->
  rc8_ParseIntegerInstruction F true target (lex (through_text j) ++ rest) = Ok (Some (map Byte (through_bytes j), rest, false)).
Proof.
  intros F target j rest Sp E. destruct j as [p|c name p|p].
  - destruct p; destruct rest as [|[]]; try contradiction E; reflexivity.
  - cbn [through_spelled] in Sp. destruct p, c; cbn in Sp; repeat (destruct Sp as [<-|Sp]; [destruct rest as [|[]]; try contradiction E; reflexivity|]); contradiction Sp.
  - destruct p; destruct rest as [|[]]; try contradiction E; reflexivity.
Qed.
Theorem through_assembled : forall S j target st k m rest, ready st k m 3 -> setting_ok S (here m) -> through_spelled j -> ends rest ->
  exists st', rc8_ParseInstruction (s_F S) true target (lex (through_text j) ++ rest) st = Ok (Some (false, rest, st')) /\
    emits S k st st' (map (fun v => (1%nat, Num 0, v)) (through_bytes j)).
Proof.
  intros S j target st k m rest R SO Sp E.
  destruct (performs S (here m) (Num 0) SO (map Byte (through_bytes j)) (through_bytes j) st k m) as (st' & P1 & M1).
  { induction (through_bytes j); constructor; [reflexivity|assumption]. }
  { apply (X65Run.ready_less _ _ _ _ _ R). destruct j; cbn; lia. }
  exists st'. split; [|exact M1]. unfold rc8_ParseInstruction. rewrite (through_parsed _ _ _ _ Sp E). cbn [bind]. rewrite P1. reflexivity.
Qed.
Lemma call_parsed : forall F target e rest items, ends rest -> handle_LD_R16_imm F (m16 HL) e = Ok (true, items) ->
  rc8_ParseIntegerInstruction F true target (lex [Word "JAL"; Operand e] ++ rest) = Ok (Some (items ++ [Byte 0x3B], rest, false)).
Proof.
  intros F target e rest items E H.
  assert (X : rc8_ParseIntegerInstruction F true target (lex [Word "JAL"; Operand e] ++ rest) =
    let! (ok, l) := (let! (ok, l) := handle_LD_R16_imm F (m16 HL) e in Ok (ok, if ok then l ++ [Byte (0x38 + 3)] else l)) in
    if ok then Ok (Some (l, rest, false)) else Ok (Some (l ++ [Error ERROR_OPERAND], rest, false))).
  { destruct rest as [|[]]; try contradiction E; reflexivity. }
  rewrite X, H. reflexivity.
Qed.
Theorem call_assembled : forall S t e v target st k m rest, ready st k m 5 -> setting_ok S (here m) -> ends rest ->
  operand S (here m) t e v -> tdepth t <= 240 -> word v ->
  exists vs st', (List.length vs <= 4)%nat /\ does vs (LdImm16 HL v) /\
    rc8_ParseInstruction (s_F S) true target (lex [Word "JAL"; Operand e] ++ rest) st = Ok (Some (false, rest, st')) /\
    emits S k st st' (map (fun v => (1%nat, t, v)) (vs ++ [0x3B])).
Proof.
  intros S t e v target st k m rest R SO E O D W.
  destruct (load_pair_good S (here m) t SO HL 240 e v (K_given _ _ _ _ _ O D)) as (items & vs & A1 & A2 & A3 & A4); [lia|exact W|].
  destruct (performs S (here m) t SO (items ++ [Byte 0x3B]) (vs ++ [0x3B]) st k m) as (st' & P1 & M1).
  { apply Forall2_app; [exact A2|]. constructor; [reflexivity|constructor]. }
  { apply (X65Run.ready_less _ _ _ _ _ R). rewrite app_length. cbn [List.length]. lia. }
  exists vs, st'. split; [exact A3|]. split; [exact A4|]. split; [|exact M1].
  unfold rc8_ParseInstruction. rewrite (call_parsed _ _ _ _ _ E A1). cbn [bind]. rewrite P1. reflexivity.
Qed.
