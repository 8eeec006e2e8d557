(** C70, continued: RC811 jumps and instructions with a condition. *)
From Coq Require Import ZArith List Bool String Lia ZifyBool.
From Verif Require Import Base BaseFacts Arith ExprSpec ExprModel ExprLayout ExprProps ObjWriteModel OptModel SectModel SectSpec SectProps
  InstrSpec InstrProofs X65Spec Rc8Model Rc8Spec Rc8Run Rc8Imm Rc8Proofs Rc8JumpSpec Rc8Jump.
From Verif Require ChipProps.
Import ListNotations.
Open Scope string_scope.
Open Scope list_scope.
Open Scope Z_scope.

(** A jump is stored as its opcode and the distance to the place the operand turns out to
    denote, counted from the address of the second byte. *)
Theorem C70_jumps : forall S j t e v target st k m rest,
  ready st k m 2 -> setting_ok S (here m) -> spelled j -> ends rest ->
  operand S (here m) t e v -> source_term t -> ~ paren_head t -> tdepth t <= 240 -> 0 <= v <= 65535 ->
  -128 <= v - (e_pc (s_env S) + 1) <= 127 ->
  exists st1 st', rc8_ParseInstruction (s_F S) true target (lex (jump_text j e) ++ rest) st = Ok (Some (false, rest, st')) /\
    emits S k st st1 [(1%nat, Num (jump_opcode j), jump_opcode j)] /\
    emits (moved 1 S) k st1 st' [(1%nat, PcRel 0 t, v - (e_pc (s_env S) + 1))].
Proof. exact jump_assembled. Qed.
Print Assumptions C70_jumps.

(** Behind the first word of any instruction of C70_instructions_partial a condition may
    be written, in each of its spellings.  The bytes [vs], which do what the instruction
    says, are then preceded by a jump on the opposite condition.  The assembler asks for a
    label to be placed behind the instruction (the answer's first part), and [target] is
    the expression that names it: when it is where it is asked for, that is, past the two
    bytes of the jump and past [vs], the jump leads there. *)
Theorem C70_conditional : forall S i st k m rest c name,
  ready st k m 10 -> setting_ok S (here m) -> args_known S (here m) i -> valid (imap g_value i) -> ends rest ->
  In name (names c) ->
  exists vs, (List.length vs <= 8)%nat /\
  (forall s, sound s -> exists s', run (map (fun v => v mod 256) vs) s = Some s' /\ same s' (meaning (imap g_value i) s)) /\
  forall target t, let x := e_pc (s_env S) + 2 + Z.of_nat (List.length vs) in
    operand S (here m) t target x -> source_term t -> ~ paren_head t -> tdepth t <= 240 -> 0 <= x <= 65535 ->
  exists st1 st2 st',
    rc8_ParseInstruction (s_F S) true target (lex (on_condition name (text (imap g_expr i))) ++ rest) st = Ok (Some (true, rest, st')) /\
    emits S k st st1 [(1%nat, Num (0x90 + code (opposite c)), 0x90 + code (opposite c))] /\
    emits (moved 1 S) k st1 st2 [(1%nat, PcRel 0 t, x - (e_pc (s_env S) + 1))] /\
    emits S k st2 st' (map (fun v => (1%nat, term_of i, v)) vs).
Proof.
  intros S i st k m rest c name R SO A V E I.
  destruct (on_condition_assembled S i st k m rest c name R SO A V E I) as (vs & L & D & H).
  exists vs. split; [exact L|]. split; [exact D|]. intros target t x O So P De B.
  destruct (H target t O So P De B) as (st1 & st2 & st' & X & E1 & E2 & E3).
  exists st1, st2, st'. split; [exact X|]. split; [exact E1|]. split; [|exact E3].
  replace (x - (e_pc (s_env S) + 1)) with (1 + Z.of_nat (List.length vs)) by (subst x; lia). exact E2.
Qed.
Print Assumptions C70_conditional.

(** J and JAL to the address in a pair. *)
Theorem C70_through_pairs : forall S j target st k m rest,
  ready st k m 3 -> setting_ok S (here m) -> through_spelled j -> ends rest ->
  exists st', rc8_ParseInstruction (s_F S) true target (lex (through_text j) ++ rest) st = Ok (Some (false, rest, st')) /\
    emits S k st st' (map (fun v => (1%nat, Num 0, v)) (through_bytes j)).
Proof. exact through_assembled. Qed.
Print Assumptions C70_through_pairs.

(** JAL to an address: bytes that load it into HL and change nothing else, then JAL (HL). *)
Theorem C70_call : forall S t e v target st k m rest,
  ready st k m 5 -> setting_ok S (here m) -> ends rest -> operand S (here m) t e v -> tdepth t <= 240 -> word v ->
  exists vs st', (List.length vs <= 4)%nat /\
    (forall s, sound s -> exists s', run (map (fun v => v mod 256) vs) s = Some s' /\ same s' (set16 HL v s)) /\
    rc8_ParseInstruction (s_F S) true target (lex [Word "JAL"; Operand e] ++ rest) st = Ok (Some (false, rest, st')) /\
    emits S k st st' (map (fun v => (1%nat, t, v)) (vs ++ through_bytes (Call HL))).
Proof. exact call_assembled. Qed.
Print Assumptions C70_call.

(** ** Cases *)
Definition exOut (target : expr) (l : list piece) : option (bool * list Z) :=
  match rc8_ParseInstruction exF true target (lex l) ChipProps.started with
  | Ok (Some (b, [], st)) => match x_sections st, x_errors st with [m], [] => Some (b, m_data m) | _, _ => None end
  | _ => None
  end.
(** "DJ H,label1" with the label three bytes before the distance; "LD/NC T,E" takes one
    byte and is skipped to label2. *)
Example C70_jumps_case : exists m,
  ready ChipProps.started 0 m 10 /\ setting_ok ChipProps.exSetting (here m) /\
  (operand ChipProps.exSetting (here m) (Sym 1) (ChipProps.built (Sym 1)) 1004 /\ source_term (Sym 1) /\ ~ paren_head (Sym 1) /\
   spelled (DecJump rH) /\ -128 <= 1004 - (e_pc (s_env ChipProps.exSetting) + 1) <= 127) /\
  (operand ChipProps.exSetting (here m) (Sym 2) (ChipProps.built (Sym 2)) 1009 /\
   1009 = e_pc (s_env ChipProps.exSetting) + 2 + Z.of_nat (List.length [0x5D]) /\
   args_known ChipProps.exSetting (here m) (LdT rE) /\ valid (imap g_value (LdT rE)) /\ In "NC" (names GEU)) /\
  exOut ENull (jump_text (DecJump rH) (ChipProps.built (Sym 1))) = Some (false, [0x8E; 0]) /\
  exOut (ChipProps.built (Sym 2)) (on_condition "NC" (text (LdT rE))) = Some (true, [0x96; 0; 0x5D]) /\
  exOut (ChipProps.built (Sym 2)) (on_condition "Z" (text (Push [HL; FT; DE]))) = Some (true, [0x99; 0; 0xF8; 0xC5]) /\
  through_spelled (JumpToIf LTU "C" DE) /\ exOut ENull (through_text (JumpToIf LTU "C" DE)) = Some (false, [0x97; 2; 0x3E]) /\
  word 1009 /\ exOut ENull [Word "JAL"; Operand (expr_Const 0x1234)] = Some (false, [0x86; 0x12; 0x87; 0x34; 0x3B]) /\
  exOut ENull [Word "JAL"; Operand (ChipProps.built (Sym 2))] = Some (false, [0x86; 0; 0x87; 0; 0x3B]).
Proof.
  destruct ChipProps.started_ready as (m & (A & B & C & D) & E). exists m. split; [|split; [exact E|]].
  { repeat split; try apply A; try apply B; try exact C. unfold max_size in *. lia. }
  assert (Op : forall s v, (s = 1%nat /\ v = 1004) \/ (s = 2%nat /\ v = 1009) -> operand ChipProps.exSetting (here m) (Sym s) (ChipProps.built (Sym s)) v).
  { intros s v [(-> & ->) | (-> & ->)]; (split; [reflexivity|]); (split; [cbn; tauto|]); (split; [intros x H; repeat (destruct H as [<-|H]; [split; [reflexivity|discriminate]|]); destruct H|]);
      (split; [cbn; tauto|]); (split; [cbn; tauto|reflexivity]). }
  split; [|split; [|vm_compute; repeat split; try discriminate; tauto]].
  - split; [apply Op; tauto|]. cbn. repeat split; try lia; tauto.
  - split; [apply Op; tauto|]. split; [reflexivity|]. split; [intros a Ha; discriminate Ha|]. split; [cbn; repeat split; discriminate|cbn; tauto].
Qed.
