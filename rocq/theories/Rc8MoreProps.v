(** C70, continued: the encodings of the remaining RC811 instructions. *)
From Coq Require Import ZArith List Bool String Lia ZifyBool.
From Verif Require Import Base BaseFacts Arith ExprSpec ExprModel ExprLayout ExprProps ObjWriteModel OptModel SectModel SectSpec SectProps
  InstrSpec InstrProofs X65Spec Rc8Model Rc8Spec Rc8JumpSpec Rc8MoreSpec Rc8More Rc8JumpProps Rc8Option Rc8Single.
From Verif Require ChipProps.
Import ListNotations.
Open Scope string_scope.
Open Scope list_scope.
Open Scope Z_scope.

(** Shifts, comparisons, TST, PICK, SYS, LCO, LCR, EXT, DI, EI and RETI are stored as the
    bytes in [more_bytes], whether a number is known or not, and nothing is reported. *)
Theorem C70_encoding : forall S i target st k m rest,
  ready st k m 3 -> setting_ok S (here m) -> more_known S (here m) i -> more_valid (more_map g_value i) -> ends rest ->
  exists st', rc8_ParseInstruction (s_F S) true target (lex (more_text (more_map g_expr i)) ++ rest) st = Ok (Some (false, rest, st')) /\
    emits S k st st' (map (fun v => (1%nat, more_term i, v)) (more_bytes (more_map g_value i))).
Proof. exact more_assembled. Qed.
Print Assumptions C70_encoding.

(** An instruction with FT or T written out. *)
Definition plain (i : more Z) : more Z :=
  match i with
  | Shift d _ r => Shift d true r | ShiftImm d _ n => ShiftImm d true n | CmpT _ r => CmpT true r | CmpFT _ p => CmpFT true p
  | _ => i
  end.
(** Different ones, not counting how they are written, are stored as different bytes. *)
Theorem C70_encoding_distinct : forall i j, more_valid i -> more_valid j -> more_bytes i = more_bytes j -> plain i = plain j.
Proof.
  intros i j Vi Vj H.
  destruct i as [d b r|d b n|b r|b p|r n|p|p|p n|n|p| | | | | |]; destruct j as [d' b' r'|d' b' n'|b' r'|b' p'|r' n'|p'|p'|p' n'|n'|p'| | | | | |];
    cbn [more_bytes more_valid plain] in H, Vi, Vj |- *; try discriminate H;
    repeat match goal with x : direction |- _ => destruct x | x : reg |- _ => destruct x | x : pair |- _ => destruct x end;
    try (cbn in H; discriminate H); try (exfalso; intuition congruence); try reflexivity; try (injection H; intros; subst; reflexivity).
Qed.
Print Assumptions C70_encoding_distinct.

(** A condition may be written with these too, as in C70_conditional. *)
Theorem C70_conditional_encoding : forall S i st k m rest c name target t,
  ready st k m 5 -> setting_ok S (here m) -> more_known S (here m) i -> more_valid (more_map g_value i) -> ends rest ->
  In name (names c) ->
  let vs := more_bytes (more_map g_value i) in
  let x := e_pc (s_env S) + 2 + Z.of_nat (List.length vs) in
  operand S (here m) t target x -> source_term t -> ~ paren_head t -> tdepth t <= 240 -> 0 <= x <= 65535 ->
  exists st1 st2 st',
    rc8_ParseInstruction (s_F S) true target (lex (on_condition name (more_text (more_map g_expr i))) ++ rest) st = Ok (Some (true, rest, st')) /\
    emits S k st st1 [(1%nat, Num (0x90 + code (opposite c)), 0x90 + code (opposite c))] /\
    emits (moved 1 S) k st1 st2 [(1%nat, PcRel 0 t, x - (e_pc (s_env S) + 1))] /\
    emits S k st2 st' (map (fun v => (1%nat, more_term i, v)) vs).
Proof. exact more_on_condition. Qed.
Print Assumptions C70_conditional_encoding.

(** A line that is assembled without a report when synthesized instructions are switched
    off is assembled to the same when they are on. *)
Theorem C70_option : forall F target ts items rest b,
  rc8_ParseIntegerInstruction F false target ts = Ok (Some (items, rest, b)) -> (forall n, ~ In (Error n) items) ->
  rc8_ParseIntegerInstruction F true target ts = Ok (Some (items, rest, b)).
Proof. exact option_kept. Qed.
Print Assumptions C70_option.
(** With synthesized instructions switched off a line without a condition is stored as one
    instruction of the processor, or something is reported.  Missing: PICK and conditions,
    for which it does not hold. *)
Theorem C70_option_single_partial : forall F target ts items rest,
  rc8_ParseIntegerInstruction F false target ts = Ok (Some (items, rest, false)) ->
  (forall r, ts <> lex1 (Word "PICK") :: r) -> at_most_one items \/ reports items.
Proof. exact one_instruction. Qed.
Print Assumptions C70_option_single_partial.
(** "PICK BC,5" and "NOP/Z" are stored as several although the option is off. *)
Theorem C70_option_single_refuted : ~ (forall F target ts items rest b,
  rc8_ParseIntegerInstruction F false target ts = Ok (Some (items, rest, b)) -> at_most_one items \/ reports items).
Proof.
  intro H. specialize (H exF ENull (lex (imm "PICK" "BC" (expr_Const 5))) _ _ _ eq_refl).
  destruct H as [H|(n & H)]; [exact H|]. repeat destruct H as [H|H]; try discriminate H. exact H.
Qed.
Print Assumptions C70_option_single_refuted.
Theorem C70_option_condition_refuted : ~ (forall F target ts items rest b, (forall r, ts <> lex1 (Word "PICK") :: r) ->
  rc8_ParseIntegerInstruction F false target ts = Ok (Some (items, rest, b)) -> at_most_one items \/ reports items).
Proof.
  intro H. specialize (H exF (expr_Const 0) (lex (on_condition "Z" [Word "NOP"])) _ _ _ ltac:(intros r X; discriminate X) eq_refl).
  destruct H as [H|(n & H)]; [exact H|]. repeat destruct H as [H|H]; try discriminate H. exact H.
Qed.
Print Assumptions C70_option_condition_refuted.
Example C70_option_case : forall F target,
  rc8_ParseIntegerInstruction F false target (lex (on_condition "NZ" (two "EXG" "T" "L"))) = Ok (Some ([Byte 0x98; Relative target; Byte 0x17], [], true)) /\
  rc8_ParseIntegerInstruction F false target (lex (two "EXG" "H" "L")) = Ok (Some ([Error MERROR_REQUIRES_SYNTHESIZED; Error ERROR_OPERAND], [], false)) /\
  rc8_ParseIntegerInstruction F true target (lex (two "EXG" "H" "L")) = Ok (Some ([Byte 0x17; Byte 0x16; Byte 0x17], [], false)).
Proof. intros. split; [reflexivity|split; reflexivity]. Qed.

(** ** Cases *)
(** "RSA FT,label2-label1" with 5. *)
Example C70_encoding_case : exists m,
  ready ChipProps.started 0 m 3 /\ setting_ok ChipProps.exSetting (here m) /\
  (let i := ShiftImm RightShiftArithmetic true (Arg ChipProps.exDiff (ChipProps.built ChipProps.exDiff) 5) in
   more_known ChipProps.exSetting (here m) i /\ more_valid (more_map g_value i) /\
   exOut ENull (more_text (more_map g_expr i)) = Some (false, [0xBB; 5])) /\
  exOut ENull (more_text (Shift LeftShift false rL)) = Some (false, [0xE7]) /\
  exOut ENull (more_text (PickImm DE (expr_Const 200))) = Some (false, [0x85; 200; 0x1E]) /\
  exOut ENull (more_text (CmpFT true HL)) = Some (false, [0xCF]) /\
  exOut ENull (more_text (ShiftImm LeftShift false (expr_Const 16))) = None /\
  operand ChipProps.exSetting (here m) (Sym 2) (ChipProps.built (Sym 2)) 1009 /\
  1009 = e_pc (s_env ChipProps.exSetting) + 2 + Z.of_nat (List.length (more_bytes (Tst DE))) /\
  exOut (ChipProps.built (Sym 2)) (on_condition "GTU" (more_text (Tst DE))) = Some (true, [0x94; 0; 0xD6]).
Proof.
  destruct ChipProps.started_ready as (m & (A & B & C & D) & E). exists m. split; [|split; [exact E|]].
  { repeat split; try apply A; try apply B; try exact C. unfold max_size in *. lia. }
  assert (Op : operand ChipProps.exSetting (here m) (Sym 2) (ChipProps.built (Sym 2)) 1009).
  { split; [reflexivity|]. split; [cbn; tauto|]. split; [intros x H; repeat (destruct H as [<-|H]; [split; [reflexivity|discriminate]|]); destruct H|].
    split; [cbn; tauto|]. split; [cbn; tauto|reflexivity]. }
  split; [|repeat (split; [vm_compute; reflexivity|]); split; [exact Op|split; [reflexivity|vm_compute; reflexivity]]].
  cbv zeta. split; [|split; [cbn; lia|vm_compute; reflexivity]].
  intros a Ha. inversion Ha; subst a. split; [|cbn; lia].
  split; [reflexivity|]. split; [cbn; tauto|]. split.
  { intros s H. repeat (destruct H as [<-|H]; [split; [reflexivity|discriminate]|]). destruct H. }
  split; [cbn; tauto|]. split; [cbn; tauto|reflexivity].
Qed.
