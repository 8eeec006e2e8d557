(** C46: 6502, 65C02 and 65C02S instructions are encoded as the data sheets say. *)
From Coq Require Import ZArith List Bool Lia ZifyBool String.
From Verif Require Import Base BaseFacts Arith ExprSpec ExprModel ExprLayout ExprProps ObjWriteModel OptModel SectModel SectSpec SectErrors
  SectProps InstrSpec InstrProofs X65Model X65Spec X65Proofs X65Parse X65Run X65Only X65Range.
From Verif Require ChipProps.
Import ListNotations.
Open Scope string_scope.
Open Scope Z_scope.

(** Every instruction of the selected processor, in every form of operand that it has,
    with operands in range, known or not, is accepted.  What is appended to the current
    section is the opcode of the data sheet, in the shortest addressing mode the operand
    allows, followed by the operand bytes, each with the value it has in the final
    program; what follows the instruction is left alone.
    Missing: what [faulty] lists; see the faults below. *)
Theorem C46_encoding_partial : forall S c n s (f : form arg) kd b st k m rest, selectable c n ->
  ready st k m 3 -> setting_ok S (here m) -> args_known S (here m) f ->
  select c n s (is_near f) f = Some (kd, b) -> in_range s kd f (e_pc (s_env S)) (map g_value (operands f)) ->
  ~ faulty s kd f -> ends rest ->
  exists st', x65_ParseIntegerInstruction (s_F S) (x65_options (cpu_number c))
      (lex n (Word s :: text (fmap (fun a => [Operand (g_expr a)]) f)) ++ rest) st = Ok (true, rest, st') /\
    emits_seq S k st st' (cells b kd f (e_pc (s_env S)) (operands f)).
Proof. exact encoded. Qed.
Print Assumptions C46_encoding_partial.

(** Whatever is accepted without a report is a mnemonic of the selected processor
    followed by operands in one of the forms, and that mnemonic has a mode the form can
    stand for; the exceptions are STP and WAI on a 65C02 without them. *)
Theorem C46_only_the_manual : forall F c n s l st ts st', selectable c n ->
  x65_ParseIntegerInstruction F (x65_options (cpu_number c)) (lex n (Word s :: l)) st = Ok (true, ts, st') ->
  x_errors st' = x_errors st ->
  exists (f : form (list piece)) z rest, Forall written_expression (operands f) /\
    l = ((if z && several f then [Less] else []) ++ text f ++ rest)%list /\ ts = lex n rest /\
    (not_for c s = true \/ exists kd b, In kd (kinds true f) /\ opcode c n s kd = Some b).
Proof. exact only_manual. Qed.
Print Assumptions C46_only_the_manual.

(** A constant operand that does not fit its mode is reported.  Branches are not meant
    here: their distance is not known before linking. *)
Theorem C46_out_of_range : forall S c n s (f : form arg) kd b st cur rest ts st', selectable c n -> setting_ok S cur -> args_known S cur f ->
  (forall a, In a (operands f) -> expr_IsConstant (g_expr a) = true) ->
  select c n s (is_near f) f = Some (kd, b) -> kd <> Rel -> kd <> ZpRel -> kd <> BitRel ->
  ~ in_range s kd f (e_pc (s_env S)) (map g_value (operands f)) -> ~ faulty s kd f -> ends rest ->
  x65_ParseIntegerInstruction (s_F S) (x65_options (cpu_number c))
      (lex n (Word s :: text (fmap (fun a => [Operand (g_expr a)]) f)) ++ rest) st = Ok (true, ts, st') ->
  x_errors st' <> x_errors st.
Proof. exact reported. Qed.
Print Assumptions C46_out_of_range.

(** Instructions of one processor that are not other names for the same one have
    different opcodes.  RMB, SMB, BBR and BBS without a digit are other names of the
    ones with it, and have their own opcodes added to the bit number. *)
Definition same_name (s : string) : string :=
  if String.eqb s "BLT" then "BCC" else if String.eqb s "BGE" then "BCS" else
  if String.eqb s "INA" then "INC" else if String.eqb s "DEA" then "DEC" else s.
Definition same_mode (s : string) (kd : kind) : kind :=
  if String.eqb s "INA" || String.eqb s "DEA" then Acc else if String.eqb s "BRK" then Imp else kd.
Definition digitless (kd : kind) : bool := match kd with Bit | BitRel => true | _ => false end.
Definition entries (c : cpu) (n : Z) : list (string * kind * Z) := flat_map (fun r : row => map (fun p => (fst r, fst p, snd p)) (snd r)) (table c n).
Definition clash (x y : string * kind * Z) : bool :=
  let '(s, kd, b) := x in let '(s', kd', b') := y in
  (b =? b') && negb (digitless kd) && negb (digitless kd') &&
  negb (String.eqb (same_name s) (same_name s') && kind_eqb (same_mode s kd) (same_mode s' kd')).
Lemma no_clash : forallb (fun p => let l := entries (fst p) (snd p) in forallb (fun x => forallb (fun y => negb (clash x y)) l) l) settings = true.
Proof. vm_compute. reflexivity. Qed.
Lemma opcode_entry : forall c n s kd b, opcode c n s kd = Some b -> In (s, kd, b) (entries c n).
Proof.
  intros c n s kd b H. unfold opcode in H.
  destruct (find _ _) as [[kd' b']|] eqn:E; [|discriminate]. cbn in H. injection H as ->.
  destruct (find_some _ _ E) as (I & K). cbn [fst] in K. apply kind_eqb_eq in K. subst kd'.
  apply in_flat_map in I. destruct I as (r & Ir & I). destruct (String.eqb_spec s (fst r)); [|destruct I]. subst s.
  apply in_flat_map. exists r. split; [exact Ir|]. apply in_map_iff. exists (kd, b). split; [reflexivity|exact I].
Qed.
Theorem C46_distinct : forall c n s s' kd kd' b, selectable c n -> digitless kd = false -> digitless kd' = false ->
  opcode c n s kd = Some b -> opcode c n s' kd' = Some b -> same_name s = same_name s' /\ same_mode s kd = same_mode s' kd'.
Proof.
  intros c n s s' kd kd' b Se D D' H H'. pose proof no_clash as N. rewrite forallb_forall in N. specialize (N _ (settings_in c n Se)).
  cbn [fst snd] in N. cbv zeta in N. rewrite forallb_forall in N. specialize (N _ (opcode_entry _ _ _ _ _ H)).
  rewrite forallb_forall in N. specialize (N _ (opcode_entry _ _ _ _ _ H')). unfold clash in N.
  rewrite Z.eqb_refl, D, D' in N. cbn [andb negb] in N. rewrite negb_involutive in N. apply andb_prop in N. destruct N as (N1 & N2).
  split; [apply String.eqb_eq, N1|apply kind_eqb_eq, N2].
Qed.
Print Assumptions C46_distinct.

(** ** Cases *)
Import ChipProps.
Definition o_le : options := Options LittleEndian [48; 49] [48; 49; 50; 51] 255 1 [] [] true false false.
Definition begun : xstate :=
  match run [DSection code 0 plain] (initial 1 false two_groups o_le) with Ok st => st | _ => initial 1 false two_groups o_le end.
Lemma begun_ready : exists m, ready begun 0 m 1000 /\ setting_ok exSetting (here m).
Proof.
  eexists. split.
  - split; [repeat split|]. split.
    + unfold section_fine, m_pc, m_used, m_data, is_u32, max_size. cbn. repeat split; lia.
    + split; [reflexivity|]. unfold m_used, max_size. cbn. lia.
  - split; [exact ex_fmath_ok|]. split; [exact ex_env_ok|]. cbn. intros [|]; discriminate.
Qed.
(** "LDA label2-label1,X", "JMP imported-4000" and "BNE label". *)
Definition a_diff : arg := Arg exDiff (built exDiff) 5.
Definition a_far : arg := Arg exFar (built exFar) 1000.
Definition a_label : arg := Arg (Sym 1) (built (Sym 1)) 1004.
Definition assembled (c : cpu) (n : Z) (l : list piece) : option (list Z * nat * list Z) :=
  match x65_ParseIntegerInstruction exF (x65_options (cpu_number c)) (lex n l) begun with
  | Ok (true, [], st) => match x_sections st with [m] => Some (m_data m, List.length (m_patches m), x_errors st) | _ => None end
  | _ => None
  end.
Example C46_encoding_case : exists m,
  ready begun 0 m 3 /\ setting_ok exSetting (here m) /\
  (args_known exSetting (here m) (FAddrX a_diff) /\ is_near (FAddrX a_diff) = true /\
   select C6502 0 "LDA" true (FAddrX a_diff) = Some (ZpX, 0xB5) /\ in_range "LDA" ZpX (FAddrX a_diff) 1006 [5] /\
   ~ faulty "LDA" ZpX (FAddrX a_diff)) /\
  (args_known exSetting (here m) (FAddr a_far) /\ is_near (FAddr a_far) = false /\
   select C65C02S 0 "JMP" false (FAddr a_far) = Some (Abs, 0x4C) /\ in_range "JMP" Abs (FAddr a_far) 1006 [1000] /\
   ~ faulty "JMP" Abs (FAddr a_far)) /\
  (args_known exSetting (here m) (FAddr a_label) /\
   select C6502 2 "BNE" (is_near (FAddr a_label)) (FAddr a_label) = Some (Rel, 0xD0) /\ in_range "BNE" Rel (FAddr a_label) 1006 [1004] /\
   ~ faulty "BNE" Rel (FAddr a_label)) /\
  assembled C6502 0 [Word "LDA"; Operand (built exDiff); Comma; Word "X"] = Some ([0xB5; 5], 0%nat, []) /\
  assembled C65C02S 0 [Word "JMP"; Operand (built exFar)] = Some ([0x4C; 0; 0], 1%nat, []) /\
  assembled C6502 3 [Word "ALR"; Hash; Greater; Operand (expr_Const 0x1234)] = Some ([0x4B; 0x12], 0%nat, []) /\
  assembled C65C02S 0 [Word "SMB"; Operand (expr_Const 3); Comma; Operand (expr_Const 0x20)] = Some ([0xB7; 0x20], 0%nat, []).
Proof.
  destruct begun_ready as (m & (A & B & C & D) & E). exists m. split; [|split; [exact E|]].
  { repeat split; try apply A; try apply B; try exact C. unfold max_size in *. lia. }
  assert (K : forall t v, In (t, v) [(exDiff, 5); (exFar, 1000); (Sym 1, 1004)] ->
            operand exSetting (here m) t (built t) v /\ source_term t /\ ~ paren_head t /\ tdepth t <= 240).
  { intros t v I. destruct I as [I|[I|[I|[]]]]; injection I as <- <-; (split; [|split; [cbn; tauto|split; [cbn; tauto|cbn; lia]]]);
      (split; [reflexivity|split; [cbn; unfold is_s32; try tauto; lia|split]]).
    all: try (intros s H; repeat (destruct H as [<-|H]; [split; [reflexivity|discriminate]|]); destruct H).
    all: split; [cbn; tauto|split; [cbn; tauto|reflexivity]]. }
  split; [|split; [|split]].
  - split; [|repeat split; [cbn; lia|cbn; lia|]].
    + intros a Ha. destruct Ha as [<-|[]]. apply (K exDiff 5). left. reflexivity.
    + intros [H|[[H _]|H]]; [discriminate|discriminate|exact H].
  - split; [|repeat split; [cbn; lia|cbn; lia|]].
    + intros a Ha. destruct Ha as [<-|[]]. apply (K exFar 1000). right. left. reflexivity.
    + intros [H|[[H _]|H]]; [discriminate|discriminate|exact H].
  - split; [|repeat split; [cbn; lia|cbn; lia|cbn; lia|cbn; lia|]].
    + intros a Ha. destruct Ha as [<-|[]]. apply (K (Sym 1) 1004). right. right. left. reflexivity.
    + intros [H|[[H _]|H]]; [discriminate|discriminate|exact H].
  - vm_compute. repeat split.
Qed.
(** "LDX $12,X" has no opcode, and is reported. *)
Example C46_only_case :
  (forall kd, In kd (kinds true (FAddrX tt)) -> opcode C6502 0 "LDX" kd = None) /\
  assembled C6502 0 [Word "LDY"; Operand (expr_Const 0x12); Comma; Word "X"] = Some ([0xB4; 0x12], 0%nat, []) /\
  assembled C6502 0 [Word "LDX"; Operand (expr_Const 0x12); Comma; Word "X"] = None.
Proof. split; [intros kd [<-|[<-|[]]]; reflexivity|vm_compute; repeat split]. Qed.
(** "LDA #256", "STA <$1234" and "STA $12345". *)
Definition a_num (v : Z) : arg := Arg (Num v) (expr_Const v) v.
Example C46_out_of_range_case :
  select C6502 0 "LDA" false (FImm (a_num 256)) = Some (Imm, 0xA9) /\ ~ in_range "LDA" Imm (FImm (a_num 256)) 1006 [256] /\
  select C6502 0 "STA" false (FZp (a_num 0x1234)) = Some (Zp, 0x85) /\ ~ in_range "STA" Zp (FZp (a_num 0x1234)) 1006 [0x1234] /\
  select C6502 0 "STA" false (FAddr (a_num 0x12345)) = Some (Abs, 0x8D) /\ ~ in_range "STA" Abs (FAddr (a_num 0x12345)) 1006 [0x12345] /\
  assembled C6502 0 [Word "LDA"; Hash; Operand (expr_Const 256)] = Some ([0xA9; 0], 0%nat, [ERROR_OPERAND_RANGE]) /\
  assembled C6502 0 [Word "STA"; Less; Operand (expr_Const 0x1234)] = Some ([0x85; 0], 0%nat, [ERROR_OPERAND_RANGE]) /\
  assembled C6502 0 [Word "STA"; Operand (expr_Const 0x12345)] = Some ([0x8D; 0; 0], 0%nat, [ERROR_OPERAND_RANGE]).
Proof. cbn [in_range part]. unfold byte, word. repeat split; try (vm_compute; reflexivity); vm_compute; intros; lia || tauto || idtac.
  all: intuition discriminate. Qed.
Example C46_distinct_case : opcode C65C02 0 "DEA" Imp = Some 0x3A /\ opcode C65C02 0 "DEC" Acc = Some 0x3A /\
  same_name "DEA" = same_name "DEC" /\ same_mode "DEA" Imp = same_mode "DEC" Acc.
Proof. repeat split. Qed.

(** ** Faults *)
(** The undocumented RLA is stored as SRE: "RLA $12" gives the opcode of "SRE $12". *)
Theorem C46_rla_refuted : forall n, 1 <= n <= 3 ->
  opcode C6502 n "RLA" Zp = Some 0x27 /\
  assembled C6502 n [Word "RLA"; Operand (expr_Const 0x12)] = Some ([0x47; 0x12], 0%nat, []).
Proof. intros n H. assert (C : n = 1 \/ n = 2 \/ n = 3) by lia. destruct C as [->|[->| ->]]; vm_compute; split; reflexivity. Qed.
Print Assumptions C46_rla_refuted.
(** A pointer in the zero page, as an imported name less a number. *)
Definition exPointer : term := Bin OpSub (Sym 0) (Num 4990).
Definition a_pointer : arg := Arg exPointer (built exPointer) 10.
Lemma pointer_known : operand exSetting None exPointer (built exPointer) 10 /\ byte 10.
Proof.
  split; [|unfold byte; lia]. split; [reflexivity|]. split; [cbn; unfold is_s32; lia|]. split.
  { intros s H. repeat (destruct H as [<-|H]; [split; [reflexivity|discriminate]|]). destruct H. }
  split; [cbn; tauto|]. split; [cbn; tauto|reflexivity].
Qed.
(** On a 65C02, "LDA (pointer)" is refused when the address of the pointer is not a
    constant, although it is in the zero page in the end. *)
Theorem C46_indirect_refuted : forall a, a = a_pointer ->
  select C65C02 0 "LDA" (is_near (FInd a)) (FInd a) = Some (IndZp, 0xB2) /\
  match x65_ParseIntegerInstruction exF (x65_options (cpu_number C65C02)) (lex 0 (Word "LDA" :: text (FInd [Operand (g_expr a)]))) begun with
  | Ok (true, _, st) => x_errors st = [MERROR_ILLEGAL_ADDRMODE] /\ map m_data (x_sections st) = [[]]
  | _ => False
  end.
Proof. intros a ->. vm_compute. repeat split. Qed.
Print Assumptions C46_indirect_refuted.
(** "BBR 3,pointer,target" with a pointer that is not a constant is always reported. *)
Theorem C46_bit_branch_refuted :
  select C65C02S 0 "BBR" true (FThree (a_num 3) a_pointer a_label) = Some (BitRel, 0x0F) /\
  assembled C65C02S 0 (Word "BBR" :: text (FThree [Operand (expr_Const 3)] [Operand (built exPointer)] [Operand (built (Sym 1))])) =
    Some ([0x3F; 0; 0], 2%nat, [MERROR_NEEDS_ZP]).
Proof. vm_compute. split; reflexivity. Qed.
Print Assumptions C46_bit_branch_refuted.
(** STP and WAI, which are only in the 65C02S, are accepted for a plain 65C02. *)
Theorem C46_wait_refuted : opcode C65C02 0 "WAI" Imp = None /\ assembled C65C02 0 [Word "WAI"] = Some ([0xCB], 0%nat, []) /\
  opcode C65C02 0 "STP" Imp = None /\ assembled C65C02 0 [Word "STP"] = Some ([0xDB], 0%nat, []).
Proof. vm_compute. repeat split. Qed.
Print Assumptions C46_wait_refuted.
