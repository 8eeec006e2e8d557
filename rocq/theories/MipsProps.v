(** C45: MIPS32 instructions are encoded as the manual says. *)
From Coq Require Import ZArith List Bool Lia ZifyBool String.
From Verif Require Import Base BaseFacts Arith ExprSpec ExprModel ExprLayout ExprProps OptModel SectModel SectSpec SectProps
  InstrSpec InstrProofs MipsModel MipsSpec MipsProofs MipsOnly MipsDecode.
From Verif Require ChipProps.
Import ListNotations.
Open Scope string_scope.
Open Scope Z_scope.

(** Every instruction with operands in range, known or not, is accepted, and appends
    to the current section the four bytes of its word; what follows the instruction
    is left alone.  The operand's value is the one it has in the final program, and
    the address of a branch is that of the instruction.  Missing: the shifts by a
    register and BLTZL, see below. *)
Theorem C45_encoding_partial : forall S i st k m rest,
  ready st k m 4 -> setting_ok S (here m) -> args_known S (here m) i -> valid (e_pc (s_env S)) (mmap g_value i) ->
  (forall s rd rt rs, i <> ShiftV s rd rt rs) -> (forall rs a, i <> Br1 "BLTZL" rs a) -> follows i rest ->
  exists st', mips_ParseIntegerInstruction (s_F S) (lex (text (mmap g_expr i)) ++ rest)%list st = Ok (true, rest, st') /\
    emits S k st st' [(4%nat, term_of i, s32 (encoding (e_pc (s_env S)) (mmap g_value i)))].
Proof.
  intros S i st k m rest R SO A V N1 N2 Fo. apply (encoded S i st k m rest R SO A V); [|exact Fo].
  destruct i; try exact I; [destruct (N1 s rd rt rs eq_refl)|]. intros ->. exact (N2 rs n eq_refl).
Qed.
Print Assumptions C45_encoding_partial.

(** Instructions that differ, in more than one being another way to write the other,
    have different words; a word fits four bytes. *)
Theorem C45_distinct : forall pc i j, valid pc i -> valid pc j -> encoding pc i = encoding pc j -> canonical i = canonical j.
Proof. exact distinct. Qed.
Print Assumptions C45_distinct.
Theorem C45_four_bytes : forall pc i, valid pc i -> 0 <= encoding pc i < 2 ^ 32.
Proof. exact four_bytes. Qed.
Print Assumptions C45_four_bytes.

(** Text that is accepted without a report and has an effect is an instruction of the
    manual, followed by what is left. *)
Theorem C45_only_the_manual : forall F ts st rest st',
  mips_ParseIntegerInstruction F ts st = Ok (true, rest, st') -> x_errors st' = x_errors st -> st' <> st ->
  exists i : minstr expr, shape i /\ ts = (lex (text i) ++ rest)%list.
Proof. exact only_manual. Qed.
Print Assumptions C45_only_the_manual.

(** A constant operand out of range is reported, and the instruction is stored with a
    zero in its place. *)
Theorem C45_out_of_range : forall S i st k m rest n lo hi,
  ready st k m 4 -> setting_ok S (here m) -> shape i -> operand_of i = Some n -> limits i = Some (lo, hi) -> ~ (lo <= n <= hi) ->
  exists st', mips_ParseIntegerInstruction (s_F S) (lex (text (mmap expr_Const i)) ++ rest)%list st = Ok (true, rest, st') /\
    emits S k (err_Error ERROR_OPERAND_RANGE st) st' [(4%nat, Num 0, s32 (encoding 0 (mmap (fun _ => 0) i)))].
Proof. exact too_big. Qed.
Print Assumptions C45_out_of_range.

(** The conventional name of a register stands for its number. *)
Theorem C45_register_names : forall r, reg r -> lex1 (Word (nth (Z.to_nat r) conventional "")) = lex1 (register r).
Proof.
  unfold reg. intros r H. assert (E : exists n, r = Z.of_nat n /\ (n < 32)%nat) by (exists (Z.to_nat r); lia).
  destruct E as (n & -> & L). clear H. rewrite Nat2Z.id. unfold register. rewrite Nat2Z.id.
  do 32 (destruct n as [|n]; [reflexivity|]). lia.
Qed.
Print Assumptions C45_register_names.

(** ** Cases *)
Notation exS := ChipProps.exSetting.
Notation started := ChipProps.started.
Notation built := ChipProps.built.
(** "ADDI R3,R4,label2-label1", "LW R9,imported-5008(SP)", "BNE R3,R4,imported+2" and
    "MUL R3,R4,R5". *)
Definition exDiff : term := Bin OpSub (Sym 2) (Sym 1).
Definition exNear : term := Bin OpSub (Sym 0) (Num 5008).
Definition exTarget : term := Bin OpAdd (Sym 0) (Num 2).
Definition stored (l : list piece) : option (list (list Z) * list nat * list Z) :=
  match mips_ParseIntegerInstruction exF (lex l) started with
  | Ok (true, [], st) => Some (map m_data (x_sections st), map (fun m => List.length (m_patches m)) (x_sections st), x_errors st)
  | _ => None
  end.
Example C45_encoding_case : exists m,
  ready started 0 m 4 /\ setting_ok exS (here m) /\
  (let i := Imm "ADDI" 3 4 (Arg exDiff (built exDiff) 5) in
   args_known exS (here m) i /\ valid 1006 (mmap g_value i) /\ encoding 1006 (mmap g_value i) = 0x20830005) /\
  (let i := Mem "LW" 9 (Arg exNear (built exNear) (-8)) 29 in
   args_known exS (here m) i /\ valid 1006 (mmap g_value i) /\ encoding 1006 (mmap g_value i) = 0x8FA9FFF8) /\
  (let i := Br2 "BNE" 3 4 (Arg exTarget (built exTarget) 5002) in
   args_known exS (here m) i /\ valid 1006 (mmap g_value i) /\ encoding 1006 (mmap g_value i) = 0x146403E6) /\
  stored [Word "ADDI"; Word "R3"; Comma; Word "A0"; Comma; Operand (built exDiff)] = Some ([[0x20; 0x83; 0; 5]], [0%nat], []) /\
  stored [Word "LW"; Word "T1"; Comma; Operand (built exNear); Left; Word "SP"; Right] = Some ([[0; 0; 0; 0]], [1%nat], []) /\
  stored [Word "MUL"; Word "R3"; Comma; Word "R4"; Comma; Word "R5"] = Some ([[0x70; 0x85; 0x18; 0x02]], [0%nat], []).
Proof.
  destruct ChipProps.started_ready as (m & (A & B & C & D) & E). exists m. split; [|split; [exact E|]].
  { repeat split; try apply A; try apply B; try exact C. unfold max_size in *. lia. }
  split; [|split; [|split]].
  - cbv zeta. split; [|split; [|reflexivity]].
    2: { cbn. unfold listed, reg, within. cbn. repeat split; try lia; tauto. }
    intros a Ha. inversion Ha; subst a. split; [|split; [cbn; lia|discriminate]].
    split; [reflexivity|]. split; [cbn; tauto|]. split.
    { intros s H. repeat (destruct H as [<-|H]; [split; [reflexivity|discriminate]|]). destruct H. }
    split; [cbn; tauto|]. split; [cbn; tauto|reflexivity].
  - cbv zeta. split; [|split; [|reflexivity]].
    2: { cbn. unfold listed, reg. cbn. repeat split; try lia; tauto. }
    intros a Ha. inversion Ha; subst a. split; [|split; [cbn; lia|discriminate]].
    split; [reflexivity|]. split; [cbn; unfold is_s32; lia|]. split.
    { intros s H. repeat (destruct H as [<-|H]; [split; [reflexivity|discriminate]|]). destruct H. }
    split; [cbn; tauto|]. split; [cbn; tauto|reflexivity].
  - cbv zeta. split; [|split; [|reflexivity]].
    2: { cbn. unfold listed, reg, reaches. cbn. repeat split; try lia; tauto. }
    intros a Ha. inversion Ha; subst a. split; [|split; [cbn; lia|intros _; cbn; unfold is_s32; split; [tauto|lia]]].
    split; [reflexivity|]. split; [cbn; unfold is_s32; lia|]. split.
    { intros s H. repeat (destruct H as [<-|H]; [split; [reflexivity|discriminate]|]). destruct H. }
    split; [cbn; tauto|]. split; [cbn; tauto|reflexivity].
  - vm_compute. repeat split.
Qed.
Example C45_distinct_case : valid 1000 (Br0 "B" 1016) /\ valid 1000 (Br2 "BEQ" 0 0 1016) /\
  encoding 1000 (Br0 "B" 1016) = 0x10000003 /\ canonical (Br0 "B" 1016) = Br2 "BEQ" 0 0 1016 /\
  encoding 1000 (Reg3 "SUB" 1 2 3) <> encoding 1000 (Reg3 "SUB" 1 3 2).
Proof.
  unfold valid, listed, reaches, offset, reg. split; [|split; [|split; [reflexivity|split; [reflexivity|discriminate]]]].
  - split; [left; reflexivity|]. split; [reflexivity|]. vm_compute. split; discriminate.
  - split; [left; reflexivity|]. split; [lia|]. split; [lia|]. split; [reflexivity|]. vm_compute. split; discriminate.
Qed.
Example C45_only_case : exists st', mips_ParseIntegerInstruction exF (lex [Word "NOP"; Comma]) started = Ok (true, [TComma], st') /\
  x_errors st' = x_errors started /\ st' <> started.
Proof.
  eexists. split; [reflexivity|]. split; [reflexivity|]. intro H. apply (f_equal (fun s => map m_data (x_sections s))) in H. discriminate.
Qed.
Example C45_out_of_range_case : shape (Shift "SLL" 3 4 32) /\ limits (Shift "SLL" 3 4 32) = Some (0, 31) /\
  stored (text (mmap expr_Const (Shift "SLL" 3 4 32))) = Some ([[0; 4; 0x18; 0]], [0%nat], [ERROR_OPERAND_RANGE]) /\
  stored (text (mmap expr_Const (Imm "ADDI" 3 4 32768))) = Some ([[0x20; 0x83; 0; 0]], [0%nat], [ERROR_OPERAND_RANGE]).
Proof. split; [|vm_compute; repeat split]. split; [right; left; reflexivity|unfold reg; lia]. Qed.
Example C45_register_names_case : reg 29 /\ nth (Z.to_nat 29) conventional "" = "SP" /\ lex1 (Word "SP") = TId 6165.
Proof. split; [unfold reg; lia|split; reflexivity]. Qed.

(** ** Faults *)
(** A section at the address 1000. *)
Definition at1000 : xstate :=
  match run [DSection code 0 plain; DOrg 1000] (initial 1 false two_groups ChipProps.o_be) with Ok st => st | _ => started end.
Definition stored_there (l : list piece) : option (list Z * nat * list Z) :=
  match mips_ParseIntegerInstruction exF (lex l) at1000 with
  | Ok (true, [], st) =>
      match x_sections st with [m] => Some (m_data m, List.length (m_patches m), x_errors st) | _ => None end
  | _ => None
  end.
(** Nothing is reported, and the word that is stored is not that of the manual. *)
Definition wrong (i : minstr Z) (bs : list Z) : Prop :=
  stored_there (text (mmap expr_Const i)) = Some (bs, 0%nat, []) /\ bs <> number BigEndian 4 (encoding 1000 i).
(** The section is where it is said to be: other branches are right. *)
Example C45_there_case : valid 1000 (Br1 "BLTZ" 3 1016) /\
  stored_there (text (mmap expr_Const (Br1 "BLTZ" 3 1016))) = Some (number BigEndian 4 (encoding 1000 (Br1 "BLTZ" 3 1016)), 0%nat, []).
Proof.
  split; [|vm_compute; reflexivity]. unfold valid, listed, reaches, offset, reg.
  split; [cbn; tauto|]. split; [lia|]. split; [reflexivity|]. vm_compute. split; discriminate.
Qed.
(** SLLV rd,rt,rs and its like shift rt by rs; the last two operands are exchanged. *)
Theorem C45_shift_register_refuted : Forall (fun s => valid 1000 (ShiftV s 1 2 3) /\ exists bs, wrong (ShiftV s 1 2 3) bs) (map fst shiftv).
Proof.
  repeat constructor; unfold wrong, valid, listed, reg; try (cbn; tauto); try lia; eexists;
    (split; [vm_compute; reflexivity|vm_compute; discriminate]).
Qed.
Print Assumptions C45_shift_register_refuted.
(** BLTZL has the opcode 0 in place of 1. *)
Theorem C45_bltzl_refuted : valid 1000 (Br1 "BLTZL" 3 1016) /\ wrong (Br1 "BLTZL" 3 1016) [0x02; 0x62; 0; 3].
Proof.
  split; [|split; [vm_compute; reflexivity|vm_compute; discriminate]]. unfold valid, listed, reaches, offset, reg.
  split; [cbn; tauto|]. split; [lia|]. split; [reflexivity|]. vm_compute. split; discriminate.
Qed.
Print Assumptions C45_bltzl_refuted.
(** SLTIU, TGEIU and TLTIU extend their immediate by its sign, so that -1 is an operand
    and 40000 is not: the first is refused and the second is taken. *)
Theorem C45_unsigned_compare_refuted :
  Forall (fun i => exists bs, stored_there (text (mmap expr_Const i)) = Some (bs, 0%nat, [ERROR_OPERAND_RANGE]))
    [Imm "SLTIU" 1 2 (-1); TrapImm "TGEIU" 1 (-1); TrapImm "TLTIU" 1 (-1)] /\
  Forall (fun i => exists bs, stored_there (text (mmap expr_Const i)) = Some (bs, 0%nat, []))
    [Imm "SLTIU" 1 2 40000; TrapImm "TGEIU" 1 40000; TrapImm "TLTIU" 1 40000].
Proof. split; repeat constructor; eexists; vm_compute; reflexivity. Qed.
Print Assumptions C45_unsigned_compare_refuted.
(** A branch to an address that is not a multiple of four away goes elsewhere, and so
    does a jump out of the region; nothing is reported. *)
Theorem C45_target_refuted :
  ~ reaches 1000 1018 /\ stored_there (text (mmap expr_Const (Br0 "B" 1018))) = stored_there (text (mmap expr_Const (Br0 "B" 1016))) /\
  stored_there (text (mmap expr_Const (Jump "J" 0x10000400))) = Some (number BigEndian 4 (encoding 1000 (Jump "J" 0x400)), 0%nat, []).
Proof. split; [intros (A & _); discriminate|]. vm_compute. split; reflexivity. Qed.
Print Assumptions C45_target_refuted.
(** An instruction without its last operand is accepted, nothing is reported and
    nothing is stored. *)
Theorem C45_missing_operand_refuted :
  stored_there [Word "ADDI"; Word "R1"; Comma; Word "R2"; Comma] = Some ([], 0%nat, []) /\
  stored_there [Word "LUI"; Word "R1"; Comma] = Some ([], 0%nat, []).
Proof. vm_compute. split; reflexivity. Qed.
Print Assumptions C45_missing_operand_refuted.
