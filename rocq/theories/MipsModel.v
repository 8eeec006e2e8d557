(** Model of the MIPS instruction parser: /repo/xasm/mips/mips_parse_instr.c,
    mips_tokens.c and mips_tokens.h. *)
From Coq Require Import ZArith List Bool String.
From Verif Require Import Base Arith ExprModel ObjWriteModel OptModel SectModel.
Import ListNotations.
Open Scope string_scope.
Open Scope Z_scope.

(** errors.h:24-103 EError and mips_errors.h EMachineError. *)
Definition ERROR_CHAR_EXPECTED : Z := 100.
Definition ERROR_INVALID_EXPRESSION : Z := 102.
Definition MERROR_REGISTER_EXPECTED : Z := 1001.

(** mips_tokens.c:25-226 g_tokens, with the values of mips_tokens.h:22-293. *)
Definition g_tokens : list (string * Z) :=
  [("ADD", 6000); ("ADDU", 6001); ("AND", 6002); ("MOVN", 6003); ("MOVZ", 6004); ("MUL", 6005); ("NOR", 6006);
   ("OR", 6007); ("ROTRV", 6008); ("SLLV", 6009); ("SLT", 6010); ("SLTU", 6011); ("SRAV", 6012); ("SRLV", 6013);
   ("SUB", 6014); ("SUBU", 6015); ("XOR", 6016); ("ADDI", 6017); ("ADDIU", 6018); ("ANDI", 6019); ("ORI", 6020);
   ("SLTI", 6021); ("SLTIU", 6022); ("XORI", 6023); ("BEQ", 6024); ("BEQL", 6025); ("BNE", 6026); ("BNEL", 6027);
   ("BGEZ", 6028); ("BGEZAL", 6029); ("BGEZALL", 6030); ("BGEZL", 6031); ("BGTZ", 6032); ("BGTZL", 6033);
   ("BLEZ", 6034); ("BLEZL", 6035); ("BLTZ", 6036); ("BLTZAL", 6037); ("BLTZALL", 6038); ("BLTZL", 6039);
   ("B", 6040); ("BAL", 6041); ("ROTR", 6042); ("SLL", 6043); ("SRA", 6044); ("SRL", 6045); ("LB", 6046);
   ("LBU", 6047); ("LH", 6048); ("LHU", 6049); ("LL", 6050); ("LW", 6051); ("LWC1", 6052); ("LWC2", 6053);
   ("LWL", 6054); ("LWR", 6055); ("SB", 6056); ("SC", 6057); ("SH", 6058); ("SW", 6059); ("SWC1", 6060);
   ("SWC2", 6061); ("SWL", 6062); ("SWR", 6063); ("DIV", 6064); ("DIVU", 6065); ("MADD", 6066); ("MADDU", 6067);
   ("MSUB", 6068); ("MSUBU", 6069); ("MULT", 6070); ("MULU", 6071); ("RDPGPR", 6072); ("SEB", 6073);
   ("SEH", 6074); ("WRPGPR", 6075); ("WSBH", 6076); ("TEQ", 6077); ("TGE", 6078); ("TGEU", 6079); ("TLT", 6080);
   ("TLTU", 6081); ("TNE", 6082); ("TEQI", 6083); ("TGEI", 6084); ("TGEIU", 6085); ("TLTI", 6086);
   ("TLTIU", 6087); ("TNEI", 6088); ("CLO", 6089); ("CLZ", 6090); ("DERET", 6091); ("EHB", 6092); ("ERET", 6093);
   ("NOP", 6094); ("SSNOP", 6095); ("TLBP", 6096); ("TLBR", 6097); ("TLBWI", 6098); ("TLBWR", 6099); ("DI", 6100);
   ("EI", 6101); ("MFHI", 6102); ("MFLO", 6103); ("MTHI", 6106); ("MTLO", 6107); ("J", 6108); ("JAL", 6109);
   ("JALR", 6111); ("JALR.HB", 6112); ("JR", 6104); ("JR.HB", 6105); ("LUI", 6110); ("R0", 6136); ("R1", 6137);
   ("R2", 6138); ("R3", 6139); ("R4", 6140); ("R5", 6141); ("R6", 6142); ("R7", 6143); ("R8", 6144); ("R9", 6145);
   ("R10", 6146); ("R11", 6147); ("R12", 6148); ("R13", 6149); ("R14", 6150); ("R15", 6151); ("R16", 6152);
   ("R17", 6153); ("R18", 6154); ("R19", 6155); ("R20", 6156); ("R21", 6157); ("R22", 6158); ("R23", 6159);
   ("R24", 6160); ("R25", 6161); ("R26", 6162); ("R27", 6163); ("R28", 6164); ("R29", 6165); ("R30", 6166);
   ("R31", 6167); ("ZERO", 6136); ("AT", 6137); ("V0", 6138); ("V1", 6139); ("A0", 6140); ("A1", 6141);
   ("A2", 6142); ("A3", 6143); ("T0", 6144); ("T1", 6145); ("T2", 6146); ("T3", 6147); ("T4", 6148); ("T5", 6149);
   ("T6", 6150); ("T7", 6151); ("S0", 6152); ("S1", 6153); ("S2", 6154); ("S3", 6155); ("S4", 6156); ("S5", 6157);
   ("S6", 6158); ("S7", 6159); ("T8", 6160); ("T9", 6161); ("K0", 6162); ("K1", 6163); ("GP", 6164); ("SP", 6165);
   ("FP", 6166); ("RA", 6167); ("MIPS32R1", 6168); ("MIPS32", 6169); ("MIPS32R2", 6169)].
Definition T_MIPS_REG_R0 : Z := 6136.
Definition T_MIPS_REG_R31 : Z := 6167.
Definition T_MIPS_ADD : Z := 6000.
Definition T_MIPS_LUI : Z := 6110.

(** The rest of a source line: words that are keywords, the comma, parentheses, and
    text that parse_Expression consumes, with the expression it gives.  At anything
    but [TExpr] parse_Expression consumes nothing and gives no expression. *)
Inductive token : Type := TId (id : Z) | TComma | TLeft | TRight | TExpr (e : expr) | TOther.
Fixpoint assoc (s : string) (l : list (string * Z)) : token :=
  match l with [] => TOther | (k, v) :: r => if String.eqb s k then TId v else assoc s r end.
(** Source text.  Simplification: words are in upper case. *)
Inductive piece : Type := Word (s : string) | Comma | Left | Right | Operand (e : expr).
Definition lex1 (p : piece) : token :=
  match p with
  | Word s => assoc s g_tokens | Comma => TComma | Left => TLeft | Right => TRight | Operand e => TExpr e
  end.
Definition lex (l : list piece) : list token := map lex1 l.

(** What a handler gives: whether it accepted, the tokens left, and the state. *)
Definition outcome : Type := res (bool * list token * xstate).
Definition no (ts : list token) (st : xstate) : outcome := Ok (false, ts, st).
Definition yes (ts : list token) (r : res xstate) : outcome := let! st := r in Ok (true, ts, st).

(** mips_parse_instr.c:33-43 getRegister. *)
Definition getRegister (ts : list token) : option (Z * list token) :=
  match ts with
  | TId id :: r => if (T_MIPS_REG_R0 <=? id) && (id <=? T_MIPS_REG_R31) then Some (id - T_MIPS_REG_R0, r) else None
  | _ => None
  end.
(** mips_parse_instr.c:45-53 expectRegister; every caller gives up if there is none. *)
Definition expectRegister (ts : list token) (st : xstate) (k : Z -> list token -> outcome) : outcome :=
  match getRegister ts with
  | Some (r, ts1) => k r ts1
  | None => no ts (err_Error MERROR_REGISTER_EXPECTED st)
  end.
(** parse.c:122-131 parse_ExpectChar; every caller gives up if it is not there. *)
Definition is_char (c t : token) : bool :=
  match c, t with TComma, TComma | TLeft, TLeft | TRight, TRight => true | _, _ => false end.
Definition expectChar (c : token) (ts : list token) (st : xstate) (k : list token -> outcome) : outcome :=
  match ts with
  | t :: r => if is_char c t then k r else no ts (err_Error ERROR_CHAR_EXPECTED st)
  | [] => no ts (err_Error ERROR_CHAR_EXPECTED st)
  end.
(** parse_expression.c:655 parse_Expression. *)
Definition parse_Expression (ts : list token) : option expr * list token :=
  match ts with TExpr e :: r => (Some e, r) | _ => (None, ts) end.

(** sect_Current. *)
Definition sect_Current (st : xstate) : option asect :=
  match x_current st with
  | None => None
  | Some k => match nth_error (x_sections st) k with None => None | Some m => Some (ws_sect (m_w m)) end
  end.

(** mips_parse_instr.c:55-73 s_InstructionsRRR, 107-120 g_RRIInstructions, 160-190
    g_branchInstructions, 242-247 g_shiftInstructions, 290-309
    g_loadStoreInstructions, 346-355 g_RSRTInstructions, 381-387 g_RDRTInstructions,
    413-420 g_RSRTCodeInstructions, 467-474 g_RIInstructions, 501-504
    g_RDRSRTCopyInstructions, 531-541 g_noParameterInstructions, 557-560
    g_RTInstructions, 581-584 g_RDInstructions, 604-609 g_RSInstructions and 629-632
    g_jumpAbsInstructions. *)
Definition s_InstructionsRRR : list Z :=
  [0x00000020; 0x00000021; 0x00000024; 0x0000000B; 0x0000000A; 0x70000002; 0x00000027; 0x00000025; 0x00000046;
   0x00000004; 0x0000002A; 0x0000002B; 0x00000007; 0x00000006; 0x00000022; 0x00000023; 0x00000026].
Definition g_RRIInstructions : list (Z * bool) :=
  [(0x20000000, true); (0x24000000, true); (0x30000000, false); (0x34000000, false); (0x28000000, true);
   (0x2C000000, false); (0x38000000, false)].
Definition g_branchInstructions : list (Z * Z) :=
  [(2, 0x10000000); (2, 0x50000000); (2, 0x14000000); (2, 0x54000000);
   (1, 0x04010000); (1, 0x04110000); (1, 0x04130000); (1, 0x04030000); (1, 0x1C000000); (1, 0x5C000000);
   (1, 0x18000000); (1, 0x58000000); (1, 0x04000000); (1, 0x04100000); (1, 0x04120000); (1, 0x02020000);
   (0, 0x10000000); (0, 0x04110000)].
Definition g_shiftInstructions : list Z := [0x00200002; 0x00000000; 0x00000003; 0x00000002].
Definition g_loadStoreInstructions : list Z :=
  [0x80000000; 0x90000000; 0x84000000; 0x94000000; 0xC0000000; 0x8C000000; 0xC4000000; 0xC8000000; 0x88000000;
   0x98000000; 0xA0000000; 0xE0000000; 0xA4000000; 0xAC000000; 0xE4000000; 0xE8000000; 0xA8000000; 0xB8000000].
Definition g_RSRTInstructions : list Z :=
  [0x0000001A; 0x0000001B; 0x70000000; 0x70000001; 0x70000004; 0x70000005; 0x00000018; 0x00000019].
Definition g_RDRTInstructions : list Z := [0x41400000; 0x7C000420; 0x7C000620; 0x41C00000; 0x7C0000A0].
Definition g_RSRTCodeInstructions : list Z :=
  [0x00000034; 0x00000030; 0x00000031; 0x00000032; 0x00000033; 0x00000036].
Definition g_RIInstructions : list (Z * bool) :=
  [(0x040C0000, true); (0x04080000, true); (0x04090000, false); (0x040A0000, true); (0x040B0000, false);
   (0x040E0000, true)].
Definition g_RDRSRTCopyInstructions : list Z := [0x70000021; 0x70000020].
Definition g_noParameterInstructions : list Z :=
  [0x4200001F; 0x000000C0; 0x42000018; 0x00000000; 0x00000040; 0x42000008; 0x42000001; 0x42000002; 0x42000006].
Definition g_RTInstructions : list Z := [0x41606000; 0x41606020].
Definition g_RDInstructions : list Z := [0x00000010; 0x00000012].
Definition g_RSInstructions : list Z := [0x00000008; 0x00000408; 0x00000011; 0x00000013].
Definition g_jumpAbsInstructions : list Z := [0x08000000; 0x0C000000].

(** The bits of a register shifted into place. *)
Definition field (r n : Z) : Z := Z.shiftl r n.
(** Bitwise or of several words. *)
Definition bits (l : list Z) : Z := fold_left Z.lor l 0.

Section Handlers.
Variable F : fmath.
Definition expr_Or (a b : expr) : res expr := expr_Binary F OpOr a b.
Definition expr_And (a b : expr) : res expr := expr_Binary F OpAnd a b.
Definition expr_Asl (a b : expr) : res expr := expr_Binary F OpAsl a b.
Definition expr_Asr (a b : expr) : res expr := expr_Binary F OpAsr a b.
(** The words are uint32_t, the argument of expr_Const an int32_t. *)
Definition word_Const (l : list Z) : expr := expr_Const (s32 (bits l)).

(** parse_expression.c:677-701 parse_ExpressionS16 and parse_ExpressionU16.  The
    tests of the checked expression against NULL here and below never fail. *)
Definition parse_ExpressionS16 (ts : list token) (st : xstate) : res (option expr * list token * xstate) :=
  match parse_Expression ts with
  | (None, ts1) => Ok (None, ts1, st)
  | (Some e, ts1) =>
      let! (e1, st1) := range_checked e (-32768) 32767 st in
      let! e2 := expr_And e1 (expr_Const 0xFFFF) in
      Ok (Some e2, ts1, st1)
  end.
Definition parse_ExpressionU16 (ts : list token) (st : xstate) : res (option expr * list token * xstate) :=
  match parse_Expression ts with
  | (None, ts1) => Ok (None, ts1, st)
  | (Some e, ts1) =>
      let! (e1, st1) := range_checked e 0 65535 st in
      Ok (Some e1, ts1, st1)
  end.
Definition parse_Expression16 (signed : bool) : list token -> xstate -> res (option expr * list token * xstate) :=
  if signed then parse_ExpressionS16 else parse_ExpressionU16.

(** mips_parse_instr.c:75-105 handleIntegerInstructionRRR. *)
Definition handleRRR (opcode : Z) (ts : list token) (st : xstate) : outcome :=
  expectRegister ts st (fun rd ts =>
  expectChar TComma ts st (fun ts =>
  expectRegister ts st (fun rs ts =>
  expectChar TComma ts st (fun ts =>
  expectRegister ts st (fun rt ts =>
  yes ts (sect_OutputConst32 (bits [opcode; field rs 21; field rt 16; field rd 11]) st)))))).
(** mips_parse_instr.c:122-158 handleIntegerInstructionRRI. *)
Definition handleRRI (i : Z * bool) (ts : list token) (st : xstate) : outcome :=
  expectRegister ts st (fun rt ts =>
  expectChar TComma ts st (fun ts =>
  expectRegister ts st (fun rs ts =>
  expectChar TComma ts st (fun ts =>
  let! (o, ts1, st1) := parse_Expression16 (snd i) ts st in
  match o with
  | None => Ok (true, ts1, st1)
  | Some e =>
      let! e1 := expr_Or e (word_Const [field rs 21; field rt 16; fst i]) in
      yes ts1 (sect_OutputExpr32 e1 st1)
  end)))).
(** mips_parse_instr.c:192-240 handleBranch. *)
Definition branchTo (opcode rs rt : Z) (ts : list token) (st : xstate) : outcome :=
  match parse_Expression ts with
  | (None, ts1) => no ts1 st
  | (Some e, ts1) =>
      let! e1 := expr_PcRelative F (sect_Current st) e (-4) in
      let! e2 := expr_Asr e1 (expr_Const 2) in
      let! (e3, st1) := range_checked e2 (-32768) 32767 st in
      let! e4 := expr_And e3 (expr_Const 0xFFFF) in
      let! e5 := expr_Or e4 (word_Const [opcode; field rs 21; field rt 16]) in
      yes ts1 (sect_OutputExpr32 e5 st1)
  end.
Definition branchRegister (present : bool) (ts : list token) (st : xstate) (k : Z -> list token -> outcome) : outcome :=
  if present then expectRegister ts st (fun r ts => expectChar TComma ts st (fun ts => k r ts)) else k 0 ts.
Definition handleBranch (i : Z * Z) (ts : list token) (st : xstate) : outcome :=
  branchRegister (1 <=? fst i) ts st (fun rs ts =>
  branchRegister (2 <=? fst i) ts st (fun rt ts =>
  branchTo (snd i) rs rt ts st)).
(** A constant of [max] at most, shifted left by six: mips_parse_instr.c:270-283 and
    436-455. *)
Definition shifted (max : Z) (l : list Z) (e : expr) (ts : list token) (st : xstate) : outcome :=
  let! (e1, st1) := range_checked e 0 max st in
  let! e2 := expr_Asl e1 (expr_Const 6) in
  let! e3 := expr_Or e2 (word_Const l) in
  yes ts (sect_OutputExpr32 e3 st1).
(** mips_parse_instr.c:249-288 handleShift. *)
Definition handleShift (opcode : Z) (ts : list token) (st : xstate) : outcome :=
  expectRegister ts st (fun rd ts =>
  expectChar TComma ts st (fun ts =>
  expectRegister ts st (fun rt ts =>
  expectChar TComma ts st (fun ts =>
  match parse_Expression ts with
  | (None, ts1) => no ts1 st
  | (Some e, ts1) => shifted 31 [opcode; field rt 16; field rd 11] e ts1 st
  end)))).
(** mips_parse_instr.c:311-344 handleLoadStore. *)
Definition handleLoadStore (opcode : Z) (ts : list token) (st : xstate) : outcome :=
  expectRegister ts st (fun rt ts =>
  expectChar TComma ts st (fun ts =>
  let! (o, ts1, st1) := parse_ExpressionS16 ts st in
  match o with
  | None => no ts1 st1
  | Some e =>
      expectChar TLeft ts1 st1 (fun ts =>
      expectRegister ts st1 (fun base ts =>
      expectChar TRight ts st1 (fun ts =>
      let! e1 := expr_Or e (word_Const [opcode; field base 21; field rt 16]) in
      yes ts (sect_OutputExpr32 e1 st1))))
  end)).
(** mips_parse_instr.c:357-379 handleIntegerInstructionRSRT, 389-411
    handleIntegerInstructionRDRT and 506-529 handleIntegerInstructionRDRSRTCopy. *)
Definition twoRegisters (ts : list token) (st : xstate) (words : Z -> Z -> list Z) : outcome :=
  expectRegister ts st (fun a ts =>
  expectChar TComma ts st (fun ts =>
  expectRegister ts st (fun b ts =>
  yes ts (sect_OutputConst32 (bits (words a b)) st)))).
Definition handleRSRT (opcode : Z) (ts : list token) (st : xstate) : outcome :=
  twoRegisters ts st (fun rs rt => [opcode; field rs 21; field rt 16]).
Definition handleRDRT (opcode : Z) (ts : list token) (st : xstate) : outcome :=
  twoRegisters ts st (fun rd rt => [opcode; field rd 11; field rt 16]).
Definition handleRDRSRTCopy (opcode : Z) (ts : list token) (st : xstate) : outcome :=
  twoRegisters ts st (fun rd rs => [opcode; field rd 11; field rs 21; field rd 16]).
(** mips_parse_instr.c:422-465 handleIntegerInstructionRSRTCode. *)
Definition handleRSRTCode (opcode : Z) (ts : list token) (st : xstate) : outcome :=
  expectRegister ts st (fun rs ts =>
  expectChar TComma ts st (fun ts =>
  expectRegister ts st (fun rt ts =>
  match ts with
  | TComma :: ts1 =>
      match parse_Expression ts1 with
      | (None, ts2) => Ok (true, ts2, err_Error ERROR_INVALID_EXPRESSION st)
      | (Some e, ts2) => shifted 1023 [opcode; field rs 21; field rt 16] e ts2 st
      end
  | _ => yes ts (sect_OutputConst32 (bits [opcode; field rs 21; field rt 16]) st)
  end))).
(** mips_parse_instr.c:476-499 handleIntegerInstructionRI. *)
Definition handleRI (i : Z * bool) (ts : list token) (st : xstate) : outcome :=
  expectRegister ts st (fun rs ts =>
  expectChar TComma ts st (fun ts =>
  let! (o, ts1, st1) := parse_Expression16 (snd i) ts st in
  match o with
  | None => no ts1 st1
  | Some e =>
      let! e1 := expr_Or e (word_Const [fst i; field rs 21]) in
      yes ts1 (sect_OutputExpr32 e1 st1)
  end)).
(** mips_parse_instr.c:543-555 handleIntegerNoParameter. *)
Definition handleNoParameter (opcode : Z) (ts : list token) (st : xstate) : outcome :=
  yes ts (sect_OutputConst32 opcode st).
(** mips_parse_instr.c:562-579 handleIntegerRT. *)
Definition handleRT (opcode : Z) (ts : list token) (st : xstate) : outcome :=
  match getRegister ts with
  | Some (rt, ts1) => yes ts1 (sect_OutputConst32 (bits [opcode; field rt 16]) st)
  | None => yes ts (sect_OutputConst32 (bits [opcode; field 0 16]) st)
  end.
(** mips_parse_instr.c:586-602 handleIntegerRD and 611-627 handleIntegerRS. *)
Definition oneRegister (opcode n : Z) (ts : list token) (st : xstate) : outcome :=
  expectRegister ts st (fun r ts => yes ts (sect_OutputConst32 (bits [opcode; field r n]) st)).
(** mips_parse_instr.c:634-652 handleIntegerJumpAbs. *)
Definition handleJumpAbs (opcode : Z) (ts : list token) (st : xstate) : outcome :=
  match parse_Expression ts with
  | (None, ts1) => no ts1 st
  | (Some e, ts1) =>
      let! e1 := expr_Asr e (expr_Const 2) in
      let! e2 := expr_And e1 (expr_Const 0x03FFFFFF) in
      let! e3 := expr_Or e2 (word_Const [opcode]) in
      yes ts1 (sect_OutputExpr32 e3 st)
  end.
(** mips_parse_instr.c:654-673 handleLUI, which always reports success. *)
Definition always (o : outcome) : outcome := let! (_, ts, st) := o in Ok (true, ts, st).
Definition handleLUI (ts : list token) (st : xstate) : outcome :=
  always (
  expectRegister ts st (fun rd ts =>
  expectChar TComma ts st (fun ts =>
  let! (o, ts1, st1) := parse_ExpressionU16 ts st in
  match o with
  | None => no ts1 st1
  | Some e =>
      let! e1 := expr_Or e (word_Const [Z.shiftl 15 26; field rd 16]) in
      yes ts1 (sect_OutputExpr32 e1 st1)
  end))).

(** mips_parse_instr.c:675-804 g_mnemonicHandlers.  A handler looks up the token in its
    table, from the first token of its kind. *)
Inductive handler : Type :=
| HRRR | HRRI | HBranch | HShift | HLoadStore | HRSRT | HRDRT | HRSRTCode | HRI | HRDRSRTCopy | HNoParameter | HRT
| HRD | HRS | HJumpAbs | HLUI.
Definition g_mnemonicHandlers : list handler :=
  repeat HRRR 17 ++ repeat HRRI 7 ++ repeat HBranch 18 ++ repeat HShift 4 ++ repeat HLoadStore 18 ++ repeat HRSRT 8 ++
  repeat HRDRT 5 ++ repeat HRSRTCode 6 ++ repeat HRI 6 ++ repeat HRDRSRTCopy 2 ++ repeat HNoParameter 9 ++
  repeat HRT 2 ++ repeat HRD 2 ++ repeat HRS 4 ++ repeat HJumpAbs 2 ++ [HLUI].
Definition from {A : Type} (first : Z) (table : list A) (id : Z) (h : A -> list token -> xstate -> outcome)
    (ts : list token) (st : xstate) : outcome :=
  if (first <=? id) && (id <? first + zlen table) then
    match nth_error table (Z.to_nat (id - first)) with Some x => h x ts st | None => UB end
  else no (TId id :: ts) st.
Definition run_handler (h : handler) (id : Z) : list token -> xstate -> outcome :=
  match h with
  | HRRR => from 6000 s_InstructionsRRR id handleRRR
  | HRRI => from 6017 g_RRIInstructions id handleRRI
  | HBranch => from 6024 g_branchInstructions id handleBranch
  | HShift => from 6042 g_shiftInstructions id handleShift
  | HLoadStore => from 6046 g_loadStoreInstructions id handleLoadStore
  | HRSRT => from 6064 g_RSRTInstructions id handleRSRT
  | HRDRT => from 6072 g_RDRTInstructions id handleRDRT
  | HRSRTCode => from 6077 g_RSRTCodeInstructions id handleRSRTCode
  | HRI => from 6083 g_RIInstructions id handleRI
  | HRDRSRTCopy => from 6089 g_RDRSRTCopyInstructions id handleRDRSRTCopy
  | HNoParameter => from 6091 g_noParameterInstructions id handleNoParameter
  | HRT => from 6100 g_RTInstructions id handleRT
  | HRD => from 6102 g_RDInstructions id (fun opcode => oneRegister opcode 11)
  | HRS => from 6104 g_RSInstructions id (fun opcode => oneRegister opcode 21)
  | HJumpAbs => from 6108 g_jumpAbsInstructions id handleJumpAbs
  | HLUI => handleLUI
  end.
(** mips_parse_instr.c:806-813 mips_ParseIntegerInstruction. *)
Definition mips_ParseIntegerInstruction (ts : list token) (st : xstate) : outcome :=
  match ts with
  | TId id :: r =>
      if (T_MIPS_ADD <=? id) && (id <=? T_MIPS_LUI) then
        match nth_error g_mnemonicHandlers (Z.to_nat (id - T_MIPS_ADD)) with
        | Some h => run_handler h id r st
        | None => UB
        end
      else no ts st
  | _ => no ts st
  end.
End Handlers.
