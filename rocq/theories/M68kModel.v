(** Model of the 680x0 instruction parser: /repo/xasm/680x0/m68k_parse.c, m68k_parse.h,
    m68k_parse_addrmode.c, m68k_parse_integer.c, m68k_tokens.c, m68k_errors.h and
    m68k_options.h.

    Simplifications: the processor is one of 68000 to 68060, so the registers D8 to D31
    and A8 to A15 are no words, bank numbers are all zero, no prefix is stored
    (m68k_parse.c:580-632) and no third operand is read (m68k_parse.c:521-578).  The
    recording of modified registers (m68k_AddRegmask), which changes a symbol only, and
    warnings are left out, and so are floating point operands, system registers and the
    instructions that are not in the table below. *)
From Coq Require Import String ZArith List Bool.
From Verif Require Import Base Arith ExprModel ObjWriteModel OptModel SectModel.
Import ListNotations.
Open Scope string_scope.
Open Scope list_scope.
Open Scope Z_scope.

(** errors.h:24-103 EError and m68k_errors.h:24-44 EMachineError. *)
Definition ERROR_CHAR_EXPECTED : Z := 100.
Definition ERROR_SOURCE_OPERAND : Z := 103.
Definition ERROR_DEST_OPERAND : Z := 104.
Definition ERROR_OPERAND : Z := 107.
Definition MERROR_INDEXREG_SIZE : Z := 1003.
Definition MERROR_DISP_SIZE : Z := 1004.
Definition MERROR_INSTRUCTION_SIZE : Z := 1005.
Definition MERROR_INSTRUCTION_CPU : Z := 1006.
Definition MERROR_WORD_ALIGN : Z := 1018.

(** m68k_options.h:25-33. *)
Definition CPUF_68000 : Z := 0x01.
Definition CPUF_68010 : Z := 0x02.
Definition CPUF_68020 : Z := 0x04.
Definition CPUF_68030 : Z := 0x08.
Definition CPUF_68040 : Z := 0x10.
Definition CPUF_68060 : Z := 0x20.
Definition CPUF_ALL : Z := 0x7F.
Definition CPUF_020UP : Z := CPUF_68020 + CPUF_68030 + CPUF_68040 + CPUF_68060.

(** m68k_parse.h:29-57 EAddrMode. *)
Definition AM_NONE : Z := 0.
Definition AM_DREG : Z := 0x1.
Definition AM_AREG : Z := 0x2.
Definition AM_AIND : Z := 0x4.
Definition AM_AINC : Z := 0x8.
Definition AM_ADEC : Z := 0x10.
Definition AM_ADISP : Z := 0x20.
Definition AM_AXDISP : Z := 0x40.
Definition AM_PCDISP : Z := 0x80.
Definition AM_PCXDISP : Z := 0x100.
Definition AM_WORD : Z := 0x200.
Definition AM_LONG : Z := 0x400.
Definition AM_IMM : Z := 0x800.
Definition AM_AXDISP020 : Z := 0x10000.
Definition AM_PREINDAXD020 : Z := 0x20000.
Definition AM_POSTINDAXD020 : Z := 0x40000.
Definition AM_PCXDISP020 : Z := 0x80000.
Definition AM_PREINDPCXD020 : Z := 0x100000.
Definition AM_POSTINDPCXD020 : Z := 0x200000.
Definition AM_IMM_WHEN20 : Z := 0x1000000.
Definition AM_PCDISP_WHEN20 : Z := 0x2000000.
Definition AM_PCXDISP_WHEN20 : Z := 0x4000000.
Definition AM_EMPTY : Z := 0x40000000.
(** m68k_parse.h:59-69 ESize. *)
Definition SIZE_DEFAULT : Z := 0.
Definition SIZE_BYTE : Z := 1.
Definition SIZE_WORD : Z := 2.
Definition SIZE_LONG : Z := 4.
(** m68k_parse.h:71-90 ERegister: 0 to 7 for D0 to D7, 8 to 15 for A0 to A7. *)
Definition REG_A0 : Z := 8.
Definition REG_A7 : Z := 15.
Definition REG_PC : Z := 16.
Definition REG_NONE : Z := 255.
Definition has (mode mask : Z) : bool := negb (Z.land mode mask =? 0).
Definition orl (l : list Z) : Z := fold_left Z.lor l 0.

(** ** Instructions *)
(** m68k_parse_integer.c:3186-3190 and the functions named there. *)
Inductive handler : Type :=
| HXBCD (op : Z) | HQuick (op : Z) | HArithmeticA (quick op : Z) | HArithmeticI (quick op : Z) | HBitwiseI (op : Z)
| HArithmetic (quick opi op : Z) | HCMPA | HCMPI | HCMPM | HCMP | HLogical (opi op : Z) | HSized (op : Z) | HOne (op : Z)
| HShift (op mem : Z) | HBcc | HBit | HCHK | HDBcc | HDIV (sign : Z) | HEOR | HEXG | HEXT | HEXTB | HLEA | HLINK
| HMOVE | HMOVEA | HMOVEQ | HMUL (sign : Z) | HScc | HSWAP | HTRAP | HUNLK | HFixed (op : Z) | HFixedImm (op : Z).
(** m68k_parse.h:133-142 SInstruction; allowThirdOperand is left out. *)
Record instruction : Type := Instruction {
  i_cpu : Z; i_sizes : Z; i_default : Z; i_data : Z; i_src : Z; i_dest : Z; i_handler : handler }.
Definition BWL : Z := SIZE_BYTE + SIZE_WORD + SIZE_LONG.
Definition WL : Z := SIZE_WORD + SIZE_LONG.
(** The sets of modes that occur in the table. *)
Definition M_CALT : Z := orl [AM_AIND; AM_ADISP; AM_AXDISP; AM_WORD; AM_LONG; AM_AXDISP020; AM_PREINDAXD020; AM_POSTINDAXD020].
Definition M_MALT : Z := orl [M_CALT; AM_AINC; AM_ADEC].
Definition M_DALT : Z := orl [AM_DREG; M_MALT].
Definition M_PC : Z := orl [AM_PCDISP; AM_PCXDISP; AM_PCXDISP020; AM_PREINDPCXD020; AM_POSTINDPCXD020].
Definition M_PC020 : Z := orl [AM_PCXDISP020; AM_PREINDPCXD020; AM_POSTINDPCXD020].
Definition M_CONTROL : Z := orl [M_CALT; M_PC].
Definition M_DATA : Z := orl [M_DALT; M_PC; AM_IMM].
Definition M_ALL : Z := orl [M_DATA; AM_AREG].
Definition M_CMPDEST : Z := orl [AM_DREG; AM_AREG; AM_AIND; AM_AINC; AM_ADEC; AM_ADISP; AM_AXDISP; AM_WORD; AM_LONG].
Definition sized (sizes default data src dest : Z) (h : handler) : instruction :=
  Instruction CPUF_ALL sizes default data src dest h.
(** m68k_parse_integer.c:1708-3184 g_integerInstructions with m68k_tokens.c:27-210
    g_tokens, which gives T_68K_ADD for ADDA.  System registers are left out of the
    modes. *)
Definition g_integerInstructions : list (string * instruction) :=
  [("ABCD", sized SIZE_BYTE SIZE_BYTE 0 (AM_DREG + AM_ADEC) (AM_DREG + AM_ADEC) (HXBCD 0xC100));
   ("ADD", sized BWL SIZE_WORD 0 M_ALL (M_DALT + AM_AREG) (HArithmetic 0x5000 0x0600 0xD000));
   ("ADDA", sized BWL SIZE_WORD 0 M_ALL (M_DALT + AM_AREG) (HArithmetic 0x5000 0x0600 0xD000));
   ("ADDI", sized BWL SIZE_WORD 0 AM_IMM M_DALT (HArithmeticI 0x5000 0x0600));
   ("ADDQ", sized BWL SIZE_WORD 0 AM_IMM (M_DALT + AM_AREG) (HQuick 0x5000));
   ("ADDX", sized BWL SIZE_WORD 0 (AM_DREG + AM_ADEC) (AM_DREG + AM_ADEC) (HXBCD 0xD100));
   ("AND", sized BWL SIZE_WORD 0 M_DATA M_DALT (HLogical 0x0200 0xC000));
   ("ANDI", sized BWL SIZE_WORD 0 AM_IMM M_DALT (HBitwiseI 0x0200));
   ("ASL", sized BWL SIZE_WORD 0 (AM_IMM + M_DALT) (AM_DREG + AM_EMPTY) (HShift 0xE100 0xE1C0));
   ("ASR", sized BWL SIZE_WORD 0 (AM_IMM + M_DALT) (AM_DREG + AM_EMPTY) (HShift 0xE000 0xE0C0));
   ("BCC", sized BWL SIZE_WORD 4 0 0 HBcc); ("BHS", sized BWL SIZE_WORD 4 0 0 HBcc);
   ("BCS", sized BWL SIZE_WORD 5 0 0 HBcc); ("BLO", sized BWL SIZE_WORD 5 0 0 HBcc);
   ("BEQ", sized BWL SIZE_WORD 7 0 0 HBcc); ("BGE", sized BWL SIZE_WORD 12 0 0 HBcc);
   ("BGT", sized BWL SIZE_WORD 14 0 0 HBcc); ("BHI", sized BWL SIZE_WORD 2 0 0 HBcc);
   ("BLE", sized BWL SIZE_WORD 15 0 0 HBcc); ("BLS", sized BWL SIZE_WORD 3 0 0 HBcc);
   ("BLT", sized BWL SIZE_WORD 13 0 0 HBcc); ("BMI", sized BWL SIZE_WORD 11 0 0 HBcc);
   ("BNE", sized BWL SIZE_WORD 6 0 0 HBcc); ("BPL", sized BWL SIZE_WORD 10 0 0 HBcc);
   ("BVC", sized BWL SIZE_WORD 8 0 0 HBcc); ("BVS", sized BWL SIZE_WORD 9 0 0 HBcc);
   ("BRA", sized BWL SIZE_WORD 0 0 0 HBcc); ("BSR", sized BWL SIZE_WORD 1 0 0 HBcc);
   ("BCHG", sized 0 0 0x40 (AM_DREG + AM_IMM) M_DALT HBit);
   ("BCLR", sized 0 0 0x80 (AM_DREG + AM_IMM) M_DALT HBit);
   ("BSET", sized 0 0 0xC0 (AM_DREG + AM_IMM) M_DALT HBit);
   ("BTST", sized 0 0 0 (AM_DREG + AM_IMM) M_DALT HBit);
   ("CHK", sized WL SIZE_WORD 0 M_DATA AM_DREG HCHK);
   ("CLR", sized BWL SIZE_WORD 0 M_DALT 0 (HSized 0x4200));
   ("CMP", sized BWL SIZE_WORD 0 M_ALL M_CMPDEST HCMP);
   ("CMPA", sized BWL SIZE_WORD 0 M_ALL AM_AREG HCMPA);
   ("CMPI", sized BWL SIZE_WORD 0 AM_IMM (M_DALT + M_PC020 + AM_PCDISP_WHEN20 + AM_PCXDISP_WHEN20) HCMPI);
   ("CMPM", sized BWL SIZE_WORD 0 AM_AINC AM_AINC HCMPM);
   ("DBCC", sized 0 0 4 AM_DREG 0 HDBcc); ("DBHS", sized 0 0 4 AM_DREG 0 HDBcc);
   ("DBCS", sized 0 0 5 AM_DREG 0 HDBcc); ("DBLO", sized 0 0 5 AM_DREG 0 HDBcc);
   ("DBEQ", sized 0 0 7 AM_DREG 0 HDBcc); ("DBF", sized 0 0 1 AM_DREG 0 HDBcc); ("DBRA", sized 0 0 1 AM_DREG 0 HDBcc);
   ("DBGE", sized 0 0 12 AM_DREG 0 HDBcc); ("DBGT", sized 0 0 14 AM_DREG 0 HDBcc); ("DBHI", sized 0 0 2 AM_DREG 0 HDBcc);
   ("DBLE", sized 0 0 15 AM_DREG 0 HDBcc); ("DBLS", sized 0 0 3 AM_DREG 0 HDBcc); ("DBLT", sized 0 0 13 AM_DREG 0 HDBcc);
   ("DBMI", sized 0 0 11 AM_DREG 0 HDBcc); ("DBNE", sized 0 0 6 AM_DREG 0 HDBcc); ("DBPL", sized 0 0 10 AM_DREG 0 HDBcc);
   ("DBT", sized 0 0 0 AM_DREG 0 HDBcc); ("DBVC", sized 0 0 8 AM_DREG 0 HDBcc); ("DBVS", sized 0 0 9 AM_DREG 0 HDBcc);
   ("DIVS", sized WL SIZE_WORD 0 M_DATA AM_DREG (HDIV 1));
   ("DIVU", sized WL SIZE_WORD 0 M_DATA AM_DREG (HDIV 0));
   ("EOR", sized BWL SIZE_WORD 0 (AM_IMM + AM_DREG) M_DALT HEOR);
   ("EORI", sized BWL SIZE_WORD 0 AM_IMM M_DALT (HBitwiseI 0x0A00));
   ("EXG", sized SIZE_LONG SIZE_LONG 0 (AM_DREG + AM_AREG) (AM_DREG + AM_AREG) HEXG);
   ("EXT", sized WL SIZE_WORD 0 AM_DREG 0 HEXT);
   ("EXTB", Instruction CPUF_020UP SIZE_LONG SIZE_LONG 0 AM_DREG 0 HEXTB);
   ("ILLEGAL", sized 0 0 0 0 0 (HFixed 0x4AFC));
   ("JMP", sized 0 0 0 M_CONTROL 0 (HOne 0x4EC0));
   ("JSR", sized 0 0 0 M_CONTROL 0 (HOne 0x4E80));
   ("LEA", sized 0 0 0 M_CONTROL AM_AREG HLEA);
   ("LINK", sized WL SIZE_WORD 0 AM_AREG AM_IMM HLINK);
   ("LSL", sized BWL SIZE_WORD 0 (AM_IMM + M_DALT) (AM_DREG + AM_EMPTY) (HShift 0xE108 0xE3C0));
   ("LSR", sized BWL SIZE_WORD 0 (AM_IMM + M_DALT) (AM_DREG + AM_EMPTY) (HShift 0xE008 0xE2C0));
   ("MOVE", sized BWL SIZE_WORD 0 M_ALL (M_DALT + AM_AREG) HMOVE);
   ("MOVEA", sized WL SIZE_WORD 0 M_ALL AM_AREG HMOVEA);
   ("MOVEQ", sized SIZE_LONG SIZE_LONG 0 AM_IMM AM_DREG HMOVEQ);
   ("MULS", sized WL SIZE_WORD 0 M_DATA AM_DREG (HMUL 1));
   ("MULU", sized WL SIZE_WORD 0 M_DATA AM_DREG (HMUL 0));
   ("NBCD", sized SIZE_BYTE SIZE_BYTE 0 M_DALT 0 (HOne 0x4800));
   ("NEG", sized BWL SIZE_WORD 0 M_DALT 0 (HSized 0x4400));
   ("NEGX", sized BWL SIZE_WORD 0 M_DALT 0 (HSized 0x4000));
   ("NOP", sized 0 0 0 0 0 (HFixed 0x4E71));
   ("NOT", sized BWL SIZE_WORD 0 M_DALT 0 (HSized 0x4600));
   ("OR", sized BWL SIZE_WORD 0 M_DATA M_DALT (HLogical 0x0000 0x8000));
   ("ORI", sized BWL SIZE_WORD 0 AM_IMM M_DALT (HBitwiseI 0x0000));
   ("PEA", sized SIZE_LONG SIZE_LONG 0 M_CONTROL 0 (HOne 0x4840));
   ("RESET", sized 0 0 0 0 0 (HFixed 0x4E70));
   ("ROL", sized BWL SIZE_WORD 0 (AM_IMM + M_DALT) (AM_DREG + AM_EMPTY) (HShift 0xE118 0xE7C0));
   ("ROR", sized BWL SIZE_WORD 0 (AM_IMM + M_DALT) (AM_DREG + AM_EMPTY) (HShift 0xE018 0xE6C0));
   ("ROXL", sized BWL SIZE_WORD 0 (AM_IMM + M_DALT) (AM_DREG + AM_EMPTY) (HShift 0xE110 0xE5C0));
   ("ROXR", sized BWL SIZE_WORD 0 (AM_IMM + M_DALT) (AM_DREG + AM_EMPTY) (HShift 0xE010 0xE4C0));
   ("RTE", sized 0 0 0 0 0 (HFixed 0x4E73)); ("RTR", sized 0 0 0 0 0 (HFixed 0x4E77));
   ("RTS", sized 0 0 0 0 0 (HFixed 0x4E75));
   ("SBCD", sized SIZE_BYTE SIZE_BYTE 0 (AM_DREG + AM_ADEC) (AM_DREG + AM_ADEC) (HXBCD 0x8100));
   ("SCC", sized SIZE_BYTE SIZE_BYTE 4 M_DALT 0 HScc); ("SHS", sized SIZE_BYTE SIZE_BYTE 4 M_DALT 0 HScc);
   ("SCS", sized SIZE_BYTE SIZE_BYTE 5 M_DALT 0 HScc); ("SLO", sized SIZE_BYTE SIZE_BYTE 5 M_DALT 0 HScc);
   ("SEQ", sized SIZE_BYTE SIZE_BYTE 7 M_DALT 0 HScc); ("SF", sized SIZE_BYTE SIZE_BYTE 1 M_DALT 0 HScc);
   ("SGE", sized SIZE_BYTE SIZE_BYTE 12 M_DALT 0 HScc); ("SGT", sized SIZE_BYTE SIZE_BYTE 14 M_DALT 0 HScc);
   ("SHI", sized SIZE_BYTE SIZE_BYTE 2 M_DALT 0 HScc); ("SLE", sized SIZE_BYTE SIZE_BYTE 15 M_DALT 0 HScc);
   ("SLS", sized SIZE_BYTE SIZE_BYTE 3 M_DALT 0 HScc); ("SLT", sized SIZE_BYTE SIZE_BYTE 13 M_DALT 0 HScc);
   ("SMI", sized SIZE_BYTE SIZE_BYTE 11 M_DALT 0 HScc); ("SNE", sized SIZE_BYTE SIZE_BYTE 6 M_DALT 0 HScc);
   ("SPL", sized SIZE_BYTE SIZE_BYTE 10 M_DALT 0 HScc); ("ST", sized SIZE_BYTE SIZE_BYTE 0 M_DALT 0 HScc);
   ("SVC", sized SIZE_BYTE SIZE_BYTE 8 M_DALT 0 HScc); ("SVS", sized SIZE_BYTE SIZE_BYTE 9 M_DALT 0 HScc);
   ("STOP", sized 0 0 0 AM_IMM 0 (HFixedImm 0x4E72));
   ("SUB", sized BWL SIZE_WORD 0 M_ALL (M_DALT + AM_AREG) (HArithmetic 0x5100 0x0400 0x9000));
   ("SUBA", sized WL SIZE_WORD 0 M_ALL AM_AREG (HArithmeticA 0x5100 0x9000));
   ("SUBI", sized BWL SIZE_WORD 0 AM_IMM M_DALT (HArithmeticI 0x5100 0x0400));
   ("SUBQ", sized BWL SIZE_WORD 0 AM_IMM (M_DALT + AM_AREG) (HQuick 0x5100));
   ("SUBX", sized BWL SIZE_WORD 0 (AM_DREG + AM_ADEC) (AM_DREG + AM_ADEC) (HXBCD 0x9100));
   ("SWAP", sized SIZE_WORD SIZE_WORD 0 AM_DREG 0 HSWAP);
   ("TAS", sized SIZE_BYTE SIZE_BYTE 0 M_DALT 0 (HOne 0x4AC0));
   ("TRAP", sized 0 0 0 AM_IMM 0 HTRAP);
   ("TRAPV", sized 0 0 0 0 0 (HFixed 0x4E76));
   ("TST", sized BWL SIZE_WORD 0 (M_DALT + M_PC020 + AM_IMM_WHEN20 + AM_PCDISP_WHEN20 + AM_PCXDISP_WHEN20) 0 (HSized 0x4A00));
   ("UNLK", sized 0 0 0 AM_AREG 0 HUNLK)].

(** ** Source text *)
(** The rest of a source line: the words of m68k_tokens.c:27-336, punctuation, and text
    that parse_Expression consumes, with the expression it gives.  Anything else is
    [TOther]; parse_Expression consumes nothing and gives nothing at anything but
    [TExpr].  The lexer knows (An), -(An), (An)+ and (PC) as words. *)
Inductive token : Type :=
| TIns (i : instruction) | TD (n : Z) | TA (n : Z) | TPc | TInd (n : Z) | TDec (n : Z) | TInc (n : Z) | TPcInd
| TSize (s : Z) | TComma | TLp | TRp | TLb | TRb | THash | TMul | TExpr (e : expr) | TOther.
Definition regwords : list (string * token) :=
  [("D0", TD 0); ("D1", TD 1); ("D2", TD 2); ("D3", TD 3); ("D4", TD 4); ("D5", TD 5); ("D6", TD 6); ("D7", TD 7);
   ("A0", TA 0); ("A1", TA 1); ("A2", TA 2); ("A3", TA 3); ("A4", TA 4); ("A5", TA 5); ("A6", TA 6); ("A7", TA 7);
   ("SP", TA 7); ("PC", TPc); ("(PC)", TPcInd);
   ("(A0)", TInd 0); ("(A1)", TInd 1); ("(A2)", TInd 2); ("(A3)", TInd 3); ("(A4)", TInd 4); ("(A5)", TInd 5);
   ("(A6)", TInd 6); ("(A7)", TInd 7); ("(SP)", TInd 7);
   ("-(A0)", TDec 0); ("-(A1)", TDec 1); ("-(A2)", TDec 2); ("-(A3)", TDec 3); ("-(A4)", TDec 4); ("-(A5)", TDec 5);
   ("-(A6)", TDec 6); ("-(A7)", TDec 7); ("-(SP)", TDec 7);
   ("(A0)+", TInc 0); ("(A1)+", TInc 1); ("(A2)+", TInc 2); ("(A3)+", TInc 3); ("(A4)+", TInc 4); ("(A5)+", TInc 5);
   ("(A6)+", TInc 6); ("(A7)+", TInc 7); ("(SP)+", TInc 7);
   (* m68k_parse_addrmode.c:688-716 m68k_GetSizeSpecifier *)
   (".B", TSize SIZE_BYTE); (".W", TSize SIZE_WORD); (".L", TSize SIZE_LONG); (".S", TSize 8)].
Fixpoint assoc {A : Type} (s : string) (l : list (string * A)) : option A :=
  match l with [] => None | (k, v) :: r => if String.eqb s k then Some v else assoc s r end.
(** Source text.  Simplification: words are in upper case. *)
Inductive piece : Type := Word (s : string) | Comma | Lp | Rp | Lb | Rb | Hash | Star | Operand (e : expr).
Definition lex1 (p : piece) : token :=
  match p with
  | Word s => match assoc s regwords with
              | Some t => t
              | None => match assoc s g_integerInstructions with Some i => TIns i | None => TOther end
              end
  | Comma => TComma | Lp => TLp | Rp => TRp | Lb => TLb | Rb => TRb | Hash => THash | Star => TMul | Operand e => TExpr e
  end.
Definition lex (l : list piece) : list token := map lex1 l.
(** parse_expression.c:655-657 parse_Expression. *)
Definition parse_Expression (ts : list token) : expr * list token :=
  match ts with TExpr e :: r => (e, r) | _ => (ENull, ts) end.
(** m68k_parse_addrmode.c:688-716 m68k_GetSizeSpecifier. *)
Definition m68k_GetSizeSpecifier (default : Z) (ts : list token) : Z * list token :=
  match ts with TSize s :: r => (s, r) | _ => (default, ts) end.
(** sect_Current. *)
Definition sect_Current (st : xstate) : option asect :=
  match x_current st with
  | None => None
  | Some k => match nth_error (x_sections st) k with None => None | Some m => Some (ws_sect (m_w m)) end
  end.
(** section.c:164-170 sect_CurrentSize. *)
Definition sect_CurrentSize (st : xstate) : Z :=
  match x_current st with
  | None => 0
  | Some k => match nth_error (x_sections st) k with None => 0 | Some m => m_used m end
  end.

(** ** Addressing modes *)
(** m68k_parse.h:99-110 SModeRegisters and 112-131 SAddressingMode.  Simplification:
    sizes are zero until they are set; they are not read before. *)
Record regs : Type := Regs { r_base : Z; r_index : Z; r_isize : Z; r_scale : expr; r_disp : expr; r_dsize : Z }.
Record amode : Type := AMode {
  a_mode : Z; a_direct : Z; a_imm : expr; a_immsize : Z; a_inner : regs; a_outer : regs }.
Definition set_base (b : Z) (r : regs) : regs := Regs b (r_index r) (r_isize r) (r_scale r) (r_disp r) (r_dsize r).
Definition set_index (x s : Z) (c : expr) (r : regs) : regs := Regs (r_base r) x s c (r_disp r) (r_dsize r).
Definition set_scale (c : expr) (r : regs) : regs := Regs (r_base r) (r_index r) (r_isize r) c (r_disp r) (r_dsize r).
Definition set_disp (e : expr) (r : regs) : regs := Regs (r_base r) (r_index r) (r_isize r) (r_scale r) e (r_dsize r).
Definition set_dsize (s : Z) (r : regs) : regs := Regs (r_base r) (r_index r) (r_isize r) (r_scale r) (r_disp r) s.
Definition set_mode (m : Z) (a : amode) : amode := AMode m (a_direct a) (a_imm a) (a_immsize a) (a_inner a) (a_outer a).
Definition set_direct (n : Z) (a : amode) : amode := AMode (a_mode a) n (a_imm a) (a_immsize a) (a_inner a) (a_outer a).
Definition set_imm (e : expr) (a : amode) : amode := AMode (a_mode a) (a_direct a) e (a_immsize a) (a_inner a) (a_outer a).
Definition set_immsize (s : Z) (a : amode) : amode := AMode (a_mode a) (a_direct a) (a_imm a) s (a_inner a) (a_outer a).
Definition set_inner (r : regs) (a : amode) : amode := AMode (a_mode a) (a_direct a) (a_imm a) (a_immsize a) r (a_outer a).
Definition set_outer (r : regs) (a : amode) : amode := AMode (a_mode a) (a_direct a) (a_imm a) (a_immsize a) (a_inner a) r.
Definition no_regs : regs := Regs REG_NONE REG_NONE 0 ENull ENull 0.
Definition no_mode : amode := AMode AM_EMPTY 0 ENull 0 no_regs no_regs.

(** m68k_parse_addrmode.c:94-126 getIndexReg with 34-42 expressionCheckScaleRange: [reg]
    is the register just read. *)
Definition getIndexReg (reg : Z) (r : regs) (ts : list token) (st : xstate) : res (bool * regs * list token * xstate) :=
  let (size, ts1) := m68k_GetSizeSpecifier SIZE_WORD ts in
  let r1 := set_index reg size (r_scale r) r in
  if negb (size =? SIZE_WORD) && negb (size =? SIZE_LONG) then Ok (false, r1, ts1, err_Error MERROR_INDEXREG_SIZE st) else
  match ts1 with
  | TMul :: ts2 =>
      let (e, ts3) := parse_Expression ts2 in
      if isNull e then Ok (false, r1, ts3, err_Error ERROR_EXPECT_EXPR st) else
      let! (e1, st1) := range_checked e 1 8 st in
      let! e2 := expr_Bit e1 in
      Ok (true, set_scale e2 r1, ts3, st1)
  | _ => Ok (true, r1, ts1, st)
  end.
(** m68k_parse_addrmode.c:128-190 singleModePart. *)
Definition singleModePart (r : regs) (ts : list token) (st : xstate) : res (bool * regs * list token * xstate) :=
  match ts with
  | TPc :: ts1 =>
      if negb (r_base r =? REG_NONE) then Ok (false, r, ts, st) else Ok (true, set_base REG_PC r, ts1, st)
  | TA n :: ts1 =>
      if negb (r_base r =? REG_NONE) then
        if negb (r_index r =? REG_NONE) then Ok (false, r, ts, st) else getIndexReg (REG_A0 + n) r ts1 st
      else
        let (size, ts2) := m68k_GetSizeSpecifier SIZE_DEFAULT ts1 in
        if size =? SIZE_WORD then
          if r_index r =? REG_NONE then Ok (true, set_index (REG_A0 + n) SIZE_WORD (r_scale r) r, ts2, st)
          else Ok (false, r, ts2, st)
        else Ok (true, set_base (REG_A0 + n) r, ts2, st)
  | TD n :: ts1 =>
      if negb (r_index r =? REG_NONE) then Ok (false, r, ts, st) else getIndexReg n r ts1 st
  | _ =>
      let (e, ts1) := parse_Expression ts in
      if isNull e then Ok (false, r, ts, st)
      else if negb (isNull (r_disp r)) then Ok (false, r, ts1, st)
      else let (size, ts2) := m68k_GetSizeSpecifier SIZE_DEFAULT ts1 in
           Ok (true, set_dsize size (set_disp e r), ts2, st)
  end.
(** m68k_parse_addrmode.c:192-210 getInnerMode; the fuel is the length of the text. *)
Fixpoint getInnerMode (fuel : nat) (a : amode) (ts : list token) (st : xstate) : res (bool * amode * list token * xstate) :=
  match fuel with
  | O => Err
  | S n =>
      let! (ok, r, ts1, st1) := singleModePart (a_inner a) ts st in
      let a1 := set_inner r a in
      if negb ok then Ok (false, a1, ts1, st1) else
      match ts1 with
      | TRb :: ts2 => Ok (true, a1, ts2, st1)
      | TComma :: ts2 => getInnerMode n a1 ts2 st1
      | _ => Ok (false, a1, ts1, st1)
      end
  end.
(** m68k_parse_addrmode.c:212-220 getOuterPart. *)
Definition getOuterPart (cpu : Z) (a : amode) (ts : list token) (st : xstate) : res (bool * amode * list token * xstate) :=
  let part := let! (ok, r, ts1, st1) := singleModePart (a_outer a) ts st in Ok (ok, set_outer r a, ts1, st1) in
  match ts with
  | TLb :: ts1 => if cpu >=? CPUF_68020 then getInnerMode (List.length ts) a ts1 st else part
  | _ => part
  end.
(** m68k_parse_addrmode.c:222-242 getOuterMode. *)
Fixpoint getOuterMode (fuel : nat) (cpu : Z) (a : amode) (ts : list token) (st : xstate) : res (bool * amode * list token * xstate) :=
  match fuel with
  | O => Err
  | S n =>
      let! (ok, a1, ts1, st1) := getOuterPart cpu a ts st in
      if negb ok then Ok (false, a1, ts1, st1) else
      match ts1 with
      | TRp :: ts2 => Ok (true, a1, ts2, st1)
      | TComma :: ts2 => getOuterMode n cpu a1 ts2 st1
      | _ => Ok (false, a1, ts1, st1)
      end
  end.
(** m68k_parse_addrmode.c:244-262 optimizeFields. *)
Definition optimizeFields (r : regs) : regs :=
  let r1 := if negb (r_base r =? REG_PC) && negb (isNull (r_disp r)) && expr_IsConstant (r_disp r) && (e_v (r_disp r) =? 0)
            then set_disp ENull r else r in
  let r2 := if negb (isNull (r_scale r1)) && expr_IsConstant (r_scale r1) && (e_v (r_scale r1) =? 0)
            then set_scale ENull r1 else r1 in
  if (r_base r2 =? REG_NONE) && (REG_A0 <=? r_index r2) && (r_index r2 <=? REG_A7) && (r_isize r2 =? SIZE_LONG)
  then set_index REG_NONE (r_isize r2) (r_scale r2) (set_base (r_index r2) r2) else r2.
(** m68k_parse_addrmode.c:479-491 m68k_OptimizeDisplacement. *)
Definition m68k_OptimizeDisplacement (r : regs) : regs :=
  if negb (isNull (r_disp r)) && (r_dsize r =? SIZE_DEFAULT) then
    if expr_IsConstant (r_disp r) && (-32768 <=? e_v (r_disp r)) && (e_v (r_disp r) <=? 32767)
    then set_dsize SIZE_WORD r else set_dsize SIZE_LONG r
  else r.
(** m68k_parse_addrmode.c:264-458 optimizeMode.  The switch over the parts present is
    written as tests: the cases of the first switch are those without a base register in
    the outer part and with an index in at most one of the parts. *)
Definition by_base (r : regs) (pc other : Z) : Z := if r_base r =? REG_PC then pc else other.
Definition optimizeMode (cpu : Z) (a : amode) (st : xstate) : bool * amode * xstate :=
  let i := optimizeFields (a_inner a) in
  let o := optimizeFields (a_outer a) in
  let there (z : Z) := negb (z =? REG_NONE) in
  let ib := there (r_base i) in
  let ix := there (r_index i) in
  let id := negb (isNull (r_disp i)) in
  let ob := there (r_base o) in
  let ox := there (r_index o) in
  let od := negb (isNull (r_disp o)) in
  if ib || ix || id then
    let i1 := if id && (r_dsize i =? SIZE_BYTE) then set_dsize SIZE_WORD i else i in
    let o1 := if od && (r_dsize o =? SIZE_BYTE) then set_dsize SIZE_WORD o else o in
    let a1 := set_inner i1 (set_outer o1 a) in
    if ob then (false, a1, st)
    else if ix && ox then (false, a1, st)
    else if ox then (true, set_mode (by_base i AM_POSTINDPCXD020 AM_POSTINDAXD020) a1, st)
    else (true, set_mode (by_base i AM_PREINDPCXD020 AM_PREINDAXD020) a1, st)
  else
    let a0 := set_inner i (set_outer o a) in
    match ob, ox, od with
    | true, false, false => (true, set_mode AM_AIND a0, st)
    | false, true, _ => (true, set_mode AM_AXDISP020 a0, st)
    | true, true, false => (true, set_mode (by_base o AM_PCXDISP AM_AXDISP) a0, st)
    | false, false, true =>
        if r_dsize o =? SIZE_BYTE then (false, a0, err_Error MERROR_DISP_SIZE st)
        else (true, set_mode (if r_dsize o =? SIZE_WORD then AM_WORD else AM_LONG) a0, st)
    | true, false, true =>
        if r_dsize o =? SIZE_BYTE then (false, a0, err_Error MERROR_DISP_SIZE st) else
        if cpu <=? CPUF_68010 then
          let o1 := if r_dsize o =? SIZE_DEFAULT then set_dsize SIZE_WORD o else o in
          (true, set_mode (by_base o AM_PCDISP AM_ADISP) (set_outer o1 a0), st)
        else
          let o1 := m68k_OptimizeDisplacement o in
          (true, set_mode (if r_dsize o1 =? SIZE_WORD then by_base o AM_PCDISP AM_ADISP
                           else by_base o AM_PCXDISP020 AM_AXDISP020) (set_outer o1 a0), st)
    | true, true, true =>
        let v := e_v (r_disp o) in
        let size :=
          if r_dsize o =? SIZE_DEFAULT then
            if (cpu <=? CPUF_68010) || negb (expr_IsConstant (r_disp o)) then SIZE_BYTE
            else if (-128 <=? v) && (v <=? 127) then SIZE_BYTE
            else if (-32768 <=? v) && (v <=? 32767) then SIZE_WORD else SIZE_LONG
          else r_dsize o in
        (true, set_mode (if size =? SIZE_BYTE then by_base o AM_PCXDISP AM_AXDISP else by_base o AM_PCXDISP020 AM_AXDISP020)
                 (set_outer (set_dsize size o) a0), st)
    | false, false, false => (false, a0, st)
    end.
(** m68k_parse_addrmode.c:718-736.  The tests for NULL never succeed. *)
Definition m68k_ExpressionCheck16Bit (e : expr) (st : xstate) : res (expr * xstate) := range_checked e (-32768) 65535 st.
Definition m68k_ExpressionCheck8Bit (e : expr) (st : xstate) : res (expr * xstate) := range_checked e (-128) 255 st.
(** m68k_parse_addrmode.c:493-650 m68k_GetAddressingMode. *)
Definition m68k_GetAddressingMode (cpu : Z) (ts : list token) (st : xstate) : res (bool * amode * list token * xstate) :=
  let direct mode n := set_mode mode (set_direct n no_mode) in
  let through mode n := set_outer (set_base (REG_A0 + n) no_regs) (direct mode n) in
  match ts with
  | TD n :: r => Ok (true, direct AM_DREG n, r, st)
  | TA n :: r => Ok (true, direct AM_AREG n, r, st)
  | TInd n :: r => Ok (true, through AM_AIND n, r, st)
  | TDec n :: r => Ok (true, through AM_ADEC n, r, st)
  | TInc n :: r => Ok (true, through AM_AINC n, r, st)
  | THash :: r =>
      let (e, r1) := parse_Expression r in Ok (true, set_mode AM_IMM (set_imm e no_mode), r1, st)
  | _ =>
      let (e, ts1) := parse_Expression ts in
      let '(o, ts2) := if isNull e then (no_regs, ts1)
                       else let (size, t) := m68k_GetSizeSpecifier SIZE_DEFAULT ts1 in (set_dsize size (set_disp e no_regs), t) in
      match ts2 with
      | TLp :: ts3 =>
          let! (ok, a, ts4, st1) := getOuterMode (List.length ts2) cpu (set_outer o no_mode) ts3 st in
          if ok then
            let a1 := if negb (isNull e) && negb (r_base (a_outer a) =? REG_NONE) && (r_dsize (a_outer a) =? SIZE_DEFAULT)
                      then set_outer (set_dsize SIZE_BYTE (a_outer a)) a else a in
            let '(ok2, a2, st2) := optimizeMode cpu a1 st1 in Ok (ok2, a2, ts4, st2)
          else Ok (false, a, ts4, st1)
      | _ =>
          if isNull e then Ok (false, no_mode, ts2, st) else
          let absolute :=
            let o1 := m68k_OptimizeDisplacement o in
            let a := set_outer o1 no_mode in
            if r_dsize o1 =? SIZE_WORD then Ok (true, set_mode AM_WORD a, ts2, st)
            else if r_dsize o1 =? SIZE_LONG then Ok (true, set_mode AM_LONG a, ts2, st)
            else Ok (false, a, ts2, err_Error MERROR_DISP_SIZE st) in
          match ts2 with
          | TPcInd :: r => Ok (true, set_mode AM_PCDISP (set_outer (set_dsize SIZE_WORD (set_base REG_PC o)) no_mode), r, st)
          | TInd n :: r =>
              let! (e1, st1) := m68k_ExpressionCheck16Bit e st in
              Ok (true, set_mode AM_ADISP (set_outer (set_dsize SIZE_WORD (set_base (REG_A0 + n) (set_disp e1 o))) no_mode), r, st1)
          | _ => absolute
          end
      end
  end.

(** ** Extension words *)
(** m68k_parse.c:293-300, 346-353, 398-405: the index register in the word. *)
Definition index_bits (index isize : Z) : Z :=
  if index =? REG_NONE then 0x0040 else Z.lor (index * 4096) (if isize =? SIZE_LONG then 0x0800 else 0).
(** m68k_parse.c:256-272, 308-324, 360-376: the base displacement; None is an internal
    error, which ends the program. *)
Definition bd_bits (r : regs) : option Z :=
  if isNull (r_disp r) then Some 0x0010
  else if r_dsize r =? SIZE_WORD then Some 0x0020 else if r_dsize r =? SIZE_LONG then Some 0x0030 else None.
(** m68k_parse.c:326-342, 378-394: the outer displacement. *)
Definition od_bits (first : Z) (r : regs) : option Z :=
  if isNull (r_disp r) then Some first
  else if r_dsize r =? SIZE_WORD then Some (first + 1) else if r_dsize r =? SIZE_LONG then Some (first + 2) else None.
Section Words.
Variable F : fmath.
(** An uninitialised integer: expr_Assert leaves the value of its result as it was
    allocated (expression.c:370-384). *)
Variable garbage : Z.
Definition expr_And (e : expr) (c : Z) : res expr := expr_Binary F OpAnd e (expr_Const c).
Definition expr_Or (e f : expr) : res expr := expr_Binary F OpOr e f.
Definition expr_Asl (e : expr) (c : Z) : res expr := expr_Binary F OpAsl e (expr_Const c).
(** m68k_parse.c:218-220, 278-280 and so on: the scale. *)
Definition or_scale (e scale : expr) : res expr :=
  if isNull scale then Ok e else let! s := expr_Asl scale 9 in expr_Or e s.
(** m68k_parse.c:283-293 and so on: a displacement. *)
Definition output_disp (r : regs) (st : xstate) : res xstate :=
  if isNull (r_disp r) then Ok st
  else if r_dsize r =? SIZE_LONG then sect_OutputExpr32 (r_disp r) st else sect_OutputExpr16 (r_disp r) st.
(** m68k_parse.c:241-456: a full extension word, with base displacement [bd] and, if
    [od] is given, outer displacement, whose code is [first] if there is none. *)
Definition full_word (base index isize : Z) (scale : expr) (bd : regs) (od : option (Z * regs)) (st : xstate) : res (bool * xstate) :=
  let bd1 := m68k_OptimizeDisplacement bd in
  let od1 := option_map (fun p => (fst p, m68k_OptimizeDisplacement (snd p))) od in
  match bd_bits bd1, match od1 with None => Some 0 | Some (first, r) => od_bits first r end with
  | Some b, Some o =>
      let ins := orl [0x0100; (if base =? REG_NONE then 0x0080 else 0); index_bits index isize; b; o] in
      let! e := or_scale (expr_Const ins) scale in
      let! st1 := sect_OutputExpr16 e st in
      let! st2 := output_disp bd1 st1 in
      let! st3 := match od1 with None => Ok st2 | Some (_, r) => output_disp r st2 end in
      Ok (true, st3)
  | _, _ => Err
  end.
(** expr_PcRelative of a displacement that is there. *)
Definition pc_relative (adjustment : Z) (r : regs) (st : xstate) : res regs :=
  if isNull (r_disp r) then Ok r
  else let! e := expr_PcRelative F (sect_Current st) (r_disp r) adjustment in Ok (set_disp e r).
(** m68k_parse.c:93-456 m68k_OutputExtensionWords.  The displacement that is replaced in
    the mode is not read again.  Without floating point sizes. *)
Definition output_indexed (r : regs) (st : xstate) : res (bool * xstate) :=
  let ins := Z.lor (u16 (r_index r * 4096)) (if r_isize r =? SIZE_LONG then 0x0800 else 0) in
  let! (e, st1) := if isNull (r_disp r) then Ok (expr_Const 0, st) else m68k_ExpressionCheck8Bit (r_disp r) st in
  let! e1 := expr_And e 0xFF in
  let! e2 := expr_Or e1 (expr_Const ins) in
  let! e3 := or_scale e2 (r_scale r) in
  let! st2 := sect_OutputExpr16 e3 st1 in
  Ok (true, st2).
Definition output_word (r : regs) (st : xstate) : res (bool * xstate) :=
  if isNull (r_disp r) then Err
  else if (r_dsize r =? SIZE_WORD) || (r_dsize r =? SIZE_DEFAULT) then let! st1 := sect_OutputExpr16 (r_disp r) st in Ok (true, st1)
  else Ok (false, err_Error MERROR_DISP_SIZE st).
Definition m68k_OutputExtensionWords (a : amode) (st : xstate) : res (bool * xstate) :=
  let o := a_outer a in
  let i := a_inner a in
  let mode := a_mode a in
  if mode =? AM_IMM then
    if a_immsize a =? SIZE_LONG then
      if isNull (a_imm a) then Ok (false, st) else let! st1 := sect_OutputExpr32 (a_imm a) st in Ok (true, st1)
    else
      let! (e, st1) := if a_immsize a =? SIZE_BYTE then m68k_ExpressionCheck8Bit (a_imm a) st
                       else m68k_ExpressionCheck16Bit (a_imm a) st in
      let! st2 := sect_OutputExpr16 e st1 in Ok (true, st2)
  else if mode =? AM_WORD then
    if isNull (r_disp o) then Err else let! st1 := sect_OutputExpr16 (r_disp o) st in Ok (true, st1)
  else if mode =? AM_LONG then
    if isNull (r_disp o) then Err else let! st1 := sect_OutputExpr32 (r_disp o) st in Ok (true, st1)
  else if mode =? AM_PCDISP then let! o1 := pc_relative 0 o st in output_word o1 st
  else if mode =? AM_ADISP then output_word o st
  else if mode =? AM_PCXDISP then let! o1 := pc_relative 0 o st in output_indexed o1 st
  else if mode =? AM_AXDISP then output_indexed o st
  else if has mode (orl [AM_DREG; AM_AREG; AM_AIND; AM_AINC; AM_ADEC]) then Ok (true, st)
  else if mode =? AM_PCXDISP020 then
    let! o1 := pc_relative 2 o st in full_word (r_base o) (r_index o) (r_isize o) (r_scale o) o1 None st
  else if mode =? AM_AXDISP020 then full_word (r_base o) (r_index o) (r_isize o) (r_scale o) o None st
  else if mode =? AM_PREINDPCXD020 then
    let! i1 := pc_relative 2 i st in full_word (r_base i) (r_index i) (r_isize i) (r_scale i) i1 (Some (1, o)) st
  else if mode =? AM_PREINDAXD020 then full_word (r_base i) (r_index i) (r_isize i) (r_scale i) i (Some (1, o)) st
  else if mode =? AM_POSTINDPCXD020 then
    let! i1 := pc_relative 2 i st in full_word (r_base i) (r_index o) (r_isize o) (r_scale o) i1 (Some (5, o)) st
  else if mode =? AM_POSTINDAXD020 then full_word (r_base i) (r_index o) (r_isize o) (r_scale o) i (Some (5, o)) st
  else Err.
(** m68k_parse.c:458-507 m68k_GetEffectiveAddressField; None is an internal error. *)
Definition m68k_GetEffectiveAddressField (a : amode) : option Z :=
  let low r := Z.land (r_base r) 7 in
  let o := a_outer a in
  let mode := a_mode a in
  if mode =? AM_DREG then Some (a_direct a)
  else if mode =? AM_AREG then Some (Z.lor 8 (a_direct a))
  else if mode =? AM_AIND then Some (Z.lor 0x10 (low o))
  else if mode =? AM_AINC then Some (Z.lor 0x18 (low o))
  else if mode =? AM_ADEC then Some (Z.lor 0x20 (low o))
  else if mode =? AM_ADISP then Some (Z.lor 0x28 (low o))
  else if mode =? AM_AXDISP then Some (Z.lor 0x30 (low o))
  else if mode =? AM_WORD then Some 0x38
  else if mode =? AM_LONG then Some 0x39
  else if mode =? AM_IMM then Some 0x3C
  else if mode =? AM_PCDISP then Some 0x3A
  else if mode =? AM_PCXDISP then Some 0x3B
  else if mode =? AM_AXDISP020 then Some (if r_base o =? REG_NONE then 0x30 else Z.lor 0x30 (low o))
  else if has mode M_PC020 then Some 0x3B
  else if has mode (orl [AM_PREINDAXD020; AM_POSTINDAXD020]) then
    Some (if r_base (a_inner a) =? REG_NONE then 0x30 else Z.lor 0x30 (low (a_inner a)))
  else None.

(** ** Handlers *)
(** A handler may read more of the line.  It gives whether it succeeded. *)
Definition answer : Type := res (bool * list token * xstate).
Definition with_text (ts : list token) (r : res (bool * xstate)) : answer := let! (b, st) := r in Ok (b, ts, st).
(** m68k_parse_integer.c:40-54 getSizeField. *)
Definition getSizeField (size : Z) : option Z :=
  if size =? SIZE_BYTE then Some 0 else if size =? SIZE_WORD then Some 1 else if size =? SIZE_LONG then Some 2 else None.
(** A word with the effective address field of [a] added. *)
Definition opword (l : list Z) (a : amode) (st : xstate) : res xstate :=
  match m68k_GetEffectiveAddressField a with None => Err | Some f => sect_OutputConst16 (orl (l ++ [f])) st end.
(** m68k_parse_integer.c:56-65 outputOpcode and outputOpcodeSize. *)
Definition outputOpcode (l : list Z) (a : amode) (st : xstate) : res (bool * xstate) :=
  let! st1 := opword l a st in m68k_OutputExtensionWords a st1.
Definition outputOpcodeSize (l : list Z) (size : Z) (a : amode) (st : xstate) : res (bool * xstate) :=
  match getSizeField size with None => Err | Some s => outputOpcode (l ++ [s * 64]) a st end.
Definition fails (n : Z) (st : xstate) : res (bool * xstate) := Ok (true, err_Error n st).
Definition low_base (a : amode) : Z := Z.land (r_base (a_outer a)) 7.

(** m68k_parse_integer.c:67-86 handleXBCD. *)
Definition handleXBCD (op size : Z) (src dest : amode) (st : xstate) : res (bool * xstate) :=
  let st1 := if a_mode src =? a_mode dest then st else err_Error ERROR_OPERAND st in
  let l := if a_mode src =? AM_ADEC then [op; 8; low_base src; low_base dest * 512]
           else [op; a_direct src; a_direct dest * 512] in
  match getSizeField size with
  | None => Err
  | Some s => let! st2 := sect_OutputConst16 (orl (l ++ [s * 64])) st1 in Ok (true, st2)
  end.
(** m68k_parse_integer.c:108-123 handleQuick. *)
Definition handleQuick (op size : Z) (src dest : amode) (st : xstate) : res (bool * xstate) :=
  let! (e, st1) := range_checked (a_imm src) 1 8 st in
  match m68k_GetEffectiveAddressField dest, getSizeField size with
  | Some f, Some s =>
      let! e1 := expr_And e 7 in
      let! e2 := expr_Asl e1 9 in
      let! e3 := expr_Or (expr_Const (orl [op; f; s * 64])) e2 in
      let! st2 := sect_OutputExpr16 e3 st1 in
      m68k_OutputExtensionWords dest st2
  | _, _ => Err
  end.
(** m68k_parse_integer.c:137-138, 178-179. *)
Definition is_quick (a : amode) : bool :=
  (a_mode a =? AM_IMM) && expr_IsConstant (a_imm a) && (1 <=? e_v (a_imm a)) && (e_v (a_imm a) <=? 8).
(** m68k_parse_integer.c:135-144 handleArithmeticA. *)
Definition handleArithmeticA (quick op size : Z) (src dest : amode) (st : xstate) : res (bool * xstate) :=
  if is_quick src then handleQuick quick size src dest st
  else outputOpcode [op; a_direct dest * 512; (if size =? SIZE_WORD then 3 else 7) * 64] src st.
(** m68k_parse_integer.c:156-174 handleArithmeticLogicalI. *)
Definition handleArithmeticLogicalI (op size : Z) (src dest : amode) (st : xstate) : res (bool * xstate) :=
  if size =? SIZE_BYTE then
    let! st1 := opword [op] dest st in
    let! (e, st2) := m68k_ExpressionCheck8Bit (a_imm src) st1 in
    let! e1 := expr_And e 0xFF in
    let! st3 := sect_OutputExpr16 e1 st2 in
    m68k_OutputExtensionWords dest st3
  else if size =? SIZE_WORD then
    let! st1 := opword [op; 0x40] dest st in
    let! (e, st2) := m68k_ExpressionCheck16Bit (a_imm src) st1 in
    let! st3 := sect_OutputExpr16 e st2 in
    m68k_OutputExtensionWords dest st3
  else
    let! st1 := opword [op; 0x80] dest st in
    let! st2 := sect_OutputExpr32 (a_imm src) st1 in
    m68k_OutputExtensionWords dest st2.
(** m68k_parse_integer.c:176-184 handleArithmeticI; the source is an immediate. *)
Definition handleArithmeticI (quick op size : Z) (src dest : amode) (st : xstate) : res (bool * xstate) :=
  if is_quick src then handleQuick quick size src dest st else handleArithmeticLogicalI op size src dest st.
(** m68k_parse_integer.c:241-256 handleArithmeticLogical. *)
Definition handleArithmeticLogical (op size : Z) (src dest : amode) (st : xstate) : res (bool * xstate) :=
  if a_mode dest =? AM_DREG then
    if (a_mode src =? AM_AREG) && negb (size =? SIZE_WORD) && negb (size =? SIZE_LONG) then fails MERROR_INSTRUCTION_SIZE st
    else outputOpcodeSize [op; a_direct dest * 512] size src st
  else if a_mode src =? AM_DREG then outputOpcodeSize [op; 0x0100; a_direct src * 512] size dest st
  else fails ERROR_OPERAND st.
(** m68k_parse_integer.c:258-268 handleArithmetic. *)
Definition handleArithmetic (quick opi op size : Z) (src dest : amode) (st : xstate) : res (bool * xstate) :=
  if a_mode dest =? AM_AREG then handleArithmeticA quick op size src dest st
  else if a_mode src =? AM_IMM then handleArithmeticI quick opi size src dest st
  else handleArithmeticLogical op size src dest st.
(** m68k_parse_integer.c:280-284 handleCMPA. *)
Definition handleCMPA (size : Z) (src dest : amode) (st : xstate) : res (bool * xstate) :=
  outputOpcode [0xB040; a_direct dest * 512; (if size =? SIZE_WORD then 3 else 7) * 64] src st.
(** m68k_parse_integer.c:286-309 handleCMPI. *)
Definition handleCMPI (size : Z) (src dest : amode) (st : xstate) : res (bool * xstate) :=
  match getSizeField size with
  | None => Err
  | Some s =>
      let! st1 := opword [0x0C00; s * 64] dest st in
      let! st4 :=
        if size =? SIZE_BYTE then
          let! (e, st2) := m68k_ExpressionCheck8Bit (a_imm src) st1 in
          let! e1 := expr_And e 0xFF in sect_OutputExpr16 e1 st2
        else if size =? SIZE_WORD then
          let! (e, st2) := m68k_ExpressionCheck16Bit (a_imm src) st1 in sect_OutputExpr16 e st2
        else sect_OutputExpr32 (a_imm src) st1 in
      m68k_OutputExtensionWords dest st4
  end.
(** m68k_parse_integer.c:311-317 handleCMPM. *)
Definition handleCMPM (size : Z) (src dest : amode) (st : xstate) : res (bool * xstate) :=
  match getSizeField size with
  | None => Err
  | Some s => let! st1 := sect_OutputConst16 (orl [0xB108; low_base dest * 512; low_base src; s * 64]) st in Ok (true, st1)
  end.
(** m68k_parse_integer.c:319-335 handleCMP. *)
Definition handleCMP (size : Z) (src dest : amode) (st : xstate) : res (bool * xstate) :=
  if (a_mode src =? AM_AINC) && (a_mode dest =? AM_AINC) then handleCMPM size src dest st
  else if a_mode dest =? AM_AREG then handleCMPA size src dest st
  else if a_mode src =? AM_IMM then handleCMPI size src dest st
  else if a_mode dest =? AM_DREG then handleArithmeticLogical 0xB000 size src dest st
  else Ok (false, err_Error ERROR_DEST_OPERAND st).
(** m68k_parse_integer.c:337-343 handleAND and 1252-1258 handleOR. *)
Definition handleLogical (opi op size : Z) (src dest : amode) (st : xstate) : res (bool * xstate) :=
  if a_mode src =? AM_IMM then handleArithmeticLogicalI opi size src dest st else handleArithmeticLogical op size src dest st.
(** m68k_parse_integer.c:345-359 handleCLR and handleTST and 1222-1250.  The test for an
    address register in handleTST never succeeds: the table does not allow it. *)
Definition handleSized (op size : Z) (src : amode) (st : xstate) : res (bool * xstate) := outputOpcodeSize [op] size src st.
(** m68k_parse_integer.c:361-398 handleShift. *)
Definition handleShift (op mem size : Z) (src dest : amode) (st : xstate) : res (bool * xstate) :=
  if a_mode dest =? AM_DREG then
    match getSizeField size with
    | None => Err
    | Some s =>
        if a_mode src =? AM_IMM then
          let! (e, st1) := range_checked (a_imm src) 1 8 st in
          let! e1 := expr_And e 7 in
          let! e2 := expr_Asl e1 9 in
          let! e3 := expr_Or (expr_Const (orl [op; s * 64; a_direct dest])) e2 in
          let! st2 := sect_OutputExpr16 e3 st1 in Ok (true, st2)
        else if a_mode src =? AM_DREG then
          let! st1 := sect_OutputConst16 (orl [op; s * 64; a_direct dest; 0x0020; a_direct src * 512]) st in Ok (true, st1)
        else Ok (true, st)
    end
  else if negb (a_mode dest =? AM_EMPTY) then fails ERROR_DEST_OPERAND st
  else if has (a_mode src) M_MALT then
    if negb (size =? SIZE_WORD) then fails MERROR_INSTRUCTION_SIZE st else outputOpcode [mem] src st
  else fails ERROR_SOURCE_OPERAND st.
(** m68k_parse_integer.c:440-487 handleBcc.  The tests for NULL never succeed. *)
Definition handleBcc (cpu size code : Z) (ts : list token) (st : xstate) : answer :=
  let (e, ts1) := parse_Expression ts in
  if isNull e then Ok (true, ts1, err_Error ERROR_EXPECT_EXPR st) else
  let op := Z.lor 0x6000 (code * 256) in
  if size =? SIZE_BYTE then
    let! e1 := expr_PcRelative F (sect_Current st) e (-2) in
    let! (e2, st1) := range_checked e1 (-128) 127 st in
    let! c := expr_Binary F OpNe e2 (expr_Const 0) in
    let! e3 := expr_Assert garbage e2 c in
    let! e4 := expr_And e3 0xFF in
    let! e5 := expr_Or e4 (expr_Const op) in
    let! st2 := sect_OutputExpr16 e5 st1 in Ok (true, ts1, st2)
  else if size =? SIZE_WORD then
    let! st1 := sect_OutputConst16 op st in
    let! e1 := expr_PcRelative F (sect_Current st1) e 0 in
    let! (e2, st2) := range_checked e1 (-32768) 32767 st1 in
    let! st3 := sect_OutputExpr16 e2 st2 in Ok (true, ts1, st3)
  else if size =? SIZE_LONG then
    if cpu <? CPUF_68020 then Ok (true, ts1, err_Error MERROR_INSTRUCTION_SIZE st) else
    let! e1 := expr_PcRelative F (sect_Current st) e 0 in
    let! st1 := sect_OutputConst16 (Z.lor op 0xFF) st in
    let! st2 := sect_OutputExpr32 e1 st1 in Ok (true, ts1, st2)
  else Ok (true, ts1, st).
(** m68k_parse_integer.c:489-515 handleBitInstruction. *)
Definition handleBitInstruction (data : Z) (src dest : amode) (st : xstate) : res (bool * xstate) :=
  if a_mode src =? AM_DREG then outputOpcode [0x0100; data; a_direct src * 512] dest st
  else if a_mode src =? AM_IMM then
    let! st1 := opword [0x0800; data] dest st in
    let! (e, st2) := range_checked (a_imm src) 0 (if a_mode dest =? AM_DREG then 31 else 7) st1 in
    let! st3 := sect_OutputExpr16 e st2 in
    m68k_OutputExtensionWords dest st3
  else Ok (true, st).
(** m68k_parse_integer.c:710-719 handleCHK. *)
Definition handleCHK (cpu size : Z) (src dest : amode) (st : xstate) : res (bool * xstate) :=
  if (size =? SIZE_LONG) && (cpu <? CPUF_68020) then fails MERROR_INSTRUCTION_SIZE st
  else outputOpcode [0x4000; a_direct dest * 512; (if size =? SIZE_WORD then 3 else 2) * 128] src st.
(** m68k_parse_integer.c:754-769 handleDBcc with parse.c parse_ExpectComma. *)
Definition handleDBcc (code : Z) (src : amode) (ts : list token) (st : xstate) : answer :=
  match ts with
  | TComma :: ts1 =>
      let (e, ts2) := parse_Expression ts1 in
      if isNull e then Ok (false, ts2, err_Error ERROR_EXPECT_EXPR st) else
      let! st1 := sect_OutputConst16 (orl [0x50C8; code * 256; a_direct src]) st in
      let! e1 := expr_PcRelative F (sect_Current st1) e 0 in
      let! st2 := sect_OutputExpr16 e1 st1 in Ok (true, ts2, st2)
  | _ => Ok (false, ts, err_Error ERROR_CHAR_EXPECTED st)
  end.
(** m68k_parse_integer.c:771-803 handleDIVxx for DIVS and DIVU and 1170-1210 handleMULx.
    Simplification: no second register after a colon, which is not a token here. *)
Definition handleDIV (sign size : Z) (src dest : amode) (st : xstate) : res (bool * xstate) :=
  if size =? SIZE_LONG then
    let! st1 := opword [0x4C40] src st in
    let! st2 := sect_OutputConst16 (orl [sign * 2048; a_direct dest * 4096; a_direct dest]) st1 in
    m68k_OutputExtensionWords src st2
  else outputOpcode [0x80C0; sign * 256; a_direct dest * 512] src st.
Definition handleMUL (cpu sign size : Z) (src dest : amode) (st : xstate) : res (bool * xstate) :=
  if (size =? SIZE_LONG) && (cpu <? CPUF_68020) then fails MERROR_INSTRUCTION_CPU st
  else if size =? SIZE_LONG then
    let! st1 := opword [0x4C00] src st in
    let! st2 := sect_OutputConst16 (orl [sign * 2048; a_direct dest * 4096]) st1 in
    m68k_OutputExtensionWords src st2
  else outputOpcode [0xC0C0; sign * 256; a_direct dest * 512] src st.
(** m68k_parse_integer.c:825-832 handleEOR. *)
Definition handleEOR (size : Z) (src dest : amode) (st : xstate) : res (bool * xstate) :=
  if a_mode src =? AM_IMM then handleArithmeticLogicalI 0x0A00 size src dest st
  else outputOpcodeSize [0xB100; a_direct src * 512] size dest st.
(** m68k_parse_integer.c:834-859 handleEXG. *)
Definition handleEXG (src dest : amode) (st : xstate) : res (bool * xstate) :=
  let '(ins, rx, ry) :=
    if negb (a_mode src =? a_mode dest) then
      if a_mode src =? AM_AREG then (0x88, a_direct dest, a_direct src) else (0x88, a_direct src, a_direct dest)
    else ((if a_mode src =? AM_DREG then 0x40 else 0x48), a_direct src, a_direct dest) in
  let! st1 := sect_OutputConst16 (orl [ins; 0xC100; rx * 512; ry]) st in Ok (true, st1).
(** m68k_parse_integer.c:861-881 handleEXT and handleEXTB, 1367-1372 handleSWAP,
    1427-1432 handleUNLK and the handlers without operands. *)
Definition one_word (l : list Z) (st : xstate) : res (bool * xstate) := let! st1 := sect_OutputConst16 (orl l) st in Ok (true, st1).
(** m68k_parse_integer.c:904-922 handleLINK. *)
Definition handleLINK (cpu size : Z) (src dest : amode) (st : xstate) : res (bool * xstate) :=
  if (size =? SIZE_LONG) && (cpu <? CPUF_68020) then fails MERROR_INSTRUCTION_SIZE st
  else if size =? SIZE_WORD then
    let! st1 := sect_OutputConst16 (orl [0x4E50; a_direct src]) st in
    let! st2 := sect_OutputExpr16 (a_imm dest) st1 in Ok (true, st2)
  else
    let! st1 := sect_OutputConst16 (orl [0x4808; a_direct src]) st in
    let! st2 := sect_OutputExpr32 (a_imm dest) st1 in Ok (true, st2).
(** m68k_parse_integer.c:1153-1164 handleMOVEQ. *)
Definition handleMOVEQ (src dest : amode) (st : xstate) : res (bool * xstate) :=
  let! (e, st1) := range_checked (a_imm src) (-128) 127 st in
  let! e1 := expr_And e 0xFF in
  let! e2 := expr_Or e1 (expr_Const (Z.lor 0x7000 (a_direct dest * 512))) in
  let! st2 := sect_OutputExpr16 e2 st1 in Ok (true, st2).
(** m68k_parse_integer.c:1062-1080 handleMOVEA. *)
Definition handleMOVEA (size : Z) (src dest : amode) (st : xstate) : res (bool * xstate) :=
  match m68k_GetEffectiveAddressField src with
  | None => Err
  | Some f => outputOpcode [0x0040; a_direct dest * 512; (if size =? SIZE_WORD then 3 else 2) * 4096; f] src st
  end.
(** m68k_parse_integer.c:1030-1060 handleMOVE. *)
Definition handleMOVE (size : Z) (src dest : amode) (st : xstate) : res (bool * xstate) :=
  if (a_mode src =? AM_IMM) && (a_mode dest =? AM_DREG) && (size =? SIZE_LONG) && expr_IsConstant (a_imm src) &&
     (-128 <=? e_v (a_imm src)) && (e_v (a_imm src) <? 127)
  then handleMOVEQ src dest st
  else if a_mode dest =? AM_AREG then handleMOVEA size src dest st
  else
    match m68k_GetEffectiveAddressField dest, m68k_GetEffectiveAddressField src with
    | Some d, Some s =>
        let swapped := Z.land (Z.lor (d / 8) (d * 8)) 0x3F in
        let bits := if size =? SIZE_BYTE then 1 else if size =? SIZE_WORD then 3 else 2 in
        let! st1 := sect_OutputConst16 (orl [s; swapped * 64; bits * 4096]) st in
        let! (ok, st2) := m68k_OutputExtensionWords src st1 in
        if negb ok then Ok (false, st2) else m68k_OutputExtensionWords dest st2
    | _, _ => Err
    end.
(** m68k_parse_integer.c:1379-1389 handleTRAP. *)
Definition handleTRAP (src : amode) (st : xstate) : res (bool * xstate) :=
  let! (e, st1) := range_checked (a_imm src) 0 15 st in
  let! e1 := expr_Or e (expr_Const 0x4E40) in
  let! st2 := sect_OutputExpr16 e1 st1 in Ok (true, st2).
Definition run_handler (cpu : Z) (h : handler) (size : Z) (src dest : amode) (data : Z) (ts : list token) (st : xstate) : answer :=
  match h with
  | HBcc => handleBcc cpu size data ts st
  | HDBcc => handleDBcc data src ts st
  | _ =>
    with_text ts
    match h with
    | HXBCD op => handleXBCD op size src dest st
    | HQuick op => handleQuick op size src dest st
    | HArithmeticA quick op => handleArithmeticA quick op size src dest st
    | HArithmeticI quick op => handleArithmeticI quick op size src dest st
    | HBitwiseI op => handleArithmeticLogicalI op size src dest st
    | HArithmetic quick opi op => handleArithmetic quick opi op size src dest st
    | HCMPA => handleCMPA size src dest st
    | HCMPI => handleCMPI size src dest st
    | HCMPM => handleCMPM size src dest st
    | HCMP => handleCMP size src dest st
    | HLogical opi op => handleLogical opi op size src dest st
    | HSized op => handleSized op size src st
    | HOne op => outputOpcode [op] src st
    | HShift op mem => handleShift op mem size src dest st
    | HBit => handleBitInstruction data src dest st
    | HCHK => handleCHK cpu size src dest st
    | HDIV sign => handleDIV sign size src dest st
    | HEOR => handleEOR size src dest st
    | HEXG => handleEXG src dest st
    | HEXT => one_word [0x4800; a_direct src; (if size =? SIZE_WORD then 2 else 3) * 64] st
    | HEXTB => one_word [0x4800; a_direct src; 7 * 64] st
    | HLEA => outputOpcode [0x41C0; a_direct dest * 512] src st
    | HLINK => handleLINK cpu size src dest st
    | HMOVE => handleMOVE size src dest st
    | HMOVEA => handleMOVEA size src dest st
    | HMOVEQ => handleMOVEQ src dest st
    | HMUL sign => handleMUL cpu sign size src dest st
    | HScc => outputOpcode [0x50C0; data * 256] src st
    | HSWAP => one_word [0x4840; a_direct src] st
    | HTRAP => handleTRAP src st
    | HUNLK => one_word [0x4E58; a_direct src] st
    | HFixed op => one_word [op] st
    | HFixedImm op => let! st1 := sect_OutputConst16 op st in let! st2 := sect_OutputExpr16 (a_imm src) st1 in Ok (true, st2)
    | HBcc | HDBcc => Err
    end
  end.

(** ** Instructions *)
(** m68k_parse.c:39-52 enable020Modes. *)
Definition enable020Modes (cpu modes : Z) : Z :=
  if cpu >=? CPUF_68020 then
    orl [modes; (if has modes AM_IMM_WHEN20 then AM_IMM else 0); (if has modes AM_PCDISP_WHEN20 then AM_PCDISP else 0);
         (if has modes AM_PCXDISP_WHEN20 then AM_PCXDISP else 0)]
  else modes.
(** m68k_parse.c:634-670 m68k_ParseOpCore. *)
Definition m68k_ParseOpCore (cpu : Z) (i : instruction) (size : Z) (src dest : amode) (ts : list token) (st : xstate) : answer :=
  let refused allowed a := (Z.land allowed (a_mode a) =? 0) && negb ((allowed =? 0) && (a_mode a =? AM_EMPTY)) in
  if refused (enable020Modes cpu (i_src i)) src then Ok (true, ts, err_Error ERROR_SOURCE_OPERAND st)
  else if refused (enable020Modes cpu (i_dest i)) dest then Ok (true, ts, err_Error ERROR_DEST_OPERAND st)
  else run_handler cpu (i_handler i) size src dest (i_data i) ts st.
(** m68k_parse.c:693-770 m68k_ParseCommonCpuFpu, without bit fields. *)
Definition m68k_ParseCommonCpuFpu (cpu : Z) (i : instruction) (ts : list token) (st : xstate) : answer :=
  if negb (Z.land (sect_CurrentSize st) 1 =? 0) then Ok (true, ts, err_Error MERROR_WORD_ALIGN st) else
  let '(size, ts1) :=
    if i_sizes i =? SIZE_DEFAULT then
      let (s, t) := m68k_GetSizeSpecifier SIZE_DEFAULT ts in
      (SIZE_DEFAULT, if s =? SIZE_DEFAULT then t else match t with [] => [] | _ :: r => r end)
    else m68k_GetSizeSpecifier (i_default i) ts in
  let reads modes := negb (modes =? 0) && negb (modes =? AM_EMPTY) in
  let core src dest t s :=
    let s1 := if (Z.land (i_sizes i) size =? 0) && negb (i_sizes i =? 0) && negb (i_default i =? 0)
              then err_Error MERROR_INSTRUCTION_SIZE s else s in
    m68k_ParseOpCore cpu i size src dest t s1 in
  let second src t s :=
    if reads (i_dest i) then
      match t with
      | TComma :: r =>
          let! (ok, dest, r1, s1) := m68k_GetAddressingMode cpu r s in
          if ok then core src dest r1 s1 else Ok (false, r1, s1)
      | _ => core src no_mode t s
      end
    else core src no_mode t s in
  if reads (i_src i) then
    let! (ok, src, ts2, st1) := m68k_GetAddressingMode cpu ts1 st in
    if ok then second (if a_mode src =? AM_IMM then set_immsize size src else src) ts2 st1
    else if Z.land (i_src i) AM_EMPTY =? 0 then Ok (true, ts2, err_Error ERROR_OPERAND st1)
    else second no_mode ts2 st1
  else second no_mode ts1 st.
(** m68k_parse_integer.c:3204-3219 m68k_IntegerInstruction. *)
Definition m68k_IntegerInstruction (cpu : Z) (ts : list token) (st : xstate) : answer :=
  match ts with
  | TIns i :: r =>
      if Z.land (i_cpu i) cpu =? 0 then Ok (true, r, err_Error MERROR_INSTRUCTION_CPU st)
      else m68k_ParseCommonCpuFpu cpu i r st
  | _ => Ok (false, ts, st)
  end.
End Words.
