(** Model of the 6502 instruction parser: /repo/xasm/6502/x65_parse_instr.c,
    x65_parse_addrmode.c, x65_parse.h, x65_options.c, x65_tokens.c and x65_tokens.h.
    Not modelled: the instructions of the 65816 (x65_parse_instr_65816.c), of the 4510
    and 45GS02 (x65_parse_instr_4510.c), and the directives BITS and SETBP. *)
From Coq Require Import ZArith List Bool String.
From Verif Require Import Base Arith ExprModel ObjWriteModel OptModel SectModel.
Import ListNotations.
Open Scope string_scope.
Open Scope Z_scope.

(** errors.h:24-103 EError and x65_errors.h:24-36 EMachineError. *)
Definition ERROR_CHAR_EXPECTED : Z := 100.
Definition ERROR_EXPR_CONST : Z := 119.
Definition MERROR_ILLEGAL_ADDRMODE : Z := 1000.
Definition MERROR_INSTRUCTION_NOT_SUPPORTED : Z := 1004.
Definition MERROR_SYNTHESIZED : Z := 1007.
Definition MERROR_NEEDS_ZP : Z := 1010.

(** x65_options.h: ECpu6502, and x65_parse_instr.c:45-49. *)
Definition MOPT_CPU_6502 : Z := 1.
Definition MOPT_CPU_65C02 : Z := 2.
Definition MOPT_CPU_65C02S : Z := 4.
Definition MOPT_CPU_65C816S : Z := 8.
Definition CPU_6502 : Z := 63.
Definition CPU_65C02 : Z := 62.
Definition CPU_65C02S : Z := 52.
Definition CPU_65C816S : Z := 8.
Definition CPU_4510 : Z := 48.

(** x65_parse.h:27-64: addressing modes. *)
Definition M_NONE : Z := 0x1.
Definition M_IMM : Z := 0x2.
Definition M_ZP : Z := 0x4.
Definition M_ZP_X : Z := 0x8.
Definition M_ZP_Y : Z := 0x10.
Definition M_ABS : Z := 0x20.
Definition M_ABS_X : Z := 0x40.
Definition M_ABS_Y : Z := 0x80.
Definition M_IND_ZP_X : Z := 0x100.
Definition M_IND_ZP_Y : Z := 0x200.
Definition M_A : Z := 0x400.
Definition M_IND_ABS : Z := 0x800.
Definition M_ZP_ABS : Z := 0x1000.
Definition M_BIT_ZP : Z := 0x2000.
Definition M_BIT_ZP_ABS : Z := 0x4000.
Definition M_IND_ZP : Z := 0x8000.
Definition M_IND_ABS_X : Z := 0x10000.
Definition M_IMM_IMM : Z := 0x20000.
Definition M_816_DISP_S : Z := 0x40000.
Definition M_816_LONG_IND_ZP : Z := 0x80000.
Definition M_816_LONG_ABS : Z := 0x100000.
Definition M_816_IND_DISP_S_Y : Z := 0x200000.
Definition M_816_LONG_IND_ZP_Y : Z := 0x400000.
Definition M_816_LONG_ABS_X : Z := 0x800000.
Definition M_816_LONG_IND_ABS : Z := 0x1000000.
Definition M_4510_IND_ZP_Z : Z := 0x2000000.
Definition M_4510_ABS_X : Z := 0x4000000.
Definition M_4510_ABS_Y : Z := 0x8000000.
Definition M_45GS02_IND_ZP_Z_QUAD : Z := 0x10000000.
Definition M_45GS02_IND_ZP_QUAD : Z := 0x20000000.
Definition M_45GS02_Q : Z := 0x40000000.
Definition MODE_6502 : Z :=
  M_NONE + M_IMM + M_ZP + M_ZP_X + M_ZP_Y + M_ABS + M_ABS_X + M_ABS_Y + M_IND_ZP_X + M_IND_ZP_Y + M_A + M_IND_ABS.
Definition MODE_65C02 : Z := MODE_6502 + M_IND_ZP + M_IND_ABS_X.
Definition MODE_65C02S : Z := MODE_65C02 + M_ZP_ABS + M_BIT_ZP + M_BIT_ZP_ABS.

(** x65_options.h SMachineOptions; x65_options.c:38-40 g_allowedModes, 52-61
    x65_SetDefault and 115-128 x65_ParseOption: the settings for the first three
    processors. *)
Record mopts : Type := MOpts {
  o_cpu : Z; o_synthesized : bool; o_m16 : bool; o_x16 : bool; o_allowedModes : Z; o_bp_base : Z }.
Definition x65_options (cpu : Z) : mopts :=
  MOpts cpu false false false
    (if cpu =? MOPT_CPU_6502 then MODE_6502 else if cpu =? MOPT_CPU_65C02 then MODE_65C02 else MODE_65C02S) 0.

(** x65_tokens.h:24-232 ETargetToken and x65_tokens.c:24-277: the words. *)
Definition T_6502_ADC : Z := 6000.
Definition T_65C02_SMB7 : Z := 6125.
Definition T_6502_REG_A : Z := 6200.
Definition T_6502_REG_X : Z := 6201.
Definition T_6502_REG_Y : Z := 6202.
Definition T_65816_REG_S : Z := 6203.
Definition T_4510_REG_Z : Z := 6204.
Definition T_45GS02_REG_Q : Z := 6205.
Definition g_tokens : list (string * Z) :=
  [("ADC", 6000); ("AND", 6001); ("ASL", 6002); ("BIT", 6003); ("BPL", 6004); ("BMI", 6005); ("BVC", 6006);
   ("BVS", 6007); ("BCC", 6008); ("BLT", 6008); ("BCS", 6009); ("BGE", 6009); ("BNE", 6010); ("BEQ", 6011);
   ("BRK", 6012); ("CMP", 6013); ("CPX", 6014); ("CPY", 6015); ("DEC", 6016); ("EOR", 6017); ("CLC", 6018);
   ("SEC", 6019); ("CLI", 6020); ("SEI", 6021); ("CLV", 6022); ("CLD", 6023); ("SED", 6024); ("INC", 6025);
   ("JMP", 6026); ("JSR", 6027); ("LDA", 6028); ("LDX", 6029); ("LDY", 6030); ("LSR", 6031); ("NOP", 6032);
   ("ORA", 6033); ("TAX", 6034); ("TXA", 6035); ("DEX", 6036); ("INX", 6037); ("TAY", 6038); ("TYA", 6039);
   ("DEY", 6040); ("INY", 6041); ("ROL", 6042); ("ROR", 6043); ("RTI", 6044); ("RTS", 6045); ("SBC", 6046);
   ("STA", 6047); ("TXS", 6048); ("TSX", 6049); ("PHA", 6050); ("PLA", 6051); ("PHP", 6052); ("PLP", 6053);
   ("STX", 6054); ("STY", 6055); ("A", 6200); ("X", 6201); ("Y", 6202)].
Definition g_C02Instructions : list (string * Z) :=
  [("BRA", 6078); ("DEA", 6079); ("INA", 6080); ("PHX", 6081); ("PHY", 6082); ("PLX", 6083); ("PLY", 6084);
   ("STZ", 6085); ("TRB", 6086); ("TSB", 6087); ("BBR", 6090); ("BBR0", 6091); ("BBR1", 6092); ("BBR2", 6093);
   ("BBR3", 6094); ("BBR4", 6095); ("BBR5", 6096); ("BBR6", 6097); ("BBR7", 6098); ("BBS", 6099);
   ("BBS0", 6100); ("BBS1", 6101); ("BBS2", 6102); ("BBS3", 6103); ("BBS4", 6104); ("BBS5", 6105);
   ("BBS6", 6106); ("BBS7", 6107); ("RMB", 6108); ("RMB0", 6109); ("RMB1", 6110); ("RMB2", 6111);
   ("RMB3", 6112); ("RMB4", 6113); ("RMB5", 6114); ("RMB6", 6115); ("RMB7", 6116); ("SMB", 6117);
   ("SMB0", 6118); ("SMB1", 6119); ("SMB2", 6120); ("SMB3", 6121); ("SMB4", 6122); ("SMB5", 6123);
   ("SMB6", 6124); ("SMB7", 6125); ("STP", 6088); ("WAI", 6089)].
Definition g_65816Instructions : list (string * Z) :=
  [("BRL", 6126); ("COP", 6127); ("JML", 6128); ("JSL", 6129); ("MVN", 6130); ("MVP", 6131); ("PEA", 6132);
   ("PEI", 6133); ("PER", 6134); ("PHB", 6135); ("PHD", 6136); ("PHK", 6137); ("PLB", 6138); ("PLD", 6139);
   ("REP", 6140); ("RTL", 6141); ("SEP", 6142); ("TCD", 6143); ("TCS", 6144); ("TDC", 6145); ("TSC", 6146);
   ("TXY", 6147); ("TYX", 6148); ("WDM", 6149); ("XBA", 6150); ("XCE", 6151); ("S", 6203); ("BITS", 6206)].
Definition g_undocumentedInstructions0 : list (string * Z) :=
  [("AAC", 6056); ("AAX", 6057); ("ARR", 6058); ("ASR", 6059); ("ATX", 6060); ("AXA", 6061); ("AXS", 6062);
   ("DCP", 6063); ("DOP", 6064); ("ISC", 6065); ("KIL", 6066); ("LAR", 6067); ("LAX", 6068); ("RLA", 6069);
   ("RRA", 6070); ("SLO", 6071); ("SRE", 6072); ("SXA", 6073); ("SYA", 6074); ("TOP", 6075); ("XAA", 6076);
   ("XAS", 6077)].
Definition g_undocumentedInstructions1 : list (string * Z) :=
  [("ANC", 6056); ("SAX", 6057); ("ARR", 6058); ("ASR", 6059); ("LXA", 6060); ("SHA", 6061); ("SBX", 6062);
   ("DCP", 6063); ("DOP", 6064); ("ISB", 6065); ("JAM", 6066); ("LAE", 6067); ("LAX", 6068); ("RLA", 6069);
   ("RRA", 6070); ("SLO", 6071); ("SRE", 6072); ("SHX", 6073); ("SHY", 6074); ("TOP", 6075); ("ANE", 6076);
   ("SHS", 6077)].
Definition g_undocumentedInstructions2 : list (string * Z) :=
  [("ANC", 6056); ("AXS", 6057); ("ARR", 6058); ("ALR", 6059); ("OAL", 6060); ("AXA", 6061); ("SAX", 6062);
   ("DCM", 6063); ("SKB", 6064); ("INS", 6065); ("HLT", 6066); ("LAS", 6067); ("LAX", 6068); ("RLA", 6069);
   ("RRA", 6070); ("ASO", 6071); ("LSE", 6072); ("XAS", 6073); ("SAY", 6074); ("SKW", 6075); ("XAA", 6076);
   ("TAS", 6077)].
(** x65_tokens.c:279-299 x65_DefineTokens and x65_GetUndocumentedInstructions, and
    x65_options.c:63-92 x65_OptionsUpdated: the words known with the names [n] (0: none)
    for undocumented instructions, for processors other than the 4510 and 45GS02. *)
Definition undocumentedInstructions (n : Z) : list (string * Z) :=
  if n =? 1 then g_undocumentedInstructions0 else
  if n =? 2 then g_undocumentedInstructions1 else
  if n =? 3 then g_undocumentedInstructions2 else [].
Definition words (n : Z) : list (string * Z) :=
  (g_tokens ++ g_C02Instructions ++ g_65816Instructions ++ undocumentedInstructions n)%list.

(** The rest of a source line: words that are keywords, punctuation, and text that
    parse_Expression consumes, with the expression it gives.  Anything else is
    [TOther].  Simplification: an expression that starts with a parenthesis is given
    as three tokens, and no operator follows the closing parenthesis. *)
Inductive token : Type :=
| TId (id : Z) | TComma | TLp | TRp | TLb | TRb | THash | TLess | TGreater | TXor | TOr | TExpr (e : expr) | TOther.
Fixpoint assoc (s : string) (l : list (string * Z)) : token :=
  match l with [] => TOther | (k, v) :: r => if String.eqb s k then TId v else assoc s r end.
(** Source text.  Simplification: words are in upper case. *)
Inductive piece : Type := Word (s : string) | Comma | Lp | Rp | Hash | Less | Greater | Caret | Operand (e : expr).
Definition lex1 (n : Z) (p : piece) : token :=
  match p with
  | Word s => assoc s (words n)
  | Comma => TComma | Lp => TLp | Rp => TRp | Hash => THash | Less => TLess | Greater => TGreater | Caret => TXor
  | Operand e => TExpr e
  end.
Definition lex (n : Z) (l : list piece) : list token := map (lex1 n) l.

(** parse.c:122-131 parse_ExpectChar. *)
Definition expect (p : token -> bool) (ts : list token) (st : xstate) : bool * list token * xstate :=
  match ts with
  | t :: r => if p t then (true, r, st) else (false, ts, err_Error ERROR_CHAR_EXPECTED st)
  | [] => (false, ts, err_Error ERROR_CHAR_EXPECTED st)
  end.
Definition isRp (t : token) : bool := match t with TRp => true | _ => false end.
Definition isComma (t : token) : bool := match t with TComma => true | _ => false end.
Definition isReg (r : Z) (t : token) : bool := match t with TId i => i =? r | _ => false end.
(** parse_expression.c:655-657 parse_Expression and 157-175: a parenthesised
    expression. *)
Definition parse_Expression (ts : list token) : res (option (expr * list token)) :=
  match ts with
  | TExpr e :: r => Ok (Some (e, r))
  | TLp :: TExpr e :: TRp :: r => let! p := expr_Parens e in Ok (Some (p, r))
  | _ => Ok None
  end.
Definition e_isParens (e : expr) : bool := match e with ENode TParens _ _ _ _ _ _ => true | _ => false end.

(** x65_parse.h:66-83 SAddressingMode and EImmediateSize. *)
Record amode : Type := AMode { am_mode : Z; am_expr : expr; am_expr2 : expr; am_expr3 : expr; am_forced : bool }.
Inductive immsize : Type := IMM_NONE | IMM_8_BIT | IMM_16_BIT | IMM_ACC | IMM_INDEX.

(** sect_Current. *)
Definition sect_Current (st : xstate) : option asect :=
  match x_current st with
  | None => None
  | Some k => match nth_error (x_sections st) k with None => None | Some m => Some (ws_sect (m_w m)) end
  end.

Section Machine.
Variable F : fmath.
Variable o : mopts.
Definition expr_And (a b : expr) : res expr := expr_Binary F OpAnd a b.
Definition expr_Or (a b : expr) : res expr := expr_Binary F OpOr a b.
Definition expr_Asl (a b : expr) : res expr := expr_Binary F OpAsl a b.
Definition expr_Asr (a b : expr) : res expr := expr_Binary F OpAsr a b.

(** x65_parse_addrmode.c:37-40 maskExpression. *)
Definition maskExpression (e : expr) (imm16bit : bool) : res expr :=
  expr_And e (expr_Const (if imm16bit then 0xFFFF else 0xFF)).
(** x65_parse_addrmode.c:42-70 parseImmExpression.  With a prefix, a missing expression
    ends the program. *)
Definition prefixed (ts : list token) : res (expr * list token) :=
  let! r := parse_Expression ts in match r with Some er => Ok er | None => Err end.
Definition parseImmExpression (imm16bit : bool) (ts : list token) : res (option (expr * list token)) :=
  match ts with
  | TLess :: TGreater :: r =>
      let! (e, r1) := prefixed r in
      let! high := expr_And e (expr_Const 0xFF00) in
      let! l := expr_Asl e (expr_Const 8) in
      let! h := expr_Asr high (expr_Const 8) in
      let! e1 := expr_Or l h in
      let! e2 := maskExpression e1 imm16bit in Ok (Some (e2, r1))
  | TLess :: r =>
      let! (e, r1) := prefixed r in
      let! e2 := maskExpression e imm16bit in Ok (Some (e2, r1))
  | TGreater :: r =>
      let! (e, r1) := prefixed r in
      let! e1 := expr_Asr e (expr_Const 8) in
      let! e2 := maskExpression e1 imm16bit in Ok (Some (e2, r1))
  | TXor :: r =>
      let! (e, r1) := prefixed r in
      let! e1 := expr_Asr e (expr_Const 16) in
      let! e2 := maskExpression e1 imm16bit in Ok (Some (e2, r1))
  | _ => parse_Expression ts
  end.

(** x65_parse_addrmode.c:72-329 x65_ParseAddressingModeCore, one definition for each
    of its blocks.  A block finds an operand, misses it, so that the next one is
    tried from the same place (lex_Goto), or fails for good. *)
Inductive outcome : Type := Found (m : amode) (ts : list token) (st : xstate) | Missed (st : xstate) | Failed (st : xstate).
Definition has (allowed mask : Z) : bool := negb (Z.land allowed mask =? 0).
Definition simple (mode : Z) (e : expr) : amode := AMode mode e ENull ENull false.
Definition imm_is_16 (s : immsize) : bool :=
  match s with IMM_16_BIT => true | IMM_ACC => o_m16 o | IMM_INDEX => o_x16 o | _ => false end.
Definition in_base_page (e : expr) : bool :=
  expr_IsConstant e && (o_bp_base o <=? e_v e) && (e_v e <=? o_bp_base o + 255).
(** Lines 100-112: the registers A and Q. *)
Definition block_register (allowed reg mode : Z) (ts : list token) (st : xstate) : res outcome :=
  match ts with
  | t :: r => if has allowed mode && isReg reg t then Ok (Found (simple mode ENull) r st) else Ok (Missed st)
  | [] => Ok (Missed st)
  end.
(** Lines 114-136: immediate operands. *)
Definition block_imm (allowed : Z) (size : immsize) (ts : list token) (st : xstate) : res outcome :=
  match ts with
  | THash :: r =>
      if negb (has allowed (M_IMM + M_IMM_IMM)) then Ok (Missed st) else
      let! x := parseImmExpression (imm_is_16 size) r in
      match x with
      | None => Ok (Failed st)
      | Some (e, r1) =>
          match r1 with
          | TComma :: r2 =>
              if has allowed M_IMM_IMM then
                match r2 with
                | THash :: r3 =>
                    let! y := parseImmExpression (imm_is_16 size) r3 in
                    match y with
                    | Some (e2, r4) => Ok (Found (AMode M_IMM_IMM e e2 ENull false) r4 st)
                    | None => Ok (Failed st)
                    end
                | _ => Ok (Failed st)
                end
              else Ok (Found (simple M_IMM e) r1 st)
          | _ => Ok (Found (simple M_IMM e) r1 st)
          end
      end
  | _ => Ok (Missed st)
  end.
(** Lines 138-184: indexed indirect operands. *)
Definition after_S (e : expr) (ts : list token) (st : xstate) : res outcome :=
  match ts with
  | t :: r =>
      if isReg T_65816_REG_S t then
        let '(b, r1, st1) := expect isRp r st in
        if negb b then Ok (Missed st1) else
        let '(b2, r2, st2) := expect isComma r1 st1 in
        if negb b2 then Ok (Missed st2) else
        match r2 with
        | y :: r3 => if isReg T_6502_REG_Y y then Ok (Found (simple M_816_IND_DISP_S_Y e) r3 st2) else Ok (Missed st2)
        | [] => Ok (Missed st2)
        end
      else Ok (Missed st)
  | [] => Ok (Missed st)
  end.
Definition block_indexed (allowed : Z) (ts : list token) (st : xstate) : res outcome :=
  match ts with
  | TLp :: r =>
      if negb (has allowed (M_IND_ZP_X + M_IND_ZP_Y + M_4510_IND_ZP_Z + M_IND_ABS_X + M_816_IND_DISP_S_Y)) then Ok (Missed st) else
      let! x := parse_Expression r in
      match x with
      | None => Ok (Missed st)
      | Some (e, r1) =>
          match r1 with
          | TComma :: t :: r2 =>
              if isReg T_6502_REG_X t then
                let '(b, r3, st1) := expect isRp r2 st in
                if b then Ok (Found (simple (Z.land allowed (M_IND_ZP_X + M_IND_ABS_X)) e) r3 st1)
                else after_S e r3 st1
              else after_S e (t :: r2) st
          | TRp :: TComma :: t :: r2 =>
              if isReg T_6502_REG_Y t then Ok (Found (simple M_IND_ZP_Y e) r2 st)
              else if has allowed M_4510_IND_ZP_Z && isReg T_4510_REG_Z t then Ok (Found (simple M_4510_IND_ZP_Z e) r2 st)
              else Ok (Missed st)
          | _ => Ok (Missed st)
          end
      end
  | _ => Ok (Missed st)
  end.
(** Lines 186-231: long indirect operands. *)
Definition block_long (allowed : Z) (ts : list token) (st : xstate) : res outcome :=
  match ts with
  | TLb :: r =>
      if negb (has allowed (M_816_LONG_IND_ZP + M_816_LONG_IND_ZP_Y + M_816_LONG_IND_ABS + M_45GS02_IND_ZP_QUAD +
                            M_45GS02_IND_ZP_Z_QUAD)) then Ok (Missed st) else
      let '(force_zp, force_abs_2, r0) :=
        match r with TLess :: q => (true, false, q) | TOr :: q => (false, true, q) | _ => (false, false, r) end in
      let forced := force_zp || force_abs_2 in
      let! x := parse_Expression r0 in
      match x with
      | None => Ok (Missed st)
      | Some (e, r1) =>
          match r1 with
          | TRb :: TComma :: t :: r2 =>
              if isReg T_6502_REG_Y t then Ok (Found (AMode M_816_LONG_IND_ZP_Y e ENull ENull forced) r2 st) else
              if isReg T_4510_REG_Z t then Ok (Found (AMode M_45GS02_IND_ZP_Z_QUAD e ENull ENull forced) r2 st) else
              Ok (Missed st)
          | TRb :: TComma :: [] => Ok (Missed st)
          | TRb :: r2 =>
              let is_zp := negb force_abs_2 && in_base_page e in
              Ok (Found (AMode (Z.land (if force_zp || is_zp then M_45GS02_IND_ZP_QUAD + M_816_LONG_IND_ZP
                                        else M_816_LONG_IND_ABS) allowed) e ENull ENull forced) r2 st)
          | _ => Ok (Missed st)
          end
      end
  | _ => Ok (Missed st)
  end.
(** Lines 233-245: indirect operands. *)
Definition block_indirect (allowed : Z) (ts : list token) (st : xstate) : res outcome :=
  match ts with
  | TLp :: r =>
      if negb (has allowed (M_IND_ABS + M_IND_ZP)) then Ok (Missed st) else
      let! x := parse_Expression r in
      match x with
      | Some (e, TRp :: r1) => Ok (Found (simple M_IND_ABS e) r1 st)
      | _ => Ok (Missed st)
      end
  | _ => Ok (Missed st)
  end.
(** Lines 247-314: addresses, with an index or further operands. *)
Definition address_mode (allowed : Z) (zp abs_3 : bool) : Z :=
  if has allowed M_ZP && zp then M_ZP else
  if has allowed M_816_LONG_ABS && abs_3 then M_816_LONG_ABS else
  if has allowed M_ABS then M_ABS else 0.
Definition block_address (allowed : Z) (ts : list token) (st : xstate) : res outcome :=
  if negb (has allowed (M_ZP + M_ZP_X + M_ZP_Y + M_ABS + M_ABS_X + M_ABS_Y + M_ZP_ABS + M_BIT_ZP_ABS + M_BIT_ZP +
                        M_816_DISP_S + M_816_LONG_ABS_X + M_4510_ABS_X + M_4510_ABS_Y)) then Ok (Missed st) else
  let '(force_zp, force_abs_2, force_abs_3, r0) :=
    match ts with
    | TLess :: q => (true, false, false, q)
    | TOr :: q => if o_cpu o =? MOPT_CPU_65C816S then (false, true, false, q) else (false, false, false, ts)
    | TGreater :: q => if o_cpu o =? MOPT_CPU_65C816S then (false, false, true, q) else (false, false, false, ts)
    | _ => (false, false, false, ts)
    end in
  let forced := force_zp || force_abs_2 || force_abs_3 in
  let! x := parse_Expression r0 in
  match x with
  | None => Ok (Missed st)
  | Some (e0, r1) =>
      if e_isParens e0 then Ok (Missed st) else
      let! (e, st1) := if force_zp then range_checked e0 0 0xFF st else Ok (e0, st) in
      let zp := in_base_page e || force_zp in
      let abs_3 := (negb force_zp && negb force_abs_2 && expr_IsConstant e && (0 <=? e_v e) && (e_v e <? 2 ^ 24)) || force_abs_3 in
      let found mode r := Ok (Found (AMode mode e ENull ENull forced) r st1) in
      match r1 with
      | TComma :: r2 =>
          match r2 with
          | t :: r3 =>
              if isReg T_6502_REG_X t then
                found (if zp && has allowed M_ZP_X then M_ZP_X
                       else if abs_3 && has allowed M_816_LONG_ABS_X then M_816_LONG_ABS_X
                       else Z.land (M_ABS_X + M_4510_ABS_X) allowed) r3
              else if isReg T_6502_REG_Y t then
                found (if zp && has allowed M_ZP_Y then M_ZP_Y else Z.land (M_ABS_Y + M_4510_ABS_Y) allowed) r3
              else if isReg T_65816_REG_S t then found M_816_DISP_S r3
              else
                let! y := parse_Expression r2 in
                match y with
                | None => Ok (Missed st1)
                | Some (e2, TComma :: r4) =>
                    let! z := parse_Expression r4 in
                    match z with
                    | None => Ok (Missed st1)
                    | Some (e3, r5) => Ok (Found (AMode M_BIT_ZP_ABS e e2 e3 forced) r5 st1)
                    end
                | Some (e2, r4) => Ok (Found (AMode (Z.land allowed (M_BIT_ZP + M_ZP_ABS)) e e2 ENull forced) r4 st1)
                end
          | [] => Ok (Missed st1)
          end
      | _ => if e_isParens e then Ok (Missed st1) else
             let mode := address_mode allowed zp abs_3 in
             if mode =? 0 then Ok (Missed st1) else found mode r1
      end
  end.
(** Lines 316-328: no operand. *)
Definition block_none (allowed : Z) (ts : list token) (st : xstate) : res outcome :=
  if (allowed =? 0) || has allowed M_NONE then Ok (Found (simple M_NONE ENull) ts st) else
  if has allowed M_A then Ok (Found (simple M_A ENull) ts st) else Ok (Failed st).
Definition or_else (a : res outcome) (b : xstate -> res outcome) : res outcome :=
  let! r := a in match r with Missed st => b st | _ => Ok r end.
Definition x65_ParseAddressingModeCore (allowed : Z) (size : immsize) (ts : list token) (st : xstate) : res outcome :=
  or_else (block_register allowed T_6502_REG_A M_A ts st) (fun st =>
  or_else (block_register allowed T_45GS02_REG_Q M_45GS02_Q ts st) (fun st =>
  or_else (block_imm allowed size ts st) (fun st =>
  or_else (block_indexed allowed ts st) (fun st =>
  or_else (block_long allowed ts st) (fun st =>
  or_else (block_indirect allowed ts st) (fun st =>
  or_else (block_address allowed ts st) (fun st =>
  block_none allowed ts st))))))).

(** x65_parse_addrmode.c:331-424 x65_ParseAddressingMode: None if there is no operand
    that is allowed.  With three operands the value of the second is used whether it
    is known or not. *)
Definition HANDLE_MODES : Z :=
  M_ABS + M_ABS_X + M_ABS_Y + M_IND_ABS + M_IND_ABS_X + M_4510_IND_ZP_Z + M_45GS02_IND_ZP_Z_QUAD +
  M_45GS02_IND_ZP_QUAD + M_IND_ZP_X + M_IND_ZP_Y + M_ZP_ABS + M_BIT_ZP_ABS + M_ZP + M_ZP_X + M_ZP_Y +
  M_816_LONG_IND_ZP + M_816_LONG_IND_ABS.
Definition ZP_MODES : Z :=
  M_4510_IND_ZP_Z + M_45GS02_IND_ZP_Z_QUAD + M_45GS02_IND_ZP_QUAD + M_IND_ZP_X + M_IND_ZP_Y + M_ZP_ABS +
  M_BIT_ZP_ABS + M_ZP + M_ZP_X + M_ZP_Y + M_816_LONG_IND_ZP.
(** The mode used for an address in the base page: None if nothing is changed. *)
Definition page_mode (allowed mode : Z) : option Z :=
  let zp m := if has allowed m then Some m else None in
  if mode =? M_ABS then zp M_ZP else
  if mode =? M_ABS_X then zp M_ZP_X else
  if mode =? M_ABS_Y then zp M_ZP_Y else
  if mode =? M_IND_ABS then zp M_IND_ZP else
  if mode =? M_816_LONG_IND_ABS then zp M_816_LONG_IND_ZP else
  if existsb (Z.eqb mode) [M_4510_IND_ZP_Z; M_45GS02_IND_ZP_Z_QUAD; M_45GS02_IND_ZP_QUAD; M_IND_ZP_X; M_IND_ZP_Y; M_ZP_ABS;
                           M_BIT_ZP_ABS; M_ZP; M_ZP_X; M_ZP_Y] then Some mode else None.
Definition x65_ParseAddressingMode (allowed : Z) (size : immsize) (ts : list token) (st : xstate)
    : res (option (amode * list token) * xstate) :=
  let! r := x65_ParseAddressingModeCore allowed size ts st in
  match r with
  | Missed st1 | Failed st1 => Ok (None, st1)
  | Found m r1 st1 =>
      let mode := am_mode m in
      if am_forced m || negb (has mode HANDLE_MODES) || negb (expr_IsConstant (am_expr m)) then
        Ok (if mode =? 0 then None else Some (m, r1), st1)
      else
        let second := (mode =? M_BIT_ZP) || (mode =? M_BIT_ZP_ABS) in
        let address := e_v (if second then am_expr2 m else am_expr m) in
        if negb ((o_bp_base o <=? address) && (address <=? o_bp_base o + 255)) then
          Ok (Some (m, r1), if has mode ZP_MODES then err_Error MERROR_NEEDS_ZP st1 else st1)
        else
          match page_mode allowed mode with
          | None => Ok (Some (m, r1), st1)
          | Some mode1 =>
              if second then
                let! e := expr_And (am_expr2 m) (expr_Const 0xFF) in
                Ok (Some (AMode mode1 (am_expr m) e (am_expr3 m) (am_forced m), r1), st1)
              else
                let! e := expr_And (am_expr m) (expr_Const 0xFF) in
                Ok (Some (AMode mode1 e (am_expr2 m) (am_expr3 m) (am_forced m), r1), st1)
          end
  end.

(** x65_parse_instr.c:51-97: output of operands.  expr_CheckRange never gives NULL. *)
Definition x65_OutputSU16Expression (e : expr) (st : xstate) : res xstate :=
  let! (e1, st1) := range_checked e (-32768) 65535 st in
  let! e2 := expr_And e1 (expr_Const 0xFFFF) in sect_OutputExpr16 e2 st1.
Definition x65_OutputU16Expression (e : expr) (st : xstate) : res xstate :=
  let! (e1, st1) := range_checked e 0 65535 st in
  let! e2 := expr_And e1 (expr_Const 0xFFFF) in sect_OutputExpr16 e2 st1.
Definition x65_OutputSU8Expression (e : expr) (st : xstate) : res xstate :=
  let! (e1, st1) := range_checked e (-128) 255 st in
  let! e2 := expr_And e1 (expr_Const 0xFF) in sect_OutputExpr8 e2 st1.
Definition x65_OutputU8Expression (e : expr) (st : xstate) : res xstate :=
  let! (e1, st1) := range_checked e 0 255 st in sect_OutputExpr8 e1 st1.
Definition x65_OutputLongInstruction (opcode : Z) (e : expr) (st : xstate) : res xstate :=
  let! e1 := expr_Asl e (expr_Const 8) in
  let! e2 := expr_Or e1 (expr_Const opcode) in sect_OutputExpr32 e2 st.
(** Used by the branches: the distance from the current place. *)
Definition outputRelative (e : expr) (st : xstate) : res xstate :=
  let! e1 := expr_PcRelative F (sect_Current st) e (-1) in
  let! (e2, st1) := range_checked e1 (-128) 127 st in sect_OutputExpr8 e2 st1.

(** A handler reports whether it succeeded. *)
Definition handled : Type := res (bool * xstate).
Definition done (r : res xstate) : handled := let! st := r in Ok (true, st).
Definition refuse (n : Z) (st : xstate) : handled := Ok (true, err_Error n st).
(** An opcode (uint8_t), and an operand after it. *)
Definition op_only (opcode : Z) (st : xstate) : handled := done (sect_OutputConst8 (u8 opcode) st).
Definition op_with (opcode : Z) (out : expr -> xstate -> res xstate) (m : amode) (st : xstate) : handled :=
  let! st1 := sect_OutputConst8 (u8 opcode) st in done (out (am_expr m) st1).
Definition is (m : amode) (mode : Z) : bool := am_mode m =? mode.
Definition isCpu (mask : Z) : bool := negb (Z.land (o_cpu o) mask =? 0).

(** x65_parse_instr.c:99-186 handleStandardAll. *)
Definition NOP_PREFIX : Z := 0xEA.
Definition handleStandardAll (base : Z) (m : amode) (st : xstate) : handled :=
  let op c := Z.lor base c in
  if is m M_IND_ZP_X then op_with (op 0x00) x65_OutputU8Expression m st else
  if is m M_816_DISP_S then op_with (op 0x02) x65_OutputU8Expression m st else
  if is m M_ZP then op_with (op 0x04) x65_OutputU8Expression m st else
  if is m M_816_LONG_IND_ZP then op_with (op 0x06) x65_OutputU8Expression m st else
  if is m M_IMM then op_with (op 0x08) (if o_m16 o then x65_OutputSU16Expression else x65_OutputSU8Expression) m st else
  if is m M_ABS then op_with (op 0x0C) x65_OutputU16Expression m st else
  if is m M_816_LONG_ABS then done (x65_OutputLongInstruction (op 0x0E) (am_expr m) st) else
  if is m M_IND_ZP_Y then op_with (op 0x10) x65_OutputU8Expression m st else
  if is m M_IND_ZP then op_with (Z.lor (base + 1) 0x10) x65_OutputU8Expression m st else
  if is m M_45GS02_IND_ZP_Z_QUAD then
    let! st1 := sect_OutputConst8 NOP_PREFIX st in op_with (base + 0x11) x65_OutputU8Expression m st1 else
  if is m M_4510_IND_ZP_Z then op_with (base + 0x11) x65_OutputU8Expression m st else
  if is m M_816_IND_DISP_S_Y then
    op_with (if isCpu CPU_4510 && (base =? 0x81) then 0x82 else if isCpu CPU_4510 && (base =? 0xA1) then 0xE2 else op 0x12)
      x65_OutputU8Expression m st else
  if is m M_ZP_X || is m M_ZP_Y then op_with (op 0x14) x65_OutputU8Expression m st else
  if is m M_816_LONG_IND_ZP_Y then op_with (op 0x16) x65_OutputU8Expression m st else
  if is m M_ABS_Y then op_with (op 0x18) x65_OutputU16Expression m st else
  if is m M_ABS_X then op_with (op 0x1C) x65_OutputU16Expression m st else
  if is m M_816_LONG_ABS_X then done (x65_OutputLongInstruction (op 0x1E) (am_expr m) st) else
  refuse MERROR_ILLEGAL_ADDRMODE st.
(** x65_parse_instr.c:188-224 handleStandardAbsY7. *)
Definition handleStandardAbsY7 (base : Z) (m : amode) (st : xstate) : handled :=
  let op c := Z.lor base (Z.shiftl c 2) in
  if is m M_IND_ZP_X then op_with (op 0) x65_OutputU8Expression m st else
  if is m M_IMM then op_with (op 2) x65_OutputSU8Expression m st else
  if is m M_IND_ZP_Y then op_with (op 4) x65_OutputU8Expression m st else
  if is m M_ABS_Y then op_with (op 7) x65_OutputU16Expression m st else
  if is m M_ZP then op_with (op 1) x65_OutputU8Expression m st else
  if is m M_ABS then op_with (op 3) x65_OutputU16Expression m st else
  if is m M_ZP_X || is m M_ZP_Y then op_with (op 5) x65_OutputU8Expression m st else
  refuse MERROR_ILLEGAL_ADDRMODE st.
(** x65_parse_instr.c:226-264 handleStandardImm0. *)
Definition handleStandardImm0 (base : Z) (m : amode) (st : xstate) : handled :=
  let op c := Z.lor base (Z.shiftl c 2) in
  if is m M_IMM then op_with (op 0) (if o_x16 o then x65_OutputSU16Expression else x65_OutputSU8Expression) m st else
  if is m M_ZP then op_with (op 1) x65_OutputU8Expression m st else
  if is m M_ABS then op_with (op 3) x65_OutputU16Expression m st else
  if is m M_ZP_X || is m M_ZP_Y then op_with (op 5) x65_OutputU8Expression m st else
  if is m M_4510_ABS_X || is m M_4510_ABS_Y then
    op_with (Z.lor (Z.lor (Z.shiftl (Z.land base 2) 3) (Z.land base 0x80)) 0x0B) x65_OutputU16Expression m st else
  if is m M_ABS_X || is m M_ABS_Y then op_with (op 7) x65_OutputU16Expression m st else
  refuse MERROR_ILLEGAL_ADDRMODE st.
(** x65_parse_instr.c:266-305 handleStandardRotate. *)
Fixpoint times (n : nat) (f : xstate -> res xstate) (st : xstate) : res xstate :=
  match n with O => Ok st | S n => let! st1 := f st in times n f st1 end.
Definition handleStandardRotate (base : Z) (m : amode) (st : xstate) : handled :=
  let op c := Z.lor base (Z.shiftl c 2) in
  if is m M_IMM then
    if o_synthesized o then
      if expr_IsConstant (am_expr m) then done (times (Z.to_nat (e_v (am_expr m))) (sect_OutputConst8 (u8 (op 2))) st)
      else refuse ERROR_EXPR_CONST st
    else refuse MERROR_SYNTHESIZED st else
  if is m M_A then op_only (op 2) st else
  if is m M_ZP then op_with (op 1) x65_OutputU8Expression m st else
  if is m M_ABS then op_with (op 3) x65_OutputU16Expression m st else
  if is m M_ZP_X then op_with (op 5) x65_OutputU8Expression m st else
  if is m M_ABS_X then op_with (op 7) x65_OutputU16Expression m st else
  refuse MERROR_ILLEGAL_ADDRMODE st.
(** x65_parse_instr.c:307-321 handleBranch. *)
Definition handleBranch (base : Z) (m : amode) (st : xstate) : handled := op_with base outputRelative m st.
(** x65_parse_instr.c:323-340 handleBIT. *)
Definition handleBIT (base : Z) (m : amode) (st : xstate) : handled :=
  if has (am_mode m) (M_IMM + M_ZP_X + M_ABS_X) && (o_cpu o =? MOPT_CPU_6502) then
    refuse MERROR_INSTRUCTION_NOT_SUPPORTED st else
  if is m M_IMM then op_with 0x89 (if o_m16 o then x65_OutputU16Expression else x65_OutputU8Expression) m st else
  handleStandardAll base m st.
(** x65_parse_instr.c:342-357 handleINCDEC. *)
Definition handleINCDEC (base : Z) (m : amode) (st : xstate) : handled :=
  if has (am_mode m) M_A && (o_cpu o =? MOPT_CPU_6502) then refuse MERROR_INSTRUCTION_NOT_SUPPORTED st else
  if is m M_A then op_only (Z.lxor (Z.land base 0x3F) 0x38) st else
  handleStandardAll base m st.
(** x65_parse_instr.c:359-363 handleImplied. *)
Definition handleImplied (base : Z) (m : amode) (st : xstate) : handled := op_only base st.
(** x65_parse_instr.c:365-388 handleJMP. *)
Definition handleJMP (base : Z) (m : amode) (st : xstate) : handled :=
  if is m M_816_LONG_ABS then done (x65_OutputLongInstruction (base + 0x10) (am_expr m) st) else
  if is m M_IND_ABS_X then
    if o_cpu o =? MOPT_CPU_6502 then refuse MERROR_INSTRUCTION_NOT_SUPPORTED st
    else op_with (base + 0x30) x65_OutputU16Expression m st else
  if is m M_IND_ABS then op_with (base + 0x20) x65_OutputU16Expression m st else
  if is m M_816_LONG_IND_ABS then op_with (base + 0x90) x65_OutputU16Expression m st else
  op_with base x65_OutputU16Expression m st.
(** x65_parse_instr.c:390-415 handleJSR. *)
Definition handleJSR (base : Z) (m : amode) (st : xstate) : handled :=
  if is m M_816_LONG_ABS then done (x65_OutputLongInstruction 0x22 (am_expr m) st) else
  if is m M_IND_ABS_X then
    if isCpu CPU_65C816S then op_with 0xFC x65_OutputU16Expression m st else
    if isCpu CPU_4510 then op_with 0x23 x65_OutputU16Expression m st else
    Ok (false, err_Error MERROR_INSTRUCTION_NOT_SUPPORTED st) else
  if is m M_IND_ABS then
    if isCpu CPU_4510 then op_with 0x22 x65_OutputU16Expression m st
    else Ok (false, err_Error MERROR_INSTRUCTION_NOT_SUPPORTED st) else
  op_with base x65_OutputU16Expression m st.
(** x65_parse_instr.c:417-423 handleBRK. *)
Definition handleBRK (base : Z) (m : amode) (st : xstate) : handled :=
  if is m M_IMM then op_with base x65_OutputSU8Expression m st else op_only base st.
(** x65_parse_instr.c:425-443 handleDOP. *)
Definition handleDOP (m : amode) (st : xstate) : handled :=
  if is m M_IMM then op_with 0x80 x65_OutputSU8Expression m st else
  if is m M_ZP then op_with 0x04 x65_OutputU8Expression m st else
  if is m M_ZP_X then op_with 0x14 x65_OutputU8Expression m st else
  Ok (false, st).
(** x65_parse_instr.c:445-464 handleRTS. *)
Definition handleRTS (base : Z) (m : amode) (st : xstate) : handled :=
  if is m M_IMM then
    if isCpu CPU_4510 then op_with 0x62 x65_OutputU8Expression m st else refuse MERROR_INSTRUCTION_NOT_SUPPORTED st else
  if is m M_NONE then op_only base st else
  Ok (false, st).
(** x65_parse_instr.c:466-488 handleSTZ. *)
Definition handleSTZ (m : amode) (st : xstate) : handled :=
  if is m M_ZP then op_with 0x64 x65_OutputU8Expression m st else
  if is m M_ZP_X then op_with 0x74 x65_OutputU8Expression m st else
  if is m M_ABS then op_with 0x9C x65_OutputU16Expression m st else
  if is m M_ABS_X then op_with 0x9E x65_OutputU16Expression m st else
  Ok (false, st).
(** x65_parse_instr.c:490-530 handleBITBranch_C02, handleBITxBranch_C02, handleBIT_C02
    and handleBITx_C02. *)
Definition bitOpcode (base : Z) (e : expr) (st : xstate) : res xstate :=
  let! (e1, st1) := range_checked e 0 7 st in
  let! e2 := expr_Asl e1 (expr_Const 4) in
  let! e3 := expr_Or (expr_Const base) e2 in
  sect_OutputExpr8 e3 st1.
Definition handleBITBranch_C02 (base : Z) (m : amode) (st : xstate) : handled :=
  let! st1 := bitOpcode base (am_expr m) st in
  let! st2 := x65_OutputU8Expression (am_expr2 m) st1 in
  done (outputRelative (am_expr3 m) st2).
Definition handleBITxBranch_C02 (base : Z) (m : amode) (st : xstate) : handled :=
  let! st1 := sect_OutputConst8 (u8 base) st in
  let! st2 := x65_OutputU8Expression (am_expr m) st1 in
  done (outputRelative (am_expr2 m) st2).
Definition handleBIT_C02 (base : Z) (m : amode) (st : xstate) : handled :=
  let! st1 := bitOpcode base (am_expr m) st in
  done (x65_OutputU8Expression (am_expr2 m) st1).
Definition handleBITx_C02 (base : Z) (m : amode) (st : xstate) : handled := op_with base x65_OutputU8Expression m st.

(** x65_parse_instr.c:36-43 SParser. *)
Inductive handler : Type :=
| HStandardAll | HStandardAbsY7 | HStandardImm0 | HStandardRotate | HBranch | HBIT | HINCDEC | HImplied | HJMP | HJSR
| HBRK | HDOP | HRTS | HSTZ | HBITBranch_C02 | HBITxBranch_C02 | HBIT_C02 | HBITx_C02.
Definition apply_handler (h : handler) (base : Z) (m : amode) (st : xstate) : handled :=
  match h with
  | HStandardAll => handleStandardAll base m st
  | HStandardAbsY7 => handleStandardAbsY7 base m st
  | HStandardImm0 => handleStandardImm0 base m st
  | HStandardRotate => handleStandardRotate base m st
  | HBranch => handleBranch base m st
  | HBIT => handleBIT base m st
  | HINCDEC => handleINCDEC base m st
  | HImplied => handleImplied base m st
  | HJMP => handleJMP base m st
  | HJSR => handleJSR base m st
  | HBRK => handleBRK base m st
  | HDOP => handleDOP m st
  | HRTS => handleRTS base m st
  | HSTZ => handleSTZ m st
  | HBITBranch_C02 => handleBITBranch_C02 base m st
  | HBITxBranch_C02 => handleBITxBranch_C02 base m st
  | HBIT_C02 => handleBIT_C02 base m st
  | HBITx_C02 => handleBITx_C02 base m st
  end.
Record sparser : Type := SParser { p_base : Z; p_cpu : Z; p_imm : immsize; p_modes : Z; p_handler : handler }.
(** x65_parse_instr.c:532-711 g_instructionHandlers. *)
Definition g_instructionHandlers : list sparser :=
  [SParser 0x61 CPU_6502 IMM_ACC (M_IMM + M_ZP + M_ZP_X + M_ABS + M_ABS_X + M_ABS_Y + M_IND_ZP_X + M_IND_ZP_Y + M_IND_ZP + M_816_DISP_S + M_816_LONG_IND_ZP + M_816_LONG_ABS + M_816_IND_DISP_S_Y + M_816_LONG_IND_ZP_Y + M_816_LONG_ABS_X + M_4510_IND_ZP_Z + M_45GS02_IND_ZP_Z_QUAD) HStandardAll; (* ADC *)
   SParser 0x21 CPU_6502 IMM_ACC (M_IMM + M_ZP + M_ZP_X + M_ABS + M_ABS_X + M_ABS_Y + M_IND_ZP_X + M_IND_ZP_Y + M_IND_ZP + M_816_DISP_S + M_816_LONG_IND_ZP + M_816_LONG_ABS + M_816_IND_DISP_S_Y + M_816_LONG_IND_ZP_Y + M_816_LONG_ABS_X + M_4510_IND_ZP_Z + M_45GS02_IND_ZP_Z_QUAD) HStandardAll; (* AND *)
   SParser 0x02 CPU_6502 IMM_8_BIT (M_IMM + M_A + M_ZP + M_ZP_X + M_ABS + M_ABS_X) HStandardRotate; (* ASL *)
   SParser 0x20 CPU_6502 IMM_ACC (M_ZP + M_ABS + M_IMM + M_ZP_X + M_ABS_X) HBIT; (* BIT *)
   SParser 0x10 CPU_6502 IMM_NONE (M_ABS) HBranch; (* BPL *)
   SParser 0x30 CPU_6502 IMM_NONE (M_ABS) HBranch; (* BMI *)
   SParser 0x50 CPU_6502 IMM_NONE (M_ABS) HBranch; (* BVC *)
   SParser 0x70 CPU_6502 IMM_NONE (M_ABS) HBranch; (* BVS *)
   SParser 0x90 CPU_6502 IMM_NONE (M_ABS) HBranch; (* BCC *)
   SParser 0xB0 CPU_6502 IMM_NONE (M_ABS) HBranch; (* BCS *)
   SParser 0xD0 CPU_6502 IMM_NONE (M_ABS) HBranch; (* BNE *)
   SParser 0xF0 CPU_6502 IMM_NONE (M_ABS) HBranch; (* BEQ *)
   SParser 0x00 CPU_6502 IMM_8_BIT (M_NONE + M_IMM) HBRK; (* BRK *)
   SParser 0xC1 CPU_6502 IMM_ACC (M_IMM + M_ZP + M_ZP_X + M_ABS + M_ABS_X + M_ABS_Y + M_IND_ZP_X + M_IND_ZP_Y + M_IND_ZP + M_816_DISP_S + M_816_LONG_IND_ZP + M_816_LONG_ABS + M_816_IND_DISP_S_Y + M_816_LONG_IND_ZP_Y + M_816_LONG_ABS_X + M_4510_IND_ZP_Z + M_45GS02_IND_ZP_Z_QUAD) HStandardAll; (* CMP *)
   SParser 0xE0 CPU_6502 IMM_INDEX (M_IMM + M_ZP + M_ABS) HStandardImm0; (* CPX *)
   SParser 0xC0 CPU_6502 IMM_INDEX (M_IMM + M_ZP + M_ABS) HStandardImm0; (* CPY *)
   SParser 0xC2 CPU_6502 IMM_NONE (M_ZP + M_ABS + M_ZP_X + M_ABS_X + M_A) HINCDEC; (* DEC *)
   SParser 0x41 CPU_6502 IMM_ACC (M_IMM + M_ZP + M_ZP_X + M_ABS + M_ABS_X + M_ABS_Y + M_IND_ZP_X + M_IND_ZP_Y + M_IND_ZP + M_816_DISP_S + M_816_LONG_IND_ZP + M_816_LONG_ABS + M_816_IND_DISP_S_Y + M_816_LONG_IND_ZP_Y + M_816_LONG_ABS_X + M_4510_IND_ZP_Z + M_45GS02_IND_ZP_Z_QUAD) HStandardAll; (* EOR *)
   SParser 0x18 CPU_6502 IMM_NONE (M_NONE) HImplied; (* CLC *)
   SParser 0x38 CPU_6502 IMM_NONE (M_NONE) HImplied; (* SEC *)
   SParser 0x58 CPU_6502 IMM_NONE (M_NONE) HImplied; (* CLI *)
   SParser 0x78 CPU_6502 IMM_NONE (M_NONE) HImplied; (* SEI *)
   SParser 0xB8 CPU_6502 IMM_NONE (M_NONE) HImplied; (* CLV *)
   SParser 0xD8 CPU_6502 IMM_NONE (M_NONE) HImplied; (* CLD *)
   SParser 0xF8 CPU_6502 IMM_NONE (M_NONE) HImplied; (* SED *)
   SParser 0xE2 CPU_6502 IMM_NONE (M_ZP + M_ABS + M_ZP_X + M_ABS_X + M_A) HINCDEC; (* INC *)
   SParser 0x4C CPU_6502 IMM_NONE (M_ABS + M_IND_ABS + M_IND_ABS_X + M_816_LONG_ABS + M_816_LONG_IND_ABS) HJMP; (* JMP *)
   SParser 0x20 CPU_6502 IMM_NONE (M_ABS + M_816_LONG_ABS + M_IND_ABS_X + M_IND_ABS) HJSR; (* JSR *)
   SParser 0xA1 CPU_6502 IMM_ACC (M_IMM + M_ZP + M_ZP_X + M_ABS + M_ABS_X + M_ABS_Y + M_IND_ZP_X + M_IND_ZP_Y + M_IND_ZP + M_816_DISP_S + M_816_LONG_IND_ZP + M_816_LONG_ABS + M_816_IND_DISP_S_Y + M_816_LONG_IND_ZP_Y + M_816_LONG_ABS_X + M_4510_IND_ZP_Z + M_45GS02_IND_ZP_Z_QUAD) HStandardAll; (* LDA *)
   SParser 0xA2 CPU_6502 IMM_INDEX (M_IMM + M_ZP + M_ABS + M_ZP_Y + M_ABS_Y) HStandardImm0; (* LDX *)
   SParser 0xA0 CPU_6502 IMM_INDEX (M_IMM + M_ZP + M_ABS + M_ZP_X + M_ABS_X) HStandardImm0; (* LDY *)
   SParser 0x42 CPU_6502 IMM_8_BIT (M_IMM + M_A + M_ZP + M_ZP_X + M_ABS + M_ABS_X) HStandardRotate; (* LSR *)
   SParser 0xEA CPU_6502 IMM_NONE (M_NONE) HImplied; (* NOP *)
   SParser 0x01 CPU_6502 IMM_ACC (M_IMM + M_ZP + M_ZP_X + M_ABS + M_ABS_X + M_ABS_Y + M_IND_ZP_X + M_IND_ZP_Y + M_IND_ZP + M_816_DISP_S + M_816_LONG_IND_ZP + M_816_LONG_ABS + M_816_IND_DISP_S_Y + M_816_LONG_IND_ZP_Y + M_816_LONG_ABS_X + M_4510_IND_ZP_Z + M_45GS02_IND_ZP_Z_QUAD) HStandardAll; (* ORA *)
   SParser 0xAA CPU_6502 IMM_NONE (M_NONE) HImplied; (* TAX *)
   SParser 0x8A CPU_6502 IMM_NONE (M_NONE) HImplied; (* TXA *)
   SParser 0xCA CPU_6502 IMM_NONE (M_NONE) HImplied; (* DEX *)
   SParser 0xE8 CPU_6502 IMM_NONE (M_NONE) HImplied; (* INX *)
   SParser 0xA8 CPU_6502 IMM_NONE (M_NONE) HImplied; (* TAY *)
   SParser 0x98 CPU_6502 IMM_NONE (M_NONE) HImplied; (* TYA *)
   SParser 0x88 CPU_6502 IMM_NONE (M_NONE) HImplied; (* DEY *)
   SParser 0xC8 CPU_6502 IMM_NONE (M_NONE) HImplied; (* INY *)
   SParser 0x22 CPU_6502 IMM_8_BIT (M_IMM + M_A + M_ZP + M_ZP_X + M_ABS + M_ABS_X) HStandardRotate; (* ROL *)
   SParser 0x62 CPU_6502 IMM_8_BIT (M_IMM + M_A + M_ZP + M_ZP_X + M_ABS + M_ABS_X) HStandardRotate; (* ROR *)
   SParser 0x40 CPU_6502 IMM_NONE (M_NONE) HImplied; (* RTI *)
   SParser 0x60 CPU_6502 IMM_NONE (M_NONE + M_IMM) HRTS; (* RTS *)
   SParser 0xE1 CPU_6502 IMM_ACC (M_IMM + M_ZP + M_ZP_X + M_ABS + M_ABS_X + M_ABS_Y + M_IND_ZP_X + M_IND_ZP_Y + M_IND_ZP + M_816_DISP_S + M_816_LONG_IND_ZP + M_816_LONG_ABS + M_816_IND_DISP_S_Y + M_816_LONG_IND_ZP_Y + M_816_LONG_ABS_X + M_4510_IND_ZP_Z + M_45GS02_IND_ZP_Z_QUAD) HStandardAll; (* SBC *)
   SParser 0x81 CPU_6502 IMM_NONE (M_ZP + M_ZP_X + M_ABS + M_ABS_X + M_ABS_Y + M_IND_ZP_X + M_IND_ZP_Y + M_IND_ZP + M_816_DISP_S + M_816_LONG_IND_ZP + M_816_LONG_ABS + M_816_IND_DISP_S_Y + M_816_LONG_IND_ZP_Y + M_816_LONG_ABS_X + M_4510_IND_ZP_Z + M_45GS02_IND_ZP_Z_QUAD) HStandardAll; (* STA *)
   SParser 0x9A CPU_6502 IMM_NONE (M_NONE) HImplied; (* TXS *)
   SParser 0xBA CPU_6502 IMM_NONE (M_NONE) HImplied; (* TSX *)
   SParser 0x48 CPU_6502 IMM_NONE (M_NONE) HImplied; (* PHA *)
   SParser 0x68 CPU_6502 IMM_NONE (M_NONE) HImplied; (* PLA *)
   SParser 0x08 CPU_6502 IMM_NONE (M_NONE) HImplied; (* PHP *)
   SParser 0x28 CPU_6502 IMM_NONE (M_NONE) HImplied; (* PLP *)
   SParser 0x82 CPU_6502 IMM_NONE (M_ZP + M_ABS + M_ZP_Y + M_4510_ABS_Y) HStandardImm0; (* STX *)
   SParser 0x80 CPU_6502 IMM_NONE (M_ZP + M_ABS + M_ZP_X + M_4510_ABS_X) HStandardImm0; (* STY *)
   SParser 0x0B CPU_6502 IMM_8_BIT (M_IMM) HStandardImm0; (* AAC *)
   SParser 0x83 CPU_6502 IMM_8_BIT (M_ZP + M_ZP_Y + M_IND_ZP_X + M_ABS) HStandardAll; (* AAX *)
   SParser 0x6B CPU_6502 IMM_8_BIT (M_IMM) HStandardImm0; (* ARR *)
   SParser 0x4B CPU_6502 IMM_8_BIT (M_IMM) HStandardImm0; (* ASR *)
   SParser 0xAB CPU_6502 IMM_8_BIT (M_IMM) HStandardImm0; (* ATX *)
   SParser 0x83 CPU_6502 IMM_8_BIT (M_ABS_Y + M_IND_ZP_Y) HStandardAbsY7; (* AXA *)
   SParser 0xCB CPU_6502 IMM_8_BIT (M_IMM) HStandardImm0; (* AXS *)
   SParser 0xC3 CPU_6502 IMM_8_BIT (M_ZP + M_ZP_X + M_ABS + M_ABS_X + M_ABS_Y + M_IND_ZP_X + M_IND_ZP_Y) HStandardAll; (* DCP *)
   SParser 0x00 CPU_6502 IMM_8_BIT (M_ZP + M_ZP_X + M_IMM) HDOP; (* DOP *)
   SParser 0xE3 CPU_6502 IMM_8_BIT (M_ZP + M_ZP_X + M_ABS + M_ABS_X + M_ABS_Y + M_IND_ZP_X + M_IND_ZP_Y) HStandardAll; (* ISC *)
   SParser 0x02 CPU_6502 IMM_8_BIT (M_NONE) HImplied; (* KIL *)
   SParser 0xA3 CPU_6502 IMM_8_BIT (M_ABS_Y) HStandardAll; (* LAR *)
   SParser 0xA3 CPU_6502 IMM_8_BIT (M_ZP + M_ZP_Y + M_ABS + M_ABS_Y + M_IND_ZP_X + M_IND_ZP_Y) HStandardAbsY7; (* LAX *)
   SParser 0x43 CPU_6502 IMM_8_BIT (M_ZP + M_ZP_X + M_ABS + M_ABS_X + M_ABS_Y + M_IND_ZP_X + M_IND_ZP_Y) HStandardAll; (* RLA *)
   SParser 0x63 CPU_6502 IMM_8_BIT (M_ZP + M_ZP_X + M_ABS + M_ABS_X + M_ABS_Y + M_IND_ZP_X + M_IND_ZP_Y) HStandardAll; (* RRA *)
   SParser 0x03 CPU_6502 IMM_8_BIT (M_ZP + M_ZP_X + M_ABS + M_ABS_X + M_ABS_Y + M_IND_ZP_X + M_IND_ZP_Y) HStandardAll; (* SLO *)
   SParser 0x43 CPU_6502 IMM_8_BIT (M_ZP + M_ZP_X + M_ABS + M_ABS_X + M_ABS_Y + M_IND_ZP_X + M_IND_ZP_Y) HStandardAll; (* SRE *)
   SParser 0x82 CPU_6502 IMM_8_BIT (M_ABS_Y) HStandardAbsY7; (* SXA *)
   SParser 0x80 CPU_6502 IMM_8_BIT (M_ABS_X) HStandardAll; (* SYA *)
   SParser 0x00 CPU_6502 IMM_8_BIT (M_ABS + M_ABS_X) HStandardAll; (* TOP *)
   SParser 0x8B CPU_6502 IMM_8_BIT (M_IMM) HStandardImm0; (* XAA *)
   SParser 0x83 CPU_6502 IMM_8_BIT (M_ABS_Y) HStandardAll; (* XAS *)
   SParser 0x80 CPU_65C02 IMM_NONE (M_ABS) HBranch; (* BRA *)
   SParser 0x3A CPU_65C02 IMM_NONE (M_NONE) HImplied; (* DEA *)
   SParser 0x1A CPU_65C02 IMM_NONE (M_NONE) HImplied; (* INA *)
   SParser 0xDA CPU_65C02 IMM_NONE (M_NONE) HImplied; (* PHX *)
   SParser 0x5A CPU_65C02 IMM_NONE (M_NONE) HImplied; (* PHY *)
   SParser 0xFA CPU_65C02 IMM_NONE (M_NONE) HImplied; (* PLX *)
   SParser 0x7A CPU_65C02 IMM_NONE (M_NONE) HImplied; (* PLY *)
   SParser 0x00 CPU_65C02 IMM_NONE (M_ZP + M_ZP_X + M_ABS + M_ABS_X) HSTZ; (* STZ *)
   SParser 0x10 CPU_65C02 IMM_NONE (M_ZP + M_ABS) HStandardAll; (* TRB *)
   SParser 0x00 CPU_65C02 IMM_NONE (M_ZP + M_ABS) HStandardAll; (* TSB *)
   SParser 0xDB CPU_65C02 IMM_NONE (M_NONE) HImplied; (* STP *)
   SParser 0xCB CPU_65C02 IMM_NONE (M_NONE) HImplied; (* WAI *)
   SParser 0x0F CPU_65C02S IMM_8_BIT (M_BIT_ZP_ABS) HBITBranch_C02; (* BBR *)
   SParser 0x0F CPU_65C02S IMM_8_BIT (M_ZP_ABS) HBITxBranch_C02; (* BBR0 *)
   SParser 0x1F CPU_65C02S IMM_8_BIT (M_ZP_ABS) HBITxBranch_C02; (* BBR1 *)
   SParser 0x2F CPU_65C02S IMM_8_BIT (M_ZP_ABS) HBITxBranch_C02; (* BBR2 *)
   SParser 0x3F CPU_65C02S IMM_8_BIT (M_ZP_ABS) HBITxBranch_C02; (* BBR3 *)
   SParser 0x4F CPU_65C02S IMM_8_BIT (M_ZP_ABS) HBITxBranch_C02; (* BBR4 *)
   SParser 0x5F CPU_65C02S IMM_8_BIT (M_ZP_ABS) HBITxBranch_C02; (* BBR5 *)
   SParser 0x6F CPU_65C02S IMM_8_BIT (M_ZP_ABS) HBITxBranch_C02; (* BBR6 *)
   SParser 0x7F CPU_65C02S IMM_8_BIT (M_ZP_ABS) HBITxBranch_C02; (* BBR7 *)
   SParser 0x8F CPU_65C02S IMM_8_BIT (M_BIT_ZP_ABS) HBITBranch_C02; (* BBS *)
   SParser 0x8F CPU_65C02S IMM_8_BIT (M_ZP_ABS) HBITxBranch_C02; (* BBS0 *)
   SParser 0x9F CPU_65C02S IMM_8_BIT (M_ZP_ABS) HBITxBranch_C02; (* BBS1 *)
   SParser 0xAF CPU_65C02S IMM_8_BIT (M_ZP_ABS) HBITxBranch_C02; (* BBS2 *)
   SParser 0xBF CPU_65C02S IMM_8_BIT (M_ZP_ABS) HBITxBranch_C02; (* BBS3 *)
   SParser 0xCF CPU_65C02S IMM_8_BIT (M_ZP_ABS) HBITxBranch_C02; (* BBS4 *)
   SParser 0xDF CPU_65C02S IMM_8_BIT (M_ZP_ABS) HBITxBranch_C02; (* BBS5 *)
   SParser 0xEF CPU_65C02S IMM_8_BIT (M_ZP_ABS) HBITxBranch_C02; (* BBS6 *)
   SParser 0xFF CPU_65C02S IMM_8_BIT (M_ZP_ABS) HBITxBranch_C02; (* BBS7 *)
   SParser 0x07 CPU_65C02S IMM_8_BIT (M_BIT_ZP) HBIT_C02; (* RMB *)
   SParser 0x07 CPU_65C02S IMM_8_BIT (M_ZP) HBITx_C02; (* RMB0 *)
   SParser 0x17 CPU_65C02S IMM_8_BIT (M_ZP) HBITx_C02; (* RMB1 *)
   SParser 0x27 CPU_65C02S IMM_8_BIT (M_ZP) HBITx_C02; (* RMB2 *)
   SParser 0x37 CPU_65C02S IMM_8_BIT (M_ZP) HBITx_C02; (* RMB3 *)
   SParser 0x47 CPU_65C02S IMM_8_BIT (M_ZP) HBITx_C02; (* RMB4 *)
   SParser 0x57 CPU_65C02S IMM_8_BIT (M_ZP) HBITx_C02; (* RMB5 *)
   SParser 0x67 CPU_65C02S IMM_8_BIT (M_ZP) HBITx_C02; (* RMB6 *)
   SParser 0x77 CPU_65C02S IMM_8_BIT (M_ZP) HBITx_C02; (* RMB7 *)
   SParser 0x87 CPU_65C02S IMM_8_BIT (M_BIT_ZP) HBIT_C02; (* SMB *)
   SParser 0x87 CPU_65C02S IMM_8_BIT (M_ZP) HBITx_C02; (* SMB0 *)
   SParser 0x97 CPU_65C02S IMM_8_BIT (M_ZP) HBITx_C02; (* SMB1 *)
   SParser 0xA7 CPU_65C02S IMM_8_BIT (M_ZP) HBITx_C02; (* SMB2 *)
   SParser 0xB7 CPU_65C02S IMM_8_BIT (M_ZP) HBITx_C02; (* SMB3 *)
   SParser 0xC7 CPU_65C02S IMM_8_BIT (M_ZP) HBITx_C02; (* SMB4 *)
   SParser 0xD7 CPU_65C02S IMM_8_BIT (M_ZP) HBITx_C02; (* SMB5 *)
   SParser 0xE7 CPU_65C02S IMM_8_BIT (M_ZP) HBITx_C02; (* SMB6 *)
   SParser 0xF7 CPU_65C02S IMM_8_BIT (M_ZP) HBITx_C02].
(** x65_parse_instr.c:730-747 x65_HandleToken: whether it succeeded, the tokens left and
    the state.  Where no operand is found, what is left is not modelled: it is reported
    as an error, and given as it was. *)
Definition x65_HandleToken (h : sparser) (ts : list token) (st : xstate) : res (bool * list token * xstate) :=
  if isCpu (p_cpu h) then
    let allowed := Z.land (p_modes h) (o_allowedModes o) in
    let! (r, st1) := x65_ParseAddressingMode allowed (p_imm h) ts st in
    match r with
    | Some (m, r1) =>
        if has (am_mode m) allowed then let! (b, st2) := apply_handler (p_handler h) (p_base h) m st1 in Ok (b, r1, st2)
        else Ok (true, ts, err_Error MERROR_ILLEGAL_ADDRMODE st1)
    | None => Ok (true, ts, err_Error MERROR_ILLEGAL_ADDRMODE st1)
    end
  else Ok (true, ts, err_Error MERROR_INSTRUCTION_NOT_SUPPORTED st).
(** x65_parse_instr.c:749-757 x65_ParseIntegerInstruction. *)
Definition x65_ParseIntegerInstruction (ts : list token) (st : xstate) : res (bool * list token * xstate) :=
  match ts with
  | TId id :: r =>
      if (T_6502_ADC <=? id) && (id <=? T_65C02_SMB7) then
        match nth_error g_instructionHandlers (Z.to_nat (id - T_6502_ADC)) with
        | Some h => x65_HandleToken h r st
        | None => UB
        end
      else Ok (false, ts, st)
  | _ => Ok (false, ts, st)
  end.
End Machine.
