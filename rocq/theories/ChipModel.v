(** Model of the CHIP-8 and SuperCHIP instruction parser:
    /repo/xasm/schip/schip_parse_instr.c, schip_parse.c, schip_tokens.c and
    schip_tokens.h. *)
From Coq Require Import ZArith List Bool String.
From Verif Require Import Base Arith ExprModel OptModel SectModel.
Import ListNotations.
Open Scope string_scope.
Open Scope Z_scope.

(** errors.h:24-103 EError and schip_error.h:22-25 EMachineError. *)
Definition ERROR_CHAR_EXPECTED : Z := 100.
Definition ERROR_OPERAND : Z := 107.
Definition MERROR_REQUIRES_SCHIP : Z := 1002.

(** schip_tokens.h:23-100 ETargetToken. *)
Definition T_CHIP_INSTR_FIRST : Z := 6000.
Definition T_CHIP_INSTR_LAST : Z := 6029.
Definition T_CHIP_REG_V0 : Z := 6030.
Definition T_CHIP_REG_V15 : Z := 6045.
Definition T_CHIP_REG_DT : Z := 6046.
Definition T_CHIP_REG_ST : Z := 6047.
Definition T_CHIP_REG_I : Z := 6048.
Definition T_CHIP_REG_I_IND : Z := 6049.
Definition T_CHIP_REG_RPL : Z := 6050.
(** schip_tokens.c:24-86 g_tokens. *)
Definition g_tokens : list (string * Z) :=
  [("BCD", 6000); ("LDF", 6001); ("LDF10", 6002); ("SHL", 6003); ("SKNP", 6004); ("SKP", 6005); ("SHR", 6006);
   ("WKP", 6007); ("AND", 6008); ("OR", 6009); ("SUB", 6010); ("SUBN", 6011); ("XOR", 6012); ("DRW", 6013);
   ("LD", 6014); ("LDM", 6015); ("ADD", 6016); ("SE", 6017); ("SNE", 6018); ("RND", 6019); ("SCD", 6020);
   ("JP", 6021); ("CALL", 6022); ("CLS", 6023); ("EXIT", 6024); ("LOW", 6025); ("HIGH", 6026); ("RET", 6027);
   ("SCR", 6028); ("SCL", 6029);
   ("V0", 6030); ("V1", 6031); ("V2", 6032); ("V3", 6033); ("V4", 6034); ("V5", 6035); ("V6", 6036); ("V7", 6037);
   ("V8", 6038); ("V9", 6039); ("V10", 6040); ("V11", 6041); ("V12", 6042); ("V13", 6043); ("V14", 6044);
   ("V15", 6045); ("VA", 6040); ("VB", 6041); ("VC", 6042); ("VD", 6043); ("VE", 6044); ("VF", 6045);
   ("DT", 6046); ("ST", 6047); ("I", 6048); ("(I)", 6049); ("RPL", 6050)].

(** The rest of a source line: words that are keywords, the comma, the plus sign, and
    text that parse_Expression consumes, with the expression it gives.  Anything else
    is [TOther]; at anything but [TExpr] parse_Expression consumes nothing and gives
    no expression. *)
Inductive token : Type := TId (id : Z) | TComma | TPlus | TExpr (e : expr) | TOther.
Fixpoint assoc (s : string) (l : list (string * Z)) : token :=
  match l with [] => TOther | (k, v) :: r => if String.eqb s k then TId v else assoc s r end.
(** Source text: words, punctuation and expressions.  Simplification: words are in
    upper case. *)
Inductive piece : Type := Word (s : string) | Comma | Plus | Operand (e : expr).
Definition lex1 (p : piece) : token :=
  match p with Word s => assoc s g_tokens | Comma => TComma | Plus => TPlus | Operand e => TExpr e end.
Definition lex (l : list piece) : list token := map lex1 l.

(** schip_parse_instr.c:38-53: operand modes and SAddressMode. *)
Definition MODE_REG : Z := 1.
Definition MODE_IMM : Z := 2.
Definition MODE_I : Z := 4.
Definition MODE_DT : Z := 8.
Definition MODE_ST : Z := 16.
Definition MODE_I_IND : Z := 32.
Definition MODE_IMM_V0 : Z := 64.
Definition MODE_RPL : Z := 128.
Definition REGISTER_NONE : Z := 255.
Record amode : Type := AMode { am_mode : Z; am_register : Z; am_expr : expr }.
Definition no_mode : amode := AMode 0 0 ENull.

(** schip_parse_instr.c:63-73 getRegister. *)
Definition getRegister (ts : list token) : Z * list token :=
  match ts with
  | TId id :: r =>
      if (T_CHIP_REG_V0 <=? id) && (id <=? T_CHIP_REG_V15) then (id - T_CHIP_REG_V0, r) else (REGISTER_NONE, ts)
  | _ => (REGISTER_NONE, ts)
  end.
(** schip_parse_instr.c:75-119 parseAddressMode and schip_parse.c:30-40
    schip_ParseExpressionU12: whether an operand was found, the operand, and what
    follows. *)
Definition parseAddressMode (ts : list token) (st : xstate) : res (bool * amode * list token * xstate) :=
  let '(reg, r) := getRegister ts in
  if negb (reg =? REGISTER_NONE) then
    match r with
    | TPlus :: r1 =>
        if reg =? 0 then
          match r1 with
          | TExpr e :: r2 =>
              let! (e1, st1) := range_checked e 0 4095 st in
              Ok (true, AMode MODE_IMM_V0 reg e1, r2, st1)
          | _ => Ok (false, AMode MODE_REG reg ENull, r1, st)
          end
        else Ok (false, AMode MODE_REG reg ENull, r, st)
    | _ => Ok (true, AMode MODE_REG reg ENull, r, st)
    end
  else
    match ts with
    | TId id :: r1 =>
        if id =? T_CHIP_REG_I then Ok (true, AMode MODE_I reg ENull, r1, st) else
        if id =? T_CHIP_REG_RPL then Ok (true, AMode MODE_RPL reg ENull, r1, st) else
        if id =? T_CHIP_REG_DT then Ok (true, AMode MODE_DT reg ENull, r1, st) else
        if id =? T_CHIP_REG_ST then Ok (true, AMode MODE_ST reg ENull, r1, st) else
        if id =? T_CHIP_REG_I_IND then Ok (true, AMode MODE_I_IND reg ENull, r1, st) else
        Ok (false, AMode 0 reg ENull, ts, st)
    | TExpr e :: r1 => Ok (true, AMode MODE_IMM reg e, r1, st)
    | _ => Ok (false, AMode 0 reg ENull, ts, st)
    end.

(** A handler reports whether it succeeded. *)
Definition handled : Type := res (bool * xstate).
Definition done (r : res xstate) : handled := let! st := r in Ok (true, st).
Definition refuse (n : Z) (st : xstate) : handled := Ok (false, err_Error n st).

Section Handlers.
Variable F : fmath.
Variable cpu : Z.
Definition CPUF_SCHIP : Z := 2.
Definition expr_Or (a b : expr) : res expr := expr_Binary F OpOr a b.
Definition expr_And (a b : expr) : res expr := expr_Binary F OpAnd a b.
Definition reg8 (m : amode) : Z := Z.shiftl (am_register m) 8.
Definition reg4 (m : amode) : Z := Z.shiftl (am_register m) 4.

(** schip_parse_instr.c:55-61 requireSCHIP. *)
Definition requireSCHIP : bool := negb (Z.land cpu CPUF_SCHIP =? 0).
(** schip_parse_instr.c:121-164.  An expression that cannot be built ends the
    program. *)
Definition handleModeReg (m1 : amode) (opcode : Z) (st : xstate) : handled :=
  done (sect_OutputConst16 (u16 (Z.lor opcode (reg8 m1))) st).
Definition handleModeRegReg (m1 m2 : amode) (opcode : Z) (st : xstate) : handled :=
  done (sect_OutputConst16 (u16 (Z.lor (Z.lor opcode (reg8 m1)) (reg4 m2))) st).
Definition handleModeImm12 (m1 : amode) (opcode : Z) (st : xstate) : handled :=
  let! (e, st1) := range_checked (am_expr m1) 0 4095 st in
  let! e1 := expr_Or (expr_Const opcode) e in
  done (sect_OutputExpr16 e1 st1).
Definition handleDRW (m1 m2 m3 : amode) (opcode : Z) (st : xstate) : handled :=
  let! (e, st1) := range_checked (am_expr m3) 0 16 st in
  let! e1 := expr_And e (expr_Const 15) in
  let! e2 := expr_Or (expr_Const (Z.lor (Z.lor opcode (reg8 m1)) (reg4 m2))) e1 in
  done (sect_OutputExpr16 e2 st1).
Definition handleSCRD (m3 : amode) (opcode : Z) (st : xstate) : handled :=
  if negb requireSCHIP then refuse MERROR_REQUIRES_SCHIP st else
  let! (e, st1) := range_checked (am_expr m3) 0 15 st in
  let! e1 := expr_Or (expr_Const opcode) e in
  done (sect_OutputExpr16 e1 st1).
Definition handleModeRegImm (m1 m2 : amode) (opcode : Z) (st : xstate) : handled :=
  let! (e, st1) := range_checked (am_expr m2) (-128) 255 st in
  let! e1 := expr_And e (expr_Const 255) in
  let! e2 := expr_Or (expr_Const (Z.lor opcode (reg8 m1))) e1 in
  done (sect_OutputExpr16 e2 st1).
(** schip_parse_instr.c:166-255 handleLD, handleLDM, handleADD, handleSkips, handleJP
    and handleModeNone. *)
Definition modes (m1 m2 : amode) (a b : Z) : bool := (am_mode m1 =? a) && (am_mode m2 =? b).
Definition handleLD (m1 m2 : amode) (st : xstate) : handled :=
  if modes m1 m2 MODE_REG MODE_IMM then handleModeRegImm m1 m2 0x6000 st else
  if modes m1 m2 MODE_REG MODE_REG then handleModeRegReg m1 m2 0x8000 st else
  if modes m1 m2 MODE_I MODE_IMM then handleModeImm12 m2 0xA000 st else
  if modes m1 m2 MODE_REG MODE_DT then handleModeReg m1 0xF007 st else
  if modes m1 m2 MODE_DT MODE_REG then handleModeReg m2 0xF015 st else
  if modes m1 m2 MODE_ST MODE_REG then handleModeReg m2 0xF018 st else
  refuse ERROR_OPERAND st.
Definition handleLDM (m1 m2 : amode) (st : xstate) : handled :=
  if modes m1 m2 MODE_REG MODE_I_IND then handleModeReg m1 0xF065 st else
  if modes m1 m2 MODE_I_IND MODE_REG then handleModeReg m2 0xF055 st else
  if modes m1 m2 MODE_REG MODE_RPL then handleModeReg m1 0xF085 st else
  if modes m1 m2 MODE_RPL MODE_REG then handleModeReg m2 0xF075 st else
  refuse ERROR_OPERAND st.
Definition handleADD (m1 m2 : amode) (st : xstate) : handled :=
  if modes m1 m2 MODE_REG MODE_REG then handleModeRegReg m1 m2 0x8004 st else
  if modes m1 m2 MODE_REG MODE_IMM then handleModeRegImm m1 m2 0x7000 st else
  if modes m1 m2 MODE_I MODE_REG then handleModeReg m2 0xF01E st else
  refuse ERROR_OPERAND st.
Definition handleSkips (m1 m2 : amode) (opcode : Z) (st : xstate) : handled :=
  if modes m1 m2 MODE_REG MODE_IMM then handleModeRegImm m1 m2 opcode st else
  if modes m1 m2 MODE_REG MODE_REG then
    handleModeRegReg m1 m2 (if opcode =? 0x3000 then 0x5000 else 0x9000) st else
  refuse ERROR_OPERAND st.
Definition handleJP (m1 : amode) (st : xstate) : handled :=
  if am_mode m1 =? MODE_IMM then handleModeImm12 m1 0x1000 st else
  if am_mode m1 =? MODE_IMM_V0 then handleModeImm12 m1 0xB000 st else
  refuse ERROR_OPERAND st.
Definition handleModeNone (opcode : Z) (st : xstate) : handled := done (sect_OutputConst16 opcode st).

(** schip_parse_instr.c:257-317 SInstruction and instructionHandlers. *)
Inductive handler : Type := HReg | HRegReg | HDRW | HLD | HLDM | HADD | HSkips | HRegImm | HSCRD | HJP | HImm12 | HNone.
Record instruction : Type := Instruction {
  i_cpu : Z; i_mode1 : Z; i_mode2 : Z; i_mode3 : Z; i_opcode : Z; i_parser : handler }.
Definition instructionHandlers : list instruction :=
  [Instruction 3 MODE_REG 0 0 0xF033 HReg;
   Instruction 3 MODE_REG 0 0 0xF029 HReg;
   Instruction 2 MODE_REG 0 0 0xF030 HReg;
   Instruction 3 MODE_REG 0 0 0x800E HReg;
   Instruction 3 MODE_REG 0 0 0xE0A1 HReg;
   Instruction 3 MODE_REG 0 0 0xE09E HReg;
   Instruction 3 MODE_REG 0 0 0x8006 HReg;
   Instruction 3 MODE_REG 0 0 0xF00A HReg;
   Instruction 3 MODE_REG MODE_REG 0 0x8002 HRegReg;
   Instruction 3 MODE_REG MODE_REG 0 0x8001 HRegReg;
   Instruction 3 MODE_REG MODE_REG 0 0x8005 HRegReg;
   Instruction 3 MODE_REG MODE_REG 0 0x8007 HRegReg;
   Instruction 3 MODE_REG MODE_REG 0 0x8003 HRegReg;
   Instruction 3 MODE_REG MODE_REG MODE_IMM 0xD000 HDRW;
   Instruction 3 (MODE_REG + MODE_I + MODE_DT + MODE_ST) (MODE_REG + MODE_IMM + MODE_DT) 0 0 HLD;
   Instruction 3 (MODE_REG + MODE_I_IND + MODE_RPL) (MODE_REG + MODE_I_IND + MODE_RPL) 0 0 HLDM;
   Instruction 3 (MODE_REG + MODE_I) (MODE_REG + MODE_IMM) 0 0 HADD;
   Instruction 3 MODE_REG (MODE_REG + MODE_IMM) 0 0x3000 HSkips;
   Instruction 3 MODE_REG (MODE_REG + MODE_IMM) 0 0x4000 HSkips;
   Instruction 3 MODE_REG MODE_IMM 0 0xC000 HRegImm;
   Instruction 2 MODE_IMM 0 0 0x00C0 HSCRD;
   Instruction 3 (MODE_IMM + MODE_IMM_V0) 0 0 0x1000 HJP;
   Instruction 3 MODE_IMM 0 0 0x2000 HImm12;
   Instruction 3 0 0 0 0x00E0 HNone;
   Instruction 2 0 0 0 0x00FD HNone;
   Instruction 2 0 0 0 0x00FE HNone;
   Instruction 2 0 0 0 0x00FF HNone;
   Instruction 3 0 0 0 0x00EE HNone;
   Instruction 2 0 0 0 0x00FB HNone;
   Instruction 2 0 0 0 0x00FC HNone].
Definition apply_parser (h : handler) (m1 m2 m3 : amode) (opcode : Z) (st : xstate) : handled :=
  match h with
  | HReg => handleModeReg m1 opcode st
  | HRegReg => handleModeRegReg m1 m2 opcode st
  | HDRW => handleDRW m1 m2 m3 opcode st
  | HLD => handleLD m1 m2 st
  | HLDM => handleLDM m1 m2 st
  | HADD => handleADD m1 m2 st
  | HSkips => handleSkips m1 m2 opcode st
  | HRegImm => handleModeRegImm m1 m2 opcode st
  | HSCRD => handleSCRD m3 opcode st
  | HJP => handleJP m1 st
  | HImm12 => handleModeImm12 m1 opcode st
  | HNone => handleModeNone opcode st
  end.

(** parse.c:122-131 parse_ExpectChar with a comma. *)
Definition parse_ExpectComma (ts : list token) (st : xstate) : bool * list token * xstate :=
  match ts with TComma :: r => (true, r, st) | _ => (false, ts, err_Error ERROR_CHAR_EXPECTED st) end.

(** schip_parse_instr.c:319-357 schip_ParseIntegerInstruction: whether an instruction
    was accepted, the tokens left, and the state. *)
Definition finish (r : handled) (ts : list token) : res (bool * list token * xstate) :=
  let! (b, st) := r in Ok (b, ts, st).
(** The operands after the first: None if an operand is of the wrong kind. *)
Definition parseThird (i : instruction) (ts : list token) (st : xstate)
    : res (option amode * list token * xstate) :=
  if i_mode3 i =? 0 then Ok (Some no_mode, ts, st) else
  let '(c, ts1, st1) := parse_ExpectComma ts st in
  if negb c then Ok (Some no_mode, ts1, st1) else
  let! (ok, m3, ts2, st2) := parseAddressMode ts1 st1 in
  if ok && (Z.land (i_mode3 i) (am_mode m3) =? 0) then Ok (None, ts2, st2) else Ok (Some m3, ts2, st2).
Definition parseSecond (i : instruction) (ts : list token) (st : xstate)
    : res (option (amode * amode) * list token * xstate) :=
  if i_mode2 i =? 0 then Ok (Some (no_mode, no_mode), ts, st) else
  let '(c, ts1, st1) := parse_ExpectComma ts st in
  if negb c then Ok (Some (no_mode, no_mode), ts1, st1) else
  let! (ok, m2, ts2, st2) := parseAddressMode ts1 st1 in
  if negb ok then Ok (Some (m2, no_mode), ts2, st2) else
  if Z.land (i_mode2 i) (am_mode m2) =? 0 then Ok (None, ts2, st2) else
  let! (o, ts3, st3) := parseThird i ts2 st2 in
  Ok (match o with Some m3 => Some (m2, m3) | None => None end, ts3, st3).
Definition parseOperands (i : instruction) (ts : list token) (st : xstate)
    : res (option (amode * amode * amode) * list token * xstate) :=
  if i_mode1 i =? 0 then Ok (Some (no_mode, no_mode, no_mode), ts, st) else
  let! (ok, m1, ts1, st1) := parseAddressMode ts st in
  if negb ok then Ok (Some (m1, no_mode, no_mode), ts1, st1) else
  if Z.land (i_mode1 i) (am_mode m1) =? 0 then Ok (None, ts1, st1) else
  let! (o, ts2, st2) := parseSecond i ts1 st1 in
  Ok (match o with Some (m2, m3) => Some (m1, m2, m3) | None => None end, ts2, st2).
Definition schip_ParseIntegerInstruction (ts : list token) (st : xstate) : res (bool * list token * xstate) :=
  match ts with
  | TId id :: r =>
      if (T_CHIP_INSTR_FIRST <=? id) && (id <=? T_CHIP_INSTR_LAST) then
        match nth_error instructionHandlers (Z.to_nat (id - T_CHIP_INSTR_FIRST)) with
        | None => UB
        | Some i =>
            if Z.land (i_cpu i) cpu =? 0 then finish (refuse MERROR_REQUIRES_SCHIP st) ts else
            let! (o, ts1, st1) := parseOperands i r st in
            match o with
            | None => finish (refuse ERROR_OPERAND st1) ts1
            | Some (m1, m2, m3) => finish (apply_parser (i_parser i) m1 m2 m3 (i_opcode i) st1) ts1
            end
        end
      else Ok (false, ts, st)
  | _ => Ok (false, ts, st)
  end.
End Handlers.
