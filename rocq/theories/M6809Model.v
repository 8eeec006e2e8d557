(** Model of the 6809 instruction parser: /repo/xasm/6809/m6809_parse.c, m6809_parse.h,
    m6809_parse_addrmode.c, m6809_parse_instr.c, m6809_parse_directive.c, m6809_tokens.c,
    m6809_tokens.h and m6809_errors.h. *)
From Coq Require Import ZArith List Bool String.
From Verif Require Import Base Arith ExprModel ObjWriteModel OptModel SectModel.
Import ListNotations.
Open Scope string_scope.
Open Scope list_scope.
Open Scope Z_scope.

(** errors.h:24-103 EError and m6809_errors.h:24-27. *)
Definition ERROR_CHAR_EXPECTED : Z := 100.
Definition ERROR_FIRST_OPERAND : Z := 105.
Definition ERROR_SECOND_OPERAND : Z := 106.
Definition ERROR_OPERAND : Z := 107.
Definition ERROR_EXPR_CONST : Z := 119.
Definition MERROR_ILLEGAL_ADDRMODE : Z := 1000.
Definition MERROR_SAME_SIZE_REGISTER : Z := 1001.

(** m6809_parse.h:33-54: addressing modes. *)
Definition MODE_NONE : Z := 0x1.
Definition MODE_IMMEDIATE : Z := 0x2.
Definition MODE_ADDRESS : Z := 0x4.
Definition MODE_EXTENDED : Z := 0x8.
Definition MODE_DIRECT : Z := 0x10.
Definition MODE_INDEXED_R_5BIT : Z := 0x20.
Definition MODE_INDEXED_R_INC1 : Z := 0x40.
Definition MODE_INDEXED_R_INC2 : Z := 0x80.
Definition MODE_INDEXED_R_DEC1 : Z := 0x100.
Definition MODE_INDEXED_R_DEC2 : Z := 0x200.
Definition MODE_INDEXED_R : Z := 0x400.
Definition MODE_INDEXED_R_A : Z := 0x800.
Definition MODE_INDEXED_R_B : Z := 0x1000.
Definition MODE_INDEXED_R_8BIT : Z := 0x2000.
Definition MODE_INDEXED_R_16BIT : Z := 0x4000.
Definition MODE_INDEXED_R_D : Z := 0x8000.
Definition MODE_INDEXED_PC_8BIT : Z := 0x10000.
Definition MODE_INDEXED_PC_16BIT : Z := 0x20000.
Definition MODE_EXTENDED_INDIRECT : Z := 0x40000.
Definition MODE_INDIRECT_MODIFIER : Z := 0x80000.
Definition MODE_REGISTER_LIST_S : Z := 0x100000.
Definition MODE_REGISTER_LIST_U : Z := 0x200000.
Definition MODE_ALL_INDEXED : Z :=
  MODE_INDEXED_R_5BIT + MODE_INDEXED_R_INC1 + MODE_INDEXED_R_INC2 + MODE_INDEXED_R_DEC1 + MODE_INDEXED_R_DEC2 +
  MODE_INDEXED_R + MODE_INDEXED_R_A + MODE_INDEXED_R_B + MODE_INDEXED_R_8BIT + MODE_INDEXED_R_16BIT + MODE_INDEXED_R_D +
  MODE_INDEXED_PC_8BIT + MODE_INDEXED_PC_16BIT + MODE_EXTENDED_INDIRECT + MODE_INDIRECT_MODIFIER.
Definition MODE_ALLOWED_INDIRECT : Z :=
  MODE_ADDRESS + MODE_EXTENDED + MODE_INDEXED_R_INC2 + MODE_INDEXED_R_DEC2 + MODE_INDEXED_R + MODE_INDEXED_R_A +
  MODE_INDEXED_R_B + MODE_INDEXED_R_8BIT + MODE_INDEXED_R_16BIT + MODE_INDEXED_R_D + MODE_INDEXED_PC_8BIT +
  MODE_INDEXED_PC_16BIT.
(** m6809_parse_instr.c:34-36. *)
Definition MODE_P : Z := MODE_IMMEDIATE + MODE_ADDRESS + MODE_DIRECT + MODE_EXTENDED + MODE_ALL_INDEXED.
Definition MODE_Q : Z := MODE_ADDRESS + MODE_DIRECT + MODE_EXTENDED + MODE_ALL_INDEXED.
Definition MODE_T : Z := MODE_ALL_INDEXED.
Definition has (mode mask : Z) : bool := negb (Z.land mode mask =? 0).

(** m6809_tokens.h:25-184 and m6809_tokens.c:25-196: keywords and their numbers. *)
Definition T_6809_ABX : Z := 6000.
Definition T_6809_NOP : Z := 6129.
Definition REG_A : Z := 6130.
Definition REG_B : Z := 6131.
Definition REG_D : Z := 6132.
Definition REG_PCR : Z := 6133.
Definition REG_CCR : Z := 6134.
Definition REG_DPR : Z := 6135.
Definition REG_X : Z := 6136.
Definition REG_Y : Z := 6137.
Definition REG_U : Z := 6138.
Definition REG_S : Z := 6139.
Definition T_6809_SETDP : Z := 6140.
Definition g_tokens : list (string * Z) :=
  [
   ("ABX", 6000); ("ADCA", 6001); ("ADCB", 6002); ("ADDA", 6003); ("ADDB", 6004); ("ADDD", 6005); ("ANDA", 6006);
   ("ANDB", 6007); ("ANDCC", 6008); ("ASL", 6009); ("LSL", 6009); ("ASLA", 6010); ("LSLA", 6010); ("ASLB", 6011);
   ("LSLB", 6011); ("ASR", 6012); ("ASRA", 6013); ("ASRB", 6014); ("NOP", 6129); ("BRA", 6015); ("BRN", 6016);
   ("BHI", 6017); ("BLS", 6018); ("BCC", 6019); ("BHS", 6019); ("BCS", 6020); ("BLO", 6020); ("BNE", 6021); ("BEQ", 6022);
   ("BVC", 6023); ("BVS", 6024); ("BPL", 6025); ("BMI", 6026); ("BGE", 6027); ("BLT", 6028); ("BGT", 6029); ("BLE", 6030);
   ("BSR", 6031); ("LBRA", 6032); ("LBRN", 6033); ("LBHI", 6034); ("LBLS", 6035); ("LBCC", 6036); ("LBHS", 6036);
   ("LBCS", 6037); ("LBLO", 6037); ("LBNE", 6038); ("LBEQ", 6039); ("LBVC", 6040); ("LBVS", 6041); ("LBPL", 6042);
   ("LBMI", 6043); ("LBGE", 6044); ("LBLT", 6045); ("LBGT", 6046); ("LBLE", 6047); ("LBSR", 6048); ("BITA", 6049);
   ("BITB", 6050); ("CLR", 6051); ("CLRA", 6052); ("CLRB", 6053); ("CMPA", 6054); ("CMPB", 6055); ("CMPD", 6056);
   ("CMPX", 6057); ("CMPY", 6058); ("CMPU", 6059); ("CMPS", 6060); ("COM", 6061); ("COMA", 6062); ("COMB", 6063);
   ("CWAI", 6064); ("DAA", 6065); ("DEC", 6066); ("DECA", 6067); ("DECB", 6068); ("EORA", 6069); ("EORB", 6070);
   ("EXG", 6071); ("INC", 6072); ("INCA", 6073); ("INCB", 6074); ("JMP", 6075); ("JSR", 6076); ("LDA", 6077); ("LDB", 6078);
   ("LDD", 6079); ("LDX", 6080); ("LDY", 6081); ("LDU", 6082); ("LDS", 6083); ("LEAX", 6084); ("LEAY", 6085);
   ("LEAU", 6086); ("LEAS", 6087); ("LSR", 6088); ("MUL", 6089); ("NEG", 6090); ("NEGA", 6091); ("NEGB", 6092);
   ("ORA", 6093); ("ORB", 6094); ("ORCC", 6095); ("PSHS", 6096); ("PSHU", 6097); ("PULS", 6098); ("PULU", 6099);
   ("ROL", 6100); ("ROLA", 6101); ("ROLB", 6102); ("ROR", 6103); ("RORA", 6104); ("RORB", 6105); ("RTI", 6106);
   ("RTS", 6107); ("SBCA", 6108); ("SBCB", 6109); ("SEX", 6110); ("STA", 6111); ("STB", 6112); ("STD", 6113); ("STX", 6114);
   ("STY", 6115); ("STU", 6116); ("STS", 6117); ("SUBA", 6118); ("SUBB", 6119); ("SUBD", 6120); ("SWI", 6121);
   ("SWI2", 6122); ("SWI3", 6123); ("SYNC", 6124); ("TFR", 6125); ("TST", 6126); ("TSTA", 6127); ("TSTB", 6128);
   ("A", 6130); ("B", 6131); ("D", 6132); ("PCR", 6133); ("CCR", 6134); ("DPR", 6135); ("X", 6136); ("Y", 6137);
   ("U", 6138); ("S", 6139); ("SETDP", 6140)].
(** The rest of a source line: words that are keywords, punctuation, and text that
    parse_Expression consumes, with the expression it gives.  Anything else is
    [TOther]; parse_Expression consumes nothing and gives nothing at anything but
    [TExpr].  Simplification: a plus or minus sign that begins an expression is part of
    its [TExpr]; [TPlus] and [TMinus] are signs no expression follows. *)
Inductive token : Type :=
| TId (id : Z) | TComma | THash | TLb | TRb | TGt | TLt | TPlus | TMinus | TExpr (e : expr) | TOther.
Fixpoint assoc (s : string) (l : list (string * Z)) : token :=
  match l with [] => TOther | (k, v) :: r => if String.eqb s k then TId v else assoc s r end.
(** Source text.  Simplification: words are in upper case. *)
Inductive piece : Type := Word (s : string) | Comma | Hash | Lb | Rb | Gt | Lt | Plus | Minus | Operand (e : expr).
Definition lex1 (p : piece) : token :=
  match p with
  | Word s => assoc s g_tokens | Comma => TComma | Hash => THash | Lb => TLb | Rb => TRb | Gt => TGt | Lt => TLt
  | Plus => TPlus | Minus => TMinus | Operand e => TExpr e
  end.
Definition lex (l : list piece) : list token := map lex1 l.

(** parse_expression.c:655-657 parse_Expression. *)
Definition parse_Expression (ts : list token) : expr * list token :=
  match ts with TExpr e :: r => (e, r) | _ => (ENull, ts) end.
(** sect_Current. *)
Definition sect_Current (st : xstate) : option asect :=
  match x_current st with
  | None => None
  | Some k => match nth_error (x_sections st) k with None => None | Some m => Some (ws_sect (m_w m)) end
  end.

(** ** Addressing modes *)
(** m6809_parse.h:65-70 SAddressingMode; offset_kind is never used. *)
Record amode : Type := AMode { am_mode : Z; am_post : Z; am_expr : expr }.
Definition set_mode (m : Z) (a : amode) : amode := AMode m (am_post a) (am_expr a).
Definition set_post (p : Z) (a : amode) : amode := AMode (am_mode a) p (am_expr a).
Definition set_expr (e : expr) (a : amode) : amode := AMode (am_mode a) (am_post a) e.
(** What a parsing function gives: whether it succeeded, the addressing mode, the text
    left and the state. *)
Definition parsed : Type := bool * amode * list token * xstate.

(** m6809_parse_addrmode.c:45-46, 141-142, 239-240: X, Y, U or S. *)
Definition index_register (ts : list token) : option (Z * list token) :=
  match ts with
  | TId t :: r => if (0 <=? t - REG_X) && (t - REG_X <=? 3) then Some (t - REG_X, r) else None
  | _ => None
  end.
(** m6809_parse_addrmode.c:29-38 parseExpressionMode, at the token after the sign. *)
Definition parseExpressionMode (a : amode) (mode : Z) (ts : list token) (st : xstate) : parsed :=
  let (e, r) := parse_Expression ts in
  let a1 := set_expr e (set_mode mode a) in
  if isNull e then (false, a1, r, err_Error ERROR_EXPECT_EXPR st) else (true, a1, r, st).
(** m6809_parse_addrmode.c:40-56 parseRegisterIndexed, at the token after the
    accumulator. *)
Definition parseRegisterIndexed (a : amode) (mode post : Z) (ts : list token) (st : xstate) : parsed :=
  match ts with
  | TComma :: r =>
      match index_register r with
      | Some (n, r1) => (true, AMode mode (Z.lor post (Z.shiftl n 5)) (am_expr a), r1, st)
      | None => (false, a, r, st)
      end
  | _ => (false, a, ts, st)
  end.
(** m6809_parse_addrmode.c:58-86 parseRegisterListBit. *)
Definition parseRegisterListBit (allowed disallowed : Z) (ts : list token) (st : xstate) : Z * xstate :=
  match ts with
  | TId t :: _ =>
      if t =? REG_CCR then (0x01, st) else if t =? REG_A then (0x02, st) else if t =? REG_B then (0x04, st)
      else if t =? REG_DPR then (0x08, st) else if t =? REG_X then (0x10, st) else if t =? REG_Y then (0x20, st)
      else if t =? REG_PCR then (0x80, st) else if t =? allowed then (0x40, st)
      else if t =? disallowed then (0, err_Error ERROR_OPERAND st) else (0, st)
  | _ => (0, st)
  end.
(** m6809_parse_addrmode.c:116-125: a list of registers. *)
Fixpoint register_list (allowed disallowed : Z) (bits : Z) (ts : list token) (st : xstate) : Z * list token * xstate :=
  let (bit, st1) := parseRegisterListBit allowed disallowed ts st in
  if bit =? 0 then (bits, ts, st1) else
  match ts with
  | _ :: TComma :: r => register_list allowed disallowed (Z.lor bits bit) r st1
  | _ :: r => (Z.lor bits bit, r, st1)
  | [] => (bits, ts, st1)
  end.
(** m6809_parse_addrmode.c:135-139 and 145-149: signs in a row. *)
Fixpoint minuses (ts : list token) : Z * list token :=
  match ts with TMinus :: r => let (n, r1) := minuses r in (n + 1, r1) | _ => (0, ts) end.
Fixpoint pluses (ts : list token) : Z * list token :=
  match ts with TPlus :: r => let (n, r1) := pluses r in (n + 1, r1) | _ => (0, ts) end.
(** m6809_parse_addrmode.c:131-177: what begins with a comma, at the token after it. *)
Definition parse_step (a : amode) (allowed : Z) (ts : list token) (st : xstate) : parsed :=
  let (minus, r0) := minuses ts in
  match index_register r0 with
  | Some (n, r1) =>
      let (plus, r2) := pluses r1 in
      let is mode post := (true, AMode mode (Z.lor post (Z.shiftl n 5)) (am_expr a), r2, st) in
      if (minus =? 0) && (plus =? 1) && has allowed MODE_INDEXED_R_INC1 then is MODE_INDEXED_R_INC1 0x80
      else if (minus =? 0) && (plus =? 2) && has allowed MODE_INDEXED_R_INC2 then is MODE_INDEXED_R_INC2 0x81
      else if (minus =? 1) && (plus =? 0) && has allowed MODE_INDEXED_R_DEC1 then is MODE_INDEXED_R_DEC1 0x82
      else if (minus =? 2) && (plus =? 0) && has allowed MODE_INDEXED_R_DEC2 then is MODE_INDEXED_R_DEC2 0x83
      else if (minus =? 0) && (plus =? 0) && has allowed MODE_INDEXED_R then is MODE_INDEXED_R 0x84
      else (false, a, r2, st)
  | None => (false, a, r0, st)
  end.
(** m6809_parse_addrmode.c:225-267: an offset and an index register, at the register;
    [a] has the offset.  Nothing if it is none of these. *)
Definition parse_offset (a : amode) (allowed : Z) (direct extended : bool) (ts : list token) (st : xstate) : option parsed :=
  let v := e_v (am_expr a) in
  let free := negb direct && negb extended && expr_IsConstant (am_expr a) in
  let f5 := free && (-16 <=? v) && (v <=? 15) in
  let f8 := direct || (free && negb f5 && (-128 <=? v) && (v <=? 127)) in
  let f16 := extended || (free && negb f5 && negb f8 && (-32768 <=? v) && (v <=? 32767)) in
  match index_register ts with
  | Some (n, r) =>
      let n5 := Z.shiftl n 5 in
      if has allowed MODE_INDEXED_R_5BIT && f5 then
        Some (if v =? 0 then (true, AMode MODE_INDEXED_R (Z.lor n5 0x84) (am_expr a), r, st)
              else (true, AMode MODE_INDEXED_R_5BIT (Z.lor n5 (Z.land v 0x1F)) (am_expr a), r, st))
      else if has allowed MODE_INDEXED_R_8BIT && (f8 || f5) then Some (true, AMode MODE_INDEXED_R_8BIT 0x88 (am_expr a), r, st)
      else if has allowed MODE_INDEXED_R_16BIT && (f16 || f8 || f5) then Some (true, AMode MODE_INDEXED_R_16BIT 0x89 (am_expr a), r, st)
      else None
  | None => None
  end.
(** m6809_parse_addrmode.c:271-288: the last cases; [start] is where the operand
    begins and [ts] where it has been read to. *)
Definition parse_plain (a : amode) (allowed : Z) (direct extended : bool) (start ts : list token) (st : xstate) : parsed :=
  if has allowed MODE_EXTENDED && extended then (true, set_mode MODE_EXTENDED a, ts, st)
  else if has allowed MODE_DIRECT && direct then (true, set_mode MODE_DIRECT a, ts, st)
  else if has allowed MODE_ADDRESS && negb (isNull (am_expr a)) then (true, set_mode MODE_ADDRESS a, ts, st)
  else (has allowed MODE_NONE, a, start, st).
(** m6809_parse_addrmode.c:191-288: an operand that begins with an expression. *)
Definition parse_expr (a : amode) (allowed : Z) (ts : list token) (st : xstate) : parsed :=
  let (extended, r1) := match ts with TGt :: r => (true, r) | _ => (false, ts) end in
  let (direct, r2) := match r1 with TLt :: r => (true, r) | _ => (false, r1) end in
  let (e, r3) := parse_Expression r2 in
  let a1 := set_expr e a in
  match r3 with
  | TComma :: r4 =>
      if has allowed (MODE_INDEXED_R_5BIT + MODE_INDEXED_R_8BIT + MODE_INDEXED_R_16BIT + MODE_INDEXED_PC_8BIT + MODE_INDEXED_PC_16BIT) then
        match r4 with
        | TId t :: r5 =>
            if t =? REG_PCR then
              if has allowed MODE_INDEXED_PC_8BIT && direct then (true, AMode MODE_INDEXED_PC_8BIT 0x8C e, r5, st)
              else if has allowed MODE_INDEXED_PC_16BIT then (true, AMode MODE_INDEXED_PC_16BIT 0x8D e, r5, st)
              else (false, a1, r4, st)
            else
              match parse_offset a1 allowed direct extended r4 st with
              | Some p => p
              | None => parse_plain a1 allowed direct extended ts r4 st
              end
        | _ => parse_plain a1 allowed direct extended ts r4 st
        end
      else parse_plain a1 allowed direct extended ts r3 st
  | _ => parse_plain a1 allowed direct extended ts r3 st
  end.
(** m6809_parse_addrmode.c:88-289 m6809_ParseAddressingMode without the brackets of
    96-111. *)
Definition parse_mode (a : amode) (allowed : Z) (ts : list token) (st : xstate) : parsed :=
  if has allowed (MODE_REGISTER_LIST_S + MODE_REGISTER_LIST_U) then
    match ts with
    | THash :: r => if has allowed MODE_IMMEDIATE then parseExpressionMode a MODE_IMMEDIATE r st
                    else (true, AMode (Z.land allowed (MODE_REGISTER_LIST_S + MODE_REGISTER_LIST_U)) 0 (am_expr a), ts, st)
    | _ =>
        let stack_s := has allowed MODE_REGISTER_LIST_S in
        let '(bits, r, st1) := register_list (if stack_s then REG_S else REG_U) (if stack_s then REG_U else REG_S) 0 ts st in
        (true, AMode (Z.land allowed (MODE_REGISTER_LIST_S + MODE_REGISTER_LIST_U)) bits (am_expr a), r, st1)
    end
  else
  match ts with
  | THash :: r => if has allowed MODE_IMMEDIATE then parseExpressionMode a MODE_IMMEDIATE r st else parse_expr a allowed ts st
  | TComma :: r =>
      if has allowed (MODE_INDEXED_R_INC1 + MODE_INDEXED_R_INC2 + MODE_INDEXED_R_DEC1 + MODE_INDEXED_R_DEC2 + MODE_INDEXED_R)
      then parse_step a allowed r st else parse_expr a allowed ts st
  | TId t :: r =>
      if has allowed MODE_INDEXED_R_A && (t =? REG_A) then parseRegisterIndexed a MODE_INDEXED_R_A 0x86 r st
      else if has allowed MODE_INDEXED_R_B && (t =? REG_B) then parseRegisterIndexed a MODE_INDEXED_R_B 0x85 r st
      else if has allowed MODE_INDEXED_R_D && (t =? REG_D) then parseRegisterIndexed a MODE_INDEXED_R_D 0x8B r st
      else parse_expr a allowed ts st
  | _ => parse_expr a allowed ts st
  end.
(** m6809_parse_addrmode.c:88-289 m6809_ParseAddressingMode: MODE_ALLOWED_INDIRECT has
    no MODE_INDIRECT_MODIFIER, so that brackets are not nested. *)
Definition m6809_ParseAddressingMode (a : amode) (allowed : Z) (ts : list token) (st : xstate) : parsed :=
  match ts with
  | TLb :: r =>
      if has allowed MODE_INDIRECT_MODIFIER then
        let '(ok, a1, r1, st1) := parse_mode a MODE_ALLOWED_INDIRECT r st in
        if ok then
          match r1 with
          | TRb :: r2 =>
              let a2 := if has (am_mode a1) (MODE_ADDRESS + MODE_EXTENDED)
                        then AMode (MODE_EXTENDED_INDIRECT + MODE_INDIRECT_MODIFIER) 0x9F (am_expr a1)
                        else set_post (Z.lor (am_post a1) 0x10) a1 in
              (true, set_mode (Z.lor (am_mode a2) MODE_INDIRECT_MODIFIER) a2, r2, st1)
          | _ => (false, a1, r1, err_Error ERROR_CHAR_EXPECTED st1)
          end
        else (false, a1, r1, st1)
      else parse_mode a allowed ts st
  | _ => parse_mode a allowed ts st
  end.

(** ** Instructions *)
Section Instr.
Variable F : fmath.
(** m6809_parse_instr.c:44-52. *)
Definition outputExpr8 (e : expr) (st : xstate) : res xstate :=
  let! (e1, st1) := range_checked e (-128) 255 st in sect_OutputExpr8 e1 st1.
Definition outputExpr16 (e : expr) (st : xstate) : res xstate :=
  let! (e1, st1) := range_checked e (-32768) 65535 st in sect_OutputExpr16 e1 st1.
Definition outputPc8 (e : expr) (st : xstate) : res xstate :=
  let! e1 := expr_PcRelative F (sect_Current st) e (-1) in outputExpr8 e1 st.
Definition outputPc16 (e : expr) (st : xstate) : res xstate :=
  let! e1 := expr_PcRelative F (sect_Current st) e (-2) in outputExpr16 e1 st.
(** A handler reports whether it succeeded. *)
Definition handled : Type := res (bool * xstate).
Definition done (r : res xstate) : handled := let! st := r in Ok (true, st).
(** m6809_parse_instr.c:54-71 emitIndexed. *)
Definition emitIndexed (a : amode) (st : xstate) : handled :=
  let! st1 := sect_OutputConst8 (am_post a) st in
  if has (am_mode a) MODE_INDEXED_R_8BIT then done (outputExpr8 (am_expr a) st1)
  else if has (am_mode a) (MODE_INDEXED_R_16BIT + MODE_EXTENDED_INDIRECT) then done (outputExpr16 (am_expr a) st1)
  else if has (am_mode a) MODE_INDEXED_PC_8BIT then done (outputPc8 (am_expr a) st1)
  else if has (am_mode a) MODE_INDEXED_PC_16BIT then done (outputPc16 (am_expr a) st1)
  else Ok (false, st1).
(** m6809_parse_instr.c:73-88 emitOpcode. *)
Definition emitOpcode (base : Z) (a : amode) (directCode extendedCode indexedCode : Z) (st : xstate) : handled :=
  if am_mode a =? MODE_DIRECT then
    let! st1 := sect_OutputConst8 (Z.lor base directCode) st in
    let! e := expr_Binary F OpAnd (am_expr a) (expr_Const 0xFF) in done (outputExpr8 e st1)
  else if am_mode a =? MODE_EXTENDED then
    let! st1 := sect_OutputConst8 (Z.lor base extendedCode) st in done (outputExpr16 (am_expr a) st1)
  else if has (am_mode a) MODE_ALL_INDEXED then
    let! st1 := sect_OutputConst8 (Z.lor base indexedCode) st in
    let! (_, st2) := emitIndexed a st1 in Ok (false, st2)
  else Ok (false, st).
Definition handleOpcodeQ (base : Z) (a : amode) (st : xstate) : handled := emitOpcode base a 0x00 0x70 0x60 st.
Definition handleOpcodeP8 (base : Z) (a : amode) (st : xstate) : handled :=
  if am_mode a =? MODE_IMMEDIATE then let! st1 := sect_OutputConst8 base st in done (outputExpr8 (am_expr a) st1)
  else emitOpcode base a 0x10 0x30 0x20 st.
Definition handleOpcodeT16 (base : Z) (a : amode) (st : xstate) : handled :=
  let! st1 := sect_OutputConst8 base st in emitIndexed a st1.
Definition handleOpcodeP16 (base : Z) (a : amode) (st : xstate) : handled :=
  if am_mode a =? MODE_IMMEDIATE then let! st1 := sect_OutputConst8 base st in done (outputExpr16 (am_expr a) st1)
  else emitOpcode base a 0x10 0x30 0x20 st.
Definition PAGE1 : Z := 0x10.
Definition PAGE2 : Z := 0x11.
Definition paged (page : Z) (h : xstate -> handled) (st : xstate) : handled :=
  let! st1 := sect_OutputConst8 page st in h st1.
(** m6809_parse_instr.c:135-182. *)
Definition handleImplied (base : Z) (st : xstate) : handled := done (sect_OutputConst8 base st).
Definition handleImm8 (base : Z) (a : amode) (st : xstate) : handled :=
  let! st1 := sect_OutputConst8 base st in done (outputExpr8 (am_expr a) st1).
Definition handleBcc (base : Z) (a : amode) (st : xstate) : handled :=
  let! st1 := sect_OutputConst8 base st in done (outputPc8 (am_expr a) st1).
Definition handleLBRA (base : Z) (a : amode) (st : xstate) : handled :=
  let! st1 := sect_OutputConst8 base st in done (outputPc16 (am_expr a) st1).
(** m6809_parse_instr.c:184-209 parseExgRegister. *)
Definition parseExgRegister (ts : list token) : Z :=
  match ts with
  | TId t :: _ =>
      if t =? REG_D then 0x0 else if t =? REG_X then 0x1 else if t =? REG_Y then 0x2 else if t =? REG_U then 0x3
      else if t =? REG_S then 0x4 else if t =? REG_PCR then 0x5 else if t =? REG_A then 0x8 else if t =? REG_B then 0x9
      else if t =? REG_CCR then 0xA else if t =? REG_DPR then 0xB else 0xF
  | _ => 0xF
  end.
(** m6809_parse_instr.c:211-235 handleRegToReg, which reads its operands itself. *)
Definition handleRegToReg (base : Z) (ts : list token) (st : xstate) : res (bool * list token * xstate) :=
  let! st1 := sect_OutputConst8 base st in
  let r1 := parseExgRegister ts in
  if r1 =? 0xF then Ok (true, ts, err_Error ERROR_FIRST_OPERAND st1) else
  match ts with
  | _ :: TComma :: r =>
      let r2 := parseExgRegister r in
      if r2 =? 0xF then Ok (true, r, err_Error ERROR_SECOND_OPERAND st1) else
      match r with
      | _ :: rest =>
          if Z.land r1 0x8 =? Z.land r2 0x8 then
            let! st2 := sect_OutputConst8 (Z.lor (Z.shiftl r1 4) r2) st1 in Ok (true, rest, st2)
          else Ok (true, rest, err_Error MERROR_SAME_SIZE_REGISTER st1)
      | [] => Ok (true, r, st1)
      end
  | _ :: r => Ok (true, r, err_Error ERROR_CHAR_EXPECTED st1)
  | [] => Ok (true, ts, st1)
  end.
(** m6809_parse_instr.c:237-242 handleStack. *)
Definition handleStack (base : Z) (a : amode) (st : xstate) : handled :=
  let! st1 := sect_OutputConst8 base st in done (sect_OutputConst8 (am_post a) st1).

Inductive handler : Type :=
| HOpcodeQ | HOpcodeP8 | HOpcodeT16 | HOpcodeP16 | HOpcodeP16Page1 | HOpcodeP16Page2 | HImplied | HImpliedPage1 | HImpliedPage2
| HImm8 | HBcc | HLBcc | HLBRA | HRegToReg | HStack.
Definition apply_handler (h : handler) (base : Z) (a : amode) (ts : list token) (st : xstate) : res (bool * list token * xstate) :=
  let out (r : handled) := let! (b, st1) := r in Ok (b, ts, st1) in
  match h with
  | HOpcodeQ => out (handleOpcodeQ base a st)
  | HOpcodeP8 => out (handleOpcodeP8 base a st)
  | HOpcodeT16 => out (handleOpcodeT16 base a st)
  | HOpcodeP16 => out (handleOpcodeP16 base a st)
  | HOpcodeP16Page1 => out (paged PAGE1 (handleOpcodeP16 base a) st)
  | HOpcodeP16Page2 => out (paged PAGE2 (handleOpcodeP16 base a) st)
  | HImplied => out (handleImplied base st)
  | HImpliedPage1 => out (paged PAGE1 (handleImplied base) st)
  | HImpliedPage2 => out (paged PAGE2 (handleImplied base) st)
  | HImm8 => out (handleImm8 base a st)
  | HBcc => out (handleBcc base a st)
  | HLBcc => out (paged PAGE1 (handleLBRA base a) st)
  | HLBRA => out (handleLBRA base a st)
  | HRegToReg => handleRegToReg base ts st
  | HStack => out (handleStack base a st)
  end.
(** m6809_parse_instr.c:244-394 g_instructionHandlers. *)
Definition g_instructionHandlers : list (Z * Z * handler) :=
  [
   (0x3A, MODE_NONE, HImplied); (0x89, MODE_P, HOpcodeP8); (0xC9, MODE_P, HOpcodeP8); (0x8B, MODE_P, HOpcodeP8);
   (0xCB, MODE_P, HOpcodeP8); (0xC3, MODE_P, HOpcodeP16); (0x84, MODE_P, HOpcodeP8); (0xC4, MODE_P, HOpcodeP8);
   (0x1C, MODE_IMMEDIATE, HImm8); (0x08, MODE_Q, HOpcodeQ); (0x48, MODE_NONE, HImplied); (0x58, MODE_NONE, HImplied);
   (0x07, MODE_Q, HOpcodeQ); (0x47, MODE_NONE, HImplied); (0x57, MODE_NONE, HImplied); (0x20, MODE_ADDRESS, HBcc);
   (0x21, MODE_ADDRESS, HBcc); (0x22, MODE_ADDRESS, HBcc); (0x23, MODE_ADDRESS, HBcc); (0x24, MODE_ADDRESS, HBcc);
   (0x25, MODE_ADDRESS, HBcc); (0x26, MODE_ADDRESS, HBcc); (0x27, MODE_ADDRESS, HBcc); (0x28, MODE_ADDRESS, HBcc);
   (0x29, MODE_ADDRESS, HBcc); (0x2A, MODE_ADDRESS, HBcc); (0x2B, MODE_ADDRESS, HBcc); (0x2C, MODE_ADDRESS, HBcc);
   (0x2D, MODE_ADDRESS, HBcc); (0x2E, MODE_ADDRESS, HBcc); (0x2F, MODE_ADDRESS, HBcc); (0x8D, MODE_ADDRESS, HBcc);
   (0x16, MODE_ADDRESS, HLBRA); (0x21, MODE_ADDRESS, HLBcc); (0x22, MODE_ADDRESS, HLBcc); (0x23, MODE_ADDRESS, HLBcc);
   (0x24, MODE_ADDRESS, HLBcc); (0x25, MODE_ADDRESS, HLBcc); (0x26, MODE_ADDRESS, HLBcc); (0x27, MODE_ADDRESS, HLBcc);
   (0x28, MODE_ADDRESS, HLBcc); (0x29, MODE_ADDRESS, HLBcc); (0x2A, MODE_ADDRESS, HLBcc); (0x2B, MODE_ADDRESS, HLBcc);
   (0x2C, MODE_ADDRESS, HLBcc); (0x2D, MODE_ADDRESS, HLBcc); (0x2E, MODE_ADDRESS, HLBcc); (0x2F, MODE_ADDRESS, HLBcc);
   (0x17, MODE_ADDRESS, HLBRA); (0x85, MODE_P, HOpcodeP8); (0xC5, MODE_P, HOpcodeP8); (0x0F, MODE_Q, HOpcodeQ);
   (0x4F, MODE_NONE, HImplied); (0x5F, MODE_NONE, HImplied); (0x81, MODE_P, HOpcodeP8); (0xC1, MODE_P, HOpcodeP8);
   (0x83, MODE_P, HOpcodeP16Page1); (0x8C, MODE_P, HOpcodeP16); (0x8C, MODE_P, HOpcodeP16Page1);
   (0x83, MODE_P, HOpcodeP16Page2); (0x8C, MODE_P, HOpcodeP16Page2); (0x03, MODE_Q, HOpcodeQ); (0x43, MODE_NONE, HImplied);
   (0x53, MODE_NONE, HImplied); (0x3C, MODE_IMMEDIATE, HImm8); (0x19, MODE_NONE, HImplied); (0x0A, MODE_Q, HOpcodeQ);
   (0x4A, MODE_NONE, HImplied); (0x5A, MODE_NONE, HImplied); (0x88, MODE_P, HOpcodeP8); (0xC8, MODE_P, HOpcodeP8);
   (0x1E, MODE_NONE, HRegToReg); (0x0C, MODE_Q, HOpcodeQ); (0x4C, MODE_NONE, HImplied); (0x5C, MODE_NONE, HImplied);
   (0x0E, (MODE_ADDRESS + MODE_DIRECT + MODE_EXTENDED + MODE_ALL_INDEXED), HOpcodeQ);
   (0x8D, (MODE_ADDRESS + MODE_DIRECT + MODE_EXTENDED + MODE_ALL_INDEXED), HOpcodeP16); (0x86, MODE_P, HOpcodeP8);
   (0xC6, MODE_P, HOpcodeP8); (0xCC, MODE_P, HOpcodeP16); (0x8E, MODE_P, HOpcodeP16); (0x8E, MODE_P, HOpcodeP16Page1);
   (0xCE, MODE_P, HOpcodeP16); (0xCE, MODE_P, HOpcodeP16Page1); (0x30, MODE_T, HOpcodeT16); (0x31, MODE_T, HOpcodeT16);
   (0x33, MODE_T, HOpcodeT16); (0x32, MODE_T, HOpcodeT16); (0x04, MODE_Q, HOpcodeQ); (0x3D, MODE_NONE, HImplied);
   (0x00, MODE_Q, HOpcodeQ); (0x40, MODE_NONE, HImplied); (0x50, MODE_NONE, HImplied); (0x8A, MODE_P, HOpcodeP8);
   (0xCA, MODE_P, HOpcodeP8); (0x1A, MODE_IMMEDIATE, HImm8); (0x34, (MODE_IMMEDIATE + MODE_REGISTER_LIST_U), HStack);
   (0x36, (MODE_IMMEDIATE + MODE_REGISTER_LIST_S), HStack); (0x35, (MODE_IMMEDIATE + MODE_REGISTER_LIST_U), HStack);
   (0x37, (MODE_IMMEDIATE + MODE_REGISTER_LIST_S), HStack); (0x09, MODE_P, HOpcodeQ); (0x49, MODE_NONE, HImplied);
   (0x59, MODE_NONE, HImplied); (0x06, MODE_P, HOpcodeQ); (0x46, MODE_NONE, HImplied); (0x56, MODE_NONE, HImplied);
   (0x3B, MODE_NONE, HImplied); (0x39, MODE_NONE, HImplied); (0x82, MODE_P, HOpcodeP8); (0xC2, MODE_P, HOpcodeP8);
   (0x1D, MODE_NONE, HImplied); (0x87, (MODE_ADDRESS + MODE_EXTENDED + MODE_DIRECT + MODE_ALL_INDEXED), HOpcodeP8);
   (0xC7, (MODE_ADDRESS + MODE_EXTENDED + MODE_DIRECT + MODE_ALL_INDEXED), HOpcodeP8);
   (0xCD, (MODE_ADDRESS + MODE_EXTENDED + MODE_DIRECT + MODE_ALL_INDEXED), HOpcodeP16);
   (0x8F, (MODE_ADDRESS + MODE_EXTENDED + MODE_DIRECT + MODE_ALL_INDEXED), HOpcodeP16);
   (0x8F, (MODE_ADDRESS + MODE_EXTENDED + MODE_DIRECT + MODE_ALL_INDEXED), HOpcodeP16Page1);
   (0xCF, (MODE_ADDRESS + MODE_EXTENDED + MODE_DIRECT + MODE_ALL_INDEXED), HOpcodeP16);
   (0xCF, (MODE_ADDRESS + MODE_EXTENDED + MODE_DIRECT + MODE_ALL_INDEXED), HOpcodeP16Page1); (0x80, MODE_P, HOpcodeP8);
   (0xC0, MODE_P, HOpcodeP8); (0x83, MODE_P, HOpcodeP16); (0x3F, MODE_NONE, HImplied); (0x3F, MODE_NONE, HImpliedPage1);
   (0x3F, MODE_NONE, HImpliedPage2); (0x13, MODE_NONE, HImplied); (0x1F, MODE_NONE, HRegToReg); (0x0D, MODE_Q, HOpcodeQ);
   (0x4D, MODE_NONE, HImplied); (0x5D, MODE_NONE, HImplied); (0x12, MODE_NONE, HImplied)].
(** The direct page: its base address if it is known (m6809_parse.h:72-73). *)
Definition dpage : Type := option Z.
(** m6809_parse_instr.c:405-412. *)
Definition chosen (dp : dpage) (a : amode) : amode :=
  if am_mode a =? MODE_ADDRESS then
    match dp with
    | Some base => if expr_IsConstant (am_expr a) && (Z.land (e_v (am_expr a)) 0xFF00 =? base)
                   then set_mode MODE_DIRECT a else set_mode MODE_EXTENDED a
    | None => set_mode MODE_EXTENDED a
    end
  else a.
(** m6809_parse_instr.c:396-420 m6809_ParseIntegerInstruction.  [junk] is what the
    addressing mode holds before, which is not initialised. *)
Definition m6809_ParseIntegerInstruction (dp : dpage) (junk : amode) (ts : list token) (st : xstate) : res (bool * list token * xstate) :=
  match ts with
  | TId t :: r =>
      if (T_6809_ABX <=? t) && (t <=? T_6809_NOP) then
        match nth_error g_instructionHandlers (Z.to_nat (t - T_6809_ABX)) with
        | Some (base, allowed, h) =>
            let '(ok, a, r1, st1) := m6809_ParseAddressingMode junk allowed r st in
            if ok then apply_handler h base (chosen dp a) r1 st1
            else Ok (false, r1, err_Error MERROR_ILLEGAL_ADDRMODE st1)
        | None => UB
        end
      else Ok (false, ts, st)
  | _ => Ok (false, ts, st)
  end.
(** m6809_parse_directive.c:32-69 handleSETDP and m6809_ParseDirective. *)
Definition m6809_ParseDirective (dp : dpage) (ts : list token) (st : xstate) : bool * dpage * list token * xstate :=
  match ts with
  | TId t :: r =>
      if t =? T_6809_SETDP then
        let (e, r1) := parse_Expression r in
        if isNull e then (true, None, r1, st) else
        if expr_IsConstant e then
          if (0 <=? e_v e) && (e_v e <=? 0xFF) then (true, Some (Z.shiftl (e_v e) 8), r1, st)
          else (false, dp, r1, err_Error ERROR_OPERAND_RANGE st)
        else (false, dp, r1, err_Error ERROR_EXPR_CONST st)
      else (false, dp, ts, st)
  | _ => (false, dp, ts, st)
  end.
(** m6809_parse.c:34-42 m6809_ParseInstruction. *)
Definition m6809_ParseInstruction (dp : dpage) (junk : amode) (ts : list token) (st : xstate) : res (bool * dpage * list token * xstate) :=
  let! (b, ts1, st1) := m6809_ParseIntegerInstruction dp junk ts st in
  if b then Ok (true, dp, ts1, st1) else Ok (m6809_ParseDirective dp ts1 st1).
End Instr.
