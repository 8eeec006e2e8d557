(** Model of the RC811 instruction parser: /repo/xasm/rc8/rc8_parse_instr.c, rc8_parse.c,
    rc8_tokens.c, rc8_tokens.h and rc8_errors.h. *)
From Coq Require Import ZArith List Bool String.
From Verif Require Import Base Arith ExprModel ObjWriteModel OptModel SectModel.
Import ListNotations.
Open Scope string_scope.
Open Scope list_scope.
Open Scope Z_scope.

(** errors.h:24-103 EError and rc8_errors.h:22-28 EMachineError. *)
Definition ERROR_OPERAND : Z := 107.
Definition MERROR_ILLEGAL_ADDRMODE : Z := 1000.
Definition MERROR_EXPECTED_CONDITION_CODE : Z := 1001.
Definition MERROR_REQUIRES_SYNTHESIZED : Z := 1002.
Definition MERROR_SHIFT_COUNT_RANGE : Z := 1004.

(** rc8_tokens.h:22-98 ETargetToken. *)
Definition T_RC8_ADD : Z := 6000.
Definition T_RC8_XOR : Z := 6032.
Definition T_RC8_REG_F : Z := 6033.
Definition T_RC8_REG_C : Z := 6036.
Definition T_RC8_REG_FT : Z := 6041.
Definition T_RC8_REG_HL : Z := 6044.
Definition T_RC8_REG_FT_IND : Z := 6046.
Definition T_RC8_REG_HL_IND_PRE_DEC : Z := 6057.
Definition T_RC8_CC_LE : Z := 6058.
Definition T_RC8_CC_NE : Z := 6067.
(** rc8_tokens.c:24-102 g_tokens. *)
Definition g_tokens : list (string * Z) :=
  [("ADD", 6000); ("AND", 6001); ("CMP", 6002); ("DI", 6003); ("DJ", 6004); ("EI", 6005); ("EXG", 6006); ("EXT", 6007);
   ("J", 6008); ("JAL", 6009); ("LCO", 6010); ("LCR", 6011); ("LD", 6012); ("LIO", 6013); ("LS", 6014); ("NEG", 6015);
   ("NOP", 6016); ("NOT", 6017); ("OR", 6018); ("PICK", 6019); ("POP", 6020); ("POPA", 6021); ("PUSH", 6022);
   ("PUSHA", 6023); ("RETI", 6024); ("RS", 6025); ("RSA", 6026); ("SUB", 6027); ("SWAP", 6028); ("SWAPA", 6029);
   ("SYS", 6030); ("TST", 6031); ("XOR", 6032);
   ("F", 6033); ("T", 6034); ("B", 6035); ("C", 6036); ("D", 6037); ("E", 6038); ("H", 6039); ("L", 6040);
   ("FT", 6041); ("BC", 6042); ("DE", 6043); ("HL", 6044); ("(C)", 6045);
   ("(FT)", 6046); ("(BC)", 6047); ("(DE)", 6048); ("(HL)", 6049);
   ("(FT+)", 6050); ("(BC+)", 6051); ("(DE+)", 6052); ("(HL+)", 6053);
   ("(-FT)", 6054); ("(-BC)", 6055); ("(-DE)", 6056); ("(-HL)", 6057);
   ("EQ", 6066); ("NE", 6067); ("LE", 6058); ("GT", 6059); ("LT", 6060); ("GE", 6061); ("LEU", 6062); ("GTU", 6063);
   ("LTU", 6064); ("GEU", 6065); ("Z", 6066); ("NZ", 6067); ("NC", 6065)].

(** The rest of a source line: words that are keywords, punctuation, and text that
    parse_Expression consumes, with the expression it gives.  Anything else is [TOther];
    at anything but [TExpr] parse_Expression consumes nothing and gives no expression. *)
Inductive token : Type := TId (id : Z) | TComma | TDiv | TMinus | TLp | TRp | TExpr (e : expr) | TOther.
Fixpoint assoc (s : string) (l : list (string * Z)) : token :=
  match l with [] => TOther | (k, v) :: r => if String.eqb s k then TId v else assoc s r end.
(** Source text.  Simplification: words are in upper case. *)
Inductive piece : Type := Word (s : string) | Comma | Slash | Dash | Lp | Rp | Operand (e : expr).
Definition lex1 (p : piece) : token :=
  match p with
  | Word s => assoc s g_tokens | Comma => TComma | Slash => TDiv | Dash => TMinus | Lp => TLp | Rp => TRp | Operand e => TExpr e
  end.
Definition lex (l : list piece) : list token := map lex1 l.

(** rc8_parse_instr.c:34-71: operand modes. *)
Definition MODE_REG_F : Z := 0x1.
Definition MODE_REG_T : Z := 0x2.
Definition MODE_REG_FT : Z := 0x100.
Definition MODE_IND_FT : Z := 0x1000.
Definition MODE_IND_FT_POST_INC : Z := 0x10000.
Definition MODE_IND_BCDEHL_POST_INC : Z := 0x20000.
Definition MODE_IND_FT_PRE_DEC : Z := 0x40000.
Definition MODE_IND_BCDEHL_PRE_DEC : Z := 0x80000.
Definition MODE_IND_C : Z := 0x100000.
Definition MODE_IMM : Z := 0x200000.
Definition MODE_ADDR : Z := 0x400000.
Definition MODE_REGISTER_MASK : Z := 0x800000.
Definition MODE_NONE : Z := 0x1000000.
Definition MODE_REG_8BIT : Z := 0xFF.
Definition MODE_REG_8BIT_FBCDEHL : Z := 0xFD.
Definition MODE_REG_8BIT_BCDEHL : Z := 0xFC.
Definition MODE_REG_16BIT : Z := 0xF00.
Definition MODE_REG_16BIT_BCDEHL : Z := 0xE00.
Definition MODE_IND_16BIT : Z := 0xF000.
Definition MODE_IND_16BIT_BCDEHL : Z := 0xE000.
Definition MODE_IND_16BIT_INC_DEC : Z := 0xF0000.
Definition orl (l : list Z) : Z := fold_right Z.lor 0 l.
Definition has (mode flags : Z) : bool := negb (Z.land mode flags =? 0).
(** rc8_parse_instr.c:73-87 EConditionCode. *)
Definition CC_LTU : Z := 6.
Definition CC_ALWAYS : Z := 10.
(** rc8_parse_instr.c:94-98 SAddressingMode; where the code leaves a field unset it is
    not used. *)
Record amode : Type := AMode { am_mode : Z; am_reg : Z; am_expr : expr }.
Definition no_mode : amode := AMode MODE_NONE 0 ENull.

(** What an instruction does to the section, in order: a byte, an expression of a byte, a
    relative address of a byte, an error.  Simplification: the model first lists what is
    done and [perform] does it; in between only expr_PcRelative looks at the section, and
    it is part of what [perform] does.  Warnings are left out. *)
Inductive item : Type := Byte (z : Z) | Value (e : expr) | Relative (e : expr) | Error (n : Z).
Definition outcome : Type := res (bool * list item).
Definition sect_Current (st : xstate) : option asect :=
  match x_current st with
  | None => None
  | Some k => match nth_error (x_sections st) k with None => None | Some m => Some (ws_sect (m_w m)) end
  end.
Fixpoint perform (F : fmath) (l : list item) (st : xstate) : res xstate :=
  match l with
  | [] => Ok st
  | i :: r =>
      let! st1 := match i with
                  | Byte z => sect_OutputConst8 z st
                  | Value e => sect_OutputExpr8 e st
                  | Relative e => let! e1 := expr_PcRelative F (sect_Current st) e 0 in
                                  let! (e2, st2) := range_checked e1 (-128) 127 st in sect_OutputExpr8 e2 st2
                  | Error n => Ok (err_Error n st)
                  end in
      perform F r st1
  end.
(** expression.c:358-368 expr_CheckRange: the expression, or zero and a report. *)
Definition check_range (e : expr) (low high : Z) : res (expr * list item) :=
  if isNull e then Err else
  match expr_CheckRange e low high with
  | Ok e1 => Ok (e1, [])
  | Err => Ok (expr_Const 0, [Error ERROR_OPERAND_RANGE])
  | UB => UB
  end.

Section Handlers.
Variable F : fmath.
(** rc8_options.c: enableSynthInstructions, which is always on. *)
Variable synth : bool.
Definition bin (o : op) (a b : expr) : res expr := expr_Binary F o a b.

(** rc8_parse_instr.c:117-123 invertCondition. *)
Definition invertCondition (cc : Z) : Z := if cc =? CC_ALWAYS then CC_ALWAYS else Z.lxor cc 1.
(** rc8_parse_instr.c:125-129 handle_OpcodeRegister; the byte is the low one. *)
Definition opreg (base : Z) (m : amode) : item := Byte (Z.lor base (am_reg m)).
Definition done (l : list item) : outcome := Ok (true, l).
Definition refuse (n : Z) : outcome := Ok (false, [Error n]).
Definition no : outcome := Ok (false, []).
(** rc8_parse_instr.c:131-155 handle_Op_Reg_Imm. *)
Definition handle_Op_Reg_Imm (base low high : Z) (dest : option amode) (e : expr) : outcome :=
  let! (e1, w) := check_range e low high in
  let! e2 := bin OpAnd e1 (expr_Const 0xFF) in
  done (w ++ [match dest with None => Byte base | Some m => opreg base m end; Value e2]).
(** rc8_parse_instr.c:157-164 registerPair. *)
Definition high (m : amode) : amode := AMode (Z.shiftl MODE_REG_F (am_reg m * 2)) (am_reg m * 2) ENull.
Definition low (m : amode) : amode := AMode (Z.shiftl MODE_REG_T (am_reg m * 2)) (am_reg m * 2 + 1) ENull.
(** rc8_parse_instr.c:181-191 ensureSource. *)
Definition ensureSource (d s : amode) : amode * amode := if am_mode s =? MODE_NONE then (s, d) else (d, s).

(** rc8_parse_instr.c:193-356 handle_LongLoad. *)
Definition EXG_F_T : item := Byte 0x10.
Definition add (m : amode) (n : Z) : list item := [opreg 0xBC m; Byte n].
Definition handle_LongLoad (ld_t_hl ld_hl_t ld_r_ft ld_ft_r : Z) (d s : amode) : outcome :=
  let dm := am_mode d in let sm := am_mode s in
  let given x := negb (x =? 0xFF) in
  if negb synth then no
  else if given ld_t_hl && (dm =? MODE_REG_FT) && has sm MODE_IND_16BIT_BCDEHL then
    done ([opreg ld_t_hl s] ++ add s 1 ++ [EXG_F_T; opreg ld_t_hl s] ++ add s (-1) ++ [EXG_F_T])
  else if given ld_hl_t && has dm MODE_IND_16BIT_BCDEHL && (sm =? MODE_REG_FT) then
    done ([opreg ld_hl_t d] ++ add d 1 ++ [EXG_F_T; opreg ld_hl_t d] ++ add d (-1) ++ [EXG_F_T])
  else if given ld_t_hl && (dm =? MODE_REG_FT) && has sm MODE_IND_BCDEHL_POST_INC then
    done ([opreg ld_t_hl s] ++ add s 1 ++ [EXG_F_T; opreg ld_t_hl s; EXG_F_T])
  else if given ld_t_hl && (dm =? MODE_REG_T) && has sm MODE_IND_BCDEHL_POST_INC then
    done ([opreg ld_t_hl s] ++ add s 1)
  else if given ld_hl_t && has dm MODE_IND_BCDEHL_POST_INC && (sm =? MODE_REG_FT) then
    done ([opreg ld_hl_t d] ++ add d 1 ++ [EXG_F_T; opreg ld_hl_t d; EXG_F_T])
  else if given ld_hl_t && has dm MODE_IND_BCDEHL_POST_INC && (sm =? MODE_REG_T) then
    done ([opreg ld_hl_t d] ++ add d 1)
  else if given ld_t_hl && (dm =? MODE_REG_FT) && has sm MODE_IND_BCDEHL_PRE_DEC then
    done ([opreg ld_t_hl s] ++ add s (-1) ++ [EXG_F_T; opreg ld_t_hl s])
  else if given ld_t_hl && (dm =? MODE_REG_T) && has sm MODE_IND_BCDEHL_PRE_DEC then
    done (add s (-1) ++ [opreg ld_t_hl s])
  else if given ld_hl_t && has dm MODE_IND_BCDEHL_PRE_DEC && (sm =? MODE_REG_FT) then
    done ([EXG_F_T; opreg ld_hl_t d] ++ add d (-1) ++ [EXG_F_T; opreg ld_hl_t d])
  else if given ld_hl_t && has dm MODE_IND_BCDEHL_PRE_DEC && (sm =? MODE_REG_T) then
    done (add d (-1) ++ [opreg ld_hl_t d])
  else if given ld_r_ft && has dm MODE_REG_16BIT_BCDEHL && (sm =? MODE_IND_FT) then
    done ([opreg ld_r_ft (low d)] ++ add s 1 ++ [opreg ld_r_ft (high d)] ++ add s (-1))
  else if given ld_ft_r && (dm =? MODE_IND_FT) && has sm MODE_REG_16BIT_BCDEHL then
    done ([opreg ld_ft_r (low s)] ++ add d 1 ++ [opreg ld_ft_r (high s)] ++ add d (-1))
  else if given ld_r_ft && has dm MODE_REG_16BIT_BCDEHL && (sm =? MODE_IND_FT_POST_INC) then
    done ([opreg ld_r_ft (low d)] ++ add s 1 ++ [opreg ld_r_ft (high d)])
  else if given ld_r_ft && has dm MODE_REG_8BIT_FBCDEHL && (sm =? MODE_IND_FT_POST_INC) then
    done ([opreg ld_r_ft d] ++ add s 1)
  else if given ld_ft_r && (dm =? MODE_IND_FT_POST_INC) && has sm MODE_REG_16BIT_BCDEHL then
    done ([opreg ld_ft_r (low s)] ++ add d 1 ++ [opreg ld_ft_r (high s)])
  else if given ld_ft_r && (dm =? MODE_IND_FT_POST_INC) && has sm MODE_REG_8BIT_FBCDEHL then
    done ([opreg ld_ft_r s] ++ add d 1)
  else if given ld_r_ft && has dm MODE_REG_16BIT_BCDEHL && (sm =? MODE_IND_FT_PRE_DEC) then
    done ([opreg ld_r_ft (high d)] ++ add s (-1) ++ [opreg ld_r_ft (low d)])
  else if given ld_r_ft && has dm MODE_REG_8BIT_FBCDEHL && (sm =? MODE_IND_FT_PRE_DEC) then
    done (add s (-1) ++ [opreg ld_r_ft d])
  else if given ld_ft_r && (dm =? MODE_IND_FT_PRE_DEC) && has sm MODE_REG_16BIT_BCDEHL then
    done ([opreg ld_ft_r (high s)] ++ add d (-1) ++ [opreg ld_ft_r (low s)])
  else if given ld_ft_r && (dm =? MODE_IND_FT_PRE_DEC) && has sm MODE_REG_8BIT_FBCDEHL then
    done (add d (-1) ++ [opreg ld_ft_r s])
  else no.

(** rc8_parse_instr.c:358-402 handle_ADD.  The results of the two parts of a long addition
    are not looked at. *)
Definition handle_ADD (d0 s0 : amode) : outcome :=
  let (d, s) := ensureSource d0 s0 in
  let dm := am_mode d in let sm := am_mode s in
  if has dm (Z.lor MODE_REG_T MODE_NONE) && has sm MODE_REG_8BIT then done [opreg 0x40 s]
  else if has dm (Z.lor MODE_REG_FT MODE_NONE) && has sm MODE_REG_16BIT then
    if (dm =? MODE_REG_FT) && (sm =? MODE_REG_FT) then refuse ERROR_OPERAND else done [opreg 0xF4 s]
  else if has dm MODE_REG_8BIT && has sm MODE_IMM then handle_Op_Reg_Imm 0xA0 (-128) 255 (Some d) (am_expr s)
  else if has dm MODE_REG_16BIT && has sm MODE_IMM then
    let! (e0, w) := check_range (am_expr s) (-32768) 65535 in
    let! e1 := bin OpAsl e0 (expr_Const 16) in
    let! e := bin OpAsr e1 (expr_Const 16) in
    if expr_IsConstant (am_expr s) && ((-128 <=? e_v e) && (e_v e <=? 127)) then
      let! (ok, l) := handle_Op_Reg_Imm 0xBC (-128) 127 (Some d) e in Ok (ok, w ++ l)
    else if negb synth then Ok (false, w ++ [Error MERROR_REQUIRES_SYNTHESIZED])
    else
      let! l1 := bin OpAsl e (expr_Const 24) in
      let! lo := bin OpAsr l1 (expr_Const 24) in
      let! adjust := bin OpAsr lo (expr_Const 8) in
      let! h1 := bin OpAsr e (expr_Const 8) in
      let! hi := bin OpSub h1 adjust in
      let! (_, a) := if negb (expr_IsConstant lo) || negb (e_v lo =? 0) then handle_Op_Reg_Imm 0xBC (-128) 127 (Some d) lo else no in
      let! (_, b) := if negb (expr_IsConstant hi) || negb (e_v hi =? 0) then handle_Op_Reg_Imm 0xA0 (-128) 127 (Some (high d)) hi else no in
      done (w ++ a ++ b)
  else no.
(** rc8_parse_instr.c:404-423 handle_Bitwise. *)
Definition handle_Bitwise (base : Z) (d0 s0 : amode) : outcome :=
  let (d, s) := ensureSource d0 s0 in
  if has (am_mode s) MODE_REG_8BIT_FBCDEHL && has (am_mode d) (Z.lor MODE_NONE MODE_REG_T) then done [opreg base s]
  else if has (am_mode s) MODE_IMM && has (am_mode d) (Z.lor MODE_NONE MODE_REG_T) then
    handle_Op_Reg_Imm (0xB0 + Z.land (Z.shiftr base 3) 3) (-128) 255 None (am_expr s)
  else no.
(** rc8_parse_instr.c:425-456 handle_EXG. *)
Definition handle_EXG (base : Z) (d0 s0 : amode) : outcome :=
  let (d, s) := ensureSource d0 s0 in
  let dm := am_mode d in let sm := am_mode s in
  if has dm MODE_REG_8BIT_FBCDEHL && has sm MODE_REG_T then done [opreg base d]
  else if has sm MODE_REG_8BIT_FBCDEHL && has dm (Z.lor MODE_NONE MODE_REG_T) then done [opreg base s]
  else if has sm MODE_REG_8BIT_FBCDEHL && has dm MODE_REG_8BIT_FBCDEHL then
    if negb synth then refuse MERROR_REQUIRES_SYNTHESIZED else done [opreg base s; opreg base d; opreg base s]
  else if has dm MODE_REG_16BIT_BCDEHL && has sm MODE_REG_FT then done [opreg 0xC8 d]
  else if has sm MODE_REG_16BIT_BCDEHL && has dm (Z.lor MODE_NONE MODE_REG_FT) then done [opreg 0xC8 s]
  else if has sm MODE_REG_16BIT_BCDEHL && has dm MODE_REG_16BIT_BCDEHL then
    if negb synth then refuse MERROR_REQUIRES_SYNTHESIZED else done [opreg 0xC8 s; opreg 0xC8 d; opreg 0xC8 s]
  else no.
(** rc8_parse_instr.c:458-487 handle_Implicit, handle_JumpRelative, handle_JumpRelativeCC,
    handle_DJ. *)
Definition handle_Implicit (base : Z) : outcome := done [Byte base].
Definition handle_JumpRelative (opcode : Z) (e : expr) : list item := [Byte opcode; Relative e].
Definition handle_DJ (base : Z) (d s : amode) : outcome := done (handle_JumpRelative (base + am_reg d) (am_expr s)).
(** rc8_parse_instr.c:489-508 handle_J. *)
Definition handle_J (base cc : Z) (d s : amode) : outcome :=
  if (am_mode d =? MODE_ADDR) && (am_mode s =? MODE_NONE) then done (handle_JumpRelative (0x90 + cc) (am_expr d))
  else if has (am_mode d) MODE_IND_16BIT && (am_mode s =? MODE_NONE) then
    if negb (cc =? CC_ALWAYS) then
      if negb synth then refuse MERROR_REQUIRES_SYNTHESIZED
      else done [Byte (0x90 + invertCondition cc); Byte 2; opreg base d]
    else done [opreg base d]
  else no.
(** rc8_parse_instr.c:510-526 handle_LCO and handle_LCR. *)
Definition handle_LCO (base : Z) (d s : amode) : outcome :=
  if has (am_mode s) MODE_IND_16BIT_INC_DEC then handle_LongLoad 0x0C 0xFF 0xFF 0xFF d s else done [opreg base s].
Definition handle_LCR (base : Z) (d s : amode) : outcome :=
  if (am_mode d =? MODE_IND_C) && (am_mode s =? MODE_REG_T) then handle_Implicit base
  else if (am_mode d =? MODE_REG_T) && (am_mode s =? MODE_IND_C) then handle_Implicit (base + 1)
  else no.
(** rc8_parse_instr.c:528-586 handle_LD_R8_const, handle_LD_R16_3bytes,
    handle_LD_R16_4bytes, handle_LD_R16_imm. *)
Definition handle_LD_R16_imm (d : amode) (e : expr) : outcome :=
  let! (e1, w) := check_range e (-32768) 65535 in
  if expr_IsConstant e1 then
    let v := u16 (e_v e1) in
    let h := Z.shiftr v 8 in let lo := Z.land v 0xFF in
    if (am_reg (high d) =? 0) && (am_reg (low d) =? 1) &&
       (((h =? 0xFF) && has lo 0x80) || ((h =? 0) && negb (has lo 0x80))) then
      done (w ++ [opreg 0x80 (low d); Byte lo; Byte 0x49])
    else if (am_reg (high d) =? 0) && (am_reg (low d) =? 1) && (h =? lo) then
      done (w ++ [opreg 0x80 (low d); Byte lo; Byte 0x78])
    else done (w ++ [opreg 0x80 (high d); Byte h; opreg 0x80 (low d); Byte lo])
  else
    let! h := bin OpAsr e1 (expr_Const 8) in
    let! lo := bin OpAnd e1 (expr_Const 0xFF) in
    let! (_, a) := handle_Op_Reg_Imm 0x80 0 255 (Some (high d)) h in
    let! (ok, b) := handle_Op_Reg_Imm 0x80 0 255 (Some (low d)) lo in
    Ok (ok, w ++ a ++ b).
(** rc8_parse_instr.c:588-614 handle_LD. *)
Definition handle_LD (d s : amode) : outcome :=
  let dm := am_mode d in let sm := am_mode s in
  if has dm MODE_REG_8BIT && (sm =? MODE_IMM) then handle_Op_Reg_Imm 0x80 (-128) 255 (Some d) (am_expr s)
  else if has dm MODE_REG_16BIT && (sm =? MODE_IMM) && synth then handle_LD_R16_imm d (am_expr s)
  else if has dm MODE_IND_16BIT_BCDEHL && (sm =? MODE_REG_T) then done [opreg 0x00 d]
  else if (dm =? MODE_IND_FT) && has sm MODE_REG_8BIT_BCDEHL then done [opreg 0x20 s]
  else if (dm =? MODE_REG_T) && has sm MODE_IND_16BIT then done [opreg 0x04 s]
  else if has dm MODE_REG_8BIT_FBCDEHL && (sm =? MODE_IND_FT) then done [opreg 0x28 d]
  else if has dm MODE_REG_8BIT_FBCDEHL && (sm =? MODE_REG_T) then done [opreg 0x78 d]
  else if (dm =? MODE_REG_T) && has sm MODE_REG_8BIT_FBCDEHL then done [opreg 0x58 s]
  else if has dm MODE_REG_16BIT_BCDEHL && (sm =? MODE_REG_FT) then done [opreg 0xD0 d]
  else if (dm =? MODE_REG_FT) && has sm MODE_REG_16BIT_BCDEHL then done [opreg 0xD8 s]
  else handle_LongLoad 0x04 0x00 0x28 0x20 d s.
(** rc8_parse_instr.c:616-642 handle_JAL and handle_LIO. *)
Definition handle_JAL (base : Z) (d s : amode) : outcome :=
  if (am_mode d =? MODE_ADDR) && synth then
    let! (ok, l) := handle_LD_R16_imm (AMode 0x800 3 ENull) (am_expr d) in
    Ok (ok, if ok then l ++ [Byte (base + 3)] else l)
  else if has (am_mode d) MODE_IND_16BIT then done [opreg base d]
  else no.
Definition handle_LIO (base : Z) (d s : amode) : outcome :=
  let dm := am_mode d in let sm := am_mode s in
  if has sm MODE_IND_16BIT_INC_DEC || has dm MODE_IND_16BIT_INC_DEC then handle_LongLoad 0x34 0x31 0xFF 0xFF d s
  else if has dm MODE_IND_16BIT_BCDEHL && (sm =? MODE_REG_T) then done [opreg base d]
  else if (dm =? MODE_REG_T) && has sm MODE_IND_16BIT then done [opreg (base + 4) s]
  else no.
(** rc8_parse_instr.c:644-709 bitsSet2, bitsSet4, outputStackOps, handle_RegisterStack.  A
    mask has four bits.  The assertion is off unless there are two to four registers. *)
Definition bit (v n : Z) : Z := Z.land (Z.shiftr v n) 1.
Definition bitsSet4 (v : Z) : Z := bit v 0 + bit v 1 + (bit v 2 + bit v 3).
Definition outputStackOps (base mask : Z) : list item :=
  List.concat (map (fun n => if bit mask n =? 1 then [Byte (base + n)] else []) [0; 1; 2; 3]).
Definition handle_RegisterStack (base : Z) (d : amode) : outcome :=
  if am_mode d =? MODE_REGISTER_MASK then
    if negb synth then refuse MERROR_REQUIRES_SYNTHESIZED
    else
      let isPop := base =? 0xC4 in
      let isSwap := base =? 0xDC in
      let all := if isSwap then 0xCC else if isPop then 0xF9 else 0xF8 in
      let oppositeOne := if isSwap then base else Z.lxor base 4 in
      let n := bitsSet4 (am_reg d) in
      if n =? 4 then done [Byte all]
      else if n =? 3 then
        done ((if isPop then [] else [Byte all]) ++ outputStackOps oppositeOne (Z.lxor (am_reg d) 0xF) ++ (if isPop then [Byte all] else []))
      else if n =? 2 then done (outputStackOps base (am_reg d))
      else UB
  else done [opreg base d].
(** rc8_parse_instr.c:711-725 handle_PICK. *)
Definition handle_PICK (base : Z) (d s : amode) : outcome :=
  if am_mode s =? MODE_IMM then
    let! (e, w) := check_range (am_expr s) 0 255 in done (w ++ [opreg 0x80 (low d); Value e; opreg base d])
  else done [opreg base d].
(** rc8_parse_instr.c:727-747 handle_Shift. *)
Definition handle_Shift (base : Z) (d0 s0 : amode) : outcome :=
  let (d, s) := ensureSource d0 s0 in
  if has (am_mode d) (Z.lor MODE_REG_FT MODE_NONE) && has (am_mode s) MODE_REG_8BIT_BCDEHL then done [opreg base s]
  else if has (am_mode d) (Z.lor MODE_REG_FT MODE_NONE) && has (am_mode s) MODE_IMM then
    if expr_IsConstant (am_expr s) && ((e_v (am_expr s) <? 0) || (e_v (am_expr s) >? 15)) then refuse MERROR_SHIFT_COUNT_RANGE
    else let! (e, w) := check_range (am_expr s) 0 15 in done (w ++ [Byte (0xB8 + Z.land (Z.shiftr base 3) 3); Value e])
  else no.
(** rc8_parse_instr.c:749-764 handle_CMP. *)
Definition handle_CMP (d0 s0 : amode) : outcome :=
  let (d, s) := ensureSource d0 s0 in
  if has (am_mode d) MODE_REG_8BIT && has (am_mode s) MODE_IMM then done [opreg 0xA8 d; Value (am_expr s)]
  else if has (am_mode d) (Z.lor MODE_REG_T MODE_NONE) && has (am_mode s) MODE_REG_8BIT_FBCDEHL then done [opreg 0x48 s]
  else if has (am_mode d) (Z.lor MODE_REG_FT MODE_NONE) && has (am_mode s) MODE_REG_16BIT_BCDEHL then done [opreg 0xCC s]
  else no.
(** rc8_parse_instr.c:766-809 handle_NOT, handle_TST, handle_NEG, handle_SYS. *)
Definition handle_NOT (base : Z) (d : amode) : outcome :=
  if has (am_mode d) MODE_REG_T then
    if negb synth then refuse MERROR_REQUIRES_SYNTHESIZED else done [Byte 0xB2; Byte 0xFF]
  else if has (am_mode d) MODE_REG_FT then
    if negb synth then refuse MERROR_REQUIRES_SYNTHESIZED else done [Byte 0xB2; Byte 0xFF; Byte base]
  else if has (am_mode d) MODE_REG_F then done [Byte base]
  else done [].
Definition handle_TST (base : Z) (d : amode) : outcome := done [opreg base d].
Definition handle_NEG (base : Z) (d : amode) : outcome := done [Byte (if has (am_mode d) MODE_REG_16BIT then 0xF0 else base)].
Definition handle_SYS (base : Z) (d : amode) : outcome := done [Byte base; Value (am_expr d)].
(** rc8_parse_instr.c:811-828 handle_SUB. *)
Definition handle_SUB (d0 s0 : amode) : outcome :=
  let (d, s) := ensureSource d0 s0 in
  let dm := am_mode d in let sm := am_mode s in
  if has sm MODE_REG_8BIT && has dm (Z.lor MODE_NONE MODE_REG_T) then done [opreg 0x50 s]
  else if has sm MODE_REG_16BIT_BCDEHL && has dm (Z.lor MODE_NONE MODE_REG_FT) then done [opreg 0xF0 s]
  else if has dm (Z.lor MODE_REG_8BIT MODE_REG_16BIT) && has sm MODE_IMM then
    if negb synth then refuse MERROR_REQUIRES_SYNTHESIZED
    else let! e := bin OpSub (expr_Const 0) (am_expr s) in handle_ADD d (AMode sm (am_reg s) e)
  else no.

(** rc8_parse_instr.c:830-882 g_Parsers: the base opcode, whether the handler takes the
    condition (CONDITION_PASS), the modes of the operands, and the handler. *)
Record parser : Type := Parser { p_base : Z; p_pass : bool; p_first : Z; p_second : Z; p_handler : Z -> Z -> amode -> amode -> outcome }.
Definition R8_R16 : Z := Z.lor MODE_REG_8BIT MODE_REG_16BIT.
Definition implicit (base : Z) : parser := Parser base false MODE_NONE MODE_NONE (fun b _ _ _ => handle_Implicit b).
Definition shift (base : Z) : parser :=
  Parser base false (orl [MODE_REG_FT; MODE_REG_8BIT_BCDEHL; MODE_IMM]) (orl [MODE_REG_8BIT_BCDEHL; MODE_IMM; MODE_NONE]) (fun b _ => handle_Shift b).
Definition bitwise (base : Z) : parser :=
  Parser base false (orl [MODE_REG_8BIT; MODE_IMM]) (orl [MODE_NONE; MODE_REG_8BIT; MODE_IMM]) (fun b _ => handle_Bitwise b).
Definition stack (base : Z) : parser :=
  Parser base false (orl [MODE_REG_16BIT; MODE_REGISTER_MASK]) MODE_NONE (fun b _ d _ => handle_RegisterStack b d).
Definition g_Parsers : list parser :=
  [Parser 0x00 false R8_R16 (orl [MODE_IMM; MODE_REG_8BIT; MODE_REG_16BIT; MODE_NONE]) (fun _ _ => handle_ADD);
   bitwise 0x68;
   Parser 0x00 false R8_R16 (orl [MODE_IMM; MODE_REG_8BIT_FBCDEHL; MODE_REG_16BIT_BCDEHL; MODE_NONE]) (fun _ _ => handle_CMP);
   implicit 0x1B;
   Parser 0x88 false MODE_REG_8BIT MODE_ADDR (fun b _ => handle_DJ b);
   implicit 0x1A;
   Parser 0x10 false R8_R16 (orl [MODE_NONE; MODE_REG_8BIT; MODE_REG_16BIT]) (fun b _ => handle_EXG b);
   implicit 0x49;
   Parser 0x3C true (orl [MODE_IND_16BIT; MODE_ADDR]) MODE_NONE handle_J;
   Parser 0x38 false (orl [MODE_IND_16BIT; MODE_ADDR]) MODE_NONE (fun b _ => handle_JAL b);
   Parser 0x0C false (orl [MODE_REG_T; MODE_REG_FT]) (orl [MODE_IND_16BIT; MODE_IND_16BIT_INC_DEC]) (fun b _ => handle_LCO b);
   Parser 0x0A false (orl [MODE_IND_C; MODE_REG_T]) (orl [MODE_IND_C; MODE_REG_T]) (fun b _ => handle_LCR b);
   Parser 0x00 false (orl [R8_R16; MODE_IND_16BIT; MODE_IND_16BIT_INC_DEC]) (orl [MODE_IMM; R8_R16; MODE_IND_16BIT; MODE_IND_16BIT_INC_DEC]) (fun _ _ => handle_LD);
   Parser 0x30 false (orl [MODE_IND_16BIT_INC_DEC; MODE_IND_16BIT_BCDEHL; MODE_REG_T; MODE_REG_FT])
     (orl [MODE_IND_16BIT_INC_DEC; MODE_IND_16BIT; MODE_REG_T; MODE_REG_FT]) (fun b _ => handle_LIO b);
   shift 0xE0;
   Parser 0x51 false (orl [MODE_REG_T; MODE_REG_FT]) MODE_NONE (fun b _ d _ => handle_NEG b d);
   implicit 0x00;
   Parser 0x18 false (orl [MODE_REG_F; MODE_REG_T; MODE_REG_FT]) MODE_NONE (fun b _ d _ => handle_NOT b d);
   bitwise 0x60;
   Parser 0x1C false MODE_REG_16BIT (orl [MODE_NONE; MODE_IMM]) (fun b _ => handle_PICK b);
   stack 0xC4;
   implicit 0xF9;
   stack 0xC0;
   implicit 0xF8;
   implicit 0x59;
   shift 0xE8;
   shift 0xF8;
   Parser 0x00 false R8_R16 (orl [MODE_NONE; MODE_REG_8BIT; MODE_REG_16BIT; MODE_IMM]) (fun _ _ => handle_SUB);
   stack 0xDC;
   implicit 0xCC;
   Parser 0x9B false MODE_IMM MODE_NONE (fun b _ d _ => handle_SYS b d);
   Parser 0xD4 false MODE_REG_16BIT MODE_NONE (fun b _ d _ => handle_TST b d);
   bitwise 0x70].
(** rc8_parse_instr.c:890-916 g_RegisterModes: mode and register of each token from F on. *)
Definition g_RegisterModes : list (Z * Z) :=
  [(0x1, 0); (0x2, 1); (0x4, 2); (0x8, 3); (0x10, 4); (0x20, 5); (0x40, 6); (0x80, 7);
   (0x100, 0); (0x200, 1); (0x400, 2); (0x800, 3); (MODE_IND_C, 0);
   (0x1000, 0); (0x2000, 1); (0x4000, 2); (0x8000, 3);
   (MODE_IND_FT_POST_INC, 0); (MODE_IND_BCDEHL_POST_INC, 1); (MODE_IND_BCDEHL_POST_INC, 2); (MODE_IND_BCDEHL_POST_INC, 3);
   (MODE_IND_FT_PRE_DEC, 0); (MODE_IND_BCDEHL_PRE_DEC, 1); (MODE_IND_BCDEHL_PRE_DEC, 2); (MODE_IND_BCDEHL_PRE_DEC, 3)].
Definition register_mode (id : Z) : Z * Z := nth (Z.to_nat (id - T_RC8_REG_F)) g_RegisterModes (0, 0).
Definition is_pair (id : Z) : bool := (T_RC8_REG_FT <=? id) && (id <=? T_RC8_REG_HL).

(** rc8_parse_instr.c:923-962: the list of registers, as the mask, how often a register was
    named, and what follows. *)
Fixpoint parse_mask (fuel : nat) (ts : list token) (mask count : Z) : Z * Z * list token :=
  match fuel with
  | O => (mask, count, ts)
  | S fuel =>
      match ts with
      | TId id :: r =>
          if is_pair id then
            let m1 := Z.lor mask (Z.shiftl 1 (id - T_RC8_REG_FT)) in
            match r with
            | TMinus :: TId last :: r1 =>
                if (id <? last) && (last <=? T_RC8_REG_HL) then
                  let range := Z.shiftl 1 (last - T_RC8_REG_FT + 1) - Z.shiftl 1 (id - T_RC8_REG_FT) in
                  let m2 := Z.lor mask range in
                  let c2 := count + (last - id + 1) in
                  match r1 with TDiv :: r2 => parse_mask fuel r2 m2 c2 | _ => (m2, c2, r1) end
                else (m1, count + 1, TId last :: r1)
            | TMinus :: r1 => (m1, count + 1, r1)
            | TDiv :: r1 => parse_mask fuel r1 m1 (count + 1)
            | _ => (m1, count + 1, r)
            end
          else (mask, count, ts)
      | _ => (mask, count, ts)
      end
  end.
(** rc8_parse_instr.c:918-1018 parseAddressingMode and rc8_parse.c:28-38
    rc8_ExpressionSU16: None is false. *)
Definition parseAddressingMode (ts : list token) (allowed : Z) : res (option (amode * list token) * list item) :=
  let '(mask, count, r) := if has allowed MODE_REGISTER_MASK then parse_mask (List.length ts) ts 0 0 else (0, 0, ts) in
  if has allowed MODE_REGISTER_MASK && (count >=? 2) then Ok (Some (AMode MODE_REGISTER_MASK mask ENull, r), [])
  else
    let rest :=
      match ts with
      | TExpr e :: r =>
          if has allowed MODE_ADDR then Ok (Some (AMode MODE_ADDR 0 e, r), [])
          else if has allowed MODE_IMM then let! (e1, w) := check_range e (-32768) 65535 in Ok (Some (AMode MODE_IMM 0 e1, r), w)
          else if has allowed MODE_NONE then Ok (Some (no_mode, ts), []) else Ok (None, [])
      | _ => if has allowed MODE_NONE then Ok (Some (no_mode, ts), []) else Ok (None, [])
      end in
    match ts with
    | TId id :: r =>
        if (T_RC8_REG_F <=? id) && (id <=? T_RC8_REG_HL_IND_PRE_DEC) && has allowed (fst (register_mode id)) then
          Ok (Some (AMode (fst (register_mode id)) (snd (register_mode id)) ENull, r), [])
        else rest
    | TLp :: TId id :: TRp :: r =>
        if has allowed MODE_IND_16BIT && is_pair id && has allowed (fst (register_mode (id + 5))) then
          Ok (Some (AMode (fst (register_mode (id + 5))) (snd (register_mode (id + 5))) ENull, r), [])
        else rest
    | _ => rest
    end.

(** rc8_parse_instr.c:1020-1069 rc8_ParseIntegerInstruction: what is done, and what
    follows.  [target] is the expression of the label that createUniqueLabel names, which
    sym_CreateLabel then places after the instruction; [Some target] says that it does. *)
Definition condition (ts : list token) : option (Z * list token) :=
  match ts with
  | TDiv :: TId id :: r =>
      if id =? T_RC8_REG_C then Some (CC_LTU, r)
      else if (T_RC8_CC_LE <=? id) && (id <=? T_RC8_CC_NE) then Some (id - T_RC8_CC_LE, r) else None
  | TDiv :: _ => None
  | _ => Some (CC_ALWAYS, ts)
  end.
Definition rc8_ParseIntegerInstruction (target : expr) (ts : list token) : res (option (list item * list token * bool)) :=
  match ts with
  | TId id :: r =>
      if (T_RC8_ADD <=? id) && (id <=? T_RC8_XOR) then
        match nth_error g_Parsers (Z.to_nat (id - T_RC8_ADD)) with
        | None => Ok None
        | Some p =>
            match condition r with
            | None => Ok (Some ([Error MERROR_EXPECTED_CONDITION_CODE], r, false))
            | Some (cc, r1) =>
                let! (o1, w1) := parseAddressingMode r1 (p_first p) in
                match o1 with
                | None => Ok (Some (w1 ++ [Error ERROR_OPERAND], r1, false))
                | Some (m1, r2) =>
                    let! (o2, w2) := match r2 with
                                     | TComma :: r3 => parseAddressingMode r3 (p_second p)
                                     | _ => if has (p_second p) MODE_NONE then Ok (Some (no_mode, r2), []) else Ok (None, [])
                                     end in
                    match o2 with
                    | None => Ok (Some (w1 ++ w2 ++ [Error MERROR_ILLEGAL_ADDRMODE], r2, false))
                    | Some (m2, r4) =>
                        let skips := negb (p_pass p) && negb (cc =? CC_ALWAYS) in
                        let skip := if skips then handle_JumpRelative (0x90 + invertCondition cc) target else [] in
                        let! (ok, l) := p_handler p (p_base p) cc m1 m2 in
                        if ok then Ok (Some (w1 ++ w2 ++ skip ++ l, r4, skips))
                        else Ok (Some (w1 ++ w2 ++ skip ++ l ++ [Error ERROR_OPERAND], r4, false))
                    end
                end
            end
        end
      else Ok None
  | _ => Ok None
  end.
(** rc8_parse.c:48-55 rc8_ParseInstruction, with the effect on the section. *)
Definition rc8_ParseInstruction (target : expr) (ts : list token) (st : xstate) : res (option (bool * list token * xstate)) :=
  let! o := rc8_ParseIntegerInstruction target ts in
  match o with
  | None => Ok None
  | Some (l, r, placed) => let! st1 := perform F l st in Ok (Some (placed, r, st1))
  end.
End Handlers.
