(** Model of the Z80 and Game Boy instruction parser: /repo/xasm/z80/z80_parse.c,
    z80_options.c, z80_tokens.c, z80_tokens.h and z80_errors.h. *)
From Coq Require Import ZArith List Bool String.
From Verif Require Import Base Arith ExprModel ObjWriteModel OptModel SectModel.
Import ListNotations.
Open Scope string_scope.
Open Scope Z_scope.

(** errors.h:24-103 EError and z80_errors.h:25-33 EMachineError. *)
Definition ERROR_CHAR_EXPECTED : Z := 100.
Definition ERROR_FIRST_OPERAND : Z := 105.
Definition ERROR_SECOND_OPERAND : Z := 106.
Definition ERROR_OPERAND : Z := 107.
Definition ERROR_SOURCE_OPERAND : Z := 103.
Definition ERROR_DEST_OPERAND : Z := 104.
Definition ERROR_EXPR_CONST : Z := 119.
Definition MERROR_INSTRUCTION_NOT_SUPPORTED_BY_CPU : Z := 1004.
Definition MERROR_SYNTHESIZED_INSTRUCTIONS : Z := 1005.
Definition MERROR_UNDOCUMENTED_INSTRUCTIONS : Z := 1006.

(** z80_options.h: SMachineOptions. *)
Definition CPUF_GB : Z := 1.
Definition CPUF_Z80 : Z := 2.
Definition BOTH : Z := 3.
Record mopts : Type := MOpts { o_cpu : Z; o_synthesized : bool; o_undocumented : bool }.
(** z80_options.c:45-49 z80_SetDefaultOptions, given the memory z80_AllocOptions
    returned. *)
Definition z80_SetDefaultOptions (allocated : mopts) : mopts := MOpts CPUF_Z80 false (o_undocumented allocated).
(** z80_options.c:54-106 z80_ParseOption: the options c, s and u; the option g, which
    chooses the characters of graphics literals, is not modelled.  Simplification: a
    refused option leaves the options as they are; the warning is not modelled. *)
Definition z80_ParseOption (s : list Z) (o : mopts) : bool * mopts :=
  match s with
  | [99; 103] => (true, MOpts CPUF_GB (o_synthesized o) (o_undocumented o))
  | [99; 122] => (true, MOpts CPUF_Z80 (o_synthesized o) (o_undocumented o))
  | [115; x] => (true, MOpts (o_cpu o) (x =? 49) (o_undocumented o))
  | [117; x] => (true, MOpts (o_cpu o) (o_synthesized o) (x =? 49))
  | _ => (false, o)
  end.

(** z80_parse.c:117-146 and 227-230: operand modes. *)
Definition MODE_NONE : Z := 0x1.
Definition MODE_REG_A : Z := 0x2.
Definition MODE_REG_C_IND : Z := 0x4.
Definition MODE_REG_DE : Z := 0x8.
Definition MODE_REG_HL : Z := 0x10.
Definition MODE_REG_SP : Z := 0x20.
Definition MODE_REG_AF : Z := 0x40.
Definition MODE_REG_AF_SEC : Z := 0x80.
Definition MODE_REG_BC_IND : Z := 0x100.
Definition MODE_REG_DE_IND : Z := 0x200.
Definition MODE_REG_HL_IND : Z := 0x400.
Definition MODE_REG_HL_IND_DEC : Z := 0x800.
Definition MODE_REG_HL_IND_INC : Z := 0x1000.
Definition MODE_REG_SP_IND : Z := 0x2000.
Definition MODE_REG_IX_IND : Z := 0x4000.
Definition MODE_REG_IY_IND : Z := 0x8000.
Definition MODE_REG_SP_DISP : Z := 0x10000.
Definition MODE_REG_IX_IND_DISP : Z := 0x20000.
Definition MODE_REG_IY_IND_DISP : Z := 0x40000.
Definition MODE_GROUP_D : Z := 0x80000.
Definition MODE_GROUP_SS : Z := 0x100000.
Definition MODE_GROUP_SS_AF : Z := 0x200000.
Definition MODE_GROUP_RR : Z := 0x400000.
Definition MODE_GROUP_HL : Z := 0x800000.
Definition MODE_IMM : Z := 0x1000000.
Definition MODE_IMM_IND : Z := 0x2000000.
Definition MODE_CC_GB : Z := 0x4000000.
Definition MODE_CC_Z80 : Z := 0x8000000.
Definition MODE_REG_CONTROL : Z := 0x10000000.
Definition MODE_GROUP_IXYLH : Z := 0x20000000.
Definition MODE_GROUP_EX : Z := MODE_REG_SP_IND + MODE_REG_AF + MODE_REG_AF_SEC + MODE_REG_DE + MODE_GROUP_HL.
Definition MODE_GROUP_IX_IND_DISP : Z := MODE_REG_IX_IND + MODE_REG_IX_IND_DISP.
Definition MODE_GROUP_IY_IND_DISP : Z := MODE_REG_IY_IND + MODE_REG_IY_IND_DISP.
Definition MODE_GROUP_I_IND_DISP : Z := MODE_GROUP_IX_IND_DISP + MODE_GROUP_IY_IND_DISP.
Definition has (mode mask : Z) : bool := negb (Z.land mode mask =? 0).

(** z80_parse.c:36-92: register numbers. *)
Definition REG_D_H : Z := 4.
Definition REG_D_L : Z := 5.
Definition REG_D_HL_IND : Z := 6.
Definition REG_D_A : Z := 7.
Definition REG_SS_DE : Z := 1.
Definition REG_SS_HL : Z := 2.
Definition REG_HL_IX : Z := 0xDD.
Definition REG_HL_IY : Z := 0xFD.

(** ** Handlers
    Handlers look at an expression only to ask whether it is a constant, and then for
    its value.  [E] is the type of expressions and [constant] answers the question.
    What a handler does is the list of the calls it makes, in order; see [run_act].
    Nothing in a handler depends on what these calls do. *)
Section Handlers.
Variable E : Type.
Variable constant : E -> option Z.

(** The expression of an operand: none, one from the source, the constant 1, or one
    from the source plus 1 with its range checked (z80_parse.c:666-671). *)
Inductive xexpr : Type := XNull | XExpr (e : E) | XOne | XNext (e : E).
(** z80_parse.c:94-104 SAddressingMode. *)
Record amode : Type := AMode {
  am_mode : Z; am_expr : xexpr; am_cpu : Z; am_D : Z; am_SS : Z; am_RR : Z; am_HL : Z; am_F : Z; am_Ctrl : Z }.
(** expr_IsConstant and the value. *)
Definition constantOf (x : xexpr) : option Z := match x with XExpr e => constant e | _ => None end.

Inductive act : Type :=
| AByte (b : Z)                                   (* sect_OutputConst8 *)
| AExpr8 (x : xexpr)                              (* sect_OutputExpr8 *)
| AChecked (n : nat) (lo hi : Z) (x : xexpr)      (* createExpressionNBit, sect_OutputExpr8 or 16 *)
| APcRel (x : xexpr)                              (* createExpressionPCRel, sect_OutputExpr8 *)
| AImmHi (x : xexpr)                              (* createExpressionImmHi, sect_OutputExpr8 *)
| ABitNo (opcode : Z) (x : xexpr)                 (* z80_parse.c:427-432 *)
| ANext (x : xexpr)                               (* createExpression8S(expr_Add(x, 1)) *)
| AError (n : Z).                                 (* err_Error *)
(** The calls, and whether the handler reports success. *)
Definition plan : Type := list act * bool.
Definition calls (l : list act) : plan := (l, true).
Definition fails (n : Z) : plan := ([AError n], true).
(** return err_Error(...) *)
Definition err (n : Z) : plan := ([AError n], false).
(** if (!f()) return false; return g(); *)
Definition and_then (p q : plan) : plan := if snd p then (fst p ++ fst q, snd q)%list else p.

(** z80_parse.c:177-225 g_addressModes. *)
Definition g_addressModes : list amode :=
  [AMode MODE_GROUP_D XNull BOTH 0 (-1) (-1) (-1) (-1) (-1) (* B *);
   AMode (MODE_GROUP_D + MODE_CC_GB + MODE_CC_Z80) XNull BOTH 1 (-1) (-1) (-1) 3 (-1) (* C *);
   AMode MODE_GROUP_D XNull BOTH 2 (-1) (-1) (-1) (-1) (-1) (* D *);
   AMode MODE_GROUP_D XNull BOTH 3 (-1) (-1) (-1) (-1) (-1) (* E *);
   AMode MODE_GROUP_D XNull BOTH 4 (-1) (-1) (-1) (-1) (-1) (* H *);
   AMode MODE_GROUP_D XNull BOTH 5 (-1) (-1) (-1) (-1) (-1) (* L *);
   AMode (MODE_REG_HL_IND + MODE_GROUP_D) XNull BOTH 6 (-1) (-1) (-1) (-1) (-1) (* HL_IND *);
   AMode (MODE_REG_A + MODE_GROUP_D) XNull BOTH 7 (-1) (-1) (-1) (-1) (-1) (* A *);
   AMode MODE_GROUP_IXYLH XNull CPUF_Z80 4 (-1) (-1) 0xDD (-1) (-1) (* IXH *);
   AMode MODE_GROUP_IXYLH XNull CPUF_Z80 5 (-1) (-1) 0xDD (-1) (-1) (* IXL *);
   AMode MODE_GROUP_IXYLH XNull CPUF_Z80 4 (-1) (-1) 0xFD (-1) (-1) (* IYH *);
   AMode MODE_GROUP_IXYLH XNull CPUF_Z80 5 (-1) (-1) 0xFD (-1) (-1) (* IYL *);
   AMode (MODE_GROUP_SS + MODE_GROUP_SS_AF) XNull BOTH (-1) 0 (-1) (-1) (-1) (-1) (* BC *);
   AMode (MODE_REG_DE + MODE_GROUP_SS + MODE_GROUP_SS_AF) XNull BOTH (-1) 1 (-1) (-1) (-1) (-1) (* DE *);
   AMode (MODE_REG_HL + MODE_GROUP_SS + MODE_GROUP_SS_AF + MODE_GROUP_HL) XNull BOTH (-1) 2 (-1) 0 (-1) (-1) (* HL *);
   AMode (MODE_REG_SP + MODE_GROUP_SS) XNull BOTH (-1) 3 (-1) (-1) (-1) (-1) (* SP *);
   AMode MODE_GROUP_HL XNull CPUF_Z80 (-1) 2 (-1) 0xDD (-1) (-1) (* IX *);
   AMode MODE_GROUP_HL XNull CPUF_Z80 (-1) 2 (-1) 0xFD (-1) (-1) (* IY *);
   AMode MODE_REG_C_IND XNull BOTH (-1) (-1) (-1) (-1) (-1) (-1) (* C_IND *);
   AMode MODE_REG_C_IND XNull CPUF_GB (-1) (-1) (-1) (-1) (-1) (-1) (* GB_C_IND *);
   AMode MODE_REG_SP_IND XNull BOTH (-1) (-1) (-1) (-1) (-1) (-1) (* SP_IND *);
   AMode (MODE_REG_BC_IND + MODE_REG_C_IND + MODE_GROUP_RR) XNull BOTH (-1) (-1) 0 (-1) (-1) (-1) (* BC_IND *);
   AMode (MODE_REG_DE_IND + MODE_GROUP_RR) XNull BOTH (-1) (-1) 1 (-1) (-1) (-1) (* DE_IND *);
   AMode (MODE_REG_HL_IND_INC + MODE_GROUP_RR) XNull CPUF_GB (-1) (-1) 2 (-1) (-1) (-1) (* HL_INDINC *);
   AMode (MODE_REG_HL_IND_DEC + MODE_GROUP_RR) XNull CPUF_GB (-1) (-1) 3 (-1) (-1) (-1) (* HL_INDDEC *);
   AMode (MODE_REG_AF + MODE_GROUP_SS_AF) XNull BOTH (-1) 3 (-1) (-1) (-1) (-1) (* AF *);
   AMode MODE_REG_AF_SEC XNull CPUF_Z80 (-1) (-1) (-1) (-1) (-1) (-1) (* AF_ALT *);
   AMode MODE_REG_CONTROL XNull CPUF_Z80 (-1) (-1) (-1) (-1) (-1) 0 (* I *);
   AMode MODE_REG_CONTROL XNull CPUF_Z80 (-1) (-1) (-1) (-1) (-1) 1 (* R *);
   AMode (MODE_CC_GB + MODE_CC_Z80) XNull BOTH (-1) (-1) (-1) (-1) 0 (-1) (* NZ *);
   AMode (MODE_CC_GB + MODE_CC_Z80) XNull BOTH (-1) (-1) (-1) (-1) 1 (-1) (* Z *);
   AMode (MODE_CC_GB + MODE_CC_Z80) XNull BOTH (-1) (-1) (-1) (-1) 2 (-1) (* NC *);
   AMode MODE_CC_Z80 XNull CPUF_Z80 (-1) (-1) (-1) (-1) 4 (-1) (* PO *);
   AMode MODE_CC_Z80 XNull CPUF_Z80 (-1) (-1) (-1) (-1) 5 (-1) (* PE *);
   AMode MODE_CC_Z80 XNull CPUF_Z80 (-1) (-1) (-1) (-1) 6 (-1) (* P *);
   AMode MODE_CC_Z80 XNull CPUF_Z80 (-1) (-1) (-1) (-1) 7 (-1) (* M *)].
Definition noMode : amode := AMode 0 XNull 0 0 0 0 0 0 0.
Definition T_MODE_B : Z := 6072.
Definition T_CC_M : Z := 6107.
Definition addressMode (token : Z) : amode := nth (Z.to_nat (token - T_MODE_B)) g_addressModes noMode.
(** z80_parse.c:148-175: g_registerPairsSS and groupHLPairs. *)
Definition registerPairsSS (ss : Z) : Z * Z := if ss =? 0 then (6072, 6073) else if ss =? 1 then (6074, 6075) else (6076, 6077).
Definition groupHLPairs (hl : Z) : Z * Z :=
  if hl =? REG_HL_IX then (6080, 6081) else if hl =? REG_HL_IY then (6082, 6083) else registerPairsSS REG_SS_HL.

Variable o : mopts.
(** z80_parse.c:232-249 IS_Z80, IS_GB, ensureSynthesizedEnabled and
    ensureUndocumentedEnabled. *)
Definition IS_Z80 : bool := has (o_cpu o) CPUF_Z80.
Definition IS_GB : bool := has (o_cpu o) CPUF_GB.
Definition ensureSynthesizedEnabled : plan := if o_synthesized o then calls [] else err MERROR_SYNTHESIZED_INSTRUCTIONS.
Definition ensureUndocumentedEnabled : plan := if o_undocumented o then calls [] else err MERROR_UNDOCUMENTED_INSTRUCTIONS.

(** z80_parse.c:251-303: expressions with limits. *)
Definition out16U (x : xexpr) : act := AChecked 2 0 65535 x.
Definition out16SU (x : xexpr) : act := AChecked 2 (-32768) 65535 x.
Definition out8SU (x : xexpr) : act := AChecked 1 (-128) 255 x.
Definition out8U (x : xexpr) : act := AChecked 1 0 255 x.
Definition out8S (x : xexpr) : act := AChecked 1 (-128) 127 x.
(** z80_parse.c:305-327 outputIXIY and outputGroupHL. *)
Definition isIXYLH (m : amode) : bool := has (am_mode m) MODE_GROUP_IXYLH.
Definition outputIXIY (m : amode) (opcode : Z) : list act :=
  (AByte (if isIXYLH m then (if am_HL m =? REG_HL_IX then 0xDD else 0xFD)
          else (if has (am_mode m) MODE_GROUP_IX_IND_DISP then 0xDD else 0xFD))
   :: AByte opcode
   :: if has (am_mode m) MODE_GROUP_I_IND_DISP
      then [match am_expr m with XNull => AByte 0 | x => AExpr8 x end] else [])%list.
Definition outputGroupHL (m : amode) : list act :=
  if has (am_mode m) MODE_GROUP_HL && negb (am_HL m =? 0) then [AByte (am_HL m)] else [].

(** z80_parse.c:106-113 SInstruction, as far as the handlers see it. *)
Record instruction (handler : Type) : Type := Instr {
  i_cpu : Z; i_prefix : Z; i_opcode : Z; i_modes1 : Z; i_modes2 : Z; i_handler : handler }.
Section OneHandler.
Variables prefix opcode : Z.
(** z80_parse.c:329-356 handleAlu. *)
Definition handleAlu (m1 m2 : amode) : plan :=
  if has (am_mode m1) MODE_REG_A then
    if IS_Z80 && has (am_mode m2) MODE_GROUP_I_IND_DISP then calls (outputIXIY m2 (Z.lor 0x86 opcode)) else
    if has (am_mode m2) (MODE_GROUP_D + MODE_GROUP_IXYLH) then
      let op := u8 (Z.lor (Z.lor 0x80 opcode) (am_D m2)) in
      calls (if isIXYLH m2 then outputIXIY m2 op else [AByte op]) else
    if has (am_mode m2) MODE_IMM then calls [AByte (Z.lor 0xC6 opcode); out8SU (am_expr m2)] else
    fails ERROR_OPERAND
  else fails ERROR_OPERAND.
(** z80_parse.c:358-408 handleAlu16bit, handleAdc, handleSbc and handleAdd. *)
Definition handleAlu16bit (pre op : Z) (m1 m2 : amode) : option plan :=
  if has (am_mode m1) MODE_GROUP_HL && has (am_mode m2) (MODE_GROUP_SS + MODE_GROUP_HL) then
    if has (am_mode m2) MODE_GROUP_HL && negb (am_HL m1 =? am_HL m2) then Some (fails ERROR_SECOND_OPERAND) else
    Some (calls ((if negb (pre =? 0) then [AByte pre] else if negb (am_HL m1 =? 0) then [AByte (u8 (am_HL m1))] else [])
                 ++ [AByte (Z.lor op (u8 (Z.shiftl (am_SS m2) 4)))]))
  else None.
Definition handleAdc (m1 m2 : amode) : plan :=
  match (if IS_Z80 then handleAlu16bit 0xED 0x4A m1 m2 else None) with Some p => p | None => handleAlu m1 m2 end.
Definition handleSbc (m1 m2 : amode) : plan :=
  match (if IS_Z80 then handleAlu16bit 0xED 0x42 m1 m2 else None) with Some p => p | None => handleAlu m1 m2 end.
Definition handleAdd (m1 m2 : amode) : plan :=
  match handleAlu16bit 0 0x09 m1 m2 with
  | Some p => p
  | None =>
      if IS_GB && has (am_mode m1) MODE_REG_SP && has (am_mode m2) MODE_IMM then calls [AByte 0xE8; out8SU (am_expr m2)]
      else handleAlu m1 m2
  end.
(** z80_parse.c:410-434 handleBit. *)
Definition handleBit (m1 m2 : amode) : plan :=
  if has (am_mode m2) MODE_GROUP_I_IND_DISP then
    if IS_Z80 then calls (outputIXIY m2 0xCB ++ [ABitNo (Z.lor opcode 6) (am_expr m1)])
    else fails MERROR_INSTRUCTION_NOT_SUPPORTED_BY_CPU
  else calls [AByte 0xCB; ABitNo (u8 (Z.lor (am_D m2) opcode)) (am_expr m1)].
(** z80_parse.c:436-481 handleCall, handleJp and handleImplied. *)
Definition handleCall (m1 m2 : amode) : plan :=
  if has (am_mode m1) MODE_IMM && (am_mode m2 =? 0) then calls [AByte opcode; out16U (am_expr m1)] else
  if has (am_mode m1) MODE_CC_Z80 && has (am_mode m2) MODE_IMM then
    if IS_GB && negb (has (am_mode m1) MODE_CC_GB) then fails MERROR_INSTRUCTION_NOT_SUPPORTED_BY_CPU else
    calls [AByte (Z.lor (Z.land opcode (Z.lnot 0x19)) (u8 (Z.shiftl (am_F m1) 3))); out16U (am_expr m2)] else
  fails ERROR_OPERAND.
Definition handleJp (m1 m2 : amode) : plan :=
  if has (am_mode m1) MODE_REG_HL_IND && (am_mode m2 =? 0) then calls [AByte 0xE9] else
  if IS_Z80 && has (am_mode m1) MODE_REG_IX_IND && (am_mode m2 =? 0) then calls [AByte 0xDD; AByte 0xE9] else
  if IS_Z80 && has (am_mode m1) MODE_REG_IY_IND && (am_mode m2 =? 0) then calls [AByte 0xFD; AByte 0xE9] else
  handleCall m1 m2.
Definition handleImplied : plan := calls (if negb (prefix =? 0) then [AByte prefix; AByte opcode] else [AByte opcode]).
(** z80_parse.c:483-516 handleDec and handleJr. *)
Definition handleDec (m1 : amode) : plan :=
  if has (am_mode m1) (MODE_GROUP_SS + MODE_GROUP_HL) then
    calls (outputGroupHL m1 ++ [AByte (Z.lor (Z.lor 0x03 (u8 (Z.shiftl opcode 3))) (u8 (Z.shiftl (am_SS m1) 4)))]) else
  if has (am_mode m1) MODE_GROUP_I_IND_DISP then calls (outputIXIY m1 (Z.lor (Z.lor 0x04 opcode) (Z.shiftl 6 3))) else
  if isIXYLH m1 then calls (outputIXIY m1 (u8 (Z.lor (Z.lor 0x04 opcode) (Z.shiftl (am_D m1) 3)))) else
  calls [AByte (Z.lor (Z.lor 0x04 opcode) (u8 (Z.shiftl (am_D m1) 3)))].
Definition handleJr (m1 m2 : amode) : plan :=
  if has (am_mode m1) MODE_IMM && (am_mode m2 =? 0) then calls [AByte 0x18; APcRel (am_expr m1)] else
  if has (am_mode m1) MODE_CC_GB && has (am_mode m2) MODE_IMM then
    calls [AByte (Z.lor 0x20 (u8 (Z.shiftl (am_F m1) 3))); APcRel (am_expr m2)] else
  fails ERROR_OPERAND.

(** z80_parse.c:518-701 handleLd.  [rec] is the call of handleLd for the parts of a
    synthesized instruction. *)
Definition high_page (x : xexpr) : bool :=
  IS_GB && match constantOf x with Some v => (0xFF00 <=? v) && (v <=? 0xFFFF) | None => false end.
Definition at_most (ss limit : Z) : bool := ss <=? limit.
Definition next_expr (x : xexpr) : xexpr := match x with XNull => XOne | XExpr e => XNext e | y => y end.
(** offsetPlusOne; reports come when it is made. *)
Definition offsetPlusOne (m : amode) : amode :=
  AMode (am_mode m) (next_expr (am_expr m)) (am_cpu m) (am_D m) (am_SS m) (am_RR m) (am_HL m) (am_F m) (am_Ctrl m).
Definition making (m : amode) : plan := calls (match am_expr m with XNull => [] | x => [ANext x] end).
Definition handleLd_with (rec : amode -> amode -> plan) (m1 m2 : amode) : plan :=
  let mode1 := am_mode m1 in
  let mode2 := am_mode m2 in
  if has mode1 (MODE_GROUP_D + MODE_GROUP_IXYLH) && has mode2 (MODE_GROUP_D + MODE_GROUP_IXYLH) &&
     (negb (am_D m1 =? REG_D_HL_IND) || negb (am_D m2 =? REG_D_HL_IND)) then
    if isIXYLH m1 && isIXYLH m2 && negb (am_HL m1 =? am_HL m2) then err ERROR_OPERAND else
    if isIXYLH m1 && isIXYLH m2 && (mode1 =? MODE_GROUP_D) && ((am_D m1 =? REG_D_H) || (am_D m1 =? REG_D_L)) then err ERROR_DEST_OPERAND else
    if isIXYLH m1 && isIXYLH m2 && (mode2 =? MODE_GROUP_D) && ((am_D m2 =? REG_D_H) || (am_D m2 =? REG_D_L)) then err ERROR_SOURCE_OPERAND else
    let op := Z.lor (Z.lor 0x40 (u8 (Z.shiftl (am_D m1) 3))) (u8 (am_D m2)) in
    calls (if isIXYLH m1 then outputIXIY m1 op else if isIXYLH m2 then outputIXIY m2 op else [AByte op]) else
  if has mode1 MODE_REG_A && has mode2 MODE_GROUP_RR then calls [AByte (Z.lor 0x0A (u8 (Z.shiftl (am_RR m2) 4)))] else
  if has mode1 MODE_REG_A && has mode2 MODE_IMM_IND then
    calls (if high_page (am_expr m2) then [AByte 0xF0; AImmHi (am_expr m2)]
           else [AByte (if IS_GB then 0xFA else 0x3A); out16U (am_expr m2)]) else
  if has mode1 (MODE_GROUP_D + MODE_GROUP_IXYLH) && has mode2 MODE_IMM then
    calls ((if isIXYLH m1 then [AByte (if am_HL m1 =? REG_HL_IX then 0xDD else 0xFD)] else [])
           ++ [AByte (Z.lor 0x06 (u8 (Z.shiftl (am_D m1) 3))); out8SU (am_expr m2)]) else
  if has mode1 MODE_IMM_IND && has mode2 MODE_REG_A then
    calls (if high_page (am_expr m1) then [AByte 0xE0; AImmHi (am_expr m1)]
           else [AByte (if IS_GB then 0xEA else 0x32); out16U (am_expr m1)]) else
  if has mode1 MODE_REG_SP && has mode2 MODE_GROUP_HL then calls (outputGroupHL m2 ++ [AByte 0xF9]) else
  if has mode1 MODE_GROUP_RR && has mode2 MODE_REG_A then calls [AByte (Z.lor 0x02 (u8 (Z.shiftl (am_RR m1) 4)))] else
  if has mode1 (MODE_GROUP_SS + MODE_GROUP_HL) && has mode2 MODE_IMM then
    calls (outputGroupHL m1 ++ [AByte (Z.lor 0x01 (u8 (Z.shiftl (am_SS m1) 4))); out16SU (am_expr m2)]) else
  if IS_GB && has mode1 MODE_REG_A && has mode2 MODE_REG_C_IND then calls [AByte 0xF2] else
  if IS_GB && has mode1 MODE_REG_HL && has mode2 MODE_REG_SP_DISP then calls [AByte 0xF8; AExpr8 (am_expr m2)] else
  if IS_GB && has mode1 MODE_REG_C_IND && has mode2 MODE_REG_A then calls [AByte 0xE2] else
  if IS_GB && has mode1 MODE_IMM_IND && has mode2 MODE_REG_SP then calls [AByte 0x08; out16U (am_expr m1)] else
  if IS_Z80 && has mode1 MODE_IMM_IND && has mode2 (MODE_GROUP_SS + MODE_GROUP_HL) then
    calls ((if am_SS m2 =? REG_SS_HL then outputGroupHL m2 ++ [AByte 0x22]
            else [AByte 0xED; AByte (Z.lor 0x43 (u8 (Z.shiftl (am_SS m2) 4)))]) ++ [out16U (am_expr m1)]) else
  if IS_Z80 && has mode1 MODE_GROUP_I_IND_DISP && has mode2 MODE_GROUP_D then
    calls (outputIXIY m1 (Z.lor 0x70 (u8 (am_D m2)))) else
  if IS_Z80 && has mode1 MODE_GROUP_I_IND_DISP && has mode2 MODE_IMM then
    calls (outputIXIY m1 0x36 ++ [out8SU (am_expr m2)]) else
  if IS_Z80 && has mode1 MODE_GROUP_D && has mode2 MODE_GROUP_I_IND_DISP then
    calls (outputIXIY m2 (Z.lor 0x46 (u8 (Z.shiftl (am_D m1) 3)))) else
  if IS_Z80 && has mode1 MODE_REG_A && has mode2 MODE_REG_CONTROL then
    calls [AByte 0xED; AByte (Z.lor 0x57 (u8 (Z.shiftl (am_Ctrl m2) 3)))] else
  if IS_Z80 && has mode1 MODE_REG_CONTROL && has mode2 MODE_REG_A then
    calls [AByte 0xED; AByte (Z.lor 0x47 (u8 (Z.shiftl (am_Ctrl m1) 3)))] else
  if IS_Z80 && has mode1 (MODE_GROUP_SS + MODE_GROUP_HL) && has mode2 MODE_IMM_IND then
    calls ((if am_SS m1 =? REG_SS_HL then outputGroupHL m1 ++ [AByte 0x2A]
            else [AByte 0xED; AByte (Z.lor 0x4B (u8 (Z.shiftl (am_SS m1) 4)))]) ++ [out16U (am_expr m2)]) else
  if has mode1 MODE_GROUP_SS && at_most (am_SS m1) REG_SS_HL && has mode2 MODE_GROUP_SS && at_most (am_SS m2) REG_SS_HL then
    let '(d0, d1) := registerPairsSS (am_SS m1) in
    let '(s0, s1) := registerPairsSS (am_SS m2) in
    and_then ensureSynthesizedEnabled
      (and_then (rec (addressMode d0) (addressMode s0)) (rec (addressMode d1) (addressMode s1))) else
  if has mode1 MODE_GROUP_HL && has mode2 MODE_GROUP_SS && at_most (am_SS m2) REG_SS_DE then
    let '(d0, d1) := groupHLPairs (am_HL m1) in
    let '(s0, s1) := registerPairsSS (am_SS m2) in
    and_then ensureSynthesizedEnabled (and_then ensureUndocumentedEnabled
      (and_then (rec (addressMode d0) (addressMode s0)) (rec (addressMode d1) (addressMode s1)))) else
  if has mode1 MODE_GROUP_SS && at_most (am_SS m1) REG_SS_DE && has mode2 MODE_GROUP_HL then
    let '(d0, d1) := registerPairsSS (am_SS m1) in
    let '(s0, s1) := groupHLPairs (am_HL m2) in
    and_then ensureSynthesizedEnabled (and_then ensureUndocumentedEnabled
      (and_then (rec (addressMode d0) (addressMode s0)) (rec (addressMode d1) (addressMode s1)))) else
  if has mode1 MODE_GROUP_SS && at_most (am_SS m1) REG_SS_HL && has mode2 MODE_GROUP_I_IND_DISP then
    let '(d0, d1) := registerPairsSS (am_SS m1) in
    and_then ensureSynthesizedEnabled (and_then (making m2)
      (and_then (rec (addressMode d1) m2) (rec (addressMode d0) (offsetPlusOne m2)))) else
  if has mode1 MODE_GROUP_I_IND_DISP && has mode2 MODE_GROUP_SS && at_most (am_SS m2) REG_SS_HL then
    let '(d0, d1) := registerPairsSS (am_SS m2) in
    and_then ensureSynthesizedEnabled (and_then (making m1)
      (and_then (rec m1 (addressMode d1)) (rec (offsetPlusOne m1) (addressMode d0)))) else
  fails ERROR_OPERAND.
(** The parts of a synthesized instruction have an 8-bit register, so they are not
    synthesized themselves. *)
Definition handleLd : amode -> amode -> plan := handleLd_with (handleLd_with (fun _ _ => fails ERROR_OPERAND)).
(** z80_parse.c:703-750 handleLdd, handleLdh, handleLdhl and handlePop. *)
Definition handleLdd (m1 m2 : amode) : plan :=
  if IS_GB && has (am_mode m1) MODE_REG_A && has (am_mode m2) MODE_REG_HL_IND then calls [AByte (Z.lor opcode 0x08)] else
  if IS_GB && has (am_mode m1) MODE_REG_HL_IND && has (am_mode m2) MODE_REG_A then calls [AByte opcode] else
  if IS_Z80 && (am_mode m1 =? 0) && (am_mode m2 =? 0) then
    calls [AByte 0xED; AByte (Z.lor 0xA0 (Z.shiftr (Z.land opcode 0x10) 1))] else
  fails ERROR_OPERAND.
Definition handleLdh (m1 m2 : amode) : plan :=
  if has (am_mode m1) MODE_REG_A && has (am_mode m2) MODE_IMM_IND then
    calls [AByte (Z.lor opcode 0x10); AImmHi (am_expr m2)] else
  if has (am_mode m1) MODE_IMM_IND && has (am_mode m2) MODE_REG_A then calls [AByte opcode; AImmHi (am_expr m1)] else
  fails ERROR_OPERAND.
Definition handleLdhl (m2 : amode) : plan := calls [AByte opcode; out8S (am_expr m2)].
Definition handlePop (m1 : amode) : plan :=
  calls (outputGroupHL m1 ++ [AByte (Z.lor opcode (u8 (Z.shiftl (am_SS m1) 4)))]).
(** z80_parse.c:752-775 handleRotate and handle16BitShifts: the opcode is that of the
    instruction named.  handleRr, handleRl, handleRrc and handleRlc (822-848) warn
    about the register A, which is not modelled, and call handleRotate. *)
Definition handleRotate (op : Z) (m1 : amode) : plan :=
  calls ((if has (am_mode m1) MODE_GROUP_I_IND_DISP then outputIXIY m1 0xCB else [AByte 0xCB])
         ++ [AByte (u8 (Z.lor (am_D m1) op))]).
Definition handle16BitShifts (op1 register1 op2 register2 : Z) : plan :=
  and_then ensureSynthesizedEnabled
    (and_then (handleRotate op1 (addressMode register1)) (handleRotate op2 (addressMode register2))).
(** z80_parse.c:777-820: shifts.  0x18 is the opcode of RR and 0x10 that of RL. *)
Definition handleSRx (m1 : amode) : plan :=
  if has (am_mode m1) MODE_GROUP_SS && at_most (am_SS m1) REG_SS_HL then
    let '(h, l) := registerPairsSS (am_SS m1) in handle16BitShifts opcode h 0x18 l
  else handleRotate opcode m1.
Definition handleSLx (m1 : amode) : plan :=
  if has (am_mode m1) MODE_GROUP_SS && at_most (am_SS m1) REG_SS_HL then
    let '(h, l) := registerPairsSS (am_SS m1) in handle16BitShifts opcode l 0x10 h
  else handleRotate opcode m1.
Definition handleSLL (m1 : amode) : plan := and_then ensureUndocumentedEnabled (handleSLx m1).
(** z80_parse.c:850-891 handleRet, handleRst, handleStop and handleDjnz. *)
Definition handleRet (m1 : amode) : plan :=
  calls [AByte (if has (am_mode m1) MODE_CC_Z80 then Z.lor 0xC0 (u8 (Z.shiftl (am_F m1) 3)) else 0xC9)].
Definition handleRst (m1 : amode) : plan :=
  match constantOf (am_expr m1) with
  | Some v => let val := u32 v in
      if val =? Z.land val 0x38 then calls [AByte (u8 (Z.lor opcode val))] else fails ERROR_OPERAND_RANGE
  | None => fails ERROR_EXPR_CONST
  end.
Definition handleStop : plan := calls [AByte 0x10; AByte 0x00].
Definition handleDjnz (m1 : amode) : plan := calls [AByte opcode; APcRel (am_expr m1)].
(** z80_parse.c:893-942 handleEx and handleIm. *)
Definition ex_match (m1 m2 : amode) (o1 o2 : Z) : bool :=
  (has (am_mode m1) o1 && has (am_mode m2) o2) || (has (am_mode m1) o2 && has (am_mode m2) o1).
Definition handleEx (m1 m2 : amode) : plan :=
  if negb IS_Z80 then fails MERROR_INSTRUCTION_NOT_SUPPORTED_BY_CPU else
  if ex_match m1 m2 MODE_REG_SP_IND MODE_GROUP_HL then
    calls (outputGroupHL (if has (am_mode m1) MODE_GROUP_HL then m1 else m2) ++ [AByte 0xE3]) else
  if ex_match m1 m2 MODE_REG_AF MODE_REG_AF_SEC then calls [AByte 0x08] else
  if ex_match m1 m2 MODE_REG_DE MODE_REG_HL then calls [AByte 0xEB] else
  fails ERROR_SECOND_OPERAND.
Definition handleIm (m1 : amode) : plan :=
  match constantOf (am_expr m1) with
  | None => fails ERROR_EXPR_CONST
  | Some v =>
      calls [AByte 0xED; if v =? 0 then AByte 0x46 else if v =? 1 then AByte 0x56 else if v =? 2 then AByte 0x5E
                         else AError ERROR_OPERAND_RANGE]
  end.
(** z80_parse.c:944-1012 handleInOut, handleIn, handleOut and handleReti. *)
Definition handleInOut (m1 m2 : amode) : plan :=
  if has (am_mode m1) MODE_REG_C_IND then calls [AByte prefix; AByte (u8 (Z.lor opcode (Z.shiftl (am_D m2) 3)))] else
  if has (am_mode m2) (MODE_REG_A + MODE_NONE) then
    calls [AByte (Z.lxor 0xDB (Z.shiftl (Z.land opcode 1) 3)); out8U (am_expr m1)] else
  fails ERROR_OPERAND.
Definition handleIn (m1 m2 : amode) : plan :=
  if has (am_mode m1) MODE_GROUP_D && (am_D m1 =? REG_D_HL_IND) then err ERROR_DEST_OPERAND else
  if has (am_mode m1) MODE_REG_C_IND then
    if negb (am_mode m2 =? 0) then err ERROR_SOURCE_OPERAND else
    and_then ensureUndocumentedEnabled ([AByte 0xED; AByte 0x70], false) else
  handleInOut m2 m1.
Definition handleOut (m1 m2 : amode) : plan :=
  if has (am_mode m2) MODE_GROUP_D && (am_D m2 =? REG_D_HL_IND) then err ERROR_SOURCE_OPERAND else
  if (am_mode m1 =? MODE_REG_C_IND) && has (am_mode m2) MODE_IMM then
    and_then ensureUndocumentedEnabled
      (match constantOf (am_expr m2) with
       | Some v => if v =? 0 then calls [AByte 0xED; AByte 0x71] else err ERROR_SOURCE_OPERAND
       | None => err ERROR_SOURCE_OPERAND
       end) else
  handleInOut m1 m2.
Definition handleReti : plan :=
  if IS_GB then calls [AByte 0xD9] else if IS_Z80 then handleImplied else calls [].
End OneHandler.

(** z80_parse.c:1014-1104 g_instructions. *)
Inductive handler : Type :=
| HAdc | HAdd | HAlu | HBit | HCall | HImplied | HDec | HDjnz | HEx | HIm | HIn | HJp | HJr | HLd | HLdd | HLdh | HLdhl
| HOut | HPop | HRet | HReti | HRl | HRlc | HRr | HRrc | HRst | HSbc | HSLA | HSLL | HSRA | HSRL | HStop | HRotate.
Definition apply_handler (i : instruction handler) (m1 m2 : amode) : plan :=
  let p := i_prefix handler i in
  let op := i_opcode handler i in
  match i_handler handler i with
  | HAdc => handleAdc op m1 m2 | HAdd => handleAdd op m1 m2 | HAlu => handleAlu op m1 m2 | HBit => handleBit op m1 m2
  | HCall => handleCall op m1 m2 | HImplied => handleImplied p op | HDec => handleDec op m1 | HDjnz => handleDjnz op m1
  | HEx => handleEx m1 m2 | HIm => handleIm m1 | HIn => handleIn p op m1 m2 | HJp => handleJp op m1 m2
  | HJr => handleJr m1 m2 | HLd => handleLd m1 m2 | HLdd => handleLdd op m1 m2 | HLdh => handleLdh op m1 m2
  | HLdhl => handleLdhl op m2 | HOut => handleOut p op m1 m2 | HPop => handlePop op m1 | HRet => handleRet m1
  | HReti => handleReti p op | HRl | HRlc | HRr | HRrc | HRotate => handleRotate op m1 | HRst => handleRst op m1
  | HSbc => handleSbc op m1 m2 | HSLA => handleSLx op m1 | HSLL => handleSLL op m1 | HSRA | HSRL => handleSRx op m1
  | HStop => handleStop
  end.

(** z80_parse.c:1208-1273: the operands are checked, and the handler is called.  Fields
    of an operand that are not set hold what happens to be in memory: [junk]. *)
Definition with_expr (mode : Z) (e : xexpr) (m : amode) : amode :=
  AMode mode e (am_cpu m) (am_D m) (am_SS m) (am_RR m) (am_HL m) (am_F m) (am_Ctrl m).
Definition with_D (d : Z) (m : amode) : amode :=
  AMode (am_mode m) (am_expr m) (am_cpu m) d (am_SS m) (am_RR m) (am_HL m) (am_F m) (am_Ctrl m).
Definition empty_mode (junk : amode) : amode :=
  AMode 0 XNull BOTH (am_D junk) (am_SS junk) (am_RR junk) (am_HL junk) (am_F junk) (am_Ctrl junk).
Definition allowed (m : amode) (modes : Z) : bool :=
  has (am_mode m) modes || ((am_mode m =? 0) && ((modes =? 0) || has modes MODE_NONE)).
Definition decide (i : instruction handler) (m1 m2 : amode) : plan :=
  if negb (allowed m1 (i_modes1 handler i)) then fails ERROR_FIRST_OPERAND else
  if negb (allowed m2 (i_modes2 handler i)) then fails ERROR_SECOND_OPERAND else
  if has (o_cpu o) (i_cpu handler i) && has (o_cpu o) (am_cpu m1) && has (o_cpu o) (am_cpu m2)
  then apply_handler i m1 m2
  else fails MERROR_INSTRUCTION_NOT_SUPPORTED_BY_CPU.
(** With one operand: the first may be A. *)
Definition with_A (m : amode) : amode := with_D REG_D_A (with_expr (MODE_REG_A + MODE_GROUP_D) XNull m).
Definition decide_one (i : instruction handler) (m1 m2 : amode) : plan :=
  if negb (i_modes2 handler i =? 0) && has (i_modes1 handler i) MODE_REG_A && has (i_modes2 handler i) (am_mode m1)
  then decide i (with_A m1) m1
  else decide i m1 m2.
End Handlers.
Arguments with_expr {E}. Arguments with_D {E}. Arguments empty_mode {E}. Arguments allowed {E}. Arguments with_A {E}.
Arguments XNull {E}. Arguments XExpr {E}. Arguments XOne {E}. Arguments XNext {E}.
Arguments AMode {E}. Arguments am_mode {E}. Arguments am_expr {E}. Arguments am_cpu {E}. Arguments am_D {E}. Arguments am_SS {E}.
Arguments am_RR {E}. Arguments am_HL {E}. Arguments am_F {E}. Arguments am_Ctrl {E}.
Arguments AByte {E}. Arguments AExpr8 {E}. Arguments AChecked {E}. Arguments APcRel {E}. Arguments AImmHi {E}.
Arguments ABitNo {E}. Arguments ANext {E}. Arguments AError {E}.
Arguments Instr {handler}. Arguments i_cpu {handler}. Arguments i_prefix {handler}. Arguments i_opcode {handler}.
Arguments i_modes1 {handler}. Arguments i_modes2 {handler}. Arguments i_handler {handler}.
Arguments addressMode {E}. Arguments noMode {E}.

Definition g_instructions : list (instruction handler) :=
  [Instr BOTH 0xED 0x08 (MODE_REG_A + MODE_REG_HL) (MODE_GROUP_D + MODE_IMM + MODE_GROUP_I_IND_DISP + MODE_GROUP_SS
     + MODE_GROUP_IXYLH) HAdc (* ADC *);
   Instr BOTH 0x00 0x00 (MODE_REG_A + MODE_GROUP_HL + MODE_REG_SP) (MODE_GROUP_D + MODE_IMM + MODE_GROUP_SS +
     MODE_GROUP_HL + MODE_GROUP_I_IND_DISP + MODE_GROUP_IXYLH) HAdd (* ADD *);
   Instr BOTH 0x00 0x20 MODE_REG_A (MODE_GROUP_D + MODE_IMM + MODE_GROUP_I_IND_DISP + MODE_GROUP_IXYLH) HAlu (* AND
     *);
   Instr BOTH 0x00 0x40 MODE_IMM (MODE_GROUP_D + MODE_GROUP_I_IND_DISP) HBit (* BIT *);
   Instr BOTH 0x00 0xCD (MODE_CC_Z80 + MODE_IMM) (MODE_IMM + MODE_NONE) HCall (* CALL *);
   Instr BOTH 0x00 0x3F 0 0 HImplied (* CCF *);
   Instr BOTH 0x00 0x38 MODE_REG_A (MODE_GROUP_D + MODE_IMM + MODE_GROUP_I_IND_DISP + MODE_GROUP_IXYLH) HAlu (* CP *);
   Instr CPUF_Z80 0xED 0xA9 0 0 HImplied (* CPD *);
   Instr CPUF_Z80 0xED 0xB9 0 0 HImplied (* CPDR *);
   Instr CPUF_Z80 0xED 0xA1 0 0 HImplied (* CPI *);
   Instr CPUF_Z80 0xED 0xB1 0 0 HImplied (* CPIR *);
   Instr BOTH 0x00 0x2F 0 0 HImplied (* CPL *);
   Instr BOTH 0x00 0x27 0 0 HImplied (* DAA *);
   Instr BOTH 0x00 0x01 (MODE_GROUP_SS + MODE_GROUP_D + MODE_GROUP_I_IND_DISP + MODE_GROUP_HL) 0 HDec (* DEC *);
   Instr BOTH 0x00 0xF3 0 0 HImplied (* DI *);
   Instr CPUF_Z80 0x00 0x10 MODE_IMM 0 HDjnz (* DJNZ *);
   Instr BOTH 0x00 0xFB 0 0 HImplied (* EI *);
   Instr CPUF_Z80 0x00 0x00 MODE_GROUP_EX MODE_GROUP_EX HEx (* EX *);
   Instr CPUF_Z80 0x00 0xD9 0 0 HImplied (* EXX *);
   Instr BOTH 0x00 0x76 0 0 HImplied (* HALT *);
   Instr CPUF_Z80 0xED 0x46 MODE_IMM 0 HIm (* IM *);
   Instr CPUF_Z80 0xED 0x40 (MODE_GROUP_D + MODE_REG_C_IND) (MODE_IMM_IND + MODE_REG_C_IND + MODE_NONE) HIn (* IN *);
   Instr BOTH 0x00 0x00 (MODE_GROUP_SS + MODE_GROUP_D + MODE_GROUP_I_IND_DISP + MODE_GROUP_HL + MODE_GROUP_IXYLH) 0
     HDec (* INC *);
   Instr CPUF_Z80 0xED 0xAA 0 0 HImplied (* IND *);
   Instr CPUF_Z80 0xED 0xBA 0 0 HImplied (* INDR *);
   Instr CPUF_Z80 0xED 0xA2 0 0 HImplied (* INI *);
   Instr CPUF_Z80 0xED 0xB2 0 0 HImplied (* INIR *);
   Instr BOTH 0x00 0xC3 (MODE_CC_Z80 + MODE_IMM + MODE_REG_HL_IND + MODE_REG_IX_IND + MODE_REG_IY_IND) (MODE_IMM +
     MODE_NONE) HJp (* JP *);
   Instr BOTH 0x00 0x00 (MODE_CC_GB + MODE_IMM) (MODE_IMM + MODE_NONE) HJr (* JR *);
   Instr BOTH 0x00 0x00 (MODE_REG_A + MODE_REG_C_IND + MODE_REG_HL + MODE_REG_SP + MODE_GROUP_HL + MODE_REG_CONTROL
     + MODE_GROUP_D + MODE_GROUP_RR + MODE_GROUP_SS + MODE_IMM_IND + MODE_GROUP_I_IND_DISP + MODE_GROUP_IXYLH)
     (MODE_REG_A + MODE_REG_C_IND + MODE_REG_HL + MODE_REG_SP + MODE_GROUP_HL + MODE_REG_CONTROL + MODE_REG_SP_DISP
     + MODE_GROUP_D + MODE_GROUP_RR + MODE_IMM_IND + MODE_IMM + MODE_GROUP_SS + MODE_GROUP_I_IND_DISP +
     MODE_GROUP_IXYLH) HLd (* LD *);
   Instr BOTH 0x00 0x32 (MODE_NONE + MODE_REG_A + MODE_REG_HL_IND) (MODE_NONE + MODE_REG_A + MODE_REG_HL_IND) HLdd
     (* LDD *);
   Instr CPUF_Z80 0xED 0xB8 0 0 HImplied (* LDDR *);
   Instr BOTH 0x00 0x22 (MODE_NONE + MODE_REG_A + MODE_REG_HL_IND) (MODE_NONE + MODE_REG_A + MODE_REG_HL_IND) HLdd
     (* LDI *);
   Instr CPUF_Z80 0xED 0xB0 0 0 HImplied (* LDIR *);
   Instr CPUF_GB 0x00 0xE0 (MODE_IMM_IND + MODE_REG_A) (MODE_IMM_IND + MODE_REG_A) HLdh (* LDH *);
   Instr CPUF_GB 0x00 0xF8 MODE_REG_SP MODE_IMM HLdhl (* LDHL *);
   Instr CPUF_Z80 0xED 0x44 0 0 HImplied (* NEG *);
   Instr BOTH 0x00 0x00 0 0 HImplied (* NOP *);
   Instr BOTH 0x00 0x30 MODE_REG_A (MODE_GROUP_D + MODE_IMM + MODE_GROUP_I_IND_DISP + MODE_GROUP_IXYLH) HAlu (* OR *);
   Instr CPUF_Z80 0xED 0xBB 0 0 HImplied (* OTDR *);
   Instr CPUF_Z80 0xED 0xB3 0 0 HImplied (* OTIR *);
   Instr CPUF_Z80 0xED 0x41 (MODE_IMM_IND + MODE_REG_C_IND) (MODE_GROUP_D + MODE_IMM) HOut (* OUT *);
   Instr CPUF_Z80 0xED 0xAB 0 0 HImplied (* OUTD *);
   Instr CPUF_Z80 0xED 0xA3 0 0 HImplied (* OUTI *);
   Instr BOTH 0x00 0xC1 (MODE_GROUP_SS_AF + MODE_GROUP_HL) 0 HPop (* POP *);
   Instr BOTH 0x00 0xC5 (MODE_GROUP_SS_AF + MODE_GROUP_HL) 0 HPop (* PUSH *);
   Instr BOTH 0x00 0x80 MODE_IMM (MODE_GROUP_D + MODE_GROUP_I_IND_DISP) HBit (* RES *);
   Instr BOTH 0x00 0xC0 (MODE_NONE + MODE_CC_Z80) 0 HRet (* RET *);
   Instr BOTH 0xED 0x4D 0 0 HReti (* RETI *);
   Instr CPUF_Z80 0xED 0x45 0 0 HImplied (* RETN *);
   Instr BOTH 0x00 0x10 (MODE_GROUP_D + MODE_GROUP_I_IND_DISP) 0 HRl (* RL *);
   Instr BOTH 0x00 0x17 0 0 HImplied (* RLA *);
   Instr BOTH 0x00 0x00 (MODE_GROUP_D + MODE_GROUP_I_IND_DISP) 0 HRlc (* RLC *);
   Instr BOTH 0x00 0x07 0 0 HImplied (* RLCA *);
   Instr CPUF_Z80 0xED 0x6F 0 0 HImplied (* RLD *);
   Instr BOTH 0x00 0x18 (MODE_GROUP_D + MODE_GROUP_I_IND_DISP) 0 HRr (* RR *);
   Instr BOTH 0x00 0x1F 0 0 HImplied (* RRA *);
   Instr BOTH 0x00 0x08 (MODE_GROUP_D + MODE_GROUP_I_IND_DISP) 0 HRrc (* RRC *);
   Instr BOTH 0x00 0x0F 0 0 HImplied (* RRCA *);
   Instr CPUF_Z80 0xED 0x67 0 0 HImplied (* RRD *);
   Instr BOTH 0x00 0xC7 MODE_IMM 0 HRst (* RST *);
   Instr BOTH 0x00 0x18 (MODE_REG_A + MODE_REG_HL) (MODE_GROUP_D + MODE_IMM + MODE_GROUP_I_IND_DISP + MODE_GROUP_SS
     + MODE_GROUP_IXYLH) HSbc (* SBC *);
   Instr BOTH 0x00 0x37 0 0 HImplied (* SCF *);
   Instr BOTH 0x00 0xC0 MODE_IMM (MODE_GROUP_D + MODE_GROUP_I_IND_DISP) HBit (* SET *);
   Instr BOTH 0x00 0x20 (MODE_GROUP_SS + MODE_GROUP_D + MODE_GROUP_I_IND_DISP) 0 HSLA (* SLA *);
   Instr CPUF_Z80 0x00 0x30 (MODE_GROUP_SS + MODE_GROUP_D + MODE_GROUP_I_IND_DISP) 0 HSLL (* SLL *);
   Instr BOTH 0x00 0x28 (MODE_GROUP_SS + MODE_GROUP_D + MODE_GROUP_I_IND_DISP) 0 HSRA (* SRA *);
   Instr BOTH 0x00 0x38 (MODE_GROUP_SS + MODE_GROUP_D + MODE_GROUP_I_IND_DISP) 0 HSRL (* SRL *);
   Instr CPUF_GB 0x00 0x10 0 0 HStop (* STOP *);
   Instr BOTH 0x00 0x10 MODE_REG_A (MODE_GROUP_D + MODE_IMM + MODE_GROUP_I_IND_DISP + MODE_GROUP_IXYLH) HAlu (* SUB
     *);
   Instr CPUF_GB 0x00 0x30 MODE_GROUP_D 0 HRotate (* SWAP *);
   Instr BOTH 0x00 0x28 MODE_REG_A (MODE_GROUP_D + MODE_IMM + MODE_GROUP_I_IND_DISP + MODE_GROUP_IXYLH) HAlu (* XOR
     *)].

(** ** Tokens *)
Definition T_Z80_ADC : Z := 6000.
Definition T_Z80_SET : Z := 6063.
Definition T_Z80_XOR : Z := 6071.
Definition T_MODE_SP : Z := 6087.
Definition T_MODE_IX : Z := 6088.
Definition T_MODE_IY : Z := 6089.
Definition T_SYM_SET : Z := 352.
(** z80_tokens.c:29-155 g_tokens, with SET from /repo/xasm/motor/tokens.c:100. *)
Definition g_tokens : list (string * Z) :=
  [("ADC", 6000); ("ADD", 6001); ("AND", 6002); ("BIT", 6003); ("CALL", 6004); ("CCF", 6005); ("CPL", 6011);
   ("CP", 6006); ("CPD", 6007); ("CPDR", 6008); ("CPI", 6009); ("CPIR", 6010); ("DAA", 6012); ("DEC", 6013);
   ("DI", 6014); ("DJNZ", 6015); ("EI", 6016); ("EX", 6017); ("EXX", 6018); ("HALT", 6019); ("IM", 6020);
   ("IN", 6021); ("INC", 6022); ("IND", 6023); ("INDR", 6024); ("INI", 6025); ("INIR", 6026); ("JP", 6027);
   ("JR", 6028); ("LD", 6029); ("LDD", 6030); ("LDDR", 6031); ("LDI", 6032); ("LDIR", 6033); ("LDH", 6034);
   ("LDIO", 6034); ("LDHL", 6035); ("NEG", 6036); ("NOP", 6037); ("OR", 6038); ("OTDR", 6039); ("OTIR", 6040);
   ("OUT", 6041); ("OUTD", 6042); ("OUTI", 6043); ("POP", 6044); ("PUSH", 6045); ("RES", 6046); ("RET", 6047);
   ("RETI", 6048); ("RETN", 6049); ("RL", 6050); ("RLA", 6051); ("RLC", 6052); ("RLD", 6054); ("RLCA", 6053);
   ("RR", 6055); ("RRA", 6056); ("RRC", 6057); ("RRD", 6059); ("RRCA", 6058); ("RST", 6060); ("SBC", 6061);
   ("SCF", 6062); ("SET", T_SYM_SET); ("SLA", 6064); ("SLL", 6065); ("SRA", 6066); ("SRL", 6067); ("STOP", 6068);
   ("SUB", 6069); ("SWAP", 6070); ("XOR", 6071); ("NZ", 6101); ("Z", 6102); ("NC", 6103); ("PO", 6104);
   ("PE", 6105); ("P", 6106); ("M", 6107); ("[HL]", 6078); ("(HL)", 6078); ("[HL+]", 6095); ("(HL+)", 6095);
   ("[HL-]", 6096); ("(HL-)", 6096); ("HL", 6086); ("AF", 6097); ("AF'", 6098); ("[BC]", 6093); ("(BC)", 6093);
   ("BC", 6084); ("[DE]", 6094); ("(DE)", 6094); ("DE", 6085); ("[SP]", 6092); ("(SP)", 6092); ("SP", 6087);
   ("IX", 6088); ("IY", 6089); ("A", 6079); ("B", 6072); ("[C]", 6090); ("(C)", 6090); ("[$FF00+C]", 6091);
   ("($FF00+C)", 6091); ("C", 6073); ("D", 6074); ("E", 6075); ("H", 6076); ("L", 6077); ("IXH", 6080);
   ("IXL", 6081); ("IYH", 6082); ("IYL", 6083); ("I", 6099); ("R", 6100)].
(** The rest of a source line: words that are keywords, punctuation, and text that
    parse_Expression consumes, with the expression it gives; [TSigned] is such text
    that begins with a plus or minus sign.  Anything else is [TOther]; parse_Expression
    gives nothing at anything but [TExpr], [TSigned] and a parenthesised one of these.
    Simplification: a sign is always followed by an expression. *)
Inductive token : Type := TId (id : Z) | TComma | TLp | TRp | TLb | TRb | TExpr (e : expr) | TSigned (e : expr) | TOther.
Fixpoint assoc (s : string) (l : list (string * Z)) : token :=
  match l with [] => TOther | (k, v) :: r => if String.eqb s k then TId v else assoc s r end.
(** Source text.  Simplification: words are in upper case. *)
Inductive piece : Type := Word (s : string) | Comma | Lp | Rp | Lb | Rb | Operand (e : expr) | Signed (e : expr).
Definition lex1 (p : piece) : token :=
  match p with
  | Word s => assoc s g_tokens | Comma => TComma | Lp => TLp | Rp => TRp | Lb => TLb | Rb => TRb
  | Operand e => TExpr e | Signed e => TSigned e
  end.
Definition lex (l : list piece) : list token := map lex1 l.

(** parse_expression.c:655-657 parse_Expression and 157-175: a parenthesised
    expression. *)
Definition parse_Expression (ts : list token) : res (option (expr * list token)) :=
  match ts with
  | TExpr e :: r | TSigned e :: r => Ok (Some (e, r))
  | TLp :: TExpr e :: TRp :: r | TLp :: TSigned e :: TRp :: r => let! p := expr_Parens e in Ok (Some (p, r))
  | _ => Ok None
  end.
Definition e_isParens (e : expr) : bool := match e with ENode TParens _ _ _ _ _ _ => true | _ => false end.
(** sect_Current. *)
Definition sect_Current (st : xstate) : option asect :=
  match x_current st with
  | None => None
  | Some k => match nth_error (x_sections st) k with None => None | Some m => Some (ws_sect (m_w m)) end
  end.

Section Parser.
Variable F : fmath.
Variable o : mopts.
Definition expr_And (a b : expr) : res expr := expr_Binary F OpAnd a b.
Definition expr_Or (a b : expr) : res expr := expr_Binary F OpOr a b.
Definition expr_Asl (a b : expr) : res expr := expr_Binary F OpAsl a b.
Definition expr_Add (a b : expr) : res expr := expr_Binary F OpAdd a b.
Definition constant (e : expr) : option Z := if expr_IsConstant e then Some (e_v e) else None.

(** z80_parse.c:666-671: the displacement plus 1, and the state with a report if it is
    out of range. *)
Definition next_of (e : expr) (st : xstate) : res (expr * xstate) :=
  let! e1 := expr_Add e (expr_Const 1) in range_checked e1 (-128) 127 st.
(** The expression itself; reports are made by [ANext]. *)
Definition theExpr (x : xexpr expr) (st : xstate) : res expr :=
  match x with
  | XNull => Ok ENull
  | XExpr e => Ok e
  | XOne => Ok (expr_Const 1)
  | XNext e => let! (e1, _) := next_of e st in Ok e1
  end.
(** The calls: z80_parse.c:251-303 createExpression..., 427-432, and the functions of
    section.c. *)
Definition run_act (a : act expr) (st : xstate) : res xstate :=
  match a with
  | AByte b => sect_OutputConst8 b st
  | AExpr8 x => let! e := theExpr x st in sect_OutputExpr8 e st
  | AChecked n lo hi x =>
      let! e := theExpr x st in
      let! (e1, st1) := range_checked e lo hi st in
      match n with 1%nat => sect_OutputExpr8 e1 st1 | _ => sect_OutputExpr16 e1 st1 end
  | APcRel x =>
      let! e := theExpr x st in
      let! e1 := expr_PcRelative F (sect_Current st) e (-1) in
      let! (e2, st1) := range_checked e1 (-128) 127 st in
      sect_OutputExpr8 e2 st1
  | AImmHi x =>
      let! e := theExpr x st in
      let! (e1, st1) := range_checked e 0xFF00 0xFFFF st in
      let! e2 := expr_And e1 (expr_Const 0xFF) in
      sect_OutputExpr8 e2 st1
  | ABitNo opcode x =>
      let! e := theExpr x st in
      let! (e1, st1) := range_checked e 0 7 st in
      let! e2 := expr_Asl e1 (expr_Const 3) in
      let! e3 := expr_Or (expr_Const opcode) e2 in
      sect_OutputExpr8 e3 st1
  | ANext x =>
      match x with XExpr e => let! (_, st1) := next_of e st in Ok st1 | _ => Ok st end
  | AError n => Ok (err_Error n st)
  end.
Fixpoint run_acts (l : list (act expr)) (st : xstate) : res xstate :=
  match l with [] => Ok st | a :: r => let! st1 := run_act a st in run_acts r st1 end.

(** ** Operands
    z80_parse.c:1106-1200 parse_AddrMode: whether there is an operand, the operand,
    what follows, and the state.  [m] is the structure to fill in. *)
Definition parsed : Type := res (bool * amode expr * list token * xstate).
(** Lines 1108-1130: a keyword. *)
Definition parse_keyword (id : Z) (r : list token) (st : xstate) (m : amode expr) : parsed :=
  let found m1 :=
    if has (am_mode m1) MODE_GROUP_IXYLH then
      if IS_Z80 o then
        if o_undocumented o then Ok (true, m1, r, st) else Ok (false, m1, r, err_Error MERROR_UNDOCUMENTED_INSTRUCTIONS st)
      else Ok (false, m1, r, st)
    else Ok (true, m1, r, st) in
  match r with
  | TSigned e :: r1 =>
      if id =? T_MODE_SP then
        let! (e1, st1) := range_checked e (-128) 127 st in
        Ok (true, with_expr MODE_REG_SP_DISP (XExpr e1) m, r1, st1)
      else found (addressMode id)
  | _ => found (addressMode id)
  end.
(** parse.c:122-131 parse_ExpectChar. *)
Definition closes (brackets : bool) (t : token) : bool :=
  match t with TRp => negb brackets | TRb => brackets | _ => false end.
Definition expect_end (brackets : bool) (ts : list token) (st : xstate) : option (list token) * xstate :=
  match ts with
  | t :: r => if closes brackets t then (Some r, st) else (None, err_Error ERROR_CHAR_EXPECTED st)
  | [] => (None, err_Error ERROR_CHAR_EXPECTED st)
  end.
(** Lines 1132-1163: an index register, after the opening bracket.  [None]: something
    else, which is tried from the bracket on. *)
Definition parse_index (brackets : bool) (r : list token) (st : xstate) (m : amode expr)
    : res (option (amode expr * list token) * xstate) :=
  match r with
  | TId id :: r1 =>
      if (id =? T_MODE_IX) || (id =? T_MODE_IY) then
        match r1 with
        | TSigned e :: r2 =>
            let! (e1, st1) := range_checked e (-128) 127 st in
            let '(q, st2) := expect_end brackets r2 st1 in
            match q with
            | Some r3 =>
                Ok (Some (with_D REG_D_HL_IND
                            (with_expr (if id =? T_MODE_IX then MODE_REG_IX_IND_DISP else MODE_REG_IY_IND_DISP) (XExpr e1) m), r3), st2)
            | None => Ok (None, st2)
            end
        | _ =>
            let '(q, st2) := expect_end brackets r1 st in
            match q with
            | Some r3 =>
                Ok (Some (with_expr (if id =? T_MODE_IX then MODE_REG_IX_IND else MODE_REG_IY_IND) XNull m, r3), st2)
            | None => Ok (None, st2)
            end
        end
      else Ok (None, st)
  | _ => Ok (None, st)
  end.
(** Lines 1165-1199: an address in brackets, or an expression. *)
Definition parse_plain (ts : list token) (st : xstate) (m : amode expr) : parsed :=
  let! x := parse_Expression ts in
  match x with
  | Some (e, r) => Ok (true, with_expr (if e_isParens e then MODE_IMM_IND else MODE_IMM) (XExpr e) m, r, st)
  | None => Ok (false, m, ts, st)
  end.
Definition parse_bracket (ts : list token) (st : xstate) (m : amode expr) : parsed :=
  match ts with
  | TLb :: r =>
      let! x := parse_Expression r in
      match x with
      | Some (e, TRb :: r1) => Ok (true, with_expr MODE_IMM_IND (XExpr e) m, r1, st)
      | _ => parse_plain ts st m
      end
  | _ => parse_plain ts st m
  end.
Definition parse_AddrMode (ts : list token) (st : xstate) (m : amode expr) : parsed :=
  match ts with
  | TId id :: r => if (T_MODE_B <=? id) && (id <=? T_CC_M) then parse_keyword id r st m else parse_bracket ts st m
  | TLp :: r | TLb :: r =>
      let! (x, st1) := parse_index (match ts with TLb :: _ => true | _ => false end) r st m in
      match x with
      | Some (m1, r1) => Ok (true, m1, r1, st1)
      | None => parse_bracket ts st1 m
      end
  | _ => parse_bracket ts st m
  end.

(** ** Instructions
    z80_parse.c:1202-1273 translateToken and z80_ParseInstruction: whether there was an
    instruction, what follows, and the state.  [junk1] and [junk2] are the operands
    before they are filled in. *)
Definition translateToken (id : Z) : Z := if id =? T_SYM_SET then T_Z80_SET else id.
Definition carry_out (p : plan expr) (ts : list token) (st : xstate) : res (bool * list token * xstate) :=
  let! st1 := run_acts (fst p) st in Ok (snd p, ts, st1).
Definition z80_ParseInstruction (junk1 junk2 : amode expr) (ts : list token) (st : xstate) : res (bool * list token * xstate) :=
  match ts with
  | TId id0 :: r =>
      let id := translateToken id0 in
      if (T_Z80_ADC <=? id) && (id <=? T_Z80_XOR) then
        let i := nth (Z.to_nat (id - T_Z80_ADC)) g_instructions (Instr 0 0 0 0 0 HImplied) in
        if i_modes1 i =? 0 then carry_out (decide expr constant o i (empty_mode junk1) (empty_mode junk2)) r st else
        let! (b1, m1, r1, st1) := parse_AddrMode r st (empty_mode junk1) in
        if b1 then
          match r1 with
          | TComma :: r2 =>
              let! (b2, m2, r3, st2) := parse_AddrMode r2 st1 (empty_mode junk2) in
              if b2 then carry_out (decide expr constant o i m1 m2) r3 st2 else Ok (true, r3, err_Error ERROR_SECOND_OPERAND st2)
          | _ => carry_out (decide_one expr constant o i m1 (empty_mode junk2)) r1 st1
          end
        else if negb (am_mode m1 =? 0) && negb (has (am_mode m1) MODE_NONE)
        then Ok (true, r1, err_Error ERROR_FIRST_OPERAND st1)
        else carry_out (decide expr constant o i m1 (empty_mode junk2)) r1 st1
      else Ok (false, ts, st)
  | _ => Ok (false, ts, st)
  end.
End Parser.
