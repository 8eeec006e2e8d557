(** Model of the DCPU-16 instruction parser: /repo/xasm/dcpu-16/dcpu16_parse.c,
    dcpu16_tokens.c, dcpu16_tokens.h, dcpu16_errors.h and dcpu16_options.c. *)
From Coq Require Import ZArith List Bool String.
From Verif Require Import Base Arith ExprModel ObjWriteModel OptModel SectModel.
Import ListNotations.
Open Scope string_scope.
Open Scope list_scope.
Open Scope Z_scope.

(** errors.h:24-103 EError and dcpu16_errors.h:24-28. *)
Definition ERROR_CHAR_EXPECTED : Z := 100.
Definition MERROR_ILLEGAL_ADDRMODE : Z := 1000.
Definition MERROR_ADDRMODE_ONE_REGISTER : Z := 1001.
Definition MERROR_ADDRMODE_SUBTRACT_REGISTER : Z := 1002.

(** dcpu16_tokens.h:24-63 ETargetToken and lexer tokens. *)
Definition T_SYM_SET : Z := 352.
Definition T_DCPU16_ADD : Z := 6000.
Definition T_DCPU16_SET : Z := 6011.
Definition T_DCPU16_XOR : Z := 6015.
Definition T_REG_A : Z := 6016.
Definition T_REG_J : Z := 6023.
Definition T_REG_POP : Z := 6024.
Definition T_REG_PEEK : Z := 6025.
Definition T_REG_PUSH : Z := 6026.
Definition T_REG_SP : Z := 6027.
Definition T_REG_PC : Z := 6028.
Definition T_REG_O : Z := 6029.
(** dcpu16_tokens.c:25-63 g_tokens, and SET, which is lexed as the directive. *)
Definition g_tokens : list (string * Z) :=
  [("ADD", 6000); ("AND", 6001); ("BOR", 6002); ("DIV", 6003); ("IFB", 6004); ("IFE", 6005); ("IFG", 6006); ("IFN", 6007);
   ("JSR", 6008); ("MOD", 6009); ("MUL", 6010); ("SET", T_SYM_SET); ("SHL", 6012); ("SHR", 6013); ("SUB", 6014); ("XOR", 6015);
   ("A", 6016); ("B", 6017); ("C", 6018); ("X", 6019); ("Y", 6020); ("Z", 6021); ("I", 6022); ("J", 6023);
   ("POP", T_REG_POP); ("[SP++]", T_REG_POP); ("PEEK", T_REG_PEEK); ("[SP]", T_REG_PEEK); ("PUSH", T_REG_PUSH);
   ("[--SP]", T_REG_PEEK); ("SP", T_REG_SP); ("PC", T_REG_PC); ("O", T_REG_O)].

(** The rest of a source line: words that are keywords, punctuation, and text that
    parse_Expression consumes, with the expression it gives and the expression that
    what follows its first token gives, if that is one.  Anything else is [TOther];
    parse_Expression consumes nothing and gives nothing at anything but [TExpr].
    Simplification: keywords are no labels (parse_expression.c:192, an option). *)
Inductive token : Type :=
| TId (id : Z) | TComma | TLb | TRb | TPlus | TMinus | TExpr (e : expr) (tail : option expr) | TOther.
Fixpoint assoc (s : string) (l : list (string * Z)) : token :=
  match l with [] => TOther | (k, v) :: r => if String.eqb s k then TId v else assoc s r end.
(** Source text.  Simplification: words are in upper case. *)
Inductive piece : Type := Word (s : string) | Comma | Lb | Rb | Plus | Minus | Operand (e : expr) (tail : option expr).
Definition lex1 (p : piece) : token :=
  match p with
  | Word s => assoc s g_tokens | Comma => TComma | Lb => TLb | Rb => TRb | Plus => TPlus | Minus => TMinus
  | Operand e t => TExpr e t
  end.
Definition lex (l : list piece) : list token := map lex1 l.

(** parse.c parse_GetToken: one token is skipped, which may be the first of several an
    expression consists of. *)
Definition parse_GetToken (ts : list token) : list token :=
  match ts with TExpr _ (Some e) :: r => TExpr e None :: r | _ :: r => r | [] => [] end.
(** parse_expression.c:655-657 parse_Expression.  A plus sign after the expression is
    left (parse_expression.c:549-563); a minus sign that no expression follows (564-568) is
    taken to be a subtraction of nothing, which ends the program. *)
Definition parse_Expression (ts : list token) : res (option (expr * list token)) :=
  match ts with
  | TExpr _ _ :: TMinus :: _ => Err
  | TExpr e _ :: r => Ok (Some (e, r))
  | _ => Ok None
  end.
(** parse.c parse_ExpectComma and parse_ExpectChar. *)
Definition parse_ExpectComma (ts : list token) (st : xstate) : bool * list token * xstate :=
  match ts with TComma :: r => (true, r, st) | _ => (false, ts, err_Error ERROR_CHAR_EXPECTED st) end.
Definition parse_ExpectRb (ts : list token) (st : xstate) : list token * xstate :=
  match ts with TRb :: r => (r, st) | _ => (ts, err_Error ERROR_CHAR_EXPECTED st) end.

(** ** Addressing modes *)
(** dcpu16_parse.c:59-92 EAddrMode, 94-95 ADDRF_ALL and ADDRF_LITERAL. *)
Definition ADDR_A : Z := 0.
Definition ADDR_A_IND : Z := 8.
Definition ADDR_A_OFFSET_IND : Z := 16.
Definition ADDR_J_OFFSET_IND : Z := 23.
Definition ADDR_POP : Z := 24.
Definition ADDR_ADDRESS_IND : Z := 30.
Definition ADDR_LITERAL : Z := 31.
Definition ADDR_LITERAL_00 : Z := 32.
Definition ADDRF_ALL : Z := 0xFFFFFFFF.
Definition ADDRF_LITERAL : Z := Z.shiftl 1 ADDR_LITERAL.
Definition allows (allowed mode : Z) : bool := negb (Z.land allowed (Z.shiftl 1 mode) =? 0).
(** dcpu16_parse.c:97-100 SAddressingMode.  The address is absent, present, or a pointer to
    freed memory. *)
Inductive addr : Type := NoAddr | Addr (e : expr) | Freed.
Record amode : Type := AMode { am_mode : Z; am_addr : addr }.

(** dcpu16_parse.c:41-56 expressionCheckSU16 and expressionCheckU16; expr_CheckRange never
    gives NULL. *)
Definition expressionCheckSU16 (F : fmath) (e : expr) (st : xstate) : res (expr * xstate) :=
  let! (e1, st1) := range_checked e (-32768) 65535 st in
  let! e2 := expr_Binary F OpAnd e1 (expr_Const 0xFFFF) in
  Ok (e2, st1).
Definition expressionCheckU16 (e : expr) (st : xstate) : res (expr * xstate) := range_checked e 0 65535 st.

(** dcpu16_parse.c:102-130 expressionNoReservedIdentifiers and indirectComponent: a register or
    an expression. *)
Inductive component : Type := CReg (r : Z) | CExpr (e : expr).
Definition indirectComponent (ts : list token) : res (option (component * list token)) :=
  let other := let! o := parse_Expression ts in
               Ok (match o with Some (e, r) => Some (CExpr e, r) | None => None end) in
  match ts with
  | TId t :: r => if (T_REG_A <=? t) && (t <=? T_REG_J) then Ok (Some (CReg (t - T_REG_A), r)) else other
  | _ => other
  end.
(** dcpu16_parse.c:132-171 indirectAdd and indirectSubtract: None is false.  The new
    address is never NULL. *)
Definition partial : Type := option Z * option expr * list token * xstate.
Definition indirectAdd (F : fmath) (reg : option Z) (address : option expr) (ts : list token) (st : xstate) :
    res (option partial * list token) :=
  let! o := indirectComponent ts in
  match o with
  | None => Ok (None, ts)
  | Some (CReg n, r) =>
      match reg with
      | None => Ok (Some (Some n, address, r, st), r)
      | Some _ => Ok (Some (reg, address, r, err_Error MERROR_ADDRMODE_ONE_REGISTER st), r)
      end
  | Some (CExpr e, r) =>
      match address with
      | None => Ok (Some (reg, Some e, r, st), r)
      | Some a => let! s := expr_Binary F OpAdd a e in Ok (Some (reg, Some s, r, st), r)
      end
  end.
(** The address tested against NULL is the one of the caller's variable, so that a
    missing address is passed to expr_Sub, which ends the program. *)
Definition indirectSubtract (F : fmath) (w : world) (reg : option Z) (address : option expr) (ts0 : list token) (st : xstate) :
    res (option partial * list token) :=
  let ts := parse_GetToken ts0 in
  let! o := indirectComponent ts in
  match o with
  | None => Ok (None, ts)
  | Some (CReg n, r) => Ok (Some (reg, address, r, err_Error MERROR_ADDRMODE_SUBTRACT_REGISTER st), r)
  | Some (CExpr e, r) =>
      match address with
      | None => Err
      | Some a => let! s := expr_Sub F w a e in Ok (Some (reg, Some s, r, st), r)
      end
  end.
(** dcpu16_parse.c:184-194: the loop.  [fuel] bounds the number of rounds; each takes a
    token. *)
Fixpoint indirectLoop (F : fmath) (w : world) (fuel : nat) (reg : option Z) (address : option expr) (ts : list token) (st : xstate) :
    res (option partial * list token * xstate) :=
  match fuel with
  | O => Err
  | S fuel =>
      match ts with
      | TPlus :: r =>
          let! (o, r1) := indirectAdd F reg address r st in
          match o with
          | None => Ok (None, r1, st)
          | Some (reg1, address1, ts1, st1) => indirectLoop F w fuel reg1 address1 ts1 st1
          end
      | TMinus :: r =>
          let! (o, r1) := indirectSubtract F w reg address r st in
          match o with
          | None => Ok (None, r1, st)
          | Some (reg1, address1, ts1, st1) => indirectLoop F w fuel reg1 address1 ts1 st1
          end
      | _ => Ok (Some (reg, address, ts, st), ts, st)
      end
  end.
(** dcpu16_parse.c:173-224 indirectAddressing; the text left also when it fails. *)
Definition indirectAddressing (F : fmath) (w : world) (allowed : Z) (ts : list token) (st : xstate) :
    res (option amode * list token * xstate) :=
  match ts with
  | TLb :: r =>
      let! c := indirectComponent r in
      match c with
      | None => Ok (None, r, st)
      | Some (c, r1) =>
          let (reg, address) := match c with CReg n => (Some n, None) | CExpr e => (None, Some e) end in
          let! (o, r2, st2) := indirectLoop F w (S (List.length r1)) reg address r1 st in
          match o with
          | None => Ok (None, r2, st2)
          | Some (reg, address, r2, st2) =>
              let (r3, st3) := parse_ExpectRb r2 st2 in
              match reg, address with
              | Some n, None =>
                  if allows allowed (ADDR_A_IND + n) then Ok (Some (AMode (ADDR_A_IND + n) NoAddr), r3, st3)
                  else Ok (None, r3, st3)
              | Some n, Some a =>
                  if allows allowed (ADDR_A_OFFSET_IND + n)
                  then let! (a1, st4) := expressionCheckSU16 F a st3 in
                       Ok (Some (AMode (ADDR_A_OFFSET_IND + n) (Addr a1)), r3, st4)
                  else Ok (None, r3, st3)
              | None, Some a =>
                  if allows allowed ADDR_ADDRESS_IND
                  then let! (a1, st4) := expressionCheckU16 a st3 in
                       Ok (Some (AMode ADDR_ADDRESS_IND (Addr a1)), r3, st4)
                  else Ok (None, r3, st3)
              | None, None => Ok (None, r3, st3)
              end
          end
      end
  | _ => Ok (None, ts, st)
  end.
(** dcpu16_parse.c:226-247 optimizeAddressingMode. *)
Definition isConst (a : addr) : bool := match a with Addr e => expr_IsConstant e | _ => false end.
Definition addrValue (a : addr) : Z := match a with Addr e => e_v e | _ => 0 end.
Definition optimizeAddressingMode (optimize : bool) (m : amode) : amode :=
  if optimize then
    let m1 :=
      if (am_mode m =? ADDR_LITERAL) && isConst (am_addr m) && (u16 (addrValue (am_addr m)) <=? 0x1F)
      then AMode (ADDR_LITERAL_00 + u16 (addrValue (am_addr m))) NoAddr else m in
    if (ADDR_A_OFFSET_IND <=? am_mode m1) && (am_mode m1 <=? ADDR_J_OFFSET_IND) && isConst (am_addr m1) && (addrValue (am_addr m1) =? 0)
    then AMode (am_mode m1 - ADDR_A_OFFSET_IND + ADDR_A_IND) NoAddr else m1
  else m.
(** dcpu16_parse.c:249-305 addressingMode. *)
Definition addressingMode (F : fmath) (w : world) (optimize : bool) (allowed : Z) (ts : list token) (st : xstate) :
    res (option amode * list token * xstate) :=
  let other :=
    let! (o, r, st1) := indirectAddressing F w allowed ts st in
    match o with
    | Some m => Ok (Some m, r, st1)
    | None =>
        let! o := parse_Expression r in
        match o with
        | Some (e, r1) =>
            if negb (Z.land allowed ADDRF_LITERAL =? 0)
            then Ok (Some (optimizeAddressingMode optimize (AMode ADDR_LITERAL (Addr e))), r1, st1)
            else Ok (None, r1, st1)
        | None => Ok (None, r, st1)
        end
    end in
  match ts with
  | TId t :: r =>
      if (T_REG_A <=? t) && (t <=? T_REG_J) then
        let mode := ADDR_A + (t - T_REG_A) in
        Ok (if allows allowed mode then Some (AMode mode NoAddr) else None, r, st)
      else if (T_REG_POP <=? t) && (t <=? T_REG_O) then
        let mode := ADDR_POP + (t - T_REG_POP) in
        Ok (if allows allowed mode then Some (AMode mode NoAddr) else None, r, st)
      else other
  | _ => other
  end.

(** ** Instructions *)
Definition outputAddr (a : addr) (st : xstate) : res xstate :=
  match a with NoAddr => Ok st | Addr e => sect_OutputExpr16 e st | Freed => UB end.
(** dcpu16_parse.c:316-325 genericInstr. *)
Definition genericInstr (m1 m2 : amode) (data : Z) (st : xstate) : res xstate :=
  let! st1 := sect_OutputConst16 (u16 (Z.lor (Z.lor (Z.shiftl (am_mode m2) 10) (Z.shiftl (am_mode m1) 4)) data)) st in
  let! st2 := outputAddr (am_addr m1) st1 in
  outputAddr (am_addr m2) st2.
(** dcpu16_parse.c:327-362 addSubInstr, addInstr and subInstr.  The mode the second time is
    never a literal again, so that the other instruction is stored. *)
Definition addSubInstr (optimize : bool) (m1 m2 : amode) (data other : Z) (st : xstate) : res xstate :=
  if optimize && (am_mode m2 =? ADDR_LITERAL) && isConst (am_addr m2) && (Z.land (u32 (addrValue (am_addr m2))) 0xFFFF >=? 0xFFE1)
  then genericInstr m1 (AMode (ADDR_LITERAL_00 + Z.land (u32 (- addrValue (am_addr m2))) 0x1F) Freed) other st
  else genericInstr m1 m2 data st.
(** dcpu16_parse.c:364-371 jsrInstr. *)
Definition jsrInstr (m1 : amode) (data : Z) (st : xstate) : res xstate :=
  let! st1 := sect_OutputConst16 (u16 (Z.lor (Z.shiftl data 4) (Z.shiftl (am_mode m1) 10))) st in
  outputAddr (am_addr m1) st1.
(** dcpu16_parse.c:373-390 g_instructionHandlers. *)
Inductive parser : Type := Generic | Add | Sub | Jsr.
Definition g_instructionHandlers : list (Z * parser * Z * Z) :=
  [(0x2, Add, ADDRF_ALL, ADDRF_ALL);
   (0x9, Generic, ADDRF_ALL, ADDRF_ALL);
   (0xA, Generic, ADDRF_ALL, ADDRF_ALL);
   (0x5, Generic, ADDRF_ALL, ADDRF_ALL);
   (0xF, Generic, ADDRF_ALL, ADDRF_ALL);
   (0xC, Generic, ADDRF_ALL, ADDRF_ALL);
   (0xE, Generic, ADDRF_ALL, ADDRF_ALL);
   (0xD, Generic, ADDRF_ALL, ADDRF_ALL);
   (0x1, Jsr, ADDRF_ALL, 0);
   (0x6, Generic, ADDRF_ALL, ADDRF_ALL);
   (0x4, Generic, ADDRF_ALL, ADDRF_ALL);
   (0x1, Generic, ADDRF_ALL, ADDRF_ALL);
   (0x7, Generic, ADDRF_ALL, ADDRF_ALL);
   (0x8, Generic, ADDRF_ALL, ADDRF_ALL);
   (0x3, Sub, ADDRF_ALL, ADDRF_ALL);
   (0xB, Generic, ADDRF_ALL, ADDRF_ALL)].
Definition run (optimize : bool) (p : parser) (m1 m2 : amode) (data : Z) (st : xstate) : res xstate :=
  match p with
  | Generic => genericInstr m1 m2 data st
  | Add => addSubInstr optimize m1 m2 0x2 0x3 st
  | Sub => addSubInstr optimize m1 m2 0x3 0x2 st
  | Jsr => jsrInstr m1 data st
  end.
(** dcpu16_parse.c:392-398 translateToken. *)
Definition translateToken (t : Z) : Z := if t =? T_SYM_SET then T_DCPU16_SET else t.
(** dcpu16_parse.c:400-446 parseIntegerInstruction and x10c_ParseInstruction.  err_Error gives
    false. *)
Definition x10c_ParseInstruction (F : fmath) (w : world) (optimize : bool) (ts : list token) (st : xstate) :
    res (bool * list token * xstate) :=
  match ts with
  | TId t0 :: r =>
      let t := translateToken t0 in
      if (T_DCPU16_ADD <=? t) && (t <=? T_DCPU16_XOR) then
        match nth_error g_instructionHandlers (Z.to_nat (t - T_DCPU16_ADD)) with
        | None => UB
        | Some (data, p, allowed1, allowed2) =>
            let! (o1, r1, st1) := addressingMode F w optimize allowed1 r st in
            match o1 with
            | None => Ok (false, r1, err_Error MERROR_ILLEGAL_ADDRMODE st1)
            | Some m1 =>
                if negb (allowed2 =? 0) then
                  let '(ok, r2, st2) := parse_ExpectComma r1 st1 in
                  if ok then
                    let! (o2, r3, st3) := addressingMode F w optimize allowed2 r2 st2 in
                    match o2 with
                    | None => Ok (false, r3, err_Error MERROR_ILLEGAL_ADDRMODE st3)
                    | Some m2 => let! st4 := run optimize p m1 m2 data st3 in Ok (true, r3, st4)
                    end
                  else Ok (false, r2, st2)
                else
                  let! st2 := run optimize p m1 m1 data st1 in Ok (true, r1, st2)
            end
        end
      else Ok (false, ts, st)
  | _ => Ok (false, ts, st)
  end.
(** dcpu16_options.c:49-76 x10c_ParseOption: -mo0 and -mo1; anything else is a warning.
    The default (x10c_SetDefaults) is whatever the allocated memory holds. *)
Definition x10c_ParseOption (option : string) (optimize : bool) : bool * bool :=
  if String.eqb option "o0" then (false, true) else if String.eqb option "o1" then (true, true) else (optimize, false).
