(** Model of the register lists of the 680x0 and of MOVEM:
    /repo/xasm/680x0/m68k_parse_addrmode.c and m68k_parse_integer.c.

    Simplifications: as in M68kModel.v; the size has been read and found allowed
    (m68k_parse.c:693-770), and the option that records modified registers is off. *)
From Coq Require Import ZArith List Bool.
From Verif Require Import Base Arith ExprModel OptModel SectModel M68kModel.
Import ListNotations.
Open Scope list_scope.
Open Scope Z_scope.

(** errors.h:24-103 EError. *)
Definition ERROR_EXPR_CONST : Z := 119.
Definition ERROR_INVALID_EXPRESSION : Z := 102.

(** The tokens of M68kModel.v with the minus sign and the slash, which no operand
    outside an expression contains. *)
Inductive rtoken : Type := RTok (t : token) | RMinus | RSlash.
Definition plain (t : rtoken) : token := match t with RTok t => t | _ => TOther end.

(** m68k_parse_addrmode.c:44-77 getDataRegister, getAddressRegister and getRegister; None
    reads nothing. *)
Definition getRegister (ts : list rtoken) : option (Z * list rtoken) :=
  match ts with
  | RTok (TD n) :: r => Some (n, r)
  | RTok (TA n) :: r => Some (n + 8, r)
  | _ => None
  end.
(** m68k_parse_addrmode.c:79-93 getRegisterRange. *)
Definition getRegisterRange (ts : list rtoken) : option (Z * Z) * list rtoken :=
  match getRegister ts with
  | None => (None, ts)
  | Some (start, r) =>
      match r with
      | RMinus :: r1 =>
          match getRegister r1 with None => (None, r1) | Some (last, r2) => (Some (start, last), r2) end
      | _ => (Some (start, start), r)
      end
  end.
(** m68k_parse_addrmode.c:677-678, [n] times. *)
Fixpoint set_bits (n : nat) (start r : Z) : Z :=
  match n with O => r | S n => set_bits n (start + 1) (u16 (Z.lor r (Z.shiftl 1 start))) end.
(** m68k_parse_addrmode.c:671-685: the mask, or None for REGLIST_FAIL.  [fuel] bounds the
    number of ranges by that of the tokens. *)
Fixpoint ranges (fuel : nat) (r : Z) (ts : list rtoken) (st : xstate) : option Z * list rtoken * xstate :=
  match fuel with
  | O => (None, ts, st)
  | S fuel =>
      match getRegisterRange ts with
      | (None, ts1) => (None, ts1, st)
      | (Some (start, last), ts1) =>
          if last <? start then (None, ts1, err_Error ERROR_OPERAND st) else
          let r1 := set_bits (Z.to_nat (last - start + 1)) start r in
          match ts1 with RSlash :: ts2 => ranges fuel r1 ts2 st | _ => (Some r1, ts1, st) end
      end
  end.
(** m68k_parse_addrmode.c:652-686 m68k_ParseRegisterList with parse_expression.c:659-675
    parse_ConstantExpression. *)
Definition m68k_ParseRegisterList (ts : list rtoken) (st : xstate) : option Z * list rtoken * xstate :=
  match ts with
  | RTok THash :: r =>
      let '(v, r1, st1) :=
        match r with
        | RTok (TExpr e) :: r1 =>
            if isNull e then (0, r1, err_Error ERROR_INVALID_EXPRESSION st)
            else if expr_IsConstant e then (e_v e, r1, st) else (0, r1, err_Error ERROR_EXPR_CONST st)
        | _ => (0, r, err_Error ERROR_INVALID_EXPRESSION st)
        end in
      if (0 <=? v) && (v <=? 65535) then (Some (u16 v), r1, st1) else (None, r1, st1)
  | _ => ranges (S (List.length ts)) 0 ts st
  end.
(** m68k_parse_integer.c:1127-1136 reverseBits. *)
Definition reverseBits (bits : Z) : Z :=
  fold_left (fun r i => u16 (Z.lor r (if Z.land bits (Z.shiftl 1 i) =? 0 then 0 else Z.shiftl 1 (15 - i))))
            (map Z.of_nat (seq 0 16)) 0.

(** m68k_GetAddressingMode on these tokens: what is left is as many tokens. *)
Definition read_mode (cpu : Z) (ts : list rtoken) (st : xstate) : res (bool * amode * list rtoken * xstate) :=
  let! (ok, a, r, st1) := m68k_GetAddressingMode cpu (map plain ts) st in
  Ok (ok, a, skipn (List.length ts - List.length r) ts, st1).
(** parse.c:122-131 parse_ExpectChar with a comma. *)
Definition parse_ExpectComma (ts : list rtoken) (st : xstate) : bool * list rtoken * xstate :=
  match ts with RTok TComma :: r => (true, r, st) | _ => (false, ts, err_Error ERROR_CHAR_EXPECTED st) end.

(** m68k_parse_integer.c:1138-1213 handleMOVEM. *)
Section Movem.
Variable F : fmath.
Definition movem_modes (cpu : Z) (first more : list Z) : Z :=
  Z.lor (orl first) (if CPUF_68020 <=? cpu then orl more else 0).
(** m68k_parse_integer.c:1195-1212. *)
Definition movem_out (size direction : Z) (mask : Z) (a : amode) (ts : list rtoken) (st : xstate) : res (bool * list rtoken * xstate) :=
  if mask =? 0 then Ok (true, ts, st) else
  match m68k_GetEffectiveAddressField a with
  | None => Err
  | Some f =>
      let opcode := orl [0x4880; direction * 1024; f] in
      let opcode := if size =? SIZE_LONG then Z.lor opcode 64 else opcode in
      let! st1 := sect_OutputConst16 opcode st in
      let! st2 := sect_OutputConst16 (if a_mode a =? AM_ADEC then reverseBits mask else mask) st1 in
      let! (b, st3) := m68k_OutputExtensionWords F a st2 in
      Ok (b, ts, st3)
  end.
Definition handleMOVEM (cpu size : Z) (ts : list rtoken) (st : xstate) : res (bool * list rtoken * xstate) :=
  let '(mask, ts1, st1) := m68k_ParseRegisterList ts st in
  match mask with
  | Some mask =>
      let '(c, ts2, st2) := parse_ExpectComma ts1 st1 in
      if negb c then Ok (false, ts2, st2) else
      let! (ok, a, ts3, st3) := read_mode cpu ts2 st2 in
      if negb ok then Ok (false, ts3, st3) else
      let allowed := movem_modes cpu [AM_AIND; AM_ADEC; AM_ADISP; AM_AXDISP; AM_WORD; AM_LONG]
                                 [AM_AXDISP020; AM_PREINDAXD020; AM_POSTINDAXD020] in
      if Z.land (a_mode a) allowed =? 0 then Ok (true, ts3, err_Error ERROR_DEST_OPERAND st3)
      else movem_out size 0 mask a ts3 st3
  | None =>
      let! (ok, a, ts2, st2) := read_mode cpu ts1 st1 in
      if negb ok then Ok (false, ts2, st2) else
      let allowed := movem_modes cpu [AM_AIND; AM_AINC; AM_ADISP; AM_AXDISP; AM_WORD; AM_LONG; AM_PCDISP; AM_PCXDISP]
                                 [AM_AXDISP020; AM_PREINDAXD020; AM_POSTINDAXD020; AM_PCXDISP020; AM_PREINDPCXD020; AM_POSTINDPCXD020] in
      if Z.land (a_mode a) allowed =? 0 then Ok (true, ts2, err_Error ERROR_SOURCE_OPERAND st2) else
      let '(c, ts3, st3) := parse_ExpectComma ts2 st2 in
      if negb c then Ok (false, ts3, st3) else
      let '(mask, ts4, st4) := m68k_ParseRegisterList ts3 st3 in
      match mask with
      | None => Ok (false, ts4, st4)
      | Some mask => movem_out size 1 mask a ts4 st4
      end
  end.
End Movem.
