(** Specification of the MIPS32 instructions, from the MIPS32 instruction set manual:
    each instruction is a 32-bit word made of fields of 6, 5, 5, 5, 5 and 6 bits. *)
From Coq Require Import ZArith List Bool String.
From Verif Require Import Base Arith ExprSpec ExprModel InstrSpec MipsModel.
Import ListNotations.
Open Scope string_scope.
Open Scope Z_scope.

(** R-type, I-type and J-type words. *)
Definition rtype (op rs rt rd sa fn : Z) : Z := op * 2 ^ 26 + rs * 2 ^ 21 + rt * 2 ^ 16 + rd * 2 ^ 11 + sa * 2 ^ 6 + fn.
Definition itype (op rs rt imm : Z) : Z := op * 2 ^ 26 + rs * 2 ^ 21 + rt * 2 ^ 16 + imm mod 2 ^ 16.
Definition jtype (op target : Z) : Z := op * 2 ^ 26 + target mod 2 ^ 26.

(** Instructions by the operands they take, in the order in which they are written. *)
Inductive minstr (A : Type) : Type :=
| Reg3 (s : string) (rd rs rt : Z)
| ShiftV (s : string) (rd rt rs : Z)
| Imm (s : string) (rt rs : Z) (n : A)
| Br2 (s : string) (rs rt : Z) (n : A)
| Br1 (s : string) (rs : Z) (n : A)
| Br0 (s : string) (n : A)
| Shift (s : string) (rd rt : Z) (n : A)
| Mem (s : string) (rt : Z) (n : A) (base : Z)
| RsRt (s : string) (rs rt : Z)
| RdRt (s : string) (rd rt : Z)
| Trap (s : string) (rs rt : Z)
| TrapCode (s : string) (rs rt : Z) (n : A)
| TrapImm (s : string) (rs : Z) (n : A)
| Count (s : string) (rd rs : Z)
| Plain (s : string)
| Intr (s : string)
| IntrReg (s : string) (rt : Z)
| MoveFrom (s : string) (rd : Z)
| MoveTo (s : string) (rs : Z)
| Jump (s : string) (n : A)
| Lui (rt : Z) (n : A).
Arguments Reg3 {A}. Arguments ShiftV {A}. Arguments Imm {A}. Arguments Br2 {A}. Arguments Br1 {A}. Arguments Br0 {A}.
Arguments Shift {A}. Arguments Mem {A}. Arguments RsRt {A}. Arguments RdRt {A}. Arguments Trap {A}.
Arguments TrapCode {A}. Arguments TrapImm {A}. Arguments Count {A}. Arguments Plain {A}. Arguments Intr {A}.
Arguments IntrReg {A}. Arguments MoveFrom {A}. Arguments MoveTo {A}. Arguments Jump {A}. Arguments Lui {A}.

(** The fields of each mnemonic. *)
(** Opcode and function. *)
Definition reg3 : list (string * (Z * Z)) :=
  [("ADD", (0, 32)); ("ADDU", (0, 33)); ("AND", (0, 36)); ("MOVN", (0, 11)); ("MOVZ", (0, 10)); ("MUL", (28, 2));
   ("NOR", (0, 39)); ("OR", (0, 37)); ("SLT", (0, 42)); ("SLTU", (0, 43)); ("SUB", (0, 34)); ("SUBU", (0, 35));
   ("XOR", (0, 38))].
(** Field sa and function. *)
Definition shiftv : list (string * (Z * Z)) :=
  [("ROTRV", (1, 6)); ("SLLV", (0, 4)); ("SRAV", (0, 7)); ("SRLV", (0, 6))].
(** Opcode and the range of the immediate operand that is accepted. *)
Definition imm : list (string * (Z * (Z * Z))) :=
  [("ADDI", (8, (-32768, 32767))); ("ADDIU", (9, (-32768, 32767))); ("ANDI", (12, (0, 65535)));
   ("ORI", (13, (0, 65535))); ("SLTI", (10, (-32768, 32767))); ("SLTIU", (11, (0, 32767))); ("XORI", (14, (0, 65535)))].
(** Opcode. *)
Definition br2 : list (string * Z) := [("BEQ", 4); ("BEQL", 20); ("BNE", 5); ("BNEL", 21)].
(** Opcode and field rt. *)
Definition br1 : list (string * (Z * Z)) :=
  [("BGEZ", (1, 1)); ("BGEZAL", (1, 17)); ("BGEZALL", (1, 19)); ("BGEZL", (1, 3)); ("BGTZ", (7, 0)); ("BGTZL", (23, 0));
   ("BLEZ", (6, 0)); ("BLEZL", (22, 0)); ("BLTZ", (1, 0)); ("BLTZAL", (1, 16)); ("BLTZALL", (1, 18)); ("BLTZL", (1, 2))].
Definition br0 : list (string * (Z * Z)) := [("B", (4, 0)); ("BAL", (1, 17))].
(** Field rs and function. *)
Definition shift : list (string * (Z * Z)) := [("ROTR", (1, 2)); ("SLL", (0, 0)); ("SRA", (0, 3)); ("SRL", (0, 2))].
(** Opcode. *)
Definition mem : list (string * Z) :=
  [("LB", 32); ("LBU", 36); ("LH", 33); ("LHU", 37); ("LL", 48); ("LW", 35); ("LWC1", 49); ("LWC2", 50); ("LWL", 34);
   ("LWR", 38); ("SB", 40); ("SC", 56); ("SH", 41); ("SW", 43); ("SWC1", 57); ("SWC2", 58); ("SWL", 42); ("SWR", 46)].
(** Opcode and function.  MULU is the manual's MULTU. *)
Definition rsrt : list (string * (Z * Z)) :=
  [("DIV", (0, 26)); ("DIVU", (0, 27)); ("MADD", (28, 0)); ("MADDU", (28, 1)); ("MSUB", (28, 4)); ("MSUBU", (28, 5));
   ("MULT", (0, 24)); ("MULU", (0, 25))].
(** Opcode, field rs, field sa and function. *)
Definition rdrt : list (string * (Z * Z * Z * Z)) :=
  [("RDPGPR", (16, 10, 0, 0)); ("SEB", (31, 0, 16, 32)); ("SEH", (31, 0, 24, 32)); ("WRPGPR", (16, 14, 0, 0));
   ("WSBH", (31, 0, 2, 32))].
(** Function; the code is in the fields rd and sa. *)
Definition trap : list (string * Z) :=
  [("TEQ", 52); ("TGE", 48); ("TGEU", 49); ("TLT", 50); ("TLTU", 51); ("TNE", 54)].
(** Field rt and the range of the immediate operand that is accepted. *)
Definition trapimm : list (string * (Z * (Z * Z))) :=
  [("TEQI", (12, (-32768, 32767))); ("TGEI", (8, (-32768, 32767))); ("TGEIU", (9, (0, 32767)));
   ("TLTI", (10, (-32768, 32767))); ("TLTIU", (11, (0, 32767))); ("TNEI", (14, (-32768, 32767)))].
(** Function; opcode 28; the manual wants rd repeated as rt. *)
Definition count : list (string * Z) := [("CLO", 33); ("CLZ", 32)].
(** Opcode, field rs, field sa and function. *)
Definition plain_table : list (string * (Z * Z * Z * Z)) :=
  [("DERET", (16, 16, 0, 31)); ("EHB", (0, 0, 3, 0)); ("ERET", (16, 16, 0, 24)); ("NOP", (0, 0, 0, 0));
   ("SSNOP", (0, 0, 1, 0)); ("TLBP", (16, 16, 0, 8)); ("TLBR", (16, 16, 0, 1)); ("TLBWI", (16, 16, 0, 2));
   ("TLBWR", (16, 16, 0, 6))].
(** The last six bits; opcode 16, rs 11 and rd 12. *)
Definition intr : list (string * Z) := [("DI", 0); ("EI", 32)].
(** Function. *)
Definition movefrom : list (string * Z) := [("MFHI", 16); ("MFLO", 18)].
(** Field sa and function. *)
Definition moveto : list (string * (Z * Z)) := [("JR", (0, 8)); ("JR.HB", (16, 8)); ("MTHI", (0, 17)); ("MTLO", (0, 19))].
(** Opcode. *)
Definition jump : list (string * Z) := [("J", 2); ("JAL", 3)].

Fixpoint row {A : Type} (d : A) (s : string) (l : list (string * A)) : A :=
  match l with [] => d | (k, v) :: r => if String.eqb s k then v else row d s r end.
Definition listed {A : Type} (s : string) (l : list (string * A)) : Prop := In s (map fst l).

(** The word of an instruction at the address [pc].  A branch holds the distance in
    words from the next instruction, a jump the number of the word. *)
Definition offset (pc target : Z) : Z := (target - (pc + 4)) / 4.
Definition encoding (pc : Z) (i : minstr Z) : Z :=
  match i with
  | Reg3 s rd rs rt => let '(op, fn) := row (0, 0) s reg3 in rtype op rs rt rd 0 fn
  | ShiftV s rd rt rs => let '(sa, fn) := row (0, 0) s shiftv in rtype 0 rs rt rd sa fn
  | Imm s rt rs n => itype (fst (row (0, (0, 0)) s imm)) rs rt n
  | Br2 s rs rt n => itype (row 0 s br2) rs rt (offset pc n)
  | Br1 s rs n => let '(op, rt) := row (0, 0) s br1 in itype op rs rt (offset pc n)
  | Br0 s n => let '(op, rt) := row (0, 0) s br0 in itype op 0 rt (offset pc n)
  | Shift s rd rt n => let '(rs, fn) := row (0, 0) s shift in rtype 0 rs rt rd n fn
  | Mem s rt n base => itype (row 0 s mem) base rt n
  | RsRt s rs rt => let '(op, fn) := row (0, 0) s rsrt in rtype op rs rt 0 0 fn
  | RdRt s rd rt => let '(op, rs, sa, fn) := row (0, 0, 0, 0) s rdrt in rtype op rs rt rd sa fn
  | Trap s rs rt => rtype 0 rs rt 0 0 (row 0 s trap)
  | TrapCode s rs rt n => rtype 0 rs rt (n / 32) (n mod 32) (row 0 s trap)
  | TrapImm s rs n => itype 1 rs (fst (row (0, (0, 0)) s trapimm)) n
  | Count s rd rs => rtype 28 rs rd rd 0 (row 0 s count)
  | Plain s => let '(op, rs, sa, fn) := row (0, 0, 0, 0) s plain_table in rtype op rs 0 0 sa fn
  | Intr s => rtype 16 11 0 12 0 (row 0 s intr)
  | IntrReg s rt => rtype 16 11 rt 12 0 (row 0 s intr)
  | MoveFrom s rd => rtype 0 0 0 rd 0 (row 0 s movefrom)
  | MoveTo s rs => let '(sa, fn) := row (0, 0) s moveto in rtype 0 rs 0 0 sa fn
  | Jump s n => jtype (row 0 s jump) (n / 4)
  | Lui rt n => itype 15 0 rt n
  end.

(** Instructions whose operands the machine has: 32 registers, immediate operands of
    16 bits, shifts up to 31, codes up to 1023, and aligned branches that reach. *)
Definition reg (r : Z) : Prop := 0 <= r <= 31.
Definition within (r : Z * Z) (n : Z) : Prop := fst r <= n <= snd r.
Definition reaches (pc target : Z) : Prop :=
  target mod 4 = pc mod 4 /\ -32768 <= offset pc target <= 32767.
Definition valid (pc : Z) (i : minstr Z) : Prop :=
  match i with
  | Reg3 s rd rs rt => listed s reg3 /\ reg rd /\ reg rs /\ reg rt
  | ShiftV s rd rt rs => listed s shiftv /\ reg rd /\ reg rs /\ reg rt
  | Imm s rt rs n => listed s imm /\ reg rt /\ reg rs /\ within (snd (row (0, (0, 0)) s imm)) n
  | Br2 s rs rt n => listed s br2 /\ reg rs /\ reg rt /\ reaches pc n
  | Br1 s rs n => listed s br1 /\ reg rs /\ reaches pc n
  | Br0 s n => listed s br0 /\ reaches pc n
  | Shift s rd rt n => listed s shift /\ reg rd /\ reg rt /\ 0 <= n <= 31
  | Mem s rt n base => listed s mem /\ reg rt /\ -32768 <= n <= 32767 /\ reg base
  | RsRt s rs rt => listed s rsrt /\ reg rs /\ reg rt
  | RdRt s rd rt => listed s rdrt /\ reg rd /\ reg rt
  | Trap s rs rt => listed s trap /\ reg rs /\ reg rt
  | TrapCode s rs rt n => listed s trap /\ reg rs /\ reg rt /\ 0 <= n <= 1023
  | TrapImm s rs n => listed s trapimm /\ reg rs /\ within (snd (row (0, (0, 0)) s trapimm)) n
  | Count s rd rs => listed s count /\ reg rd /\ reg rs
  | Plain s => listed s plain_table
  | Intr s => listed s intr
  | IntrReg s rt => listed s intr /\ reg rt
  | MoveFrom s rd => listed s movefrom /\ reg rd
  | MoveTo s rs => listed s moveto /\ reg rs
  | Jump s n => listed s jump /\ n mod 4 = 0
  | Lui rt n => reg rt /\ 0 <= n <= 65535
  end.

(** How an instruction is written. *)
Definition register (r : Z) : piece :=
  Word (nth (Z.to_nat r)
    ["R0"; "R1"; "R2"; "R3"; "R4"; "R5"; "R6"; "R7"; "R8"; "R9"; "R10"; "R11"; "R12"; "R13"; "R14"; "R15"; "R16";
     "R17"; "R18"; "R19"; "R20"; "R21"; "R22"; "R23"; "R24"; "R25"; "R26"; "R27"; "R28"; "R29"; "R30"; "R31"] "").
Definition text (i : minstr expr) : list piece :=
  match i with
  | Reg3 s a b c | ShiftV s a b c => [Word s; register a; Comma; register b; Comma; register c]
  | Imm s a b n | Br2 s a b n | Shift s a b n | TrapCode s a b n =>
      [Word s; register a; Comma; register b; Comma; Operand n]
  | Br1 s a n | TrapImm s a n => [Word s; register a; Comma; Operand n]
  | Br0 s n | Jump s n => [Word s; Operand n]
  | Mem s a n b => [Word s; register a; Comma; Operand n; Left; register b; Right]
  | RsRt s a b | RdRt s a b | Trap s a b | Count s a b => [Word s; register a; Comma; register b]
  | Plain s | Intr s => [Word s]
  | IntrReg s a | MoveFrom s a | MoveTo s a => [Word s; register a]
  | Lui a n => [Word "LUI"; register a; Comma; Operand n]
  end.

(** Change of operands. *)
Definition mmap {A B : Type} (f : A -> B) (i : minstr A) : minstr B :=
  match i with
  | Reg3 s a b c => Reg3 s a b c | ShiftV s a b c => ShiftV s a b c | Imm s a b n => Imm s a b (f n)
  | Br2 s a b n => Br2 s a b (f n) | Br1 s a n => Br1 s a (f n) | Br0 s n => Br0 s (f n)
  | Shift s a b n => Shift s a b (f n) | Mem s a n b => Mem s a (f n) b | RsRt s a b => RsRt s a b
  | RdRt s a b => RdRt s a b | Trap s a b => Trap s a b | TrapCode s a b n => TrapCode s a b (f n)
  | TrapImm s a n => TrapImm s a (f n) | Count s a b => Count s a b | Plain s => Plain s | Intr s => Intr s
  | IntrReg s a => IntrReg s a | MoveFrom s a => MoveFrom s a | MoveTo s a => MoveTo s a | Jump s n => Jump s (f n)
  | Lui a n => Lui a (f n)
  end.
Definition operand_of {A : Type} (i : minstr A) : option A :=
  match i with
  | Imm _ _ _ n | Br2 _ _ _ n | Br1 _ _ n | Br0 _ n | Shift _ _ _ n | Mem _ _ n _ | TrapCode _ _ _ n | TrapImm _ _ n
  | Jump _ n | Lui _ n => Some n
  | _ => None
  end.

(** An operand: the expression as written, as entered, and its final value. *)
Record arg : Type := Arg { g_term : term; g_expr : expr; g_value : Z }.
(** A branch is known early only if the address of the instruction is. *)
Definition is_branch {A : Type} (i : minstr A) : bool :=
  match i with Br2 _ _ _ _ | Br1 _ _ _ | Br0 _ _ => true | _ => false end.
Definition term_of (i : minstr arg) : term :=
  match operand_of i with Some a => if is_branch i then PcRel (-4) (g_term a) else g_term a | None => Num 0 end.
Definition args_known (S : setting) (cur : option asect) (i : minstr arg) : Prop :=
  forall a, operand_of i = Some a ->
    operand S cur (g_term a) (g_expr a) (g_value a) /\ tdepth (g_term a) <= 240 /\
    (is_branch i = true -> ~ paren_head (g_term a) /\ is_s32 (g_value a - 4) /\ is_s32 (-4 - e_pc (s_env S))).
(** What may follow an instruction whose last operand is optional. *)
Definition follows {A : Type} (i : minstr A) (rest : list token) : Prop :=
  match i with
  | Trap _ _ _ => match rest with TComma :: _ => False | _ => True end
  | Intr _ => match rest with TId id :: _ => ~ (6136 <= id <= 6167) | _ => True end
  | _ => True
  end.

(** An instruction of the manual, whatever the operand. *)
Definition shape {A : Type} (i : minstr A) : Prop :=
  match i with
  | Reg3 s a b c => listed s reg3 /\ reg a /\ reg b /\ reg c
  | ShiftV s a b c => listed s shiftv /\ reg a /\ reg b /\ reg c
  | Imm s a b _ => listed s imm /\ reg a /\ reg b
  | Br2 s a b _ => listed s br2 /\ reg a /\ reg b
  | Br1 s a _ => listed s br1 /\ reg a
  | Br0 s _ => listed s br0
  | Shift s a b _ => listed s shift /\ reg a /\ reg b
  | Mem s a _ b => listed s mem /\ reg a /\ reg b
  | RsRt s a b => listed s rsrt /\ reg a /\ reg b
  | RdRt s a b => listed s rdrt /\ reg a /\ reg b
  | Trap s a b | TrapCode s a b _ => listed s trap /\ reg a /\ reg b
  | TrapImm s a _ => listed s trapimm /\ reg a
  | Count s a b => listed s count /\ reg a /\ reg b
  | Plain s => listed s plain_table
  | Intr s => listed s intr
  | IntrReg s a => listed s intr /\ reg a
  | MoveFrom s a => listed s movefrom /\ reg a
  | MoveTo s a => listed s moveto /\ reg a
  | Jump s _ => listed s jump
  | Lui a _ => reg a
  end.

(** Instructions that are other ways to write one, with an absolute jump written by its
    place in a region of 256 MB. *)
Definition canonical (i : minstr Z) : minstr Z :=
  match i with
  | Br0 s n => if String.eqb s "B" then Br2 "BEQ" 0 0 n else Br1 "BGEZAL" 0 n
  | Plain s =>
      if String.eqb s "NOP" then Shift "SLL" 0 0 0 else if String.eqb s "SSNOP" then Shift "SLL" 0 0 1 else
      if String.eqb s "EHB" then Shift "SLL" 0 0 3 else i
  | Intr s => IntrReg s 0
  | Trap s rs rt => TrapCode s rs rt 0
  | Jump s n => Jump s (n mod 2 ^ 28)
  | _ => i
  end.

(** The names of the registers in the calling convention. *)
Definition conventional : list string :=
  ["ZERO"; "AT"; "V0"; "V1"; "A0"; "A1"; "A2"; "A3"; "T0"; "T1"; "T2"; "T3"; "T4"; "T5"; "T6"; "T7"; "S0"; "S1"; "S2";
   "S3"; "S4"; "S5"; "S6"; "S7"; "T8"; "T9"; "K0"; "K1"; "GP"; "SP"; "FP"; "RA"].

(** The operand ranges checked as an instruction is read.  SLTIU, TGEIU and TLTIU are
    checked as unsigned. *)
Definition limits {A : Type} (i : minstr A) : option (Z * Z) :=
  match i with
  | Imm s _ _ _ => Some (if existsb (String.eqb s) ["ADDI"; "ADDIU"; "SLTI"] then (-32768, 32767) else (0, 65535))
  | TrapImm s _ _ => Some (if existsb (String.eqb s) ["TEQI"; "TGEI"; "TLTI"; "TNEI"] then (-32768, 32767) else (0, 65535))
  | Mem _ _ _ _ => Some (-32768, 32767)
  | Shift _ _ _ _ => Some (0, 31)
  | TrapCode _ _ _ _ => Some (0, 1023)
  | Lui _ _ => Some (0, 65535)
  | _ => None
  end.
