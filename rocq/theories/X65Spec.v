(** Specification of the 6502 instruction set: the opcodes of the MOS 6502, WDC 65C02 and
    65C02S data sheets, the usual table of undocumented 6502 opcodes, and how
    /repo/doc/Cpu6502.md says operands are written. *)
From Coq Require Import ZArith List Bool String.
From Verif Require Import Base Arith ExprSpec ExprModel OptModel SectModel SectSpec InstrSpec X65Model.
Import ListNotations.
Open Scope string_scope.
Open Scope Z_scope.

(** Addressing modes of the data sheets.  [Bit] and [BitRel] are RMB/SMB and BBR/BBS
    with the bit number as an operand. *)
Inductive kind : Type :=
| Imp | Acc | Imm | Zp | ZpX | ZpY | Abs | AbsX | AbsY | IndX | IndY | Ind | IndZp | IndAbsX | Rel | ZpRel | Bit | BitRel.
Definition kind_eqb (a b : kind) : bool :=
  match a, b with
  | Imp, Imp | Acc, Acc | Imm, Imm | Zp, Zp | ZpX, ZpX | ZpY, ZpY | Abs, Abs | AbsX, AbsX | AbsY, AbsY | IndX, IndX
  | IndY, IndY | Ind, Ind | IndZp, IndZp | IndAbsX, IndAbsX | Rel, Rel | ZpRel, ZpRel | Bit, Bit | BitRel, BitRel => true
  | _, _ => false
  end.

Definition row : Type := string * list (kind * Z).
(** The 6502. *)
Definition documented : list row :=
 [("ADC", [(Imm, 0x69); (Zp, 0x65); (ZpX, 0x75); (Abs, 0x6D); (AbsX, 0x7D); (AbsY, 0x79); (IndX, 0x61); (IndY, 0x71)]);
  ("AND", [(Imm, 0x29); (Zp, 0x25); (ZpX, 0x35); (Abs, 0x2D); (AbsX, 0x3D); (AbsY, 0x39); (IndX, 0x21); (IndY, 0x31)]);
  ("ASL", [(Acc, 0x0A); (Zp, 0x06); (ZpX, 0x16); (Abs, 0x0E); (AbsX, 0x1E)]);
  ("BCC", [(Rel, 0x90)]); ("BCS", [(Rel, 0xB0)]); ("BEQ", [(Rel, 0xF0)]);
  ("BIT", [(Zp, 0x24); (Abs, 0x2C)]);
  ("BMI", [(Rel, 0x30)]); ("BNE", [(Rel, 0xD0)]); ("BPL", [(Rel, 0x10)]);
  ("BRK", [(Imp, 0x00); (Imm, 0x00)]);
  ("BVC", [(Rel, 0x50)]); ("BVS", [(Rel, 0x70)]);
  ("CLC", [(Imp, 0x18)]); ("CLD", [(Imp, 0xD8)]); ("CLI", [(Imp, 0x58)]); ("CLV", [(Imp, 0xB8)]);
  ("CMP", [(Imm, 0xC9); (Zp, 0xC5); (ZpX, 0xD5); (Abs, 0xCD); (AbsX, 0xDD); (AbsY, 0xD9); (IndX, 0xC1); (IndY, 0xD1)]);
  ("CPX", [(Imm, 0xE0); (Zp, 0xE4); (Abs, 0xEC)]);
  ("CPY", [(Imm, 0xC0); (Zp, 0xC4); (Abs, 0xCC)]);
  ("DEC", [(Zp, 0xC6); (ZpX, 0xD6); (Abs, 0xCE); (AbsX, 0xDE)]);
  ("DEX", [(Imp, 0xCA)]); ("DEY", [(Imp, 0x88)]);
  ("EOR", [(Imm, 0x49); (Zp, 0x45); (ZpX, 0x55); (Abs, 0x4D); (AbsX, 0x5D); (AbsY, 0x59); (IndX, 0x41); (IndY, 0x51)]);
  ("INC", [(Zp, 0xE6); (ZpX, 0xF6); (Abs, 0xEE); (AbsX, 0xFE)]);
  ("INX", [(Imp, 0xE8)]); ("INY", [(Imp, 0xC8)]);
  ("JMP", [(Abs, 0x4C); (Ind, 0x6C)]);
  ("JSR", [(Abs, 0x20)]);
  ("LDA", [(Imm, 0xA9); (Zp, 0xA5); (ZpX, 0xB5); (Abs, 0xAD); (AbsX, 0xBD); (AbsY, 0xB9); (IndX, 0xA1); (IndY, 0xB1)]);
  ("LDX", [(Imm, 0xA2); (Zp, 0xA6); (ZpY, 0xB6); (Abs, 0xAE); (AbsY, 0xBE)]);
  ("LDY", [(Imm, 0xA0); (Zp, 0xA4); (ZpX, 0xB4); (Abs, 0xAC); (AbsX, 0xBC)]);
  ("LSR", [(Acc, 0x4A); (Zp, 0x46); (ZpX, 0x56); (Abs, 0x4E); (AbsX, 0x5E)]);
  ("NOP", [(Imp, 0xEA)]);
  ("ORA", [(Imm, 0x09); (Zp, 0x05); (ZpX, 0x15); (Abs, 0x0D); (AbsX, 0x1D); (AbsY, 0x19); (IndX, 0x01); (IndY, 0x11)]);
  ("PHA", [(Imp, 0x48)]); ("PHP", [(Imp, 0x08)]); ("PLA", [(Imp, 0x68)]); ("PLP", [(Imp, 0x28)]);
  ("ROL", [(Acc, 0x2A); (Zp, 0x26); (ZpX, 0x36); (Abs, 0x2E); (AbsX, 0x3E)]);
  ("ROR", [(Acc, 0x6A); (Zp, 0x66); (ZpX, 0x76); (Abs, 0x6E); (AbsX, 0x7E)]);
  ("RTI", [(Imp, 0x40)]); ("RTS", [(Imp, 0x60)]);
  ("SBC", [(Imm, 0xE9); (Zp, 0xE5); (ZpX, 0xF5); (Abs, 0xED); (AbsX, 0xFD); (AbsY, 0xF9); (IndX, 0xE1); (IndY, 0xF1)]);
  ("SEC", [(Imp, 0x38)]); ("SED", [(Imp, 0xF8)]); ("SEI", [(Imp, 0x78)]);
  ("STA", [(Zp, 0x85); (ZpX, 0x95); (Abs, 0x8D); (AbsX, 0x9D); (AbsY, 0x99); (IndX, 0x81); (IndY, 0x91)]);
  ("STX", [(Zp, 0x86); (ZpY, 0x96); (Abs, 0x8E)]);
  ("STY", [(Zp, 0x84); (ZpX, 0x94); (Abs, 0x8C)]);
  ("TAX", [(Imp, 0xAA)]); ("TAY", [(Imp, 0xA8)]); ("TSX", [(Imp, 0xBA)]); ("TXA", [(Imp, 0x8A)]); ("TXS", [(Imp, 0x9A)]);
  ("TYA", [(Imp, 0x98)]);
  (* other names of BCC and BCS *)
  ("BLT", [(Rel, 0x90)]); ("BGE", [(Rel, 0xB0)])].
(** What the 65C02 adds. *)
Definition cmos : list row :=
 [("ADC", [(IndZp, 0x72)]); ("AND", [(IndZp, 0x32)]); ("CMP", [(IndZp, 0xD2)]); ("EOR", [(IndZp, 0x52)]);
  ("LDA", [(IndZp, 0xB2)]); ("ORA", [(IndZp, 0x12)]); ("SBC", [(IndZp, 0xF2)]); ("STA", [(IndZp, 0x92)]);
  ("BIT", [(Imm, 0x89); (ZpX, 0x34); (AbsX, 0x3C)]);
  ("DEC", [(Acc, 0x3A)]); ("INC", [(Acc, 0x1A)]); ("DEA", [(Imp, 0x3A)]); ("INA", [(Imp, 0x1A)]);
  ("JMP", [(IndAbsX, 0x7C)]); ("BRA", [(Rel, 0x80)]);
  ("PHX", [(Imp, 0xDA)]); ("PHY", [(Imp, 0x5A)]); ("PLX", [(Imp, 0xFA)]); ("PLY", [(Imp, 0x7A)]);
  ("STZ", [(Zp, 0x64); (ZpX, 0x74); (Abs, 0x9C); (AbsX, 0x9E)]);
  ("TRB", [(Zp, 0x14); (Abs, 0x1C)]); ("TSB", [(Zp, 0x04); (Abs, 0x0C)])].
(** What the 65C02S adds. *)
Definition wdc : list row :=
 [("STP", [(Imp, 0xDB)]); ("WAI", [(Imp, 0xCB)]);
  ("BBR", [(BitRel, 0x0F)]); ("BBS", [(BitRel, 0x8F)]); ("RMB", [(Bit, 0x07)]); ("SMB", [(Bit, 0x87)]);
  ("BBR0", [(ZpRel, 0x0F)]); ("BBR1", [(ZpRel, 0x1F)]); ("BBR2", [(ZpRel, 0x2F)]); ("BBR3", [(ZpRel, 0x3F)]);
  ("BBR4", [(ZpRel, 0x4F)]); ("BBR5", [(ZpRel, 0x5F)]); ("BBR6", [(ZpRel, 0x6F)]); ("BBR7", [(ZpRel, 0x7F)]);
  ("BBS0", [(ZpRel, 0x8F)]); ("BBS1", [(ZpRel, 0x9F)]); ("BBS2", [(ZpRel, 0xAF)]); ("BBS3", [(ZpRel, 0xBF)]);
  ("BBS4", [(ZpRel, 0xCF)]); ("BBS5", [(ZpRel, 0xDF)]); ("BBS6", [(ZpRel, 0xEF)]); ("BBS7", [(ZpRel, 0xFF)]);
  ("RMB0", [(Zp, 0x07)]); ("RMB1", [(Zp, 0x17)]); ("RMB2", [(Zp, 0x27)]); ("RMB3", [(Zp, 0x37)]);
  ("RMB4", [(Zp, 0x47)]); ("RMB5", [(Zp, 0x57)]); ("RMB6", [(Zp, 0x67)]); ("RMB7", [(Zp, 0x77)]);
  ("SMB0", [(Zp, 0x87)]); ("SMB1", [(Zp, 0x97)]); ("SMB2", [(Zp, 0xA7)]); ("SMB3", [(Zp, 0xB7)]);
  ("SMB4", [(Zp, 0xC7)]); ("SMB5", [(Zp, 0xD7)]); ("SMB6", [(Zp, 0xE7)]); ("SMB7", [(Zp, 0xF7)])].
(** The undocumented instructions of the 6502, with their names in the three sets. *)
Definition undocumented : list (list string * list (kind * Z)) :=
 [(["AAC"; "ANC"; "ANC"], [(Imm, 0x0B)]);
  (["AAX"; "SAX"; "AXS"], [(Zp, 0x87); (ZpY, 0x97); (IndX, 0x83); (Abs, 0x8F)]);
  (["ARR"; "ARR"; "ARR"], [(Imm, 0x6B)]);
  (["ASR"; "ASR"; "ALR"], [(Imm, 0x4B)]);
  (["ATX"; "LXA"; "OAL"], [(Imm, 0xAB)]);
  (["AXA"; "SHA"; "AXA"], [(AbsY, 0x9F); (IndY, 0x93)]);
  (["AXS"; "SBX"; "SAX"], [(Imm, 0xCB)]);
  (["DCP"; "DCP"; "DCM"], [(Zp, 0xC7); (ZpX, 0xD7); (Abs, 0xCF); (AbsX, 0xDF); (AbsY, 0xDB); (IndX, 0xC3); (IndY, 0xD3)]);
  (["DOP"; "DOP"; "SKB"], [(Imm, 0x80); (Zp, 0x04); (ZpX, 0x14)]);
  (["ISC"; "ISB"; "INS"], [(Zp, 0xE7); (ZpX, 0xF7); (Abs, 0xEF); (AbsX, 0xFF); (AbsY, 0xFB); (IndX, 0xE3); (IndY, 0xF3)]);
  (["KIL"; "JAM"; "HLT"], [(Imp, 0x02)]);
  (["LAR"; "LAE"; "LAS"], [(AbsY, 0xBB)]);
  (["LAX"; "LAX"; "LAX"], [(Zp, 0xA7); (ZpY, 0xB7); (Abs, 0xAF); (AbsY, 0xBF); (IndX, 0xA3); (IndY, 0xB3)]);
  (["RLA"; "RLA"; "RLA"], [(Zp, 0x27); (ZpX, 0x37); (Abs, 0x2F); (AbsX, 0x3F); (AbsY, 0x3B); (IndX, 0x23); (IndY, 0x33)]);
  (["RRA"; "RRA"; "RRA"], [(Zp, 0x67); (ZpX, 0x77); (Abs, 0x6F); (AbsX, 0x7F); (AbsY, 0x7B); (IndX, 0x63); (IndY, 0x73)]);
  (["SLO"; "SLO"; "ASO"], [(Zp, 0x07); (ZpX, 0x17); (Abs, 0x0F); (AbsX, 0x1F); (AbsY, 0x1B); (IndX, 0x03); (IndY, 0x13)]);
  (["SRE"; "SRE"; "LSE"], [(Zp, 0x47); (ZpX, 0x57); (Abs, 0x4F); (AbsX, 0x5F); (AbsY, 0x5B); (IndX, 0x43); (IndY, 0x53)]);
  (["SXA"; "SHX"; "XAS"], [(AbsY, 0x9E)]);
  (["SYA"; "SHY"; "SAY"], [(AbsX, 0x9C)]);
  (["TOP"; "TOP"; "SKW"], [(Abs, 0x0C); (AbsX, 0x1C)]);
  (["XAA"; "ANE"; "XAA"], [(Imm, 0x8B)]);
  (["XAS"; "SHS"; "TAS"], [(AbsY, 0x9B)])].

(** The processors, and the set of names (0: none) for undocumented instructions, which
    only the 6502 has. *)
Inductive cpu : Type := C6502 | C65C02 | C65C02S.
Definition selectable (c : cpu) (n : Z) : Prop := 0 <= n <= 3 /\ (c <> C6502 -> n = 0).
Definition table (c : cpu) (n : Z) : list row :=
  (documented
   ++ match c with
      | C6502 => if n =? 0 then [] else map (fun '(names, ops) => (nth (Z.to_nat (n - 1)) names "", ops)) undocumented
      | C65C02 => cmos
      | C65C02S => cmos ++ wdc
      end)%list.
(** The opcode of mnemonic [s] in mode [kd]. *)
Definition opcode (c : cpu) (n : Z) (s : string) (kd : kind) : option Z :=
  let rows := flat_map (fun r : row => if String.eqb s (fst r) then snd r else []) (table c n) in
  option_map snd (find (fun p => kind_eqb kd (fst p)) rows).

(** ** Operands as written *)
Inductive form (A : Type) : Type :=
| FNone | FAcc                                                       (*          A      *)
| FImm (a : A) | FLow (a : A) | FHigh (a : A) | FBank (a : A) | FSwap (a : A) (* #n #<n #>n #^n #<>n *)
| FAddr (a : A) | FAddrX (a : A) | FAddrY (a : A)                    (* n    n,X    n,Y *)
| FZp (a : A) | FZpX (a : A) | FZpY (a : A)                          (* <n   <n,X  <n,Y *)
| FIndX (a : A) | FIndY (a : A) | FInd (a : A)                       (* (n,X) (n),Y (n) *)
| FTwo (a b : A) | FThree (a b c : A).                               (* m,n     l,m,n   *)
Arguments FNone {A}. Arguments FAcc {A}. Arguments FImm {A}. Arguments FLow {A}. Arguments FHigh {A}. Arguments FBank {A}.
Arguments FSwap {A}. Arguments FAddr {A}. Arguments FAddrX {A}. Arguments FAddrY {A}. Arguments FZp {A}. Arguments FZpX {A}.
Arguments FZpY {A}. Arguments FIndX {A}. Arguments FIndY {A}. Arguments FInd {A}. Arguments FTwo {A}. Arguments FThree {A}.
(** The source text, from that of the expressions. *)
Definition text (f : form (list piece)) : list piece :=
  match f with
  | FNone => [] | FAcc => [Word "A"]
  | FImm a => Hash :: a | FLow a => Hash :: Less :: a | FHigh a => Hash :: Greater :: a
  | FBank a => Hash :: Caret :: a | FSwap a => Hash :: Less :: Greater :: a
  | FAddr a => a | FAddrX a => a ++ [Comma; Word "X"] | FAddrY a => a ++ [Comma; Word "Y"]
  | FZp a => Less :: a | FZpX a => Less :: a ++ [Comma; Word "X"] | FZpY a => Less :: a ++ [Comma; Word "Y"]
  | FIndX a => Lp :: a ++ [Comma; Word "X"; Rp] | FIndY a => Lp :: a ++ [Rp; Comma; Word "Y"]
  | FInd a => Lp :: a ++ [Rp]
  | FTwo a b => a ++ Comma :: b
  | FThree a b c => a ++ Comma :: b ++ Comma :: c
  end%list.
Definition fmap {A B : Type} (g : A -> B) (f : form A) : form B :=
  match f with
  | FNone => FNone | FAcc => FAcc
  | FImm a => FImm (g a) | FLow a => FLow (g a) | FHigh a => FHigh (g a) | FBank a => FBank (g a) | FSwap a => FSwap (g a)
  | FAddr a => FAddr (g a) | FAddrX a => FAddrX (g a) | FAddrY a => FAddrY (g a)
  | FZp a => FZp (g a) | FZpX a => FZpX (g a) | FZpY a => FZpY (g a)
  | FIndX a => FIndX (g a) | FIndY a => FIndY (g a) | FInd a => FInd (g a)
  | FTwo a b => FTwo (g a) (g b) | FThree a b c => FThree (g a) (g b) (g c)
  end.
Definition operands {A : Type} (f : form A) : list A :=
  match f with
  | FNone | FAcc => []
  | FImm a | FLow a | FHigh a | FBank a | FSwap a | FAddr a | FAddrX a | FAddrY a | FZp a | FZpX a | FZpY a | FIndX a
  | FIndY a | FInd a => [a]
  | FTwo a b => [a; b] | FThree a b c => [a; b; c]
  end.

(** The modes a form can stand for, the preferred ones first; [near] tells that the
    address is known to be in the zero page. *)
Definition kinds {A : Type} (near : bool) (f : form A) : list kind :=
  match f with
  | FNone => [Imp; Acc] | FAcc => [Acc]
  | FImm _ | FLow _ | FHigh _ | FBank _ | FSwap _ => [Imm]
  | FAddr _ => if near then [Zp; Abs; Rel] else [Abs; Rel]
  | FAddrX _ => if near then [ZpX; AbsX] else [AbsX]
  | FAddrY _ => if near then [ZpY; AbsY] else [AbsY]
  | FZp _ => [Zp; Abs; Rel] | FZpX _ => [ZpX; AbsX] | FZpY _ => [ZpY; AbsY]
  | FIndX _ => [IndX; IndAbsX] | FIndY _ => [IndY] | FInd _ => [IndZp; Ind]
  | FTwo _ _ => [ZpRel; Bit] | FThree _ _ _ => [BitRel]
  end.
(** The mode meant, and its opcode. *)
Fixpoint first_of (c : cpu) (n : Z) (s : string) (l : list kind) : option (kind * Z) :=
  match l with
  | [] => None
  | kd :: r => match opcode c n s kd with Some b => Some (kd, b) | None => first_of c n s r end
  end.
Definition select {A : Type} (c : cpu) (n : Z) (s : string) (near : bool) (f : form A) : option (kind * Z) :=
  first_of c n s (kinds near f).

(** ** Encodings *)
(** An operand: the expression as written, as entered, and its final value. *)
Record arg : Type := Arg { g_term : term; g_expr : expr; g_value : Z }.
(** Operands are written in the source and are not as a whole in parentheses. *)
Fixpoint source_term (t : term) : Prop :=
  match t with
  | Num _ | Sym _ | BankOf _ => True
  | Paren t | Un _ t => source_term t
  | Bin _ t1 t2 => source_term t1 /\ source_term t2
  | PcRel _ _ => False
  end.
Definition args_known (S : setting) (cur : option asect) (f : form arg) : Prop :=
  forall a, In a (operands f) ->
    operand S cur (g_term a) (g_expr a) (g_value a) /\ source_term (g_term a) /\ ~ paren_head (g_term a) /\
    tdepth (g_term a) <= 240.
(** Known to be in the zero page. *)
Definition near (a : arg) : bool := expr_IsConstant (g_expr a) && (0 <=? g_value a) && (g_value a <=? 255).
Definition is_near (f : form arg) : bool := match operands f with a :: _ => near a | [] => false end.
(** The part of an immediate operand selected by a prefix. *)
Definition part {A : Type} (f : form A) (v : Z) : Z :=
  match f with
  | FLow _ => v mod 256
  | FHigh _ | FSwap _ => v / 256 mod 256
  | FBank _ => v / 65536 mod 256
  | _ => v
  end.
Definition byte (v : Z) : Prop := 0 <= v <= 255.
Definition word (v : Z) : Prop := 0 <= v <= 65535.
(** A branch of [n] bytes at [pc] to [v]. *)
Definition reachable (pc n v : Z) : Prop := word v /\ -128 <= v - (pc + n) <= 127.
(** Operands that are in range; [pc] is the address of the instruction. *)
Definition in_range {A : Type} (s : string) (kd : kind) (f : form A) (pc : Z) (vs : list Z) : Prop :=
  match kd, vs with
  | Imp, [] | Acc, [] => True
  | Imm, [v] => (if String.eqb s "BIT" then 0 else -128) <= part f v <= 255
  | (Zp | ZpX | ZpY | IndX | IndY | IndZp), [v] => byte v
  | (Abs | AbsX | AbsY | Ind | IndAbsX), [v] => word v /\ match f with FZp _ | FZpX _ | FZpY _ => byte v | _ => True end
  | Rel, [v] => reachable pc 2 v /\ match f with FZp _ => byte v | _ => True end
  | ZpRel, [v; w] => byte v /\ reachable pc 3 w
  | Bit, [v; w] => 0 <= v <= 7 /\ byte w
  | BitRel, [v; w; x] => 0 <= v <= 7 /\ byte w /\ reachable pc 3 x
  | _, _ => False
  end.
(** What is stored: sizes, the expressions the values depend on, and the values. *)
Definition cells {A : Type} (b : Z) (kd : kind) (f : form A) (pc : Z) (l : list arg) : list (nat * term * Z) :=
  let op := (1%nat, Num b, b) in
  let one a := (1%nat, g_term a, g_value a) in
  let two a := (2%nat, g_term a, g_value a) in
  let rel n a := (1%nat, PcRel (-1) (g_term a), g_value a - (pc + n)) in
  let bit a := (1%nat, g_term a, b + 16 * g_value a) in
  match kd, l with
  | Imm, [a] => [op; (1%nat, g_term a, part f (g_value a) mod 256)]
  | (Zp | ZpX | ZpY | IndX | IndY | IndZp), [a] => [op; one a]
  | (Abs | AbsX | AbsY | Ind | IndAbsX), [a] => [op; two a]
  | Rel, [a] => [op; rel 2 a]
  | ZpRel, [a; a2] => [op; one a; rel 3 a2]
  | Bit, [a; a2] => [bit a; one a2]
  | BitRel, [a; a2; a3] => [bit a; one a2; rel 3 a3]
  | _, _ => [op]
  end.
(** The place [d] bytes further on. *)
Definition moved (d : Z) (S : setting) : setting :=
  Setting (s_F S) (s_world S) (s_base S) (Env (e_sym (s_env S)) (e_bank (s_env S)) (e_pc (s_env S) + d)) (s_garb S)
    (s_garbage S).
(** The cells are stored one after the other, each in its own place. *)
Fixpoint emits_seq (S : setting) (k : nat) (st st' : xstate) (l : list (nat * term * Z)) : Prop :=
  match l with
  | [] => st' = st
  | x :: r => exists st1, emits S k st st1 [x] /\ emits_seq (moved (Z.of_nat (fst (fst x))) S) k st1 st' r
  end.
(** The end of a line. *)
Definition ends (rest : list token) : Prop := match rest with [] => True | TOther :: _ => True | _ => False end.

(** Instructions that are encoded wrongly or refused; see the faults. *)
Definition faulty (s : string) (kd : kind) (f : form arg) : Prop :=
  s = "RLA" \/ (kd = IndZp /\ is_near f = false) \/
  match f with
  | FThree a b _ => expr_IsConstant (g_expr a) = true /\ expr_IsConstant (g_expr b) = false
  | _ => False
  end.

(** The settings of the assembler for a processor. *)
Definition cpu_number (c : cpu) : Z := match c with C6502 => 1 | C65C02 => 2 | C65C02S => 4 end.
