(** Specification of the 6809 instruction set: the assembly language, the opcode table
    and the post bytes of the MC6809 programming manual. *)
From Coq Require Import ZArith List Bool String.
From Verif Require Import Base Arith ExprSpec ExprModel ExprLayout OptModel SectModel SectSpec InstrSpec.
From Verif Require X65Spec.
From Verif Require Import M6809Model.
Import ListNotations.
Open Scope string_scope.
Open Scope list_scope.
Open Scope Z_scope.

(** ** Operands *)
(** Registers, and the index registers with their numbers in post bytes. *)
Inductive reg : Type := A | B | D | PC | CC | DP | X | Y | U | S.
Definition reg_name (r : reg) : string :=
  match r with A => "A" | B => "B" | D => "D" | PC => "PCR" | CC => "CCR" | DP => "DPR" | X => "X" | Y => "Y" | U => "U" | S => "S" end.
Definition reg_eqb (a b : reg) : bool := String.eqb (reg_name a) (reg_name b).
Inductive index : Type := IX | IY | IU | IS.
Definition index_name (r : index) : string := match r with IX => "X" | IY => "Y" | IU => "U" | IS => "S" end.
Definition index_number (r : index) : Z := match r with IX => 0 | IY => 1 | IU => 2 | IS => 3 end.
(** The size of an offset, left to the assembler or chosen by < or >. *)
Inductive size : Type := Auto | Short | Long.
Inductive acc : Type := AccA | AccB | AccD.
Definition acc_name (a : acc) : string := match a with AccA => "A" | AccB => "B" | AccD => "D" end.
(** Indexed operands: ,R+  ,R++  ,-R  ,--R  ,R  A,R  n,R  n,PCR *)
Inductive place (T : Type) : Type :=
| Inc1 (r : index) | Inc2 (r : index) | Dec1 (r : index) | Dec2 (r : index) | At (r : index)
| Acc (a : acc) (r : index) | Off (s : size) (n : T) (r : index) | Pcr (s : size) (n : T).
Arguments Inc1 {T} r.
Arguments Inc2 {T} r.
Arguments Dec1 {T} r.
Arguments Dec2 {T} r.
Arguments At {T} r.
Arguments Acc {T} a r.
Arguments Off {T} s n r.
Arguments Pcr {T} s n.
(** Operands: none  #n  n  <n  >n  an indexed one, perhaps in brackets  [n] or [>n]  a
    list of registers  two registers. *)
Inductive form (T : Type) : Type :=
| Nothing | Immediate (n : T) | Address (n : T) | DirectTo (n : T) | ExtendedTo (n : T)
| Indexed (indirect : bool) (p : place T) | Indirect (far : bool) (n : T) | Registers (l : list reg) | Pair (a b : reg).
Arguments Nothing {T}.
Arguments Immediate {T} n.
Arguments Address {T} n.
Arguments DirectTo {T} n.
Arguments ExtendedTo {T} n.
Arguments Indexed {T} indirect p.
Arguments Indirect {T} far n.
Arguments Registers {T} l.
Arguments Pair {T} a b.

(** How they are written. *)
Definition size_text (s : size) : list piece := match s with Auto => [] | Short => [Lt] | Long => [Gt] end.
Definition place_text (p : place expr) : list piece :=
  match p with
  | Inc1 r => [Comma; Word (index_name r); Plus]
  | Inc2 r => [Comma; Word (index_name r); Plus; Plus]
  | Dec1 r => [Comma; Minus; Word (index_name r)]
  | Dec2 r => [Comma; Minus; Minus; Word (index_name r)]
  | At r => [Comma; Word (index_name r)]
  | Acc a r => [Word (acc_name a); Comma; Word (index_name r)]
  | Off s n r => size_text s ++ [Operand n; Comma; Word (index_name r)]
  | Pcr s n => size_text s ++ [Operand n; Comma; Word "PCR"]
  end.
Fixpoint regs_text (l : list reg) : list piece :=
  match l with [] => [] | [r] => [Word (reg_name r)] | r :: l' => Word (reg_name r) :: Comma :: regs_text l' end.
Definition text (f : form expr) : list piece :=
  match f with
  | Nothing => []
  | Immediate n => [Hash; Operand n]
  | Address n => [Operand n]
  | DirectTo n => [Lt; Operand n]
  | ExtendedTo n => [Gt; Operand n]
  | Indexed false p => place_text p
  | Indexed true p => Lb :: place_text p ++ [Rb]
  | Indirect far n => Lb :: (if far then [Gt] else []) ++ [Operand n; Rb]
  | Registers l => regs_text l
  | Pair a b => [Word (reg_name a); Comma; Word (reg_name b)]
  end.
Definition place_map {T R : Type} (f : T -> R) (p : place T) : place R :=
  match p with
  | Inc1 r => Inc1 r | Inc2 r => Inc2 r | Dec1 r => Dec1 r | Dec2 r => Dec2 r | At r => At r | Acc a r => Acc a r
  | Off s n r => Off s (f n) r | Pcr s n => Pcr s (f n)
  end.
Definition form_map {T R : Type} (f : T -> R) (x : form T) : form R :=
  match x with
  | Nothing => Nothing | Immediate n => Immediate (f n) | Address n => Address (f n) | DirectTo n => DirectTo (f n)
  | ExtendedTo n => ExtendedTo (f n) | Indexed i p => Indexed i (place_map f p) | Indirect g n => Indirect g (f n)
  | Registers l => Registers l | Pair a b => Pair a b
  end.

(** ** The opcode table *)
(** The columns; [Stack p] is a list of registers with [p] as the one that may be the
    other stack pointer. *)
Inductive column : Type := Inherent | Imm8 | Imm16 | Dir | Idx | Ext | Rel8 | Rel16 | Stack (p : reg) | Transfer.
Definition row : Type := string * list (column * list Z).
(** Immediate of 8 or 16 bits, direct, indexed and extended. *)
Definition memory (w : column) (s : string) (i d x e : list Z) : row := (s, [(w, i); (Dir, d); (Idx, x); (Ext, e)]).
Definition plain (s : string) (d x e : list Z) : row := (s, [(Dir, d); (Idx, x); (Ext, e)]).
Definition one (c : column) (s : string) (code : list Z) : row := (s, [(c, code)]).
Definition table : list row :=
  [memory Imm8 "ADCA" [0x89] [0x99] [0xA9] [0xB9]; memory Imm8 "ADCB" [0xC9] [0xD9] [0xE9] [0xF9];
   memory Imm8 "ADDA" [0x8B] [0x9B] [0xAB] [0xBB]; memory Imm8 "ADDB" [0xCB] [0xDB] [0xEB] [0xFB];
   memory Imm16 "ADDD" [0xC3] [0xD3] [0xE3] [0xF3];
   memory Imm8 "ANDA" [0x84] [0x94] [0xA4] [0xB4]; memory Imm8 "ANDB" [0xC4] [0xD4] [0xE4] [0xF4];
   memory Imm8 "BITA" [0x85] [0x95] [0xA5] [0xB5]; memory Imm8 "BITB" [0xC5] [0xD5] [0xE5] [0xF5];
   memory Imm8 "CMPA" [0x81] [0x91] [0xA1] [0xB1]; memory Imm8 "CMPB" [0xC1] [0xD1] [0xE1] [0xF1];
   memory Imm16 "CMPD" [0x10; 0x83] [0x10; 0x93] [0x10; 0xA3] [0x10; 0xB3];
   memory Imm16 "CMPS" [0x11; 0x8C] [0x11; 0x9C] [0x11; 0xAC] [0x11; 0xBC];
   memory Imm16 "CMPU" [0x11; 0x83] [0x11; 0x93] [0x11; 0xA3] [0x11; 0xB3];
   memory Imm16 "CMPX" [0x8C] [0x9C] [0xAC] [0xBC];
   memory Imm16 "CMPY" [0x10; 0x8C] [0x10; 0x9C] [0x10; 0xAC] [0x10; 0xBC];
   memory Imm8 "EORA" [0x88] [0x98] [0xA8] [0xB8]; memory Imm8 "EORB" [0xC8] [0xD8] [0xE8] [0xF8];
   memory Imm8 "LDA" [0x86] [0x96] [0xA6] [0xB6]; memory Imm8 "LDB" [0xC6] [0xD6] [0xE6] [0xF6];
   memory Imm16 "LDD" [0xCC] [0xDC] [0xEC] [0xFC];
   memory Imm16 "LDS" [0x10; 0xCE] [0x10; 0xDE] [0x10; 0xEE] [0x10; 0xFE];
   memory Imm16 "LDU" [0xCE] [0xDE] [0xEE] [0xFE]; memory Imm16 "LDX" [0x8E] [0x9E] [0xAE] [0xBE];
   memory Imm16 "LDY" [0x10; 0x8E] [0x10; 0x9E] [0x10; 0xAE] [0x10; 0xBE];
   memory Imm8 "ORA" [0x8A] [0x9A] [0xAA] [0xBA]; memory Imm8 "ORB" [0xCA] [0xDA] [0xEA] [0xFA];
   memory Imm8 "SBCA" [0x82] [0x92] [0xA2] [0xB2]; memory Imm8 "SBCB" [0xC2] [0xD2] [0xE2] [0xF2];
   memory Imm8 "SUBA" [0x80] [0x90] [0xA0] [0xB0]; memory Imm8 "SUBB" [0xC0] [0xD0] [0xE0] [0xF0];
   memory Imm16 "SUBD" [0x83] [0x93] [0xA3] [0xB3];
   plain "STA" [0x97] [0xA7] [0xB7]; plain "STB" [0xD7] [0xE7] [0xF7]; plain "STD" [0xDD] [0xED] [0xFD];
   plain "STS" [0x10; 0xDF] [0x10; 0xEF] [0x10; 0xFF]; plain "STU" [0xDF] [0xEF] [0xFF];
   plain "STX" [0x9F] [0xAF] [0xBF]; plain "STY" [0x10; 0x9F] [0x10; 0xAF] [0x10; 0xBF];
   plain "ASL" [0x08] [0x68] [0x78]; plain "LSL" [0x08] [0x68] [0x78]; plain "ASR" [0x07] [0x67] [0x77];
   plain "CLR" [0x0F] [0x6F] [0x7F]; plain "COM" [0x03] [0x63] [0x73]; plain "DEC" [0x0A] [0x6A] [0x7A];
   plain "INC" [0x0C] [0x6C] [0x7C]; plain "JMP" [0x0E] [0x6E] [0x7E]; plain "JSR" [0x9D] [0xAD] [0xBD];
   plain "LSR" [0x04] [0x64] [0x74]; plain "NEG" [0x00] [0x60] [0x70]; plain "ROL" [0x09] [0x69] [0x79];
   plain "ROR" [0x06] [0x66] [0x76]; plain "TST" [0x0D] [0x6D] [0x7D];
   one Idx "LEAX" [0x30]; one Idx "LEAY" [0x31]; one Idx "LEAS" [0x32]; one Idx "LEAU" [0x33];
   one Imm8 "ANDCC" [0x1C]; one Imm8 "ORCC" [0x1A]; one Imm8 "CWAI" [0x3C];
   one (Stack U) "PSHS" [0x34]; one (Stack U) "PULS" [0x35]; one (Stack S) "PSHU" [0x36]; one (Stack S) "PULU" [0x37];
   one Transfer "EXG" [0x1E]; one Transfer "TFR" [0x1F];
   one Inherent "ABX" [0x3A]; one Inherent "ASLA" [0x48]; one Inherent "ASLB" [0x58]; one Inherent "LSLA" [0x48];
   one Inherent "LSLB" [0x58]; one Inherent "ASRA" [0x47]; one Inherent "ASRB" [0x57]; one Inherent "CLRA" [0x4F];
   one Inherent "CLRB" [0x5F]; one Inherent "COMA" [0x43]; one Inherent "COMB" [0x53]; one Inherent "DAA" [0x19];
   one Inherent "DECA" [0x4A]; one Inherent "DECB" [0x5A]; one Inherent "INCA" [0x4C]; one Inherent "INCB" [0x5C];
   one Inherent "LSRA" [0x44]; one Inherent "LSRB" [0x54]; one Inherent "MUL" [0x3D]; one Inherent "NEGA" [0x40];
   one Inherent "NEGB" [0x50]; one Inherent "NOP" [0x12]; one Inherent "ROLA" [0x49]; one Inherent "ROLB" [0x59];
   one Inherent "RORA" [0x46]; one Inherent "RORB" [0x56]; one Inherent "RTI" [0x3B]; one Inherent "RTS" [0x39];
   one Inherent "SEX" [0x1D]; one Inherent "SWI" [0x3F]; one Inherent "SWI2" [0x10; 0x3F]; one Inherent "SWI3" [0x11; 0x3F];
   one Inherent "SYNC" [0x13]; one Inherent "TSTA" [0x4D]; one Inherent "TSTB" [0x5D];
   one Rel8 "BRA" [0x20]; one Rel8 "BRN" [0x21]; one Rel8 "BHI" [0x22]; one Rel8 "BLS" [0x23]; one Rel8 "BHS" [0x24];
   one Rel8 "BCC" [0x24]; one Rel8 "BLO" [0x25]; one Rel8 "BCS" [0x25]; one Rel8 "BNE" [0x26]; one Rel8 "BEQ" [0x27];
   one Rel8 "BVC" [0x28]; one Rel8 "BVS" [0x29]; one Rel8 "BPL" [0x2A]; one Rel8 "BMI" [0x2B]; one Rel8 "BGE" [0x2C];
   one Rel8 "BLT" [0x2D]; one Rel8 "BGT" [0x2E]; one Rel8 "BLE" [0x2F]; one Rel8 "BSR" [0x8D];
   one Rel16 "LBRA" [0x16]; one Rel16 "LBSR" [0x17]; one Rel16 "LBRN" [0x10; 0x21]; one Rel16 "LBHI" [0x10; 0x22];
   one Rel16 "LBLS" [0x10; 0x23]; one Rel16 "LBHS" [0x10; 0x24]; one Rel16 "LBCC" [0x10; 0x24]; one Rel16 "LBLO" [0x10; 0x25];
   one Rel16 "LBCS" [0x10; 0x25]; one Rel16 "LBNE" [0x10; 0x26]; one Rel16 "LBEQ" [0x10; 0x27]; one Rel16 "LBVC" [0x10; 0x28];
   one Rel16 "LBVS" [0x10; 0x29]; one Rel16 "LBPL" [0x10; 0x2A]; one Rel16 "LBMI" [0x10; 0x2B]; one Rel16 "LBGE" [0x10; 0x2C];
   one Rel16 "LBLT" [0x10; 0x2D]; one Rel16 "LBGT" [0x10; 0x2E]; one Rel16 "LBLE" [0x10; 0x2F]].

(** ** Encodings *)
Notation arg := X65Spec.arg.
Notation g_term := X65Spec.g_term.
Notation g_expr := X65Spec.g_expr.
Notation g_value := X65Spec.g_value.
(** Whether the assembler knows the value when it reads the instruction. *)
Definition known_now (a : arg) : bool := expr_IsConstant (g_expr a).
(** [p] is the direct page if SETDP has told it: the value is in that page. *)
Definition in_page (p : option Z) (a : arg) : bool :=
  match p with Some p => known_now a && (g_value a / 256 mod 256 =? p) | None => false end.
(** The column an operand belongs to.  An address without < or > is a branch target, or
    is direct if it is known to lie in the direct page, and extended otherwise. *)
Definition belongs (p : option Z) (f : form arg) (c : column) : bool :=
  match f, c with
  | Nothing, Inherent => true
  | Immediate _, (Imm8 | Imm16) => true
  | Address n, (Rel8 | Rel16) => true
  | Address n, Dir => in_page p n
  | Address n, Ext => negb (in_page p n)
  | DirectTo _, Dir => true
  | ExtendedTo _, Ext => true
  | Indexed true (Inc1 _ | Dec1 _), _ => false
  | Indexed _ _, Idx => true
  | Indirect _ _, Idx => true
  | Registers l, Stack q => negb (match l with [] => true | _ => false end)
      && forallb (fun r => existsb (reg_eqb r) [CC; A; B; DP; X; Y; PC; q]) l
  | Pair a b, Transfer => Bool.eqb (existsb (reg_eqb a) [A; B; CC; DP]) (existsb (reg_eqb b) [A; B; CC; DP])
  | _, _ => false
  end.
(** The width of an offset that the source does not choose: none for 0, 5 bits for -16
    to 15, except in brackets; otherwise 8 bits if that is enough. *)
Inductive width : Type := W0 | W5 | W8 | W16.
Definition offset_width (indirect : bool) (s : size) (v : Z) : width :=
  match s with
  | Short => W8
  | Long => W16
  | Auto => if negb indirect && (v =? 0) then W0 else if negb indirect && (-16 <=? v) && (v <=? 15) then W5
            else if (-128 <=? v) && (v <=? 127) then W8 else W16
  end.
(** The cells of an indexed operand, from the post byte on, which is at [pc]. *)
Definition byte_cell (b : Z) : nat * term * Z := (1%nat, Num b, b).
Definition place_cells (indirect : bool) (p : place arg) (pc : Z) : list (nat * term * Z) :=
  let post b r := byte_cell (b + 32 * index_number r + (if indirect then 16 else 0)) in
  match p with
  | Inc1 r => [post 0x80 r]
  | Inc2 r => [post 0x81 r]
  | Dec1 r => [post 0x82 r]
  | Dec2 r => [post 0x83 r]
  | At r => [post 0x84 r]
  | Acc AccA r => [post 0x86 r]
  | Acc AccB r => [post 0x85 r]
  | Acc AccD r => [post 0x8B r]
  | Off s n r =>
      match offset_width indirect s (g_value n) with
      | W0 => [post 0x84 r]
      | W5 => [byte_cell (32 * index_number r + g_value n mod 32)]
      | W8 => [post 0x88 r; (1%nat, g_term n, g_value n)]
      | W16 => [post 0x89 r; (2%nat, g_term n, g_value n)]
      end
  | Pcr Short n => [post 0x8C IX; (1%nat, PcRel (-1) (g_term n), g_value n - (pc + 2))]
  | Pcr _ n => [post 0x8D IX; (2%nat, PcRel (-2) (g_term n), g_value n - (pc + 3))]
  end.
(** The bits of a register list and the codes of EXG and TFR. *)
Definition stack_bit (r : reg) : Z :=
  match r with CC => 0 | A => 1 | B => 2 | DP => 3 | X => 4 | Y => 5 | U => 6 | S => 6 | PC => 7 | D => 8 end.
Definition stack_byte (l : list reg) : Z :=
  fold_right (fun i s => (if existsb (fun r => stack_bit r =? i) l then 2 ^ i else 0) + s) 0 [0; 1; 2; 3; 4; 5; 6; 7].
Definition transfer_code (r : reg) : Z :=
  match r with D => 0 | X => 1 | Y => 2 | U => 3 | S => 4 | PC => 5 | A => 8 | B => 9 | CC => 10 | DP => 11 end.
(** The cells of an operand in a column, the first at [pc]. *)
Definition operand_cells (f : form arg) (c : column) (pc : Z) : list (nat * term * Z) :=
  match f with
  | Nothing => []
  | Immediate n => [((if match c with Imm8 => true | _ => false end then 1 else 2)%nat, g_term n, g_value n)]
  | Address n | DirectTo n | ExtendedTo n =>
      match c with
      | Rel8 => [(1%nat, PcRel (-1) (g_term n), g_value n - (pc + 1))]
      | Rel16 => [(2%nat, PcRel (-2) (g_term n), g_value n - (pc + 2))]
      | Dir => [(1%nat, g_term n, g_value n mod 256)]
      | _ => [(2%nat, g_term n, g_value n)]
      end
  | Indexed i p => place_cells i p pc
  | Indirect _ n => [byte_cell 0x9F; (2%nat, g_term n, g_value n)]
  | Registers l => [byte_cell (stack_byte l)]
  | Pair a b => [byte_cell (16 * transfer_code a + transfer_code b)]
  end.
Definition encoding (f : form arg) (c : column) (code : list Z) (pc : Z) : list (nat * term * Z) :=
  map byte_cell code ++ operand_cells f c (pc + zlen code).

(** Values that fit. *)
Definition fits8 (v : Z) : Prop := -128 <= v <= 255.
Definition fits16 (v : Z) : Prop := -32768 <= v <= 65535.
Definition near (d : Z) : Prop := -128 <= d <= 127.
Definition address (v : Z) : Prop := 0 <= v <= 65535.
Definition place_fits (indirect : bool) (p : place arg) (pc : Z) : Prop :=
  match p with
  | Off Auto n _ => -32768 <= g_value n <= 32767
  | Off Short n _ => near (g_value n)
  | Off Long n _ => fits16 (g_value n)
  | Pcr Short n => address (g_value n) /\ near (g_value n - (pc + 2))
  | Pcr _ n => address (g_value n) /\ fits16 (g_value n - (pc + 3))
  | _ => True
  end.
Definition operand_fits (f : form arg) (c : column) (pc : Z) : Prop :=
  match f with
  | Immediate n => match c with Imm8 => fits8 (g_value n) | _ => fits16 (g_value n) end
  | Address n | DirectTo n | ExtendedTo n =>
      match c with
      | Rel8 => address (g_value n) /\ near (g_value n - (pc + 1))
      | Rel16 => address (g_value n) /\ fits16 (g_value n - (pc + 2))
      | Dir => True
      | _ => fits16 (g_value n)
      end
  | Indexed i p => place_fits i p pc
  | Indirect _ n => fits16 (g_value n)
  | _ => True
  end.
(** Known operands that are reported when they do not fit: not those of branches, PCR
    and n,R without < or >.  An 8 bit offset is compared with the range of a byte. *)
Definition beyond (f : form arg) (c : column) : Prop :=
  match f with
  | Immediate n => match c with Imm8 => ~ fits8 (g_value n) | _ => ~ fits16 (g_value n) end
  | Address n | ExtendedTo n => c = Ext /\ ~ fits16 (g_value n)
  | Indirect _ n => ~ fits16 (g_value n)
  | Indexed _ (Off Short n _) => ~ fits8 (g_value n)
  | Indexed _ (Off Long n _) => ~ fits16 (g_value n)
  | _ => False
  end.
(** The numbers of an operand; those a distance is computed from may not be as a whole
    in parentheses. *)
Definition numbers (f : form arg) (c : column) : list (arg * bool) :=
  match f with
  | Immediate n | DirectTo n | ExtendedTo n | Indirect _ n => [(n, false)]
  | Address n => [(n, match c with Rel8 | Rel16 => true | _ => false end)]
  | Indexed _ (Off _ n _) => [(n, false)]
  | Indexed _ (Pcr _ n) => [(n, true)]
  | _ => []
  end.
Definition numbers_known (S : setting) (cur : option asect) (f : form arg) (c : column) : Prop :=
  forall a rel, In (a, rel) (numbers f c) ->
    operand S cur (g_term a) (g_expr a) (g_value a) /\ X65Spec.source_term (g_term a) /\ tdepth (g_term a) <= 240 /\
    (rel = true -> ~ paren_head (g_term a)).
(** What the assembler knows of the direct page. *)
Definition page_base (p : option Z) : dpage := option_map (fun p => 256 * p) p.
(** The end of a line. *)
Definition ends (rest : list token) : Prop := match rest with [] => True | TOther :: _ => True | _ => False end.

(** ** Faults *)
(** Instructions that are refused or encoded wrongly: LSRA and LSRB; offsets of 8 and 16
    bits from Y, U and S; offsets not known yet without < or >. *)
Definition faulty (name : string) (f : form arg) : bool :=
  String.eqb name "LSRA" || String.eqb name "LSRB" ||
  match f with
  | Indexed i (Off s n r) =>
      (negb (index_number r =? 0) && match offset_width i s (g_value n) with W8 | W16 => true | _ => false end) ||
      (match s with Auto => true | _ => false end && negb (known_now n))
  | _ => false
  end.
(** Operands that are accepted though the manual has no such form: both < and >; < in
    brackets; a comma after the number; < or > with a branch; an immediate operand of
    ROL, ROR or an instruction for the stack; a register list that is empty or ends with
    a comma. *)
Definition signs : list (list piece) := [[]; [Lt]; [Gt]; [Gt; Lt]].
Definition indexes : list (list piece) :=
  [] :: [Comma; Word "PCR"] :: map (fun r => [Comma; Word (index_name r)]) [IX; IY; IU; IS].
Inductive odd (name : string) : list piece -> Prop :=
| odd_both n x : In x indexes -> odd name ([Gt; Lt; Operand n] ++ x)
| odd_both_in n x : In x indexes -> odd name ([Lb; Gt; Lt; Operand n] ++ x ++ [Rb])
| odd_direct_in n : odd name [Lb; Lt; Operand n; Rb]
| odd_comma s n : In s signs -> odd name (s ++ [Operand n; Comma])
| odd_comma_in s n : In s signs -> odd name ([Lb] ++ s ++ [Operand n; Comma; Rb])
| odd_branch s n cols c code : In s signs -> In (name, cols) table -> In (c, code) cols -> (c = Rel8 \/ c = Rel16) -> odd name (s ++ [Operand n])
| odd_immediate n : In name ["ROL"; "ROR"; "PSHS"; "PULS"; "PSHU"; "PULU"] -> odd name [Hash; Operand n]
| odd_list l : In name ["PSHS"; "PULS"; "PSHU"; "PULU"] -> odd name (match l with [] => [] | _ => regs_text l ++ [Comma] end).
