(** Specification of the CHIP-8 and SuperCHIP instruction set: /repo/doc/CpuCHIP.md. *)
From Coq Require Import ZArith List Bool String.
From Verif Require Import Base Arith ExprSpec ExprModel InstrSpec ChipModel.
Import ListNotations.
Open Scope string_scope.
Open Scope Z_scope.

(** Instructions; [x] and [y] are register numbers, [n] a number or address. *)
Inductive cinstr (A : Type) : Type :=
| Cls | Ret | Jp (n : A) | Call (n : A)
| SeImm (x : Z) (n : A) | SneImm (x : Z) (n : A) | Se (x y : Z) | Sne (x y : Z)
| LdImm (x : Z) (n : A) | AddImm (x : Z) (n : A) | Ld (x y : Z)
| Or (x y : Z) | And (x y : Z) | Xor (x y : Z) | Add (x y : Z) | Sub (x y : Z) | Subn (x y : Z)
| Shr (x : Z) | Shl (x : Z)
| LdI (n : A) | JpV0 (n : A) | Rnd (x : Z) (n : A) | Drw (x y : Z) (n : A)
| Skp (x : Z) | Sknp (x : Z)
| LdFromDT (x : Z) | Wkp (x : Z) | LdDT (x : Z) | LdST (x : Z) | AddI (x : Z) | Ldf (x : Z) | Bcd (x : Z)
| Store (x : Z) | Load (x : Z)
| Scd (n : A) | Scr | Scl | Exit | Low | High | Ldf10 (x : Z) | StoreRPL (x : Z) | LoadRPL (x : Z).
Arguments Cls {A}. Arguments Ret {A}. Arguments Jp {A}. Arguments Call {A}. Arguments SeImm {A}.
Arguments SneImm {A}. Arguments Se {A}. Arguments Sne {A}. Arguments LdImm {A}. Arguments AddImm {A}.
Arguments Ld {A}. Arguments Or {A}. Arguments And {A}. Arguments Xor {A}. Arguments Add {A}.
Arguments Sub {A}. Arguments Subn {A}. Arguments Shr {A}. Arguments Shl {A}. Arguments LdI {A}.
Arguments JpV0 {A}. Arguments Rnd {A}. Arguments Drw {A}. Arguments Skp {A}. Arguments Sknp {A}.
Arguments LdFromDT {A}. Arguments Wkp {A}. Arguments LdDT {A}. Arguments LdST {A}. Arguments AddI {A}.
Arguments Ldf {A}. Arguments Bcd {A}. Arguments Store {A}. Arguments Load {A}. Arguments Scd {A}.
Arguments Scr {A}. Arguments Scl {A}. Arguments Exit {A}. Arguments Low {A}. Arguments High {A}.
Arguments Ldf10 {A}. Arguments StoreRPL {A}. Arguments LoadRPL {A}.

(** Change of operands. *)
Definition cmap {A B : Type} (f : A -> B) (i : cinstr A) : cinstr B :=
  match i with
  | Cls => Cls | Ret => Ret | Jp n => Jp (f n) | Call n => Call (f n)
  | SeImm x n => SeImm x (f n) | SneImm x n => SneImm x (f n) | Se x y => Se x y | Sne x y => Sne x y
  | LdImm x n => LdImm x (f n) | AddImm x n => AddImm x (f n) | Ld x y => Ld x y
  | Or x y => Or x y | And x y => And x y | Xor x y => Xor x y | Add x y => Add x y
  | Sub x y => Sub x y | Subn x y => Subn x y | Shr x => Shr x | Shl x => Shl x
  | LdI n => LdI (f n) | JpV0 n => JpV0 (f n) | Rnd x n => Rnd x (f n) | Drw x y n => Drw x y (f n)
  | Skp x => Skp x | Sknp x => Sknp x | LdFromDT x => LdFromDT x | Wkp x => Wkp x
  | LdDT x => LdDT x | LdST x => LdST x | AddI x => AddI x | Ldf x => Ldf x | Bcd x => Bcd x
  | Store x => Store x | Load x => Load x | Scd n => Scd (f n) | Scr => Scr | Scl => Scl
  | Exit => Exit | Low => Low | High => High | Ldf10 x => Ldf10 x
  | StoreRPL x => StoreRPL x | LoadRPL x => LoadRPL x
  end.
(** The expression operand, if there is one. *)
Definition operand_of {A : Type} (i : cinstr A) : option A :=
  match i with
  | Jp n | Call n | SeImm _ n | SneImm _ n | LdImm _ n | AddImm _ n | LdI n | JpV0 n | Rnd _ n | Drw _ _ n
  | Scd n => Some n
  | _ => None
  end.

(** The opcode table of the manual: four hexadecimal digits. *)
Definition digits (a b c d : Z) : Z := ((a * 16 + b) * 16 + c) * 16 + d.
(** Two digits nn for an 8-bit number, which may be given as negative. *)
Definition hi4 (n : Z) : Z := n mod 256 / 16.
Definition lo4 (n : Z) : Z := n mod 16.
Definition encoding (i : cinstr Z) : Z :=
  match i with
  | Cls => 0x00E0
  | Ret => 0x00EE
  | Jp n => 0x1000 + n
  | Call n => 0x2000 + n
  | SeImm x n => digits 3 x (hi4 n) (lo4 n)
  | SneImm x n => digits 4 x (hi4 n) (lo4 n)
  | Se x y => digits 5 x y 0
  | LdImm x n => digits 6 x (hi4 n) (lo4 n)
  | AddImm x n => digits 7 x (hi4 n) (lo4 n)
  | Ld x y => digits 8 x y 0
  | Or x y => digits 8 x y 1
  | And x y => digits 8 x y 2
  | Xor x y => digits 8 x y 3
  | Add x y => digits 8 x y 4
  | Sub x y => digits 8 x y 5
  | Shr x => digits 8 x 0 6
  | Subn x y => digits 8 x y 7
  | Shl x => digits 8 x 0 0xE
  | Sne x y => digits 9 x y 0
  | LdI n => 0xA000 + n
  | JpV0 n => 0xB000 + n
  | Rnd x n => digits 0xC x (hi4 n) (lo4 n)
  | Drw x y n => digits 0xD x y (lo4 n)
  | Skp x => digits 0xE x 9 0xE
  | Sknp x => digits 0xE x 0xA 1
  | LdFromDT x => digits 0xF x 0 7
  | Wkp x => digits 0xF x 0 0xA
  | LdDT x => digits 0xF x 1 5
  | LdST x => digits 0xF x 1 8
  | AddI x => digits 0xF x 1 0xE
  | Ldf x => digits 0xF x 2 9
  | Bcd x => digits 0xF x 3 3
  | Store x => digits 0xF x 5 5
  | Load x => digits 0xF x 6 5
  | Scd n => 0x00C0 + n
  | Scr => 0x00FB
  | Scl => 0x00FC
  | Exit => 0x00FD
  | Low => 0x00FE
  | High => 0x00FF
  | Ldf10 x => digits 0xF x 3 0
  | StoreRPL x => digits 0xF x 7 5
  | LoadRPL x => digits 0xF x 8 5
  end.

(** Instructions of the SuperCHIP only. *)
Definition needs_schip {A : Type} (i : cinstr A) : bool :=
  match i with
  | Scd _ | Scr | Scl | Exit | Low | High | Ldf10 _ | StoreRPL _ | LoadRPL _ => true
  | _ => false
  end.
Definition CHIP8 : Z := 1.
Definition SCHIP : Z := 2.
Definition available {A : Type} (cpu : Z) (i : cinstr A) : Prop :=
  cpu = SCHIP \/ (cpu = CHIP8 /\ needs_schip i = false).

(** How an instruction is written. *)
Definition register (x : Z) : piece :=
  Word (nth (Z.to_nat x)
         ["V0"; "V1"; "V2"; "V3"; "V4"; "V5"; "V6"; "V7"; "V8"; "V9"; "VA"; "VB"; "VC"; "VD"; "VE"; "VF"] "").
Definition text (i : cinstr expr) : list piece :=
  match i with
  | Cls => [Word "CLS"]
  | Ret => [Word "RET"]
  | Jp n => [Word "JP"; Operand n]
  | Call n => [Word "CALL"; Operand n]
  | SeImm x n => [Word "SE"; register x; Comma; Operand n]
  | SneImm x n => [Word "SNE"; register x; Comma; Operand n]
  | Se x y => [Word "SE"; register x; Comma; register y]
  | Sne x y => [Word "SNE"; register x; Comma; register y]
  | LdImm x n => [Word "LD"; register x; Comma; Operand n]
  | AddImm x n => [Word "ADD"; register x; Comma; Operand n]
  | Ld x y => [Word "LD"; register x; Comma; register y]
  | Or x y => [Word "OR"; register x; Comma; register y]
  | And x y => [Word "AND"; register x; Comma; register y]
  | Xor x y => [Word "XOR"; register x; Comma; register y]
  | Add x y => [Word "ADD"; register x; Comma; register y]
  | Sub x y => [Word "SUB"; register x; Comma; register y]
  | Subn x y => [Word "SUBN"; register x; Comma; register y]
  | Shr x => [Word "SHR"; register x]
  | Shl x => [Word "SHL"; register x]
  | LdI n => [Word "LD"; Word "I"; Comma; Operand n]
  | JpV0 n => [Word "JP"; Word "V0"; Plus; Operand n]
  | Rnd x n => [Word "RND"; register x; Comma; Operand n]
  | Drw x y n => [Word "DRW"; register x; Comma; register y; Comma; Operand n]
  | Skp x => [Word "SKP"; register x]
  | Sknp x => [Word "SKNP"; register x]
  | LdFromDT x => [Word "LD"; register x; Comma; Word "DT"]
  | Wkp x => [Word "WKP"; register x]
  | LdDT x => [Word "LD"; Word "DT"; Comma; register x]
  | LdST x => [Word "LD"; Word "ST"; Comma; register x]
  | AddI x => [Word "ADD"; Word "I"; Comma; register x]
  | Ldf x => [Word "LDF"; register x]
  | Bcd x => [Word "BCD"; register x]
  | Store x => [Word "LDM"; Word "(I)"; Comma; register x]
  | Load x => [Word "LDM"; register x; Comma; Word "(I)"]
  | Scd n => [Word "SCD"; Operand n]
  | Scr => [Word "SCR"]
  | Scl => [Word "SCL"]
  | Exit => [Word "EXIT"]
  | Low => [Word "LOW"]
  | High => [Word "HIGH"]
  | Ldf10 x => [Word "LDF10"; register x]
  | StoreRPL x => [Word "LDM"; Word "RPL"; Comma; register x]
  | LoadRPL x => [Word "LDM"; register x; Comma; Word "RPL"]
  end.

(** Operands the machine has: registers 0 to 15, addresses of 12 bits, bytes given as
    signed or unsigned numbers, and heights up to 16. *)
Definition reg_ok (x : Z) : Prop := 0 <= x <= 15.
Definition valid (i : cinstr Z) : Prop :=
  match i with
  | Jp n | Call n | LdI n | JpV0 n => 0 <= n <= 4095
  | SeImm x n | SneImm x n | LdImm x n | AddImm x n | Rnd x n => reg_ok x /\ -128 <= n <= 255
  | Se x y | Sne x y | Ld x y | Or x y | And x y | Xor x y | Add x y | Sub x y | Subn x y => reg_ok x /\ reg_ok y
  | Drw x y n => reg_ok x /\ reg_ok y /\ 0 <= n <= 16
  | Shr x | Shl x | Skp x | Sknp x | LdFromDT x | Wkp x | LdDT x | LdST x | AddI x | Ldf x | Bcd x | Store x | Load x
  | Ldf10 x | StoreRPL x | LoadRPL x => reg_ok x
  | Scd n => 0 <= n <= 15
  | _ => True
  end.
(** The operand as the machine sees it: bytes modulo 256, height 16 is written 0. *)
Definition canonical (i : cinstr Z) : cinstr Z :=
  match i with
  | SeImm x n => SeImm x (n mod 256)
  | SneImm x n => SneImm x (n mod 256)
  | LdImm x n => LdImm x (n mod 256)
  | AddImm x n => AddImm x (n mod 256)
  | Rnd x n => Rnd x (n mod 256)
  | Drw x y n => Drw x y (n mod 16)
  | _ => i
  end.

(** An operand: the expression as written, as entered, and its final value. *)
Record arg : Type := Arg { g_term : term; g_expr : expr; g_value : Z }.
Definition args_known (S : setting) (cur : option asect) (i : cinstr arg) : Prop :=
  forall a, operand_of i = Some a -> operand S cur (g_term a) (g_expr a) (g_value a) /\ tdepth (g_term a) <= 250.
Definition term_of (i : cinstr arg) : term :=
  match operand_of i with Some a => g_term a | None => Num 0 end.

(** Operands as they can be written, separated by commas. *)
Inductive opnd : Type := OReg (x : Z) | OI | ODT | OST | OInd | ORpl | OExpr (e : expr) | OV0 (e : expr).
Definition opnd_ok (o : opnd) : Prop :=
  match o with OReg x => reg_ok x | OExpr e | OV0 e => isNull e = false | _ => True end.
Definition opnd_text (o : opnd) : list piece :=
  match o with
  | OReg x => [register x]
  | OI => [Word "I"] | ODT => [Word "DT"] | OST => [Word "ST"] | OInd => [Word "(I)"] | ORpl => [Word "RPL"]
  | OExpr e => [Operand e]
  | OV0 e => [Word "V0"; Plus; Operand e]
  end.
Fixpoint opnds_text (l : list opnd) : list piece :=
  match l with
  | [] => []
  | [o] => opnd_text o
  | o :: r => (opnd_text o ++ Comma :: opnds_text r)%list
  end.
(** The number of operands of a mnemonic. *)
Definition arity (s : string) : nat :=
  if existsb (String.eqb s) ["CLS"; "RET"; "SCR"; "SCL"; "EXIT"; "LOW"; "HIGH"] then 0
  else if existsb (String.eqb s) ["JP"; "CALL"; "SHR"; "SHL"; "SKP"; "SKNP"; "WKP"; "LDF"; "LDF10"; "BCD"; "SCD"] then 1
  else if String.eqb s "DRW" then 3 else 2.
(** The transfers between registers and RPL flags. *)
Definition rpl_transfer {A : Type} (i : cinstr A) : Prop :=
  match i with StoreRPL _ | LoadRPL _ => True | _ => False end.
