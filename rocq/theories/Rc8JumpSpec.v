(** Specification of RC811 jumps and of instructions with a condition. *)
From Coq Require Import ZArith List Bool String.
From Verif Require Import Base ExprModel Rc8Model Rc8Spec.
Import ListNotations.
Open Scope string_scope.
Open Scope list_scope.
Open Scope Z_scope.

(** Conditions, how they may be written, and their numbers in an opcode. *)
Inductive cond : Type := LE | GT | LT | GE | LEU | GTU | LTU | GEU | EQ | NE.
Definition names (c : cond) : list string :=
  match c with
  | LE => ["LE"] | GT => ["GT"] | LT => ["LT"] | GE => ["GE"] | LEU => ["LEU"] | GTU => ["GTU"]
  | LTU => ["LTU"; "C"] | GEU => ["GEU"; "NC"] | EQ => ["EQ"; "Z"] | NE => ["NE"; "NZ"]
  end.
Definition code (c : cond) : Z :=
  match c with LE => 0 | GT => 1 | LT => 2 | GE => 3 | LEU => 4 | GTU => 5 | LTU => 6 | GEU => 7 | EQ => 8 | NE => 9 end.
(** The condition that holds when [c] does not. *)
Definition opposite (c : cond) : cond :=
  match c with LE => GT | GT => LE | LT => GE | GE => LT | LEU => GTU | GTU => LEU | LTU => GEU | GEU => LTU | EQ => NE | NE => EQ end.
(** J label, J/condition label, DJ register,label. *)
Inductive jump : Type := Jump | JumpIf (c : cond) (name : string) | DecJump (r : reg).
Definition spelled (j : jump) : Prop := match j with JumpIf c name => In name (names c) | _ => True end.
Definition jump_text (j : jump) (e : expr) : list piece :=
  match j with
  | Jump => [Word "J"; Operand e]
  | JumpIf _ name => [Word "J"; Slash; Word name; Operand e]
  | DecJump r => [Word "DJ"; Word (reg_name r); Comma; Operand e]
  end.
Definition number_of (r : reg) : Z :=
  match r with rF => 0 | rT => 1 | rB => 2 | rC => 3 | rD => 4 | rE => 5 | rH => 6 | rL => 7 end.
(** A byte that says which jump, and a byte with the distance from itself. *)
Definition jump_opcode (j : jump) : Z :=
  match j with Jump => 0x9A | JumpIf c _ => 0x90 + code c | DecJump r => 0x88 + number_of r end.
(** A condition is written behind the first word. *)
Definition on_condition (name : string) (l : list piece) : list piece :=
  match l with [] => [] | w :: r => w :: Slash :: Word name :: r end.
(** J (pair), J/condition (pair) and JAL (pair) go to the address in a pair; the opcode
    names it.  A condition is a jump on the opposite one past the opcode. *)
Inductive through : Type := JumpTo (p : pair) | JumpToIf (c : cond) (name : string) (p : pair) | Call (p : pair).
Definition through_spelled (j : through) : Prop := match j with JumpToIf c name _ => In name (names c) | _ => True end.
Definition pair_number (p : pair) : Z := match p with FT => 0 | BC => 1 | DE => 2 | HL => 3 end.
Definition through_text (j : through) : list piece :=
  match j with
  | JumpTo p => [Word "J"; Word (place_name (At p))]
  | JumpToIf _ name p => [Word "J"; Slash; Word name; Word (place_name (At p))]
  | Call p => [Word "JAL"; Word (place_name (At p))]
  end.
Definition through_bytes (j : through) : list Z :=
  match j with
  | JumpTo p => [0x3C + pair_number p]
  | JumpToIf c _ p => [0x90 + code (opposite c); 2; 0x3C + pair_number p]
  | Call p => [0x38 + pair_number p]
  end.
