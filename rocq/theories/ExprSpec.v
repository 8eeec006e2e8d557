(** What an expression means: the specification for C07, C08 and C09.  Nothing
    here mentions how the assembler or linker represent expressions. *)
From Coq Require Import ZArith List Bool.
From Verif Require Import Base Arith.
Import ListNotations.
Open Scope Z_scope.

(** Expressions as a user writes them; symbols are numbered. *)
Inductive term : Type :=
| Num (z : Z)
| Sym (s : nat)
| BankOf (s : nat)
| Paren (t : term)
| Un (o : op) (t : term)
| Bin (o : op) (t1 t2 : term)
| PcRel (adjustment : Z) (t : term).

(** A final memory layout: symbol addresses, their banks, and the address of the
    place the expression's value goes to. *)
Record env : Type := Env { e_sym : nat -> Z; e_bank : nat -> Z; e_pc : Z }.

Definition inr (z : Z) : option Z := if (- 2 ^ 31 <=? z) && (z <? 2 ^ 31) then Some z else None.
Definition of_bool (b : bool) : Z := if b then 1 else 0.

(** 32 bit arithmetic; no meaning when the result does not fit, when dividing by
    zero or when shifting by more than 31 places. *)
Definition op_meaning (F : fmath) (o : op) (a b : Z) : option Z :=
  match o with
  | OpSub => inr (a - b)
  | OpAdd => inr (a + b)
  | OpMul => inr (a * b)
  | OpDiv => if b =? 0 then None else inr (Z.quot a b)
  | OpMod => if b =? 0 then None else if (a =? - 2 ^ 31) && (b =? -1) then None else Some (Z.rem a b)
  | OpXor => Some (Z.lxor a b)
  | OpOr => Some (Z.lor a b)
  | OpAnd => Some (Z.land a b)
  | OpAsl => if (0 <=? b) && (b <=? 31) then Some (s32 (Z.shiftl a b)) else None
  | OpAsr => if (0 <=? b) && (b <=? 31) then Some (Z.shiftr a b) else None
  | OpBoolOr => Some (of_bool (negb (a =? 0) || negb (b =? 0)))
  | OpBoolAnd => Some (of_bool (negb (a =? 0) && negb (b =? 0)))
  | OpGe => Some (of_bool (b <=? a))
  | OpGt => Some (of_bool (b <? a))
  | OpLe => Some (of_bool (a <=? b))
  | OpLt => Some (of_bool (a <? b))
  | OpEq => Some (of_bool (a =? b))
  | OpNe => Some (of_bool (negb (a =? b)))
  | OpLowLimit => if b <=? a then Some a else None
  | OpHighLimit => if a <=? b then Some a else None
  | OpAssert => if b =? 0 then None else Some a
  | OpFdiv => if b =? 0 then None else Some (f_fdiv F a b)
  | OpFmul => Some (f_fmul F a b)
  | OpAtan2 => Some (f_atan2 F a b)
  | _ => None
  end.
Definition un_meaning (F : fmath) (o : op) (a : Z) : option Z :=
  match o with
  | OpBoolNot => Some (of_bool (a =? 0))
  | OpSin => Some (f_sin F a)
  | OpCos => Some (f_cos F a)
  | OpTan => Some (f_tan F a)
  | OpAsin => Some (f_asin F a)
  | OpAcos => Some (f_acos F a)
  | OpAtan => Some (f_atan F a)
  | OpBit =>
      (* the position of the only bit set in the 32 bit pattern *)
      let u := a mod 2 ^ 32 in
      if (0 <? u) && (2 ^ Z.log2 u =? u) then Some (Z.log2 u) else None
  | _ => None
  end.
(** The distance from the place patched, plus an adjustment. *)
Definition pcrel_meaning (x adj pc : Z) : option Z :=
  match inr (x + adj), inr (adj - pc) with
  | Some y, Some _ => inr (y - pc)
  | _, _ => None
  end.

Fixpoint meaning (F : fmath) (E : env) (t : term) : option Z :=
  match t with
  | Num z => Some z
  | Sym s => Some (e_sym E s)
  | BankOf s => Some (e_bank E s)
  | Paren t => meaning F E t
  | Un o t => match meaning F E t with Some a => un_meaning F o a | None => None end
  | Bin o t1 t2 =>
      match meaning F E t1, meaning F E t2 with
      | Some a, Some b => op_meaning F o a b
      | _, _ => None
      end
  | PcRel adj t => match meaning F E t with Some x => pcrel_meaning x adj (e_pc E) | None => None end
  end.

(** A term that is a parenthesised expression, possibly under an assertion. *)
Fixpoint paren_head (t : term) : Prop :=
  match t with
  | Paren _ => True
  | Bin OpAssert t1 _ => paren_head t1
  | _ => False
  end.
(** Literals are 32 bit; pc-relative operands are not themselves parenthesised
    (see C09_pcrel_parens_refuted). *)
Fixpoint term_ok (t : term) : Prop :=
  match t with
  | Num z => is_s32 z
  | Sym _ | BankOf _ => True
  | Paren t => term_ok t
  | Un _ t => term_ok t
  | Bin _ t1 t2 => term_ok t1 /\ term_ok t2
  | PcRel adj t =>
      is_s32 adj /\ term_ok t /\ ~ paren_head t
  end.

(** How many values are held at once when evaluating left to right. *)
Fixpoint tdepth (t : term) : Z :=
  match t with
  | Num _ | Sym _ | BankOf _ => 1
  | Paren t | Un _ t => tdepth t
  | Bin _ t1 t2 => Z.max (tdepth t1) (1 + tdepth t2)
  | PcRel _ t => 1 + tdepth t
  end.

(** The symbols used as the argument of BANK. *)
Fixpoint banks_of (t : term) : list nat :=
  match t with
  | Num _ | Sym _ => []
  | BankOf s => [s]
  | Paren t | Un _ t | PcRel _ t => banks_of t
  | Bin _ t1 t2 => banks_of t1 ++ banks_of t2
  end.
(** The symbols used other than as the argument of BANK. *)
Fixpoint values_of (t : term) : list nat :=
  match t with
  | Num _ | BankOf _ => []
  | Sym s => [s]
  | Paren t | Un _ t | PcRel _ t => values_of t
  | Bin _ t1 t2 => values_of t1 ++ values_of t2
  end.

(** The fixed point functions return int32_t. *)
Definition fmath_ok (F : fmath) : Prop :=
  (forall a b, is_s32 (f_fdiv F a b)) /\ (forall a b, is_s32 (f_fmul F a b)) /\
  (forall a b, is_s32 (f_atan2 F a b)) /\
  (forall a, is_s32 (f_sin F a)) /\ (forall a, is_s32 (f_cos F a)) /\ (forall a, is_s32 (f_tan F a)) /\
  (forall a, is_s32 (f_asin F a)) /\ (forall a, is_s32 (f_acos F a)) /\ (forall a, is_s32 (f_atan F a)).
