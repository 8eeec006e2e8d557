(** Specification vocabulary for expressions in links that leave the sections
    without addresses. *)
From Coq Require Import ZArith List Bool.
From Verif Require Import Base Arith ExprSpec ExprModel LinkExprModel.
Import ListNotations.
Open Scope Z_scope.

(** The bytes of an expression in an object file: operands first, then the operator. *)
Fixpoint object_code (id : nat -> Z) (t : term) : list Z :=
  match t with
  | Num z => 30 :: le32 (u32 z)
  | Sym s => 31 :: le32 (u32 (id s))
  | BankOf s => 33 :: le32 (u32 (id s))
  | Paren t => object_code id t
  | Un o t => object_code id t ++ match op_code o with Some b => [b] | None => [] end
  | Bin o t1 t2 => object_code id t1 ++ object_code id t2 ++ match op_code o with Some b => [b] | None => [] end
  | PcRel adj t => (30 :: le32 (u32 adj)) ++ object_code id t ++ [32]
  end.

(** What the linker knows about the symbols, and what they are once section [k] is
    loaded at [addr k]. *)
Definition address_of (addr : nat -> Z) (y : symview) : option Z :=
  if v_placed y then Some (v_value y)
  else match v_section y with Some k => Some (v_value y + addr k) | None => None end.
Definition loaded (c : linkctx) (id : nat -> Z) (addr : nat -> Z) (E : env) (t : term) : Prop :=
  (forall s, In s (values_of t) -> exists y, c_symbol c (u32 (id s)) = Ok y /\ address_of addr y = Some (e_sym E s)) /\
  (forall s, In s (banks_of t) -> c_bank c (u32 (id s)) = Ok (Some (e_bank E s))) /\
  u32 (c_cpuLocation c + c_offset c) = u32 (e_pc E).

(** Differences of two expressions with symbols are of two symbols: see
    C52_difference_refuted. *)
Fixpoint plain (t : term) : Prop := match t with Sym _ => True | Paren t => plain t | _ => False end.
Fixpoint tidy (t : term) : Prop :=
  match t with
  | Num _ | Sym _ | BankOf _ => True
  | Paren t | Un _ t | PcRel _ t => tidy t
  | Bin o t1 t2 =>
      tidy t1 /\ tidy t2 /\ (o = OpSub -> values_of t1 = [] \/ values_of t2 = [] \/ (plain t1 /\ plain t2))
  end.
Fixpoint coded (t : term) : Prop :=
  match t with
  | Num _ | Sym _ | BankOf _ => True
  | Paren t | PcRel _ t => coded t
  | Un o t => o <> OpBit /\ coded t
  | Bin _ t1 t2 => coded t1 /\ coded t2
  end.

(** The value of what the linker leaves: a number, or one relative to a section. *)
Definition entry_value (addr : nat -> Z) (e : entry) : option Z :=
  match en_symbol e with
  | None => Some (en_value e)
  | Some y => match v_section y with Some k => Some (en_value e + v_value y + addr k) | None => None end
  end.
