(** What the linker must know for an expression to have its value: part of the
    specification of C07. *)
From Coq Require Import ZArith List Bool.
From Verif Require Import Base Arith ExprSpec ExprModel LinkExprModel.
Import ListNotations.
Open Scope Z_scope.

(** The linker has placed the sections of the symbols used where the layout says,
    knows their banks, and patches at the place of the layout.  [id] gives the
    numbers under which the symbols were written. *)
Definition linker_sees (c : linkctx) (id : nat -> Z) (E : env) (t : term) : Prop :=
  u32 (c_cpuLocation c + c_offset c) = u32 (e_pc E) /\
  (forall s, In s (values_of t) ->
     exists y, c_symbol c (u32 (id s)) = Ok y /\ v_placed y = true /\ v_value y = e_sym E s) /\
  (forall s, In s (banks_of t) -> c_bank c (u32 (id s)) = Ok (Some (e_bank E s))).

(** Literal expressions, and their trees and bytes with nothing folded. *)
Fixpoint literal (t : term) : Prop :=
  match t with
  | Num z => is_s32 z
  | Sym _ | BankOf _ | PcRel _ _ => False
  | Paren t | Un _ t => literal t
  | Bin _ t1 t2 => literal t1 /\ literal t2
  end.
Fixpoint raw (t : term) : expr :=
  match t with
  | Paren t => raw t
  | Un o t => ENode TOperation false o 0 0 ENull (raw t)
  | Bin o t1 t2 => ENode TOperation false o 0 0 (raw t1) (raw t2)
  | Num z => expr_Const z
  | _ => ENull
  end.
(** Object format: operands first, then the operator's code. *)
Fixpoint postfix (t : term) : list Z :=
  match t with
  | Num z => 30 :: le32 (u32 z)
  | Paren t => postfix t
  | Un o t => postfix t ++ match op_code o with Some b => [b] | None => [] end
  | Bin o t1 t2 => postfix t1 ++ postfix t2 ++ match op_code o with Some b => [b] | None => [] end
  | _ => []
  end.
