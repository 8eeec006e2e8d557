(** The value of an expression tree in a final memory layout: specification for
    C09.  A node marked constant has the value stored in it; any other node has
    the value its operation gives to the values of its operands. *)
From Coq Require Import ZArith List Bool.
From Verif Require Import Base Arith ExprSpec ExprModel.
Import ListNotations.
Open Scope Z_scope.

Definition un (o : op) : bool := is_unary o || match o with OpBit => true | _ => false end.

Fixpoint den (F : fmath) (E : env) (e : expr) : option Z :=
  match e with
  | ENull => None
  | ENode t c o v s l r =>
      if c then Some v else
      match t with
      | TConst => Some v
      | TSymbol => Some (e_sym E s)
      | TParens => den F E r
      | TPcRelative =>
          match den F E l, den F E r with
          | Some a, Some x => pcrel_meaning x a (e_pc E)
          | _, _ => None
          end
      | TOperation =>
          match o with
          | OpBank => Some (e_bank E s)
          | _ =>
              if un o then match den F E r with Some x => un_meaning F o x | None => None end
              else match den F E l, den F E r with
                   | Some a, Some b => op_meaning F o a b
                   | _, _ => None
                   end
          end
      end
  end.

(** Trees after optimisation: only constants are marked constant, no parentheses. *)
Fixpoint opf (e : expr) : Prop :=
  match e with
  | ENull => False
  | ENode t c o v s l r =>
      match t with
      | TConst => c = true /\ is_s32 v /\ l = ENull /\ r = ENull
      | TSymbol => c = false /\ l = ENull /\ r = ENull
      | TParens => False
      | TPcRelative => c = false /\ opf l /\ opf r
      | TOperation =>
          c = false /\
          match o with
          | OpBank => l = ENull /\ r = ENull
          | OpNone => False
          | _ => if un o then l = ENull /\ opf r else opf l /\ opf r
          end
      end
  end.

