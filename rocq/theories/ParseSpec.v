(** How an expression is written and how it is grouped (for C36). *)
From Coq Require Import ZArith List Bool.
From Verif Require Import Base Arith ExprSpec ParseModel.
Import ListNotations.
Open Scope Z_scope.

(** Source expressions.  An identifier carries what follows its leading dot, if
    it has one. *)
Inductive sx : Type :=
| XNum (z : Z)
| XSym (s : nat) (d : dotname)
| XPc (star : bool)                (* @ or * *)
| XParen (a : sx)
| XNeg (a : sx) | XPlus (a : sx) | XInv (a : sx)
| XNot (a : sx)                    (* ~! *)
| XBin (o : op) (a b : sx)
| XFun (o : op) (a : sx)           (* sin(a) *)
| XAtan2 (a b : sx)
| XDef (s : nat) (d : dotname)
| XBank (s : nat) (d : dotname).

(** The tokens of an expression.  Parentheses appear only where XParen says. *)
Fixpoint show (t : sx) : list tok :=
  match t with
  | XNum z => [KNum z]
  | XSym s d => [KId s d]
  | XPc star => [if star then KOp OpMul else KAt]
  | XParen a => KLp :: show a ++ [KRp]
  | XNeg a => KOp OpSub :: show a
  | XPlus a => KOp OpAdd :: show a
  | XInv a => KInv :: show a
  | XNot a => KOp OpBoolNot :: show a
  | XBin o a b => show a ++ KOp o :: show b
  | XFun o a => KFun o :: KLp :: show a ++ [KRp]
  | XAtan2 a b => KFun OpAtan2 :: KLp :: show a ++ KComma :: show b ++ [KRp]
  | XDef s d => [KDef; KLp; KId s d; KRp]
  | XBank s d => [KBank; KLp; KId s d; KRp]
  end.

(** What it stands for: -a is 0 - a and ~a is all ones exclusive or a. *)
Fixpoint term_of (pc : nat) (defined : nat -> bool) (t : sx) : term :=
  match t with
  | XNum z => Num z
  | XSym s _ => Sym s
  | XPc _ => Sym pc
  | XParen a => Paren (term_of pc defined a)
  | XNeg a => Bin OpSub (Num 0) (term_of pc defined a)
  | XPlus a => term_of pc defined a
  | XInv a => Bin OpXor (Num (-1)) (term_of pc defined a)
  | XNot a => Un OpBoolNot (term_of pc defined a)
  | XBin o a b => Bin o (term_of pc defined a) (term_of pc defined b)
  | XFun o a => Un o (term_of pc defined a)
  | XAtan2 a b => Bin OpAtan2 (term_of pc defined a) (term_of pc defined b)
  | XDef s _ => Num (of_bool (defined s))
  | XBank s _ => BankOf s
  end.

(** A precedence table gives each binary operator a level; higher binds tighter.
    Level 1 is that of the low form of ~! and 7 that of the unary operators. *)
Definition table : Type := op -> option nat.

(** The table of doc/ReferenceOperators.md (where ~! stands last, below && and
    ||; see C36_not_refuted). *)
Definition documented : table := fun o =>
  match o with
  | OpBoolOr | OpBoolAnd => Some 0%nat
  | OpEq | OpNe | OpLe | OpGe | OpLt | OpGt => Some 2%nat
  | OpAdd | OpSub => Some 3%nat
  | OpAnd | OpXor | OpOr => Some 4%nat
  | OpAsl | OpAsr => Some 5%nat
  | OpMul | OpDiv | OpMod | OpFmul | OpFdiv => Some 6%nat
  | _ => None
  end.
(** The table the assembler follows: shifts are on the level of * and /. *)
Definition levels : table := fun o =>
  match o with
  | OpAsl | OpAsr => Some 6%nat
  | _ => documented o
  end.

(** Does the text start with ~! ? *)
Fixpoint starts_not (t : sx) : bool :=
  match t with
  | XNot _ => true
  | XBin _ a _ => starts_not a
  | _ => false
  end.

(** The tree [t] is grouped as the table says, in a place where an operand of
    level [l] or tighter is wanted: operators of the same level group to the
    left, and ~! at the start of an expression covers everything up to the next
    boolean operator. *)
Fixpoint grouped (T : table) (l : nat) (t : sx) : Prop :=
  match t with
  | XNum _ | XSym _ _ | XPc _ | XDef _ _ | XBank _ _ => True
  | XParen a => grouped T 0 a
  | XFun _ a => grouped T 0 a
  | XAtan2 a b => grouped T 0 a /\ grouped T 0 b
  | XNeg a | XPlus a | XInv a => grouped T 7 a
  | XNot a => if Nat.leb l 1 then grouped T 1 a else grouped T 7 a
  | XBin o a b =>
      match T o with
      | Some p =>
          (l <= p)%nat /\ ((l <= 1)%nat -> (2 <= p)%nat -> starts_not a = false) /\
          grouped T p a /\ grouped T (S p) b
      | None => False
      end
  end.

(** Literals are 32 bit; functions are the six with one argument; no identifier
    reads as the string members .upper, .lower or .slice. *)
Fixpoint plain (t : sx) : Prop :=
  match t with
  | XNum z => is_s32 z
  | XSym _ d =>
      match d with Dot (Some MUpper) | Dot (Some MLower) | Dot (Some MSlice) => False | _ => True end
  | XPc _ | XDef _ _ | XBank _ _ => True
  | XParen a | XNeg a | XPlus a | XInv a | XNot a => plain a
  | XFun o a => isUnaryFun o = true /\ plain a
  | XBin _ a b | XAtan2 a b => plain a /\ plain b
  end.

(** What follows the expression does not continue it. *)
Definition ends (rest : list tok) : Prop :=
  match rest with KOp o :: _ => levels o = None | _ => True end.

(** For the documented table: the places where the assembler departs from it are
    avoided.  ~! is not used, and the count of a shift is not a bare product. *)
Fixpoint clear_cut (t : sx) : Prop :=
  match t with
  | XNum _ | XSym _ _ | XPc _ | XDef _ _ | XBank _ _ => True
  | XParen a | XNeg a | XPlus a | XInv a | XFun _ a => clear_cut a
  | XNot _ => False
  | XBin o a b =>
      match o, b with
      | (OpAsl | OpAsr), XBin _ _ _ => False
      | _, _ => clear_cut a /\ clear_cut b
      end
  | XAtan2 a b => clear_cut a /\ clear_cut b
  end.
