(** How an assembler state relates to a final memory layout, and how a term is
    entered through the expression API. *)
From Coq Require Import ZArith List Bool.
From Verif Require Import Base Arith ExprSpec ExprModel.
Import ListNotations.
Open Scope Z_scope.

(** [base k] is the address section [k] ends up at.  A layout agrees with the
    assembler state when constants keep their value, labels move with their
    section, sections at a fixed address are there, and sections in a fixed bank
    are there. *)
Definition env_ok (w : world) (base : nat -> Z) (E : env) : Prop :=
  (forall s, is_s32 (e_sym E s)) /\
  (forall s, is_s32 (e_bank E s)) /\
  (forall s, y_constant (w_symbol w s) = true -> e_sym E s = y_value (w_symbol w s)) /\
  (forall s, y_type (w_symbol w s) = SymEqu -> y_constant (w_symbol w s) = true) /\
  (forall s, y_type (w_symbol w s) = SymLabel ->
     y_reloc (w_symbol w s) = true /\ exists k, y_section (w_symbol w s) = Some k) /\
  (forall s k, y_section (w_symbol w s) = Some k ->
     exists a, nth_error (w_sections w) k = Some a /\
       (y_reloc (w_symbol w s) = true -> e_sym E s = base k + y_value (w_symbol w s)) /\
       (a_bankfixed a = true -> e_bank E s = s32 (a_bank a))) /\
  (forall k a, nth_error (w_sections w) k = Some a -> a_loadfixed a = true -> base k = a_cpuOrigin a).

(** Symbols used are defined (or imported). *)
Definition defined (w : world) (t : term) : Prop :=
  forall s, In s (values_of t) ->
    y_expression (w_symbol w s) = true /\ y_type (w_symbol w s) <> SymUndefined.

(** The place an expression is used at: the current section with its index, at
    offset [off] from its start (bytes are addressable). *)
Definition at_place (w : world) (base : nat -> Z) (k : nat) (a : asect) (off : Z) (E : env) : Prop :=
  nth_error (w_sections w) k = Some a /\ e_pc E = base k + off.
(** When the expression is entered in a section at a fixed address, the assembler
    takes the address of the place from its own counters. *)
Definition pc_known (cur : option asect) (E : env) : Prop :=
  match cur with
  | Some a => a_loadfixed a = true \/ a_orgfixed a = true ->
              u32 (e_pc E) = u32 (a_pc a + a_cpuOrigin a + a_cpuAdjust a)
  | None => True
  end.

(** The expression API calls that enter a term: parse_expression.c calls these
    functions for each operator (expr_Sub for subtraction and so on). *)
Definition build1 (F : fmath) (o : op) (e : expr) : res expr :=
  match o with
  | OpBit => expr_Bit e
  | _ => if is_unary o then expr_Unary F o e else Err
  end.
Definition build2 (F : fmath) (g : Z) (w : world) (o : op) (l r : expr) : res expr :=
  match o with
  | OpSub => expr_Sub F w l r
  | OpLowLimit => expr_LowLimit l r
  | OpHighLimit => expr_HighLimit l r
  | OpAssert => expr_Assert g l r
  | OpBank | OpBit | OpNone => Err
  | _ => if is_unary o then Err else expr_Binary F o l r
  end.
(** [garb] is the integer seen in the union when it holds a pointer to a
    symbol; [g] an uninitialised integer. *)
Fixpoint build (F : fmath) (garb : nat -> Z) (g : Z) (w : world) (cur : option asect) (t : term) : res expr :=
  match t with
  | Num z => Ok (expr_Const z)
  | Sym s => expr_Symbol garb w s
  | BankOf s => Ok (expr_Bank garb s)
  | Paren t => let! e := build F garb g w cur t in expr_Parens e
  | Un o t => let! e := build F garb g w cur t in build1 F o e
  | Bin o t1 t2 =>
      let! l := build F garb g w cur t1 in
      let! r := build F garb g w cur t2 in
      build2 F g w o l r
  | PcRel adj t => let! e := build F garb g w cur t in expr_PcRelative F cur e adj
  end.

(** Terms whose value is known as soon as they are entered. *)
Fixpoint known (w : world) (t : term) : Prop :=
  match t with
  | Num _ => True
  | Sym s => y_constant (w_symbol w s) = true
  | BankOf _ | PcRel _ _ => False
  | Paren t | Un _ t => known w t
  | Bin _ t1 t2 => known w t1 /\ known w t2
  end.
(** Divisors are known when entered (see C09_garbage_division_refuted). *)
Fixpoint divisors_known (w : world) (t : term) : Prop :=
  match t with
  | Num _ | Sym _ | BankOf _ => True
  | Paren t | Un _ t | PcRel _ t => divisors_known w t
  | Bin o t1 t2 =>
      divisors_known w t1 /\ divisors_known w t2 /\
      match o with OpDiv | OpMod | OpFdiv => known w t2 | _ => True end
  end.
(** BIT, which the object format lacks, is not used. *)
Fixpoint no_bit (t : term) : Prop :=
  match t with
  | Num _ | Sym _ | BankOf _ => True
  | Paren t | PcRel _ t => no_bit t
  | Un o t => o <> OpBit /\ no_bit t
  | Bin _ t1 t2 => no_bit t1 /\ no_bit t2
  end.
