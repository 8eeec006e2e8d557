(** Specification for C56: the value of string expressions and the text of formatted
    integers. *)
From Coq Require Import ZArith List Bool.
From Verif Require Import Base StrModel.
Import ListNotations.
Open Scope Z_scope.

(** A text of digits and the number it shows. *)
Definition shows (base : Z) (text : list Z) (v : Z) : Prop :=
  exists ds, Forall (fun d => 0 <= d < base) ds /\
    text = map (fun d => if d <? 10 then 48 + d else 55 + d) ds /\
    v = fold_left (fun a d => a * base + d) ds 0.
(** As many digits as needed, and at least one and at least [width]. *)
Definition no_more_than_needed (width : nat) (text : list Z) : Prop :=
  text <> [] /\ (width <= length text)%nat /\
  ((width < length text)%nat -> (1 < length text)%nat -> hd 0 text <> 48).

(** String expressions: literals, sums and the members slice, upper and lower. *)
Inductive sexpr : Type :=
| ELit (s : list Z)
| EAdd (a b : sexpr)
| EUpper (a : sexpr)
| ELower (a : sexpr)
| ESlice (a : sexpr) (start : Z) (count : option Z).
Definition upper_case (c : Z) : Z := if (97 <=? c) && (c <=? 122) then c - 32 else c.
Definition lower_case (c : Z) : Z := if (65 <=? c) && (c <=? 90) then c + 32 else c.
(** The characters from [start], which counts from the end if it is negative, [count] of
    them if that many are left. *)
Definition part (s : list Z) (start : Z) (count : option Z) : list Z :=
  let from := Z.to_nat (if start <? 0 then zlen s + start else start) in
  match count with
  | None => skipn from s
  | Some c => firstn (Z.to_nat c) (skipn from s)
  end.
Fixpoint value (e : sexpr) : list Z :=
  match e with
  | ELit s => s
  | EAdd a b => value a ++ value b
  | EUpper a => map upper_case (value a)
  | ELower a => map lower_case (value a)
  | ESlice a s c => part (value a) s c
  end.

(** How an expression is written: members bind more tightly than +, sums are read from
    the left, and parentheses may stand around any expression. *)
Inductive term : sexpr -> list stok -> Prop :=
| T_lit : forall s, term (ELit s) [KString s]
| T_paren : forall e l, sum e l -> term e (KOpen :: l ++ [KClose])
| T_upper : forall e l, term e l -> term (EUpper e) (l ++ [KDot; KUpper])
| T_lower : forall e l, term e l -> term (ELower e) (l ++ [KDot; KLower])
| T_slice : forall e l s, term e l -> term (ESlice e s None) (l ++ [KDot; KSlice; KOpen; KNumber s; KClose])
| T_slice2 : forall e l s c, term e l ->
    term (ESlice e s (Some c)) (l ++ [KDot; KSlice; KOpen; KNumber s; KComma; KNumber c; KClose])
with sum : sexpr -> list stok -> Prop :=
| S_term : forall e l, term e l -> sum e l
| S_add : forall a b la lb, sum a la -> term b lb -> sum (EAdd a b) (la ++ KAdd :: lb).

(** All strings and sums of positions stay within an int. *)
Fixpoint fits_int (e : sexpr) : Prop :=
  match e with
  | ELit s => True
  | EAdd a b => fits_int a /\ fits_int b
  | EUpper a | ELower a => fits_int a
  | ESlice a s c => fits_int a /\ zlen (value a) <= 2147483647 /\
      match c with Some c => - 2147483648 <= c /\ zlen (value a) + c <= 2147483647 | None => True end
  end.
(** What may follow an expression. *)
Definition ends_expression (l : list stok) : Prop :=
  match l with
  | KAdd :: _ => False
  | KDot :: KSlice :: _ | KDot :: KUpper :: _ | KDot :: KLower :: _ => False
  | _ => True
  end.
