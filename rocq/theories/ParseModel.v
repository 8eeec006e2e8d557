(** Model of xasm/motor/parse_expression.c and parse_string.c: the recursive
    descent parser for integer and string expressions. *)
From Coq Require Import ZArith List Bool.
From Verif Require Import Base Arith ExprModel.
From Verif Require StrModel.
Import ListNotations.
Open Scope Z_scope.

(** tokens.c:73-78, string members. *)
Inductive member : Type := MCompareTo | MIndexOf | MLength | MSlice | MUpper | MLower.

(** What follows the dot of an identifier that begins with one: a string member
    keyword or something else (parse.c:106-120 parse_IsDot turns such an
    identifier into the word after the dot). *)
Inductive dotname : Type := NoDot | Dot (m : option member).

(** Tokens (tokens.h).  Simplifications: an identifier with its scope path is
    one token and already looked up (parseIdentifier, parse_expression.c:77-117);
    a string literal comes with its interpolated value; code literals, RAND and
    CPU specific functions are left out. *)
Inductive tok : Type :=
| KNum (z : Z)
| KStr (raw value : list Z)
| KId (s : nat) (d : dotname)
| KAt
| KOp (o : op)                    (* binary operators and ~! *)
| KInv                            (* ~ *)
| KFun (o : op)                   (* SIN COS TAN ASIN ACOS ATAN ATAN2 *)
| KDef
| KBank
| KLp | KRp | KComma
| KFloat
| KWord (s : nat)                 (* any other keyword; its text names symbol s *)
| KOther.

(** The surroundings of the parser: the symbol table and what it needs of the
    util library. *)
Record pctx : Type := Pctx {
  p_math : fmath;
  p_world : world;
  p_garbage : nat -> Z;
  p_pc : nat;                          (* the symbol made by expr_Pc *)
  p_defined : nat -> bool;             (* sym_IsDefined *)
  p_symstring : nat -> option (list Z);  (* sym_GetSymbolValueAsStringByName *)
  p_reserved : bool;                   (* opt_Current->allowReservedKeywordLabels *)
  p_opsym : tok -> nat;                (* the symbol named by an operator token's text *)
  p_compare : list Z -> list Z -> Z;   (* str_Compare *)
  p_find : list Z -> list Z -> option Z;   (* str_Find *)
  p_upper : list Z -> list Z;
  p_lower : list Z -> list Z }.

(** The result of a parser: Ok with the remaining tokens (ENull and None are the
    NULL results), Err when an error has been reported (the assembly then
    produces no output), UB. *)
Definition parsed (A : Type) : Type := res (A * list tok).

(** parse.c:122-131 parse_ExpectChar. *)
Definition expectRp (ts : list tok) : res (list tok) :=
  match ts with KRp :: r => Ok r | _ => Err end.
Definition expectLp (ts : list tok) : res (list tok) :=
  match ts with KLp :: r => Ok r | _ => Err end.
Definition expectComma (ts : list tok) : res (list tok) :=
  match ts with KComma :: r => Ok r | _ => Err end.

(** parse.c:106-120 parse_IsDot: the member word that follows. *)
Definition isDot (ts : list tok) : option (option member * list tok) :=
  match ts with KId _ (Dot m) :: r => Some (m, r) | _ => None end.

(** parse_expression.c:401-420 (expression.c) expr_Symbol gives NULL for symbols
    without a value. *)
Definition symbolExpr (P : pctx) (s : nat) : res expr :=
  if y_expression (w_symbol (p_world P) s) then expr_Symbol (p_garbage P) (p_world P) s
  else Ok ENull.

(** parse_expression.c:125-136: a character constant. *)
Definition charValue (raw : list Z) : Z :=
  s32 (fold_left (fun v c => u32 (v * 256 + c)) raw 0).

(** parse_expression.c: the operator found by the loop of each level. *)
Definition levelOp (l : nat) (o : op) : bool :=
  match l, o with
  | 0%nat, (OpBoolOr | OpBoolAnd) => true
  | 2%nat, (OpEq | OpGt | OpLt | OpGe | OpLe | OpNe) => true
  | 3%nat, (OpAdd | OpSub) => true
  | 4%nat, (OpXor | OpOr | OpAnd) => true
  | 5%nat, (OpAsl | OpAsr | OpFmul | OpMul | OpFdiv | OpDiv | OpMod) => true
  | _, _ => false
  end.

(** The expr_* function called for a binary operator. *)
Definition combine (P : pctx) (o : op) (l r : expr) : res expr :=
  match o with
  | OpSub => expr_Sub (p_math P) (p_world P) l r
  | _ => expr_Binary (p_math P) o l r
  end.

Definition isUnaryFun (o : op) : bool :=
  match o with OpSin | OpCos | OpTan | OpAsin | OpAcos | OpAtan => true | _ => false end.

(** parse_expression.c:269-292. *)
Definition compareOp (o : op) : bool :=
  match o with OpEq | OpNe | OpGe | OpGt | OpLe | OpLt => true | _ => false end.
Definition compareResult (o : op) (v : Z) : bool :=
  match o with
  | OpEq => v =? 0 | OpNe => negb (v =? 0) | OpGe => v >=? 0
  | OpGt => v >? 0 | OpLe => v <=? 0 | OpLt => v <? 0 | _ => false
  end.

(** parse_string.c:317-350: the substring selected by SLICE. *)
Notation slice := StrModel.slice (only parsing).

(** parse_expression.c:659-675 parse_ConstantExpression. *)
Definition constantOf (e : expr) : res Z :=
  match e with
  | ENull => Err
  | _ => if expr_IsConstant e then Ok (e_v e) else Err
  end.

(** parse_expression.c:119-675 expressionPriority0..9 ([l] is the level) and
    parse_string.c:251-399.  Bookmarks are the saved token lists.  [n] bounds the
    recursion; UB stands for running out of it, which does not happen from
    [parse_Expression].  [mx] is maxStringConstLength. *)
Fixpoint priority (P : pctx) (n : nat) (mx : Z) (l : nat) (ts : list tok) {struct n} : parsed expr :=
  match n with
  | O => UB
  | S n =>
      match l with
      | 1%nat =>   (* lines 617-628 *)
          match ts with
          | KOp OpBoolNot :: r =>
              let! (e, r') := priority P n mx 1 r in
              let! e' := expr_Unary (p_math P) OpBoolNot e in Ok (e', r')
          | _ => priority P n mx 2 ts
          end
      | 6%nat =>   (* lines 444-467 *)
          match ts with
          | KOp OpSub :: r =>
              let! (e, r') := priority P n mx 6 r in
              let! e' := expr_Sub (p_math P) (p_world P) (expr_Const 0) e in Ok (e', r')
          | KOp OpBoolNot :: r =>
              let! (e, r') := priority P n mx 6 r in
              let! e' := expr_Unary (p_math P) OpBoolNot e in Ok (e', r')
          | KInv :: r =>
              let! (e, r') := priority P n mx 6 r in
              let! e' := expr_Binary (p_math P) OpXor (expr_Const (-1)) e in Ok (e', r')
          | KOp OpAdd :: r => priority P n mx 6 r
          | _ => priority P n mx 7 ts
          end
      | 7%nat =>   (* lines 411-442 *)
          match ts with
          | KFun o :: r =>
              let! r1 := expectLp r in
              let! (e1, r2) := priority P n mx 0 r1 in
              if isNull e1 then Ok (ENull, r2) else
              if isUnaryFun o then
                let! r3 := expectRp r2 in
                let! e := expr_Unary (p_math P) o e1 in Ok (e, r3)
              else
                let! r3 := expectComma r2 in
                let! (e2, r4) := priority P n mx 0 r3 in
                if isNull e2 then Ok (ENull, r4) else
                let! r5 := expectRp r4 in
                let! e := expr_Binary (p_math P) o e1 e2 in Ok (e, r5)
          | KDef :: r =>   (* lines 342-364 *)
              let! r1 := expectLp r in
              match r1 with
              | KId s _ :: r2 =>
                  let! r3 := expectRp r2 in
                  Ok (expr_Const (c_bool (p_defined P s)), r3)
              | _ => Err
              end
          | KBank :: r =>  (* lines 388-409 *)
              let! r1 := expectLp r in
              match r1 with
              | KId s _ :: r2 =>
                  let! r3 := expectRp r2 in Ok (expr_Bank (p_garbage P) s, r3)
              | _ => Err
              end
          | _ => priority P n mx 8 ts
          end
      | 8%nat =>   (* lines 257-304 *)
          let! (os, r) := stringExpression P n ts in
          match os with
          | None => priority P n mx 9 ts
          | Some s =>
              match isDot r with
              | Some (m, r1) =>   (* lines 206-255 *)
                  match m with
                  | Some MCompareTo =>
                      let! r2 := expectLp r1 in
                      let! (ot, r3) := stringExpression P n r2 in
                      match ot with
                      | None => Err
                      | Some t => let! r4 := expectRp r3 in Ok (expr_Const (p_compare P s t), r4)
                      end
                  | Some MLength => Ok (expr_Const (s32 (zlen s)), r1)
                  | Some MIndexOf =>
                      let! r2 := expectLp r1 in
                      let! (ot, r3) := stringExpression P n r2 in
                      match ot with
                      | None => Err
                      | Some t =>
                          let! r4 := expectRp r3 in
                          Ok (expr_Const (match p_find P s t with Some v => v | None => -1 end), r4)
                      end
                  | _ => Err
                  end
              | None =>
                  match r with
                  | KOp o :: r1 =>
                      if compareOp o then
                        (* lines 41-58 stringCompare *)
                        let! (ot, r2) := stringExpression P n r1 in
                        match ot with
                        | None => Err
                        | Some t => Ok (expr_Const (c_bool (compareResult o (p_compare P s t))), r2)
                        end
                      else priority P n mx 9 ts
                  | _ => priority P n mx 9 ts
                  end
              end
          end
      | 9%nat =>   (* lines 122-204 *)
          match ts with
          | KStr raw _ :: r =>
              if zlen raw <=? mx then Ok (expr_Const (charValue raw), r) else Ok (ENull, ts)
          | KNum z :: r => Ok (expr_Const z, r)
          | KLp :: r =>
              let! (e, r1) := priority P n mx 0 r in
              if isNull e then Ok (ENull, ts) else
              match r1 with
              | KRp :: r2 => let! e' := expr_Parens e in Ok (e', r2)
              | _ => Ok (ENull, ts)
              end
          | KId s _ :: r => let! e := symbolExpr P s in Ok (e, r)
          | KOp OpMul :: r | KAt :: r => let! e := symbolExpr P (p_pc P) in Ok (e, r)
          | KFloat :: _ => Ok (ENull, ts)
          | KWord s :: r =>
              if p_reserved P then let! e := symbolExpr P s in Ok (e, r) else Ok (ENull, ts)
          | (KOp _ as k) :: r | (KInv as k) :: r | (KFun _ as k) :: r
          | (KDef as k) :: r | (KBank as k) :: r =>
              if p_reserved P then let! e := symbolExpr P (p_opsym P k) in Ok (e, r) else Ok (ENull, ts)
          | _ => Ok (ENull, ts)
          end
      | _ =>       (* levels 0, 2, 3, 4, 5: lines 469-615, 630-650 *)
          let! (t1, r) := priority P n mx (S l) ts in loop P n mx l t1 r
      end
  end
(** The for (;;) loops of those levels; the operand is parsed one level up.
    A + whose right operand is NULL is put back (lines 549-563). *)
with loop (P : pctx) (n : nat) (mx : Z) (l : nat) (t1 : expr) (ts : list tok) {struct n} : parsed expr :=
  match n with
  | O => UB
  | S n =>
      match ts with
      | KOp o :: r =>
          if levelOp l o then
            let! (t2, r') := priority P n mx (S l) r in
            match o with
            | OpAdd =>
                if isNull t2 then Ok (t1, ts)
                else let! t := combine P o t1 t2 in loop P n mx l t r'
            | _ => let! t := combine P o t1 t2 in loop P n mx l t r'
            end
          else Ok (t1, ts)
      | _ => Ok (t1, ts)
      end
  end
(** parse_string.c:378-399 parse_StringExpression. *)
with stringExpression (P : pctx) (n : nat) (ts : list tok) {struct n} : parsed (option (list Z)) :=
  match n with
  | O => UB
  | S n => let! (s1, r) := stringPri1 P n ts in stringLoop P n s1 r
  end
with stringLoop (P : pctx) (n : nat) (s1 : option (list Z)) (ts : list tok) {struct n}
    : parsed (option (list Z)) :=
  match n with
  | O => UB
  | S n =>
      match ts with
      | KOp OpAdd :: r =>
          let! (s2, r') := stringPri1 P n r in
          match s2 with
          | None => Ok (None, r')
          | Some y =>
              match s1 with
              | Some x => stringLoop P n (Some (x ++ y)) r'
              | None => UB    (* str_Concat(NULL, ...) *)
              end
          end
      | _ => Ok (s1, ts)
      end
  end
(** parse_string.c:304-374 stringExpressionPri1. *)
with stringPri1 (P : pctx) (n : nat) (ts : list tok) {struct n} : parsed (option (list Z)) :=
  match n with
  | O => UB
  | S n => let! (t, r) := stringPri2 P n ts in memberLoop P n t r
  end
with memberLoop (P : pctx) (n : nat) (t : option (list Z)) (ts : list tok) {struct n}
    : parsed (option (list Z)) :=
  match n with
  | O => UB
  | S n =>
      match isDot ts with
      | None => Ok (t, ts)
      | Some (m, r) =>
          match m with
          | Some MSlice =>
              let! r1 := expectLp r in
              match t with
              | None => UB    (* str_Length(NULL) *)
              | Some x =>
                  let! (e, r2) := priority P n 4 0 r1 in
                  let! start := constantOf e in
                  let! (count, r3) :=
                    match r2 with
                    | KComma :: r3 =>
                        let! (e2, r4) := priority P n 4 0 r3 in
                        let! c := constantOf e2 in Ok (Some c, r4)
                    | _ => Ok (None, r2)
                    end in
                  let! r4 := expectRp r3 in
                  let! y := slice x start count in
                  memberLoop P n (Some y) r4
              end
          | Some MUpper =>
              match t with None => UB | Some x => memberLoop P n (Some (p_upper P x)) r end
          | Some MLower =>
              match t with None => UB | Some x => memberLoop P n (Some (p_lower P x)) r end
          | _ => Ok (t, ts)
          end
      end
  end
(** parse_string.c:251-302 stringExpressionPri2. *)
with stringPri2 (P : pctx) (n : nat) (ts : list tok) {struct n} : parsed (option (list Z)) :=
  match n with
  | O => UB
  | S n =>
      match ts with
      | KStr _ v :: r => Ok (Some v, r)
      | KOp OpOr :: r =>
          match r with
          | KId s _ :: r1 =>
              match r1 with
              | KOp OpOr :: r2 => Ok (p_symstring P s, r2)
              | _ => Ok (None, r1)
              end
          | _ => Ok (None, r)
          end
      | KLp :: r =>
          let! (o, r1) := stringExpression P n r in
          match o, r1 with
          | Some s, KRp :: r2 => Ok (Some s, r2)
          | _, _ => Ok (None, ts)
          end
      | _ => Ok (None, ts)
      end
  end.

(** parse_expression.c:654-657 parse_Expression. *)
Definition parse_Expression (P : pctx) (mx : Z) (ts : list tok) : parsed expr :=
  priority P (16 * (length ts + 1)) mx 0 ts.
