(** Model of string expressions and of the text of formatted integers,
    xasm/motor/parse_string.c:86-128 and 251-399.  Strings are lists of characters; the
    functions of str.h and strbuf.h, which are not part of the repository, have the
    meaning their names give. *)
From Coq Require Import ZArith List Bool.
From Verif Require Import Base.
Import ListNotations.
Open Scope Z_scope.

(** ** Formatted integers *)

(** The conversions %d and %X of printf for a value that is not negative: the digits,
    the first one first, [n] of them at most. *)
Fixpoint toDigits (n : nat) (base v : Z) (acc : list Z) : list Z :=
  match n with
  | O => acc
  | S n => let acc1 := v mod base :: acc in if v / base =? 0 then acc1 else toDigits n base (v / base) acc1
  end.
Definition digitChar (d : Z) : Z := if d <? 10 then 48 + d else 55 + d.
(** The flag 0 with a field width. *)
Definition padded (width : nat) (l : list Z) : list Z := repeat 0 (width - length l) ++ l.
Definition printUnsigned (width : nat) (base v : Z) : list Z :=
  map digitChar (padded width (toDigits 33 base v [])).
Definition printSigned (v : Z) : list Z :=
  if v <? 0 then 45 :: printUnsigned 0 10 (- v) else printUnsigned 0 10 v.

(** parse_string.c:86-128 formatValue.  Undefined: negating the least value, line 93; a
    write outside of fraction, line 105; memcpy between bytes that overlap or lie outside
    of formatted, line 115.  [imuldiv] is fmath.h's function. *)
Definition formatValue (imuldiv : Z -> Z -> Z -> Z) (value format precision : Z) : res (list Z) :=
  if format =? 68 (* D *) then
    let width := Z.to_nat (if precision <? 0 then 0 else precision) in
    if value <? 0 then
      if value =? - 2147483648 then UB else Ok (45 :: printUnsigned width 10 (- value))
    else Ok (printUnsigned width 10 value)
  else if format =? 70 (* F *) then
    let precision := if precision =? 0 then 5 else precision in
    let low := imuldiv (Z.land value 65535) 100000 65536 in
    let fraction := printUnsigned 5 10 low in
    if (precision <? 0) || (8 <=? precision) then UB else
    Ok (printSigned (Z.shiftr value 16) ++ 46 :: firstn (Z.to_nat precision) fraction)
  else if format =? 88 (* X *) then
    let formatted := printUnsigned 8 16 (u32 value) in
    if 0 <? precision then
      if 8 - precision <=? precision then UB
      else Ok (skipn (Z.to_nat (8 - precision)) formatted)
    else Ok formatted
  else if format =? 67 (* C *) then Ok [Z.land value 255]
  else Ok [].

(** ** String expressions *)

(** The tokens that matter here.  [KNumber] is a whole constant expression. *)
Inductive stok : Type :=
| KString (s : list Z) | KNumber (z : Z) | KOpen | KClose | KComma | KAdd | KDot | KSlice | KUpper | KLower.

(** parse_string.c:317-350: the part of [t].  The sum in line 336 is undefined when it
    does not fit in an int. *)
Definition slice (t : list Z) (start : Z) (count : option Z) : res (list Z) :=
  let len := zlen t in
  let start1 :=
    if start <? 0 then (if len + start <? 0 then 0 else len + start)
    else if len <? start then len else start in
  let count1 := match count with Some c => c | None => len - start1 end in
  if negb ((- 2147483648 <=? start1 + count1) && (start1 + count1 <=? 2147483647)) then UB else
  let count2 := if len <=? start1 + count1 then len - start1 else count1 in
  if (len <=? start1) || (count2 <=? 0) then Ok []
  else Ok (firstn (Z.to_nat count2) (skipn (Z.to_nat start1) t)).

Definition toUpperChar (c : Z) : Z := if (97 <=? c) && (c <=? 122) then c - 32 else c.
Definition toLowerChar (c : Z) : Z := if (65 <=? c) && (c <=? 90) then c + 32 else c.

(** parse_string.c:304-374 stringExpressionPri1, from the value of stringExpressionPri2 on.
    A member that is not known is left in place.  A missing ( or ) is [Err]. *)
Fixpoint members (n : nat) (t : list Z) (l : list stok) : res (list Z * list stok) :=
  match n with
  | O => UB
  | S n =>
      match l with
      | KDot :: KUpper :: r => members n (map toUpperChar t) r
      | KDot :: KLower :: r => members n (map toLowerChar t) r
      | KDot :: KSlice :: r =>
          match r with
          | KOpen :: KNumber s :: KClose :: r1 => let! t1 := slice t s None in members n t1 r1
          | KOpen :: KNumber s :: KComma :: KNumber c :: KClose :: r1 => let! t1 := slice t s (Some c) in members n t1 r1
          | _ => Err
          end
      | _ => Ok (t, l)
      end
  end.
(** parse_string.c:252-302 stringExpressionPri2; [None] for NULL, with what is left to
    read.  [expression] is parse_StringExpression.  Symbols between bars are not modelled. *)
Definition pri2 (expression : list stok -> res (option (list Z) * list stok)) (l : list stok)
    : res (option (list Z) * list stok) :=
  match l with
  | KString s :: r => Ok (Some s, r)
  | KOpen :: r =>
      let! (v, r1) := expression r in
      match v, r1 with
      | Some v, KClose :: r2 => Ok (Some v, r2)
      | _, _ => Ok (None, l)
      end
  | _ => Ok (None, l)
  end.
(** parse_string.c:304-374 stringExpressionPri1.  A NULL that a member follows is undefined
    (str_Length of NULL). *)
Definition pri1 (n : nat) (expression : list stok -> res (option (list Z) * list stok)) (l : list stok)
    : res (option (list Z) * list stok) :=
  let! (v, r) := pri2 expression l in
  match v with
  | Some t => let! (t1, r1) := members n t r in Ok (Some t1, r1)
  | None =>
      match r with
      | KDot :: KSlice :: _ | KDot :: KUpper :: _ | KDot :: KLower :: _ => UB
      | _ => Ok (None, r)
      end
  end.
(** parse_string.c:382-396, the loop of parse_StringExpression. *)
Fixpoint sums (m n : nat) (expression : list stok -> res (option (list Z) * list stok)) (s1 : list Z) (l : list stok)
    : res (option (list Z) * list stok) :=
  match m with
  | O => UB
  | S m =>
      match l with
      | KAdd :: r =>
          let! (s2, r1) := pri1 n expression r in
          match s2 with None => Ok (None, r1) | Some s2 => sums m n expression (s1 ++ s2) r1 end
      | _ => Ok (Some s1, l)
      end
  end.
(** parse_string.c:378-399 parse_StringExpression. *)
Fixpoint parse_StringExpression (n : nat) (l : list stok) : res (option (list Z) * list stok) :=
  match n with
  | O => UB
  | S n =>
      let! (v, r) := pri1 n (parse_StringExpression n) l in
      match v with
      | Some s1 => sums n n (parse_StringExpression n) s1 r
      | None => match r with KAdd :: _ => UB | _ => Ok (None, r) end
      end
  end.
