(** C int arithmetic on int32_t values, shared by the assembler and linker
    models. *)
From Coq Require Import ZArith List Bool.
From Verif Require Import Base.
Open Scope Z_scope.

(** Signed overflow is undefined. *)
Definition chk (z : Z) : res Z :=
  if (- 2 ^ 31 <=? z) && (z <? 2 ^ 31) then Ok z else UB.
Definition c_add (a b : Z) : res Z := chk (a + b).
Definition c_sub (a b : Z) : res Z := chk (a - b).
Definition c_mul (a b : Z) : res Z := chk (a * b).
(** Division by zero and INT_MIN / -1 are undefined. *)
Definition c_div (a b : Z) : res Z := if b =? 0 then UB else chk (Z.quot a b).
Definition c_mod (a b : Z) : res Z :=
  if b =? 0 then UB else let! _ := chk (Z.quot a b) in Ok (Z.rem a b).
(** Left shift.  A shift count outside 0..31 is undefined.  Shifting a negative
    value or into the sign bit wraps (gcc, clang and MSVC define it so). *)
Definition c_shl (a n : Z) : res Z :=
  if (0 <=? n) && (n <? 32) then Ok (s32 (a * 2 ^ n)) else UB.
(** Right shift of a signed value is arithmetic. *)
Definition c_shr (a n : Z) : res Z :=
  if (0 <=? n) && (n <? 32) then Ok (a / 2 ^ n) else UB.
(** Bitwise operators on operands converted to uint32_t. *)
Definition c_xor (a b : Z) : Z := s32 (Z.lxor (u32 a) (u32 b)).
Definition c_or (a b : Z) : Z := s32 (Z.lor (u32 a) (u32 b)).
Definition c_and (a b : Z) : Z := s32 (Z.land (u32 a) (u32 b)).
Definition c_bool (b : bool) : Z := if b then 1 else 0.
Definition truth (z : Z) : bool := negb (z =? 0).

(** The fixed point functions of util/fmath.c (source not in /repo; the same
    library is linked into both programs). *)
Record fmath : Type := FMath {
  f_fdiv : Z -> Z -> Z; f_fmul : Z -> Z -> Z; f_atan2 : Z -> Z -> Z;
  f_sin : Z -> Z; f_cos : Z -> Z; f_tan : Z -> Z;
  f_asin : Z -> Z; f_acos : Z -> Z; f_atan : Z -> Z }.

(** The operators of expressions: the EToken values used as SExpression
    operations (xasm/motor/expression.c) and the OBJ_ operators. *)
Inductive op : Type :=
| OpSub | OpAdd | OpXor | OpOr | OpAnd | OpAsl | OpAsr | OpMul | OpDiv | OpMod
| OpBoolOr | OpBoolAnd | OpBoolNot | OpGe | OpGt | OpLe | OpLt | OpEq | OpNe
| OpLowLimit | OpHighLimit | OpFdiv | OpFmul | OpAtan2
| OpSin | OpCos | OpTan | OpAsin | OpAcos | OpAtan
| OpBank | OpAssert | OpBit | OpNone.
