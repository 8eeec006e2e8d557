(** Model of the random number generator: xasm/motor/parse_expression.c:366-387,
    parse_directive.c:752-757, symbol.c:59 and 133-136. *)
From Coq Require Import ZArith List Bool.
From Verif Require Import Base Arith.
Import ListNotations.
Open Scope Z_scope.

(** symbol.c:59 s_randseed, a uint32_t. *)
Definition initialSeed : Z := 322421982. (* 0x1337C0DE *)

(** parse_expression.c:376-378. *)
Definition step1 (s : Z) : Z := Z.lxor s (u32 (Z.shiftl s 13)).
Definition step2 (s : Z) : Z := Z.lxor s (Z.shiftr s 17).
Definition step3 (s : Z) : Z := Z.lxor s (u32 (Z.shiftl s 5)).
Definition nextSeed (s : Z) : Z := step3 (step2 (step1 s)).

(** parse_expression.c:366-387 handleRandFunction, the bounds being constants:
    the value and the new seed.  1 + upper - lower is computed in int, the rest
    in uint32_t, and the result is passed as int32_t. *)
Definition rand (lower upper s : Z) : res (Z * Z) :=
  let s1 := nextSeed s in
  let! a := c_add 1 upper in
  let! w := c_sub a lower in
  if u32 w =? 0 then UB else Ok (s32 (u32 (s1 mod u32 w + u32 lower)), s1).

(** parse_directive.c:752-757 RANDSEED; symbol.c:133-136 __RANDSEED. *)
Definition setSeed (value : Z) : Z := u32 value.
Definition seedSymbol (s : Z) : Z := s32 s.

(** The uses of rand in a source file, in order. *)
Fixpoint draws (bounds : list (Z * Z)) (s : Z) : res (list Z * Z) :=
  match bounds with
  | [] => Ok ([], s)
  | (lo, hi) :: r =>
      let! (v, s1) := rand lo hi s in
      let! (vs, s2) := draws r s1 in Ok (v :: vs, s2)
  end.
