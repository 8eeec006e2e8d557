(** Model of the linker's expression evaluation and patching:
    /repo/xlink/patch.c. *)
From Coq Require Import ZArith List Bool.
From Verif Require Import Base Arith.
Import ListNotations.
Open Scope Z_scope.

(** What the evaluator reads of a resolved symbol (symbol.h:39-51): its value,
    its section, whether that section has an address (line 566: a section that
    is not null and has a cpuLocation or no group), and whether the symbol is
    local (symbol.h:53-66). *)
Record symview : Type := SymView {
  v_value : Z; v_section : option nat; v_placed : bool; v_local : bool }.

(** patch.c:35-39 StackEntry.  The section field is never read in a patch. *)
Record entry : Type := Entry { en_symbol : option symview; en_value : Z }.

(** The surroundings of an expression: sect_GetSymbol, sect_GetConstantSymbolBank
    ([None]: the bank is -1), group_GetProperty, the section being patched with
    its cpuLocation, and the offset of the patch. *)
Record linkctx : Type := LinkCtx {
  c_symbol : Z -> res symview;
  c_bank : Z -> res (option Z);
  c_property : Z -> Z -> res Z;
  c_section : nat;
  c_cpuLocation : Z;
  c_offset : Z }.

Definition stack := list entry.
Definition STACKSIZE : Z := 256.

(** patch.c:85-97 pushStackValue, pushInt.  error() ends the program. *)
Definition push (e : entry) (st : stack) : res stack :=
  if zlen st >=? STACKSIZE then Err else Ok (e :: st).
Definition pushInt (v : Z) (st : stack) : res stack := push (Entry None v) st.
(** patch.c:99-112 popInt, popIntPair. *)
Definition popInt (st : stack) : res (entry * stack) :=
  match st with [] => Err | e :: r => Ok (e, r) end.
Definition popIntPair (st : stack) : res (entry * entry * stack) :=
  let! (r, st1) := popInt st in
  let! (l, st2) := popInt st1 in
  Ok (l, r, st2).

Definition noSymbol (e : entry) : bool := match en_symbol e with None => true | _ => false end.

(** patch.c:336-361 combine_bitwise, combine_operator, combine_func. *)
Definition combine (f : Z -> Z -> res Z) (st : stack) : res stack :=
  let! (l, r, st') := popIntPair st in
  if noSymbol l && noSymbol r then let! v := f (en_value l) (en_value r) in pushInt v st' else Err.
(** patch.c:363-371 unary. *)
Definition unary (f : Z -> Z) (st : stack) : res stack :=
  let! (l, st') := popInt st in
  if noSymbol l then pushInt (f (en_value l)) st' else Err.

Definition same_section (a b : symview) : bool :=
  match v_section a, v_section b with
  | Some x, Some y => Nat.eqb x y
  | None, None => true
  | _, _ => false
  end.

(** patch.c:384-399 OBJ_OP_SUB. *)
Definition op_sub (st : stack) : res stack :=
  let! (l, r, st') := popIntPair st in
  match en_symbol l, en_symbol r with
  | None, None => let! v := c_sub (en_value l) (en_value r) in pushInt v st'
  | Some y, None => let! v := c_sub (en_value l) (en_value r) in push (Entry (Some y) v) st'
  | Some y, Some x =>
      if same_section y x then let! v := c_sub (v_value y) (v_value x) in pushInt v st' else Err
  | None, Some _ => Err
  end.
(** patch.c:400-414 OBJ_OP_ADD. *)
Definition op_add (st : stack) : res stack :=
  let! (l, r, st') := popIntPair st in
  match en_symbol l, en_symbol r with
  | None, None => let! v := c_add (en_value l) (en_value r) in pushInt v st'
  | y, None => let! v := c_add (en_value l) (en_value r) in push (Entry y v) st'
  | None, x => let! v := c_add (en_value l) (en_value r) in push (Entry x v) st'
  | Some _, Some _ => Err
  end.
(** patch.c:507-530 limits and 605-616 OBJ_FUNC_ASSERT. *)
Definition limit (good : Z -> Z -> bool) (st : stack) : res stack :=
  let! (l, r, st') := popIntPair st in
  if noSymbol l && noSymbol r && good (en_value l) (en_value r) then pushInt (en_value l) st' else Err.
(** patch.c:589-604 OBJ_PC_REL.  cpuLocation + offset is computed in uint32_t.
    After combine_operator the entry has no symbol, so lines 594-603 are dead. *)
Definition pc_rel (c : linkctx) (st : stack) : res stack :=
  let! st1 := combine c_add st in
  let! (l, st2) := popInt st1 in
  pushInt (s32 (en_value l - (c_cpuLocation c + c_offset c))) st2.
(** patch.c:617-625 OBJ_GROUP_PROPERTY. *)
Definition group_property (c : linkctx) (st : stack) : res stack :=
  let! (l, r, st') := popIntPair st in
  let! v := c_property c (en_value l) (en_value r) in pushInt v st'.

(** patch.c:383-630: the operators without operand bytes. *)
Definition step (F : fmath) (c : linkctx) (b : Z) (st : stack) : res stack :=
  match b with
  | 0 => op_sub st
  | 1 => op_add st
  | 2 => combine (fun l r => Ok (c_xor l r)) st
  | 3 => combine (fun l r => Ok (c_or l r)) st
  | 4 => combine (fun l r => Ok (c_and l r)) st
  | 5 => combine c_shl st
  | 6 => combine c_shr st
  | 7 => combine c_mul st
  | 8 => combine c_div st
  | 9 => combine c_mod st
  | 10 => combine (fun l r => Ok (c_bool (truth l || truth r))) st
  | 11 => combine (fun l r => Ok (c_bool (truth l && truth r))) st
  | 12 => unary (fun x => c_bool (negb (truth x))) st
  | 13 => combine (fun l r => Ok (c_bool (l >=? r))) st
  | 14 => combine (fun l r => Ok (c_bool (l >? r))) st
  | 15 => combine (fun l r => Ok (c_bool (l <=? r))) st
  | 16 => combine (fun l r => Ok (c_bool (l <? r))) st
  | 17 => combine (fun l r => Ok (c_bool (l =? r))) st
  | 18 => combine (fun l r => Ok (c_bool (negb (l =? r)))) st
  | 19 => limit (fun l r => l >=? r) st
  | 20 => limit (fun l r => l <=? r) st
  | 21 => combine (fun l r => Ok (f_fdiv F l r)) st
  | 22 => combine (fun l r => Ok (f_fmul F l r)) st
  | 23 => combine (fun l r => Ok (f_atan2 F l r)) st
  | 24 => unary (f_sin F) st
  | 25 => unary (f_cos F) st
  | 26 => unary (f_tan F) st
  | 27 => unary (f_asin F) st
  | 28 => unary (f_acos F) st
  | 29 => unary (f_atan F) st
  | 32 => pc_rel c st
  | 34 => limit (fun _ r => truth r) st
  | 35 => group_property c st
  | _ => Err
  end.

Definition word (a b c d : Z) : Z := a + b * 256 + c * 65536 + d * 16777216.

(** patch.c:556-572 OBJ_SYMBOL. *)
Definition push_symbol (c : linkctx) (id : Z) (st : stack) : res stack :=
  let! y := c_symbol c id in
  if v_placed y then pushInt (v_value y) st else push (Entry (Some y) 0) st.

(** patch.c:373-645 calculateExpressionValue: [Ok None] is a false return.
    Operand bytes missing at the end are read out of bounds: UB. *)
Fixpoint calc (F : fmath) (c : linkctx) (bs : list Z) (st : stack) : res (option entry) :=
  match bs with
  | [] =>
      let! (e, st') := popInt st in
      match st' with [] => Ok (Some e) | _ => Ok None end
  | b :: rest =>
      if b =? 30 then
        match rest with
        | b0 :: b1 :: b2 :: b3 :: rest' =>
            let! st' := pushInt (s32 (word b0 b1 b2 b3)) st in calc F c rest' st'
        | _ => UB
        end
      else if b =? 31 then
        match rest with
        | b0 :: b1 :: b2 :: b3 :: rest' =>
            let! st' := push_symbol c (word b0 b1 b2 b3) st in calc F c rest' st'
        | _ => UB
        end
      else if b =? 33 then
        match rest with
        | b0 :: b1 :: b2 :: b3 :: rest' =>
            let! ob := c_bank c (word b0 b1 b2 b3) in
            match ob with
            | None => Ok None
            | Some bank => let! st' := pushInt bank st in calc F c rest' st'
            end
        | _ => UB
        end
      else let! st' := step F c b st in calc F c rest st'
  end.

(** patch.c:378 onwards starts with an empty stack. *)
Definition calculateExpressionValue (F : fmath) (c : linkctx) (bs : list Z) : res (option entry) :=
  calc F c bs [].
