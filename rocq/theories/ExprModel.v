(** Model of assembler expressions: /repo/xasm/motor/expression.c,
    /repo/xasm/motor/patch.c (reduction of expressions) and
    /repo/xasm/motor/object.c (serialisation of expressions). *)
From Coq Require Import ZArith List Bool.
From Verif Require Import Base Arith.
Import ListNotations.
Open Scope Z_scope.

(** symbol.h:32-44 ESymbolType. *)
Inductive symtype : Type :=
| SymLabel | SymEqu | SymSet | SymEqus | SymEquf | SymMacro | SymImport | SymGroup
| SymGlobal | SymStructure | SymUndefined.
Definition symtype_eqb (a b : symtype) : bool :=
  match a, b with
  | SymLabel, SymLabel | SymEqu, SymEqu | SymSet, SymSet | SymEqus, SymEqus
  | SymEquf, SymEquf | SymMacro, SymMacro | SymImport, SymImport | SymGroup, SymGroup
  | SymGlobal, SymGlobal | SymStructure, SymStructure | SymUndefined, SymUndefined => true
  | _, _ => false
  end.

(** symbol.h:51-62: the flags an expression looks at. *)
Record symbol : Type := Symbol {
  y_type : symtype;
  y_constant : bool;       (* SYMF_CONSTANT *)
  y_reloc : bool;          (* SYMF_RELOC *)
  y_expression : bool;     (* SYMF_EXPRESSION *)
  y_section : option nat;  (* index in sect_Sections *)
  y_value : Z }.

(** section.h:32-59: what an expression looks at; the flags are section.h:63-68. *)
Record asect : Type := ASect {
  a_loadfixed : bool; a_bankfixed : bool; a_orgfixed : bool; a_aligned : bool;
  a_root : bool; a_paged : bool;
  a_cpuOrigin : Z; a_pc : Z; a_cpuAdjust : Z; a_bank : Z }.
Definition flags_zero (s : asect) : bool :=
  negb (a_loadfixed s || a_bankfixed s || a_orgfixed s || a_aligned s || a_root s || a_paged s).

(** The assembler state an expression refers to: symbols by reference, and the
    list sect_Sections. *)
Record world : Type := World { w_symbol : nat -> symbol; w_sections : list asect }.

(** expression.h:33-53 SExpression.  [ENull] is the null pointer.  The union
    [value] is represented by both views, the integer and the symbol. *)
Inductive etype : Type := TOperation | TPcRelative | TConst | TSymbol | TParens.
Inductive expr : Type :=
| ENull
| ENode (t : etype) (isConstant : bool) (o : op) (v : Z) (s : nat) (l r : expr).

Definition isNull (e : expr) : bool := match e with ENull => true | _ => false end.
Definition e_v (e : expr) : Z := match e with ENull => 0 | ENode _ _ _ v _ _ _ => v end.
(** expression.h:65-68 expr_IsConstant. *)
Definition expr_IsConstant (e : expr) : bool :=
  match e with ENull => false | ENode _ c _ _ _ _ _ => c end.

(** expression.c:57-116, 163-217, 322 and 345-354: the value computed when an
    expression is built.  Division by a zero value is reported. *)
Definition build_value (F : fmath) (o : op) (l r : Z) : res Z :=
  match o with
  | OpSub => c_sub l r
  | OpAdd => c_add l r
  | OpMul => c_mul l r
  | OpXor => Ok (c_xor l r)
  | OpOr => Ok (c_or l r)
  | OpAnd => Ok (c_and l r)
  | OpAsl => c_shl l r
  | OpAsr => c_shr l r
  | OpDiv => if r =? 0 then Err else c_div l r
  | OpMod => if r =? 0 then Err else c_mod l r
  | OpBoolOr => Ok (c_bool (truth l || truth r))
  | OpBoolAnd => Ok (c_bool (truth l && truth r))
  | OpGe => Ok (c_bool (l >=? r))
  | OpGt => Ok (c_bool (l >? r))
  | OpLe => Ok (c_bool (l <=? r))
  | OpLt => Ok (c_bool (l <? r))
  | OpEq => Ok (c_bool (l =? r))
  | OpNe => Ok (c_bool (negb (l =? r)))
  | OpFdiv => if r =? 0 then Err else Ok (f_fdiv F l r)
  | OpFmul => Ok (f_fmul F l r)
  | OpAtan2 => Ok (f_atan2 F l r)
  | OpBoolNot => Ok (c_bool (negb (truth r)))
  | OpSin => Ok (f_sin F r)
  | OpCos => Ok (f_cos F r)
  | OpTan => Ok (f_tan F r)
  | OpAsin => Ok (f_asin F r)
  | OpAcos => Ok (f_acos F r)
  | OpAtan => Ok (f_atan F r)
  | _ => Err
  end.

(** expression.c:139-154 mergeExpressions followed by storing the value. *)
Definition node2 (o : op) (v : Z) (l r : expr) : expr :=
  ENode TOperation (expr_IsConstant l && expr_IsConstant r) o v 0 l r.

(** expression.c:57-71, 104-116, 340-355: COMBINE, CREATE_EXPR_DIV,
    CREATE_BINARY_FUNC and expr_FixedDivision.  When an operand is not constant its value field is
    meaningless: the C code still computes with it (and may even report a zero
    divide).  The value field of a symbol node is the low half of a pointer,
    [garbage] below.  Simplification: undefined behaviour in such a meaningless
    computation is ignored. *)
Definition expr_Binary (F : fmath) (o : op) (l r : expr) : res expr :=
  if isNull l || isNull r then Err else
  match build_value F o (e_v l) (e_v r) with
  | Ok v => Ok (node2 o v l r)
  | Err => Err
  | UB => if expr_IsConstant l && expr_IsConstant r then UB else Ok (node2 o 0 l r)
  end.

(** expression.c:90-102 CREATE_UNARY_FUNC. *)
Definition expr_Unary (F : fmath) (o : op) (r : expr) : res expr :=
  if isNull r then Err else
  let! v := build_value F o 0 (e_v r) in
  Ok (ENode TOperation (expr_IsConstant r) o v 0 ENull r).

(** expression.c:309-315 expr_Const, 428-435 expr_SetConst. *)
Definition expr_Const (v : Z) : expr := ENode TConst true OpNone v 0 ENull ENull.

Definition isSymbolNode (e : expr) : bool :=
  match e with ENode TSymbol _ _ _ _ _ _ => true | _ => false end.
Definition e_ref (e : expr) : nat := match e with ENode _ _ _ _ s _ _ => s | ENull => 0%nat end.

Definition osect_eqb (a b : option nat) : bool :=
  match a, b with
  | Some x, Some y => Nat.eqb x y
  | None, None => true
  | _, _ => false
  end.

(** expression.c:317-338 expr_Sub. *)
Definition expr_Sub (F : fmath) (w : world) (l r : expr) : res expr :=
  let! e := expr_Binary F OpSub l r in
  if negb (expr_IsConstant e) && isSymbolNode l && isSymbolNode r &&
     osect_eqb (y_section (w_symbol w (e_ref l))) (y_section (w_symbol w (e_ref r))) &&
     symtype_eqb (y_type (w_symbol w (e_ref l))) SymLabel &&
     symtype_eqb (y_type (w_symbol w (e_ref r))) SymLabel
  then let! v := c_sub (y_value (w_symbol w (e_ref l))) (y_value (w_symbol w (e_ref r))) in
       Ok (expr_Const v)
  else Ok e.

(** expression.c:73-88 CREATE_LIMIT: a constant out of range gives a null
    expression, which expr_CheckRange (357-368) reports. *)
Definition expr_LowLimit (e bound : expr) : res expr :=
  if isNull e || isNull bound then Err else
  if expr_IsConstant e && expr_IsConstant bound && (e_v e <? e_v bound) then Err
  else Ok (node2 OpLowLimit (e_v e) e bound).
Definition expr_HighLimit (e bound : expr) : res expr :=
  if isNull e || isNull bound then Err else
  if expr_IsConstant e && expr_IsConstant bound && (e_v e >? e_v bound) then Err
  else Ok (node2 OpHighLimit (e_v e) e bound).
Definition expr_CheckRange (e : expr) (low high : Z) : res expr :=
  let! e1 := expr_LowLimit e (expr_Const low) in
  expr_HighLimit e1 (expr_Const high).

(** expression.c:370-384 expr_Assert.  The value field of the result is
    uninitialised, [garbage]. *)
Definition expr_Assert (garbage : Z) (e assertion : expr) : res expr :=
  if isNull e || isNull assertion then Err else
  if expr_IsConstant assertion then if truth (e_v assertion) then Ok e else Err
  else Ok (node2 OpAssert garbage e assertion).

(** expression.c:219-232 expr_Parens. *)
Definition expr_Parens (e : expr) : res expr :=
  if isNull e then Err else
  Ok (ENode TParens (expr_IsConstant e) OpNone (e_v e) 0 ENull e).

(** util: isPowerOfTwo and log2n (sources not in /repo; both are taken to work on
    uint32_t). *)
Definition isPowerOfTwo (v : Z) : bool := (0 <? v) && (2 ^ Z.log2 v =? v).
Definition log2n (v : Z) : Z := Z.log2 v.

(** expression.c:234-254 expr_Bit. *)
Definition expr_Bit (e : expr) : res expr :=
  if isNull e then Err else
  if expr_IsConstant e && negb (isPowerOfTwo (u32 (e_v e))) then Err
  else Ok (ENode TOperation (expr_IsConstant e) OpBit (log2n (u32 (e_v e))) 0 ENull e).

(** expression.c:386-399 expr_Bank. *)
Definition expr_Bank (garbage : nat -> Z) (s : nat) : expr :=
  ENode TOperation false OpBank (garbage s) s ENull ENull.

(** expression.c:401-420 expr_Symbol.  Simplification: callback symbols
    (__NARG and the like) are left out; their value is read here as any other
    constant. *)
Definition expr_Symbol (garbage : nat -> Z) (w : world) (s : nat) : res expr :=
  let y := w_symbol w s in
  if y_expression y then
    if y_constant y then Ok (expr_Const (y_value y))
    else Ok (ENode TSymbol false OpNone (garbage s) s ENull ENull)
  else Err.

(** expression.c:256-279 expr_PcRelative; [cur] is sect_Current.  The program
    counter arithmetic is on uint32_t; the first case subtracts in place. *)
Definition expr_PcRelative (F : fmath) (cur : option asect) (e : expr) (adjustment : Z) : res expr :=
  if isNull e then Err else
  match cur with
  | Some s =>
      if a_loadfixed s || a_orgfixed s then
        let pc := a_pc s + a_cpuOrigin s + a_cpuAdjust s in
        match e with
        | ENode t true o v sy l r => Ok (ENode t true o (s32 (v - (pc - adjustment))) sy l r)
        | _ => expr_Binary F OpAdd e (expr_Const (s32 (adjustment - pc)))
        end
      else Ok (ENode TPcRelative false OpNone 0 0 (expr_Const adjustment) e)
  | None => Ok (ENode TPcRelative false OpNone 0 0 (expr_Const adjustment) e)
  end.

(** ** Optimisation *)

(** expression.c:552-581 expr_Optimize. *)
Definition optNode (w : world) (e : expr) : expr :=
  match e with
  | ENull => ENull
  | ENode t c o v s l r =>
      let e1 :=
        if match t with TSymbol => y_constant (w_symbol w s) | _ => false end
        then ENode TConst true o (y_value (w_symbol w s)) s l r else e in
      match e1 with
      | ENode _ true _ v1 s1 _ _ => ENode TConst true OpNone v1 s1 ENull ENull
      | _ => e1
      end
  end.
Fixpoint expr_Optimize (w : world) (e : expr) : expr :=
  match e with
  | ENull => ENull
  | ENode t c o v s l r =>
      let l' := expr_Optimize w l in
      let r' := expr_Optimize w r in
      match t with
      | TParens => optNode w r'
      | _ => optNode w (ENode t c o v s l' r')
      end
  end.

(** ** Offsets within a section *)

(** expression.c:39-55 getSymbolSectionOffset. *)
Definition getSymbolSectionOffset (w : world) (s k : nat) (a : asect) : option Z :=
  let y := w_symbol w s in
  if symtype_eqb (y_type y) SymEqu && a_loadfixed a then Some (u32 (y_value y - a_cpuOrigin a))
  else if osect_eqb (y_section y) (Some k) then
    if y_constant y && a_loadfixed a then Some (u32 (y_value y - a_cpuOrigin a))
    else if y_reloc y && flags_zero a then Some (u32 (y_value y))
    else None
  else None.

(** expression.c:475-517 expr_GetSectionOffset. *)
Fixpoint expr_GetSectionOffset (w : world) (e : expr) (k : nat) (a : asect) : option Z :=
  match e with
  | ENull => None
  | ENode t c o v s l r =>
      match t with
      | TParens => expr_GetSectionOffset w r k a
      | TConst => if a_loadfixed a then Some (u32 (v - a_cpuOrigin a)) else None
      | TSymbol => getSymbolSectionOffset w s k a
      | TOperation =>
          let left :=
            match o with
            | OpAdd | OpSub =>
                match expr_GetSectionOffset w l k a with
                | Some off =>
                    if expr_IsConstant r then
                      Some (u32 (match o with OpAdd => off + e_v r | _ => off - e_v r end))
                    else None
                | None => None
                end
            | _ => None
            end in
          match left with
          | Some x => Some x
          | None =>
              match o with
              | OpAdd =>
                  match expr_GetSectionOffset w r k a with
                  | Some off => if expr_IsConstant l then Some (u32 (e_v l + off)) else None
                  | None => None
                  end
              | _ => None
              end
          end
      | TPcRelative => None
      end
  end.

(** expression.c:525-534 expr_GetSectionAndOffset. *)
Fixpoint sectionAndOffset (w : world) (e : expr) (k : nat) (ss : list asect) : option (nat * Z) :=
  match ss with
  | [] => None
  | a :: r =>
      match expr_GetSectionOffset w e k a with
      | Some off => Some (k, off)
      | None => sectionAndOffset w e (S k) r
      end
  end.
Definition expr_GetSectionAndOffset (w : world) (e : expr) : option (nat * Z) :=
  sectionAndOffset w e 0 (w_sections w).

(** ** Reduction when the file has been read *)

(** motor/patch.c:48-141: the operators of the reduction. *)
Definition reduce_value (F : fmath) (o : op) (l r : Z) : res Z :=
  match o with
  | OpSub => c_sub l r
  | OpAdd => c_add l r
  | OpXor => Ok (c_xor l r)
  | OpOr => Ok (c_or l r)
  | OpAnd => Ok (c_and l r)
  | OpAsl => c_shl l r
  | OpAsr => c_shr l r
  | OpMul => c_mul l r
  | OpDiv => c_div l r
  | OpMod => c_mod l r
  | OpBoolOr => Ok (c_bool (truth l || truth r))
  | OpBoolAnd => Ok (c_bool (truth l && truth r))
  | OpGe => Ok (c_bool (l >=? r))
  | OpGt => Ok (c_bool (l >? r))
  | OpLe => Ok (c_bool (l <=? r))
  | OpLt => Ok (c_bool (l <? r))
  | OpEq => Ok (c_bool (l =? r))
  | OpNe => Ok (c_bool (negb (l =? r)))
  | OpFdiv => Ok (f_fdiv F l r)
  | OpFmul => Ok (f_fmul F l r)
  | OpAtan2 => Ok (f_atan2 F l r)
  | OpBoolNot => Ok (if truth r then 0 else 1)
  | OpSin => Ok (f_sin F r)
  | OpCos => Ok (f_cos F r)
  | OpTan => Ok (f_tan F r)
  | OpAsin => Ok (f_asin F r)
  | OpAcos => Ok (f_acos F r)
  | OpAtan => Ok (f_atan F r)
  | _ => Err
  end.

Definition is_unary (o : op) : bool :=
  match o with
  | OpBoolNot | OpSin | OpCos | OpTan | OpAsin | OpAcos | OpAtan => true
  | _ => false
  end.

(** The node left behind by expr_Clear and expr_SetConst (motor/patch.c), which
    keeps the operation field. *)
Definition constNode (o : op) (v : Z) (s : nat) : expr := ENode TConst true o v s ENull ENull.

(** motor/patch.c:360-399 reduceExpression and 143-358 its cases; [k], [a],
    [off] are the patch's section index, section and offset.  The result is the
    value, if one was found, and the expression as left behind.  err_PatchError
    and err_PatchFail reports are [Err]: an undefined symbol, a value out of a
    limit, a bit of a number that is not a power of two. *)
Fixpoint reduceExpression (F : fmath) (w : world) (k : nat) (a : asect) (off : Z) (e : expr)
    : res (option Z * expr) :=
  match e with
  | ENull => Ok (None, ENull)
  | ENode t c o v s l r =>
      if c then Ok (Some v, ENode TConst c o v s ENull ENull) else
      let reduce := reduceExpression F w k a off in
      (* reduceBinary, lines 143-154 *)
      let binary :=
        let! (lv, l') := reduce l in
        match lv with
        | None => Ok (None, ENode t c o v s l' r)
        | Some x =>
            let! (rv, r') := reduce r in
            match rv with
            | None => Ok (None, ENode t c o v s l' r')
            | Some y => let! z := reduce_value F o x y in Ok (Some z, constNode o z s)
            end
        end in
      (* reduceLowLimit, reduceHighLimit, reduceAssert, lines 227-272 *)
      let limit (good : Z -> Z -> bool) :=
        let! (rv, r') := reduce r in
        match rv with
        | None => Ok (None, ENode t c o v s l r')
        | Some y =>
            let! (lv, l') := reduce l in
            match lv with
            | None => Ok (None, ENode t c o v s l' r')
            | Some x => if good x y then Ok (Some x, constNode o x s) else Err
            end
        end in
      match t with
      | TParens =>
          let! (rv, r') := reduce r in Ok (rv, ENode t c o v s l r')
      | TPcRelative =>
          (* reducePcRelative, lines 174-186 *)
          match expr_GetSectionOffset w r k a with
          | None => Ok (None, e)
          | Some x =>
              let! (lv, l') := reduce l in
              match lv with
              | None => Ok (None, ENode t c o v s l' r)
              | Some adj =>
                  let z := s32 (x + adj - off) in Ok (Some z, constNode o z s)
              end
          end
      | TConst => Ok (Some v, e)
      | TSymbol =>
          let y := w_symbol w s in
          if y_constant y then Ok (Some (y_value y), e)
          else match y_type y with SymUndefined => Err | _ => Ok (None, e) end
      | TOperation =>
          match o with
          | OpSub =>
              (* reduceSubtract, lines 211-225 *)
              match expr_GetSectionAndOffset w l, expr_GetSectionAndOffset w r with
              | Some (kl, x), Some (kr, y) =>
                  if Nat.eqb kl kr then let z := s32 (x - y) in Ok (Some z, constNode o z s)
                  else binary
              | _, _ => binary
              end
          | OpLowLimit => limit (fun x y => x >=? y)
          | OpHighLimit => limit (fun x y => x <=? y)
          | OpAssert => limit (fun _ y => truth y)
          | OpBit =>
              (* reduceBit, lines 188-209 *)
              let! (rv, r') := reduce r in
              match rv with
              | None => Ok (None, ENode t c o v s l r')
              | Some x =>
                  if isPowerOfTwo (u32 x) then let z := log2n (u32 x) in Ok (Some z, ENode TConst true o z s l ENull)
                  else Err
              end
          | OpBank =>
              (* lines 342-353; a section reference outside the list is UB *)
              match y_section (w_symbol w s) with
              | None => Ok (None, e)
              | Some j =>
                  match nth_error (w_sections w) j with
                  | None => UB
                  | Some b => if a_bankfixed b then Ok (Some (s32 (a_bank b)), e) else Ok (None, e)
                  end
              end
          | OpNone => Err
          | _ =>
              if is_unary o then
                (* reduceUnary, lines 156-172 *)
                let! (rv, r') := reduce r in
                match rv with
                | None => Ok (None, ENode t c o v s l r')
                | Some x =>
                    let! z := reduce_value F o 0 x in
                    Ok (Some z, ENode TConst true o z s l ENull)
                end
              else binary
          end
      end
  end.

(** ** Serialisation *)

(** object.h:27-64 and object.c:234-332: operator codes. *)
Definition op_code (o : op) : option Z :=
  match o with
  | OpSub => Some 0 | OpAdd => Some 1 | OpXor => Some 2 | OpOr => Some 3 | OpAnd => Some 4
  | OpAsl => Some 5 | OpAsr => Some 6 | OpMul => Some 7 | OpDiv => Some 8 | OpMod => Some 9
  | OpBoolOr => Some 10 | OpBoolAnd => Some 11 | OpBoolNot => Some 12
  | OpGe => Some 13 | OpGt => Some 14 | OpLe => Some 15 | OpLt => Some 16
  | OpEq => Some 17 | OpNe => Some 18 | OpLowLimit => Some 19 | OpHighLimit => Some 20
  | OpFdiv => Some 21 | OpFmul => Some 22 | OpAtan2 => Some 23
  | OpSin => Some 24 | OpCos => Some 25 | OpTan => Some 26
  | OpAsin => Some 27 | OpAcos => Some 28 | OpAtan => Some 29
  | OpBank => Some 33 | OpAssert => Some 34
  | OpBit | OpNone => None
  end.

(** object.c:218-357 writeExpression; [id] is the symbol's id field.  An
    operator without a code is an internal error. *)
Fixpoint writeExpression (id : nat -> Z) (e : expr) : res (list Z) :=
  match e with
  | ENull => Ok []
  | ENode t c o v s l r =>
      let! bl := writeExpression id l in
      let! br := writeExpression id r in
      match t with
      | TParens => Ok (bl ++ br ++ br)
      | TOperation =>
          match op_code o with
          | None => Err
          | Some b => Ok (bl ++ br ++ b :: (match o with OpBank => le32 (u32 (id s)) | _ => [] end))
          end
      | TConst => Ok (bl ++ br ++ 30 :: le32 (u32 v))
      | TSymbol => Ok (bl ++ br ++ 31 :: le32 (u32 (id s)))
      | TPcRelative => Ok (bl ++ br ++ [32])
      end
  end.
