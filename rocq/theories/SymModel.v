(** Model of the assembler's symbol table: /repo/xasm/motor/symbol.c and
    /repo/xasm/motor/parse_symbol.c. *)
From Coq Require Import ZArith List Bool.
From Verif Require Import Base Arith ExprModel ObjWriteModel.
Import ListNotations.
Open Scope Z_scope.

(** errors.h:24-103 EError. *)
Definition ERROR_MODIFY_SYMBOL : Z := 110.
Definition ERROR_LABEL_SECTION : Z := 111.
Definition ERROR_SYMBOL_EXPORT : Z := 112.
Definition ERROR_IMPORT_DEFINED : Z := 114.
Definition ERROR_GROUP_REDEFINED : Z := 162.
Definition ERROR_NOT_IN_STRUCTURE_SCOPE : Z := 164.
Definition ERROR_MODIFY_INTERNAL_SYMBOL : Z := 165.

(** symbol.h:65-96 SSymbol: what the object writer looks at, the scope, whether the
    symbol is modifiable, and the text of a string symbol or macro.  The fields
    [integer] and [macro] of the union [value] are kept apart: a symbol is never
    read as one after being written as the other.  The callbacks of predefined
    symbols are not modelled. *)
Record ssym : Type := SSym {
  s_asym : asym; s_scope : option nat; s_modifiable : bool; s_text : list Z }.
Definition s_name (s : ssym) : list Z := ay_name (s_asym s).
Definition s_type (s : ssym) : symtype := y_type (ay_sym (s_asym s)).
Definition s_value (s : ssym) : Z := y_value (ay_sym (s_asym s)).
Definition s_export (s : ssym) : bool := ay_export (s_asym s).
Definition s_exportable (s : ssym) : bool := ay_exportable (s_asym s).
Definition s_constant (s : ssym) : bool := y_constant (ay_sym (s_asym s)).
Definition s_section (s : ssym) : option nat := y_section (ay_sym (s_asym s)).
Definition s_file (s : ssym) : option Z := ay_file (s_asym s).

(** All symbols, by reference; a symbol that was freed is [None].  A name always
    goes to the same list of the hash table, so the table is modelled as one list,
    in order of creation.  [z_scope] is sym_CurrentScope, [z_rs] g_rsSymbol,
    [z_section] sect_Current with its contents, [z_file] and [z_line] the position
    of the current token.  New symbols get new references: reuse of freed memory
    is not modelled. *)
Record sstate : Type := SState {
  z_syms : list (option ssym); z_scope : option nat; z_rs : option nat;
  z_section : option (nat * asect); z_file : option Z; z_line : Z; z_errors : list Z }.
Definition with_syms (l : list (option ssym)) (st : sstate) : sstate :=
  SState l (z_scope st) (z_rs st) (z_section st) (z_file st) (z_line st) (z_errors st).
Definition with_zscope (c : option nat) (st : sstate) : sstate :=
  SState (z_syms st) c (z_rs st) (z_section st) (z_file st) (z_line st) (z_errors st).
Definition with_rs (c : option nat) (st : sstate) : sstate :=
  SState (z_syms st) (z_scope st) c (z_section st) (z_file st) (z_line st) (z_errors st).
Definition with_zsection (c : option (nat * asect)) (st : sstate) : sstate :=
  SState (z_syms st) (z_scope st) (z_rs st) c (z_file st) (z_line st) (z_errors st).
Definition with_zposition (f : option Z) (l : Z) (st : sstate) : sstate :=
  SState (z_syms st) (z_scope st) (z_rs st) (z_section st) f l (z_errors st).
(** errors.c err_Error. *)
Definition sym_Error (n : Z) (st : sstate) : sstate :=
  SState (z_syms st) (z_scope st) (z_rs st) (z_section st) (z_file st) (z_line st) (z_errors st ++ [n]).

Fixpoint put {A : Type} (k : nat) (x : A) (l : list A) : list A :=
  match l, k with
  | [], _ => []
  | _ :: r, O => x :: r
  | y :: r, S k' => y :: put k' x r
  end.
Definition put_sym (r : nat) (s : ssym) (st : sstate) : sstate := with_syms (put r (Some s) (z_syms st)) st.
(** A pointer to a freed symbol is not followed. *)
Definition the_sym (r : nat) (st : sstate) : res ssym :=
  match nth_error (z_syms st) r with Some (Some s) => Ok s | _ => UB end.

(** symbol.c:38-50 defaultSymbolFlags: constant, reloc, export, exportable,
    expression and modifiable. *)
Record sflags : Type := SFlags {
  f_constant : bool; f_reloc : bool; f_export : bool; f_exportable : bool; f_expression : bool; f_modifiable : bool }.
Definition defaultSymbolFlags (t : symtype) : sflags :=
  match t with
  | SymLabel => SFlags false true false true true false
  | SymEqu => SFlags true false false true true false
  | SymSet => SFlags true false false false true true
  | SymEqus => SFlags false false false false false false
  | SymEquf => SFlags true false false false false false
  | SymMacro => SFlags false false false false false false
  | SymImport => SFlags false true false false true false
  | SymGroup => SFlags false false true false false false
  | SymGlobal => SFlags false true false false true true
  | SymStructure => SFlags true false false false true false
  | SymUndefined => SFlags false false false true true true
  end.
(** symbol.c:35-36 SET_TYPE_AND_FLAGS; symbol.c:460 and 403 set SYMF_EXPORT first. *)
Definition set_type (t : symtype) (v : Z) (section : option nat) (text : list Z) (s : ssym) : ssym :=
  let f := defaultSymbolFlags t in
  let a := s_asym s in
  SSym (ASym (ay_name a) (Symbol t (f_constant f) (f_reloc f) (f_expression f) section v)
          (ay_export a || f_export f) (f_exportable f) false (ay_file a) (ay_line a)
          (ay_groupType a) false false)
    (s_scope s) (f_modifiable f) text.
Definition set_export (s : ssym) : ssym :=
  let a := s_asym s in
  SSym (ASym (ay_name a) (ay_sym a) true (ay_exportable a) (ay_fileExport a) (ay_file a) (ay_line a)
          (ay_groupType a) (ay_data a) (ay_shared a)) (s_scope s) (s_modifiable s) (s_text s).
Definition set_value (v : Z) (s : ssym) : ssym :=
  let a := s_asym s in
  let y := ay_sym a in
  SSym (ASym (ay_name a) (Symbol (y_type y) (y_constant y) (y_reloc y) (y_expression y) (y_section y) v)
          (ay_export a) (ay_exportable a) (ay_fileExport a) (ay_file a) (ay_line a)
          (ay_groupType a) (ay_data a) (ay_shared a)) (s_scope s) (s_modifiable s) (s_text s).

(** symbol.c:224-232 getSymbol. *)
Definition oref_eqb (a b : option nat) : bool :=
  match a, b with Some x, Some y => Nat.eqb x y | None, None => true | _, _ => false end.
Fixpoint find_sym (name : list Z) (scope : option nat) (l : list (option ssym)) (k : nat) : option nat :=
  match l with
  | [] => None
  | Some s :: r => if oref_eqb (s_scope s) scope && beq (s_name s) name then Some k else find_sym name scope r (S k)
  | None :: r => find_sym name scope r (S k)
  end.
Definition getSymbol (name : list Z) (scope : option nat) (st : sstate) : option nat :=
  find_sym name scope (z_syms st) 0.
(** symbol.c:234-250 createSymbol: memset to zero, then SYM_UNDEFINED. *)
Definition new_symbol (name : list Z) (scope : option nat) (st : sstate) : ssym :=
  let f := defaultSymbolFlags SymUndefined in
  SSym (ASym name (Symbol SymUndefined (f_constant f) (f_reloc f) (f_expression f) None 0)
          false (f_exportable f) false (z_file st) (z_line st) 0 false false)
    scope (f_modifiable f) [].
Definition createSymbol (name : list Z) (scope : option nat) (st : sstate) : nat * sstate :=
  (length (z_syms st), with_syms (z_syms st ++ [Some (new_symbol name scope st)]) st).
(** symbol.c:252-260 isLocalName and assumedScopeOf; 36 is the dollar sign, 46 the
    period. *)
Definition isLocalName (name : list Z) : bool :=
  match name with
  | [] => false
  | c :: _ => (c =? 36) || (c =? 46) || (last name 0 =? 36)
  end.
Definition assumedScopeOf (name : list Z) (st : sstate) : option nat :=
  if isLocalName name then z_scope st else None.
(** symbol.c:262-276 findOrCreateSymbolInScope and findOrCreateSymbol. *)
Definition findOrCreateSymbolInScope (scope : option nat) (name : list Z) (st : sstate) : nat * sstate :=
  match getSymbol name scope st with
  | Some r => (r, st)
  | None => createSymbol name scope st
  end.
Definition findOrCreateSymbol (name : list Z) (st : sstate) : nat * sstate :=
  findOrCreateSymbolInScope (assumedScopeOf name st) name st.
(** symbol.c:278-281 canBeType. *)
Definition canBeType (s : ssym) (t : symtype) : bool :=
  symtype_eqb (s_type s) t || symtype_eqb (s_type s) SymUndefined.

(** symbol.c:288-303 createSymbolOfType, with the value or text to store. *)
Definition createSymbolOfType (name : list Z) (t : symtype) (f : ssym -> ssym) (st : sstate) : res (option nat * sstate) :=
  let (r, st1) := findOrCreateSymbol name st in
  let! s := the_sym r st1 in
  if s_modifiable s && canBeType s t then Ok (Some r, put_sym r (f s) st1)
  else Ok (None, sym_Error (match s_file s with Some _ => ERROR_MODIFY_SYMBOL | None => ERROR_MODIFY_INTERNAL_SYMBOL end) st1).
(** symbol.c:354-394 sym_CreateEqus, sym_CreateEqusOwned, sym_CreateMacro and
    sym_CreateMacroOwned. *)
Definition sym_CreateEqus (name text : list Z) (st : sstate) : res sstate :=
  let! (_, st1) := createSymbolOfType name SymEqus (fun s => set_type SymEqus (s_value s) (s_section s) text s) st in Ok st1.
Definition sym_CreateMacro (name text : list Z) (st : sstate) : res sstate :=
  let! (_, st1) := createSymbolOfType name SymMacro (fun s => set_type SymMacro (s_value s) (s_section s) text s) st in Ok st1.
Definition begin_scope (name : list Z) (r : nat) (st : sstate) : sstate :=
  if isLocalName name then st else with_zscope (Some r) st.
(** symbol.c:396-417 sym_CreateEqu.  A null fileInfo is dereferenced for the message. *)
Definition sym_CreateEqu (name : list Z) (v : Z) (st : sstate) : res sstate :=
  let (r, st1) := findOrCreateSymbol name st in
  let! s := the_sym r st1 in
  if s_modifiable s && (canBeType s SymEqu || symtype_eqb (s_type s) SymGlobal) then
    let s1 := if symtype_eqb (s_type s) SymGlobal then set_export s else s in
    Ok (begin_scope name r (put_sym r (set_type SymEqu v (s_section s1) (s_text s1) s1) st1))
  else match s_file s with None => UB | Some _ => Ok (sym_Error ERROR_MODIFY_SYMBOL st1) end.
(** symbol.c:419-440 sym_CreateSet and sym_CreateStructure. *)
Definition createInteger (t : symtype) (name : list Z) (v : Z) (st : sstate) : res (option nat * sstate) :=
  let! (o, st1) := createSymbolOfType name t (fun s => set_type t v (s_section s) (s_text s) s) st in
  match o with
  | Some r => Ok (Some r, begin_scope name r st1)
  | None => Ok (None, st1)
  end.
Definition sym_CreateSet (name : list Z) (v : Z) (st : sstate) : res (option nat * sstate) := createInteger SymSet name v st.
Definition sym_CreateStructure (name : list Z) (v : Z) (st : sstate) : res (option nat * sstate) := createInteger SymStructure name v st.
(** symbol.c:442-452 sym_EndStructure. *)
Definition sym_EndStructure (st : sstate) : res sstate :=
  match z_scope st with
  | None => Ok (sym_Error ERROR_NOT_IN_STRUCTURE_SCOPE st)
  | Some r =>
      let! s := the_sym r st in
      if symtype_eqb (s_type s) SymStructure then
        let! v := match z_rs st with None => Ok (s_value s) | Some q => let! x := the_sym q st in Ok (s_value x) end in
        Ok (with_zscope None (put_sym r (set_value v s) st))
      else Ok (sym_Error ERROR_NOT_IN_STRUCTURE_SCOPE st)
  end.
(** symbol.c:454-484 sym_CreateLabel. *)
Definition sym_CreateLabel (name : list Z) (st : sstate) : res sstate :=
  let (r, st1) := findOrCreateSymbol name st in
  let! s := the_sym r st1 in
  if s_modifiable s && (canBeType s SymLabel || symtype_eqb (s_type s) SymGlobal) then
    let s1 := if symtype_eqb (s_type s) SymGlobal then set_export s else s in
    match z_section st1 with
    | Some (k, a) =>
        let s2 :=
          if (a_loadfixed a || a_orgfixed a) && negb (a_bankfixed a)
          then set_type SymEqu (s32 (a_pc a + a_cpuAdjust a + a_cpuOrigin a)) (s_section s1) (s_text s1) s1
          else set_type SymLabel (s32 (a_pc a)) (Some k) (s_text s1) s1 in
        Ok (begin_scope name r (put_sym r s2 st1))
    | None => Ok (sym_Error ERROR_LABEL_SECTION (put_sym r s1 st1))
    end
  else Ok (sym_Error ERROR_MODIFY_SYMBOL st1).
(** symbol.c:333-350 sym_CreateGroup: the flags stay those of an undefined symbol. *)
Definition set_group (g : Z) (s : ssym) : ssym :=
  let a := s_asym s in
  let y := ay_sym a in
  SSym (ASym (ay_name a) (Symbol SymGroup (y_constant y) (y_reloc y) (y_expression y) (y_section y) (y_value y))
          (ay_export a) (ay_exportable a) (ay_fileExport a) (ay_file a) (ay_line a) g (ay_data a) (ay_shared a))
    (s_scope s) (s_modifiable s) (s_text s).
Definition sym_CreateGroup (name : list Z) (g : Z) (st : sstate) : res sstate :=
  match getSymbol name None st with
  | Some r =>
      let! s := the_sym r st in
      if symtype_eqb (s_type s) SymGroup && (ay_groupType (s_asym s) =? g) then Ok st
      else Ok (sym_Error ERROR_GROUP_REDEFINED st)
  | None =>
      let (r, st1) := createSymbol name None st in
      Ok (put_sym r (set_group g (new_symbol name None st)) st1)
  end.
(** symbol.c:514-526 sym_Export. *)
Definition sym_Export (name : list Z) (st : sstate) : res sstate :=
  let (r, st1) := findOrCreateSymbol name st in
  let! s := the_sym r st1 in
  if s_exportable s then Ok (put_sym r (set_export s) st1)
  else match s_file s with None => UB | Some _ => Ok (sym_Error ERROR_SYMBOL_EXPORT st1) end.
(** symbol.c:528-540 sym_Import. *)
Definition sym_Import (name : list Z) (st : sstate) : res sstate :=
  let (r, st1) := findOrCreateSymbol name st in
  let! s := the_sym r st1 in
  if symtype_eqb (s_type s) SymUndefined
  then Ok (put_sym r (set_type SymImport 0 (s_section s) (s_text s) s) st1)
  else Ok (sym_Error ERROR_IMPORT_DEFINED st1).
(** symbol.c:542-564 sym_Global. *)
Definition sym_Global (name : list Z) (st : sstate) : res sstate :=
  let (r, st1) := findOrCreateSymbol name st in
  let! s := the_sym r st1 in
  if symtype_eqb (s_type s) SymGlobal || symtype_eqb (s_type s) SymImport
  then match s_file s with None => UB | Some _ => Ok (sym_Error ERROR_MODIFY_SYMBOL st1) end
  else if symtype_eqb (s_type s) SymUndefined
  then Ok (put_sym r (set_type SymGlobal 0 (s_section s) (s_text s) s) st1)
  else if s_exportable s then Ok (put_sym r (set_export s) st1)
  else match s_file s with None => UB | Some _ => Ok (sym_Error ERROR_SYMBOL_EXPORT st1) end.
(** symbol.c:566-577 sym_Purge. *)
Definition sym_Purge (name : list Z) (st : sstate) : sstate :=
  match getSymbol name (assumedScopeOf name st) st with
  | Some r => with_syms (put r None (z_syms st)) st
  | None => st
  end.

(** parse_symbol.c:50-70 getRsCounter and parse_IncrementRs; [rs_name] is "__RS".
    sym_CreateSet may fail, and its result is then a null pointer. *)
Definition rs_name : list Z := [95; 95; 82; 83].
Definition getRsCounter (st : sstate) : res (nat * sstate) :=
  match z_rs st with
  | Some r => Ok (r, st)
  | None =>
      let! (o, st1) := sym_CreateSet rs_name 0 st in
      match o with
      | Some r => Ok (r, with_rs (Some r) st1)
      | None => UB
      end
  end.
Definition parse_IncrementRs (size : Z) (st : sstate) : res (Z * sstate) :=
  let! (r, st1) := getRsCounter st in
  let! s := the_sym r st1 in
  let! v := c_add (s_value s) size in
  Ok (s_value s, put_sym r (set_value v s) st1).
(** parse_symbol.c:87-90 parse_SetRs. *)
Definition parse_SetRs (v : Z) (st : sstate) : res sstate :=
  let! (r, st1) := getRsCounter st in
  let! s := the_sym r st1 in
  Ok (put_sym r (set_value v s) st1).
Definition isDotLocalName (name : list Z) : bool := match name with c :: _ => c =? 46 | [] => false end.
(** parse_symbol.c:72-85 createRsSymbol. *)
Definition createRsSymbol (name : list Z) (multiplier n : Z) (st : sstate) : res sstate :=
  let! value := c_mul multiplier n in
  if isDotLocalName name then
    match z_scope st with
    | None => Ok (sym_Error ERROR_NOT_IN_STRUCTURE_SCOPE st)
    | Some c =>
        let! s := the_sym c st in
        if symtype_eqb (s_type s) SymStructure then
          let! (v, st1) := parse_IncrementRs value st in
          let! (_, st2) := sym_CreateSet name v st1 in
          match z_scope st2 with
          | None => UB
          | Some c2 =>
              let! s2 := the_sym c2 st2 in
              let! v2 := c_add (s_value s2) value in
              Ok (put_sym c2 (set_value v2 s2) st2)
          end
        else Ok (sym_Error ERROR_NOT_IN_STRUCTURE_SCOPE st)
    end
  else
    let! (v, st1) := parse_IncrementRs value st in
    let! (_, st2) := sym_CreateSet name v st1 in Ok st2.
(** parse_symbol.c:92-100 createRsSetSymbol. *)
Definition createRsSetSymbol (name : list Z) (v : Z) (st : sstate) : res sstate :=
  let! st1 := parse_SetRs v st in
  if isDotLocalName name then let! (_, st2) := sym_CreateSet name v st1 in Ok st2
  else let! (_, st2) := sym_CreateStructure name v st1 in Ok st2.

(** What the source can do to the symbol table.  [OUse] is a reference to a name in
    an expression, [OUseIn] one to a name in an explicit scope
    (parse_expression.c, sym_GetSymbol and sym_GetSymbolInScope), [OSection] a
    change of the current section or its contents, [OScope] what POPS does. *)
Inductive sop : Type :=
| OLabel (name : list Z)
| OEqu (name : list Z) (v : Z)
| OSet (name : list Z) (v : Z)
| OEqus (name text : list Z)
| OMacro (name text : list Z)
| OGroup (name : list Z) (g : Z)
| OExport (name : list Z)
| OImport (name : list Z)
| OGlobal (name : list Z)
| OPurge (name : list Z)
| OUse (name : list Z)
| OUseIn (scope : nat) (name : list Z)
| ORs (name : list Z) (multiplier n : Z)
| ORsLabel (name : list Z) (v : Z)
| ORsSet (v : Z)
| ORsSkip (multiplier n : Z)
| ORsEnd
| OSection (c : option (nat * asect))
| OScope (c : option nat)
| OPosition (f : option Z) (l : Z).
(** parse_symbol.c:102-213, parse_directive.c:311-332 and 745-750. *)
Definition sstep (o : sop) (st : sstate) : res sstate :=
  match o with
  | OLabel n => sym_CreateLabel n st
  | OEqu n v => sym_CreateEqu n v st
  | OSet n v => let! (_, st1) := sym_CreateSet n v st in Ok st1
  | OEqus n t => sym_CreateEqus n t st
  | OMacro n t => sym_CreateMacro n t st
  | OGroup n g => sym_CreateGroup n g st
  | OExport n => sym_Export n st
  | OImport n => sym_Import n st
  | OGlobal n => sym_Global n st
  | OPurge n => Ok (sym_Purge n st)
  | OUse n => Ok (snd (findOrCreateSymbol n st))
  | OUseIn c n => Ok (snd (findOrCreateSymbolInScope (Some c) n st))
  | ORs n m v => createRsSymbol n m v st
  | ORsLabel n v => createRsSetSymbol n v st
  | ORsSet v => parse_SetRs v st
  | ORsSkip m n => let! size := c_mul n m in let! (_, st1) := parse_IncrementRs size st in Ok st1
  | ORsEnd => sym_EndStructure st
  | OSection c => Ok (with_zsection c st)
  | OScope c => Ok (with_zscope c st)
  | OPosition f l => Ok (with_zposition f l st)
  end.
Fixpoint srun (l : list sop) (st : sstate) : res sstate :=
  match l with
  | [] => Ok st
  | o :: r => let! st1 := sstep o st in srun r st1
  end.
