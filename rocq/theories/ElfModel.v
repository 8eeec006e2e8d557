(** Model of the assembler's writer of ELF objects: /repo/xasm/motor/elf.c. *)
From Coq Require Import String ZArith List Bool.
From Verif Require Import Base Arith ExprModel ObjWriteModel FileModel AssignModel MdefModel.
Import ListNotations.
Open Scope string_scope.
Open Scope list_scope.
Open Scope Z_scope.

(** elf.c:119-120, 499-500: fput_half and fput_word, by endianness. *)
Definition fput_half (big : bool) (v : Z) : list Z := if big then be16 (u16 v) else le16 (u16 v).
Definition fput_word (big : bool) (v : Z) : list Z := if big then be32 (u32 v) else le32 (u32 v).

(** elf.c:130-141 e_shdr. *)
Record shdr : Type := Shdr {
  sh_name : Z; sh_type : Z; sh_flags : Z; sh_addr : Z; sh_offset : Z;
  sh_size : Z; sh_link : Z; sh_info : Z; sh_addralign : Z; sh_entsize : Z }.

(** elf.c:63-91, 155-161: the constants used. *)
Definition SHT_PROGBITS : Z := 1.
Definition SHT_SYMTAB : Z := 2.
Definition SHT_STRTAB : Z := 3.
Definition SHT_RELA : Z := 4.
Definition SHT_NOBITS : Z := 8.
Definition SHT_REL : Z := 9.
Definition SHF_WRITE : Z := 1.
Definition SHF_ALLOC : Z := 2.
Definition SHF_EXECINSTR : Z := 4.
Definition SHN_UNDEF : Z := 0.
Definition SHN_ABS : Z := 65521. (* 0xfff1 *)
Definition R_68K_32 : Z := 1.

(** The file so far, g_stringTable and g_sectionHeaders.  Everything is written at the end of
    the file except for the three fields of the header filled in at the end. *)
Record ewriter : Type := EWriter { ew_out : list Z; ew_strings : list Z; ew_headers : list shdr }.
Definition emit (bs : list Z) (st : ewriter) : ewriter := EWriter (ew_out st ++ bs) (ew_strings st) (ew_headers st).

(** elf.c:167-174 alignFile.  Division by zero is undefined. *)
Definition alignFile (alignment : Z) (st : ewriter) : res ewriter :=
  if alignment =? 0 then UB else
  let pad := zlen (ew_out st) mod alignment in
  Ok (emit (repeat 0 (Z.to_nat (if pad =? 0 then 0 else alignment - pad))) st).
(** elf.c:181-187 addSectionHeader: the index and the new table. *)
Definition addSectionHeader (h : shdr) (st : ewriter) : Z * ewriter :=
  (zlen (ew_headers st), EWriter (ew_out st) (ew_strings st) (ew_headers st ++ [h])).
(** elf.c:195-207 addStringChars, addString. *)
Definition addString (s : list Z) (st : ewriter) : Z * ewriter :=
  (u32 (zlen (ew_strings st)), EWriter (ew_out st) (ew_strings st ++ s ++ [0]) (ew_headers st)).

(** elf.c:209-228 writeElfHeader. *)
Definition writeElfHeader (big : bool) (arch : Z) : list Z :=
  [127; 69; 76; 70; 1; if big then 2 else 1; 1; 0; 0; 0; 0; 0; 0; 0; 0; 0] ++
  fput_half big 1 ++ fput_half big arch ++ fput_word big 1 ++ fput_word big 0 ++ fput_word big 0 ++ fput_word big 0 ++
  fput_word big 0 ++ fput_half big 52 ++ fput_half big 0 ++ fput_half big 0 ++ fput_half big 40 ++ fput_half big 0 ++ fput_half big 0.

(** elf.c:230-243 writeSymbolRaw, writeSymbol; [info] is ELF32_ST_INFO(bind, STT_NOTYPE). *)
Definition writeSymbolRaw (big : bool) (name value info sectionIndex : Z) : list Z :=
  fput_word big name ++ fput_word big value ++ fput_word big 0 ++ [info; 0] ++ fput_half big sectionIndex.
Definition writeSymbol (big : bool) (name : list Z) (value info sectionIndex : Z) (st : ewriter) : ewriter :=
  let (n, st1) := addString name st in emit (writeSymbolRaw big n value info sectionIndex) st1.

Section Writer.
Variable big : bool.
Variable arch : Z.
(** SConfiguration.sectionAlignment, and SYMF_USED of the symbols. *)
Variable alignment : Z.
Variable used : nat -> bool.
(** qsort of the C library. *)
Variable sorter : forall A : Type, (A -> A -> Z) -> list A -> list A.
Variable A : astate.

(** symbol->section->id. *)
Definition sectionIdOf (ids : list Z) (y : asym) : res Z :=
  match y_section (ay_sym y) with
  | None => UB
  | Some k => match nth_error ids k with Some i => Ok i | None => UB end
  end.
(** elf.c:268-285 writeLocalSymbols, the symbols from position [i] on; [index] is
    symbolIndex and [sids] the ids of the symbols. *)
Definition isLocalSymbol (i : nat) (y : asym) : bool :=
  (symtype_eqb (y_type (ay_sym y)) SymLabel || symtype_eqb (y_type (ay_sym y)) SymEqu) &&
  (y_reloc (ay_sym y) || used i || ay_fileExport y) && negb (ay_export y).
Fixpoint writeLocalSymbols (ids : list Z) (ys : list asym) (i : nat) (index : Z) (sids : nat -> Z) (st : ewriter)
    : res (Z * (nat -> Z) * ewriter) :=
  match ys with
  | [] => Ok (index, sids, st)
  | y :: r =>
      if (sids i =? 0) && isLocalSymbol i y then
        let! k := if y_constant (ay_sym y) then Ok SHN_ABS else sectionIdOf ids y in
        writeLocalSymbols ids r (S i) (index + 1) (upd sids i index) (writeSymbol big (ay_name y) (y_value (ay_sym y)) 0 k st)
      else writeLocalSymbols ids r (S i) index sids st
  end.
(** elf.c:245-266 writeGlobalSymbols. *)
Definition isImported (y : asym) : bool :=
  symtype_eqb (y_type (ay_sym y)) SymImport || symtype_eqb (y_type (ay_sym y)) SymGlobal.
Definition isGlobalSymbol (i : nat) (y : asym) : bool :=
  (symtype_eqb (y_type (ay_sym y)) SymLabel || symtype_eqb (y_type (ay_sym y)) SymEqu || isImported y) &&
  (y_reloc (ay_sym y) || used i || ay_export y).
Fixpoint writeGlobalSymbols (ids : list Z) (ys : list asym) (i : nat) (index : Z) (sids : nat -> Z) (st : ewriter)
    : res (Z * (nat -> Z) * ewriter) :=
  match ys with
  | [] => Ok (index, sids, st)
  | y :: r =>
      if (sids i =? 0) && isGlobalSymbol i y then
        let! k := if y_constant (ay_sym y) then Ok SHN_ABS else if isImported y then Ok SHN_UNDEF else sectionIdOf ids y in
        writeGlobalSymbols ids r (S i) (index + 1) (upd sids i index) (writeSymbol big (ay_name y) (y_value (ay_sym y)) 16 k st)
      else writeGlobalSymbols ids r (S i) index sids st
  end.

(** elf.c:344-348: four bytes are cleared at each patch.  Simplification: clearing beyond the
    used part of the buffer counts as out of bounds, even if the buffer is larger. *)
Fixpoint clearPatches (ps : list apatch) (d : list Z) : res (list Z) :=
  match ps with
  | [] => Ok d
  | p :: r => if ap_offset p + 4 <=? zlen d then clearPatches r (overwrite d (ap_offset p) [0; 0; 0; 0]) else UB
  end.
(** elf.c:305-351 writeSection: section->id, whether an error is reported, and the state. *)
Definition writeSection (w : wsect) (st : ewriter) : res (Z * bool * ewriter) :=
  if a_loadfixed (ws_sect w) && (ws_imagePosition w =? 0) then Ok (UINT32_MAX, true, st) else
  match nth_error (as_symbols A) (ws_group w) with
  | None => UB
  | Some g =>
      let text := ay_groupType g =? 0 in
      let type := if text then SHT_PROGBITS else SHT_NOBITS in
      let flags := if text then (if ay_data g then SHF_ALLOC + SHF_WRITE else SHF_ALLOC + SHF_EXECINSTR) else SHF_ALLOC + SHF_WRITE in
      let align := if a_aligned (ws_sect w) then ws_align w else alignment in
      let! st1 := alignFile align st in
      let (n, st2) := addString (ws_name w) st1 in
      let (id, st3) := addSectionHeader
        (Shdr n type flags (if a_loadfixed (ws_sect w) then ws_imagePosition w else 0)
              (if text then u32 (zlen (ew_out st2)) else 0) (ws_usedSpace w) SHN_UNDEF 0 align 0) st2 in
      if text then let! d := clearPatches (ws_patches w) (ws_data w) in Ok (id, false, emit d st3)
      else Ok (id, false, st3)
  end.
Fixpoint writeSectionContents (ws : list wsect) (st : ewriter) : res (list Z * bool * ewriter) :=
  match ws with
  | [] => Ok ([], false, st)
  | w :: r =>
      let! (id, e, st1) := writeSection w st in
      let! (ids, e', st2) := writeSectionContents r st1 in
      Ok (id :: ids, e || e', st2)
  end.

(** elf.c:287-303 writeSymbolSection: the ids of the symbols. *)
Definition set_header (k : Z) (f : shdr -> shdr) (st : ewriter) : ewriter :=
  match nth_error (ew_headers st) (Z.to_nat k) with
  | None => st
  | Some h => EWriter (ew_out st) (ew_strings st) (set_nth (ew_headers st) (Z.to_nat k) (f h))
  end.
Definition writeSymbolSection (symbolSection stringSection : Z) (ids : list Z) (st : ewriter) : res ((nat -> Z) * ewriter) :=
  let! st1 := alignFile 4 st in
  let location := zlen (ew_out st1) in
  let st2 := emit (writeSymbolRaw big 0 0 0 SHN_UNDEF) st1 in
  let! (totalLocals, sids, st3) := writeLocalSymbols ids (as_symbols A) 0 1 (fun _ => 0) st2 in
  let! (_, sids2, st4) := writeGlobalSymbols ids (as_symbols A) 0 totalLocals sids st3 in
  Ok (sids2, set_header symbolSection (fun h =>
        Shdr (sh_name h) (sh_type h) (sh_flags h) (sh_addr h) (u32 location) (u32 (zlen (ew_out st4) - location))
             stringSection totalLocals (sh_addralign h) (sh_entsize h)) st4).

(** expression.c:583-643 isImport, isSymbolic, getSymbolOffset, expr_GetImportOffset and
    expr_GetSymbolOffset: the offset and the symbol.  The operands are asked for their
    import whichever predicate is used. *)
Definition symbolOf (s : nat) : symbol :=
  match nth_error (as_symbols A) s with Some y => ay_sym y | None => Symbol SymUndefined false false false None 0 end.
Definition isImport (s : nat) : bool :=
  symtype_eqb (y_type (symbolOf s)) SymImport || symtype_eqb (y_type (symbolOf s)) SymGlobal.
Definition isSymbolic (s : nat) : bool := isImport s || symtype_eqb (y_type (symbolOf s)) SymLabel.
Definition offsetOfSum (import : expr -> option (Z * nat)) (o : op) (l r : expr) : option (Z * nat) :=
  match o with
  | OpAdd | OpSub =>
      let sub := match o with OpSub => true | _ => false end in
      match (match import l with
             | Some (off, s) => if expr_IsConstant r then Some (u32 (if sub then off - e_v r else off + e_v r), s) else None
             | None => None
             end) with
      | Some x => Some x
      | None =>
          match import r with
          | Some (off, s) => if expr_IsConstant l then Some (u32 (if sub then e_v l - off else e_v l + off), s) else None
          | None => None
          end
      end
  | _ => None
  end.
Fixpoint expr_GetImportOffset (e : expr) : option (Z * nat) :=
  match e with
  | ENull => None
  | ENode TSymbol _ _ _ s _ _ => if isImport s then Some (0, s) else None
  | ENode TOperation _ o _ _ l r => offsetOfSum expr_GetImportOffset o l r
  | _ => None
  end.
Definition expr_GetSymbolOffset (e : expr) : option (Z * nat) :=
  match e with
  | ENode TSymbol _ _ _ s _ _ => if isSymbolic s then Some (0, s) else None
  | ENode TOperation _ o _ _ l r => offsetOfSum expr_GetImportOffset o l r
  | _ => None
  end.

(** elf.c:353-362 e_rela, compare_rela. *)
Record rela : Type := Rela { ra_offset : Z; ra_info : Z; ra_addend : Z }.
Definition compare_rela (a b : rela) : Z := s32 (ra_offset a - ra_offset b).
(** elf.c:373-388: the relocations of the patches; ELF32_R_INFO(symbol->id, R_68K_32). *)
Fixpoint collectRelocs (sids : nat -> Z) (ps : list apatch) : res (list rela) :=
  match ps with
  | [] => Ok []
  | p :: r =>
      match expr_GetSymbolOffset (ap_expr p) with
      | None => Err
      | Some (addend, s) => let! rs := collectRelocs sids r in Ok (Rela (ap_offset p) (u32 (sids s * 256 + R_68K_32)) addend :: rs)
      end
  end.
(** elf.c:364-418 writeReloc. *)
Definition rela_bytes (x : rela) : list Z := fput_word big (ra_offset x) ++ fput_word big (ra_info x) ++ fput_word big (ra_addend x).
Definition writeReloc (symbolSection : Z) (sids : nat -> Z) (w : wsect) (id : Z) (st : ewriter) : res ewriter :=
  if id =? UINT32_MAX then Ok st else
  let! st1 := alignFile 4 st in
  let location := zlen (ew_out st1) in
  let! relocs := collectRelocs sids (ws_patches w) in
  let st2 := emit (concat (map rela_bytes (sorter rela compare_rela relocs))) st1 in
  let (n, st3) := addString (ws_name w ++ chars ".reloc") st2 in
  Ok (snd (addSectionHeader (Shdr n SHT_RELA 0 0 (u32 location) (u32 (zlen (ew_out st3) - location)) symbolSection id 0 12) st3)).
Fixpoint writeRelocs (symbolSection : Z) (sids : nat -> Z) (ws : list wsect) (ids : list Z) (st : ewriter) : res ewriter :=
  match ws, ids with
  | w :: r, id :: ri => let! st1 := writeReloc symbolSection sids w id st in writeRelocs symbolSection sids r ri st1
  | _, _ => Ok st
  end.

(** elf.c:420-432 writeStrings. *)
Definition writeStrings (stringSection : Z) (st : ewriter) : res ewriter :=
  let! st1 := alignFile 4 st in
  let location := zlen (ew_out st1) in
  let st2 := emit (ew_strings st1) st1 in
  let st3 := set_header stringSection (fun h =>
        Shdr (sh_name h) (sh_type h) (sh_flags h) (sh_addr h) (u32 location) (u32 (zlen (ew_strings st1)))
             (sh_link h) (sh_info h) (sh_addralign h) (sh_entsize h)) st2 in
  Ok (EWriter (overwrite (ew_out st3) 50 (fput_half big stringSection)) (ew_strings st3) (ew_headers st3)).
(** elf.c:434-458 writeSectionHeaders. *)
Definition shdr_bytes (h : shdr) : list Z :=
  fput_word big (sh_name h) ++ fput_word big (sh_type h) ++ fput_word big (sh_flags h) ++ fput_word big (sh_addr h) ++
  fput_word big (sh_offset h) ++ fput_word big (sh_size h) ++ fput_word big (sh_link h) ++ fput_word big (sh_info h) ++
  fput_word big (sh_addralign h) ++ fput_word big (sh_entsize h).
Definition writeSectionHeaders (st : ewriter) : res ewriter :=
  let! st1 := alignFile 4 st in
  let location := zlen (ew_out st1) in
  let st2 := emit (concat (map shdr_bytes (ew_headers st1))) st1 in
  let out := overwrite (ew_out st2) 32 (fput_word big location) in
  Ok (EWriter (overwrite out 48 (fput_half big (zlen (ew_headers st2)))) (ew_strings st2) (ew_headers st2)).

(** elf.c:460-483 writeSections, 495-518 elf_Write: the file, and whether an error was
    reported for a section.  Err: the file is removed. *)
Definition elf_Write : res (list Z * bool) :=
  let st0 := EWriter (writeElfHeader big arch) [0] [Shdr 0 0 0 0 0 0 0 0 0 0] in
  let (n1, st1) := addString (chars ".symtab") st0 in
  let (symbolSection, st2) := addSectionHeader (Shdr n1 SHT_SYMTAB 0 0 0 0 0 0 0 16) st1 in
  let (n2, st3) := addString (chars ".strtab") st2 in
  let (stringSection, st4) := addSectionHeader (Shdr n2 SHT_STRTAB 0 0 0 0 0 0 0 0) st3 in
  let! (ids, errors, st5) := writeSectionContents (as_sections A) st4 in
  let! (sids, st6) := writeSymbolSection symbolSection stringSection ids st5 in
  let! st7 := writeRelocs symbolSection sids (as_sections A) ids st6 in
  let! st8 := writeStrings stringSection st7 in
  let! st9 := writeSectionHeaders st8 in
  Ok (ew_out st9, errors).
End Writer.
