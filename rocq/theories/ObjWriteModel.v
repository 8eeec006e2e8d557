(** Model of the assembler's object file writer: /repo/xasm/motor/object.c. *)
From Coq Require Import ZArith List Bool.
From Verif Require Import Base Arith ExprModel.
Import ListNotations.
Open Scope Z_scope.

(** symbol.h:51-92 SSymbol.  What expressions look at is in [ay_sym].  [ay_file]
    is fileInfo->fileId, None for a null pointer. *)
Record asym : Type := ASym {
  ay_name : list Z; ay_sym : symbol;
  ay_export : bool; ay_exportable : bool; ay_fileExport : bool;
  ay_file : option Z; ay_line : Z;
  ay_groupType : Z; ay_data : bool; ay_shared : bool }.
(** patch.h:38-46 SPatch.  patch->section is always the section whose list it is
    in (patch.c:454-471); filename and lineNumber are for messages. *)
Record apatch : Type := APatch { ap_offset : Z; ap_type : Z; ap_expr : expr }.
(** linemap.h:27-31. *)
Record aline : Type := ALine { al_file : Z; al_line : Z; al_offset : Z }.
(** section.h:32-59 SSection.  What expressions look at, flags included, is in
    [ws_sect].  [ws_group] refers to a symbol.  A null lineMap is an empty list.
    [ws_data] is the used part of the buffer. *)
Record wsect : Type := WSect {
  ws_sect : asect; ws_name : list Z; ws_group : nat; ws_imagePosition : Z;
  ws_align : Z; ws_page : Z; ws_lines : list aline;
  ws_usedSpace : Z; ws_data : list Z; ws_patches : list apatch }.
(** The state when obj_Write is called.  [as_symbols] is the content of
    sym_hashedSymbols in the order of the double loops; references to symbols are
    positions in it.  [as_debug] is enableDebugInfo, [as_banks] supportBanks and
    [as_files] the result of lexctx_GetFileInfo. *)
Record astate : Type := AState {
  as_wordSize : Z; as_debug : bool; as_banks : bool;
  as_files : list (list Z * Z); as_symbols : list asym; as_sections : list wsect }.

Definition UINT32_MAX : Z := 4294967295.
(** util: fputll and fputsz. *)
Definition fputll (z : Z) : list Z := le32 (u32 z).
Definition fputsz (s : list Z) : list Z := s ++ [0].
Definition upd {A : Type} (f : nat -> A) (k : nat) (v : A) : nat -> A :=
  fun x => if Nat.eqb x k then v else f x.

(** object.c:121-122, 199-200: the nodes that refer to a symbol. *)
Definition refers_node (banks : bool) (t : etype) (o : op) : bool :=
  match t with
  | TSymbol => true
  | TOperation => banks && match o with OpBank => true | _ => false end
  | _ => false
  end.
Definition in_section (y : asym) (k : nat) : bool := osect_eqb (y_section (ay_sym y)) (Some k).
(** object.c:144-150, 179-185, 420-426.  A null fileInfo is dereferenced. *)
Definition debugInfo (A : astate) (y : asym) : res (list Z) :=
  if as_debug A
  then match ay_file y with None => UB | Some f => Ok (fputll f ++ fputll (ay_line y)) end
  else Ok (fputll UINT32_MAX ++ fputll 0).

(** Number of symbols written so far, and the id fields of all symbols. *)
Definition idstate : Type := Z * (nat -> Z).

(** object.c:115-155 writeSymbols, for section [k]; [fx] is SYMF_FILE_EXPORT. *)
Fixpoint writeSymbols (A : astate) (fx : nat -> bool) (k : nat) (e : expr) (st : idstate)
    : res (list Z * idstate) :=
  match e with
  | ENull => Ok ([], st)
  | ENode t c o v s l r =>
      let! (bl, st1) := writeSymbols A fx k l st in
      let! (br, st2) := writeSymbols A fx k r st1 in
      if refers_node (as_banks A) t o then
        match nth_error (as_symbols A) s with
        | None => UB
        | Some y =>
            if snd st2 s =? UINT32_MAX then
              let! d := debugInfo A y in
              let value := fputll (y_value (ay_sym y)) in
              let b :=
                if in_section y k then
                  if fx s then fputll 3 ++ value
                  else if ay_export y then fputll 0 ++ value
                  else fputll 2 ++ value
                else if symtype_eqb (y_type (ay_sym y)) SymImport || symtype_eqb (y_type (ay_sym y)) SymGlobal
                then fputll 1 else fputll 4 in
              Ok (bl ++ br ++ fputsz (ay_name y) ++ b ++ d, (fst st2 + 1, upd (snd st2) s (fst st2)))
            else Ok (bl ++ br, st2)
        end
      else Ok (bl ++ br, st2)
  end.

(** object.c:157-191 writeSymbolsWithFlags over the symbols from position [i] on;
    [reloc] tells whether SYMF_RELOC is among the flags. *)
Fixpoint writeSymbolsWithFlags (A : astate) (fx : nat -> bool) (k : nat) (reloc : bool) (ys : list asym) (i : nat)
    (st : idstate) : res (list Z * idstate) :=
  match ys with
  | [] => Ok ([], st)
  | y :: r =>
      let st1 := if symtype_eqb (y_type (ay_sym y)) SymGroup then st else (fst st, upd (snd st) i UINT32_MAX) in
      let! (b, st2) :=
        if in_section y k && (ay_export y || fx i || (reloc && y_reloc (ay_sym y))) then
          let! d := debugInfo A y in
          let t := if ay_export y then 0 else if fx i then 3 else 2 in
          Ok (fputsz (ay_name y) ++ fputll t ++ fputll (y_value (ay_sym y)) ++ d,
              (fst st1 + 1, upd (snd st1) i (fst st1)))
        else Ok ([], st1) in
      let! (br, st3) := writeSymbolsWithFlags A fx k reloc r (S i) st2 in
      Ok (b ++ br, st3)
  end.

(** object.c:193-205 markLocalExportsInExpression. *)
Fixpoint markExpression (A : astate) (k : nat) (e : expr) (fx : nat -> bool) : nat -> bool :=
  match e with
  | ENull => fx
  | ENode t c o v s l r =>
      let fx2 := markExpression A k r (markExpression A k l fx) in
      if refers_node (as_banks A) t o then
        match nth_error (as_symbols A) s with
        | Some y => if ay_exportable y && negb (in_section y k) then upd fx2 s true else fx2
        | None => fx2
        end
      else fx2
  end.
(** object.c:207-216 markLocalExports, from section [k] on. *)
Fixpoint markSections (A : astate) (ws : list wsect) (k : nat) (fx : nat -> bool) : nat -> bool :=
  match ws with
  | [] => fx
  | w :: r =>
      markSections A r (S k) (fold_left (fun fx p => markExpression A k (ap_expr p) fx) (ws_patches w) fx)
  end.
Definition initialFx (A : astate) : nat -> bool :=
  fun s => match nth_error (as_symbols A) s with Some y => ay_fileExport y | None => false end.
Definition markLocalExports (A : astate) : nat -> bool := markSections A (as_sections A) 0 (initialFx A).

(** object.c:359-373 writePatch.  Simplification: counts and sizes written over a
    placeholder are written directly (also below). *)
Definition writePatch (ids : nat -> Z) (p : apatch) : res (list Z) :=
  let! bs := writeExpression ids (ap_expr p) in
  Ok (fputll (ap_offset p) ++ fputll (ap_type p) ++ fputll (zlen bs) ++ bs).
Fixpoint writePatchList (ids : nat -> Z) (ps : list apatch) : res (list Z) :=
  match ps with
  | [] => Ok []
  | p :: r => let! b := writePatch ids p in let! br := writePatchList ids r in Ok (b ++ br)
  end.
(** object.c:464-480 writeSectionPatches. *)
Definition writeSectionPatches (ids : nat -> Z) (w : wsect) : res (list Z) :=
  let! b := writePatchList ids (ws_patches w) in Ok (fputll (zlen (ws_patches w)) ++ b).

(** object.c:375-395 writeGroups: the bytes, the number of groups and the ids. *)
Definition isGroup (y : asym) : bool := symtype_eqb (y_type (ay_sym y)) SymGroup.
Fixpoint writeGroupList (ys : list asym) (i : nat) (st : idstate) : list Z * idstate :=
  match ys with
  | [] => ([], st)
  | y :: r =>
      if isGroup y then
        let t := Z.lor (ay_groupType y) (Z.lor (if ay_shared y then 536870912 else 0) (if ay_data y then 1073741824 else 0)) in
        let (b, st1) := writeGroupList r (S i) (fst st + 1, upd (snd st) i (fst st)) in
        (fputsz (ay_name y) ++ fputll t ++ b, st1)
      else writeGroupList r (S i) st
  end.

(** object.c:397-438 writeExportedConstantsSection. *)
Definition isExportedConstant (y : asym) : bool :=
  (symtype_eqb (y_type (ay_sym y)) SymEqu || symtype_eqb (y_type (ay_sym y)) SymSet) && ay_export y.
Fixpoint writeConstants (A : astate) (ys : list asym) : res (list Z * Z) :=
  match ys with
  | [] => Ok ([], 0)
  | y :: r =>
      if isExportedConstant y then
        let! d := debugInfo A y in
        let! (b, n) := writeConstants A r in
        Ok (fputsz (ay_name y) ++ fputll 0 ++ fputll (y_value (ay_sym y)) ++ d ++ b, n + 1)
      else writeConstants A r
  end.
Definition writeExportedConstantsSection (A : astate) : res (list Z) :=
  let! (b, n) := writeConstants A (as_symbols A) in
  Ok (fputll UINT32_MAX ++ [0] ++ fputll UINT32_MAX ++ fputll UINT32_MAX ++ fputll UINT32_MAX ++
      fputll UINT32_MAX ++ [0] ++ fputll UINT32_MAX ++ fputll n ++ b ++ fputll 0 ++ fputll 0).

(** object.c:440-462 writeSectionSymbols. *)
Fixpoint writePatchSymbols (A : astate) (fx : nat -> bool) (k : nat) (ps : list apatch) (st : idstate)
    : res (list Z * idstate) :=
  match ps with
  | [] => Ok ([], st)
  | p :: r =>
      let! (b, st1) := writeSymbols A fx k (ap_expr p) st in
      let! (br, st2) := writePatchSymbols A fx k r st1 in
      Ok (b ++ br, st2)
  end.
Definition writeSectionSymbols (A : astate) (fx : nat -> bool) (k : nat) (w : wsect) (ids : nat -> Z)
    : res (list Z * (nat -> Z)) :=
  let! (b1, st1) := writeSymbolsWithFlags A fx k (as_debug A) (as_symbols A) 0 (0, ids) in
  let! (b2, st2) := writePatchSymbols A fx k (ws_patches w) st1 in
  Ok (fputll (fst st2) ++ b1 ++ b2, snd st2).

(** object.c:482-495 writeLineMappings. *)
Definition writeLineMapping (l : aline) : list Z :=
  fputll (al_file l) ++ fputll (al_line l) ++ fputll (al_offset l).
Definition writeLineMappings (A : astate) (w : wsect) : list Z :=
  if as_debug A && negb (zlen (ws_lines w) =? 0)
  then fputll (zlen (ws_lines w)) ++ concat (map writeLineMapping (ws_lines w))
  else fputll 0.

(** object.c:497-523 writeSection; assert(supportBanks) fails for a section with
    a bank. *)
Definition writeSection (A : astate) (fx : nat -> bool) (k : nat) (w : wsect) (ids : nat -> Z)
    : res (list Z * (nat -> Z)) :=
  let s := ws_sect w in
  match nth_error (as_symbols A) (ws_group w) with
  | None => UB
  | Some g =>
      if a_bankfixed s && negb (as_banks A) then Err else
      let! (symbols, ids1) := writeSectionSymbols A fx k w ids in
      let! rest :=
        if ay_groupType g =? 0
        then let! ps := writeSectionPatches ids1 w in Ok (ws_data w ++ ps)
        else Ok [] in
      Ok (fputll (ids (ws_group w)) ++ fputsz (ws_name w) ++
          fputll (if a_bankfixed s then a_bank s else UINT32_MAX) ++
          fputll (if a_loadfixed s then ws_imagePosition w else UINT32_MAX) ++
          fputll (if a_loadfixed s then a_cpuOrigin s else UINT32_MAX) ++
          fputll (if a_aligned s then ws_align w else UINT32_MAX) ++
          [if a_root s then 1 else 0] ++
          fputll (if a_paged s then ws_page w else UINT32_MAX) ++
          symbols ++ writeLineMappings A w ++ fputll (ws_usedSpace w) ++ rest, ids1)
  end.
Fixpoint writeSectionList (A : astate) (fx : nat -> bool) (k : nat) (ws : list wsect) (ids : nat -> Z)
    : res (list Z) :=
  match ws with
  | [] => Ok []
  | w :: r =>
      let! (b, ids1) := writeSection A fx k w ids in
      let! br := writeSectionList A fx (S k) r ids1 in
      Ok (b ++ br)
  end.

(** object.c:525-532 writeFileNames. *)
Definition writeFileNames (files : list (list Z * Z)) : list Z :=
  fputll (zlen files) ++ concat (map (fun f => fputsz (fst f) ++ fputll (snd f)) files).

(** object.c:536-573 obj_Write: the content of the file.  fopen succeeds.  Ids
    are 0 before writeGroups (symbol.c:238 memset). *)
Definition obj_Write (A : astate) : res (list Z) :=
  let (groups, gst) := writeGroupList (as_symbols A) 0 (0, fun _ => 0) in
  let! constants := writeExportedConstantsSection A in
  let! sections := writeSectionList A (markLocalExports A) 0 (as_sections A) (snd gst) in
  Ok ([88; 79; 66; 6] ++ [as_wordSize A] ++
      (if as_debug A then writeFileNames (as_files A) else fputll 0) ++
      fputll (fst gst) ++ groups ++ fputll (zlen (as_sections A) + 1) ++ constants ++ sections).
