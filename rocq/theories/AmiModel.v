(** Model of the assembler's Amiga output: /repo/xasm/motor/amigaobject.c. *)
From Coq Require Import ZArith List Bool.
From Verif Require Import Base Arith ExprModel ObjWriteModel FileModel AssignModel LinkModel HunkModel ElfModel.
Import ListNotations.
Open Scope Z_scope.

(** amigaobject.c:42-55.  HUNK_UNIT, HUNK_NAME, HUNK_CODE, HUNK_DATA, HUNK_BSS,
    HUNK_RELOC32, HUNK_END, HUNK_HEADER and HUNKF_CHIP are those of HunkModel, which has
    them from xlink/amiga.c; the values are the same. *)
Definition HUNK_EXT : Z := 1007.
Definition HUNK_SYMBOL : Z := 1008.
Definition EXT_DEF : Z := 16777216.
Definition EXT_REF32 : Z := 2164260864.

(** amigaobject.c:56-64 fputbuf.  [padding] is the bytes the loop writes. *)
Definition fputbuf (f : file) (bs : list Z) : file := fwrite (fwrite f bs) (padding (zlen bs)).
(** amigaobject.c:66-71 fputstr. *)
Definition fputstr (f : file) (s : list Z) (flags : Z) : file :=
  fputbuf (fputbl f (Z.lor (longSize (u32 (zlen s))) flags)) s.

Section Writer.
(** xasm_Configuration->supportAmiga. *)
Variable amiga : bool.
Variable A : astate.

(** What expressions refer to. *)
Definition worldOf : world := World (symbolOf A) (map ws_sect (as_sections A)).

(** amigaobject.c:80-88, 147-156: the loops over the symbols, and how many are written. *)
Fixpoint putSymbols (wanted : asym -> bool) (flags : Z) (ys : list asym) (f : file) : Z * file :=
  match ys with
  | [] => (0, f)
  | y :: r =>
      if wanted y then
        let (n, f') := putSymbols wanted flags r (fputbl (fputstr f (ay_name y) flags) (y_value (ay_sym y))) in (n + 1, f')
      else putSymbols wanted flags r f
  end.
(** amigaobject.c:73-94 writeSymbolHunk, for section [k]. *)
Definition isLabelIn (k : nat) (y : asym) : bool := y_reloc (ay_sym y) && in_section y k.
Definition writeSymbolHunk (f : file) (k : nat) : file :=
  let f1 := fputbl f HUNK_SYMBOL in
  let (symbolCount, f2) := putSymbols (isLabelIn k) 0 (as_symbols A) f1 in
  if symbolCount =? 0 then fseek f2 (ftell f) else fputbl f2 0.

(** amigaobject.c:113-138: the loop over the patches for symbol [s]; the patches that
    remain, how many do not, and the file. *)
Fixpoint putReferences (hunkPosition : Z) (s : nat) (ps : list apatch) (f : file) : list apatch * Z * file :=
  match ps with
  | [] => ([], 0, f)
  | p :: r =>
      match (match expr_GetImportOffset A (ap_expr p) with
             | Some (offset, s') => if Nat.eqb s' s then Some offset else None
             | None => None
             end) with
      | Some offset =>
          let f1 := fputbl (fseek f (ap_offset p + hunkPosition)) offset in
          let f2 := fputbl (fseek f1 (ftell f)) (ap_offset p) in
          let '(rest, n, f') := putReferences hunkPosition s r f2 in (rest, n + 1, f')
      | None => let '(rest, n, f') := putReferences hunkPosition s r f in (p :: rest, n, f')
      end
  end.
(** amigaobject.c:103-145: the loop over the import patches.  Every round removes a patch,
    so there are no more rounds than patches; a loop that would not end is UB. *)
Fixpoint putImports (fuel : nat) (hunkPosition : Z) (ps : list apatch) (dataWritten : bool) (f : file) : res (bool * file) :=
  match ps with
  | [] => Ok (dataWritten, f)
  | p :: _ =>
      match fuel, expr_GetImportOffset A (ap_expr p) with
      | S fuel', Some (_, s) =>
          match nth_error (as_symbols A) s with
          | None => UB
          | Some y =>
              let f1 := fputstr f (ay_name y) EXT_REF32 in
              let patchCountPosition := ftell f1 in
              let f2 := fputbl f1 0 in
              let '(rest, patchCount, f3) := putReferences hunkPosition s ps f2 in
              let f4 := fseek (fputbl (fseek f3 patchCountPosition) patchCount) (ftell f3) in
              putImports fuel' hunkPosition rest (dataWritten || (0 <? patchCount)) f4
          end
      | _, _ => UB
      end
  end.
(** amigaobject.c:96-162 writeExtHunk. *)
Definition isExportIn (k : nat) (y : asym) : bool := (y_reloc (ay_sym y) && ay_export y) && in_section y k.
Definition writeExtHunk (f : file) (k : nat) (importPatches : list apatch) (hunkPosition : Z) : res file :=
  let f1 := fputbl f HUNK_EXT in
  let! (dataWritten, f2) := putImports (length importPatches) hunkPosition importPatches false f1 in
  let (n, f3) := putSymbols (isExportIn k) EXT_DEF (as_symbols A) f2 in
  Ok (if dataWritten || (0 <? n) then fputbl f3 0 else fseek f3 (ftell f)).

(** amigaobject.c:180-189: the relocations against section [k], which is [a].  An offset
    that is not found is an indeterminate value. *)
Fixpoint putRelocations (hunkPosition : Z) (k : nat) (a : asect) (ps : list apatch) (f : file) : res file :=
  match ps with
  | [] => Ok f
  | p :: r =>
      match expr_GetSectionOffset worldOf (ap_expr p) k a with
      | None => UB
      | Some value =>
          let f1 := fputbl (fseek f (ap_offset p + hunkPosition)) value in
          putRelocations hunkPosition k a r (fputbl (fseek f1 (ftell f)) (ap_offset p))
      end
  end.
(** amigaobject.c:164-195 writeReloc32, from section [k] on. *)
Fixpoint putRelocationBlocks (hunkPosition : Z) (k : nat) (ss : list asect) (patchesPerSection : list (list apatch)) (f : file) {struct patchesPerSection} : res file :=
  match patchesPerSection, ss with
  | [], _ => Ok f
  | ps :: r, a :: rs =>
      let! f1 :=
        if zlen ps >? 0 then putRelocations hunkPosition k a ps (fputbl (fputbl f (zlen ps)) (Z.of_nat k)) else Ok f in
      putRelocationBlocks hunkPosition (S k) rs r f1
  | _ :: _, [] => UB
  end.
Definition writeReloc32 (f : file) (patchesPerSection : list (list apatch)) (hunkPosition : Z) : res file :=
  let! f1 := putRelocationBlocks hunkPosition 0 (w_sections worldOf) patchesPerSection (fputbl f HUNK_RELOC32) in
  Ok (fputbl f1 0).

(** amigaobject.c:207-265: patchesPerSection, importPatches and what remains in
    section->patches.  The lists are built from their ends. *)
Fixpoint sortPatches (isLinkObject : bool) (ps : list apatch) (patchesPerSection : list (list apatch)) (importPatches : list apatch)
    : list (list apatch) * list apatch * list apatch :=
  match ps with
  | [] => (patchesPerSection, importPatches, [])
  | p :: r =>
      let keep := let '(s, i, rest) := sortPatches isLinkObject r patchesPerSection importPatches in (s, i, p :: rest) in
      if ap_type p =? PATCH_BE_32 then
        match expr_GetSectionAndOffset worldOf (ap_expr p) with
        | Some (k, _) => sortPatches isLinkObject r (set_nth patchesPerSection k (p :: nth k patchesPerSection [])) importPatches
        | None =>
            if isLinkObject then
              match expr_GetImportOffset A (ap_expr p) with
              | Some _ => sortPatches isLinkObject r patchesPerSection (p :: importPatches)
              | None => keep
              end
            else keep
        end
      else keep
  end.
(** amigaobject.c:197-302 writeSection, for section number [k].  Err: an error is reported
    and false returned.  Simplification: the patches of a section without data, which are
    not looked at, stay where they are. *)
Definition writeSection (f : file) (k : nat) (w : wsect) (enableDebugInfo isLinkObject : bool) : res file :=
  match nth_error (as_symbols A) (ws_group w) with
  | None => UB
  | Some g =>
      let! f3 :=
        if ay_groupType g =? GROUP_TEXT then
          let hunkType := if amiga && ay_data g then HUNK_DATA else HUNK_CODE in
          let f1 := fputbl (fputbl f hunkType) (longSize (ws_usedSpace w)) in
          let hunkPosition := ftell f1 in
          let f2 := fputbuf f1 (ws_data w) in
          let '(patchesPerSection, importPatches, rest) :=
            sortPatches isLinkObject (ws_patches w) (repeat [] (length (as_sections A))) [] in
          match rest with
          | _ :: _ => Err
          | [] =>
              let! f3 := if existsb (fun ps => zlen ps >? 0) patchesPerSection then writeReloc32 f2 patchesPerSection hunkPosition else Ok f2 in
              if isLinkObject then writeExtHunk f3 k importPatches hunkPosition else Ok f3
          end
        else
          let f1 := fputbl (fputbl f HUNK_BSS) (longSize (ws_usedSpace w)) in
          if isLinkObject then writeExtHunk f1 k [] 0 else Ok f1 in
      let f4 := if enableDebugInfo then writeSymbolHunk f3 k else f3 in
      Ok (fputbl f4 HUNK_END)
  end.

(** amigaobject.c:304-314 writeSectionNames. *)
Definition writeSectionNames (f : file) : file :=
  fputbl (if as_debug A then fold_left (fun f w => fputstr f (ws_name w) 0) (as_sections A) f else f) 0.

(** amigaobject.c:316-340 ami_WriteObject, from section [k] on.  Opening the file succeeds. *)
Fixpoint objectSections (k : nat) (ws : list wsect) (f : file) : res file :=
  match ws with
  | [] => Ok f
  | w :: r => let! f1 := writeSection (fputstr (fputbl f HUNK_NAME) (ws_name w) 0) k w true true in objectSections (S k) r f1
  end.
Definition ami_WriteObject (sourceFilename : list Z) : res (list Z) :=
  let! f := objectSections 0 (as_sections A) (fputstr (fputbl emptyFile HUNK_UNIT) sourceFilename 0) in
  Ok (f_data f).

(** amigaobject.c:358-363: the size of a section. *)
Definition sizeEntry (w : wsect) : res Z :=
  let size := longSize (ws_usedSpace w) in
  if amiga then
    match nth_error (as_symbols A) (ws_group w) with
    | None => UB
    | Some g => Ok (if ay_shared g then Z.lor size HUNKF_CHIP else size)
    end
  else Ok size.
Fixpoint sizeEntries (ws : list wsect) (f : file) : res file :=
  match ws with
  | [] => Ok f
  | w :: r => let! z := sizeEntry w in sizeEntries r (fputbl f z)
  end.
Fixpoint executableSections (k : nat) (ws : list wsect) (f : file) : res file :=
  match ws with
  | [] => Ok f
  | w :: r => let! f1 := writeSection f k w (as_debug A) false in executableSections (S k) r f1
  end.
(** amigaobject.c:342-374 ami_WriteExecutable. *)
Definition ami_WriteExecutable : res (list Z) :=
  let f1 := writeSectionNames (fputbl emptyFile HUNK_HEADER) in
  let totalSections := zlen (as_sections A) in
  let f2 := fputbl (fputbl (fputbl f1 totalSections) 0) (totalSections - 1) in
  let! f3 := sizeEntries (as_sections A) f2 in
  let! f4 := executableSections 0 (as_sections A) f3 in
  Ok (f_data f4).
End Writer.
