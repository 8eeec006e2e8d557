(** Model of the linker's Amiga output: /repo/xlink/amiga.c.  The files are written
    from start to end, so the model gives the list of bytes written.  main.c:440 and
    443 pass debugInfo = false, and that is the only case modelled. *)
From Coq Require Import ZArith List Bool.
From Verif Require Import Base AssignModel LinkModel ImageModel FormatModel.
Import ListNotations.
Open Scope Z_scope.

(** amiga.c:28-39 *)
Definition HUNK_UNIT : Z := 999.
Definition HUNK_NAME : Z := 1000.
Definition HUNK_CODE : Z := 1001.
Definition HUNK_DATA : Z := 1002.
Definition HUNK_BSS : Z := 1003.
Definition HUNK_RELOC32 : Z := 1004.
Definition HUNK_END : Z := 1010.
Definition HUNK_HEADER : Z := 1011.
Definition HUNKF_CHIP : Z := 2 ^ 30.

(** fputbl(v, f) *)
Definition long (v : Z) : list Z := be32 (u32 v).
(** amiga.c:44-52 writeBuffer: the loop adds a zero until the size is a multiple of
    4. *)
Definition padding (size : Z) : list Z := repeat 0 (Z.to_nat ((- size) mod 4)).
Definition writeBuffer (buffer : list Z) : list Z := buffer ++ padding (zlen buffer).
(** amiga.c:54-57 longSize. *)
Definition longSize (size : Z) : Z := u32 (size + 3) / 4.
(** amiga.c:59-65 writeString, with extFlags = 0. *)
Definition writeString (s : list Z) : list Z := long (longSize (zlen s)) ++ writeBuffer s.

(** group->flags & flag *)
Definition hasFlag (g : ogroup) (flag : Z) : bool := negb (Z.land (og_flags g) flag =? 0).
(** amiga.c:67-74 sectionSize. *)
Definition sectionSize (s : lsect) (g : ogroup) : Z :=
  let size := longSize (s_size (sc_place s)) in
  if hasFlag g FLAG_SHARED then Z.lor size HUNKF_CHIP else size.
(** amiga.c:80, 91, 259, 270: the sections that become hunks. *)
Definition inHunk (s : lsect) : bool := sc_used s && negb (sc_isEqu s).
(** amiga.c:88-94 writeSectionSizes.  A section in a hunk has a group. *)
Fixpoint writeSectionSizes (p : program) : list Z :=
  match p with
  | [] => []
  | s :: r =>
      match s_group (sc_place s) with
      | Some g => if inHunk s then long (sectionSize s g) ++ writeSectionSizes r else writeSectionSizes r
      | None => writeSectionSizes r
      end
  end.
(** amiga.c:112-121 writeHunkHeader. *)
Definition writeHunkHeader (p : program) (totalSections : Z) : list Z :=
  long HUNK_HEADER ++ long 0 ++ long totalSections ++ long 0 ++ long (totalSections - 1) ++ writeSectionSizes p.
(** amiga.c:128-148 hunkType. *)
Definition hunkType (g : ogroup) : Z :=
  if og_type g =? GROUP_TEXT then if hasFlag g FLAG_DATA then HUNK_DATA else HUNK_CODE else HUNK_BSS.

(** amiga.c:265-277 updateSectionIds: the id given to the section [k], [n] being the
    next id, and the total. *)
Fixpoint sectionId (k n : Z) (p : program) : option Z :=
  match p with
  | [] => None
  | s :: r =>
      if sc_id s =? k then Some (if inHunk s then n else UINT32_MAX)
      else sectionId k (if inHunk s then n + 1 else n) r
  end.
Definition totalSections (p : program) : Z := zlen (filter inHunk p).

(** amiga.c:184, the condition: a relocated patch and the section of its value. *)
Definition relocated (q : lpatch) : option Z := if pt_type q =? PATCH_RELOC then pt_section q else None.
(** amiga.c:177-203 getPatchSectionOffsets: the offsets for each section.  An index
    outside the array is out of bounds, as it is for a section that is in no hunk. *)
Fixpoint patchOffsets (p : program) (offsets : list (list Z)) (qs : list lpatch) : res (list (list Z)) :=
  match qs with
  | [] => Ok offsets
  | q :: r =>
      match relocated q with
      | None => patchOffsets p offsets r
      | Some k =>
          match sectionId k 0 p with
          | None => UB
          | Some id =>
              if id <? zlen offsets then
                patchOffsets p (set_nth offsets (Z.to_nat id) (nth (Z.to_nat id) offsets [] ++ [pt_offset q])) r
              else UB
          end
      end
  end.
Definition hasReloc (qs : list lpatch) : bool :=
  existsb (fun q => match relocated q with Some _ => true | None => false end) qs.
(** amiga.c:211-222: the loop over the sections from [id] on. *)
Fixpoint writeOffsets (id : Z) (offsets : list (list Z)) : list Z :=
  match offsets with
  | [] => []
  | l :: r => (if zlen l >? 0 then long (zlen l) ++ long id ++ concat (map long l) else []) ++ writeOffsets (id + 1) r
  end.
(** amiga.c:205-226 writeReloc32. *)
Definition writeReloc32 (p : program) (qs : list lpatch) : res (list Z) :=
  let! offsets := patchOffsets p (repeat [] (Z.to_nat (totalSections p))) qs in
  Ok (if hasReloc qs then long HUNK_RELOC32 ++ writeOffsets 0 offsets ++ long 0 else []).

(** amiga.c:231-253 writeSection.  Missing data is UB. *)
Definition writeSection (p : program) (linkObject : bool) (s : lsect) : res (list Z) :=
  match s_group (sc_place s) with
  | None => UB
  | Some g =>
      let size := s_size (sc_place s) in
      let! body :=
        if og_type g =? GROUP_TEXT then
          match sc_data s with
          | None => UB
          | Some d =>
              if zlen d <? size then UB
              else let! relocs := writeReloc32 p (sc_patches s) in
                   Ok (writeBuffer (firstn (Z.to_nat size) d) ++ relocs)
          end
        else Ok [] in
      Ok ((if linkObject then long HUNK_NAME ++ writeString (sc_name s) else []) ++
          long (hunkType g) ++ long (longSize size) ++ body ++ long HUNK_END)
  end.
(** amiga.c:255-261 writeSections. *)
Fixpoint writeSections (p : program) (linkObject : bool) (ss : list lsect) : res (list Z) :=
  match ss with
  | [] => Ok []
  | s :: r =>
      if inHunk s then
        let! a := writeSection p linkObject s in
        let! b := writeSections p linkObject r in
        Ok (a ++ b)
      else writeSections p linkObject r
  end.

(** amiga.c:279-292 writeExecutable: the check of the entry symbol.  A null section of
    the symbol is not the first section. *)
Definition checkEntry (p : program) (entry : option (list Z)) : res unit :=
  match entry with
  | None => Ok tt
  | Some name =>
      match sect_FindExportedSymbol p name with
      | None => Err
      | Some y =>
          match ls_section y, p with
          | Some k, s :: _ => if (k =? sc_id s) && (ls_value y =? 0) then Ok tt else Err
          | _, _ => Err
          end
      end
  end.
(** amiga.c:279-292 writeExecutable. *)
Definition amiga_WriteExecutable (p : program) (entry : option (list Z)) : res (list Z) :=
  let! _ := checkEntry p entry in
  let! body := writeSections p false p in
  Ok (writeHunkHeader p (totalSections p) ++ body).
(** amiga.c:294-300 writeLinkObject; the unit has no name. *)
Definition amiga_WriteLinkObject (p : program) : res (list Z) :=
  let! body := writeSections p true p in
  Ok (long HUNK_UNIT ++ writeString [] ++ body).
