(** Model of the linker's object file reader: /repo/xlink/object.c. *)
From Coq Require Import ZArith List Bool.
From Verif Require Import Base AssignModel LinkModel.
Import ListNotations.
Open Scope Z_scope.

(** What reading a file changes: g_fileId, the names and checksums in g_fileInfo
    (object.c:109-113) and sect_Sections.  g_sectionId is the number of sections.
    Simplification: SFileInfo.index is left out; it is written (lines 359-365, 476)
    but never read. *)
Record lstate : Type := LState {
  l_fileId : Z; l_files : list (list Z * Z); l_prog : program }.

(** Reading from a FILE*.  A premature end of file is UB in fgetc, fgetll and
    fgetsz, whose sources are not in /repo, and "File read failed" after fread. *)
Definition rd (A : Type) : Type := list Z -> res (A * list Z).
Definition r_byte : rd Z := fun s => match get8 s with Some r => Ok r | None => UB end.
Definition r_word : rd Z := fun s => match get32 s with Some r => Ok r | None => UB end.
Definition r_bytes (n : Z) : rd (list Z) :=
  fun s => match take (Z.to_nat n) s with Some r => Ok r | None => Err end.
Definition MAX_SYMBOL_NAME_LENGTH : Z := 256.
(** fgetsz into a buffer of MAX_SYMBOL_NAME_LENGTH; a longer name is UB (what
    fgetsz does with it is unknown). *)
Definition r_name : rd (list Z) :=
  fun s => match getsz s with
           | Some (n, r) => if MAX_SYMBOL_NAME_LENGTH <=? zlen n then UB else Ok (n, r)
           | None => UB
           end.
(** fgetstr: any length. *)
Definition r_string : rd (list Z) := fun s => match getsz s with Some r => Ok r | None => UB end.
(** for (i = 0; i < n; ++i) *)
Fixpoint r_times {A : Type} (n : nat) (f : rd A) : rd (list A) :=
  fun s => match n with
           | O => Ok ([], s)
           | S n' => let! (x, s1) := f s in let! (xs, s2) := r_times n' f s1 in Ok (x :: xs, s2)
           end.

(** object.c:115-128 readGroup. *)
Definition readGroup : rd ogroup :=
  fun s =>
    let! (name, s1) := r_name s in
    let! (t, s2) := r_word s1 in
    let flags := Z.land t (Z.lor FLAG_DATA FLAG_SHARED) in
    Ok (OGroup name (Z.ldiff t flags) flags, s2).
(** object.c:141-158 readGroups.  Allocation succeeds. *)
Definition readGroups : rd (list ogroup) :=
  fun s => let! (n, s1) := r_word s in r_times (Z.to_nat n) readGroup s1.
(** object.h:61-64 groups_GetGroup. *)
Definition groups_GetGroup (gs : list ogroup) (id : Z) : option ogroup :=
  if negb (id =? 4294967295) && (id <? zlen gs) then nth_error gs (Z.to_nat id) else None.
(** object.h:51-54 group_isText. *)
Definition group_isText (g : option ogroup) : bool :=
  match g with Some g => og_type g =? GROUP_TEXT | None => false end.

(** object.c:160-187 readSymbol; [count] is g_fileInfoCount.  The assertion is an
    error. *)
Definition readSymbol (version fileInfoIndex count : Z) : rd lsym :=
  fun s =>
    let! (name, s1) := r_name s in
    let! (type, s2) := r_word s1 in
    let! (value, s3) := if negb (type =? SYM_IMPORT) && negb (type =? SYM_LOCALIMPORT)
                        then let! (v, r) := r_word s2 in Ok (s32 v, r) else Ok (0, s2) in
    if version >=? 5 then
      let! (file, s4) := r_word s3 in
      let! (line, s5) := r_word s4 in
      if file =? 4294967295 then Ok (LSym name type value false 4294967295 line None [], s5)
      else if u32 (file + fileInfoIndex) <? count
           then Ok (LSym name type value false (u32 (file + fileInfoIndex)) line None [], s5)
           else Err
    else Ok (LSym name type value false 4294967295 0 None [], s3).
(** object.c:189-209 readSymbols. *)
Definition readSymbols (version fileInfoIndex count : Z) : rd (list lsym) :=
  fun s => let! (n, s1) := r_word s in r_times (Z.to_nat n) (readSymbol version fileInfoIndex count) s1.

(** object.c:211-225 readPatch. *)
Definition readPatch : rd lpatch :=
  fun s =>
    let! (offset, s1) := r_word s in
    let! (type, s2) := r_word s1 in
    let! (size, s3) := r_word s2 in
    let! (expr, s4) := r_bytes size s3 in
    Ok (LPatch type offset expr None, s4).
(** object.c:227-243 readPatches: the count is an int. *)
Definition readPatches : rd (list lpatch) :=
  fun s => let! (n, s1) := r_word s in r_times (Z.to_nat (s32 n)) readPatch s1.

(** object.c:245-267 readLineMapping, readLineMappings. *)
Definition readLineMapping (fileInfoIndex count : Z) : rd lline :=
  fun s =>
    let! (file, s1) := r_word s in
    let index := u32 (file + fileInfoIndex) in
    if index <? count then
      let! (line, s2) := r_word s1 in
      let! (offset, s3) := r_word s2 in
      Ok (LLine index line offset, s3)
    else Err.
Definition readLineMappings (fileInfoIndex count : Z) : rd (list lline) :=
  fun s => let! (n, s1) := r_word s in r_times (Z.to_nat n) (readLineMapping fileInfoIndex count) s1.

(** A field read in versions from [v] on, with its default. *)
Definition since {A : Type} (version v : Z) (default : A) (f : rd A) : rd A :=
  fun s => if version >=? v then f s else Ok (default, s).
Definition r_int : rd Z := fun s => let! (v, r) := r_word s in Ok (s32 v, r).
Definition r_flag : rd bool := fun s => let! (v, r) := r_byte s in Ok (negb (v =? 0), r).

(** object.c:269-312 readSection, with the fields set by sect_CreateNew
    (section.c:241-262) and readSections (object.c:318-332): id, minimumWordSize,
    fileId, and bank 0 for text sections of the group HOME.  malloc(0) is not
    null. *)
Definition readSection (gs : list ogroup) (wordSize version fileInfoIndex count fileId id : Z) : rd lsect :=
  fun s =>
    let! (gid, s1) := r_word s in
    let g := groups_GetGroup gs gid in
    let! (name, s2) := r_name s1 in
    let! (bank, s3) := r_int s2 in
    let! (byteLocation, s4) := r_int s3 in
    let! (location, s5) := since version 1 byteLocation r_int s4 in
    let! (align, s6) := since version 3 (-1) r_int s5 in
    let! (root, s7) := since version 4 false r_flag s6 in
    let! (page, s8) := since version 6 (-1) r_int s7 in
    let! (symbols, s9) := readSymbols version fileInfoIndex count s8 in
    let! (lines, s10) := since version 2 [] (readLineMappings fileInfoIndex count) s9 in
    let! (size, s11) := r_word s10 in
    let! (data, patches, s12) :=
      if group_isText g then
        let! (d, r1) := r_bytes size s11 in
        let! (qs, r2) := readPatches r1 in
        Ok (Some d, qs, r2)
      else Ok (None, [], s11) in
    let home := match g with Some g' => (og_type g' =? GROUP_TEXT) && beq (og_name g') [72; 79; 77; 69] | None => false end in
    Ok (LSect (Section_ id g byteLocation (if home then 0 else bank) location 0 0 wordSize align page size
                 false false None)
              fileId root name symbols lines data patches, s12).
(** object.c:314-334 readSections: ids from [id] on. *)
Fixpoint readSectionsFrom (n : nat) (gs : list ogroup) (wordSize version fileInfoIndex count fileId id : Z)
    : rd (list lsect) :=
  fun s => match n with
           | O => Ok ([], s)
           | S n' =>
               let! (x, s1) := readSection gs wordSize version fileInfoIndex count fileId id s in
               let! (xs, s2) := readSectionsFrom n' gs wordSize version fileInfoIndex count fileId (id + 1) s1 in
               Ok (x :: xs, s2)
           end.
Definition readSections (gs : list ogroup) (wordSize version fileInfoIndex count fileId id : Z) : rd (list lsect) :=
  fun s => let! (n, s1) := r_word s in
           readSectionsFrom (Z.to_nat n) gs wordSize version fileInfoIndex count fileId id s1.

(** object.c:346-370 readFileInfo: the files of this object. *)
Definition readFile : rd (list Z * Z) :=
  fun s => let! (name, s1) := r_string s in let! (crc, s2) := r_word s1 in Ok ((name, crc), s2).
Definition readFileInfo : rd (list (list Z * Z)) :=
  fun s => let! (n, s1) := r_word s in r_times (Z.to_nat n) readFile s1.

(** object.c:372-392 readXOB0, readXOB1, readXOBn.  fileInfoIndex is 0 before
    version 2. *)
Definition readXOB (version : Z) (st : lstate) : rd lstate :=
  fun s =>
    let! (wordSize, s1) := since version 1 1 r_byte s in
    let! (files, s2) := since version 2 [] readFileInfo s1 in
    let! (gs, s3) := readGroups s2 in
    let all := l_files st ++ files in
    let! (secs, s4) := readSections gs wordSize version (if version >=? 2 then zlen (l_files st) else 0)
                         (zlen all) (l_fileId st) (zlen (l_prog st)) s3 in
    Ok (LState (l_fileId st + 1) all (l_prog st ++ secs), s4).

(** object.c:394-464: readChunk and readXLB0 call each other; [fuel] bounds the
    nesting of libraries.  The boolean is readChunk's result.  ELF files are not
    modelled: UB. *)
Definition magicXOB (v : Z) : Z := 88 + 79 * 256 + 66 * 65536 + v * 16777216.
Definition magicXLB : Z := 88 + 76 * 256 + 66 * 65536.
Definition magicELF : Z := 127 + 69 * 256 + 76 * 65536 + 70 * 16777216.
Fixpoint readModulesX (chunk : lstate -> rd lstate) (n : nat) (st : lstate) : rd lstate :=
  fun s => match n with
           | O => Ok (st, s)
           | S n' =>
               let! (_, s1) := r_string s in
               let! (_, s2) := r_word s1 in
               let! (st1, s3) := chunk st s2 in
               readModulesX chunk n' st1 s3
           end.
Fixpoint readChunk (fuel : nat) (st : lstate) : rd lstate :=
  fun s =>
    let! (id, s1) := r_word s in
    if (magicXOB 0 <=? id) && (id <=? magicXOB 6) && (id mod 16777216 =? magicXOB 0)
    then readXOB (id / 16777216) st s1
    else if id =? magicXLB then
      match fuel with
      | O => UB
      | S f => let! (n, s2) := r_word s1 in readModulesX (readChunk f) (Z.to_nat n) st s2
      end
    else if id =? magicELF then UB
    else Err.

(** object.c:482-496 obj_Read: chunks until the end of the file.  [fuel] bounds
    the number of chunks and the nesting. *)
Fixpoint readChunks (fuel depth : nat) (st : lstate) (s : list Z) : res lstate :=
  match s with
  | [] => Ok st
  | _ =>
      match fuel with
      | O => UB
      | S f => let! (st1, s1) := readChunk depth st s in readChunks f depth st1 s1
      end
  end.
Definition obj_Read (depth : nat) (st : lstate) (file : option (list Z)) : res lstate :=
  match file with
  | None => Err
  | Some s => readChunks (length s) depth st s
  end.
