(** Model of the executable writers: /repo/xlink/commodore.c, coco.c, foenix.c
    and hc800.c:51-162. *)
From Coq Require Import ZArith List Bool.
From Verif Require Import Base AssignModel LinkModel FileModel ImageModel.
Import ListNotations.
Open Scope Z_scope.

(** section.c:285-295 sect_FindExportedSymbol. *)
Fixpoint sect_FindExportedSymbol (p : program) (name : list Z) : option lsym :=
  match p with
  | [] => None
  | s :: r =>
      match sectionHasSymbol s name SYM_EXPORT with
      | Some y => Some y
      | None =>
          match sectionHasSymbol s name SYM_LINKER with
          | Some y => Some y
          | None => sect_FindExportedSymbol r name
          end
      end
  end.
Definition isText (s : lsect) : bool :=
  match s_group (sc_place s) with Some g => og_type g =? GROUP_TEXT | None => false end.
(** section.c:328-337 sect_StartAddressOfFirstCodeSection. *)
Fixpoint sect_StartAddressOfFirstCodeSection (p : program) : res Z :=
  match p with
  | [] => Err
  | s :: r => if sc_used s && isText s then Ok (sc_cpuLocation s) else sect_StartAddressOfFirstCodeSection r
  end.
(** section.c:339-352 sect_EndAddressOfLastCodeSection. *)
Definition sect_EndAddressOfLastCodeSection (p : program) : res Z :=
  let address := fold_left (fun a s => if sc_used s && isText s then sc_cpuLocation s + s_size (sc_place s) - 1 else a) p 0 in
  if address =? 0 then Err else Ok address.
(** commodore.c:92-101 findStartAddress; the same lines are in coco.c:76-84 and
    foenix.c:136-144. *)
Definition findStartAddress (p : program) (entry : option (list Z)) : res Z :=
  match entry with
  | Some name =>
      match sect_FindExportedSymbol p name with Some y => Ok (ls_value y) | None => Err end
  | None => sect_StartAddressOfFirstCodeSection p
  end.

(** ** Commodore *)
(** printf("%d") of a non-negative number; [fuel] bounds the number of digits. *)
Fixpoint digits (fuel : nat) (n : Z) : list Z :=
  match fuel with
  | O => []
  | S k => if n <? 10 then [48 + n] else digits k (n / 10) ++ [48 + n mod 10]
  end.
Definition decimal (n : Z) : list Z := if n <? 0 then 45 :: digits 10 (- n) else digits 10 n.
(** snprintf(buffer + offset, 6, "%d", n): at most five characters and a 0. *)
Definition snprintf6 (buffer : list Z) (offset n : Z) : list Z :=
  overwrite buffer offset (firstn 5 (decimal n) ++ [0]).
(** commodore.c:33-38. *)
Definition basicSys : list Z := [12; 8; 10; 0; 158; 49; 50; 51; 52; 0; 0; 0; 0].
(** commodore.c:41-47. *)
Definition mega65BasicSys : list Z := [16; 32; 10; 0; 254; 2; 48; 58; 158; 49; 50; 51; 52; 0; 0; 0; 0].
(** commodore.c:103-112 writeHeader. *)
Definition writeHeader (f : file) (p : program) (entry : option (list Z)) (headerAddress : Z) : res file :=
  let f1 := fputc f (Z.land headerAddress 255) in
  let f2 := fputc f1 (Z.land (Z.shiftr headerAddress 8) 255) in
  let! start := findStartAddress p entry in
  Ok (fwrite f2 (snprintf6 (overwrite basicSys 1 [Z.land (Z.shiftr headerAddress 8) 255]) 5 start)).
(** commodore.c:114-123 commodore_WritePrg. *)
Definition commodore_WritePrg (log2n : Z -> Z) (p : program) (entry : option (list Z)) (headerAddress : Z) : res files :=
  let! f := writeHeader emptyFile p entry headerAddress in
  image_WriteBinaryToFile log2n f p (-1).
(** commodore.c:125-133 writeMega65Header. *)
Definition writeMega65Header (f : file) (p : program) (entry : option (list Z)) : res file :=
  let f2 := fputc (fputc f 1) 32 in
  let! start := findStartAddress p entry in
  Ok (fwrite f2 (snprintf6 mega65BasicSys 9 start)).
(** commodore.c:135-144 commodore_WriteMega65Prg. *)
Definition commodore_WriteMega65Prg (log2n : Z -> Z) (p : program) (entry : option (list Z)) : res files :=
  let! f := writeMega65Header emptyFile p entry in
  image_WriteBinaryToFile log2n f p (-1).

(** ** CoCo *)
(** coco.c:43-52 writeSection; the parameters are uint16_t.  Data shorter than the
    size is UB. *)
Definition cocoSection (f : file) (cpuByteLocation size : Z) (data : list Z) : res file :=
  let f1 := fputbw (fputbw (fputc f 0) (u16 size)) (u16 cpuByteLocation) in
  if u16 size =? 0 then Ok f1
  else if zlen data <? u16 size then UB
  else Ok (fwrite f1 (firstn (Z.to_nat (u16 size)) data)).
(** coco.c:61-68 writeSections. *)
Fixpoint cocoSections (f : file) (p : program) : res file :=
  match p with
  | [] => Ok f
  | s :: r =>
      match sc_data s with
      | Some d =>
          if sc_used s then
            let! f1 := cocoSection f (s_cpuByteLocation (sc_place s)) (s_size (sc_place s)) d in cocoSections f1 r
          else cocoSections f r
      | None => cocoSections f r
      end
  end.
(** coco.c:70-101 coco_WriteQuickloadBin. *)
Definition coco_WriteQuickloadBin (p : program) (entry : option (list Z)) : res file :=
  let! start := findStartAddress p entry in
  if start >=? 32768 then Err
  else
    let! f := cocoSections emptyFile p in
    Ok (fputbw (fputbw (fputc f 255) 0) start).

(** ** PGZ *)
(** foenix.c:39-41 and the file. *)
Record pgz : Type := Pgz { g_file : file; g_sizeLocation : Z; g_sectionSize : Z; g_next : Z }.
(** foenix.c:43-68 writePGZSection. *)
Definition writePGZSection (g : pgz) (cpuByteLocation size : Z) (data : list Z) : res pgz :=
  let g1 :=
    if negb (cpuByteLocation =? g_next g) then
      let f := if negb (g_sizeLocation g =? -1)
               then fseek_end (fputl_l (fseek (g_file g) (g_sizeLocation g)) (g_sectionSize g)) else g_file g in
      let f1 := fputl_l f cpuByteLocation in
      Pgz (fputl_l f1 0) (ftell f1) 0 (g_next g)
    else g in
  if negb (size =? 0) && (zlen data <? size) then UB
  else
    let f2 := if negb (size =? 0) then fwrite (g_file g1) (firstn (Z.to_nat size) data) else g_file g1 in
    Ok (Pgz f2 (g_sizeLocation g1) (s32 (g_sectionSize g1 + size)) (s32 (cpuByteLocation + size))).
(** foenix.c:70-81 writePGZSections. *)
Fixpoint pgzSections (g : pgz) (p : program) : res pgz :=
  match p with
  | [] => Ok g
  | s :: r =>
      match sc_data s with
      | Some d =>
          if sc_used s then
            let! g1 := writePGZSection g (s_cpuByteLocation (sc_place s)) (s_size (sc_place s)) d in pgzSections g1 r
          else pgzSections g r
      | None => pgzSections g r
      end
  end.
(** foenix.c:123-149 foenix_WriteExecutablePGZ. *)
Definition foenix_WriteExecutablePGZ (p : program) (entry : option (list Z)) : res file :=
  let! g := pgzSections (Pgz (fputc emptyFile 122) (-1) (-1) (-1)) p in
  let! start := findStartAddress p entry in
  let! g1 := writePGZSection g start 0 [] in
  Ok (g_file g1).

(** ** KUP *)
Definition F256_SLOT_SIZE : Z := 8192.
Definition F256_HEADER_SIZE : Z := 10.
(** foenix.c:83-87 writeRepeatedBytes. *)
Definition kupFill (f : file) (offset n : Z) : file := ffill (fseek f offset) 255 n.
(** foenix.c:94-118: the loop; the state is the file and currentFileSize. *)
Fixpoint kupSections (f : file) (imageStart size : Z) (p : program) : res (file * Z) :=
  match p with
  | [] => Ok (f, size)
  | s :: r =>
      let q := sc_place s in
      if isEqu q then kupSections f imageStart size r
      else if s_used q && s_assigned q && negb (s_imageLocation q =? -1) && negb (isBss q) then
        if s_imageLocation q <? imageStart + F256_HEADER_SIZE then Err
        else
          let startOffset := u32 (s_imageLocation q - imageStart) in
          let endOffset := u32 (startOffset + s_size q) in
          let f1 := if startOffset >? size then kupFill f size (startOffset - size) else f in
          match sc_data s with
          | None => UB
          | Some d =>
              if zlen d <? s_size q then UB
              else kupSections (fwrite (fseek f1 startOffset) (firstn (Z.to_nat (s_size q)) d)) imageStart
                     (if endOffset >? size then endOffset else size) r
          end
      else kupSections f imageStart size r
  end.
(** foenix.c:89-124 writeKUPSections. *)
Definition writeKUPSections (f : file) (p : program) (firstSlot : Z) (pad : bool) : res file :=
  let! (f1, size) := kupSections f (firstSlot * F256_SLOT_SIZE) (ftell f) p in
  Ok (if pad then kupFill f1 size (F256_SLOT_SIZE - size mod F256_SLOT_SIZE) else f1).
(** foenix.c:151-194 foenix_WriteExecutableKUP.  Addresses are taken to be
    non-negative (C's division rounds towards zero). *)
Definition foenix_WriteExecutableKUP (p : program) (entry : option (list Z)) (pad : bool) : res file :=
  match entry with
  | None => Err
  | Some name =>
      match sect_FindExportedSymbol p name with
      | None => Err
      | Some y =>
          let startAddress := ls_value y in
          let! a := sect_StartAddressOfFirstCodeSection p in
          let! z := sect_EndAddressOfLastCodeSection p in
          let firstSlot := Z.quot a F256_SLOT_SIZE in
          let lastSlot := Z.quot z F256_SLOT_SIZE in
          let totalSlots := lastSlot - firstSlot + 1 in
          if startAddress <? F256_HEADER_SIZE + 2 then Err
          else if firstSlot =? 0 then Err
          else if totalSlots >? 4 then Err
          else
            let f1 := fputlw emptyFile 22258 in
            let f2 := fputc f1 totalSlots in
            let f3 := fputc f2 firstSlot in
            let f4 := fputlw f3 startAddress in
            let f5 := ffill f4 0 4 in
            writeKUPSections f5 p firstSlot pad
      end
  end.

(** ** HC800 executables *)
(** hc800.c:51-59 writeHunkStart. *)
Definition writeHunkStart (f : file) (type : Z) : file * Z :=
  let f1 := fputlw (fputc f type) 0 in (f1, ftell f1).
(** hc800.c:61-68 writeHunkEnd. *)
Definition writeHunkEnd (f : file) (dataPos : Z) : file :=
  let length := ftell f - dataPos in
  fseek_end (fputlw (fseek f (dataPos - 2)) (u16 length)).
(** hc800.c:81-107: the loop of writeBank, with the number of bytes written; gives
    the sections that remain.  A failed assertion, an EQU section and missing data
    are UB. *)
Fixpoint bankLoop (f : file) (bank dataPos written : Z) (p : program) : res (file * program) :=
  match p with
  | [] => Ok (f, [])
  | s :: r =>
      let q := sc_place s in
      if s_cpuBank q <? bank then UB
      else if s_cpuBank q =? bank then
        match s_group q with
        | None => UB
        | Some g =>
            if og_type g =? GROUP_BSS then bankLoop f bank dataPos written r
            else
              let loc := s_imageLocation q in
              let f1 := if written <? loc
                        then fwrite (fseek_end f) (repeat 0 (Z.to_nat (loc - written))) else fseek_end f in
              let written1 := if written <? loc then loc else written in
              match sc_data s with
              | None => UB
              | Some d =>
                  if zlen d <? s_size q then UB
                  else
                    let f2 := fwrite (fseek f1 (dataPos + loc)) (firstn (Z.to_nat (s_size q)) d) in
                    let sectionEnd := loc + s_size q in
                    bankLoop f2 bank dataPos (if sectionEnd >? written1 then sectionEnd else written1) r
              end
        end
      else Ok (f, p)
  end.
(** hc800.c:70-113 writeBank. *)
Definition writeBank (f : file) (p : program) (cpuBank : Z) : res (file * program) :=
  let (f1, hunk) := writeHunkStart f 2 in
  let bank := u8 cpuBank in
  let f2 := fputc f1 bank in
  let! (f3, r) := bankLoop f2 bank (ftell f2) 0 p in
  Ok (writeHunkEnd (fseek_end f3) hunk, r).
(** hc800.c:117-123: the inner loop; [fuel] bounds its iterations, each of which
    drops a section. *)
Fixpoint bankHunks (fuel : nat) (f : file) (bankNumber : Z) (p : program) : res file :=
  match fuel, p with
  | O, _ => Ok f
  | _, [] => Ok f
  | S k, s :: r =>
      if (s_cpuBank (sc_place s) =? bankNumber) && (match sc_data s with Some _ => true | None => false end) then
        let! (f1, rest) := writeBank f p (s_cpuBank (sc_place s)) in bankHunks k f1 bankNumber rest
      else bankHunks k f bankNumber r
  end.
(** hc800.c:115-126 writeDataHunks. *)
Fixpoint dataHunks (f : file) (p : program) (banks : list Z) : res file :=
  match banks with
  | [] => Ok f
  | b :: r => let! f1 := bankHunks (length p) f b p in dataHunks f1 p r
  end.
(** hc800.c:148-162 hc800_WriteExecutable, with 128-146 writeMmuHunk, writeEndHunk,
    writeHeader. *)
Definition hc800_WriteExecutable (p : program) (configuration : list Z) : res file :=
  let f0 := fwrite emptyFile [85; 67] in
  let (f1, pos) := writeHunkStart f0 0 in
  let f2 := writeHunkEnd (fwrite f1 configuration) pos in
  let! f3 := dataHunks f2 p (zseq 129 127) in
  let (f4, pos4) := writeHunkStart f3 1 in
  Ok (writeHunkEnd f4 pos4).
