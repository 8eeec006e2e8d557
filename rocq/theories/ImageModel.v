(** Model of the binary image writer, /repo/xlink/image.c. *)
From Coq Require Import ZArith List Bool.
From Verif Require Import Base AssignModel LinkModel FileModel.
Import ListNotations.
Open Scope Z_scope.

Definition UINT32_MAX : Z := 4294967295.
Definition WRITE_BLOCK_SIZE : Z := 16384.

(** image.c:45-54 writeRepeatedBytes; [byte] is the content of the buffer and
    [fuel] bounds the number of blocks. *)
Fixpoint writeBlocks (fuel : nat) (f : file) (byte bytes : Z) : file :=
  match fuel with
  | O => f
  | S k =>
      if bytes >? 0 then
        let towrite := if bytes >? WRITE_BLOCK_SIZE then WRITE_BLOCK_SIZE else bytes in
        writeBlocks k (fwrite f (repeat byte (Z.to_nat towrite))) byte (bytes - towrite)
      else f
  end.
Definition writeRepeatedBytes (f : file) (byte offset bytes : Z) : file :=
  writeBlocks (Z.to_nat (bytes / WRITE_BLOCK_SIZE + 1)) (fseek f offset) byte bytes.

(** The map from overlay numbers to files; UINT32_MAX is the main file. *)
Definition files : Type := list (Z * file).
Fixpoint findFile (fs : files) (overlay : Z) : option file :=
  match fs with
  | [] => None
  | (k, f) :: r => if k =? overlay then Some f else findFile r overlay
  end.
Fixpoint putFile (fs : files) (overlay : Z) (f : file) : files :=
  match fs with
  | [] => [(overlay, f)]
  | (k, g) :: r => if k =? overlay then (k, f) :: r else (k, g) :: putFile r overlay f
  end.
(** image.c:67-81 getFileHandle: a file not open yet is created. *)
Definition getFileHandle (fs : files) (overlay : Z) : file :=
  match findFile fs overlay with Some f => f | None => emptyFile end.

Definition isBss (s : section) : bool :=
  match s_group s with Some g => og_type g =? GROUP_BSS | None => false end.

(** image.c:91-119: the body of the loop.  Reading beyond the section's data is
    UB. *)
Definition writeImageSection (headerSize : Z) (fs : files) (s : lsect) : res files :=
  let p := sc_place s in
  if isEqu p then Ok fs
  else if s_used p && s_assigned p && negb (s_imageLocation p =? -1) && negb (isBss p) then
    let start0 := u32 (s_imageLocation p) in
    let startOffset := if s_overlay p =? UINT32_MAX then u32 (start0 + headerSize) else start0 in
    let f := getFileHandle fs (s_overlay p) in
    let currentFileSize := u32 (fsize f) in
    let f1 := if startOffset >? currentFileSize
              then writeRepeatedBytes (fseek f currentFileSize) 255 currentFileSize (s32 (startOffset - currentFileSize))
              else f in
    match sc_data s with
    | None => UB
    | Some d =>
        if zlen d <? s_size p then UB
        else Ok (putFile fs (s_overlay p) (fwrite (fseek f1 startOffset) (firstn (Z.to_nat (s_size p)) d)))
    end
  else Ok fs.
Fixpoint writeImageSections (headerSize : Z) (fs : files) (ss : program) : res files :=
  match ss with
  | [] => Ok fs
  | s :: r => let! fs1 := writeImageSection headerSize fs s in writeImageSections headerSize fs1 r
  end.
(** image.c:121-125.  [log2n] is a function of the absent util library. *)
Definition bytesToPad (log2n : Z -> Z) (padding size : Z) : Z :=
  if padding =? 0 then s32 (u32 (Z.shiftl 2 (log2n size)) - size)
  else s32 (u32 padding - size mod u32 padding).
Definition padImage (log2n : Z -> Z) (padding : Z) (f : file) : file :=
  if padding =? -1 then f
  else let size := u32 (fsize f) in writeRepeatedBytes f 255 size (bytesToPad log2n padding size).

(** image.c:83-128, 143-151 internalWriteBinary, image_WriteBinaryToFile: the
    files written. *)
Definition image_WriteBinaryToFile (log2n : Z -> Z) (f : file) (ss : program) (padding : Z) : res files :=
  let! fs := writeImageSections (ftell f) [(UINT32_MAX, f)] ss in
  Ok (putFile fs UINT32_MAX (padImage log2n padding (getFileHandle fs UINT32_MAX))).
(** image.c:153-161. *)
Definition image_WriteBinary (log2n : Z -> Z) (ss : program) (padding : Z) : res files :=
  image_WriteBinaryToFile log2n emptyFile ss padding.
