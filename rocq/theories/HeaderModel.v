(** Model of the ROM header writers: /repo/xlink/gameboy.c, sega.c and
    hc800.c:164-195. *)
From Coq Require Import ZArith List Bool.
From Verif Require Import Base AssignModel LinkModel FileModel ImageModel.
Import ListNotations.
Open Scope Z_scope.

(** ** Game Boy *)
(** gameboy.c:26-31. *)
Definition POS_NINTENDO_LOGO : Z := 260.
Definition POS_CARTRIDGE_TYPE : Z := 327.
Definition POS_ROM_SIZE : Z := 328.
Definition POS_COMP_CHECKSUM : Z := 333.
Definition POS_CHECKSUM : Z := 334.
(** gameboy.c:33-37 g_nintendoChar. *)
Definition nintendoChar : list Z :=
  [206; 237; 102; 102; 204; 13; 0; 11; 3; 115; 0; 131; 0; 12; 0; 13;
   0; 8; 17; 31; 136; 137; 0; 14; 220; 204; 110; 230; 221; 221; 217; 153;
   187; 187; 103; 99; 110; 14; 236; 204; 221; 220; 153; 159; 187; 185; 51; 62].
(** gameboy.c:39-43. *)
Definition updateNintendoCharacterArea (f : file) : file := fwrite (fseek f POS_NINTENDO_LOGO) nintendoChar.

Definition eof0 (c : option Z) : Z := match c with Some c => c | None => 0 end.
(** gameboy.c:54-57: the loop; sizes are below 2^32, so 32 rounds are enough. *)
Fixpoint romSizeCode (fuel : nat) (romSize code : Z) : Z :=
  match fuel with
  | O => code
  | S k => if romSize >? Z.shiftl 32768 code then romSizeCode k romSize (u8 (code + 1)) else code
  end.
(** gameboy.c:45-63 updateRomSize. *)
Definition updateRomSize (f : file) : file :=
  let (c, f1) := fgetc (fseek f POS_ROM_SIZE) in
  let code := romSizeCode 32 (fsize f1) 0 in
  if code =? eof0 c then f1 else fwrite (fseek f1 POS_ROM_SIZE) [code].
(** gameboy.c:65-81 updateCartridgeType.  fwrite writes the first byte of an int,
    the low one on a little-endian host. *)
Definition updateCartridgeType (f : file) : file :=
  let (c, f1) := fgetc (fseek f POS_CARTRIDGE_TYPE) in
  if (fsize f1 <=? 32768) || negb (eof0 c =? 0) then f1
  else fwrite (fseek f1 POS_CARTRIDGE_TYPE) [1].

(** gameboy.c:87-90: the variables of updateChecksum. *)
Record sums : Type := Sums { cartChecksum : Z; calcChecksum : Z; cartComp : Z; calcComp : Z }.
(** gameboy.c:94-113: the loop over the bytes of the file, from offset [i] on. *)
Fixpoint checksumLoop (d : list Z) (i : Z) (a : sums) : sums :=
  match d with
  | [] => a
  | ch :: r =>
      checksumLoop r (i + 1)
        (if i <? 308 then Sums (cartChecksum a) (u16 (calcChecksum a + u16 ch)) (cartComp a) (calcComp a)
         else if i <? 333 then
           Sums (cartChecksum a) (u16 (calcChecksum a + u16 ch)) (cartComp a) (u8 (calcComp a + u8 ch))
         else if i =? 333 then Sums (cartChecksum a) (calcChecksum a) (u8 ch) (calcComp a)
         else if i =? 334 then Sums (u16 (Z.shiftl ch 8)) (calcChecksum a) (cartComp a) (calcComp a)
         else if i =? 335 then Sums (Z.lor (cartChecksum a) (u16 ch)) (calcChecksum a) (cartComp a) (calcComp a)
         else Sums (cartChecksum a) (u16 (calcChecksum a + u16 ch)) (cartComp a) (calcComp a))
  end.
(** gameboy.c:83-128 updateChecksum. *)
Definition updateChecksum (f : file) : file :=
  let a := checksumLoop (f_data f) 0 (Sums 0 0 0 0) in
  let comp := u8 (231 - calcComp a) in
  let sum := u16 (calcChecksum a + comp) in
  let f1 := if cartChecksum a =? sum then f
            else fputc (fputc (fseek f POS_CHECKSUM) (Z.shiftr sum 8)) (Z.land sum 255) in
  if cartComp a =? comp then f1 else fwrite (fseek f1 POS_COMP_CHECKSUM) [comp].
(** gameboy.c:130-136 updateGameBoyHeader. *)
Definition updateGameBoyHeader (f : file) : file :=
  updateChecksum (updateCartridgeType (updateRomSize (updateNintendoCharacterArea f))).

(** Apply a header update to the main file of an image. *)
Definition onMain (update : file -> res file) (fs : files) : res files :=
  let! f := update (openFile (f_data (getFileHandle fs UINT32_MAX))) in
  Ok (putFile fs UINT32_MAX f).
(** gameboy.c:138-149 gameboy_WriteImage. *)
Definition gameboy_WriteImage (log2n : Z -> Z) (ss : program) : res files :=
  let! fs := image_WriteBinary log2n ss 0 in
  onMain (fun f => Ok (updateGameBoyHeader f)) fs.

(** ** Mega Drive *)
(** sega.c:27-37 sega_CalcMegaDriveChecksum: [d] is the file from $200 on.  With
    an odd length the last byte is not read. *)
Fixpoint wordSum (d : list Z) (r : Z) : Z :=
  match d with
  | a :: b :: d' => wordSum d' (u16 (r + (a * 256 + b)))
  | _ => r
  end.
Definition sega_CalcMegaDriveChecksum (f : file) : Z := wordSum (skipn 512 (f_data f)) 0.
(** sega.c:39-50 sega_UpdateMegaDriveHeader.  With less than $200 bytes the count
    of words wraps and the loop would run 2^63 times: treated as UB. *)
Definition sega_UpdateMegaDriveHeader (f : file) : res file :=
  let length := zlen (f_data f) in
  let f1 := fputbl (fseek f 420) (length - 1) in
  if length <? 512 then UB else
  let checksum := sega_CalcMegaDriveChecksum f1 in
  Ok (fputbw (fseek f1 398) checksum).
(** sega.c:52-63. *)
Definition sega_WriteMegaDriveImage (log2n : Z -> Z) (ss : program) : res files :=
  let! fs := image_WriteBinary log2n ss 0 in onMain sega_UpdateMegaDriveHeader fs.

(** ** Master System *)
(** sega.c:65-71, 73-87: bytes before and after the 16 bytes of the header.
    Reading at the end of the file adds EOF = -1. *)
Definition byteSum (d : list Z) (r : Z) : Z := fold_left (fun r c => u16 (r + u16 c)) d r.
Definition sega_CalcMasterSystemCheckSum (d : list Z) (headerLocation : Z) : Z :=
  let n := Z.to_nat headerLocation in
  let r := byteSum (firstn n d ++ repeat (-1) (n - length d)) 0 in
  if zlen d - (headerLocation + 16) >? 0 then byteSum (skipn (n + 16) d) r else r.
(** sega.c:89-124 sega_CalcSizeCode. *)
Definition sega_CalcSizeCode (code size : Z) : Z :=
  let newCode :=
    if size =? 8192 then 10 else if size =? 16384 then 11 else if size =? 32768 then 12
    else if size =? 49152 then 13 else if size =? 65536 then 14 else if size =? 131072 then 15
    else if size =? 262144 then 0 else if size =? 524288 then 1 else 2 in
  Z.lor (Z.land code 240) newCode.
(** sega.c:126-144 sega_UpdateMasterSystemHeader; "TMR SEGA  ".  The code read at
    the end of the file is (uint8_t) EOF. *)
Definition tmrSega : list Z := [84; 77; 82; 32; 83; 69; 71; 65; 32; 32].
Definition sega_UpdateMasterSystemHeader (f : file) (headerLocation : Z) : file :=
  let size := zlen (f_data f) in
  let checkSum := sega_CalcMasterSystemCheckSum (f_data f) headerLocation in
  let f1 := fputlw (fwrite (fseek f headerLocation) tmrSega) checkSum in
  let f2 := fseek_cur f1 3 in
  let (c, f3) := fgetc f2 in
  let code := match c with Some c => c | None => 255 end in
  fputc (fseek_cur f3 (-1)) (sega_CalcSizeCode code size).
(** sega.c:146-160 sega_WriteMasterSystemImage; [old] is the file that exists
    already, if any.  image_WriteBinaryToFile closes the file (image.c:150, map_Free
    calls freeVecFileHandle); using it afterwards is UB. *)
Definition sega_WriteMasterSystemImage (log2n : Z -> Z) (old : option (list Z)) (ss : program) (binaryPad : Z) : res files :=
  match old with
  | None => Err
  | Some d => let! fs := image_WriteBinaryToFile log2n (openFile d) ss binaryPad in UB
  end.

(** ** HC800 kernel *)
(** hc800.c:164-183 updateKernalHeader; the checksum is an int8_t. *)
Definition s8 (z : Z) : Z := (z + 128) mod 256 - 128.
Definition updateKernalHeader (f : file) : file :=
  let f1 := fputc (fseek f 7) 0 in
  let checksum := fold_left (fun r c => s8 (r + c)) (f_data f1) 0 in
  fputc (fseek f1 7) (s8 (165 - checksum)).
(** hc800.c:185-196 hc800_WriteKernal. *)
Definition hc800_WriteKernal (log2n : Z -> Z) (ss : program) : res files :=
  let! fs := image_WriteBinary log2n ss 0 in onMain (fun f => Ok (updateKernalHeader f)) fs.
