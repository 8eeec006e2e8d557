(** Properties C23, C24, C25 and C48: ROM headers. *)
From Coq Require Import ZArith List Bool Lia ZifyBool ZifyNat.
From Verif Require Import Base BaseFacts AssignModel LinkModel FileModel FileProofs ImageModel ImageSpec ImageProofs ImageProps
  HeaderModel HeaderSpec HeaderProofs.
Import ListNotations.
Open Scope Z_scope.

(** The image padded with $FF to the next power of two. *)
Lemma power_image : forall log2n ss, log2_spec log2n -> Forall (image_ok 0) ss -> 0 < image_size MAIN ss < 2 ^ 31 ->
  exists fs main k, image_WriteBinary log2n ss 0 = Ok fs /\ findFile fs MAIN = Some main /\
    f_data main = image MAIN ss ++ repeat 255 k /\ image_size MAIN ss < zlen (f_data main) <= 2 ^ 31 /\
    zlen (f_data main) mod 2 = 0 /\ (forall e, 0 <= e -> 2 ^ e <= image_size MAIN ss -> 2 ^ (e + 1) <= zlen (f_data main)).
Proof.
  intros log2n ss LS OK L. destruct (C22_padding_power_partial log2n ss LS OK L) as (fs & m & k & e & W & F & D & E & Z1 & Z2).
  exists fs, m, k. split; auto. split; auto. split; auto. rewrite image_zlen in Z2.
  assert (e < 31) by (apply (Z.pow_lt_mono_r_iff 2); lia).
  assert (2 ^ (e + 1) <= 2 ^ 31) by (apply Z.pow_le_mono_r; lia).
  split; [lia|]. split.
  - rewrite Z1, Z.pow_add_r by lia. apply Z.mod_mul. lia.
  - intros e' E' L'. rewrite Z1. apply Z.pow_le_mono_r; [lia|].
    assert (e' < e + 1) by (apply (Z.pow_lt_mono_r_iff 2); lia). lia.
Qed.
Lemma on_main : forall update fs m g, findFile fs MAIN = Some m -> update (openFile (f_data m)) = Ok g ->
  exists fs', onMain update fs = Ok fs' /\ findFile fs' MAIN = Some g /\ forall o, o <> MAIN -> findFile fs' o = findFile fs o.
Proof.
  intros update fs m g F U. unfold onMain, getFileHandle. change UINT32_MAX with MAIN. rewrite F, U. cbn [bind].
  eexists. split; [reflexivity|]. split; [apply find_put_same|]. intros o N. apply find_put_other. auto.
Qed.

(** C23. Whatever the sections, a written Game Boy ROM of more than 256 bytes of
    contents has a valid header, and otherwise holds the padded image. *)
Theorem C23_gameboy_rom : forall log2n ss, log2_spec log2n ->
  Forall (image_ok 0) ss -> Forall (fun s => bytes (content s)) ss -> 256 <= image_size MAIN ss < 2 ^ 31 ->
  exists fs main k, gameboy_WriteImage log2n ss = Ok fs /\ findFile fs MAIN = Some main /\
    gb_valid (f_data main) /\
    same_outside [(260, 48); (327, 2); (333, 3)] (image MAIN ss ++ repeat 255 k) (f_data main).
Proof.
  intros log2n ss LS OK B L. destruct (power_image log2n ss LS OK) as (fs & m & k & W & F & D & L1 & _ & L2); [lia|].
  specialize (L2 8). change (2 ^ 8) with 256 in L2. change (2 ^ (8 + 1)) with 512 in L2.
  assert (BB : bytes (f_data m)).
  { rewrite D. unfold bytes. rewrite Forall_app. split; [now apply image_bytes|]. apply Forall_forall. intros x I.
    apply repeat_spec in I. subst. unfold is_byte. lia. }
  destruct (gb_header (f_data m)) as (V & S1 & _); [lia|lia|auto|].
  destruct (on_main (fun f => Ok (updateGameBoyHeader f)) fs m _ F eq_refl) as (fs' & O & F' & _).
  exists fs', (updateGameBoyHeader (openFile (f_data m))), k. split.
  - unfold gameboy_WriteImage. rewrite W. exact O.
  - split; auto. split; auto. rewrite <- D. exact S1.
Qed.
Print Assumptions C23_gameboy_rom.

(** C23. On any ROM file of at least $150 bytes the header update makes the header
    valid, keeps all other bytes, and keeps a cartridge type other than 0. *)
Theorem C23_gameboy_header : forall d, 336 <= zlen d -> zlen d < 2 ^ 32 -> bytes d ->
  let r := f_data (updateGameBoyHeader (openFile d)) in
  gb_valid r /\ same_outside [(260, 48); (327, 2); (333, 3)] d r /\
  (byte_at d 327 <> 0 \/ zlen d <= 32768 -> byte_at r 327 = byte_at d 327).
Proof. exact gb_header. Qed.
Print Assumptions C23_gameboy_header.
Example C23_case : let d := repeat 7 400 in let r := f_data (updateGameBoyHeader (openFile d)) in
  336 <= zlen d /\ bytes d /\ byte_at r 333 = 63 /\ byte_at r 328 = 0 /\ byte_at r 260 = 206 /\ byte_at r 334 = 31.
Proof.
  cbn zeta. split; [cbn; lia|]. split; [|vm_compute; repeat split; reflexivity].
  unfold bytes. apply Forall_forall. intros x I. apply repeat_spec in I. subst. unfold is_byte. lia.
Qed.

(** C24. Whatever the sections, a written Mega Drive ROM of at least $200 bytes of
    contents has the right checksum and end address, and otherwise holds the
    padded image. *)
Theorem C24_megadrive_rom : forall log2n ss, log2_spec log2n ->
  Forall (image_ok 0) ss -> 512 <= image_size MAIN ss < 2 ^ 31 ->
  exists fs main k, sega_WriteMegaDriveImage log2n ss = Ok fs /\ findFile fs MAIN = Some main /\
    md_valid (f_data main) /\
    same_outside [(398, 2); (420, 4)] (image MAIN ss ++ repeat 255 k) (f_data main).
Proof.
  intros log2n ss LS OK L. destruct (power_image log2n ss LS OK) as (fs & m & k & W & F & D & L1 & _ & _); [lia|].
  destruct (md_header (f_data m)) as (g & U & V & S1); [lia|].
  destruct (on_main sega_UpdateMegaDriveHeader fs m _ F U) as (fs' & O & F' & _).
  exists fs', g, k. split.
  - unfold sega_WriteMegaDriveImage. rewrite W. exact O.
  - split; auto. split; auto. rewrite <- D. exact S1.
Qed.
Print Assumptions C24_megadrive_rom.
(** C24. The same for the header update on any file of at least $200 bytes; an odd
    last byte is not part of the sum. *)
Theorem C24_megadrive_header : forall d, 512 <= zlen d < 2 ^ 32 ->
  exists f, sega_UpdateMegaDriveHeader (openFile d) = Ok f /\ md_valid (f_data f) /\
    same_outside [(398, 2); (420, 4)] d (f_data f).
Proof. exact md_header. Qed.
Print Assumptions C24_megadrive_header.
Example C24_case : let d := repeat 1 516 in exists f, sega_UpdateMegaDriveHeader (openFile d) = Ok f /\
  512 <= zlen d < 2 ^ 32 /\ bytes_at (f_data f) 398 2 = [2; 2] /\ bytes_at (f_data f) 420 4 = [0; 0; 2; 3].
Proof. eexists. split; [reflexivity|]. vm_compute. repeat split; discriminate. Qed.

(** C25. The bytes of a kernel sum to $A5 modulo 256, whatever the file. *)
Theorem C25_kernel_checksum : forall d, sum (f_data (updateKernalHeader (openFile d))) mod 256 = 165.
Proof. exact kernel_sum. Qed.
Print Assumptions C25_kernel_checksum.
(** C25. Whatever the sections, a written kernel has the right sum and otherwise
    holds the padded image. *)
Theorem C25_kernel_image : forall log2n ss, log2_spec log2n ->
  Forall (image_ok 0) ss -> 0 < image_size MAIN ss < 2 ^ 31 ->
  exists fs main k, hc800_WriteKernal log2n ss = Ok fs /\ findFile fs MAIN = Some main /\
    sum (f_data main) mod 256 = 165 /\
    (8 <= image_size MAIN ss -> same_outside [(7, 1)] (image MAIN ss ++ repeat 255 k) (f_data main)).
Proof.
  intros log2n ss LS OK L. destruct (power_image log2n ss LS OK L) as (fs & m & k & W & F & D & L1 & _).
  destruct (on_main (fun f => Ok (updateKernalHeader f)) fs m _ F eq_refl) as (fs' & O & F' & _).
  exists fs', (updateKernalHeader (openFile (f_data m))), k. split.
  - unfold hc800_WriteKernal. rewrite W. exact O.
  - split; auto. split; [apply kernel_sum|]. intro M. rewrite <- D. apply kernel_header. lia.
Qed.
Print Assumptions C25_kernel_image.
Example C25_case : f_data (updateKernalHeader (openFile [200; 100; 50; 25; 12; 6; 3; 1; 255])) = [200; 100; 50; 25; 12; 6; 3; 26; 255].
Proof. reflexivity. Qed.

(** C48. The Master System header function writes a valid header into any file of
    one of the sizes that have a code, and keeps the other bytes (for the size
    byte: the region nibble). *)
Theorem C48_mastersystem_header_partial : forall d h code, bytes d -> In (code, zlen d) sms_size_codes ->
  0 <= h -> h + 16 <= zlen d ->
  let r := f_data (sega_UpdateMasterSystemHeader (openFile d) h) in
  sms_valid r h /\ same_outside [(h, 12); (h + 15, 1)] d r.
Proof. exact sms_header. Qed.
Print Assumptions C48_mastersystem_header_partial.
(** C48 fails for the output format as a whole: no Master System image is ever
    written.  The file is opened for update without being created, and its handle
    is used after it was closed. *)
Theorem C48_mastersystem_image_refuted : forall log2n old ss pad fs,
  sega_WriteMasterSystemImage log2n old ss pad <> Ok fs.
Proof.
  intros log2n old ss pad fs H. unfold sega_WriteMasterSystemImage in H. destruct old; [|discriminate].
  destruct (image_WriteBinaryToFile log2n (openFile l) ss pad); discriminate.
Qed.
Print Assumptions C48_mastersystem_image_refuted.
Example C48_case : sega_CalcSizeCode 64 32768 = 76 /\ In (12, 32768) sms_size_codes.
Proof. split; [reflexivity|cbn; auto]. Qed.
