(** Model of the linker's reader of ELF objects: /repo/xlink/elf.c. *)
From Coq Require Import String ZArith List Bool.
From Verif Require Import Base Arith AssignModel LinkExprModel LinkModel LinkSpec ObjModel MdefModel ElfModel.
Import ListNotations.
Open Scope string_scope.
Open Scope list_scope.
Open Scope Z_scope.

(** elf.c:39-41 the three groups of sections read from ELF files. *)
Definition g_codeGroup : ogroup := OGroup (chars "CODE") GROUP_TEXT 0.
Definition g_dataGroup : ogroup := OGroup (chars "DATA") GROUP_TEXT FLAG_DATA.
Definition g_bssGroup : ogroup := OGroup (chars "BSS") GROUP_BSS 0.
(** elf.c:270, 285, 304-308: further constants. *)
Definition SHF_STRINGS : Z := 32.
Definition STT_SECTION : Z := 3.
Definition R_68K_16 : Z := 2.
Definition R_68K_PC32 : Z := 4.
Definition R_68K_PC16 : Z := 5.

(** A loop that makes one result for each element, or stops. *)
Fixpoint mapr {A B : Type} (g : A -> res B) (l : list A) : res (list B) :=
  match l with
  | [] => Ok []
  | x :: r => let! y := g x in let! ys := mapr g r in Ok (y :: ys)
  end.
Fixpoint foldr {A B : Type} (g : A -> B -> res B) (l : list A) (b : B) : res B :=
  match l with
  | [] => Ok b
  | x :: r => let! b' := g x b in foldr g r b'
  end.
(** The elements with their positions. *)
Definition numbered {A : Type} (l : list A) : list (nat * A) := List.combine (seq 0 (length l)) l.

(** elf.c:55-66 ElfSymbol: its name and section are filled in later; its xlinkSymbol is in the
    state of the conversion. *)
Record rsym : Type := RSym {
  rs_name : list Z; rs_section : option nat; rs_nameindex : Z; rs_value : Z; rs_shndx : Z; rs_type : Z }.
(** elf.c:87-94, 104-112 ElfRelocEntry and ElfRelocAddendEntry. *)
Record rrel : Type := RRel { rr_offset : Z; rr_addend : Z; rr_symbol : Z; rr_type : Z }.
(** elf.c:136-142 the union in ElfSectionHeader.  [DNone]: it is not set.  Of a table of
    relocations: the section they are for and the symbol table, as positions of headers. *)
Inductive edata : Type :=
| DNone
| DBits (bytes : list Z)
| DStrings (chars : list Z)
| DSymbols (symbols : list rsym)
| DRel (relocs : list rrel)
| DRela (section : option nat) (table : nat) (relocs : list rrel).

Section Reader.
Variable f : list Z.

(** elf.c:205-212: fgetc, fgetbw, fgetbl, fgetlw and fgetll at a position.  Reading past the end
    counts as undefined: the end-of-file value is shifted. *)
Definition fget_byte (pos : Z) : res Z :=
  match slice f pos 1 with [a] => Ok a | _ => UB end.
Definition fget_half (big : bool) (pos : Z) : res Z :=
  match slice f pos 2 with [a; b] => Ok (if big then a * 256 + b else b * 256 + a) | _ => UB end.
Definition word_of (big : bool) (a b c d : Z) : Z :=
  if big then ((a * 256 + b) * 256 + c) * 256 + d else ((d * 256 + c) * 256 + b) * 256 + a.
Definition fget_word (big : bool) (pos : Z) : res Z :=
  match slice f pos 4 with [a; b; c; d] => Ok (word_of big a b c d) | _ => UB end.
(** fread of [n] bytes, with the error for a short file. *)
Definition fread (pos n : Z) : res (list Z) :=
  if zlen (slice f pos n) =? n then Ok (slice f pos n) else Err.

(** elf.c:311-353 readHeader: byte order, position and entry size of the section headers, how
    many there are, and the index of the table of their names. *)
Definition readHeader : res (bool * Z * Z * Z * Z) :=
  let! class := fget_byte 4 in
  let! endian := fget_byte 5 in
  let! idversion := fget_byte 6 in
  if negb (class =? 1) || negb (idversion =? 1) then Err else
  if negb (endian =? 1) && negb (endian =? 2) then Err else
  let big := endian =? 2 in
  let! type := fget_half big 16 in
  let! arch := fget_half big 18 in
  let! version := fget_word big 20 in
  let! offset := fget_word big 32 in
  let! hdsize := fget_half big 40 in
  let! entrySize := fget_half big 46 in
  let! total := fget_half big 48 in
  let! strings := fget_half big 50 in
  if (type =? 1) && (version =? 1) && (arch =? 4) && (hdsize =? 52) then Ok (big, offset, entrySize, total, strings) else Err.

(** elf.c:355-375 readSectionHeaders. *)
Definition readSectionHeader (big : bool) (q : Z) : res shdr :=
  let! a0 := fget_word big q in let! a1 := fget_word big (q + 4) in let! a2 := fget_word big (q + 8) in
  let! a3 := fget_word big (q + 12) in let! a4 := fget_word big (q + 16) in let! a5 := fget_word big (q + 20) in
  let! a6 := fget_word big (q + 24) in let! a7 := fget_word big (q + 28) in let! a8 := fget_word big (q + 32) in
  let! a9 := fget_word big (q + 36) in
  Ok (Shdr a0 a1 a2 a3 a4 a5 a6 a7 a8 a9).
Definition readSectionHeaders (big : bool) (offset entrySize total : Z) : res (list shdr) :=
  mapr (fun i => readSectionHeader big (u32 (offset + Z.of_nat i * entrySize))) (seq 0 (Z.to_nat total)).

(** elf.c:416-443 readSymTabSection; the names and sections are not known yet. *)
Definition readSymbol (big : bool) (q : Z) : res rsym :=
  let! n := fget_word big q in
  let! v := fget_word big (q + 4) in
  let! _ := fget_word big (q + 8) in
  let! info := fget_byte (q + 12) in
  let! _ := fget_byte (q + 13) in
  let! shndx := fget_half big (q + 14) in
  Ok (RSym [] None n v shndx (Z.land info 15)).
Definition entries {A : Type} (g : Z -> res A) (h : shdr) (total : Z) : res (list A) :=
  mapr (fun i => g (u32 (sh_offset h + Z.of_nat i * sh_entsize h))) (seq 0 (Z.to_nat total)).
(** elf.c:445-465 readRelASection, 467-486 readRelSection: the latter takes the number of
    relocations from sh_info. *)
Definition readRelA (big : bool) (q : Z) : res rrel :=
  let! o := fget_word big q in
  let! info := fget_word big (q + 4) in
  let! a := fget_word big (q + 8) in
  Ok (RRel o (s32 a) (info / 256) (info mod 256)).
Definition readRel (big : bool) (q : Z) : res rrel :=
  let! o := fget_word big q in
  let! info := fget_word big (q + 4) in
  Ok (RRel o 0 (info / 256) (info mod 256)).
(** elf.c:377-392 readProgBitsSection, 394-403 readNoBitsSection, 405-414 readStrTabSection, and
    488-515 readSections.  Division by an entry size of zero is undefined.  Memory for the
    tables is always found. *)
Definition readSection (big : bool) (h : shdr) : res edata :=
  let t := sh_type h in
  if t =? SHT_PROGBITS then
    if negb (Z.land (sh_flags h) SHF_ALLOC =? 0) then let! d := fread (sh_offset h) (sh_size h) in Ok (DBits d) else Ok (DBits [])
  else if t =? SHT_NOBITS then Ok (DBits [])
  else if t =? SHT_STRTAB then let! d := fread (sh_offset h) (sh_size h) in Ok (DStrings d)
  else if t =? SHT_SYMTAB then
    if sh_entsize h =? 0 then UB else let! l := entries (readSymbol big) h (sh_size h / sh_entsize h) in Ok (DSymbols l)
  else if t =? SHT_RELA then
    if sh_entsize h =? 0 then UB else let! l := entries (readRelA big) h (sh_size h / sh_entsize h) in Ok (DRela None 0 l)
  else if t =? SHT_REL then let! l := entries (readRel big) h (sh_info h) in Ok (DRel l)
  else Ok DNone.
End Reader.

(** elf.c:122-143 ElfSectionHeader, 145-149 ElfHeader: the headers with their names and data. *)
Record rhdr : Type := RHdr { rh_header : shdr; rh_name : list Z; rh_data : edata }.

(** elf.c:517-526 getSectionHeader: None is a null pointer. *)
Definition getSectionHeader {A : Type} (hs : list A) (index : Z) : res (option nat) :=
  if index =? SHN_ABS then Ok None
  else if zlen hs <=? index then Err
  else Ok (if index =? 0 then None else Some (Z.to_nat index)).
(** elf.c:528-536 getStringTable, 538-545 getSymbolTable. *)
Definition getStringTable (hs : list rhdr) (index : Z) : res (list Z) :=
  let! k := getSectionHeader hs index in
  match k with
  | None => UB
  | Some i =>
      match nth_error hs i with
      | None => UB
      | Some h => match rh_data h with DStrings s => Ok s | _ => Err end
      end
  end.
Definition getSymbolTable (hs : list rhdr) (index : Z) : res (nat * list rsym) :=
  let! k := getSectionHeader hs index in
  match k with
  | None => UB
  | Some i =>
      match nth_error hs i with
      | None => UB
      | Some h => match rh_data h with DSymbols s => Ok (i, s) | _ => Err end
      end
  end.
(** elf.c:555-561 getString: the bytes up to the terminator.  Without one the string goes on
    beyond the table: undefined. *)
Fixpoint terminated (s : list Z) : option (list Z) :=
  match s with
  | [] => None
  | b :: r => if b =? 0 then Some [] else option_map (cons b) (terminated r)
  end.
Definition getString (table : list Z) (index : Z) : res (list Z) :=
  if zlen table <=? index then Err else
  match terminated (skipn (Z.to_nat index) table) with Some s => Ok s | None => UB end.
(** elf.c:563-570 resolveSectionNames. *)
Definition resolveSectionNames (hs : list rhdr) (strings : Z) : res (list rhdr) :=
  let! names := getStringTable hs strings in
  mapr (fun h => let! n := getString names (sh_name (rh_header h)) in Ok (RHdr (rh_header h) n (rh_data h))) hs.

(** elf.c:572-586 resolveSymTabSection. *)
Definition resolveSymbol (hs : list rhdr) (strings : list Z) (y : rsym) : res rsym :=
  let! k := getSectionHeader hs (rs_shndx y) in
  if (rs_type y =? STT_SECTION) && (rs_nameindex y =? 0) then
    match k with
    | None => UB
    | Some i =>
        match nth_error hs i with
        | None => UB
        | Some h => Ok (RSym (rh_name h) k (rs_nameindex y) (rs_value y) (rs_shndx y) (rs_type y))
        end
    end
  else
    let! n := getString strings (rs_nameindex y) in
    Ok (RSym n k (rs_nameindex y) (rs_value y) (rs_shndx y) (rs_type y)).
(** elf.c:588-598 resolveRelASection, with 547-553 getSymbol: a symbol out of range is an error,
    symbol 0 a null pointer. *)
Definition resolveRelA (hs : list rhdr) (h : shdr) (relocs : list rrel) : res edata :=
  let! k := getSectionHeader hs (sh_info h) in
  let! (table, symbols) := getSymbolTable hs (sh_link h) in
  if existsb (fun r => zlen symbols <=? rr_symbol r) relocs then Err else Ok (DRela k table relocs).
(** elf.c:600-612 readData with 156-203 read_word_b, read_word_l, read_half_b and read_half_l. *)
Definition readData (big : bool) (text : edata) (offset type : Z) : res Z :=
  match text with
  | DBits d =>
      if (type =? R_68K_32) || (type =? R_68K_PC32) then let! v := fget_word d big offset in Ok (s32 v)
      else if (type =? R_68K_16) || (type =? R_68K_PC16) then fget_half d big offset
      else Err
  | _ => UB
  end.
(** elf.c:614-635 resolveRelSection. *)
Definition resolveRel (big : bool) (hs : list rhdr) (h : shdr) (relocs : list rrel) : res edata :=
  let! k := getSectionHeader hs (sh_info h) in
  let! relas := mapr (fun r =>
      match k with
      | None => UB
      | Some i =>
          match nth_error hs i with
          | None => UB
          | Some t => let! a := readData big (rh_data t) (rr_offset r) (rr_type r) in Ok (RRel (rr_offset r) a (rr_symbol r) (rr_type r))
          end
      end) relocs in
  resolveRelA hs h relas.
(** elf.c:637-657 resolveNamesAndIndices.  Simplification: the headers are resolved from the
    tables as they are after resolveSectionNames; what is looked up (types, sizes of tables,
    string tables, bytes of sections) is not changed by resolving other headers. *)
Definition resolveHeader (big : bool) (hs : list rhdr) (h : rhdr) : res rhdr :=
  let! d :=
    match rh_data h with
    | DSymbols l =>
        let! s := getStringTable hs (sh_link (rh_header h)) in
        let! l' := mapr (resolveSymbol hs s) l in Ok (DSymbols l')
    | DRela _ _ l => resolveRelA hs (rh_header h) l
    | DRel l => resolveRel big hs (rh_header h) l
    | d => Ok d
    end in
  Ok (RHdr (rh_header h) (rh_name h) d).
Definition resolveNamesAndIndices (big : bool) (hs : list rhdr) (strings : Z) : res (list rhdr) :=
  let! hs1 := resolveSectionNames hs strings in
  mapr (resolveHeader big hs1) hs1.

(** ** Conversion *)
(** The sections made so far, data.progbits->xlinkSection of the headers, and xlinkSymbol of the
    symbols of the tables: section and position. *)
Record xstate : Type := XState {
  x_secs : list lsect; x_of : nat -> option nat; x_handle : nat -> nat -> option (nat * nat) }.
Definition upd1 {A : Type} (g : nat -> A) (k : nat) (v : A) : nat -> A := fun i => if Nat.eqb i k then v else g i.
Definition upd2 {A : Type} (g : nat -> nat -> A) (k l : nat) (v : A) : nat -> nat -> A :=
  fun i j => if Nat.eqb i k && Nat.eqb j l then v else g i j.

Section Convert.
(** The file id, the number of sections that are there already, and what the never initialised
    fields of a new symbol (file and line) hold. *)
Variable fileId : Z.
Variable base : Z.
Variable junk : nat -> nat -> Z * Z.
Variable hs : list rhdr.

(** elf.c:815-874 sectionToXlink of header [i].  strncpy of a name of 256 bytes or more cuts it;
    the section is zeroed first (section.c:241-262 sect_CreateNew). *)
Definition newSection (group : ogroup) (h : rhdr) (data : option (list Z)) (st : xstate) : lsect :=
  let H := rh_header h in
  let a := if sh_addr H =? 0 then -1 else s32 (sh_addr H) in
  LSect (Section_ (base + zlen (x_secs st)) (Some group) a (-1) a a 0 1
           (if 2 <=? sh_addralign H then s32 (sh_addralign H) else -1) (-1) (sh_size H) false false None)
        fileId false (firstn 255 (rh_name h)) [] [] data [].
Definition has_flags (h : shdr) (m : Z) : bool := Z.land (sh_flags h) m =? m.
Definition sectionToXlink (ih : nat * rhdr) (st : xstate) : res xstate :=
  let (i, h) := ih in
  let H := rh_header h in
  let make group data :=
    Ok (XState (x_secs st ++ [newSection group h data st]) (upd1 (x_of st) i (Some (length (x_secs st)))) (x_handle st)) in
  if sh_type H =? SHT_PROGBITS then
    let data := match rh_data h with DBits d => if 0 <? sh_size H then Some d else None | _ => None end in
    if has_flags H (SHF_ALLOC + SHF_EXECINSTR) then make g_codeGroup data
    else if has_flags H SHF_ALLOC then make g_dataGroup data
    else if negb (Z.land (sh_flags H) SHF_STRINGS =? 0) then Ok st
    else if sh_flags H =? 0 then Ok st
    else Err
  else if sh_type H =? SHT_NOBITS then
    if has_flags H (SHF_ALLOC + SHF_WRITE) then make g_bssGroup None else Err
  else Ok st.

(** elf.c:659-680 addElfSymbolToProgbits: the state and the handle.  The type and the resolved
    flag are set by the callers.  The memory is not cleared: a name of 255 bytes or more has no
    terminator. *)
Definition addElfSymbol (k : nat) (y : rsym) (type : Z) (resolved : bool) (st : xstate) : res (xstate * (nat * nat)) :=
  match nth_error (x_secs st) k with
  | None => UB
  | Some s =>
      if 255 <=? zlen (rs_name y) then UB else
      let n := length (sc_symbols s) in
      let x := LSym (rs_name y) type (s32 (rs_value y)) resolved (fst (junk k n)) (snd (junk k n)) (Some (sc_id s)) [] in
      Ok (XState (set_nth (x_secs st) k (set_symbols s (sc_symbols s ++ [x]))) (x_of st) (x_handle st), (k, n))
  end.
Definition set_handle (t j : nat) (hd : nat * nat) (st : xstate) : xstate :=
  XState (x_secs st) (x_of st) (upd2 (x_handle st) t j (Some hd)).

(** data.progbits->xlinkSection of a header: undefined for a header of another kind. *)
Definition xlinkSection (st : xstate) (i : nat) : res (option nat) :=
  match nth_error hs i with
  | None => UB
  | Some h => match rh_data h with DBits _ => Ok (x_of st i) | _ => UB end
  end.

(** elf.c:682-739 symbolsToXlink of table [t]: symbol [j], local if it is before sh_info. *)
Definition localToXlink (t j : nat) (y : rsym) (st : xstate) : res xstate :=
  match rs_section y with
  | None => Ok st
  | Some i =>
      let! k := xlinkSection st i in
      match k with
      | None => Ok st
      | Some k =>
          if (rs_nameindex y =? 0) && negb (rs_type y =? STT_SECTION) then Ok st else
          let! (st1, hd) := addElfSymbol k y SYM_LOCALEXPORT (rs_type y =? STT_SECTION) st in
          Ok (set_handle t j hd st1)
      end
  end.
Definition globalToXlink (t j : nat) (y : rsym) (st : xstate) : res xstate :=
  if rs_nameindex y =? 0 then Ok st
  else if rs_shndx y =? SHN_UNDEF then Ok st
  else match rs_section y with
       | None => UB
       | Some i =>
           let! k := xlinkSection st i in
           match k with
           | None => UB
           | Some k => let! (st1, hd) := addElfSymbol k y SYM_EXPORT false st in Ok (set_handle t j hd st1)
           end
       end.
Definition symbolToXlink (t : nat) (info : Z) (jy : nat * rsym) (st : xstate) : res xstate :=
  let (j, y) := jy in
  if Z.of_nat j <? info then (if Nat.eqb j 0 then Ok st else localToXlink t j y st) else globalToXlink t j y st.
Definition symbolsToXlink (ih : nat * rhdr) (st : xstate) : res xstate :=
  let (t, h) := ih in
  match rh_data h with
  | DSymbols ys =>
      let info := sh_info (rh_header h) in
      if (zlen ys <? info) && (1 <? info) then UB else foldr (symbolToXlink t info) (numbered ys) st
  | _ => Ok st
  end.

(** elf.c:741-753, 800-811: the expression of a relocation.  [wordl] is a number of 32 bits, lowest
    byte first. *)
Definition wordl (v : Z) : list Z := [v mod 256; v / 256 mod 256; v / 65536 mod 256; v / 16777216 mod 256].
Definition relocExpr (relative : bool) (symbol addend : Z) : list Z :=
  [31] ++ wordl symbol ++ [30] ++ wordl addend ++ [1] ++ (if relative then [30; 0; 0; 0; 0; 32] else []).
Definition set_patches (s : lsect) (ps : list lpatch) : lsect :=
  LSect (sc_place s) (sc_fileId s) (sc_root s) (sc_name s) (sc_symbols s) (sc_lines s) (sc_data s) ps.
(** elf.c:755-813 relocsToXlink, one relocation of a table for header [i], converted to section [k]. *)
Definition relocToXlink (i t k : nat) (symbols : list rsym) (r : rrel) (st : xstate) : res xstate :=
  if negb (rr_type r =? R_68K_32) && negb (rr_type r =? R_68K_PC32) then Err else
  let j := Z.to_nat (rr_symbol r) in
  if rr_symbol r =? 0 then UB else
  match nth_error symbols j with
  | None => UB
  | Some y =>
      let own := match rs_section y with Some i' => Nat.eqb i' i | None => false end in
      let! (st1, hd) :=
        match x_handle st t j with
        | None =>
            if rs_shndx y =? SHN_UNDEF then
              let! (st1, hd) := addElfSymbol k y SYM_IMPORT false st in Ok (set_handle t j hd st1, snd hd)
            else if own then
              let! (st1, hd) := addElfSymbol k y SYM_LOCALIMPORT false st in Ok (set_handle t j hd st1, snd hd)
            else
              let! (st1, hd) := addElfSymbol k y (match rs_section y with None => SYM_IMPORT | Some _ => SYM_LOCALIMPORT end) false st in
              Ok (st1, snd hd)
        | Some hd =>
            if own then Ok (st, snd hd)
            else
              let! (st1, hd) := addElfSymbol k y (match rs_section y with None => SYM_IMPORT | Some _ => SYM_LOCALIMPORT end) false st in
              Ok (st1, snd hd)
        end in
      match nth_error (x_secs st1) k with
      | None => UB
      | Some s =>
          if zlen (sc_symbols s) <=? Z.of_nat hd then Err else
          Ok (XState (set_nth (x_secs st1) k (set_patches s
                (sc_patches s ++ [LPatch PATCH_BE_32 (rr_offset r) (relocExpr (rr_type r =? R_68K_PC32) (Z.of_nat hd) (rr_addend r)) None])))
                (x_of st1) (x_handle st1))
      end
  end.
Definition relocsToXlink (i t k : nat) (relocs : list rrel) (st : xstate) : res xstate :=
  match nth_error (x_secs st) k, nth_error hs t with
  | Some s, Some th =>
      let symbols := match rh_data th with DSymbols ys => ys | _ => [] end in
      foldr (relocToXlink i t k symbols) relocs (XState (set_nth (x_secs st) k (set_patches s [])) (x_of st) (x_handle st))
  | _, _ => UB
  end.
(** elf.c:890-898: the relocations of one header. *)
Definition relasToXlink (h : rhdr) (st : xstate) : res xstate :=
  match rh_data h with
  | DRela None _ _ => UB
  | DRela (Some i) t relocs =>
      match nth_error hs i with
      | None => UB
      | Some p =>
          if ((sh_type (rh_header p) =? SHT_PROGBITS) || (sh_type (rh_header p) =? SHT_NOBITS)) && has_flags (rh_header p) SHF_ALLOC then
            match x_of st i with None => UB | Some k => relocsToXlink i t k relocs st end
          else Ok st
      end
  | _ => Ok st
  end.
(** elf.c:876-899 elfToXlink. *)
Definition elfToXlink : res xstate :=
  let! st1 := foldr sectionToXlink (numbered hs) (XState [] (fun _ => None) (fun _ _ => None)) in
  let! st2 := foldr symbolsToXlink (numbered hs) st1 in
  foldr relasToXlink hs st2.
End Convert.

(** elf.c:901-923 elf_Read: the sections of the file.  [base] is how many sections there are. *)
Definition elf_Sections (fileId base : Z) (junk : nat -> nat -> Z * Z) (f : list Z) : res (list lsect) :=
  let! (big, offset, entrySize, total, strings) := readHeader f in
  let! headers := readSectionHeaders f big offset entrySize total in
  let! hs := mapr (fun h => let! d := readSection f big h in Ok (RHdr h [] d)) headers in
  let! hs1 := resolveNamesAndIndices big hs strings in
  let! st := elfToXlink fileId base junk hs1 in
  Ok (x_secs st).
(** With object.c:455-458, 482-496: an ELF file is the only chunk of its file; its name becomes a
    source file. *)
Definition elf_Read (junk : nat -> nat -> Z * Z) (filename f : list Z) (st : lstate) : res lstate :=
  let! secs := elf_Sections (l_fileId st) (zlen (l_prog st)) junk f in
  Ok (LState (l_fileId st + 1) (l_files st ++ [(filename, 0)]) (l_prog st ++ secs)).
