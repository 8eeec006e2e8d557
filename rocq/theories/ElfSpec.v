(** Specification of ELF objects (C65, C66), from the System V ABI: 32-bit relocatable files
    of sections, symbols and relocations with addends. *)
From Coq Require Import String ZArith List Bool Permutation Sorted.
From Verif Require Import Base Arith AssignModel LinkModel LinkSpec ExprSpec ExprTree ExprModel ObjWriteModel ElfModel.
Import ListNotations.
Open Scope list_scope.
Open Scope Z_scope.

(** ** Files *)
(** Numbers, in either byte order, at a position of a file. *)
Definition half_at (big : bool) (f : list Z) (k v : Z) : Prop :=
  0 <= v < 2 ^ 16 /\ 0 <= k /\ slice f k 2 = (if big then be16 v else le16 v).
Definition word_at (big : bool) (f : list Z) (k v : Z) : Prop :=
  0 <= v < 2 ^ 32 /\ 0 <= k /\ slice f k 4 = (if big then be32 v else le32 v).
Definition words_at (big : bool) (f : list Z) (k : Z) (vs : list Z) : Prop :=
  forall i v, nth_error vs i = Some v -> word_at big f (k + 4 * Z.of_nat i) v.
Definition header_at (big : bool) (f : list Z) (k : Z) (h : shdr) : Prop :=
  words_at big f k [sh_name h; sh_type h; sh_flags h; sh_addr h; sh_offset h; sh_size h; sh_link h; sh_info h; sh_addralign h; sh_entsize h].
(** A string in a string table ends with a zero. *)
Definition string_at (t : list Z) (k : Z) (s : list Z) : Prop :=
  0 <= k /\ Forall (fun b => b <> 0) s /\ slice t k (zlen s + 1) = s ++ [0].
(** What a header says is the contents of its section. *)
Definition inside (f : list Z) (h : shdr) : Prop := 0 <= sh_offset h /\ 0 <= sh_size h /\ sh_offset h + sh_size h <= zlen f.
Definition contents (f : list Z) (h : shdr) : list Z := slice f (sh_offset h) (sh_size h).

(** A relocatable file for a machine with the section headers [hs]; [names] is the index of
    the string table for names of sections. *)
Record elf32 (big : bool) (machine : Z) (f : list Z) (hs : list shdr) (names : Z) : Prop := {
  el_ident : slice f 0 7 = [127; 69; 76; 70; 1; if big then 2 else 1; 1];
  el_type : half_at big f 16 1;
  el_machine : half_at big f 18 machine;
  el_version : word_at big f 20 1;
  el_ehsize : half_at big f 40 52;
  el_shentsize : half_at big f 46 40;
  el_shnum : half_at big f 48 (zlen hs);
  el_shstrndx : half_at big f 50 names;
  el_headers : exists off, word_at big f 32 off /\
    forall k h, nth_error hs k = Some h -> header_at big f (off + 40 * Z.of_nat k) h;
  el_null : nth_error hs 0 = Some (Shdr 0 0 0 0 0 0 0 0 0 0) }.

(** ** What they say *)
Inductive where_ : Type := Undefined | Absolute | Within (section : nat).
Record esymbol : Type := ESymbol { ey_name : list Z; ey_value : Z; ey_global : bool; ey_where : where_ }.
(** The 32 bits at an offset become the address of a symbol plus an addend, less the address of
    the place itself if it is relative.  Symbols are numbered from 0. *)
Record ereloc : Type := EReloc { er_offset : Z; er_symbol : nat; er_relative : bool; er_addend : Z }.
Inductive ekind : Type := ECode | EData | EBss.
Record esection : Type := ESection {
  et_name : list Z; et_kind : ekind; et_addr : Z; et_align : Z; et_size : Z; et_data : list Z; et_relocs : list ereloc }.
Record eobject : Type := EObject { eo_sections : list esection; eo_symbols : list esymbol }.

(** Bit 1 of the flags: occupies memory.  Bit 0: can be written.  Bit 2: instructions. *)
Definition kind_of (h : shdr) (k : ekind) : Prop :=
  Z.testbit (sh_flags h) 1 = true /\
  match k with
  | ECode => sh_type h = 1 /\ Z.testbit (sh_flags h) 2 = true
  | EData => sh_type h = 1 /\ Z.testbit (sh_flags h) 2 = false
  | EBss => sh_type h = 8 /\ Z.testbit (sh_flags h) 0 = true
  end.
Definition section_says (f strings : list Z) (h : shdr) (t : esection) : Prop :=
  string_at strings (sh_name h) (et_name t) /\ kind_of h (et_kind t) /\
  sh_addr h = et_addr t /\ sh_addralign h = et_align t /\ sh_size h = et_size t /\
  match et_kind t with
  | EBss => et_data t = []
  | _ => inside f h /\ contents f h = et_data t
  end.
(** The entry of a symbol; [idx] has the indices of the headers of the sections.  Its type is
    none, object or function. *)
Definition symbol_at (big : bool) (f strings : list Z) (idx : list Z) (q : Z) (y : esymbol) : Prop :=
  (exists n, word_at big f q n /\ n <> 0 /\ string_at strings n (ey_name y)) /\
  word_at big f (q + 4) (u32 (ey_value y)) /\
  (exists type, 0 <= type <= 2 /\ slice f (q + 12) 1 = [(if ey_global y then 16 else 0) + type]) /\
  exists i, half_at big f (q + 14) i /\
    match ey_where y with
    | Undefined => i = 0
    | Absolute => i = 0xfff1
    | Within k => nth_error idx k = Some i
    end.
Definition reloc_at (big : bool) (f : list Z) (q : Z) (r : ereloc) : Prop :=
  words_at big f q [er_offset r; (1 + Z.of_nat (er_symbol r)) * 256 + (if er_relative r then 4 else 1); u32 (er_addend r)].

(** The file says [o]: sections in the order of their headers, one symbol table with the local
    symbols first, and at most one table of relocations for each section.  Every section has a
    name; sections that occupy no memory have no flags or hold strings. *)
Record elf_says (big : bool) (machine : Z) (f : list Z) (o : eobject) : Prop := {
  es_all : exists hs names hn symtab hsym hstr idx,
    elf32 big machine f hs names /\
    (nth_error hs (Z.to_nat names) = Some hn /\ 0 < names < 0xff00 /\ sh_type hn = 3 /\ inside f hn) /\
    (length idx = length (eo_sections o) /\ StronglySorted Z.lt idx /\ Forall (fun i => 0 < i < 0xff00) idx) /\
    (forall k t i, nth_error (eo_sections o) k = Some t -> nth_error idx k = Some i ->
       exists h, nth_error hs (Z.to_nat i) = Some h /\ section_says f (contents f hn) h t) /\
    (forall i h, nth_error hs i = Some h -> sh_type h = 1 \/ sh_type h = 8 -> Z.testbit (sh_flags h) 1 = true -> In (Z.of_nat i) idx) /\
    (nth_error hs (Z.to_nat symtab) = Some hsym /\ 0 < symtab < 0xff00 /\ sh_type hsym = 2 /\ inside f hsym /\ sh_entsize hsym = 16 /\
     sh_size hsym = 16 * (1 + zlen (eo_symbols o)) /\
     nth_error hs (Z.to_nat (sh_link hsym)) = Some hstr /\ 0 < sh_link hsym < 0xff00 /\ sh_type hstr = 3 /\ inside f hstr /\
     string_at (contents f hstr) 0 [] /\
     slice f (sh_offset hsym) 16 = repeat 0 16 /\
     (forall j y, nth_error (eo_symbols o) j = Some y -> symbol_at big f (contents f hstr) idx (sh_offset hsym + 16 * (1 + Z.of_nat j)) y) /\
     1 <= sh_info hsym <= 1 + zlen (eo_symbols o) /\
     (forall j y, nth_error (eo_symbols o) j = Some y -> ey_global y = (sh_info hsym <=? 1 + Z.of_nat j))) /\
    (forall i h, nth_error hs i = Some h -> sh_type h = 2 -> Z.of_nat i = symtab) /\
    (forall i h, nth_error hs i = Some h -> sh_type h = 4 ->
       exists k t, nth_error idx k = Some (sh_info h) /\ nth_error (eo_sections o) k = Some t /\
         sh_link h = symtab /\ inside f h /\ sh_entsize h = 12 /\ sh_size h = 12 * zlen (et_relocs t) /\
         forall j r, nth_error (et_relocs t) j = Some r -> reloc_at big f (sh_offset h + 12 * Z.of_nat j) r) /\
    (forall i i' h h', nth_error hs i = Some h -> nth_error hs i' = Some h' -> sh_type h = 4 -> sh_type h' = 4 ->
       sh_info h = sh_info h' -> i = i') /\
    (forall k t, nth_error (eo_sections o) k = Some t -> et_relocs t <> [] ->
       exists i h, nth_error hs i = Some h /\ sh_type h = 4 /\ nth_error idx k = Some (sh_info h)) /\
    (forall i h, nth_error hs i = Some h -> sh_type h <> 9) /\
    (forall i h, nth_error hs i = Some h -> exists n, string_at (contents f hn) (sh_name h) n) /\
    (forall i h, nth_error hs i = Some h -> sh_type h = 3 -> inside f h) /\
    (forall i h, nth_error hs i = Some h -> sh_type h = 1 -> Z.testbit (sh_flags h) 1 = false -> sh_flags h = 0 \/ Z.testbit (sh_flags h) 5 = true) /\
    (forall i h, nth_error hs i = Some h -> sh_type h = 8 -> Z.testbit (sh_flags h) 1 = true) }.

(** ** What they should say *)
Definition imported (y : asym) : bool :=
  match y_type (ay_sym y) with SymImport | SymGlobal => true | _ => false end.
(** The symbols that must be there: labels, constants and imports that are used, labels and what
    is exported. *)
Definition wanted (used : nat -> bool) (s : nat) (y : asym) : Prop :=
  (y_type (ay_sym y) = SymLabel \/ y_type (ay_sym y) = SymEqu \/ imported y = true) /\
  (y_reloc (ay_sym y) = true \/ used s = true \/ ay_export y = true \/ ay_fileExport y = true /\ imported y = false).
Definition says_symbol (y : asym) (e : esymbol) : Prop :=
  ey_name e = ay_name y /\ ey_value e = y_value (ay_sym y) /\ ey_global e = (ay_export y || imported y) /\
  ey_where e = (if y_constant (ay_sym y) then Absolute else if imported y then Undefined else
                match y_section (ay_sym y) with Some k => Within k | None => Undefined end).

(** Symbol [s] occurs in an expression. *)
Fixpoint mentions (s : nat) (e : expr) : Prop :=
  match e with
  | ENull => False
  | ENode TSymbol _ _ _ s' _ _ => s' = s
  | ENode _ _ _ _ _ l r => mentions s l \/ mentions s r
  end.
(** A relocation stands for a patch of 32 bits, highest byte first: in every layout of memory the
    symbol's address plus the addend is the value of the patch. *)
Definition stands_for (F : fmath) (table : list nat) (p : apatch) (r : ereloc) : Prop :=
  er_offset r = ap_offset p /\ er_relative r = false /\ ap_type p = PATCH_BE_32 /\
  exists s, nth_error table (er_symbol r) = Some s /\ mentions s (ap_expr p) /\
    forall E x, den F E (ap_expr p) = Some x -> u32 x = u32 (e_sym E s + er_addend r).
Definition covers_byte (p : apatch) (k : Z) : Prop := ap_offset p <= k < ap_offset p + 4.
Definition says_section (F : fmath) (A : astate) (alignment : Z) (table : list nat) (w : wsect) (t : esection) : Prop :=
  et_name t = ws_name w /\
  (exists g, nth_error (as_symbols A) (ws_group w) = Some g /\
     et_kind t = if ay_groupType g =? GROUP_TEXT then (if ay_data g then EData else ECode) else EBss) /\
  et_addr t = (if a_loadfixed (ws_sect w) then ws_imagePosition w else 0) /\
  et_align t = (if a_aligned (ws_sect w) then ws_align w else alignment) /\
  et_size t = ws_usedSpace w /\
  (et_kind t <> EBss -> zlen (et_data t) = zlen (ws_data w) /\
     forall k, 0 <= k < zlen (ws_data w) -> (forall p, In p (ws_patches w) -> ~ covers_byte p k) ->
       nth_error (et_data t) (Z.to_nat k) = nth_error (ws_data w) (Z.to_nat k)) /\
  StronglySorted (fun a b => er_offset a <= er_offset b) (et_relocs t) /\
  exists ps, Permutation ps (ws_patches w) /\ Forall2 (stands_for F table) ps (et_relocs t).
Definition says_program (F : fmath) (A : astate) (alignment : Z) (used : nat -> bool) (o : eobject) : Prop :=
  exists table : list nat, NoDup table /\
    (forall s, In s table <-> exists y, nth_error (as_symbols A) s = Some y /\ wanted used s y) /\
    Forall2 (fun s e => exists y, nth_error (as_symbols A) s = Some y /\ says_symbol y e) table (eo_symbols o) /\
    Forall2 (says_section F A alignment table) (as_sections A) (eo_sections o).

(** ** Programs that can be written *)
Definition no_zero (s : list Z) : Prop := Forall (fun b => b <> 0) s.
(** No symbol is subtracted, and every symbol outside a sum is defined somewhere. *)
Fixpoint adds_only (e : expr) : Prop :=
  match e with
  | ENull => True
  | ENode TOperation _ OpSub _ _ l r => adds_only l /\ expr_IsConstant r = true
  | ENode _ _ _ _ _ l r => adds_only l /\ adds_only r
  end.
Record writable (A : astate) (alignment : Z) (used : nat -> bool) : Prop := {
  wr_names : Forall (fun y => no_zero (ay_name y)) (as_symbols A);
  wr_sections : Forall (fun w => no_zero (ws_name w) /\ is_u32 (ws_imagePosition w) /\ is_u32 (ws_align w) /\ is_u32 (ws_usedSpace w) /\
    (forall g, nth_error (as_symbols A) (ws_group w) = Some g -> ay_groupType g = GROUP_TEXT -> zlen (ws_data w) = ws_usedSpace w) /\
    Forall (fun p => 0 <= ap_offset p < 2 ^ 31 /\ ap_type p = PATCH_BE_32 /\ opf (ap_expr p) /\ adds_only (ap_expr p) /\
      forall s, mentions s (ap_expr p) -> used s = true) (ws_patches w)) (as_sections A);
  wr_alignment : 0 < alignment < 2 ^ 32;
  wr_some : zlen (as_sections A) < 0x7f00 /\ zlen (as_symbols A) < 2 ^ 24 - 1 }.
