(** Model of the linker's program: sections with symbols, data and patches
    (/repo/xlink/section.h, symbol.h, patch.h), symbol resolution
    (/repo/xlink/section.c), smart linking (/repo/xlink/smart.c) and patching
    (/repo/xlink/patch.c). *)
From Coq Require Import ZArith List Bool.
From Verif Require Import Base AssignModel Arith LinkExprModel.
Import ListNotations.
Open Scope Z_scope.

(** symbol.h:28-36 ESymbolType. *)
Definition SYM_EXPORT : Z := 0.
Definition SYM_IMPORT : Z := 1.
Definition SYM_LOCAL : Z := 2.
Definition SYM_LOCALEXPORT : Z := 3.
Definition SYM_LOCALIMPORT : Z := 4.
Definition SYM_LINKER : Z := 255.

(** symbol.h:38-51 struct Symbol.  [ls_section] is the id of the section pointed
    to.  [ls_expr] is the expression of a linker symbol. *)
Record lsym : Type := LSym {
  ls_name : list Z; ls_type : Z; ls_value : Z; ls_resolved : bool;
  ls_file : Z; ls_line : Z; ls_section : option Z; ls_expr : list Z }.

(** patch.h:76-87 SPatch.  [pt_section] is the id of valueSection.  valueSymbol is
    left out: it is written but never read. *)
Record lpatch : Type := LPatch {
  pt_type : Z; pt_offset : Z; pt_expr : list Z; pt_section : option Z }.

(** section.h:35-39 SLineMapping. *)
Record lline : Type := LLine { ln_file : Z; ln_line : Z; ln_offset : Z }.

(** section.h:41-80 SSection.  The fields used by placement are in [sc_place]
    (AssignModel).  [sc_data] is None for a null data pointer. *)
Record lsect : Type := LSect {
  sc_place : section; sc_fileId : Z; sc_root : bool; sc_name : list Z;
  sc_symbols : list lsym; sc_lines : list lline;
  sc_data : option (list Z); sc_patches : list lpatch }.
Definition sc_id (s : lsect) : Z := s_id (sc_place s).
Definition sc_used (s : lsect) : bool := s_used (sc_place s).
Definition sc_cpuLocation (s : lsect) : Z := s_cpuLocation (sc_place s).
Definition sc_cpuBank (s : lsect) : Z := s_cpuBank (sc_place s).
Definition sc_isEqu (s : lsect) : bool := isEqu (sc_place s).

(** sect_Sections. *)
Definition program : Type := list lsect.

Definition set_symbols (s : lsect) (ys : list lsym) : lsect :=
  LSect (sc_place s) (sc_fileId s) (sc_root s) (sc_name s) ys (sc_lines s) (sc_data s) (sc_patches s).
Definition get_sym (p : program) (i j : nat) : option (lsect * lsym) :=
  match nth_error p i with
  | None => None
  | Some s => match nth_error (sc_symbols s) j with None => None | Some y => Some (s, y) end
  end.
Definition put_sym (p : program) (i j : nat) (y : lsym) : program :=
  match nth_error p i with
  | None => p
  | Some s => set_nth p i (set_symbols s (set_nth (sc_symbols s) j y))
  end.

(** The position of the first element satisfying [f]. *)
Fixpoint find_index {A : Type} (f : A -> bool) (l : list A) (k : nat) : option nat :=
  match l with
  | [] => None
  | x :: r => if f x then Some k else find_index f r (S k)
  end.
(** The first symbol satisfying [f] in a section satisfying [ok], in list order
    (the nested loops at section.c:53-75 and 84-106). *)
Fixpoint find_symbol (ok : lsect -> bool) (f : lsym -> bool) (p : program) (k : nat) : option (nat * nat) :=
  match p with
  | [] => None
  | s :: r =>
      match (if ok s then find_index f (sc_symbols s) 0 else None) with
      | Some j => Some (k, j)
      | None => find_symbol ok f r (S k)
      end
  end.

(** section.c:37-48: a symbol defined in its own section. *)
Definition resolveDefined (s : lsect) (y : lsym) : res lsym :=
  let! v := if sc_cpuLocation s =? -1 then Ok (ls_value y)
            else c_add (ls_value y) (sc_cpuLocation s) in
  Ok (LSym (ls_name y) (ls_type y) v true (ls_file y) (ls_line y) (Some (sc_id s)) (ls_expr y)).

Section Resolve.
(** patch_EvaluateExpression for a linker symbol (defined only by a SYMBOL line
    of a machine definition file): its value and section.  A parameter. *)
Variable linkerValue : program -> list Z -> res (Z * option Z).

(** section.c:59-70 / 90-101: take over an exported symbol.  The exported symbol
    is of a type defined in its own section. *)
Definition resolveFrom (p : program) (i j : nat) (y : lsym) (i' j' : nat) : res program :=
  match get_sym p i' j' with
  | None => UB
  | Some (d, x) =>
      let! p1 := if ls_resolved x then Ok p
                 else let! x' := resolveDefined d x in Ok (put_sym p i' j' x') in
      match get_sym p1 i' j' with
      | None => UB
      | Some (_, x1) =>
          Ok (put_sym p1 i j (LSym (ls_name y) (ls_type y) (ls_value x1) true (ls_file x1) (ls_line x1)
                                   (Some (sc_id d)) (ls_expr y)))
      end
  end.

Definition exports (name : list Z) (x : lsym) : bool :=
  (ls_type x =? SYM_EXPORT) && beq (ls_name x) name.
Definition exports_locally (name : list Z) (x : lsym) : bool :=
  ((ls_type x =? SYM_LOCALEXPORT) || (ls_type x =? SYM_EXPORT)) && beq (ls_name x) name.

(** section.c:34-123 resolveSymbol of symbol [j] of section [i]. *)
Definition resolveSymbol (p : program) (i j : nat) (allowImports : bool) : res program :=
  match get_sym p i j with
  | None => UB
  | Some (s, y) =>
      let t := ls_type y in
      if (t =? SYM_LOCALEXPORT) || (t =? SYM_EXPORT) || (t =? SYM_LOCAL) then
        let! y' := resolveDefined s y in Ok (put_sym p i j y')
      else if t =? SYM_IMPORT then
        match find_symbol (fun d => sc_used d || sc_isEqu d) (exports (ls_name y)) p 0 with
        | Some (i', j') => resolveFrom p i j y i' j'
        | None => if allowImports then Ok p else Err
        end
      else if t =? SYM_LOCALIMPORT then
        match find_symbol (fun d => sc_used d && (sc_fileId d =? sc_fileId s))
                (exports_locally (ls_name y)) p 0 with
        | Some (i', j') => resolveFrom p i j y i' j'
        | None => Err
        end
      else if t =? SYM_LINKER then
        let! (v, k) := linkerValue p (ls_expr y) in
        Ok (put_sym p i j (LSym (ls_name y) SYM_EXPORT v true (ls_file y) (ls_line y) k (ls_expr y)))
      else Err
  end.

(** section.c:188-201 sect_GetSymbol without its result: the symbol is resolved
    if it was not. *)
Definition getSymbol (p : program) (i j : nat) (allowImports : bool) : res program :=
  match nth_error p i with
  | None => UB
  | Some s =>
      match nth_error (sc_symbols s) j with
      | None => Err
      | Some y => if ls_resolved y then Ok p else resolveSymbol p i j allowImports
      end
  end.

(** section.c:125-132 resolveUnresolvedSymbols over the symbols from [j] on;
    [n] is how many are left. *)
Fixpoint resolveRest (p : program) (i j n : nat) : res program :=
  match n with
  | O => Ok p
  | S n' => let! p' := getSymbol p i j true in resolveRest p' i (S j) n'
  end.
(** section.c:236-239 sect_ResolveUnresolved over the sections from [i] on. *)
Fixpoint resolveSections (p : program) (i n : nat) : res program :=
  match n with
  | O => Ok p
  | S n' =>
      match nth_error p i with
      | None => UB
      | Some s =>
          let! p' := if sc_used s then resolveRest p i 0 (length (sc_symbols s)) else Ok p in
          resolveSections p' (S i) n'
      end
  end.
Definition sect_ResolveUnresolved (p : program) : res program := resolveSections p 0 (length p).

(** A section by its id (the pointers symbol->section). *)
Definition by_id (p : program) (k : Z) : option lsect := find (fun s => sc_id s =? k) p.

(** symbol.h:53-66 symbol_IsLocal. *)
Definition isLocal (y : lsym) : bool :=
  (ls_type y =? SYM_LOCAL) || (ls_type y =? SYM_LOCALEXPORT) || (ls_type y =? SYM_LOCALIMPORT).

(** patch.c:565-569: what the evaluator sees of a symbol. *)
Definition view (p : program) (y : lsym) : symview :=
  SymView (ls_value y) (option_map Z.to_nat (ls_section y))
    (match ls_section y with
     | None => false
     | Some k =>
         match by_id p k with
         | None => false
         | Some d => negb (sc_cpuLocation d =? -1) || sc_isEqu d
         end
     end)
    (isLocal y).

(** sect_GetSymbol as the expression evaluator uses it.  Simplification: the
    evaluator does not keep the resolution it causes; C18 proves that what a
    symbol resolves to does not depend on the resolutions made before. *)
Definition symbol_view (p : program) (i : nat) (allowImports : bool) (id : Z) : res symview :=
  let! p' := getSymbol p i (Z.to_nat id) allowImports in
  match get_sym p' i (Z.to_nat id) with
  | None => UB
  | Some (_, y) => Ok (view p' y)
  end.
(** section.c:210-224 sect_GetConstantSymbolBank.  An id out of range is read out
    of bounds; an import that stays unresolved is an error; a null section is
    dereferenced. *)
Definition symbol_bank (p : program) (i : nat) (id : Z) : res (option Z) :=
  match get_sym p i (Z.to_nat id) with
  | None => UB
  | Some _ =>
      let! p' := getSymbol p i (Z.to_nat id) false in
      match get_sym p' i (Z.to_nat id) with
      | None => UB
      | Some (_, y) =>
          match ls_section y with
          | None => UB
          | Some k =>
              match by_id p' k with
              | None => UB
              | Some d => Ok (if sc_cpuBank d =? -1 then None else Some (sc_cpuBank d))
              end
          end
      end
  end.

Variable groupProperty : program -> Z -> Z -> res Z.

(** The context of an expression of section [i] at [offset]. *)
Definition patch_ctx (p : program) (i : nat) (allowImports : bool) (s : lsect) (offset : Z) : linkctx :=
  LinkCtx (symbol_view p i allowImports) (symbol_bank p i) (groupProperty p) (Z.to_nat (sc_id s))
    (sc_cpuLocation s) offset.
End Resolve.

(** ** Storing a value *)

(** data[k] = b; outside the data it is out of bounds. *)
Definition store (data : list Z) (k b : Z) : res (list Z) :=
  if (0 <=? k) && (k <? zlen data) then Ok (set_nth data (Z.to_nat k) b) else UB.
Fixpoint stores (data : list Z) (k : Z) (bs : list Z) : res (list Z) :=
  match bs with
  | [] => Ok data
  | b :: r => let! d := store data k b in stores d (k + 1) r
  end.

(** patch.h:24-32 EPatchType. *)
Definition PATCH_8 : Z := 0.
Definition PATCH_LE_16 : Z := 1.
Definition PATCH_BE_16 : Z := 2.
Definition PATCH_LE_32 : Z := 3.
Definition PATCH_BE_32 : Z := 4.
Definition PATCH_NONE : Z := 5.
Definition PATCH_RELOC : Z := 6.

(** patch.c:683-727: the switch on the patch type.  [plain] says that the value
    has no symbol. *)
Definition storePatch (data : list Z) (type offset : Z) (plain : bool) (v : Z) : res (list Z) :=
  let b k := u8 (u32 v / 2 ^ k) in
  if type =? PATCH_8 then
    if plain && (v >=? -128) && (v <=? 255) then stores data offset [b 0] else Err
  else if type =? PATCH_LE_16 then
    if plain && (v >=? -32768) && (v <=? 65535) then stores data offset [b 0; b 8] else Err
  else if type =? PATCH_BE_16 then
    if plain && (v >=? -32768) && (v <=? 65535) then stores data offset [b 8; b 0] else Err
  else if type =? PATCH_LE_32 then stores data offset [b 0; b 8; b 16; b 24]
  else if type =? PATCH_BE_32 then stores data offset [b 24; b 16; b 8; b 0]
  else if (type =? PATCH_NONE) || (type =? PATCH_RELOC) then Ok data
  else Err.

(** xasm/motor/patch.c:401-450: the assembler's functions; the table has no
    entry for other types. *)
Definition asmPatch (data : list Z) (type offset v : Z) : res (list Z) :=
  let b k := u8 (u32 v / 2 ^ k) in
  if type =? PATCH_8 then
    if (v >=? -128) && (v <=? 255) then stores data offset [b 0] else Err
  else if type =? PATCH_LE_16 then
    if (v >=? -32768) && (v <=? 65535) then stores data offset [b 0; b 8] else Err
  else if type =? PATCH_BE_16 then
    if (v >=? -32768) && (v <=? 65535) then stores data offset [b 8; b 0] else Err
  else if type =? PATCH_LE_32 then stores data offset [b 0; b 8; b 16; b 24]
  else if type =? PATCH_BE_32 then stores data offset [b 24; b 16; b 8; b 0]
  else UB.

(** ** Patching *)
Section Patch.
Variable F : fmath.
Variable allowReloc onlySectionRelativeReloc : bool.

(** patch.c:664-737: one patch.  [eval] is calculatePatchValue.  A patch whose
    evaluation returns false is left as it is. *)
Definition onePatch (eval : lpatch -> res (option entry)) (data : list Z) (q : lpatch)
    : res (list Z * lpatch) :=
  let! oe := eval q in
  match oe with
  | None => Ok (data, q)
  | Some e =>
      match en_symbol e with
      | None =>
          let! d := storePatch data (pt_type q) (pt_offset q) true (en_value e) in
          Ok (d, if allowReloc then LPatch PATCH_RELOC (pt_offset q) [] (pt_section q)
                 else LPatch PATCH_NONE 0 [] None)
      | Some y =>
          if negb allowReloc then Err else
          if onlySectionRelativeReloc || v_local y then
            let! v := c_add (en_value e) (v_value y) in
            let! d := storePatch data (pt_type q) (pt_offset q) false v in
            Ok (d, LPatch PATCH_RELOC (pt_offset q) [] (option_map Z.of_nat (v_section y)))
          else
            let! d := storePatch data (pt_type q) (pt_offset q) false (en_value e) in
            Ok (d, LPatch PATCH_RELOC (pt_offset q) [] None)
      end
  end.
Fixpoint patchAll (eval : lpatch -> res (option entry)) (data : list Z) (qs : list lpatch)
    : res (list Z * list lpatch) :=
  match qs with
  | [] => Ok (data, [])
  | q :: r =>
      let! (d, q') := onePatch eval data q in
      let! (d', r') := patchAll eval d r in
      Ok (d', q' :: r')
  end.

Variable linkerValue : program -> list Z -> res (Z * option Z).
Variable groupProperty : program -> Z -> Z -> res Z.
Variable allowImports : bool.

(** patch.c:655-750 patchSection of section [i].  A section without data has no
    patches. *)
Definition patchSection (p : program) (i : nat) (s : lsect) : res lsect :=
  let eval q := calculateExpressionValue F
                  (patch_ctx linkerValue groupProperty p i allowImports s (pt_offset q)) (pt_expr q) in
  match sc_data s with
  | None => match sc_patches s with [] => Ok s | _ => UB end
  | Some d =>
      let! (d', qs) := patchAll eval d (sc_patches s) in
      Ok (LSect (sc_place s) (sc_fileId s) (sc_root s) (sc_name s) (sc_symbols s) (sc_lines s) (Some d') qs)
  end.
(** patch.c:758-764 patch_Process; sections from [i] on. *)
Fixpoint patchSections (p : program) (i : nat) (ss : list lsect) : res (list lsect) :=
  match ss with
  | [] => Ok []
  | s :: r =>
      let! s' := if sc_used s then patchSection p i s else Ok s in
      let! r' := patchSections p (S i) r in
      Ok (s' :: r')
  end.
Definition patch_Process (p : program) : res program := patchSections p 0 p.
End Patch.

(** ** Smart linking (smart.c) *)
Definition set_used (s : lsect) : lsect :=
  let q := sc_place s in
  LSect (Section_ (s_id q) (s_group q) (s_cpuByteLocation q) (s_cpuBank q) (s_cpuLocation q) (s_imageLocation q)
           (s_overlay q) (s_minimumWordSize q) (s_byteAlign q) (s_page q) (s_size q) true (s_assigned q) (s_pool q))
        (sc_fileId s) (sc_root s) (sc_name s) (sc_symbols s) (sc_lines s) (sc_data s) (sc_patches s).

(** section.c:166-175 sectionHasSymbol. *)
Definition sectionHasSymbol (s : lsect) (name : list Z) (type : Z) : option lsym :=
  find (fun y => (ls_type y =? type) && beq (ls_name y) name) (sc_symbols s).
(** section.c:177-185 findSectionContainingAddress.  Simplification: the sum wraps
    instead of being undefined on overflow. *)
Definition findSectionContainingAddress (p : program) (v fileId : Z) : option nat :=
  find_index (fun s => (sc_fileId s =? fileId) && (sc_cpuLocation s <=? v) &&
                       (v <? s32 (sc_cpuLocation s + s_size (sc_place s)))) p 0.
Definition index_of (p : program) (k : Z) : option nat := find_index (fun s => sc_id s =? k) p 0.
(** section.c:297-310 sect_FindSectionWithExportedSymbol, from position [k] on. *)
Fixpoint findExporter (p0 p : program) (name : list Z) (k : nat) : option nat :=
  match p with
  | [] => None
  | s :: r =>
      match (match sectionHasSymbol s name SYM_EXPORT with
             | Some y => Some y
             | None => sectionHasSymbol s name SYM_LINKER
             end) with
      | Some y =>
          match ls_section y with
          | None => if sc_isEqu s then findSectionContainingAddress p0 (ls_value y) (sc_fileId s) else Some k
          | Some d => index_of p0 d
          end
      | None => findExporter p0 r name (S k)
      end
  end.
Definition sect_FindSectionWithExportedSymbol (p : program) (name : list Z) : option nat :=
  findExporter p p name 0.
(** section.c:312-326 sect_FindSectionWithLocallyExportedSymbol. *)
Fixpoint findLocalExporter (p0 p : program) (name : list Z) (fileId : Z) (k : nat) : option nat :=
  match p with
  | [] => sect_FindSectionWithExportedSymbol p0 name
  | s :: r =>
      match (if sc_fileId s =? fileId then sectionHasSymbol s name SYM_LOCALEXPORT else None) with
      | Some y => if sc_isEqu s then findSectionContainingAddress p0 (ls_value y) (sc_fileId s) else Some k
      | None => findLocalExporter p0 r name fileId (S k)
      end
  end.
Definition sect_FindSectionWithLocallyExportedSymbol (p : program) (name : list Z) (fileId : Z) : option nat :=
  findLocalExporter p p name fileId 0.

(** smart.c:39-57 useSectionWithGlobalExport, useSectionWithLocalExport: [mark] is
    markReferencedSectionsUsed. *)
Definition useSection (mark : program -> nat -> res program) (p : program) (k : nat) : res program :=
  match nth_error p k with
  | None => UB
  | Some d => if sc_used d then Ok p else mark p k
  end.
Definition useSectionWithGlobalExport (mark : program -> nat -> res program) (p : program) (name : list Z)
    : res program :=
  match sect_FindSectionWithExportedSymbol p name with
  | None => Err
  | Some k => useSection mark p k
  end.
Definition useSectionWithLocalExport (mark : program -> nat -> res program) (p : program) (name : list Z)
    (fileId : Z) : res program :=
  match sect_FindSectionWithLocallyExportedSymbol p name fileId with
  | None => Ok p
  | Some k => useSection mark p k
  end.
(** smart.c:30-36: the loop over the symbols of a section. *)
Fixpoint followSymbols (mark : program -> nat -> res program) (fileId : Z) (p : program) (ys : list lsym)
    : res program :=
  match ys with
  | [] => Ok p
  | y :: r =>
      let! p' := if ls_type y =? SYM_LOCALIMPORT then useSectionWithLocalExport mark p (ls_name y) fileId
                 else if ls_type y =? SYM_IMPORT then useSectionWithGlobalExport mark p (ls_name y)
                 else Ok p in
      followSymbols mark fileId p' r
  end.
(** smart.c:27-37 markReferencedSectionsUsed.  The recursion of the C code is
    bounded by [fuel]; running out is UB, and C20 proves that it does not
    happen. *)
Fixpoint markUsed (fuel : nat) (p : program) (i : nat) : res program :=
  match fuel with
  | O => UB
  | S f =>
      match nth_error p i with
      | None => UB
      | Some s => followSymbols (markUsed f) (sc_fileId s) (set_nth p i (set_used s)) (sc_symbols s)
      end
  end.

(** smart.c:59-66 useRootedSections, positions [k], [k+1], ... *)
Fixpoint useRooted (fuel : nat) (p : program) (ks : list nat) : res program :=
  match ks with
  | [] => Ok p
  | k :: r =>
      match nth_error p k with
      | None => UB
      | Some s =>
          let! p' := if sc_root s then markUsed fuel p k else Ok p in
          useRooted fuel p' r
      end
  end.

(** smart.c:70-84 smart_Process. *)
Definition smart_Process (fuel : nat) (p : program) (name : option (list Z)) : res program :=
  match name with
  | None => Ok (map set_used p)
  | Some n =>
      let! p' := useSectionWithGlobalExport (markUsed fuel) p n in
      useRooted fuel p' (seq 0 (length p))
  end.
