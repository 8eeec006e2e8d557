(** Model of the assembler's sections: /repo/xasm/motor/section.c, the parts of
    /repo/xasm/motor/linemap.c and /repo/xasm/motor/patch.c that record lines and
    patches, and the data, space and section directives of
    /repo/xasm/motor/parse_directive.c. *)
From Coq Require Import ZArith List Bool.
From Verif Require Import Base Arith ExprModel ObjWriteModel OptModel.
Import ListNotations.
Open Scope Z_scope.

(** errors.h:24-103 EError. *)
Definition ERROR_EXPECT_EXPR : Z := 108.
Definition ERROR_OPERAND_RANGE : Z := 109.
Definition ERROR_SECTION_DATA : Z := 113.
Definition ERROR_SECTION_MISSING : Z := 116.
Definition ERROR_EXPR_BAD : Z := 122.
Definition ERROR_IDENTIFIER_GROUP : Z := 125.
Definition ERROR_EXPR_POSITIVE : Z := 127.
Definition ERROR_SECT_EXISTS : Z := 135.
Definition ERROR_NO_FILE : Z := 137.
Definition ERROR_NO_SECT : Z := 141.
Definition ERROR_SECT_EXISTS_DIFFERENT_KIND : Z := 160.
Definition ERROR_SECT_FLAGS_COMBINATION : Z := 161.

(** symbol.h EGroupType. *)
Inductive gtype : Type := GText | GBss.
(** section.h:32-59 SSection: the fields of [wsect] and allocatedSpace. *)
Record msect : Type := MSect { m_w : wsect; m_alloc : Z }.

(** The assembler's state as far as sections are concerned.  [x_groups] tells
    which symbols are groups and of what type.  [x_opts] is *opt_Current.
    [x_file] and [x_line] are lexctx_TokenFileInfo and lexctx_TokenLineNumber.
    [x_sections] is sect_Sections, [x_current] sect_Current, [x_scope]
    sym_CurrentScope, [x_stack] g_sectionStack, [x_errors] the errors reported. *)
Record xstate : Type := XState {
  x_wordSize : Z; x_banks : bool; x_groups : nat -> option gtype;
  x_opts : options; x_file : Z; x_line : Z;
  x_sections : list msect; x_current : option nat; x_scope : option nat;
  x_stack : list (option nat * option nat); x_errors : list Z }.

Definition with_sections (l : list msect) (st : xstate) : xstate :=
  XState (x_wordSize st) (x_banks st) (x_groups st) (x_opts st) (x_file st) (x_line st)
    l (x_current st) (x_scope st) (x_stack st) (x_errors st).
Definition with_current (c : option nat) (st : xstate) : xstate :=
  XState (x_wordSize st) (x_banks st) (x_groups st) (x_opts st) (x_file st) (x_line st)
    (x_sections st) c (x_scope st) (x_stack st) (x_errors st).
Definition with_options (o : options) (st : xstate) : xstate :=
  XState (x_wordSize st) (x_banks st) (x_groups st) o (x_file st) (x_line st)
    (x_sections st) (x_current st) (x_scope st) (x_stack st) (x_errors st).
Definition with_scope (s : option nat) (st : xstate) : xstate :=
  XState (x_wordSize st) (x_banks st) (x_groups st) (x_opts st) (x_file st) (x_line st)
    (x_sections st) (x_current st) s (x_stack st) (x_errors st).
Definition with_stack (s : list (option nat * option nat)) (st : xstate) : xstate :=
  XState (x_wordSize st) (x_banks st) (x_groups st) (x_opts st) (x_file st) (x_line st)
    (x_sections st) (x_current st) (x_scope st) s (x_errors st).
Definition with_position (f l : Z) (st : xstate) : xstate :=
  XState (x_wordSize st) (x_banks st) (x_groups st) (x_opts st) f l
    (x_sections st) (x_current st) (x_scope st) (x_stack st) (x_errors st).
(** errors.c err_Error: the error is counted and assembly goes on. *)
Definition err_Error (n : Z) (st : xstate) : xstate :=
  XState (x_wordSize st) (x_banks st) (x_groups st) (x_opts st) (x_file st) (x_line st)
    (x_sections st) (x_current st) (x_scope st) (x_stack st) (x_errors st ++ [n]).

Fixpoint replace_nth {A : Type} (k : nat) (x : A) (l : list A) : list A :=
  match l, k with
  | [], _ => []
  | _ :: r, O => x :: r
  | y :: r, S k' => y :: replace_nth k' x r
  end.
(** *sect_Current; a null pointer is dereferenced. *)
Definition the_current (st : xstate) : res (nat * msect) :=
  match x_current st with
  | None => UB
  | Some k => match nth_error (x_sections st) k with None => UB | Some m => Ok (k, m) end
  end.

(** Updates of a section. *)
Definition set_alloc (a : Z) (m : msect) : msect := MSect (m_w m) a.
Definition set_pc (pc : Z) (a : asect) : asect :=
  ASect (a_loadfixed a) (a_bankfixed a) (a_orgfixed a) (a_aligned a) (a_root a) (a_paged a)
    (a_cpuOrigin a) pc (a_cpuAdjust a) (a_bank a).
Definition set_content (pc : Z) (lines : list aline) (used : Z) (data : list Z) (ps : list apatch) (m : msect)
    : msect :=
  let w := m_w m in
  MSect (WSect (set_pc pc (ws_sect w)) (ws_name w) (ws_group w) (ws_imagePosition w) (ws_align w) (ws_page w)
           lines used data ps) (m_alloc m).
Definition m_pc (m : msect) : Z := a_pc (ws_sect (m_w m)).
Definition m_used (m : msect) : Z := ws_usedSpace (m_w m).
Definition m_data (m : msect) : list Z := ws_data (m_w m).
Definition m_patches (m : msect) : list apatch := ws_patches (m_w m).
Definition m_lines (m : msect) : list aline := ws_lines (m_w m).

(** linemap.c:68-93 addEntry, linemap_Add and linemap_AddCurrent. *)
Definition addEntry (file line offset : Z) (l : list aline) : list aline :=
  match rev l with
  | e :: _ => if (al_file e =? file) && (al_line e =? line) then l else l ++ [ALine file line offset]
  | [] => [ALine file line offset]
  end.
Definition linemap_AddCurrent (st : xstate) : res xstate :=
  let! (k, m) := the_current st in
  let m1 := set_content (m_pc m) (addEntry (x_file st) (x_line st) (m_pc m) (m_lines m)) (m_used m) (m_data m)
              (m_patches m) m in
  Ok (with_sections (replace_nth k m1 (x_sections st)) st).

(** section.c:71-83 currentSectionType.  An internal error ends the program. *)
Definition currentSectionType (st : xstate) : res gtype :=
  match x_current st with
  | None => Err
  | Some k =>
      match nth_error (x_sections st) k with
      | None => UB
      | Some m => match x_groups st (ws_group (m_w m)) with None => Err | Some t => Ok t end
      end
  end.

(** section.c:123-128 alignToNext, on uint32_t. *)
Definition alignToNext (value alignment : Z) : res Z :=
  if alignment =? 0 then UB else
  let t := u32 (value + alignment - 1) in Ok (t - t mod alignment).
Definition SECTION_GROWTH_AMOUNT : Z := 16384.
(** section.c:130-142 growCurrentSection.  A failed assertion counts as undefined
    behaviour, here and below.  The allocation succeeds; if its size has wrapped
    around so that the buffer shrinks, the behaviour is undefined. *)
Definition growCurrentSection (count : Z) (st : xstate) : res xstate :=
  if x_wordSize st >? count then UB else
  let! (k, m) := the_current st in
  let total := u32 (count + m_used m) in
  if total >? m_alloc m then
    let! a := alignToNext total SECTION_GROWTH_AMOUNT in
    if a <? m_used m then UB else
    Ok (with_sections (replace_nth k (set_alloc a m) (x_sections st)) st)
  else Ok st.
(** section.c:144-160 checkAvailableSpace. *)
Definition checkAvailableSpace (count : Z) (st : xstate) : res (bool * xstate) :=
  if count =? 0 then Ok (true, st) else
  if x_wordSize st >? count then UB else
  match x_current st with
  | None => Ok (false, err_Error ERROR_SECTION_MISSING st)
  | Some _ =>
      let! t := currentSectionType st in
      match t with
      | GText => let! st1 := growCurrentSection count st in Ok (true, st1)
      | GBss => Ok (true, st)
      end
  end.

(** patch.c:454-471 patch_Create: a new patch goes after the first one. *)
Definition add_patch (p : apatch) (l : list apatch) : list apatch :=
  match l with [] => [p] | h :: t => h :: p :: t end.
(** data[usedSpace++] = ... for each byte, and the program counter. *)
Definition store (bs : list Z) (patch : option (Z * expr)) (st : xstate) : res xstate :=
  let! (k, m) := the_current st in
  if m_used m + zlen bs >? m_alloc m then UB else
  let ps := match patch with
            | None => m_patches m
            | Some (t, e) => add_patch (APatch (m_used m) t e) (m_patches m)
            end in
  let m1 := set_content (u32 (m_pc m + zlen bs / x_wordSize st)) (m_lines m) (u32 (m_used m + zlen bs))
              (m_data m ++ bs) ps m in
  Ok (with_sections (replace_nth k m1 (x_sections st)) st).

(** The common form of sect_OutputConst8/16/32 and sect_OutputReloc8/16/32: the
    assertion, checkAvailableSpace, and the two section types. *)
Definition output (bs : list Z) (patch : option (Z * expr)) (onBss : xstate -> res xstate) (st : xstate)
    : res xstate :=
  if x_wordSize st >? zlen bs then UB else
  let! (ok, st1) := checkAvailableSpace (zlen bs) st in
  if ok then
    let! t := currentSectionType st1 in
    match t with
    | GText => let! st2 := linemap_AddCurrent st1 in store bs patch st2
    | GBss => onBss (err_Error ERROR_SECTION_DATA st1)
    end
  else Ok st1.

(** section.c:207-230, 275-313, 360-402 sect_OutputConst8, 16 and 32. *)
Definition sect_OutputConst8 (v : Z) (st : xstate) : res xstate := output [u8 v] None Ok st.
Definition sect_OutputConst16 (v : Z) (st : xstate) : res xstate :=
  output (match o_endianness (x_opts st) with
          | LittleEndian => [u8 v; u8 (v / 256)]
          | BigEndian => [u8 (v / 256); u8 v]
          end) None Ok st.
Definition sect_OutputConst32 (v : Z) (st : xstate) : res xstate :=
  output (match o_endianness (x_opts st) with
          | LittleEndian => [u8 v; u8 (v / 256); u8 (v / 65536); u8 (v / 16777216)]
          | BigEndian => [u8 (v / 16777216); u8 (v / 65536); u8 (v / 256); u8 v]
          end) None Ok st.

Fixpoint repeatM (n : nat) (f : xstate -> res xstate) (st : xstate) : res xstate :=
  match n with O => Ok st | S n' => let! st1 := f st in repeatM n' f st1 end.
(** section.c:521-552 sect_SkipBytes. *)
Definition sect_SkipBytes (count : Z) (st : xstate) : res xstate :=
  if count =? 0 then Ok st else
  if x_wordSize st >? count then UB else
  let! (ok, st1) := checkAvailableSpace count st in
  if ok then
    let! st2 := linemap_AddCurrent st1 in
    let! t := currentSectionType st2 in
    match t with
    | GText =>
        let fill := o_fill (x_opts st) in
        let! st3 := repeatM (Z.to_nat (count / 2)) (sect_OutputConst16 (fill * 256 + fill)) st2 in
        repeatM (Z.to_nat (count mod 2)) (sect_OutputConst8 fill) st3
    | GBss =>
        let! (k, m) := the_current st2 in
        let m1 := set_content (u32 (m_pc m + count / x_wordSize st2)) (m_lines m) (u32 (m_used m + count))
                    (m_data m) (m_patches m) m in
        Ok (with_sections (replace_nth k m1 (x_sections st2)) st2)
    end
  else Ok st1.
(** section.c:513-519 sect_Align. *)
Definition sect_Align (alignment : Z) (st : xstate) : res xstate :=
  if x_wordSize st >? alignment then UB else
  let! (k, m) := the_current st in
  let! t := alignToNext (m_used m) alignment in
  sect_SkipBytes (u32 (t - m_used m)) st.

(** section.c:232-273, 315-358, 404-449 sect_OutputReloc8/16, sect_OutputRel32 and
    sect_OutputExpr8/16/32.  The types are those of patch.h EPatchType. *)
Definition sect_OutputReloc8 (e : expr) (st : xstate) : res xstate :=
  output [0] (Some (0, e)) (sect_SkipBytes 1) st.
Definition sect_OutputReloc16 (e : expr) (st : xstate) : res xstate :=
  output [0; 0] (Some (match o_endianness (x_opts st) with LittleEndian => 1 | BigEndian => 2 end, e))
    (sect_SkipBytes 2) st.
Definition sect_OutputRel32 (e : expr) (st : xstate) : res xstate :=
  output [0; 0; 0; 0] (Some (match o_endianness (x_opts st) with LittleEndian => 3 | BigEndian => 4 end, e))
    (sect_SkipBytes 4) st.
Definition sect_OutputExpr8 (e : expr) (st : xstate) : res xstate :=
  if x_wordSize st >? 1 then UB else
  if isNull e then Ok (err_Error ERROR_EXPR_BAD st)
  else if expr_IsConstant e then sect_OutputConst8 (u8 (e_v e)) st
  else sect_OutputReloc8 e st.
Definition sect_OutputExpr16 (e : expr) (st : xstate) : res xstate :=
  if x_wordSize st >? 2 then UB else
  if isNull e then Ok (err_Error ERROR_EXPR_BAD st)
  else if expr_IsConstant e then sect_OutputConst16 (u16 (e_v e)) st
  else sect_OutputReloc16 e st.
Definition sect_OutputExpr32 (e : expr) (st : xstate) : res xstate :=
  if x_wordSize st >? 4 then UB else
  if isNull e then Ok (err_Error ERROR_EXPR_BAD st)
  else if expr_IsConstant e then sect_OutputConst32 (u32 (e_v e)) st
  else sect_OutputRel32 e st.

(** section.c:470-511 sect_OutputBinaryFile: [file] is the content of the file, None
    if it cannot be opened.  Simplification: the whole file is read. *)
Definition sect_OutputBinaryFile (file : option (list Z)) (st : xstate) : res xstate :=
  match file with
  | None => Ok (err_Error ERROR_NO_FILE st)
  | Some bs =>
      let! (ok, st1) := checkAvailableSpace (u32 (zlen bs)) st in
      if ok then
        let! t := currentSectionType st1 in
        match t with
        | GText => let! st2 := linemap_AddCurrent st1 in store bs None st2
        | GBss => Ok (err_Error ERROR_SECTION_DATA st1)
        end
      else Ok st1
  end.

(** ** Switching sections *)

(** section.c:85-101 createSection: the section goes to the end of the list. *)
Definition createSection (name : list Z) (group : nat) (a : asect) (imagePosition align page : Z) (st : xstate)
    : xstate :=
  let m := MSect (WSect a name group imagePosition align page [] 0 [] []) 0 in
  with_current (Some (length (x_sections st))) (with_sections (x_sections st ++ [m]) st).
(** section.c:103-121 findSection: the index of the section found, and whether
    there was an error. *)
Fixpoint findSection (name : list Z) (group : option nat) (l : list msect) (k : nat) : option nat * bool :=
  match l with
  | [] => (None, false)
  | m :: r =>
      if beq (ws_name (m_w m)) name then
        match group with
        | Some g => if Nat.eqb (ws_group (m_w m)) g then (Some k, false) else (None, true)
        | None => (Some k, false)
        end
      else findSection name group r (S k)
  end.
Definition no_flags : asect := ASect false false false false false false 0 0 0 0.
(** section.c:554-569 sect_SwitchTo. *)
Definition sect_SwitchTo (name : list Z) (group : nat) (st : xstate) : xstate :=
  match findSection name (Some group) (x_sections st) 0 with
  | (Some k, _) => with_current (Some k) st
  | (None, e) =>
      createSection name group no_flags 0 0 0 (if e then err_Error ERROR_SECT_EXISTS st else st)
  end.
(** The flags, origin, bank, alignment and page given to sect_SwitchTo_KIND. *)
Record kind : Type := Kind {
  k_load : option Z; k_bank : option Z; k_align : option Z; k_page : option Z; k_root : bool }.
Definition given (o : option Z) : bool := match o with Some _ => true | None => false end.
Definition value_or_0 (o : option Z) : Z := match o with Some z => z | None => 0 end.
Definition same_kind (m : msect) (d : kind) : bool :=
  let a := ws_sect (m_w m) in
  eqb (a_loadfixed a) (given (k_load d)) && eqb (a_bankfixed a) (given (k_bank d)) &&
  eqb (a_orgfixed a) false && eqb (a_aligned a) (given (k_align d)) &&
  eqb (a_root a) (k_root d) && eqb (a_paged a) (given (k_page d)) &&
  (match k_bank d with None => true | Some z => a_bank a =? z end) &&
  (match k_load d with None => true | Some z => a_cpuOrigin a =? z end) &&
  (match k_align d with None => true | Some z => ws_align (m_w m) =? z end) &&
  (match k_page d with None => true | Some z => ws_page (m_w m) =? z end).
(** section.c:571-605 sect_SwitchTo_KIND. *)
Definition sect_SwitchTo_KIND (name : list Z) (group : nat) (d : kind) (st : xstate) : res xstate :=
  if given (k_bank d) && negb (x_banks st) then Err else
  match findSection name (Some group) (x_sections st) 0 with
  | (Some k, _) =>
      match nth_error (x_sections st) k with
      | None => UB
      | Some m =>
          if same_kind m d then Ok (with_current (Some k) st)
          else Ok (err_Error ERROR_SECT_EXISTS_DIFFERENT_KIND st)
      end
  | (None, e) =>
      let origin := value_or_0 (k_load d) in
      Ok (createSection name group
            (ASect (given (k_load d)) (given (k_bank d)) false (given (k_align d)) (k_root d) (given (k_page d))
               origin 0 0 (value_or_0 (k_bank d)))
            (u32 (origin * x_wordSize st)) (value_or_0 (k_align d)) (value_or_0 (k_page d))
            (if e then err_Error ERROR_SECT_EXISTS st else st))
  end.
(** section.c:607-615 sect_SwitchTo_NAMEONLY. *)
Definition sect_SwitchTo_NAMEONLY (name : list Z) (st : xstate) : xstate :=
  match findSection name None (x_sections st) 0 with
  | (Some k, _) => with_current (Some k) st
  | (None, _) => err_Error ERROR_NO_SECT (with_current None st)
  end.
(** section.c:634-642 sect_SetOriginAddress. *)
Definition set_origin (org : Z) (m : msect) : msect :=
  let w := m_w m in
  let a := ws_sect w in
  MSect (WSect (ASect (a_loadfixed a) (a_bankfixed a) true (a_aligned a) (a_root a) (a_paged a)
                  (a_cpuOrigin a) (a_pc a) (u32 (org - u32 (a_pc a + a_cpuOrigin a))) (a_bank a))
           (ws_name w) (ws_group w) (ws_imagePosition w) (ws_align w) (ws_page w) (ws_lines w)
           (ws_usedSpace w) (ws_data w) (ws_patches w)) (m_alloc m).
Definition sect_SetOriginAddress (org : Z) (st : xstate) : res xstate :=
  match x_current st with
  | None => Ok (err_Error ERROR_SECTION_MISSING st)
  | Some _ =>
      let! (k, m) := the_current st in
      Ok (with_sections (replace_nth k (set_origin org m) (x_sections st)) st)
  end.
(** section.c:653-679 sect_Push and sect_Pop. *)
Definition sect_Push (st : xstate) : xstate := with_stack ((x_current st, x_scope st) :: x_stack st) st.
Definition sect_Pop (st : xstate) : option xstate :=
  match x_stack st with
  | (c, s) :: r => Some (with_stack r (with_scope s (with_current c st)))
  | [] => None
  end.

(** ** Directives *)

(** An argument of DB, DW or DL: an expression, a string, or nothing. *)
Inductive darg : Type := AExpr (e : expr) | AString (s : list Z) | AEmpty.
Fixpoint outputString (s : list Z) (st : xstate) : res xstate :=
  match s with [] => Ok st | c :: r => let! st1 := sect_OutputConst8 c st in outputString r st1 end.
(** expression.c:357-368 expr_CheckRange: a value known to be out of range is
    reported and replaced by zero.  A null expression (35-44 assertExpressions) ends
    the program. *)
Definition range_checked (e : expr) (low high : Z) (st : xstate) : res (expr * xstate) :=
  if isNull e then Err else
  match expr_CheckRange e low high with
  | Ok e1 => Ok (e1, st)
  | Err => Ok (expr_Const 0, err_Error ERROR_OPERAND_RANGE st)
  | UB => UB
  end.
(** parse_directive.c:393-424 handleDb: one argument.  The test of the checked
    expression against NULL never fails. *)
Definition handleDb (a : darg) (st : xstate) : res xstate :=
  match a with
  | AExpr e =>
      let! (e1, st1) := range_checked e (-128) 255 st in sect_OutputExpr8 e1 st1
  | AString s => outputString s st
  | AEmpty => sect_SkipBytes 1 st
  end.
(** parse_directive.c:426-448 handleDw and 450-472 handleDl: one argument; [last]
    tells whether no comma follows.  The latter without floating point. *)
Definition missing (last : bool) (st : xstate) : xstate :=
  if last then err_Error ERROR_EXPECT_EXPR st else st.
Definition handleDw (last : bool) (a : darg) (st : xstate) : res xstate :=
  match a with
  | AExpr e =>
      let! (e1, st1) := range_checked e (-32768) 65535 st in sect_OutputExpr16 e1 st1
  | _ => sect_SkipBytes 2 (missing last st)
  end.
Definition handleDl (last : bool) (a : darg) (st : xstate) : res xstate :=
  match a with
  | AExpr e => sect_OutputExpr32 e st
  | _ => sect_SkipBytes 4 (missing last st)
  end.
Fixpoint handleArgs (h : bool -> darg -> xstate -> res xstate) (l : list darg) (st : xstate) : res xstate :=
  match l with
  | [] => Ok st
  | a :: r => let! st1 := h (match r with [] => true | _ => false end) a st in handleArgs h r st1
  end.
(** parse_directive.c:297-309 defineSpace. *)
Definition defineSpace (multiplier n : Z) (st : xstate) : res xstate :=
  if n >=? 0 then sect_SkipBytes (u32 (u32 n * multiplier)) st else Ok (err_Error ERROR_EXPR_POSITIVE st).
(** parse_directive.c:364-391 handleEven and handleCnop. *)
Definition handleEven (st : xstate) : res xstate := sect_Align 2 st.
Definition handleCnop (offset align : Z) (st : xstate) : res xstate :=
  if offset >=? 0 then
    if align >=? 0 then let! st1 := sect_Align align st in sect_SkipBytes offset st1
    else Ok (err_Error ERROR_EXPR_POSITIVE st)
  else Ok (err_Error ERROR_EXPR_POSITIVE st).
(** parse_directive.c:157-252 handleSection with a group.  An address of $FFFFFFFF is
    taken for none.  Fixed address and alignment: the alignment must hold. *)
Definition handleSection (name : list Z) (group : nat) (d : kind) (st : xstate) : res xstate :=
  match x_groups st group with
  | None => Ok (err_Error ERROR_IDENTIFIER_GROUP st)
  | Some _ =>
  let load := match k_load d with Some z => if z =? UINT32_MAX then None else Some z | None => None end in
  let! align :=
    match load, k_align d with
    | Some z, Some a => if a =? 0 then UB else if z mod a =? 0 then Ok None else Err
    | _, a => Ok a
    end in
  let d1 := Kind load (k_bank d) align (k_page d) (k_root d) in
  if given load || given (k_bank d) || given align || given (k_page d) || k_root d
  then sect_SwitchTo_KIND name group d1 st
  else Ok (sect_SwitchTo name group st)
  end.
(** parse_directive.c:730-743 handlePushs and handlePops. *)
Definition handlePops (st : xstate) : xstate :=
  match sect_Pop st with Some st1 => st1 | None => err_Error ERROR_SECTION_MISSING st end.

Inductive directive : Type :=
| DDb (l : list darg)
| DDw (l : list darg)
| DDl (l : list darg)
| DSpace (multiplier n : Z)
| DEven
| DCnop (offset align : Z)
| DIncbin (file : option (list Z))
| DSection (name : list Z) (group : nat) (d : kind)
| DSectionName (name : list Z)
| DPushs
| DPops
| DOrg (org : Z)
(** What other directives and the lexer change: the options, the local scope, and
    the position in the source. *)
| DOptions (o : options)
| DScope (s : option nat)
| DPosition (file line : Z).

Definition step (d : directive) (st : xstate) : res xstate :=
  match d with
  | DDb l => handleArgs (fun _ => handleDb) l st
  | DDw l => handleArgs handleDw l st
  | DDl l => handleArgs handleDl l st
  | DSpace m n => defineSpace m n st
  | DEven => handleEven st
  | DCnop o a => handleCnop o a st
  | DIncbin f => sect_OutputBinaryFile f st
  | DSection name g d => handleSection name g d st
  | DSectionName name => Ok (sect_SwitchTo_NAMEONLY name st)
  | DPushs => Ok (sect_Push st)
  | DPops => Ok (handlePops st)
  | DOrg z => sect_SetOriginAddress (u32 z) st
  | DOptions o => Ok (with_options o st)
  | DScope s => Ok (with_scope s st)
  | DPosition f l => Ok (with_position f l st)
  end.
Fixpoint run (l : list directive) (st : xstate) : res xstate :=
  match l with
  | [] => Ok st
  | d :: r => let! st1 := step d st in run r st1
  end.
