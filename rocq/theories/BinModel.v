(** Model of raw binary and Verilog output by the assembler: /repo/xasm/motor/binaryobject.c
    and the back patching of /repo/xasm/motor/patch.c. *)
From Coq Require Import ZArith List Bool.
From Verif Require Import Base Arith ExprModel ObjWriteModel SectModel.
Import ListNotations.
Open Scope Z_scope.

(** xasm.h:94 assignSection, as defined in x65_section.c:22, m68k_section.c:22,
    dcpu16_section.c:24, mips_section.c:22, rc8_section.c:22, schip_section.c:22
    (nothing), m6809_section.c:23-30 and z80_section.c:22-28. *)
Inductive machine : Type := MPlain | M6809 | MZ80.
Definition set_place (loadfixed : bool) (position origin : Z) (m : msect) : msect :=
  let w := m_w m in
  let a := ws_sect w in
  MSect (WSect (ASect loadfixed (a_bankfixed a) (a_orgfixed a) (a_aligned a) (a_root a) (a_paged a)
                  origin (a_pc a) (a_cpuAdjust a) (a_bank a))
           (ws_name w) (ws_group w) position (ws_align w) (ws_page w) (ws_lines w)
           (ws_usedSpace w) (ws_data w) (ws_patches w)) (m_alloc m).
Definition m_sect (m : msect) : asect := ws_sect (m_w m).
Definition m_position (m : msect) : Z := ws_imagePosition (m_w m).
Definition assignSection (c : machine) (m : msect) : msect :=
  let a := m_sect m in
  if a_bankfixed a then
    match c with
    | MPlain => m
    | M6809 => set_place true (u32 (m_position m + a_bank a * 256)) (u32 (a_cpuOrigin a + a_bank a * 256)) m
    | MZ80 => set_place true (u32 (m_position m + a_bank a * 16384))
                (u32 (a_cpuOrigin a + (if a_bank a =? 0 then 0 else 16384))) m
    end
  else m.

(** What commonPatch looks at: minimumWordSize, the machine, the option for section
    alignment, the symbols with their flag SYMF_USED, and the sections. *)
Record bstate : Type := BState {
  b_wordSize : Z; b_machine : machine; b_align : Z;
  b_symbols : list (symbol * bool); b_sections : list msect }.

(** binaryobject.c:31-38 needsOrg. *)
Definition needsOrg (l : list msect) : bool := existsb (fun m => match m_patches m with [] => false | _ => true end) l.
(** binaryobject.c:53-88: the positions, on uint32_t.  [None] is an error reported.
    The sections placed before the error keep their positions, which nobody reads. *)
Fixpoint place (wordSize : Z) (c : machine) (align pos : Z) (l : list msect) : res (option (list msect)) :=
  match l with
  | [] => Ok (Some [])
  | m :: r =>
      let m1 := assignSection c m in
      let a := m_sect m1 in
      if a_loadfixed a then
        if m_position m1 <? pos then Ok None else
        let! o := place wordSize c align (u32 (m_position m1 + m_used m1)) r in
        Ok (match o with Some r' => Some (m1 :: r') | None => None end)
      else
        let alignment := if a_aligned a then ws_align (m_w m1) else align in
        if alignment =? 0 then UB else
        let p1 := u32 (pos + alignment - 1) in
        let p2 := p1 - p1 mod alignment in
        let page := ws_page (m_w m1) in
        if a_paged a && (m_used m1 >? page) then Ok None else
        if a_paged a && (page =? 0) then UB else
        let remaining := page - p2 mod page in
        let p3 := if a_paged a && (remaining <? m_used m1) then u32 (p2 + remaining) else p2 in
        let! o := place wordSize c align (u32 (p3 + m_used m1)) r in
        Ok (match o with Some r' => Some (set_place true p3 (p3 / wordSize) m1 :: r') | None => None end)
  end.
(** binaryobject.c:90-102: labels become numbers.  err_Fail ends the program: [Err]. *)
Definition relocate (sections : list msect) (y : symbol * bool) : res symbol :=
  let (s, used) := y in
  if used then
    match y_type s with
    | SymImport | SymGlobal => Err
    | _ =>
        if y_reloc s then
          match y_section s with
          | None => UB
          | Some k =>
              match nth_error sections k with
              | None => UB
              | Some m => Ok (Symbol (y_type s) true false (y_expression s) (y_section s)
                                (s32 (y_value s + a_cpuOrigin (m_sect m))))
              end
          end
        else Ok s
    end
  else Ok s.
Fixpoint relocate_all (sections : list msect) (l : list (symbol * bool)) : res (list symbol) :=
  match l with
  | [] => Ok []
  | y :: r => let! s := relocate sections y in let! t := relocate_all sections r in Ok (s :: t)
  end.

(** patch.c:401-453 patch_8, patch_le_16, patch_be_16, patch_le_32, patch_be_32 and
    g_patchFunctions; the number of bits exceeded is an error.  Data is only there
    up to usedSpace. *)
Fixpoint poke (offset : nat) (bs data : list Z) : list Z :=
  match offset, data with
  | S k, d :: r => d :: poke k bs r
  | O, _ => bs ++ skipn (length bs) data
  | _, [] => []
  end.
Definition patch_bytes (type value : Z) : res (list Z) :=
  if type =? 0 then if (-128 <=? value) && (value <=? 255) then Ok [u8 value] else Err
  else if type =? 1 then if (-32768 <=? value) && (value <=? 65535) then Ok (le16 (u16 value)) else Err
  else if type =? 2 then if (-32768 <=? value) && (value <=? 65535) then Ok (be16 (u16 value)) else Err
  else if type =? 3 then Ok (le32 (u32 value))
  else if type =? 4 then Ok (be32 (u32 value))
  else UB.
(** patch.c:480-496 patch_BackPatch for one section: the data, and the patches that
    stay.  An error reported while an expression is reduced is [Err]; the program
    goes on and fails at the end. *)
Fixpoint backPatch (F : fmath) (w : world) (k : nat) (a : asect) (ps : list apatch) (data : list Z)
    : res (list Z * list apatch) :=
  match ps with
  | [] => Ok (data, [])
  | p :: r =>
      let! (v, e) := reduceExpression F w k a (ap_offset p) (ap_expr p) in
      match v with
      | Some z =>
          let! bs := patch_bytes (ap_type p) z in
          if ap_offset p + zlen bs >? zlen data then UB else
          backPatch F w k a r (poke (Z.to_nat (ap_offset p)) bs data)
      | None =>
          let! (d, q) := backPatch F w k a r data in
          Ok (d, APatch (ap_offset p) (ap_type p) e :: q)
      end
  end.
Definition set_data (d : list Z) (ps : list apatch) (m : msect) : msect :=
  set_content (m_pc m) (m_lines m) (m_used m) d ps m.
Fixpoint patch_BackPatch (F : fmath) (w : world) (k : nat) (l : list msect) : res (list msect) :=
  match l with
  | [] => Ok []
  | m :: r =>
      let! (d, ps) := backPatch F w k (m_sect m) (m_patches m) (m_data m) in
      let! r' := patch_BackPatch F w (S k) r in
      Ok (set_data d ps m :: r')
  end.

(** binaryobject.c:40-106 commonPatch. *)
Definition no_symbol : symbol := Symbol SymUndefined false false false None 0.
Definition commonPatch (F : fmath) (st : bstate) : res (option (list msect)) :=
  match b_sections st with
  | [] => Ok None
  | first :: _ =>
      if needsOrg (b_sections st) && negb (a_loadfixed (m_sect first) || a_bankfixed (m_sect first)) then Ok None else
      let! o := place (b_wordSize st) (b_machine st) (b_align st) 0 (b_sections st) in
      match o with
      | None => Ok None
      | Some l =>
          let! ys := relocate_all l (b_symbols st) in
          let! l' := patch_BackPatch F (World (fun r => nth r ys no_symbol) (map m_sect l)) 0 l in
          Ok (Some l')
      end
  end.

(** binaryobject.c:131-152: the bytes of one section after the padding; the text is
    that of "%02X\n" and "00\n". *)
Definition binary_bytes (bs : list Z) : list Z := bs.
Definition hex_digit (d : Z) : Z := if d <? 10 then 48 + d else 55 + d.
Definition verilog_bytes (bs : list Z) : list Z :=
  flat_map (fun b => [hex_digit (b / 16); hex_digit (b mod 16); 10]) bs.
(** binaryobject.c:108-129 internalWrite, with data present if space was allocated
    for it (section.c:130-142).  The file can be opened and written. *)
Definition has_data (m : msect) : bool := 0 <? m_alloc m.
Fixpoint writeSections (f : list Z -> list Z) (last : Z) (l : list msect) : list Z :=
  match l with
  | [] => []
  | m :: r =>
      if has_data m then
        f (repeat 0 (Z.to_nat (m_position m - last))) ++ f (m_data m) ++
        writeSections f (u32 (m_position m + m_used m)) r
      else writeSections f last r
  end.
Definition internalWrite (f : list Z -> list Z) (F : fmath) (st : bstate) : res (option (list msect * list Z)) :=
  let! o := commonPatch F st in
  match o with
  | None => Ok None
  | Some [] => UB
  | Some (first :: r) => Ok (Some (first :: r, writeSections f (m_position first) (first :: r)))
  end.
(** binaryobject.c:154-162. *)
Definition bin_Write (F : fmath) (st : bstate) : res (option (list msect * list Z)) := internalWrite binary_bytes F st.
Definition bin_WriteVerilog (F : fmath) (st : bstate) : res (option (list msect * list Z)) := internalWrite verilog_bytes F st.
