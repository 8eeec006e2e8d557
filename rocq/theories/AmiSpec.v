(** Specification of the assembler's Amiga files (C67): hunk executables (HunkSpec) and hunk
    objects, from the AmigaDOS manual, "Amiga binary file structure". *)
From Coq Require Import ZArith List Bool.
From Verif Require Import Base Arith AssignModel LinkModel HunkSpec ExprSpec ExprTree ExprModel ExprLayout ObjWriteModel ElfModel ElfSpec AmiModel.
Import ListNotations.
Open Scope Z_scope.

(** ** Objects *)
(** A hunk of an object has a name.  Its relocations are those of [ou_hunk].  A reference is
    a name and the offset of a longword its value is added to; a definition is a name and an
    offset in the hunk; symbols are for debuggers. *)
Record ounit : Type := OUnit {
  ou_name : list Z; ou_hunk : hunk; ou_refs : list (list Z * Z); ou_defs : list (list Z * Z); ou_symbols : list (list Z * Z) }.

(** A name of [n] longwords, filled up with zeros. *)
Fixpoint before_zero (s : list Z) : list Z :=
  match s with
  | [] => []
  | c :: r => if c =? 0 then [] else c :: before_zero r
  end.
Definition get_text (n : Z) : reader (list Z) := fun s =>
  let? (b, s1) := get_bytes (Z.to_nat (4 * n)) s in Some (before_zero b, s1).
Definition get_name : reader (list Z) := fun s => let? (n, s1) := get_long s in get_text n s1.
(** The highest byte of a word is the type of a symbol: 1 is a definition with its offset,
    129 references by absolute longwords: how many and where.  The rest is the size of the
    name.  A zero word ends the list. *)
Fixpoint get_ext (fuel : nat) : reader (list (list Z * Z) * list (list Z * Z)) := fun s =>
  match fuel with
  | O => None
  | S fuel' =>
      let? (w, s1) := get_long s in
      if w =? 0 then Some (([], []), s1)
      else
        let? (name, s2) := get_text (w mod 2 ^ 24) s1 in
        if w / 2 ^ 24 =? 1 then
          let? (v, s3) := get_long s2 in
          let? (x, s4) := get_ext fuel' s3 in
          Some ((fst x, (name, v) :: snd x), s4)
        else if w / 2 ^ 24 =? 129 then
          let? (n, s3) := get_long s2 in
          let? (os, s4) := get_longs (Z.to_nat n) s3 in
          let? (x, s5) := get_ext fuel' s4 in
          Some ((map (fun o => (name, o)) os ++ fst x, snd x), s5)
        else None
  end.
Fixpoint get_symbols (fuel : nat) : reader (list (list Z * Z)) := fun s =>
  match fuel with
  | O => None
  | S fuel' =>
      let? (w, s1) := get_long s in
      if w =? 0 then Some ([], s1)
      else if w / 2 ^ 24 =? 0 then
        let? (name, s2) := get_text w s1 in
        let? (v, s3) := get_long s2 in
        let? (x, s4) := get_symbols fuel' s3 in
        Some ((name, v) :: x, s4)
      else None
  end.
(** What follows the contents: HUNK_RELOC32 (1004), HUNK_EXT (1007) and HUNK_SYMBOL (1008)
    in any order, up to HUNK_END (1010). *)
Definition more_relocs (rs : list (Z * Z)) (u : ounit) : ounit :=
  let h := ou_hunk u in
  OUnit (ou_name u) (Hunk (h_kind h) (h_chip h) (h_longs h) (h_data h) (h_relocs h ++ rs)) (ou_refs u) (ou_defs u) (ou_symbols u).
Fixpoint get_blocks (fuel : nat) (u : ounit) : reader ounit := fun s =>
  match fuel with
  | O => None
  | S fuel' =>
      let? (w, s1) := get_long s in
      if w =? 1010 then Some (u, s1)
      else if w =? 1004 then
        let? (rs, s2) := get_relocs (length s1) s1 in get_blocks fuel' (more_relocs rs u) s2
      else if w =? 1007 then
        let? (x, s2) := get_ext (length s1) s1 in
        get_blocks fuel' (OUnit (ou_name u) (ou_hunk u) (ou_refs u ++ fst x) (ou_defs u ++ snd x) (ou_symbols u)) s2
      else if w =? 1008 then
        let? (x, s2) := get_symbols (length s1) s1 in
        get_blocks fuel' (OUnit (ou_name u) (ou_hunk u) (ou_refs u) (ou_defs u) (ou_symbols u ++ x)) s2
      else None
  end.
(** HUNK_NAME (1000), then the type, whose bit 30 asks for chip memory, the size and the
    contents. *)
Definition get_unit : reader ounit := fun s =>
  let? (w, s1) := get_long s in
  if w =? 1000 then
    let? (name, s2) := get_name s1 in
    let? (t, s3) := get_long s2 in
    let? k := HunkSpec.kind_of (t mod 2 ^ 30) in
    let? (n, s4) := get_long s3 in
    let? (d, s5) := match k with Bss => Some ([], s4) | _ => get_bytes (Z.to_nat (4 * n)) s4 end in
    get_blocks (length s5) (OUnit name (Hunk k (Z.testbit t 30) n d []) [] [] []) s5
  else None.
Fixpoint get_units (fuel : nat) : list Z -> option (list ounit) := fun s =>
  match s, fuel with
  | [], _ => Some []
  | _, O => None
  | _, S fuel' => let? (u, s1) := get_unit s in let? us := get_units fuel' s1 in Some (u :: us)
  end.
(** HUNK_UNIT (999), the name of the unit and its hunks. *)
Definition object_load (d : list Z) : option (list Z * list ounit) :=
  let? (w, s1) := get_long d in
  if w =? 999 then
    let? (name, s2) := get_name s1 in
    let? us := get_units (length s2) s2 in
    Some (name, us)
  else None.
(** The contents of a hunk linked with hunk t at [start t] and with names of other units
    having the values [value]. *)
Definition linked (start : Z -> Z) (value : list Z -> Z) (u : ounit) : list Z :=
  fold_left (fun d r => put_long d (snd r) (long_at d (snd r) + value (fst r))) (ou_refs u) (relocate start (ou_hunk u)).

(** ** What is expected *)
(** The memory of a section: where nothing is patched its bytes, then zeros; at a patch the
    value of the expression, highest byte first. *)
Definition patched_byte (w : wsect) (i : Z) : Prop := exists p, In p (ws_patches w) /\ ap_offset p <= i < ap_offset p + 4.
Definition holds (F : fmath) (E : env) (w : wsect) (m : list Z) : Prop :=
  (forall i, 0 <= i < zlen m -> ~ patched_byte w i -> nth (Z.to_nat i) m 0 = nth (Z.to_nat i) (ws_data w) 0) /\
  (forall p x, In p (ws_patches w) -> den F E (ap_expr p) = Some x -> long_at m (ap_offset p) = u32 x).

Definition section_kind (g : asym) : kind :=
  if ay_groupType g =? 0 then if ay_data g then Data else Code else Bss.
(** The smallest number of longwords with room for a section. *)
Definition enough (w : wsect) (h : hunk) : Prop :=
  4 * h_longs h - 4 < ws_usedSpace w <= 4 * h_longs h.
(** Hunk [h] of an executable is section [w]: wherever the hunks are loaded, the memory is as
    expected. *)
Definition loads (F : fmath) (A : astate) (w : wsect) (h : hunk) : Prop :=
  exists g, nth_error (as_symbols A) (ws_group w) = Some g /\ h_kind h = section_kind g /\ h_chip h = ay_shared g /\ enough w h /\
  (h_kind h = Bss -> h_data h = [] /\ h_relocs h = []) /\
  (h_kind h <> Bss -> forall base E, env_ok (worldOf A) base E ->
     let m := relocate (fun t => base (Z.to_nat t)) h in zlen m = 4 * h_longs h /\ holds F E w m).

(** The names and offsets of the labels of section [k], and of those exported. *)
Definition labels (A : astate) (k : nat) : list asym :=
  filter (fun y => y_reloc (ay_sym y) && match y_section (ay_sym y) with Some j => Nat.eqb j k | None => false end) (as_symbols A).
Definition entry_of (y : asym) : list Z * Z := (ay_name y, u32 (y_value (ay_sym y))).
(** Unit [u] of an object is section [w], number [k]: wherever the hunks are placed, and
    whatever the values of imported names, the memory is as expected. *)
Definition links (F : fmath) (A : astate) (k : nat) (w : wsect) (u : ounit) : Prop :=
  exists g, nth_error (as_symbols A) (ws_group w) = Some g /\
  ou_name u = ws_name w /\ h_kind (ou_hunk u) = section_kind g /\ enough w (ou_hunk u) /\
  ou_defs u = map entry_of (filter ay_export (labels A k)) /\ ou_symbols u = map entry_of (labels A k) /\
  (h_kind (ou_hunk u) = Bss -> h_data (ou_hunk u) = [] /\ h_relocs (ou_hunk u) = [] /\ ou_refs u = []) /\
  (h_kind (ou_hunk u) <> Bss -> forall base E value, env_ok (worldOf A) base E ->
     (forall s y, nth_error (as_symbols A) s = Some y -> imported y = true -> e_sym E s = value (ay_name y)) ->
     let m := linked (fun t => base (Z.to_nat t)) value u in zlen m = 4 * h_longs (ou_hunk u) /\ holds F E w m).

(** ** Programs *)
(** Sections whose sizes and data agree, with patches inside and apart from one another. *)
Record hunkable (A : astate) : Prop := {
  hk_count : zlen (as_sections A) < 2 ^ 32;
  hk_sections : Forall (fun w => 0 <= ws_usedSpace w < 2 ^ 31 /\
    (forall g, nth_error (as_symbols A) (ws_group w) = Some g -> ay_groupType g = 0 -> zlen (ws_data w) = ws_usedSpace w) /\
    zlen (ws_patches w) < 2 ^ 32 /\
    Forall (fun p => 0 <= ap_offset p /\ ap_offset p + 4 <= zlen (ws_data w) /\ opf (ap_expr p)) (ws_patches w) /\
    ForallOrdPairs (fun p q => 4 <= Z.abs (ap_offset p - ap_offset q)) (ws_patches w)) (as_sections A) }.
(** For objects: names without zeros, not empty and of a size that fits in 24 bits, and no
    import is subtracted. *)
Definition good_name (s : list Z) : Prop := no_zero s /\ 0 < zlen s <= 2 ^ 26 - 4.
Record linkable (A : astate) : Prop := {
  lk_names : Forall (fun y => good_name (ay_name y)) (as_symbols A);
  lk_sections : Forall (fun w => no_zero (ws_name w) /\ zlen (ws_name w) < 2 ^ 31 /\
    Forall (fun p => adds_only (ap_expr p)) (ws_patches w)) (as_sections A) }.
(** A label of a section that is not placed by the program, plus or less constants. *)
Inductive movable (A : astate) : expr -> Prop :=
| movable_label c o v s l r y k w : nth_error (as_symbols A) s = Some y -> y_reloc (ay_sym y) = true ->
    y_section (ay_sym y) = Some k -> nth_error (as_sections A) k = Some w -> flags_zero (ws_sect w) = true ->
    movable A (ENode TSymbol c o v s l r)
| movable_plus c v s l r : movable A l -> expr_IsConstant r = true -> movable A (ENode TOperation c OpAdd v s l r)
| movable_minus c v s l r : movable A l -> expr_IsConstant r = true -> movable A (ENode TOperation c OpSub v s l r)
| movable_plus' c v s l r : expr_IsConstant l = true -> movable A r -> movable A (ENode TOperation c OpAdd v s l r).
(** An import, plus or less constants. *)
Inductive imported_sum (A : astate) : expr -> Prop :=
| sum_import c o v s l r y : nth_error (as_symbols A) s = Some y -> imported y = true -> imported_sum A (ENode TSymbol c o v s l r)
| sum_plus c v s l r : imported_sum A l -> expr_IsConstant r = true -> imported_sum A (ENode TOperation c OpAdd v s l r)
| sum_minus c v s l r : imported_sum A l -> expr_IsConstant r = true -> imported_sum A (ENode TOperation c OpSub v s l r)
| sum_plus' c v s l r : expr_IsConstant l = true -> imported_sum A r -> imported_sum A (ENode TOperation c OpAdd v s l r).
Definition has_groups (A : astate) : Prop := Forall (fun w => nth_error (as_symbols A) (ws_group w) <> None) (as_sections A).
