(** Specification of what an object file says about an assembled program (C05),
    for the assembler states of ObjWriteModel and the modules of ObjSpec. *)
From Coq Require Import ZArith List Bool.
From Verif Require Import Base AssignModel LinkModel ObjSpec Arith ExprModel ObjWriteModel.
Import ListNotations.
Open Scope Z_scope.

(** Symbols occurring in an expression, by value or by bank. *)
Fixpoint uses (e : expr) (s : nat) : Prop :=
  match e with
  | ENull => False
  | ENode t _ o _ x l r =>
      uses l s \/ uses r s \/
      (x = s /\ (t = TSymbol \/ t = TOperation /\ o = OpBank))
  end.
Definition used_in (A : astate) (k s : nat) : Prop :=
  exists w p, nth_error (as_sections A) k = Some w /\ In p (ws_patches w) /\ uses (ap_expr p) s.

Definition home_section (y : asym) : option nat := y_section (ay_sym y).
(** Visible to the other sections of the file: used by one of them. *)
Definition file_visible (A : astate) (s : nat) (y : asym) : Prop :=
  ay_fileExport y = true \/
  ay_exportable y = true /\ exists k, used_in A k s /\ home_section y <> Some k.
(** The symbols section [k] must list. *)
Definition listed (A : astate) (k s : nat) : Prop :=
  exists y, nth_error (as_symbols A) s = Some y /\
    (used_in A k s \/
     home_section y = Some k /\
       (ay_export y = true \/ file_visible A s y \/ as_debug A = true /\ y_reloc (ay_sym y) = true)).
(** The kind under which it lists them. *)
Definition kind (A : astate) (k s : nat) (y : asym) (t : Z) : Prop :=
  home_section y = Some k /\
    (ay_export y = true /\ t = SYM_EXPORT \/
     ay_export y = false /\ file_visible A s y /\ t = SYM_LOCALEXPORT \/
     ay_export y = false /\ ~ file_visible A s y /\ t = SYM_LOCAL) \/
  home_section y <> Some k /\
    ((y_type (ay_sym y) = SymImport \/ y_type (ay_sym y) = SymGlobal) /\ t = SYM_IMPORT \/
     ~ (y_type (ay_sym y) = SymImport \/ y_type (ay_sym y) = SymGlobal) /\ t = SYM_LOCALIMPORT).
Definition place_of (A : astate) (y : asym) (o : osym) : Prop :=
  if as_debug A then oy_file o = ay_file y /\ oy_line o = ay_line y
  else oy_file o = None /\ oy_line o = 0.
Definition lists (A : astate) (k s : nat) (o : osym) : Prop :=
  exists y, nth_error (as_symbols A) s = Some y /\ oy_name o = ay_name y /\ kind A k s y (oy_type o) /\
    oy_value o = y_value (ay_sym y) /\ place_of A y o.

(** The position of a symbol in a table. *)
Fixpoint position (table : list nat) (s : nat) : Z :=
  match table with
  | [] => 0
  | x :: r => if Nat.eqb x s then 0 else 1 + position r s
  end.

Definition group_of (y : asym) : ogroup :=
  OGroup (ay_name y) (ay_groupType y)
    ((if ay_shared y then FLAG_SHARED else 0) + (if ay_data y then FLAG_DATA else 0)).
Definition attribute (has : bool) (v : Z) : Z := if has then s32 v else -1.

(** Section [k] of the program, as the module has it.  Symbols in expressions are
    represented by their positions in the table. *)
Definition describes_section (A : astate) (m : omodule) (k : nat) (w : wsect) (s : osect) : Prop :=
  (exists g, nth_error (as_symbols A) (ws_group w) = Some g /\ os_ogroup m s = Some (group_of g)) /\
  os_name s = ws_name w /\
  os_bank s = attribute (a_bankfixed (ws_sect w)) (a_bank (ws_sect w)) /\
  os_position s = attribute (a_loadfixed (ws_sect w)) (ws_imagePosition w) /\
  os_basePC s = attribute (a_loadfixed (ws_sect w)) (a_cpuOrigin (ws_sect w)) /\
  os_align s = attribute (a_aligned (ws_sect w)) (ws_align w) /\
  os_root s = a_root (ws_sect w) /\
  os_page s = attribute (a_paged (ws_sect w)) (ws_page w) /\
  os_lines s = (if as_debug A then map (fun l => OLine (al_file l) (al_line l) (al_offset l)) (ws_lines w) else []) /\
  os_size s = ws_usedSpace w /\
  os_data s = ws_data w /\
  exists table : list nat,
    NoDup table /\ (forall x, In x table <-> listed A k x) /\
    Forall2 (lists A k) table (os_symbols s) /\
    (is_text m s = true ->
     Forall2 (fun p q => op_offset q = ap_offset p /\ op_type q = ap_type p /\
                         writeExpression (position table) (ap_expr p) = Ok (op_expr q))
       (ws_patches w) (os_patches s)).

(** The exported constants come first, in a section without group. *)
Definition describes_constants (A : astate) (s : osect) : Prop :=
  os_group s = None /\ os_name s = [] /\ os_bank s = -1 /\ os_position s = -1 /\ os_basePC s = -1 /\
  os_align s = -1 /\ os_root s = false /\ os_page s = -1 /\ os_lines s = [] /\ os_size s = 0 /\
  Forall2 (fun y o => oy_name o = ay_name y /\ oy_type o = SYM_EXPORT /\ oy_value o = y_value (ay_sym y) /\
                      place_of A y o)
    (filter (fun y => (symtype_eqb (y_type (ay_sym y)) SymEqu || symtype_eqb (y_type (ay_sym y)) SymSet) &&
                      ay_export y) (as_symbols A))
    (os_symbols s).

Definition describes (A : astate) (m : omodule) : Prop :=
  om_wordSize m = as_wordSize A /\
  om_files m = (if as_debug A then as_files A else []) /\
  om_groups m = map group_of (filter (fun y => symtype_eqb (y_type (ay_sym y)) SymGroup) (as_symbols A)) /\
  exists c ss, om_sections m = c :: ss /\ describes_constants A c /\ length ss = length (as_sections A) /\
    forall k w s, nth_error (as_sections A) k = Some w -> nth_error ss k = Some s -> describes_section A m k w s.

(** Assembler states as they occur: names fit, numbers are 32 bits, references
    exist. *)
Definition asym_ok (A : astate) (y : asym) : Prop :=
  name_ok (ay_name y) /\ is_s32 (y_value (ay_sym y)) /\
  (as_debug A = true -> is_u32 (ay_line y) /\ exists f, ay_file y = Some f /\ 0 <= f < zlen (as_files A)) /\
  (y_type (ay_sym y) = SymGroup -> (ay_groupType y = GROUP_TEXT \/ ay_groupType y = GROUP_BSS) /\ y_section (ay_sym y) = None).
Definition wsect_ok (A : astate) (w : wsect) : Prop :=
  name_ok (ws_name w) /\
  (exists g, nth_error (as_symbols A) (ws_group w) = Some g /\ y_type (ay_sym g) = SymGroup) /\
  (a_bankfixed (ws_sect w) = true -> as_banks A = true) /\
  is_u32 (ws_usedSpace w) /\
  (forall g, nth_error (as_symbols A) (ws_group w) = Some g -> ay_groupType g = GROUP_TEXT ->
     zlen (ws_data w) = ws_usedSpace w) /\
  is_u32 (zlen (ws_lines w)) /\
  Forall (fun l => 0 <= al_file l < zlen (as_files A) /\ is_u32 (al_line l) /\ is_u32 (al_offset l)) (ws_lines w) /\
  zlen (ws_patches w) < 2 ^ 31 /\
  Forall (fun p => is_u32 (ap_offset p) /\ is_u32 (ap_type p) /\
    (forall ids bs, writeExpression ids (ap_expr p) = Ok bs -> is_u32 (zlen bs)) /\
    forall s, uses (ap_expr p) s ->
      exists y, nth_error (as_symbols A) s = Some y /\ y_type (ay_sym y) <> SymGroup) (ws_patches w).
(** BANK is used only where the target has banks. *)
Fixpoint no_bank (e : expr) : Prop :=
  match e with
  | ENull => True
  | ENode t _ o _ _ l r => (t = TOperation -> o <> OpBank) /\ no_bank l /\ no_bank r
  end.
(** Expressions the format has codes for. *)
Fixpoint has_code (e : expr) : Prop :=
  match e with
  | ENull => True
  | ENode t _ o _ _ l r => (t = TOperation -> o <> OpBit /\ o <> OpNone) /\ has_code l /\ has_code r
  end.
Definition astate_ok (A : astate) : Prop :=
  is_byte (as_wordSize A) /\
  Forall (fun f => cstr (fst f) /\ is_u32 (snd f)) (as_files A) /\ zlen (as_files A) < 2 ^ 32 - 1 /\
  Forall (asym_ok A) (as_symbols A) /\ zlen (as_symbols A) < 2 ^ 32 - 1 /\
  Forall (wsect_ok A) (as_sections A) /\ zlen (as_sections A) < 2 ^ 32 - 1 /\
  (as_banks A = true \/ forall w p, In w (as_sections A) -> In p (ws_patches w) -> no_bank (ap_expr p)).
