(** Specification of object files (C04, C05, C06): modules, their documented
    representation (the comment at the head of /repo/xlink/object.c) and what the
    linker should know after reading one. *)
From Coq Require Import ZArith List Bool.
From Verif Require Import Base AssignModel LinkModel ObjModel.
Import ListNotations.
Open Scope Z_scope.

Record osym : Type := OSym {
  oy_name : list Z; oy_type : Z; oy_value : Z; oy_file : option Z; oy_line : Z }.
Record oline : Type := OLine { ol_file : Z; ol_line : Z; ol_offset : Z }.
Record opatch : Type := OPatch { op_offset : Z; op_type : Z; op_expr : list Z }.
(** [os_group] is a position in the list of groups; -1 means none. *)
Record osect : Type := OSect {
  os_group : option nat; os_name : list Z; os_bank : Z; os_position : Z; os_basePC : Z;
  os_align : Z; os_root : bool; os_page : Z;
  os_symbols : list osym; os_lines : list oline; os_size : Z;
  os_data : list Z; os_patches : list opatch }.
Record omodule : Type := OModule {
  om_wordSize : Z; om_files : list (list Z * Z); om_groups : list ogroup; om_sections : list osect }.

Definition is_import (t : Z) : bool := (t =? SYM_IMPORT) || (t =? SYM_LOCALIMPORT).
Definition os_ogroup (m : omodule) (s : osect) : option ogroup :=
  match os_group s with None => None | Some k => nth_error (om_groups m) k end.
Definition is_text (m : omodule) (s : osect) : bool :=
  match os_ogroup m s with Some g => og_type g =? GROUP_TEXT | None => false end.

(** ** The documented format *)
Definition int (z : Z) : list Z := le32 (u32 z).
Definition asciiz (s : list Z) : list Z := s ++ [0].
Definition list_of {A : Type} (f : A -> list Z) (l : list A) : list Z := int (zlen l) ++ concat (map f l).
Definition from (version v : Z) (bs : list Z) : list Z := if version >=? v then bs else [].

Definition sym_bytes (v : Z) (y : osym) : list Z :=
  asciiz (oy_name y) ++ int (oy_type y) ++ (if is_import (oy_type y) then [] else int (oy_value y)) ++
  from v 5 (int (match oy_file y with Some k => k | None => -1 end) ++ int (oy_line y)).
Definition line_bytes (l : oline) : list Z := int (ol_file l) ++ int (ol_line l) ++ int (ol_offset l).
Definition patch_bytes (q : opatch) : list Z :=
  int (op_offset q) ++ int (op_type q) ++ int (zlen (op_expr q)) ++ op_expr q.
Definition sect_bytes (v : Z) (m : omodule) (s : osect) : list Z :=
  int (match os_group s with Some k => Z.of_nat k | None => -1 end) ++ asciiz (os_name s) ++
  int (os_bank s) ++ int (os_position s) ++
  from v 1 (int (os_basePC s)) ++ from v 3 (int (os_align s)) ++
  from v 4 [if os_root s then 1 else 0] ++ from v 6 (int (os_page s)) ++
  list_of (sym_bytes v) (os_symbols s) ++ from v 2 (list_of line_bytes (os_lines s)) ++
  int (os_size s) ++ (if is_text m s then os_data s ++ list_of patch_bytes (os_patches s) else []).
Definition group_bytes (g : ogroup) : list Z := asciiz (og_name g) ++ int (og_type g + og_flags g).
Definition file_bytes (f : list Z * Z) : list Z := asciiz (fst f) ++ int (snd f).
Definition module_bytes (v : Z) (m : omodule) : list Z :=
  [88; 79; 66; v] ++ from v 1 [om_wordSize m] ++ from v 2 (list_of file_bytes (om_files m)) ++
  list_of group_bytes (om_groups m) ++ list_of (sect_bytes v m) (om_sections m).

(** ** What is read: attributes a version lacks have their defaults *)
Definition default {A : Type} (version v : Z) (d x : A) : A := if version >=? v then x else d.
(** [base]: how many files were known before. *)
Definition read_sym (v base : Z) (y : osym) : lsym :=
  LSym (oy_name y) (oy_type y) (if is_import (oy_type y) then 0 else oy_value y) false
    (default v 5 4294967295 (match oy_file y with Some k => base + k | None => 4294967295 end))
    (default v 5 0 (oy_line y)) None [].
Definition read_line (base : Z) (l : oline) : lline := LLine (base + ol_file l) (ol_line l) (ol_offset l).
Definition read_patch (q : opatch) : lpatch := LPatch (op_type q) (op_offset q) (op_expr q) None.
(** Text sections of the group HOME are in bank 0. *)
Definition read_bank (m : omodule) (s : osect) : Z :=
  match os_ogroup m s with
  | Some g => if is_text m s && beq (og_name g) [72; 79; 77; 69] then 0 else os_bank s
  | None => os_bank s
  end.
Definition read_sect (v : Z) (m : omodule) (base fileId id : Z) (s : osect) : lsect :=
  LSect (Section_ id (os_ogroup m s) (os_position s) (read_bank m s)
           (default v 1 (os_position s) (os_basePC s)) 0 0 (default v 1 1 (om_wordSize m))
           (default v 3 (-1) (os_align s)) (default v 6 (-1) (os_page s)) (os_size s) false false None)
    fileId (default v 4 false (os_root s)) (os_name s) (map (read_sym v base) (os_symbols s))
    (default v 2 [] (map (read_line base) (os_lines s)))
    (if is_text m s then Some (os_data s) else None)
    (if is_text m s then map read_patch (os_patches s) else []).
(** Sections get consecutive ids. *)
Fixpoint number {A B : Type} (f : Z -> A -> B) (k : Z) (l : list A) : list B :=
  match l with [] => [] | x :: r => f k x :: number f (k + 1) r end.
Definition after_module (v : Z) (m : omodule) (st : lstate) : lstate :=
  LState (l_fileId st + 1) (l_files st ++ default v 2 [] (om_files m))
    (l_prog st ++ number (read_sect v m (zlen (l_files st)) (l_fileId st)) (zlen (l_prog st)) (om_sections m)).

(** ** Modules that can be represented *)
Definition name_ok (s : list Z) : Prop := cstr s /\ zlen s < 256.
Definition sym_ok_v (v files : Z) (y : osym) : Prop :=
  name_ok (oy_name y) /\ is_u32 (oy_type y) /\ is_s32 (oy_value y) /\
  (5 <= v -> is_u32 (oy_line y) /\ match oy_file y with Some k => 0 <= k < files | None => True end).
Definition line_ok (files : Z) (l : oline) : Prop :=
  0 <= ol_file l < files /\ is_u32 (ol_line l) /\ is_u32 (ol_offset l).
Definition patch_ok (q : opatch) : Prop :=
  is_u32 (op_offset q) /\ is_u32 (op_type q) /\ is_u32 (zlen (op_expr q)).
Definition sect_ok_v (v : Z) (m : omodule) (s : osect) : Prop :=
  match os_group s with Some k => (k < length (om_groups m))%nat | None => True end /\
  name_ok (os_name s) /\ is_s32 (os_bank s) /\ is_s32 (os_position s) /\ is_s32 (os_basePC s) /\
  is_s32 (os_align s) /\ is_s32 (os_page s) /\
  Forall (sym_ok_v v (zlen (om_files m))) (os_symbols s) /\ is_u32 (zlen (os_symbols s)) /\
  (2 <= v -> Forall (line_ok (zlen (om_files m))) (os_lines s) /\ is_u32 (zlen (os_lines s))) /\
  is_u32 (os_size s) /\
  (is_text m s = true -> zlen (os_data s) = os_size s /\ Forall patch_ok (os_patches s) /\
                         zlen (os_patches s) < 2 ^ 31).
Definition group_ok (g : ogroup) : Prop :=
  name_ok (og_name g) /\ 0 <= og_type g < 2 ^ 29 /\
  (og_flags g = 0 \/ og_flags g = FLAG_SHARED \/ og_flags g = FLAG_DATA \/ og_flags g = FLAG_SHARED + FLAG_DATA).
Definition module_ok (v : Z) (m : omodule) : Prop :=
  0 <= v <= 6 /\ is_byte (om_wordSize m) /\
  (2 <= v -> Forall (fun f => cstr (fst f) /\ is_u32 (snd f)) (om_files m)) /\
  Forall group_ok (om_groups m) /\ zlen (om_groups m) < 2 ^ 32 - 1 /\
  Forall (sect_ok_v v m) (om_sections m) /\ is_u32 (zlen (om_sections m)).
(** There is room for the files. *)
Definition room (v : Z) (m : omodule) (st : lstate) : Prop :=
  zlen (l_files st) + zlen (om_files m) < 2 ^ 32 - 1.

(** ** Several files *)
Definition after_modules (ms : list (Z * omodule)) (st : lstate) : lstate :=
  fold_left (fun st vm => after_module (fst vm) (snd vm) st) ms st.
Fixpoint rooms (ms : list (Z * omodule)) (st : lstate) : Prop :=
  match ms with
  | [] => True
  | (v, m) :: r => room v m st /\ rooms r (after_module v m st)
  end.
(** Reading files one after the other. *)
Fixpoint read_files (depth : nat) (st : lstate) (files : list (list Z)) : res lstate :=
  match files with
  | [] => Ok st
  | f :: r => let! st1 := obj_Read depth st (Some f) in read_files depth st1 r
  end.

(** ** A module of an older version with its defaults spelled out *)
Definition sym_with_defaults (v : Z) (y : osym) : osym :=
  OSym (oy_name y) (oy_type y) (oy_value y) (default v 5 None (oy_file y)) (default v 5 0 (oy_line y)).
Definition sect_with_defaults (v : Z) (s : osect) : osect :=
  OSect (os_group s) (os_name s) (os_bank s) (os_position s) (default v 1 (os_position s) (os_basePC s))
    (default v 3 (-1) (os_align s)) (default v 4 false (os_root s)) (default v 6 (-1) (os_page s))
    (map (sym_with_defaults v) (os_symbols s)) (default v 2 [] (os_lines s)) (os_size s) (os_data s) (os_patches s).
Definition with_defaults (v : Z) (m : omodule) : omodule :=
  OModule (default v 1 1 (om_wordSize m)) (default v 2 [] (om_files m)) (om_groups m)
    (map (sect_with_defaults v) (om_sections m)).
