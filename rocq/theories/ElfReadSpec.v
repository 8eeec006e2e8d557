(** Specification of reading ELF objects into the linker (C66). *)
From Coq Require Import String ZArith List Bool.
From Verif Require Import Base AssignModel LinkExprModel LinkModel LinkSpec ExprModel ObjWriteModel MdefModel ElfModel ElfSpec.
Import ListNotations.
Open Scope string_scope.
Open Scope list_scope.
Open Scope Z_scope.

(** The group the linker puts a section in. *)
Definition group_of (k : ekind) : ogroup :=
  match k with
  | ECode => OGroup (chars "CODE") GROUP_TEXT 0
  | EData => OGroup (chars "DATA") GROUP_TEXT FLAG_DATA
  | EBss => OGroup (chars "BSS") GROUP_BSS 0
  end.
Definition defined_in (k : nat) (y : esymbol) : bool :=
  match ey_where y with Within k' => Nat.eqb k' k | _ => false end.
Definition is_definition (x : lsym) : bool := (ls_type x =? SYM_EXPORT) || (ls_type x =? SYM_LOCALEXPORT).
(** [x] is the linker's symbol for a symbol that the object defines in a section. *)
Definition stands_for_symbol (y : esymbol) (x : lsym) : Prop :=
  ls_name x = ey_name y /\ ls_value x = s32 (ey_value y) /\ ls_resolved x = false /\
  ls_type x = (if ey_global y then SYM_EXPORT else SYM_LOCALEXPORT).
(** In section [k], [x] is the symbol itself or an import of it. *)
Definition refers_to (k : nat) (y : esymbol) (x : lsym) : Prop :=
  ls_name x = ey_name y /\ ls_resolved x = false /\
  match ey_where y with
  | Within k' => if Nat.eqb k' k then stands_for_symbol y x else ls_type x = SYM_LOCALIMPORT
  | Undefined => ls_type x = SYM_IMPORT
  | Absolute => False
  end.
(** A patch for a relocation: of a symbol with an address, the address plus the addend, less the
    address of the place if it is relative; of a symbol that has none yet, the symbol and the
    addend. *)
Definition patch_for (o : eobject) (k : nat) (s : lsect) (r : ereloc) (p : lpatch) : Prop :=
  pt_type p = PATCH_BE_32 /\ pt_offset p = er_offset r /\ pt_section p = None /\
  exists j x y, nth_error (eo_symbols o) (er_symbol r) = Some y /\ nth_error (sc_symbols s) j = Some x /\ refers_to k y x /\
    (forall F c v, c_symbol c (Z.of_nat j) = Ok v -> v_placed v = true -> is_s32 (v_value v + s32 (er_addend r)) ->
       calculateExpressionValue F c (pt_expr p) =
       Ok (Some (Entry None (if er_relative r then s32 (v_value v + s32 (er_addend r) - (c_cpuLocation c + c_offset c)) else v_value v + s32 (er_addend r))))) /\
    (forall F c v, c_symbol c (Z.of_nat j) = Ok v -> v_placed v = false -> er_relative r = false ->
       calculateExpressionValue F c (pt_expr p) = Ok (Some (Entry (Some v) (s32 (er_addend r))))).

(** What the linker holds of section [k] of the object. *)
Record holds_section (o : eobject) (id fileId : Z) (k : nat) (t : esection) (s : lsect) : Prop := {
  hl_name : sc_name s = et_name t;
  hl_file : sc_fileId s = fileId /\ sc_root s = false /\ sc_lines s = [];
  hl_id : sc_id s = id;
  hl_group : s_group (sc_place s) = Some (group_of (et_kind t));
  hl_place : s_cpuLocation (sc_place s) = (if et_addr t =? 0 then -1 else s32 (et_addr t)) /\
             s_cpuByteLocation (sc_place s) = s_cpuLocation (sc_place s) /\ s_cpuBank (sc_place s) = -1 /\
             s_page (sc_place s) = -1 /\ s_minimumWordSize (sc_place s) = 1 /\
             s_used (sc_place s) = false /\ s_assigned (sc_place s) = false;
  hl_align : s_byteAlign (sc_place s) = (if 2 <=? et_align t then s32 (et_align t) else -1);
  hl_size : s_size (sc_place s) = et_size t;
  hl_data : sc_data s = match et_kind t with EBss => None | _ => if 0 <? et_size t then Some (et_data t) else None end;
  hl_symbols : Forall2 stands_for_symbol (filter (defined_in k) (eo_symbols o)) (filter is_definition (sc_symbols s));
  hl_imports : forall x, In x (sc_symbols s) -> is_definition x = false ->
    exists r y, In r (et_relocs t) /\ nth_error (eo_symbols o) (er_symbol r) = Some y /\ refers_to k y x;
  hl_patches : Forall2 (patch_for o k s) (et_relocs t) (sc_patches s) }.

(** Objects the linker can hold: no global symbol is a constant, no local symbol is undefined,
    relocations are to symbols that are there and are not constants, and names are not too
    long. *)
Record linkable (o : eobject) : Prop := {
  lk_symbols : Forall (fun y => zlen (ey_name y) < 255 /\ (ey_global y = true -> ey_where y <> Absolute) /\
                                (ey_global y = false -> ey_where y <> Undefined)) (eo_symbols o);
  lk_sections : Forall (fun t => zlen (et_name t) < 256 /\
    Forall (fun r => exists y, nth_error (eo_symbols o) (er_symbol r) = Some y /\ ey_where y <> Absolute) (et_relocs t)) (eo_sections o) }.

(** The sections of the object in a program that is being linked: section [k] is number [pos k];
    no other section is of that file. *)
Record linked_in (fileId : Z) (secs : list lsect) (p : program) (pos : nat -> nat) : Prop := {
  li_there : forall k s, nth_error secs k = Some s -> exists s', nth_error p (pos k) = Some s' /\
    sc_symbols s' = sc_symbols s /\ sc_patches s' = sc_patches s /\ sc_fileId s' = sc_fileId s;
  li_only : forall i s', nth_error p i = Some s' -> sc_fileId s' = fileId -> exists k s, nth_error secs k = Some s /\ i = pos k }.
Definition in_section (y : esymbol) : bool := match ey_where y with Within _ => true | _ => false end.
(** What symbol [y] of the object is in the program: symbol [x] of section [d]. *)
Definition target (p : program) (pos : nat -> nat) (y : esymbol) (d : lsect) (x : lsym) : Prop :=
  match ey_where y with
  | Within k => nth_error p (pos k) = Some d /\ sc_used d = true /\ In x (sc_symbols d) /\ stands_for_symbol y x
  | Undefined => first_symbol (fun d => sc_used d = true \/ s_group (sc_place d) = None)
                   (fun x => ls_type x = SYM_EXPORT /\ ls_name x = ey_name y) p d x
  | Absolute => False
  end.

(** Programs whose ELF objects the linker can read: no constant is exported or in a patch, labels
    are in sections, names are not too long. *)
Record relinkable (A : astate) (used : nat -> bool) : Prop := {
  rk_symbols : forall s y, nth_error (as_symbols A) s = Some y -> wanted used s y ->
    zlen (ay_name y) < 255 /\ (ay_export y = true \/ imported y = true -> y_constant (ay_sym y) = false) /\
    (imported y = false -> y_constant (ay_sym y) = false -> y_section (ay_sym y) <> None);
  rk_sections : Forall (fun w => zlen (ws_name w) < 256 /\
    forall p s y, In p (ws_patches w) -> ElfSpec.mentions s (ap_expr p) -> nth_error (as_symbols A) s = Some y -> y_constant (ay_sym y) = false) (as_sections A) }.
