(** Specification vocabulary for section attributes, ORG and the line table. *)
From Coq Require Import ZArith List Bool.
From Verif Require Import Base Arith ExprModel ObjWriteModel OptModel SectModel SectSpec.
Import ListNotations.
Open Scope Z_scope.

(** The address asked for: $FFFFFFFF is the same as none. *)
Definition wanted_address (d : kind) : option Z :=
  match k_load d with Some z => if z =? 4294967295 then None else Some z | None => None end.
(** A section [m] is as the attributes [d] of a SECTION directive say, on a CPU whose
    words have [w] bytes: at the address and in the bank given, if any, within one page
    of the size given, kept if ROOT is given, and aligned.  The address of a section
    that has both an address and an alignment is a multiple of the alignment. *)
Definition attributes (w : Z) (d : kind) (m : msect) : Prop :=
  let a := ws_sect (m_w m) in
  match wanted_address d with
  | Some z => a_loadfixed a = true /\ a_cpuOrigin a = z /\ ws_imagePosition (m_w m) = (z * w) mod 2 ^ 32
  | None => a_loadfixed a = false
  end /\
  match k_bank d with Some b => a_bankfixed a = true /\ a_bank a = b | None => a_bankfixed a = false end /\
  match k_page d with Some p => a_paged a = true /\ ws_page (m_w m) = p | None => a_paged a = false end /\
  match k_align d, wanted_address d with
  | Some n, None => a_aligned a = true /\ ws_align (m_w m) = n
  | Some n, Some z => a_aligned a = false /\ (n | z)
  | None, _ => a_aligned a = false
  end /\
  a_root a = k_root d.
Definition has_attributes (d : kind) : Prop :=
  wanted_address d <> None \/ k_bank d <> None \/ k_page d <> None \/ k_align d <> None \/ k_root d = true.
(** A SECTION directive for this name. *)
Definition opens (n : list Z) (d : directive) : bool :=
  match d with DSection n' _ _ => beq n n' | _ => false end.
(** The address that a label here gets. *)
Definition address (m : msect) : Z :=
  let a := ws_sect (m_w m) in (a_pc a + a_cpuOrigin a + a_cpuAdjust a) mod 2 ^ 32.
(** The file and line of position [q]: that of the last entry at or before it. *)
Fixpoint line_at (l : list aline) (q : Z) : option (Z * Z) :=
  match l with
  | [] => None
  | e :: r =>
      match line_at r q with
      | Some x => Some x
      | None => if al_offset e <=? q then Some (al_file e, al_line e) else None
      end
  end.
