(** Model of a whole run of the linker after the object files have been read, for
    output as a plain binary: /repo/xlink/main.c:565-628. *)
From Coq Require Import ZArith List Bool.
From Verif Require Import Base AssignModel Arith LinkExprModel LinkModel FileModel ImageModel.
Import ListNotations.
Open Scope Z_scope.

(** Section [s] with the placement fields [q]. *)
Definition set_place (s : lsect) (q : section) : lsect :=
  LSect q (sc_fileId s) (sc_root s) (sc_name s) (sc_symbols s) (sc_lines s) (sc_data s) (sc_patches s).
(** assign_Process and sect_SortSections change the sections in place.  AssignModel
    has them on the placement fields alone; here the rest of each section is put
    back, by the number each section was given when it was created
    (section.c:134-164). *)
Fixpoint rejoin (p : program) (out : list section) : res program :=
  match out with
  | [] => Ok []
  | q :: r =>
      match find (fun s => sc_id s =? s_id q) p with
      | None => UB
      | Some s => let! r' := rejoin p r in Ok (set_place s q :: r')
      end
  end.

(** main.c:600-619 with g_outputFormat = FILE_FORMAT_BINARY (no relocation, no
    imports): main.c:601 smart_Process, 608-610 assign_Process, sect_SortSections,
    sect_ResolveUnresolved, 613 patch_Process, 433-435 image_WriteBinary.
    [entry] is the argument of -s.  main.c:603-605 stops only formats other than
    this one. *)
Definition linkBinary (F : fmath) (lv : program -> list Z -> res (Z * option Z))
    (gp : program -> Z -> Z -> res Z) (log2n : Z -> Z) (cf : config) (entry : option (list Z)) (padding : Z)
    (p : program) : res files :=
  let! p1 := smart_Process (S (length p)) p entry in
  let! out := assign_Process cf (map sc_place p1) in
  let! p2 := rejoin p1 out in
  let! p3 := sect_ResolveUnresolved lv p2 in
  let! p4 := patch_Process F false false lv gp false p3 in
  image_WriteBinary log2n p4 padding.
