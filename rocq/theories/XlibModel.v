(** Model of the librarian, /repo/xlib. *)
From Coq Require Import ZArith List Bool.
From Verif Require Import Base.
Import ListNotations.
Open Scope Z_scope.

(** xlib/module.h: struct Module {name[MAXNAMELENGTH], byteLength, data,
    nextModule}.  Simplification: byteLength is the length of [m_data] (it is
    assigned together with data everywhere, library.c:74-78 and 181-185) and
    the linked list is a Coq list. *)
Record module : Type := Module { m_name : list Z; m_data : list Z }.

(** xlib/module.h: MAXNAMELENGTH. *)
Definition MAXNAMELENGTH : Z := 256.

(** library.c:49, the test that ends the scan. *)
Definition is_sep (c : Z) : bool := (c =? 92) || (c =? 47).

(** library.c:48-50: the characters after the last separator, found by
    scanning from the end ([rev]). *)
Fixpoint until_sep (rev_src : list Z) : list Z :=
  match rev_src with
  | [] => []
  | c :: r => if is_sep c then [] else c :: until_sep r
  end.

(** library.c:44-54 truncateFileName with count = MAXNAMELENGTH. *)
Definition truncateFileName (src : list Z) : list Z :=
  firstn (Z.to_nat (MAXNAMELENGTH - 1)) (rev (until_sep (rev src))).

(** library.c:20,126 the magic "XLB\0". *)
Definition magic : list Z := [88; 76; 66; 0].

(** library.c:65-83, the read loop; [size] is the byte count still expected,
    [fuel] bounds the iterations (each consumes at least one byte).
    A premature end of file inside fgetsz/fgetll is UB (util library not
    available), inside fread it is fatalError (line 79).  A name that does not
    fit MAXNAMELENGTH is UB (fgetsz's treatment is unknown).  [size] going
    negative (unsigned wrap in C) is UB. *)
Fixpoint readModules (fuel : nat) (size : Z) (s : list Z) : res (list module) :=
  if size =? 0 then Ok []
  else if size <? 0 then UB
  else
    match fuel with
    | O => UB
    | S fuel' =>
      match getsz s with
      | None => UB
      | Some (name, s1) =>
        if MAXNAMELENGTH <=? zlen name then UB else
        match get32 s1 with
        | None => UB
        | Some (len, s2) =>
          match take (Z.to_nat len) s2 with
          | None => Err
          | Some (data, s3) =>
            let! rest := readModules fuel' (size - (zlen name + 1) - 4 - len) s3 in
            Ok (Module name data :: rest)
          end
        end
      end
    end.

(** library.c:57-88 readLib0. *)
Definition readLib0 (size : Z) (s : list Z) : res (list module) :=
  if size =? 0 then Ok []
  else match get32 s with
       | None => UB
       | Some (_, s1) => readModules (length s) (size - 4) s1
       end.

(** library.c:90-119 lib_Read.  [None] is a file that cannot be opened. *)
Definition lib_Read (file : option (list Z)) : res (list module) :=
  match file with
  | None => Ok []
  | Some s =>
      if zlen s =? 0 then Ok []
      else match take 4 s with
           | None => Err
           | Some (id, s1) =>
               if beq id magic then readLib0 (zlen s - 4) s1 else Err
           end
  end.

(** library.c:131-135, one module. *)
Definition writeModule (m : module) : list Z :=
  m_name m ++ [0] ++ le32 (zlen (m_data m)) ++ m_data m.

(** library.c:121-146 lib_Write: the file content.  Simplification: the count
    written over the placeholder at offset 4 (lines 127, 138-139) is written
    directly; fopen succeeds. *)
Definition lib_Write (l : list module) : list Z :=
  magic ++ le32 (u32 (zlen l)) ++ concat (map writeModule l).

(** library.c:148-161 lib_Find. *)
Fixpoint findName (l : list module) (name : list Z) : option module :=
  match l with
  | [] => None
  | m :: r => if beq (m_name m) name then Some m else findName r name
  end.
Definition lib_Find (l : list module) (filename : list Z) : option module :=
  findName l (truncateFileName filename).

(** library.c:171-186: overwrite the first module with that name in place. *)
Fixpoint replaceName (l : list module) (name data : list Z) : list module :=
  match l with
  | [] => []
  | m :: r =>
      if beq (m_name m) name then Module name data :: r
      else m :: replaceName r name data
  end.

(** library.c:163-192 lib_AddReplace.  [file] is the content of the module
    file, [None] when fopen fails (the library is returned unchanged).
    fsize is converted to uint32_t and that many bytes are read. *)
Definition lib_AddReplace (l : list module) (filename : list Z)
    (file : option (list Z)) : list module :=
  match file with
  | None => l
  | Some content =>
      let name := truncateFileName filename in
      let data := firstn (Z.to_nat (u32 (zlen content))) content in
      match lib_Find l filename with
      | None => Module name data :: l
      | Some _ => replaceName l name data
      end
  end.

(** library.c:203-217, the pointer walk.  [l] is the list starting at *pp.
    After unlinking, line 216 takes the address of the nextModule field of the module at pp and line 204 reads it:
    when the removed module was the last one, *pp is NULL there and this is a
    NULL dereference. *)
Fixpoint deleteWalk (l : list module) (name : list Z) : res (list module * bool) :=
  match l with
  | [] => Ok ([], false)
  | m :: rest =>
      if beq (m_name m) name then
        match rest with
        | [] => UB
        | _ :: _ => Ok (rest, true)
        end
      else
        let! (rest', found) := deleteWalk rest name in
        Ok (m :: rest', found)
  end.

(** library.c:194-223 lib_DeleteModule. *)
Definition lib_DeleteModule (l : list module) (filename : list Z) : res (list module) :=
  let! (l', found) := deleteWalk l (truncateFileName filename) in
  if found then Ok l' else Err.

(** xlib/main.c:50-97 the four commands.  [fs] is the content of the module
    files named on the command line (an oracle: the file system). *)
Inductive command : Type :=
| Add (args : list (list Z))
| Delete (args : list (list Z))
| Extract (args : list (list Z))
| ListAll.

(** What a run leaves behind: the library file and the extracted files. *)
Record effect : Type := Effect {
  e_library : option (list Z);
  e_extracted : list (list Z * list Z);
  e_listing : list (Z * list Z) }.

(** main.c:50-58. *)
Definition handleAdd (fs : list Z -> option (list Z)) (l : list module)
    (args : list (list Z)) : list module :=
  fold_left (fun l a => lib_AddReplace l a (fs a)) args l.

(** main.c:60-68. *)
Fixpoint handleDelete (l : list module) (args : list (list Z)) : res (list module) :=
  match args with
  | [] => Ok l
  | a :: r => let! l' := lib_DeleteModule l a in handleDelete l' r
  end.

(** main.c:77-97.  Simplification: fopen for writing succeeds. *)
Fixpoint handleExtract (l : list module) (args : list (list Z))
    : res (list (list Z * list Z)) :=
  match args with
  | [] => Ok []
  | a :: r =>
      match lib_Find l a with
      | None => Err
      | Some m => let! rest := handleExtract l r in Ok ((a, m_data m) :: rest)
      end
  end.

(** main.c:99-143: one run of xlib on the library file [file]. *)
Definition xlib (fs : list Z -> option (list Z)) (file : option (list Z))
    (c : command) : res effect :=
  let! l := lib_Read file in
  match c with
  | Add args => Ok (Effect (Some (lib_Write (handleAdd fs l args))) [] [])
  | Delete args =>
      let! l' := handleDelete l args in Ok (Effect (Some (lib_Write l')) [] [])
  | Extract args =>
      let! x := handleExtract l args in Ok (Effect file x [])
  | ListAll => Ok (Effect file [] (map (fun m => (zlen (m_data m), m_name m)) l))
  end.

(** A history of runs on one library file; the module files may change between
    runs. *)
Fixpoint session (file : option (list Z))
    (h : list ((list Z -> option (list Z)) * command)) : res (option (list Z)) :=
  match h with
  | [] => Ok file
  | (fs, c) :: r => let! e := xlib fs file c in session (e_library e) r
  end.
