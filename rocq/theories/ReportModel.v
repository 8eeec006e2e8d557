(** Model of the linker's map file (/repo/xlink/mapfile.c) and listing
    (/repo/xlink/listfile.c), as the characters written. *)
From Coq Require Import String ZArith List Bool.
From Verif Require Import Base Arith AssignModel LinkExprModel LinkModel MdefModel WholeModel.
Import ListNotations.
Open Scope string_scope.
Open Scope list_scope.
Open Scope Z_scope.

(** main.c:601-614, what comes before the output files are written: the same steps as in
    WholeModel.v linkBinary. *)
Definition linkProgram (F : fmath) (lv : program -> list Z -> res (Z * option Z))
    (gp : program -> Z -> Z -> res Z) (cf : config) (entry : option (list Z)) (p : program) : res program :=
  let! p1 := smart_Process (S (length p)) p entry in
  let! out := assign_Process cf (map sc_place p1) in
  let! p2 := rejoin p1 out in
  let! p3 := sect_ResolveUnresolved lv p2 in
  patch_Process F false false lv gp false p3.

(** fprintf of "%0*X": the digits of an unsigned number of 32 bits, with zeros before
    them up to the width.  A number of 32 bits has at most eight digits. *)
Definition hexDigit (d : Z) : Z := if d <? 10 then 48 + d else 55 + d.
Fixpoint hexDigits (n : nat) (v : Z) (r : list Z) : list Z :=
  match n with
  | O => r
  | S n' => if v =? 0 then r else hexDigits n' (v / 16) (hexDigit (v mod 16) :: r)
  end.
Definition print_X (width v : Z) : list Z :=
  let t := if v =? 0 then [48] else hexDigits 8 v [] in
  repeat 48 (Z.to_nat (width - zlen t)) ++ t.
(** fprintf of "%d": at most ten digits. *)
Fixpoint decDigits (n : nat) (v : Z) (r : list Z) : list Z :=
  match n with
  | O => r
  | S n' => if v =? 0 then r else decDigits n' (v / 10) (48 + v mod 10 :: r)
  end.
Definition print_d (v : Z) : list Z :=
  if v =? 0 then [48] else if v <? 0 then 45 :: decDigits 10 (- v) [] else decDigits 10 v [].
(** fprintf of "%-*s" and of "%*s" with an empty string. *)
Definition print_s (width : Z) (s : list Z) : list Z := s ++ repeat 32 (Z.to_nat (width - zlen s)).

Section Reports.
(** qsort of the C library: a parameter. *)
Variable sorter : forall A : Type, (A -> A -> Z) -> list A -> list A.
(** A call of qsort with a comparison that may overflow. *)
Definition qsort {A : Type} (compare : A -> A -> res Z) (l : list A) : res (list A) :=
  if forallb (fun a => forallb (fun b => match compare a b with Ok _ => true | _ => false end) l) l
  then Ok (sorter A (fun a b => match compare a b with Ok v => v | _ => 0 end) l)
  else UB.

(** object.c:113-114 g_fileInfo: the names of the source files. *)
Variable fileNames : list (list Z).
(** object.c:498-502 obj_GetFilename. *)
Definition obj_GetFilename (i : Z) : res (list Z) :=
  match nth_error fileNames (Z.to_nat i) with Some f => Ok f | None => UB end.

(** symbol.h:68-71 sym_IsImport. *)
Definition sym_IsImport (y : lsym) : bool := (ls_type y =? SYM_IMPORT) || (ls_type y =? SYM_LOCALIMPORT).
Definition b2z (b : bool) : Z := if b then 1 else 0.
(** mapfile.c:33-46 compareSymbols. *)
Definition compareSymbols (y1 y2 : lsym) : res Z :=
  let i1 := sym_IsImport y1 in
  let i2 := sym_IsImport y2 in
  if negb (Bool.eqb i1 i2) then Ok (b2z i1 - b2z i2) else c_sub (ls_value y1) (ls_value y2).
(** mapfile.c:62, 77. *)
Definition inMap (y : lsym) : bool := negb (sym_IsImport y) && ls_resolved y.
Definition UINT32_MAX : Z := 0xFFFFFFFF.

(** mapfile.c:107-115 map_GetValueFieldSize.  After 32 bits nothing is left of the
    value. *)
Fixpoint fieldLoop (n : nat) (value size : Z) : Z :=
  match n with
  | O => size
  | S n' => if value =? 0 then size else fieldLoop n' (Z.shiftr value 4) (size + 1)
  end.
Definition map_GetValueFieldSize (value minimum : Z) : Z := fieldLoop 8 (Z.shiftr value (minimum * 4)) minimum.

(** mapfile.c:72-87 findLongestSymbolName over all used sections
    (section.c:226-234): the longest name and the highest value. *)
Definition longest (a : Z * Z) (y : lsym) : Z * Z :=
  if inMap y then
    (if zlen (ls_name y) >? fst a then zlen (ls_name y) else fst a, if ls_value y >? snd a then ls_value y else snd a)
  else a.
Definition usedSections (p : program) : list lsect := filter sc_used p.
Definition findLongestSymbolName (p : program) : Z * Z :=
  fold_left (fun a s => fold_left longest (sc_symbols s) a) (usedSections p) (0, 0).

(** mapfile.c:62-71 the line of a symbol. *)
Definition mapLine (size len : Z) (y : lsym) : res (list Z) :=
  if negb (ls_file y =? UINT32_MAX) then
    let! f := obj_GetFilename (ls_file y) in
    Ok (chars "$" ++ print_X size (u32 (ls_value y)) ++ chars " | " ++ print_s len (ls_name y) ++ chars " | " ++ f ++ chars ":" ++
        print_d (s32 (ls_line y)) ++ [10])
  else Ok (chars "$" ++ print_X size (u32 (ls_value y)) ++ chars " | " ++ print_s len (ls_name y) ++ chars " |" ++ [10]).
Fixpoint mapLines (size len : Z) (ys : list lsym) : res (list Z) :=
  match ys with
  | [] => Ok []
  | y :: r =>
      let! t := if inMap y then mapLine size len y else Ok [] in
      let! u := mapLines size len r in Ok (t ++ u)
  end.
(** mapfile.c:53-70 writeSectionToMapFile. *)
Definition writeSectionToMapFile (size len : Z) (s : lsect) : res (list Z) :=
  let! ys := qsort compareSymbols (sc_symbols s) in mapLines size len ys.
Fixpoint writeMapSections (size len : Z) (ss : list lsect) : res (list Z) :=
  match ss with
  | [] => Ok []
  | s :: r => let! t := writeSectionToMapFile size len s in let! u := writeMapSections size len r in Ok (t ++ u)
  end.
(** mapfile.c:89-105 writeMapFile, map_Write. *)
Definition map_Write (p : program) : res (list Z) :=
  let (len, value) := findLongestSymbolName p in
  writeMapSections (map_GetValueFieldSize (u32 value) 4) len (usedSections p).

(** listfile.c:29-35 compareLineMappings: the difference of unsigned numbers, as an int. *)
Definition compareLineMappings (l1 l2 : lline) : res Z := Ok (s32 (u32 (ln_offset l1 - ln_offset l2))).
(** listfile.c:86-95 findLongestAddress over all used sections. *)
Definition lineAddress (s : lsect) (l : lline) : Z := u32 (s_cpuByteLocation (sc_place s) + ln_offset l).
Definition findLongestAddress (p : program) : Z :=
  fold_left (fun a s => fold_left (fun a l => if lineAddress s l >? a then lineAddress s l else a) (sc_lines s) a) (usedSections p) 0.
(** section.c data[offset + j] for the [n] bytes from [k] on. *)
Fixpoint dataBytes (d : list Z) (k : Z) (n : nat) : res (list Z) :=
  match n with
  | O => Ok []
  | S n' => match nth_error d (Z.to_nat k) with
            | None => UB
            | Some b => let! r := dataBytes d (k + 1) n' in Ok (chars " " ++ print_X 2 b ++ r)
            end
  end.
(** listfile.c:42-84 writeSection, for the lines that are left; [offset] is the variable
    of that name. *)
Fixpoint listLines (size : Z) (s : lsect) (offset : Z) (ls : list lline) : res (list Z) :=
  match ls with
  | [] => Ok []
  | l :: r =>
      let nextOffset := match r with l' :: _ => ln_offset l' | [] => s_size (sc_place s) end in
      let full := match sc_data s with Some _ => u32 (nextOffset - ln_offset l) | None => 0 end in
      let more := full >? 4 in
      let dataSize := if more then 4 else full in
      let! bytes := match sc_data s with Some d => dataBytes d offset (Z.to_nat dataSize) | None => Ok [] end in
      let writtenChars := dataSize * 3 + (if more then 4 else 0) in
      let! f := obj_GetFilename (ln_file l) in
      let! rest := listLines size s nextOffset r in
      Ok (chars " " ++ print_X size (lineAddress s l) ++ chars " " ++ bytes ++ (if more then chars " ..." else []) ++
          print_s (17 - writtenChars) [] ++ chars " | " ++ f ++ chars ":" ++ print_d (s32 (ln_line l)) ++ [10] ++ rest)
  end.
Definition writeSection (size : Z) (s : lsect) : res (list Z) :=
  let! ls := qsort compareLineMappings (sc_lines s) in listLines size s 0 ls.
Fixpoint writeListSections (size : Z) (ss : list lsect) : res (list Z) :=
  match ss with
  | [] => Ok []
  | s :: r => let! t := writeSection size s in let! u := writeListSections size r in Ok (t ++ u)
  end.
(** listfile.c:97-109 writeListFile, list_Write. *)
Definition list_Write (p : program) : res (list Z) :=
  writeListSections (map_GetValueFieldSize (findLongestAddress p) 4) (usedSections p).
End Reports.
