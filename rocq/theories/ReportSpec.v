(** Specification of the map file (C63) and the listing (C64). *)
From Coq Require Import String Ascii ZArith List Bool Permutation Sorted.
From Verif Require Import Base AssignModel LinkModel LinkSpec.
Import ListNotations.
Open Scope string_scope.
Open Scope list_scope.
Open Scope Z_scope.

Definition text (s : string) : list Z := map (fun c => Z.of_nat (nat_of_ascii c)) (list_ascii_of_string s).

(** ** Numbers in text *)
Definition value16 (c : Z) : Z := if c <=? 57 then c - 48 else c - 55.
Definition is_digit16 (c : Z) : Prop := 48 <= c <= 57 \/ 65 <= c <= 70.
Definition is_digit10 (c : Z) : Prop := 48 <= c <= 57.
Definition read16 (l : list Z) : Z := fold_left (fun a c => 16 * a + value16 c) l 0.
Definition read10 (l : list Z) : Z := fold_left (fun a c => 10 * a + (c - 48)) l 0.
(** [l] is the number [v] in at least [w] digits, and no more than needed. *)
Definition hexadecimal (w v : Z) (l : list Z) : Prop :=
  Forall is_digit16 l /\ read16 l = v /\ w <= zlen l /\ (w < zlen l -> hd 0 l <> 48).
Definition decimal (v : Z) (l : list Z) : Prop :=
  Forall is_digit10 l /\ read10 l = v /\ 1 <= zlen l /\ (1 < zlen l -> hd 0 l <> 48).

(** The place in the source, if it is known. *)
Definition no_file : Z := 2 ^ 32 - 1.
Definition place (names : list (list Z)) (file line : Z) (t : list Z) : Prop :=
  exists f d, nth_error names (Z.to_nat file) = Some f /\ decimal line d /\ t = f ++ text ":" ++ d.

(** qsort of the C library: for a comparison that is an order on the elements, the
    elements in that order; which of two equal ones comes first is not said. *)
Definition an_order {A : Type} (c : A -> A -> Z) (l : list A) : Prop :=
  (forall a b, In a l -> In b l -> (c a b <= 0 \/ c b a <= 0) /\ (c a b < 0 <-> c b a > 0)) /\
  (forall x y z, In x l -> In y l -> In z l -> c x y <= 0 -> c y z <= 0 -> c x z <= 0).
Definition sorts (sorter : forall A : Type, (A -> A -> Z) -> list A -> list A) : Prop :=
  forall A c l, an_order c l -> Permutation (sorter A c l) l /\ StronglySorted (fun a b => c a b <= 0) (sorter A c l).

(** ** The map file *)

(** The symbols a section defines. *)
Definition own (y : lsym) : bool := (ls_type y =? SYM_EXPORT) || (ls_type y =? SYM_LOCAL) || (ls_type y =? SYM_LOCALEXPORT).
Definition defined (s : lsect) : list lsym := filter own (sc_symbols s).
(** The line for symbol [y] of section [s]: address, name and place in the source, in
    columns of [w] and [n] characters. *)
Definition map_line (names : list (list Z)) (w n : Z) (s : lsect) (y : lsym) (t : list Z) : Prop :=
  exists h at_, hexadecimal w (address s y mod 2 ^ 32) h /\ (0 <= address s y -> zlen h = w) /\
    (if ls_file y =? no_file then at_ = [] else exists u, place names (ls_file y) (ls_line y) u /\ at_ = text " " ++ u) /\
    zlen (ls_name y) <= n /\
    t = text "$" ++ h ++ text " | " ++ (ls_name y ++ repeat 32 (Z.to_nat (n - zlen (ls_name y)))) ++ text " |" ++ at_ ++ [10].
(** The lines of a section: one for each symbol it defines, by address. *)
Definition map_section (names : list (list Z)) (w n : Z) (s : lsect) (t : list Z) : Prop :=
  exists ys lines, Permutation ys (defined s) /\ StronglySorted (fun a b => address s a <= address s b) ys /\
    Forall2 (map_line names w n s) ys lines /\ t = concat lines.
Definition map_file (names : list (list Z)) (p : program) (t : list Z) : Prop :=
  exists w n sections, Forall2 (map_section names w n) (filter sc_used p) sections /\ t = concat sections.

(** The addresses span less than 2^31, and imports carry no value of their own. *)
Definition comparable (p2 : program) : Prop :=
  exists lo, - 2 ^ 31 < lo <= 0 /\ forall s y, In s p2 -> sc_used s = true -> In y (sc_symbols s) ->
    (forall d x, defines p2 s y d x -> lo <= address d x < lo + 2 ^ 31) /\ (own y = false -> ls_value y = 0).
(** The file numbers are those of files, the lines less than 2^31. *)
Definition known_places (names : list (list Z)) (s : lsect) : Prop :=
  forall y, In y (defined s) -> 0 <= ls_file y /\ (ls_file y = no_file \/ (exists f, nth_error names (Z.to_nat (ls_file y)) = Some f) /\ 0 <= ls_line y < 2 ^ 31).


(** ** The listing *)

(** At most four bytes from [k] on, before [next], and whether there are more. *)
Definition bytes_text (d : list Z) (k next : Z) (t : list Z) : Prop :=
  exists hs, Forall2 (hexadecimal 2) (slice d k (Z.min 4 (next - k))) hs /\
    t = concat (map (fun h => text " " ++ h) hs) ++ (if next - k >? 4 then text " ..." else []).
(** The line for an entry of the line table of [s] whose code ends before [next]: its
    address, its bytes and its place in the source. *)
Definition list_line (names : list (list Z)) (w : Z) (s : lsect) (l : lline) (next : Z) (t : list Z) : Prop :=
  exists h b u, hexadecimal w (s_cpuByteLocation (sc_place s) + ln_offset l) h /\ zlen h = w /\
    match sc_data s with Some d => bytes_text d (ln_offset l) next b | None => b = [] end /\
    place names (ln_file l) (ln_line l) u /\
    t = text " " ++ h ++ text " " ++ (b ++ repeat 32 (Z.to_nat (17 - zlen b))) ++ text " | " ++ u ++ [10].
Fixpoint list_lines (names : list (list Z)) (w : Z) (s : lsect) (ls : list lline) (t : list Z) : Prop :=
  match ls with
  | [] => t = []
  | l :: r => exists t1 t2, list_line names w s l (match r with l' :: _ => ln_offset l' | [] => s_size (sc_place s) end) t1 /\
      list_lines names w s r t2 /\ t = t1 ++ t2
  end.
Definition list_section (names : list (list Z)) (w : Z) (s : lsect) (t : list Z) : Prop :=
  exists ls, Permutation ls (sc_lines s) /\ StronglySorted (fun a b => ln_offset a <= ln_offset b) ls /\ list_lines names w s ls t.
Definition list_file (names : list (list Z)) (p : program) (t : list Z) : Prop :=
  exists w sections, Forall2 (list_section names w) (filter sc_used p) sections /\ t = concat sections.
(** The lines are inside the section and of known files. *)
Definition lines_fine (names : list (list Z)) (s : lsect) : Prop :=
  forall l, In l (sc_lines s) -> 0 <= ln_offset l <= s_size (sc_place s) /\ 0 <= ln_line l < 2 ^ 31 /\ exists f, nth_error names (Z.to_nat (ln_file l)) = Some f.
(** A section with contents has a line for its first byte. *)
Definition from_the_start (s : lsect) : Prop := sc_data s <> None -> sc_lines s <> [] -> exists l, In l (sc_lines s) /\ ln_offset l = 0.
