(** Specification for C54 and C55: keywords, names and string literals, in terms of the
    characters of a line. *)
From Coq Require Import ZArith List Bool.
From Verif Require Import Base LexModel LexSpec TokModel.
Import ListNotations.
Open Scope Z_scope.

(** ** Keywords *)
Definition letter (c : Z) : bool := ((65 <=? c) && (c <=? 90)) || ((97 <=? c) && (c <=? 122)).
Definition upper (c : Z) : Z := if (97 <=? c) && (c <=? 122) then c - 32 else c.
Definition white (c : Z) : bool := (c =? 32) || ((9 <=? c) && (c <=? 13)).

(** Words come and go; a keyword is a word that has been defined and not been undefined. *)
Inductive event : Type := Add (name : list Z) (token : Z) | Remove (name : list Z) (token : Z).
Fixpoint forget (name : list Z) (d : list (list Z * Z)) : list (list Z * Z) :=
  match d with
  | [] => []
  | (m, t) :: r => if beq m name then forget name r else (m, t) :: forget name r
  end.
Fixpoint dictionary (l : list event) (d : list (list Z * Z)) : list (list Z * Z) :=
  match l with
  | [] => d
  | Add n t :: r => dictionary r ((n, t) :: d)
  | Remove n _ :: r => dictionary r (forget n d)
  end.
Fixpoint entry (d : list (list Z * Z)) (name : list Z) : option Z :=
  match d with
  | [] => None
  | (m, t) :: r => if beq m name then Some t else entry r name
  end.
(** The keyword a piece of text is, whatever the case of its letters. *)
Definition keyword (d : list (list Z * Z)) (s : list Z) : option Z := entry d (map upper s).

(** [p] is the longest keyword, with token [t], that [line] starts with. *)
Definition longest_keyword (d : list (list Z * Z)) (line p : list Z) (t : Z) : Prop :=
  (exists r, line = p ++ r) /\ p <> [] /\ keyword d p = Some t /\ existsb white p = false /\
  forall p' r, line = p' ++ r -> existsb white p' = false -> p' <> [] -> keyword d p' <> None ->
    (length p' <= length p)%nat.
Definition no_keyword (d : list (list Z * Z)) (line : list Z) : Prop :=
  forall p r, line = p ++ r -> existsb white p = false -> p <> [] -> keyword d p = None.

(** ** Names *)
Definition first_of_name (c : Z) : bool := letter c || (c =? 95).
Definition of_name (c : Z) : bool := first_of_name c || ((48 <=? c) && (c <=? 57)).
Fixpoint while {A} (f : A -> bool) (l : list A) : list A :=
  match l with [] => [] | c :: r => if f c then c :: while f r else [] end.
(** The name, perhaps with a period before it, that a text starts with; [] if none. *)
Definition name_at (l : list Z) : list Z :=
  match l with
  | c :: r =>
      if first_of_name c then c :: while of_name r
      else if c =? 46 then
        match r with
        | c2 :: r2 => if first_of_name c2 then c :: c2 :: while of_name r2 else []
        | [] => []
        end
      else []
  | [] => []
  end.

(** The character after a line's part; a newline ends the line. *)
Definition next (l : list Z) : Z := hd 10 l.
(** White space before a word, and the characters that start a number (C37). *)
Definition blanks (ws : list Z) : Prop := forallb white ws = true.
Definition literal_start (c : Z) : bool := (c =? 36) || (c =? 37) || (c =? 96) || ((48 <=? c) && (c <=? 57)).

(** What stands at the start of [line], and how much of it that is. *)
Inductive reads (d : list (list Z * Z)) (line : list Z) : list Z -> token -> Prop :=
| R_name : name_at line <> [] ->
    (forall p t, longest_keyword d line p t -> (length p < length (name_at line))%nat) ->
    reads d line (name_at line) (TId (name_at line))
| R_keyword : forall p t, longest_keyword d line p t -> (length (name_at line) <= length p)%nat ->
    reads d line p (TWord t p)
| R_char : forall c r, line = c :: r -> c <> 34 -> c <> 39 -> name_at line = [] -> no_keyword d line ->
    reads d line [c] (TChar c).

(** ** String literals *)
Definition quote (q : Z) : Prop := q = 34 \/ q = 39.
Definition meaning_of_escape (c : Z) : Z := if c =? 110 then 10 else if c =? 116 then 9 else c.
Definition refers (c : Z) (l : list Z) : bool := match l with d :: _ => (c =? 92) && is_ref d | [] => false end.

(** [string_body val q s v]: between quotes [q], the text [s] stands for the characters
    [v], where [val] gives what code in braces stands for.  Code may hold strings, and
    these may hold code.  Backslashes before a digit or @ are macro arguments and left
    out (C38). *)
Inductive string_body (val : list Z -> list Z) : Z -> list Z -> list Z -> Prop :=
| SB_nil : forall q, string_body val q [] []
| SB_char : forall q c s v, c <> q -> c <> 92 -> c <> 123 -> c <> 10 -> c <> 0 ->
    string_body val q s v -> string_body val q (c :: s) (c :: v)
| SB_escape : forall q c s v, c <> 0 -> is_ref c = false -> refers c (s ++ [q]) = false ->
    string_body val q s v -> string_body val q (92 :: c :: s) (meaning_of_escape c :: v)
| SB_code : forall q code s v, string_code val code ->
    string_body val q s v -> string_body val q (123 :: code ++ 125 :: s) (val code ++ v)
with string_code (val : list Z -> list Z) : list Z -> Prop :=
| SC_nil : string_code val []
| SC_char : forall c l, c <> 125 -> c <> 34 -> c <> 39 -> c <> 92 -> c <> 0 ->
    string_code val l -> string_code val (c :: l)
| SC_string : forall q s v l, q = 34 \/ q = 39 -> string_body val q s v ->
    string_code val l -> string_code val (q :: s ++ q :: l).
