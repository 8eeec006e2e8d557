(** Which lines are directives (for C40). *)
From Coq Require Import ZArith List Bool.
From Verif Require Import Base LexModel ScanModel.
Import ListNotations.
Open Scope Z_scope.

(** The parts of a line: a label (may be empty), blanks, then the rest. *)
Fixpoint after_label (l : list Z) : list Z :=
  match l with [] => [] | c :: r => if isBlank c then l else after_label r end.
Fixpoint after_blanks (l : list Z) : list Z :=
  match l with [] => [] | c :: r => if isBlank c then after_blanks r else l end.
Fixpoint letters (l : list Z) : list Z :=
  match l with [] => [] | c :: r => if isalpha c then c :: letters r else [] end.
Fixpoint after_letters (l : list Z) : list Z :=
  match l with [] => [] | c :: r => if isalpha c then after_letters r else l end.
Definition starts_comment (l : list Z) : bool :=
  match l with c :: _ => (c =? 59) || (c =? 42) | [] => false end.

(** The keyword of a line, if it has one: a line that starts with ; or * or has
    one of them after blanks is a comment. *)
Definition directive_of (keyword : list Z -> bool) (l : list Z) : option (list Z * list Z) :=
  let body := after_blanks (after_label l) in
  if starts_comment l || starts_comment body then None
  else if keyword (letters body) then Some (letters body, after_letters body) else None.

(** The first line with a keyword: the keyword, the rest of its line, the lines after it. *)
Fixpoint first_directive (keyword : list Z -> bool) (ls : list (list Z)) : option (list Z * list Z * list (list Z)) :=
  match ls with
  | [] => None
  | l :: r =>
      match directive_of keyword l with
      | Some (w, rest) => Some (w, rest, r)
      | None => first_directive keyword r
      end
  end.

Definition text_of (ls : list (list Z)) : list Z := flat_map (fun l => l ++ [10]) ls.
(** The characters of a line: no line break, no end of text, no macro reference. *)
Definition line_ok (l : list Z) : Prop := Forall (fun c => c <> 10 /\ c <> 0 /\ c <> 92) l.
(** A line that the search for ENDM gets right: a comment, or one with a blank. *)
Definition spaced (l : list Z) : bool := starts_comment l || existsb isBlank l.
