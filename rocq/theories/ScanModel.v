(** Model of the two scans for the next directive, xasm/motor/lexer.c:486-660. *)
From Coq Require Import ZArith List Bool.
From Verif Require Import Base LexModel.
Import ListNotations.
Open Scope Z_scope.

(** ctype.h, C locale. *)
Definition isalpha (c : Z) : bool := ((65 <=? c) && (c <=? 90)) || ((97 <=? c) && (c <=? 122)).
Definition isBlank (c : Z) : bool := (c =? 32) || (c =? 9).

Section Scan.
(** lexer_constants.c:135-151 lex_ConstantsMatchTokenString: is the word a
    keyword?  The words are those of the CPU and of tokens.c. *)
Variable keyword : list Z -> bool.

(** ** lex_GetNextDirective: used to skip branches and repeat blocks *)

(** The loop of skipToNextLine, lexer.c:494-496; [ch] was read last. *)
Fixpoint toLineEnd (n : nat) (ch : Z) (b : buf) : res buf :=
  match n with
  | O => UB
  | S n => if (ch =? 10) || (ch =? 0) then Ok b else let! (c, b1) := getChar b in toLineEnd n c b1
  end.
(** lexer.c:486-499 skipToNextLine. *)
Definition skipToNextLine (n : nat) (b : buf) : res (bool * buf) :=
  let! (ch, b1) := getChar b in
  if ch =? 0 then Ok (false, b1) else let! b2 := toLineEnd n ch b1 in Ok (true, b2).
(** lexer.c:511-516 charIs(";*"). *)
Definition charIsComment (b : buf) : res (bool * buf) :=
  let! (ch, b1) := getChar b in
  let! b2 := unput b1 ch in
  Ok (negb (ch =? 0) && ((ch =? 59) || (ch =? 42)), b2).
(** lexer.c:524-531 skipLabel. *)
Fixpoint skipLabel (n : nat) (b : buf) : res buf :=
  match n with
  | O => UB
  | S n =>
      let! (ch, b1) := getChar b in
      if isBlank ch || (ch =? 10) || (ch =? 0) then unput b1 ch else skipLabel n b1
  end.
(** lexer.c:543-556 skipWhiteSpace: [afterBlank] tells whether this is a later turn
    of the loop, where a * starts a comment. *)
Fixpoint skipWhiteSpace (n : nat) (afterBlank : bool) (b : buf) : res (bool * buf) :=
  match n with
  | O => UB
  | S n =>
      let! (ch, b1) := getChar b in
      if afterBlank && (ch =? 42) then Ok (true, b1)
      else if isBlank ch then skipWhiteSpace n true b1
      else if ch =? 59 then Ok (true, b1)
      else let! b2 := unput b1 ch in Ok (false, b2)
  end.
(** The loop of lexer.c:638-642; token.value.string has 257 characters. *)
Fixpoint directiveWord (n : nat) (word : list Z) (b : buf) : res (list Z * buf) :=
  match n with
  | O => UB
  | S n =>
      let! (ch, b1) := getChar b in
      if isalpha ch then
        if (length word <? 256)%nat then directiveWord n (word ++ [ch]) b1 else UB
      else let! b2 := unput b1 ch in Ok (word, b2)
  end.
(** lexer.c:623-648 lex_GetNextDirective; the keyword and what follows it. *)
Fixpoint getNextDirective (n : nat) (b : buf) : res (option (list Z) * buf) :=
  match n with
  | O => UB
  | S n =>
      let! (more, b1) := skipToNextLine n b in
      if negb more then Ok (None, b1) else
      let! (comment, b2) := charIsComment b1 in
      if (comment : bool) then getNextDirective n b2 else
      let! b3 := skipLabel n b2 in
      let! (comment, b4) := skipWhiteSpace n false b3 in
      if (comment : bool) then getNextDirective n b4 else
      let! (word, b5) := directiveWord n [] b4 in
      if keyword word then Ok (Some word, b5) else getNextDirective n b5
  end.

(** ** lex_GetNextDirectiveUnexpanded: used to find the end of a macro.
    The index is given by the text from there on. *)

(** lexer.c:501-509 skipToNextLineIndexed. *)
Fixpoint skipToNextLineIndexed (t : list Z) : option (list Z) :=
  match t with
  | [] => None
  | c :: r => if c =? 10 then Some r else if c =? 0 then None else skipToNextLineIndexed r
  end.
(** lexer.c:518-522. *)
Definition charIsCommentIndexed (t : list Z) : bool :=
  match t with [] => false | c :: _ => (c =? 59) || (c =? 42) end.
(** lexer.c:533-541 skipLabelIndexed: does not stop at the end of the line. *)
Fixpoint skipLabelIndexed (t : list Z) : list Z :=
  match t with
  | [] => []
  | c :: r => if isBlank c || (c =? 0) then t else skipLabelIndexed r
  end.
(** lexer.c:558-568 skipWhiteSpaceIndexed. *)
Fixpoint skipWhiteSpaceIndexed (afterBlank : bool) (t : list Z) : bool * list Z :=
  match t with
  | [] => (true, t)
  | c :: r =>
      if afterBlank && (c =? 42) then (true, t)
      else if isBlank c then skipWhiteSpaceIndexed true r
      else ((c =? 59) || (c =? 0), t)
  end.
Fixpoint directiveWordIndexed (word : list Z) (t : list Z) : list Z * list Z :=
  match t with
  | [] => (word, t)
  | c :: r => if isalpha c then directiveWordIndexed (word ++ [c]) r else (word, t)
  end.
(** lexer.c:650-673 lex_GetNextDirectiveUnexpanded.  Simplification: words of more
    than 256 letters, which the C code writes beyond the token, are kept. *)
Fixpoint getNextDirectiveIndexed (n : nat) (t : list Z) : res (option (list Z) * list Z) :=
  match n with
  | O => UB
  | S n =>
      match skipToNextLineIndexed t with
      | None => Ok (None, [])
      | Some t1 =>
          if charIsCommentIndexed t1 then getNextDirectiveIndexed n t1 else
          let (comment, t2) := skipWhiteSpaceIndexed false (skipLabelIndexed t1) in
          if (comment : bool) then getNextDirectiveIndexed n t2 else
          let (word, t3) := directiveWordIndexed [] t2 in
          if keyword word then Ok (Some word, t3) else getNextDirectiveIndexed n t3
      end
  end.
End Scan.
