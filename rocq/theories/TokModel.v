(** Model of the keyword table, xasm/motor/lexer_constants.c, and of how the lexer
    tells labels, identifiers, keywords, strings, comments and other characters apart,
    xasm/motor/lexer.c:41-245 and 374-413. *)
From Coq Require Import ZArith List Bool.
From Verif Require Import Base LexModel ScanModel.
Import ListNotations.
Open Scope Z_scope.

(** ctype.h, C locale. *)
Definition islower (c : Z) : bool := (97 <=? c) && (c <=? 122).
Definition toupper (c : Z) : Z := if islower c then c - 32 else c.
Definition isspace (c : Z) : bool := (c =? 32) || ((9 <=? c) && (c <=? 13)).

(** ** The keyword table *)

(** lexer_constants.c:33-40 HASH and WORDS_HASH_SIZE, on uint32_t. *)
Definition WORDS_HASH_SIZE : Z := 1024.
Definition HASH (hash key : Z) : Z :=
  let h := u32 (u32 (hash * 2) + key) in
  Z.land (Z.lxor h (Z.shiftr h 3)) (WORDS_HASH_SIZE - 1).
(** lexer_constants.c:69-79 hashString, and the same loop in lines 137-140. *)
Definition hashString (s : list Z) : Z := fold_left (fun h c => HASH h (toupper c)) s 0.

(** lexer_constants.c:44-53 SConstantWord, g_wordsHashTable and g_maxWordLength. *)
Record word : Type := Word { w_name : list Z; w_token : Z }.
Record table : Type := Table { t_words : Z -> list word; t_max : Z }.
(** lexer_constants.c:230-236 lex_ConstantsInit. *)
Definition lex_ConstantsInit : table := Table (fun _ => []) 0.
Definition setBucket (h : Z) (l : list word) (f : Z -> list word) : Z -> list word :=
  fun k => if k =? h then l else f k.

(** lexer_constants.c:199-218 lex_ConstantsDefineWord.  The assertions are those of
    lines 58-66 and 82-89; a failed one counts as undefined behaviour.  list_Insert is
    taken to put the word in front. *)
Definition lex_ConstantsDefineWord (name : list Z) (token : Z) (tb : table) : res table :=
  let h := hashString name in
  if existsb islower name then UB else
  if existsb (fun w => beq name (w_name w)) (t_words tb h) then UB else
  Ok (Table (setBucket h (Word name token :: t_words tb h) (t_words tb)) (Z.max (t_max tb) (zlen name))).
(** lexer_constants.c:177-189 lex_ConstantsUndefineWord; an internal error ends the
    program. *)
Fixpoint removeWord (name : list Z) (token : Z) (l : list word) : option (list word) :=
  match l with
  | [] => None
  | w :: r =>
      if (w_token w =? token) && beq (w_name w) name then Some r
      else match removeWord name token r with Some r' => Some (w :: r') | None => None end
  end.
Definition lex_ConstantsUndefineWord (name : list Z) (token : Z) (tb : table) : res table :=
  let h := hashString name in
  match removeWord name token (t_words tb h) with
  | Some l => Ok (Table (setBucket h l (t_words tb)) (t_max tb))
  | None => Err
  end.
Inductive wop : Type := WDefine (name : list Z) (token : Z) | WUndefine (name : list Z) (token : Z).
Definition wstep (o : wop) (tb : table) : res table :=
  match o with
  | WDefine n t => lex_ConstantsDefineWord n t tb
  | WUndefine n t => lex_ConstantsUndefineWord n t tb
  end.
(** lexer_constants.c:191-197 and 220-228: the loops over several words. *)
Fixpoint wrun (l : list wop) (tb : table) : res table :=
  match l with [] => Ok tb | o :: r => let! tb1 := wstep o tb in wrun r tb1 end.

(** The loops over candidates, lexer_constants.c:111-117 and 142-148: the same length,
    and the same letters whatever their case (_strnicmp). *)
Definition isCandidate (s : list Z) (w : word) : bool :=
  (zlen (w_name w) =? zlen s) && beq (map toupper s) (map toupper (w_name w)).
(** lexer_constants.c:135-151 lex_ConstantsMatchTokenString: the token. *)
Definition lex_ConstantsMatchTokenString (tb : table) (s : list Z) : option Z :=
  option_map w_token (find (isCandidate s) (t_words tb (hashString s))).

(** lexer_constants.c:128-130, lexer.c:241-243 and lex_UnputStringLength: the characters
    of [l] are put back, the last one first. *)
Fixpoint unputAll (l : list Z) (b : buf) : res buf :=
  match l with [] => Ok b | c :: r => let! b1 := unputAll r b in unput b1 c end.
(** lexer_constants.c:94-133 lex_ConstantsMatchWord: the token and its text.
    [n] counts from g_maxWordLength down; [text] is the token's text so far, which has
    257 characters. *)
Fixpoint matchLoop (tb : table) (n : nat) (hash : Z) (text : list Z) (result : option word) (b : buf)
    : res (option word * list Z * buf) :=
  match n with
  | O => Ok (result, text, b)
  | S n =>
      let! (ch, b1) := getChar b in
      if ch =? 0 then Ok (result, text, b1) else
      if (257 <=? length text)%nat then UB else
      let text1 := text ++ [ch] in
      if isspace ch then Ok (result, text1, b1) else
      let h := HASH hash (toupper ch) in
      let result1 := match find (isCandidate text1) (t_words tb h) with Some w => Some w | None => result end in
      matchLoop tb n h text1 result1 b1
  end.
Definition lex_ConstantsMatchWord (tb : table) (b : buf) : res (option (Z * list Z) * buf) :=
  let! (result, text, b1) := matchLoop tb (Z.to_nat (t_max tb)) 0 [] None b in
  let nameLength := match result with Some w => length (w_name w) | None => O end in
  let! b2 := unputAll (skipn nameLength text) b1 in
  Ok (match result with Some w => Some (w_token w, firstn nameLength text) | None => None end, b2).

(** ** Strings, lexer.c:41-119 *)

(** The token's text grows by a character. *)
Definition store (text : list Z) (ch : Z) : res (list Z) :=
  if (257 <=? length text)%nat then UB else Ok (text ++ [ch]).
(** lexer.c:44-66 acceptStringInterpolation and 68-99 acceptQuotedStringUntil: the
    text up to and with the terminator, [None] for false.  ERROR_STRING_TERM is [Err].
    [n] bounds loops and recursion. *)
Fixpoint acceptStringInterpolation (n : nat) (text : list Z) (b : buf) : res (option (list Z) * buf) :=
  match n with
  | O => UB
  | S n =>
      let! (ch, b1) := getChar b in
      if (ch =? 125) && negb (ch =? 0) then let! t := store text ch in Ok (Some t, b1) else
      let! t := store text ch in
      if (ch =? 39) || (ch =? 34) then
        let! (r, b2) := acceptQuotedStringUntil n ch t b1 in
        match r with
        | None => Ok (None, b2)
        | Some t2 => acceptStringInterpolation n t2 b2
        end
      else acceptStringInterpolation n t b1
  end
with acceptQuotedStringUntil (n : nat) (terminator : Z) (text : list Z) (b : buf) : res (option (list Z) * buf) :=
  match n with
  | O => UB
  | S n =>
      let! (ch, b1) := getChar b in
      if (ch =? terminator) && negb (ch =? 0) then let! t := store text ch in Ok (Some t, b1) else
      let! t := store text ch in
      if ch =? 92 then
        let! (ch2, b2) := getChar b1 in
        if ch2 =? 0 then Ok (None, b2) else
        let! t2 := store t ch2 in acceptQuotedStringUntil n terminator t2 b2
      else if ch =? 123 then
        let! (r, b2) := acceptStringInterpolation n t b1 in
        match r with
        | None => Ok (None, b2)
        | Some t2 => acceptQuotedStringUntil n terminator t2 b2
        end
      else if ch =? 10 then Err
      else acceptQuotedStringUntil n terminator t b1
  end.
(** lexer.c:101-119 acceptString. *)
Definition acceptString (n : nat) (b : buf) : res (option (list Z) * buf) :=
  let! (ch, b1) := getChar b in
  if (ch =? 34) || (ch =? 39) then
    let! (r, b2) := acceptQuotedStringUntil n ch [] b1 in
    Ok (match r with Some t => Some (removelast t) | None => None end, b2)
  else let! b2 := unput b1 ch in Ok (None, b2).

(** ** Labels and identifiers, lexer.c:164-245 *)
Definition isStartSymbolCharacter (c : Z) : bool := isalpha c || (c =? 95).
Definition isSymbolCharacter (c : Z) : bool := isStartSymbolCharacter c || isdigit c.
(** The loop of acceptSymbolTail, lines 187-189: the text and the character after it. *)
Fixpoint symbolTail (n : nat) (text : list Z) (b : buf) : res (list Z * Z * buf) :=
  match n with
  | O => UB
  | S n =>
      let! (ch, b1) := getChar b in
      if isSymbolCharacter ch then let! t := store text ch in symbolTail n t b1
      else Ok (text, ch, b1)
  end.
Section Next.
(** The value of a string symbol, symbol.c sym_GetStringSymbolValueByName. *)
Variable stringSymbol : list Z -> option (list Z).
(** lexer.c:184-207 acceptSymbolTail and 209-245 acceptLabel.  ERROR_ID_MALFORMED is
    [Err].  The token is longer than a lone period here, so the test in line 199 holds.
    A name before # is replaced by its text. *)
Fixpoint acceptLabel (n : nat) (b : buf) : res (option (list Z) * buf) :=
  match n with
  | O => UB
  | S n =>
      let! (ch0, b0) := getChar b in
      let! (text, ch, b1) :=
        if ch0 =? 46 then let! (ch, b1) := getChar b0 in Ok ([46; ch], ch, b1)
        else Ok ([ch0], ch0, b0) in
      if isStartSymbolCharacter ch then
        let! (t, c, b2) := symbolTail n text b1 in
        let! (t1, b3) :=
          if c =? 36 then if forallb isdigit t then let! t1 := store t c in Ok (t1, b2) else Err
          else let! b3 := unput b2 c in Ok (t, b3) in
        if (257 <=? length t1)%nat then UB else
        let! (c2, b4) := getChar b3 in
        let plain := let! b5 := unput b4 c2 in Ok (Some t1, b5) in
        if c2 =? 35 then
          match stringSymbol t1 with
          | Some v => let! b5 := unputAll v b4 in acceptLabel n b5
          | None => plain
          end
        else plain
      else let! b2 := unputAll text b1 in Ok (None, b2)
  end.

(** lexer.c:121-131 skipUnimportantWhitespace. *)
Fixpoint skipWhitespace (n : nat) (skipped : bool) (b : buf) : res (bool * buf) :=
  match n with
  | O => UB
  | S n =>
      let! (ch, b1) := getChar b in
      if negb (ch =? 10) && negb (ch =? 0) && isspace ch then skipWhitespace n true b1
      else if ch =? 0 then Ok (skipped, b1) else let! b2 := unput b1 ch in Ok (skipped, b2)
  end.
(** lexer.c:151-162 consumeComment. *)
Fixpoint toLineEnd1 (n : nat) (b : buf) : res (Z * buf) :=
  match n with
  | O => UB
  | S n => let! (ch, b1) := getChar b in if (ch =? 10) || (ch =? 0) then Ok (ch, b1) else toLineEnd1 n b1
  end.
Definition consumeComment (n : nat) (wasSpace lineStart : bool) (b : buf) : res (bool * buf) :=
  let! (ch, b1) := getChar b in
  if (ch =? 59) || ((ch =? 42) && (wasSpace || lineStart)) then
    let! (ch1, b2) := toLineEnd1 n b1 in
    let! b3 := unput b2 ch1 in Ok (false, b3)
  else let! b2 := unput b1 ch in Ok (wasSpace, b2).

(** What acceptNext finds.  [TWord] is a keyword, with its text as written. *)
Inductive token : Type :=
| TLabel (name : list Z)
| TId (name : list Z)
| TWord (id : Z) (text : list Z)
| TNumber (v : numtok)
| TString (s : list Z)
| TChar (c : Z).

(** lexer.c:374-413 acceptNext, with acceptChar (133-144): [None] at the end of the
    text.  lex_Bookmark and lex_Goto save and restore the buffer. *)
Variable tb : table.
Variable o : litopt.
Variable imuldiv : Z -> Z -> Z -> Z.
Definition acceptRest (n : nat) (b : buf) : res (option token * buf) :=
  let! (w, afterConstant) := lex_ConstantsMatchWord tb b in
  let! (l, afterLabel) := acceptLabel n b in
  let constantLength := match w with Some (_, t) => length t | None => O end in
  match l, w with
  | Some name, _ =>
      if (constantLength <? length name)%nat then Ok (Some (TId name), afterLabel)
      else match w with
           | Some (id, t) => Ok (Some (TWord id t), afterConstant)
           | None => UB
           end
  | None, Some (id, t) => Ok (Some (TWord id t), afterConstant)
  | None, None =>
      let! (s, b1) := acceptString n afterLabel in
      match s with
      | Some s => Ok (Some (TString s), b1)
      | None => let! (ch, b2) := getChar b1 in Ok (if ch =? 0 then None else Some (TChar ch), b2)
      end
  end.
Definition acceptAfterLabel (n : nat) (lineStart : bool) (b : buf) : res (option token * buf) :=
  let! (wasSpace, b1) := skipWhitespace n false b in
  let lineStart1 := lineStart && negb wasSpace in
  let! (wasSpace2, b2) := consumeComment n wasSpace lineStart1 b1 in
  let lineStart2 := lineStart1 && negb wasSpace2 in
  let! (v, b3) := acceptVariadic o imuldiv n b2 in
  match v with
  | Some (NLocal name) => Ok (Some (if lineStart2 then TLabel name else TId name), b3)
  | Some v => Ok (Some (TNumber v), b3)
  | None => acceptRest n b3
  end.
Definition acceptNext (n : nat) (lineStart : bool) (b : buf) : res (option token * buf) :=
  if lineStart then
    let! (_, b1) := consumeComment n false true b in
    let! (l, b2) := acceptLabel n b1 in
    match l with
    | Some name => Ok (Some (TLabel name), b2)
    | None => acceptAfterLabel n lineStart b2
    end
  else acceptAfterLabel n lineStart b.
End Next.

(** ** Escapes and embedded code, xasm/motor/parse_string.c:36-59 and 197-249 *)

(** parse_string.c:39-59 determineStringEnd and determineCodeEnd: what is left from the end on.  The text is
    followed by a 0; a loop that has gone beyond that is undefined. *)
Fixpoint determineCodeEnd (n : nat) (t : list Z) : res (list Z) :=
  match n with
  | O => UB
  | S n =>
      match t with
      | [] => Ok []
      | c :: r =>
          if c =? 125 then Ok t else
          if (c =? 39) || (c =? 34) then
            let! e := determineStringEnd n c r in
            match e with [] => UB | _ :: r1 => determineCodeEnd n r1 end
          else determineCodeEnd n r
      end
  end
with determineStringEnd (n : nat) (endChar : Z) (t : list Z) : res (list Z) :=
  match n with
  | O => UB
  | S n =>
      match t with
      | [] => Ok []
      | c :: r =>
          if c =? endChar then Ok t else
          match r with
          | d :: r1 =>
              if c =? 92 then determineStringEnd n endChar r1 else
              if c =? 123 then
                let! e := determineCodeEnd n r in
                match e with [] => UB | _ :: r2 => determineStringEnd n endChar r2 end
              else determineStringEnd n endChar r
          | [] =>
              if c =? 123 then UB else Ok []
          end
      end
  end.
(** parse_string.c:212-222 unescapeCharacter. *)
Definition unescapeCharacter (ch : Z) : Z := if ch =? 110 then 10 else if ch =? 116 then 9 else ch.
(** parse_string.c:224-249 interpolateString.  [embedded] is what parseEmbeddedExpression
    (197-210) appends for the code; it consists of the characters up to and with the }. *)
Fixpoint interpolateString (embedded : list Z -> res (list Z)) (n : nat) (t : list Z) : res (list Z) :=
  match n with
  | O => UB
  | S n =>
      match t with
      | [] => Ok []
      | c :: r =>
          if c =? 92 then
            match r with
            | [] => Ok []
            | d :: r1 => let! x := interpolateString embedded n r1 in Ok (unescapeCharacter d :: x)
            end
          else if c =? 123 then
            let! e := determineCodeEnd n r in
            match e with
            | [] => UB
            | _ :: r1 =>
                let! v := embedded (firstn (length r - length r1) r) in
                let! x := interpolateString embedded n r1 in Ok (v ++ x)
            end
          else let! x := interpolateString embedded n r in Ok (c :: x)
      end
  end.
