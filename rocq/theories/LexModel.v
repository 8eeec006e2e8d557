(** Model of xasm/motor/lexer_buffer.c, charstack.h and the literals of lexer.c. *)
From Coq Require Import ZArith List Bool.
From Verif Require Import Base.
Import ListNotations.
Open Scope Z_scope.

(** ** Character stack and buffer *)

(** lexer_buffer.h:26-33 and charstack.h:27-30.  The stack is listed from its
    top; [b_text] is what lies beyond the index.  The arguments are those of the
    macro ([None] for \0 when it was not given). *)
Record buf : Type := Buf {
  b_stack : list Z;
  b_text : list Z;
  b_args : list (option (list Z));
  b_unique : list Z }.

(** xasm.h:32 MAX_STRING_SYMBOL_SIZE. *)
Definition stackSize : nat := 256.

(** charstack.h:39-42, lexer.c:519-522, lexer_buffer.c:196-199: the stack has no
    check for overflow. *)
Definition unput (b : buf) (ch : Z) : res buf :=
  if (length (b_stack b) <? stackSize)%nat
  then Ok (Buf (ch :: b_stack b) (b_text b) (b_args b) (b_unique b)) else UB.
(** charstack.c:47-52 chstk_PushString. *)
Definition pushString (b : buf) (s : list Z) : res buf :=
  if (length (b_stack b) + length s <=? stackSize)%nat
  then Ok (Buf (s ++ b_stack b) (b_text b) (b_args b) (b_unique b)) else UB.

(** lexer_buffer.c:35-47 nextChar. *)
Definition fromText (b : buf) : Z * buf :=
  match b_text b with
  | [] => (0, b)
  | c :: t => (c, Buf (b_stack b) t (b_args b) (b_unique b))
  end.
Definition nextChar (b : buf) : Z * buf :=
  match b_stack b with
  | [] => fromText b
  | c :: s =>
      let b1 := Buf s (b_text b) (b_args b) (b_unique b) in
      if c =? 0 then fromText b1 else (c, b1)
  end.
(** lexer_buffer.c:49-61 peekChar. *)
Definition peekChar (b : buf) : Z :=
  let text := match b_text b with [] => 0 | c :: _ => c end in
  match b_stack b with
  | [] => text
  | c :: _ => if c =? 0 then text else c
  end.

(** lexer_buffer.c:65-94 lexbuf_GetChar, lexer.c:524-527 lex_GetChar. *)
Definition getChar (b : buf) : res (Z * buf) :=
  let (ch, b1) := nextChar b in
  if ch =? 92 then
    let next := peekChar b1 in
    if (48 <=? next) && (next <=? 57) then
      let (d, b2) := nextChar b1 in
      let! b3 := match nth_error (b_args b2) (Z.to_nat (d - 48)) with
                 | Some (Some v) => pushString b2 v
                 | _ => Ok b2
                 end in
      Ok (nextChar b3)
    else if next =? 64 then
      let (_, b2) := nextChar b1 in
      let! b3 := pushString b2 (b_unique b2) in
      Ok (nextChar b3)
    else Ok (ch, b1)
  else Ok (ch, b1).

(** lexer_buffer.c:119-124 lexbuf_ShiftArguments: argument 1 is dropped [count]
    times while there is one. *)
Fixpoint shiftArguments (count : nat) (args : list (option (list Z))) : list (option (list Z)) :=
  match count, args with
  | S c, a0 :: _ :: r => shiftArguments c (a0 :: r)
  | _, _ => args
  end.

(** lexer_buffer.c:28-33 createUniqueValue: str_CreateFormat("_%u", runId++). *)
Fixpoint decimal (n : nat) (v : Z) : list Z :=
  match n with
  | O => []
  | S n => (if v <? 10 then [] else decimal n (v / 10)) ++ [48 + v mod 10]
  end.
Definition uniqueValue (runId : Z) : list Z := 95 :: decimal 10 runId.

(** ** Literals *)

(** The options used by literals (options.c:191-196 has the defaults). *)
Record litopt : Type := LitOpt { l_binary : list Z; l_gameboy : list Z }.
Definition defaultLiterals : litopt := LitOpt [48; 49] [48; 49; 50; 51].

(** ctype.h, C locale. *)
Definition isdigit (ch : Z) : bool := (48 <=? ch) && (ch <=? 57).

(** lexer.c:244-256 asciiToBinary, 258-270 asciiToRadixBinary; [None] is -1. *)
Definition asciiToBinary (ch : Z) : option Z :=
  if isdigit ch then Some (ch - 48)
  else if (97 <=? ch) && (ch <=? 102) then Some (ch - 97 + 10)
  else if (65 <=? ch) && (ch <=? 70) then Some (ch - 65 + 10)
  else None.
Fixpoint indexOf (l : list Z) (ch i : Z) : option Z :=
  match l with
  | [] => None
  | c :: r => if ch =? c then Some i else indexOf r ch (i + 1)
  end.
Definition asciiToRadixBinary (o : litopt) (ch radix : Z) : option Z :=
  match (if radix =? 2 then indexOf (l_binary o) ch 0 else None) with
  | Some v => Some v
  | None =>
      match asciiToBinary ch with
      | Some v => if v <? radix then Some v else None
      | None => None
      end
  end.

(** What was read.  NFloat stands for the long double of T_FLOAT. *)
Inductive numtok : Type :=
| NNumber (z : Z)
| NFloat (high low denominator : Z)
| NLocal (name : list Z).

(** The loops of lexer.c:279-282 and 299-304.  [value], [denominator] and the
    token text so far; the digits are followed by the character that ended them. *)
Fixpoint digitsLoop (o : litopt) (n : nat) (radix : Z) (value denominator : Z) (text : list Z) (b : buf)
    : res (Z * Z * list Z * Z * buf) :=
  match n with
  | O => UB
  | S n =>
      let! (ch, b1) := getChar b in
      match asciiToRadixBinary o ch radix with
      | Some d =>
          (* token.value.string has 257 characters *)
          if (length text <? 257)%nat
          then digitsLoop o n radix (u32 (value * radix + d)) (u32 (denominator * radix)) (text ++ [ch]) b1
          else UB
      | None => Ok (value, denominator, text, ch, b1)
      end
  end.

(** util imuldiv: its source is not in /repo. *)
Definition c_imuldiv (imuldiv : Z -> Z -> Z -> Z) (a b c : Z) : res Z :=
  if c =? 0 then UB else Ok (imuldiv a b c).

(** lexer.c:272-324 acceptNumericAndLocalLabel.  [n] bounds the loops.
    Simplification: T_LABEL and T_ID (line 289) are not told apart. *)
Definition acceptNumeric (o : litopt) (imuldiv : Z -> Z -> Z -> Z) (n : nat) (radix : Z) (b : buf)
    : res (numtok * buf) :=
  let! (high, _, text, ch, b1) := digitsLoop o n radix 0 1 [] b in
  if (radix =? 10) && (ch =? 36) then
    if (length text <? 256)%nat then
      if forallb isdigit text then Ok (NLocal (text ++ [ch]), b1) else Err
    else UB
  else
    let! (low, denominator, dot, ch, b2) :=
      if ch =? 46 then
        let! (low, den, text2, ch2, b2) := digitsLoop o n radix 0 1 text b1 in
        if (length text2 =? length text)%nat
        then let! b3 := unput b2 ch2 in Ok (low, den, false, 46, b3)
        else Ok (low, den, true, ch2, b2)
      else Ok (0, 1, false, ch, b1) in
    if ch =? 102 then Ok (NFloat high low denominator, b2) else
    let! b3 := unput b2 ch in
    if (dot : bool) then
      let! f := c_imuldiv imuldiv low 65536 denominator in
      Ok (NNumber (s32 (high * 65536 + f)), b3)
    else Ok (NNumber (s32 high), b3).

(** lexer.c:336-350 acceptGameboyLiteral. *)
Fixpoint gameboyLoop (o : litopt) (n : nat) (result : Z) (b : buf) : res (Z * buf) :=
  match n with
  | O => UB
  | S n =>
      let! (ch, b1) := getChar b in
      match indexOf (l_gameboy o) ch 0 with
      | Some v => gameboyLoop o n (u32 (result * 2 + v mod 2 * 256 + v / 2)) b1
      | None => Ok (result, b1)
      end
  end.

(** lexer.c:352-371 acceptVariadic: [None] when no literal starts here. *)
Definition acceptVariadic (o : litopt) (imuldiv : Z -> Z -> Z -> Z) (n : nat) (b : buf)
    : res (option numtok * buf) :=
  let! (ch, b1) := getChar b in
  if ch =? 36 then let! (t, b2) := acceptNumeric o imuldiv n 16 b1 in Ok (Some t, b2)
  else if ch =? 37 then let! (t, b2) := acceptNumeric o imuldiv n 2 b1 in Ok (Some t, b2)
  else if ch =? 96 then let! (v, b2) := gameboyLoop o n 0 b1 in Ok (Some (NNumber (s32 v)), b2)
  else
    let! b2 := unput b1 ch in
    if isdigit ch then let! (t, b3) := acceptNumeric o imuldiv n 10 b2 in Ok (Some t, b3)
    else Ok (None, b2).

(** Calling lex_GetChar until it returns 0, at most [n] times. *)
Fixpoint readAll (n : nat) (b : buf) : res (list Z) :=
  match n with
  | O => UB
  | S n =>
      let! (c, b1) := getChar b in
      if c =? 0 then Ok [] else let! r := readAll n b1 in Ok (c :: r)
  end.
