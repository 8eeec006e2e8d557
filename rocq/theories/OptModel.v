(** Model of the assembler's options: /repo/xasm/motor/options.c and the use of
    disabled warnings in /repo/xasm/motor/errors.c. *)
From Coq Require Import ZArith List Bool.
From Verif Require Import Base.
Import ListNotations.
Open Scope Z_scope.

(** options.h:26-29 EEndianness. *)
Inductive endianness : Type := LittleEndian | BigEndian.

(** options.h:33-54 SOptions.  [o_machine] is the content of *machineOptions, a
    structure of the CPU back end, as bytes. *)
Record options : Type := Options {
  o_endianness : endianness;
  o_binary : list Z;          (* binaryLiteralCharacters *)
  o_gameboy : list Z;         (* gameboyLiteralCharacters *)
  o_fill : Z;                 (* uninitializedValue *)
  o_alignment : Z;            (* sectionAlignment *)
  o_disabled : list Z;        (* disabledWarnings[0 .. disabledWarningsCount-1] *)
  o_machine : list Z;
  o_keywordLabels : bool;
  o_debug : bool;
  o_groups : bool }.          (* createGroups *)

(** The functions of other modules that options.c calls: the two text to number
    conversions of the util library (success and the stored number, kept when a
    conversion fails if [None]), and xasm_Configuration->parseOption, which may
    write to *opt_Current (z80_options.c:57-66) and reports its own messages. *)
Record optEnv : Type := OptEnv {
  decimalToInt : list Z -> bool * option Z;
  hexToInt : list Z -> bool * Z;
  parseMachineOption : list Z -> options -> options }.

(** The list opt_Current, its first element being the current options, the
    include paths (include.c, process wide) and the warnings given. *)
Record optState : Type := OptState {
  t_current : options; t_saved : list options; t_includes : list (list Z); t_warnings : list Z }.

(** errors.h:24-27, options.h:24. *)
Definition WARN_OPTION : Z := 1.
Definition WARN_OPTION_POP : Z := 2.
Definition MAX_DISABLED_WARNINGS : Z := 32.

(** errors.c:279-286 warningEnabled, 288-299 err_Warn. *)
Definition warningEnabled (o : options) (n : Z) : bool :=
  negb (existsb (fun d => d =? n) (o_disabled o)).
Definition err_Warn (n : Z) (st : optState) : optState :=
  if warningEnabled (t_current st) n
  then OptState (t_current st) (t_saved st) (t_includes st) (t_warnings st ++ [n])
  else st.

Definition set_current (o : options) (st : optState) : optState :=
  OptState o (t_saved st) (t_includes st) (t_warnings st).

(** options.c:35-44 handleDisableWarning. *)
Definition handleDisableWarning (E : optEnv) (s : list Z) (o : options) : bool * options :=
  if zlen (o_disabled o) <? MAX_DISABLED_WARNINGS then
    match decimalToInt E s with
    | (true, Some v) =>
        (true, Options (o_endianness o) (o_binary o) (o_gameboy o) (o_fill o) (o_alignment o)
                 (o_disabled o ++ [u16 v]) (o_machine o) (o_keywordLabels o) (o_debug o) (o_groups o))
    | _ => (false, o)
    end
  else (false, o).
(** options.c:53-65 handleEndianness. *)
Definition set_endianness (e : endianness) (o : options) : options :=
  Options e (o_binary o) (o_gameboy o) (o_fill o) (o_alignment o) (o_disabled o) (o_machine o)
    (o_keywordLabels o) (o_debug o) (o_groups o).
Definition handleEndianness (c : Z) (o : options) : bool * options :=
  if c =? 98 then (true, set_endianness BigEndian o)
  else if c =? 108 then (true, set_endianness LittleEndian o)
  else (false, o).
(** options.c:67-76 handleBinaryLiteralChars. *)
Definition handleBinaryLiteralChars (s : list Z) (o : options) : bool * options :=
  if zlen s =? 2 then
    (true, Options (o_endianness o) s (o_gameboy o) (o_fill o) (o_alignment o) (o_disabled o) (o_machine o)
             (o_keywordLabels o) (o_debug o) (o_groups o))
  else (false, o).
(** options.c:78-97 handleUnitializedFill.  The length is that of the text before
    the first blank; the stored value changes even when the text is no number. *)
Definition set_fill (z : Z) (o : options) : options :=
  Options (o_endianness o) (o_binary o) (o_gameboy o) z (o_alignment o) (o_disabled o) (o_machine o)
    (o_keywordLabels o) (o_debug o) (o_groups o).
Fixpoint word_length (s : list Z) : Z :=
  match s with
  | [] => 0
  | c :: r => if (c =? 32) || (c =? 9) then 0 else 1 + word_length r
  end.
Definition handleUnitializedFill (E : optEnv) (s : list Z) (o : options) : bool * options :=
  if word_length s <=? 2 then
    if beq s [63] then (true, set_fill 255 o)
    else let (ok, v) := hexToInt E s in (ok, set_fill (u8 v) o)
  else (false, o).
Definition set_alignment (z : Z) (o : options) : options :=
  Options (o_endianness o) (o_binary o) (o_gameboy o) (o_fill o) z (o_disabled o) (o_machine o)
    (o_keywordLabels o) (o_debug o) (o_groups o).
Definition set_debug (b : bool) (o : options) : options :=
  Options (o_endianness o) (o_binary o) (o_gameboy o) (o_fill o) (o_alignment o) (o_disabled o) (o_machine o)
    (o_keywordLabels o) b (o_groups o).

Definition keep (r : bool * options) (st : optState) : optState :=
  let st1 := set_current (snd r) st in
  if fst r then st1 else err_Warn WARN_OPTION st1.

(** options.c:139-184 opt_Parse; the text [option] ends at its NUL, so option[1]
    of a one letter option is 0. *)
Definition opt_Parse (E : optEnv) (option : list Z) (st : optState) : optState :=
  let rest := tl option in
  let o := t_current st in
  match option with
  | 97 :: _ =>                                          (* 'a' *)
      let (ok, v) := decimalToInt E rest in
      keep (ok, match v with Some z => set_alignment (s32 z) o | None => o end) st
  | 98 :: _ => keep (handleBinaryLiteralChars rest o) st  (* 'b' *)
  | 101 :: _ => keep (handleEndianness (hd 0 rest) o) st  (* 'e' *)
  | 103 :: _ => set_current (set_debug true o) st         (* 'g' *)
  | 105 :: _ => OptState o (t_saved st) (t_includes st ++ [rest]) (t_warnings st)   (* 'i' *)
  | 109 :: _ => set_current (parseMachineOption E rest o) st                        (* 'm' *)
  | 119 :: _ => keep (handleDisableWarning E rest o) st   (* 'w' *)
  | 122 :: _ => keep (handleUnitializedFill E rest o) st  (* 'z' *)
  | _ => err_Warn WARN_OPTION st
  end.

(** options.c:107-123 copyOptions and opt_Push.  Every back end's copyOptions
    assigns the whole structure. *)
Definition opt_Push (st : optState) : optState :=
  OptState (t_current st) (t_current st :: t_saved st) (t_includes st) (t_warnings st).
(** options.c:125-137 opt_Pop. *)
Definition opt_Pop (st : optState) : optState :=
  match t_saved st with
  | o :: r => OptState o r (t_includes st) (t_warnings st)
  | [] => err_Warn WARN_OPTION_POP st
  end.

(** The directives OPT, PUSHO and POPO (parse_directive.c:697-728); OPT with a
    list of options.  [DMachine] stands for the back ends' own directives that set
    options (m68k_parse_directive.c:30-80, x65_parse.c:50-120). *)
Inductive optDirective : Type :=
| DOpt (l : list (list Z))
| DMachine (f : options -> options)
| DPusho
| DPopo.
Definition optStep (E : optEnv) (d : optDirective) (st : optState) : optState :=
  match d with
  | DOpt l => fold_left (fun st s => opt_Parse E s st) l st
  | DMachine f => set_current (f (t_current st)) st
  | DPusho => opt_Push st
  | DPopo => opt_Pop st
  end.
Definition optRun (E : optEnv) (l : list optDirective) (st : optState) : optState :=
  fold_left (fun st d => optStep E d st) l st.
