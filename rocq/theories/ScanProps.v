(** C40 at the level of characters: where a skipped branch, a repeated block and
    a macro definition look for their end. *)
From Coq Require Import ZArith List Bool Lia String Ascii.
From Verif Require Import Base LexModel LexSpec LexProofs ScanModel ScanSpec ScanProofs.
Import ListNotations.
Open Scope Z_scope.

(** Skipping finds, from anywhere in a line, the first later line that carries a
    keyword in the directive's place, and stops directly behind that keyword.
    Keywords in labels, comments, arguments or after other words do not count.
    Partial: lines with a backslash are left out, as are words of more than 256
    letters; the latter are written beyond the token. *)
Theorem C40_skip_scan_partial : forall (keyword : list Z -> bool) ls tail n b,
  keyword [] = false ->
  line_ok tail -> Forall line_ok ls -> Forall small_words ls ->
  b_stack b = [] -> b_text b = tail ++ 10 :: text_of ls ->
  (List.length tail + List.length (text_of ls) + List.length ls + 5 <= n)%nat ->
  exists b', getNextDirective keyword n b =
      Ok (match first_directive keyword ls with Some (w, _, _) => Some w | None => None end, b') /\
    match first_directive keyword ls with
    | Some (_, rest, more) => b_stack b' ++ b_text b' = rest ++ 10 :: text_of more
    | None => True
    end.
Proof.
  intros keyword ls tail n b K Ht Hl Hw Es Et L.
  apply (scan_expanded keyword K ls tail); auto.
  - unfold delivers. rewrite Es, Et. reflexivity.
  - unfold room. rewrite Es. cbn. lia.
Qed.

(** The search for the end of a macro definition finds the same line when every line
    holds a blank or is a comment. *)
Theorem C40_macro_scan_partial : forall (keyword : list Z -> bool) ls tail n,
  keyword [] = false ->
  line_ok tail -> Forall line_ok ls -> Forall (fun l => spaced l = true) ls ->
  (List.length ls + 2 <= n)%nat ->
  getNextDirectiveIndexed keyword n (tail ++ 10 :: text_of ls) =
  Ok (match first_directive keyword ls with
      | Some (w, rest, more) => (Some w, rest ++ 10 :: text_of more)
      | None => (None, [])
      end).
Proof. intros. apply scan_unexpanded; auto. Qed.

Definition chars (s : string) : list Z := map (fun c => Z.of_nat (nat_of_ascii c)) (list_ascii_of_string s).
Definition exKeyword (w : list Z) : bool :=
  existsb (beq w) [chars "ENDM"%string; chars "MACRO"%string; chars "IF"%string; chars "ENDC"%string].

(** Without that the claim is false: after an empty line, or one with only a label, a
    comment in column one is read as a directive.  The macro here is cut short. *)
Theorem C40_macro_blank_line_refuted :
  first_directive exKeyword (map chars [""; "; ENDM"; " nop"; " ENDM"; " nop"]%string) =
    Some (chars "ENDM"%string, [], [chars " nop"%string]) /\
  getNextDirectiveIndexed exKeyword 20 (10 :: text_of (map chars [""; "; ENDM"; " nop"; " ENDM"; " nop"]%string)) =
    Ok (Some (chars "ENDM"%string), 10 :: text_of (map chars [" nop"; " ENDM"; " nop"]%string)) /\
  (* the other search, used for IF and REPT, is right about the same text *)
  (exists b, getNextDirective exKeyword 40
      (Buf [] (10 :: text_of (map chars [""; "; ENDM"; " nop"; " ENDM"; " nop"]%string)) [] []) =
      Ok (Some (chars "ENDM"%string), b) /\ b_stack b ++ b_text b = 10 :: text_of (map chars [" nop"]%string)).
Proof. vm_compute. repeat split. eexists. split; reflexivity. Qed.

(** The hypotheses of the theorems are met by a text with all kinds of lines. *)
Example C40_scan_example :
  let ls := map chars ["label nop"; "IF:  nop  IF"; "; IF 1"; "  * IF"; " nop ; IF"; "x IF 2"; " nop"]%string in
  exKeyword [] = false /\ Forall line_ok ls /\ Forall small_words ls /\ Forall (fun l => spaced l = true) ls /\
  first_directive exKeyword ls = Some (chars "IF"%string, chars " 2"%string, [chars " nop"%string]).
Proof.
  cbv zeta. split; [reflexivity|]. split; [|split; [|split; [|reflexivity]]].
  - repeat constructor; discriminate.
  - repeat constructor.
  - repeat constructor.
Qed.

Print Assumptions C40_skip_scan_partial.
Print Assumptions C40_macro_scan_partial.
Print Assumptions C40_macro_blank_line_refuted.
