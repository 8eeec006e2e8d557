(** C54 and C55: keywords, names, comments and strings in the source text. *)
From Coq Require Import Ascii String ZArith List Bool Lia ZifyBool ZifyNat.
From Verif Require Import Base BaseFacts LexModel LexSpec LexProofs ScanModel ScanSpec ScanProofs TokModel TokSpec TokProofs.
Import ListNotations.
Open Scope string_scope.
Open Scope list_scope.
Open Scope Z_scope.

Fixpoint txt (s : string) : list Z :=
  match s with EmptyString => [] | String c r => Z.of_nat (nat_of_ascii c) :: txt r end.

(** ** C54 *)
(** Whatever words have been defined and undefined, looking a text up finds the token of
    the keyword it is. *)
Theorem C54_lookup : forall ops tb, wrun ops lex_ConstantsInit = Ok tb ->
  forall s, lex_ConstantsMatchTokenString tb s = keyword (dictionary (map ev ops) []) s.
Proof.
  intros ops tb E s. pose proof (holds_run ops lex_ConstantsInit tb [] holds_init E) as H.
  pose proof (lookup tb _ s H) as L. unfold lex_ConstantsMatchTokenString.
  destruct (find (isCandidate s) (t_words tb (hashString s))) as [w|]; cbn [option_map]; [|auto]. destruct L as (L & _). auto.
Qed.
Print Assumptions C54_lookup.
(** Words of at most 255 characters. *)
Definition short_words (ops : list wop) : Prop := forall n t, In (WDefine n t) ops -> zlen n <= 255.
Lemma table_ok : forall ops tb, wrun ops lex_ConstantsInit = Ok tb -> short_words ops ->
  holds tb (dictionary (map ev ops) []) /\ 0 <= t_max tb <= 255.
Proof.
  intros ops tb E S. split; [exact (holds_run ops _ tb [] holds_init E)|]. split.
  - assert (G : forall l t t', wrun l t = Ok t' -> 0 <= t_max t -> 0 <= t_max t').
    { induction l as [|o l IH]; intros t t' W L; cbn [wrun] in W; [injection W as <-; exact L|].
      destruct (wstep o t) as [t1| |] eqn:E1; cbn [bind] in W; try discriminate W. apply (IH t1 t' W).
      destruct o as [n k|n k]; cbn [wstep] in E1.
      - unfold lex_ConstantsDefineWord in E1. destruct (existsb islower n); [discriminate E1|].
        destruct (existsb _ _); [discriminate E1|]. injection E1 as <-. cbn [t_max]. lia.
      - unfold lex_ConstantsUndefineWord in E1. destruct (removeWord _ _ _); [|discriminate E1]. injection E1 as <-. exact L. }
    exact (G ops _ tb E (Z.le_refl 0)).
  - apply (max_run ops lex_ConstantsInit tb 255 ltac:(cbn; lia) E S).
Qed.
(** Reading a keyword takes the longest one that the text starts with and nothing else. *)
Theorem C54_longest : forall ops tb line rest b, wrun ops lex_ConstantsInit = Ok tb -> short_words ops ->
  delivers b (line ++ 10 :: rest) -> room b -> line_ok line ->
  exists r b', lex_ConstantsMatchWord tb b = Ok (r, b') /\
    match r with
    | Some (t, p) => longest_keyword (dictionary (map ev ops) []) line p t /\ exists l, line = p ++ l /\ delivers b' (l ++ 10 :: rest)
    | None => no_keyword (dictionary (map ev ops) []) line /\ delivers b' (line ++ 10 :: rest)
    end.
Proof.
  intros ops tb line rest b E S D R LO. destruct (table_ok ops tb E S) as (H & M).
  destruct (matchWord_ok tb _ line rest b H ltac:(lia) ltac:(lia) D R LO) as (r & b' & A & _ & B). eauto.
Qed.
Print Assumptions C54_longest.

(** A line's white space is skipped; then comes the name or the keyword, whichever is
    longer, and the keyword if they are equally long; if neither, a single character. *)
Theorem C54_token : forall ops tb sym o f n ls ws c l rest b,
  let line := c :: l in let d := dictionary (map ev ops) [] in
  wrun ops lex_ConstantsInit = Ok tb -> short_words ops ->
  delivers b (ws ++ line ++ 10 :: rest) -> room b -> line_ok ws -> line_ok line -> blanks ws ->
  (ls = false \/ ws <> []) ->
  white c = false -> literal_start c = false -> c <> 59 -> (c = 42 -> ws = []) -> c <> 34 -> c <> 39 ->
  (length (name_at line) <= 256)%nat -> (length ws + length line < n)%nat ->
  (forall l', line = name_at line ++ l' -> name_at line <> [] -> next l' <> 36 /\ (next l' = 35 -> sym (name_at line) = None)) ->
  exists tok b' taken left, acceptNext sym tb o f (S n) ls b = Ok (Some tok, b') /\
    line = taken ++ left /\ reads d line taken tok /\ delivers b' (left ++ 10 :: rest) /\ room b'.
Proof.
  intros ops tb sym o f n ls ws c l rest b line d E S D R LW LO BW HLS HW HLIT H59 H42 H34 H39 L N HN.
  destruct (table_ok ops tb E S) as (H & M).
  assert (A : forall b0, delivers b0 (ws ++ line ++ 10 :: rest) -> room b0 ->
    exists tok b' taken left, acceptAfterLabel sym tb o f (Datatypes.S n) ls b0 = Ok (Some tok, b') /\
    line = taken ++ left /\ reads d line taken tok /\ delivers b' (left ++ 10 :: rest) /\ room b').
  { clear b D R. intros b D R. unfold acceptAfterLabel.
    destruct (skip_ok ws (Datatypes.S n) false b line rest D R LW LO BW (or_intror HW) ltac:(lia)) as (b1 & E1 & D1 & R1).
    rewrite E1. cbn [bind orb].
    set (sp := negb match ws with [] => true | _ :: _ => false end) in *.
    assert (H42' : next line = 42 -> sp = false /\ ls && negb sp = false).
    { cbn [line next hd]. intro E42. pose proof (H42 E42) as W0. subst sp. rewrite W0. cbn. split; [reflexivity|].
      destruct HLS as [->|NW]; [reflexivity|contradiction]. }
    destruct (comment_none (Datatypes.S n) sp (ls && negb sp) b1 line rest D1 R1 LO H59 H42') as (b2 & -> & D2 & R2). cbn [bind].
    destruct (variadic_none o f (Datatypes.S n) b2 line rest D2 R2 LO HLIT) as (b3 & -> & D3 & R3). cbn [bind].
    apply (acceptRest_ok sym tb d n b3 c l rest H M D3 R3 LO L ltac:(fold line; lia) H34 H39 HN). }
  unfold acceptNext. destruct ls; [|apply A; auto].
  destruct HLS as [C|NW]; [discriminate C|]. destruct ws as [|w ws]; [contradiction|].
  assert (W : white w = true) by (unfold blanks in BW; cbn [forallb] in BW; apply andb_prop in BW; tauto).
  assert (LL : line_ok ((w :: ws) ++ line)) by (apply Forall_app; auto).
  rewrite app_assoc in D.
  destruct (comment_none (Datatypes.S n) false true b ((w :: ws) ++ line) rest D R LL) as (b1 & -> & D1 & R1).
  { cbn [app next hd]. unfold white in W. lia. } { cbn [app next hd]. unfold white in W. lia. }
  cbn [bind].
  destruct (acceptLabel_none sym n b1 ((w :: ws) ++ line) rest D1 R1 LL) as (b2 & -> & D2 & R2).
  { cbn [app name_at]. unfold white, first_of_name, letter in *. replace (_ || (w =? 95)) with false by lia. destruct (Z.eqb_spec w 46); [lia|reflexivity]. }
  cbn [bind]. rewrite <- app_assoc in D2. apply A; auto.
Qed.
Print Assumptions C54_token.

(** A name at the start of a line is a label, even if it is a keyword. *)
Theorem C54_label : forall sym tb o f n line l rest b,
  delivers b (line ++ 10 :: rest) -> room b -> line_ok line -> name_at line <> [] -> line = name_at line ++ l ->
  (length (name_at line) <= 256)%nat -> (length line < n)%nat -> next l <> 36 -> (next l = 35 -> sym (name_at line) = None) ->
  exists b', acceptNext sym tb o f (S n) true b = Ok (Some (TLabel (name_at line)), b') /\ delivers b' (l ++ 10 :: rest) /\ room b'.
Proof.
  intros sym tb o f n line l rest b D R LO NE E L N H36 H35. unfold acceptNext.
  assert (HC : next line <> 59 /\ next line <> 42).
  { destruct line as [|c k]; [cbn in NE; congruence|]. cbn [next hd name_at] in *. unfold first_of_name, letter in NE.
    split; intros ->; cbn in NE; congruence. }
  destruct (comment_none (S n) false true b line rest D R LO (proj1 HC) ltac:(tauto)) as (b1 & -> & D1 & R1). cbn [bind].
  destruct (acceptLabel_cases sym n b1 line rest D1 R1 LO NE L N) as (l' & E' & _ & _ & B & _).
  assert (l = l') as -> by (rewrite E in E' at 1; apply app_inv_head in E'; exact E').
  destruct (B H36 H35) as (b2 & -> & D2 & R2). cbn [bind]. eauto.
Qed.
Print Assumptions C54_label.

(** The rest of a line after a semicolon, or after an asterisk at its start or after
    white space, is a comment: the next token is the end of the line. *)
Theorem C54_comment : forall ops tb sym o f n ls ws c t rest b,
  wrun ops lex_ConstantsInit = Ok tb -> short_words ops ->
  delivers b (ws ++ (c :: t) ++ 10 :: rest) -> room b -> line_ok ws -> line_ok t -> blanks ws ->
  (c = 59 \/ c = 42 /\ (ws <> [] \/ ls = true)) -> (length ws + S (length t) < n)%nat ->
  exists b', acceptNext sym tb o f (S n) ls b = Ok (Some (TChar 10), b') /\ delivers b' rest /\ room b'.
Proof.
  intros ops tb sym o f n ls ws c t rest b E S D R LW LT BW HC N.
  destruct (table_ok ops tb E S) as (H & M).
  assert (LC : line_ok (c :: t)) by (constructor; [lia|exact LT]).
  assert (WC : white c = false) by (unfold white; lia).
  assert (A : forall b0, delivers b0 (ws ++ (c :: t) ++ 10 :: rest) -> room b0 ->
    (ws = [] -> ls = true -> False) -> exists b', acceptAfterLabel sym tb o f (Datatypes.S n) ls b0 = Ok (Some (TChar 10), b') /\ delivers b' rest /\ room b').
  { clear b D R. intros b D R HX. unfold acceptAfterLabel.
    destruct (skip_ok ws (Datatypes.S n) false b (c :: t) rest D R LW LC BW (or_intror WC) ltac:(lia)) as (b1 & E1 & D1 & R1).
    rewrite E1. cbn [bind orb].
    set (sp := negb match ws with [] => true | _ :: _ => false end).
    assert (HC' : c = 59 \/ c = 42 /\ (sp = true \/ ls && negb sp = true)).
    { destruct HC as [->|(-> & [NW| ->])]; [auto| |]; right; (split; [reflexivity|]).
      - left. subst sp. destruct ws; [contradiction|reflexivity].
      - destruct sp; auto. }
    destruct (comment_some (Datatypes.S n) sp (ls && negb sp) b1 c t rest D1 R1 LT HC' ltac:(lia)) as (b2 & -> & D2 & R2). cbn [bind].
    pose proof (newline_ok sym tb (dictionary (map ev ops) []) o f n ls b2 rest H M D2 R2) as (b3 & NL & D3 & R3).
    unfold acceptAfterLabel in NL.
    destruct (variadic_none o f (Datatypes.S n) b2 [] rest D2 R2 ltac:(constructor) eq_refl) as (b4 & V & D4 & R4). rewrite V. cbn [bind].
    clear NL D3 R3 b3. unfold acceptRest.
    destruct (matchWord_ok tb _ [] rest b4 H ltac:(lia) ltac:(lia) D4 R4 ltac:(constructor)) as (r & b5 & -> & R5 & HR). cbn [bind].
    destruct (acceptLabel_none sym n b4 [] rest D4 R4 ltac:(constructor) eq_refl) as (b6 & -> & D6 & R6). cbn [bind].
    assert (r = None) as ->.
    { destruct r as [(tk, p)|]; [|reflexivity]. destruct HR as (((r & EE) & NN & _) & _). destruct p; [congruence|discriminate EE]. }
    unfold acceptString. cbn [app] in D6.
    destruct (get1 b6 10 rest D6 ltac:(lia) ltac:(lia) R6) as (b7 & b8 & -> & D7 & R7 & U & D8 & R8). cbn [bind].
    change ((10 =? 34) || (10 =? 39)) with false. cbv iota. rewrite U. cbn [bind].
    destruct (get1 b8 10 rest D8 ltac:(lia) ltac:(lia) R8) as (b9 & _ & -> & D9 & R9 & _). cbn [bind]. exists b9. auto. }
  unfold acceptNext. destruct ls.
  - destruct ws as [|w ws].
    + cbn [app] in D.
      destruct (comment_some (Datatypes.S n) false true b c t rest D R LT ltac:(tauto) ltac:(lia)) as (b1 & -> & D1 & R1). cbn [bind].
      destruct (acceptLabel_none sym n b1 [] rest D1 R1 ltac:(constructor) eq_refl) as (b2 & -> & D2 & R2). cbn [bind].
      apply (newline_ok sym tb (dictionary (map ev ops) []) o f n true b2 rest H M D2 R2).
    + assert (W : white w = true) by (unfold blanks in BW; cbn [forallb] in BW; apply andb_prop in BW; tauto).
      assert (LL : line_ok ((w :: ws) ++ c :: t)) by (apply Forall_app; auto).
      rewrite app_assoc in D.
      destruct (comment_none (Datatypes.S n) false true b ((w :: ws) ++ c :: t) rest D R LL) as (b1 & -> & D1 & R1).
      { cbn [app next hd]. unfold white in W. lia. } { cbn [app next hd]. unfold white in W. lia. }
      cbn [bind].
      destruct (acceptLabel_none sym n b1 ((w :: ws) ++ c :: t) rest D1 R1 LL) as (b2 & -> & D2 & R2).
      { cbn [app name_at]. unfold white, first_of_name, letter in *. replace (_ || (w =? 95)) with false by lia. destruct (Z.eqb_spec w 46); [lia|reflexivity]. }
      cbn [bind]. rewrite <- app_assoc in D2. apply A; auto. discriminate.
  - apply A; auto. discriminate.
Qed.
Print Assumptions C54_comment.

(** A name before # stands for the text of the string symbol of that name: reading goes
    on with that text and what follows the #. *)
Theorem C54_string_symbol : forall sym n line l rest b v,
  delivers b (line ++ 10 :: rest) -> (length (b_stack b) <= 128)%nat -> line_ok line -> name_at line <> [] ->
  line = name_at line ++ 35 :: l -> (length (name_at line) <= 256)%nat -> (length line < n)%nat ->
  sym (name_at line) = Some v -> (length v <= 128)%nat ->
  exists b', acceptLabel sym (S n) b = acceptLabel sym n b' /\ delivers b' (v ++ l ++ 10 :: rest).
Proof.
  intros sym n line l rest b v D R LO NE E L N EV LV.
  destruct (acceptLabel_cases sym n b line rest D ltac:(unfold room; lia) LO NE L N) as (l' & E' & _ & _ & _ & C).
  assert (l' = 35 :: l) as -> by (rewrite E in E' at 1; apply app_inv_head in E'; auto).
  destruct (C eq_refl v EV LV R) as (b' & C1 & C2 & _). exists b'. auto.
Qed.
Print Assumptions C54_string_symbol.

(** Refuted: that a keyword ends where the word does.  JALR.HB, from the MIPS words, is
    found at the start of JALR.HBX. *)
Definition exWords : list wop :=
  [WDefine (txt "JALR") 301; WDefine (txt "JALR.HB") 302; WDefine (txt "JAL") 303; WDefine (txt "<<") 304;
   WDefine (txt "SET") 305; WUndefine (txt "SET") 305; WDefine (txt "SET") 306].
Definition exTable : table := match wrun exWords lex_ConstantsInit with Ok t => t | _ => lex_ConstantsInit end.
Definition noSymbols : list Z -> option (list Z) := fun _ => None.
Definition exNext ls s := acceptNext noSymbols exTable defaultLiterals (fun a b c => a * b / c) 40 ls (Buf [] (txt s ++ [10]) [] []).
Theorem C54_word_end_refuted :
  exists b, exNext false " JALR.HBX" = Ok (Some (TWord 302 (txt "JALR.HB")), b) /\ b_stack b ++ b_text b = txt "X" ++ [10].
Proof. eexists. split; vm_compute; reflexivity. Qed.
Print Assumptions C54_word_end_refuted.
(** Refuted: that reading a name ends.  A string symbol whose text is its own name and #
    is expanded for ever, here for any number of steps. *)
Definition selfSymbol (s : list Z) : option (list Z) := if beq s [97] then Some [97; 35] else None.
Lemma self_step : forall n, acceptLabel selfSymbol (S (S n)) (Buf [97; 35] [10] [] []) = acceptLabel selfSymbol (S n) (Buf [97; 35] [10] [] []).
Proof.
  intro n.
  change (getChar (Buf [97; 35] [10] [] [])) with (@Ok (Z * buf) (97, Buf [35] [10] [] [])).
  cbn [acceptLabel]. change (getChar (Buf [97; 35] [10] [] [])) with (@Ok (Z * buf) (97, Buf [35] [10] [] [])). cbn [bind].
  change (97 =? 46) with false. cbv iota. cbn [bind]. change (isStartSymbolCharacter 97) with true. cbv iota.
  assert (T : symbolTail (S n) [97] (Buf [35] [10] [] []) = Ok ([97], 35, Buf [] [10] [] [])) by reflexivity.
  rewrite T. cbn [bind]. reflexivity.
Qed.
Theorem C54_self_reference_refuted : txt "a#" = [97; 35] /\ selfSymbol (txt "a") = Some (txt "a#") /\
  forall n, acceptLabel selfSymbol n (Buf (txt "a#") [10] [] []) = UB.
Proof.
  split; [reflexivity|]. split; [reflexivity|]. change (txt "a#") with [97; 35].
  induction n as [|n IH]; [reflexivity|]. destruct n as [|n]; [reflexivity|]. rewrite self_step. exact IH.
Qed.
Print Assumptions C54_self_reference_refuted.

Example C54_ex_ok : wrun exWords lex_ConstantsInit = Ok exTable /\ short_words exWords.
Proof.
  split; [reflexivity|]. intros n t H. cbn [exWords In] in H.
  repeat (destruct H as [H|H]; [try discriminate H; injection H as <- <-; vm_compute; discriminate|]). contradiction.
Qed.
Example C54_ex_lookup : lex_ConstantsMatchTokenString exTable (txt "jAlr") = Some 301 /\
  lex_ConstantsMatchTokenString exTable (txt "Set") = Some 306 /\ lex_ConstantsMatchTokenString exTable (txt "Sets") = None.
Proof. repeat split; vm_compute; reflexivity. Qed.
Example C54_ex_token : forall s, s = "  jalrx r1" ->
  blanks (txt "  ") /\ name_at (txt "jalrx r1") = txt "jalrx" /\
  (exists b, exNext true s = Ok (Some (TId (txt "jalrx")), b)) /\
  (exists b, exNext false "Jalr r1" = Ok (Some (TWord 301 (txt "Jalr")), b)) /\
  (exists b, exNext true "Jalr r1" = Ok (Some (TLabel (txt "Jalr")), b)) /\
  (exists b, exNext false "<<4" = Ok (Some (TWord 304 (txt "<<")), b)) /\
  (exists b, exNext false " * jalr" = Ok (Some (TChar 10), b)).
Proof. intros s ->. repeat split; try (eexists; vm_compute; reflexivity). Qed.

(** ** C55 *)
(** A literal of at most 256 characters is read exactly up to its closing quote, and its
    value is its text with escapes replaced and every piece of code in braces replaced by
    what it stands for, strings with braces inside that code included. *)
Theorem C55_literal : forall val emb q s v n b rest, quote q -> string_body val q s v ->
  (forall code, string_code val code -> emb (code ++ [125]) = Ok (val code)) ->
  delivers b (q :: s ++ q :: rest) -> (length s <= 256)%nat -> (length s < n)%nat ->
  exists b', acceptString n b = Ok (Some s, b') /\ delivers b' rest /\ interpolateString emb n s = Ok v.
Proof.
  intros val emb q s v n b rest Q SB HE D L N. unfold acceptString.
  destruct (get b q (s ++ q :: rest) D ltac:(unfold quote in Q; lia) ltac:(unfold quote in Q; lia)) as (b1 & -> & D1 & L1). cbn [bind].
  replace ((q =? 34) || (q =? 39)) with true by (unfold quote in Q; lia).
  destruct (proj1 (all_pass val) q s v SB n [] b1 q rest Q ltac:(unfold quote in Q; lia) ltac:(destruct Q as [-> | ->]; reflexivity) D1 ltac:(cbn; lia) N)
    as (n' & b2 & E & D2 & N2 & L2). rewrite E.
  destruct (quoted_end n' q ([] ++ s) b2 rest Q D2 ltac:(cbn; lia) ltac:(lia)) as (b3 & -> & D3 & L3). cbn [bind app].
  exists b3. rewrite removelast_last. split; [reflexivity|]. split; [exact D3|].
  apply (value_ok val emb q s v HE SB); [unfold quote in Q; lia|exact N].
Qed.
Print Assumptions C55_literal.
(** A line that ends before the closing quote is an error. *)
Theorem C55_unterminated : forall val q s v n b rest, quote q -> string_body val q s v ->
  delivers b (q :: s ++ 10 :: rest) -> (length s <= 256)%nat -> (length s < n)%nat -> acceptString n b = Err.
Proof.
  intros val q s v n b rest Q SB D L N. unfold acceptString.
  destruct (get b q (s ++ 10 :: rest) D ltac:(unfold quote in Q; lia) ltac:(unfold quote in Q; lia)) as (b1 & -> & D1 & L1). cbn [bind].
  replace ((q =? 34) || (q =? 39)) with true by (unfold quote in Q; lia).
  destruct (proj1 (all_pass val) q s v SB n [] b1 10 rest Q ltac:(lia) eq_refl D1 ltac:(cbn; lia) N)
    as (n' & b2 & E & D2 & N2 & L2). rewrite E. destruct n' as [|n']; [lia|]. cbn [acceptQuotedStringUntil].
  destruct (get b2 10 rest D2 ltac:(lia) ltac:(lia)) as (b3 & -> & D3 & L3). cbn [bind].
  destruct (Z.eqb_spec 10 q); [unfold quote in Q; lia|]. cbn [andb]. rewrite store_ok by (cbn; lia). reflexivity.
Qed.
Print Assumptions C55_unterminated.

(** Refuted: that any other text is rejected.  A file that ends inside a string is read
    beyond the token's space. *)
Lemma past_end : forall n text, acceptQuotedStringUntil n 34 text (Buf [] [] [] []) = UB.
Proof.
  induction n as [|n IH]; intro text; [reflexivity|]. cbn [acceptQuotedStringUntil].
  unfold getChar, nextChar, fromText. cbn [b_stack b_text b_args b_unique]. cbn [bind].
  unfold store. cbn -[Nat.leb acceptQuotedStringUntil]. destruct (257 <=? List.length text)%nat; [reflexivity|]. cbn [bind]. apply IH.
Qed.
Lemma quoted_letter : forall n text c t, c = 97 \/ c = 98 \/ c = 99 ->
  acceptQuotedStringUntil (S n) 34 text (Buf [] (c :: t) [] []) =
  if (257 <=? length text)%nat then UB else acceptQuotedStringUntil n 34 (text ++ [c]) (Buf [] t [] []).
Proof.
  intros n text c t H. cbn [acceptQuotedStringUntil].
  rewrite (getChar_text [] [] c t ltac:(lia) ltac:(lia)). cbn [bind].
  destruct (Z.eqb_spec c 34); [lia|]. cbn [andb]. unfold store.
  destruct (257 <=? length text)%nat; [reflexivity|]. cbn [bind].
  destruct (Z.eqb_spec c 92); [lia|]. destruct (Z.eqb_spec c 123); [lia|]. destruct (Z.eqb_spec c 10); [lia|]. reflexivity.
Qed.
Theorem C55_end_of_file_refuted : forall n, acceptString n (Buf [] (txt """abc") [] []) = UB.
Proof.
  intro n. change (txt """abc") with [34; 97; 98; 99]. unfold acceptString.
  change (getChar (Buf [] [34; 97; 98; 99] [] [])) with (@Ok (Z * buf) (34, Buf [] [97; 98; 99] [] [])). cbn [bind].
  change ((34 =? 34) || (34 =? 39)) with true. cbv iota.
  do 3 (destruct n as [|n]; [reflexivity|]; rewrite quoted_letter by lia; cbn [length app Nat.leb]).
  rewrite past_end. reflexivity.
Qed.
Print Assumptions C55_end_of_file_refuted.
(** Refuted: that strings of any length are read or rejected.  One of 257 characters or
    more is written beyond the token's space. *)
Theorem C55_long_refuted : forall k n rest, (257 <= k)%nat ->
  acceptString n (Buf [] (34 :: repeat 97 k ++ 34 :: rest) [] []) = UB.
Proof.
  intros k n rest K. unfold acceptString. rewrite (getChar_text [] [] 34 _ ltac:(lia) ltac:(lia)). cbn [bind].
  change ((34 =? 34) || (34 =? 39)) with true. cbv iota.
  assert (G : forall k n text, (257 <= length text + k)%nat -> (length text <= 257)%nat ->
    acceptQuotedStringUntil n 34 text (Buf [] (repeat 97 k ++ 34 :: rest) [] []) = UB).
  { induction k0 as [|k0 IH]; intros m text L1 L2; (destruct m as [|m]; [reflexivity|]).
    - cbn [repeat app acceptQuotedStringUntil]. rewrite (getChar_text [] [] 34 rest ltac:(lia) ltac:(lia)). cbn [bind].
      change ((34 =? 34) && negb (34 =? 0)) with true. cbv iota. unfold store. destruct (Nat.leb_spec 257 (length text)); [reflexivity|lia].
    - cbn [repeat app]. rewrite quoted_letter by lia. destruct (Nat.leb_spec 257 (length text)); [reflexivity|].
      apply IH; rewrite app_length; cbn [length]; lia. }
  rewrite G; [reflexivity|cbn [length]; lia|cbn [length]; lia].
Qed.
Print Assumptions C55_long_refuted.
(** Refuted: that two backslashes always stand for one.  Before a digit the second one
    and the digit are a macro argument, so that outside a macro the closing quote that
    follows becomes part of the string. *)
Theorem C55_backslash_refuted :
  exists b, acceptString 20 (Buf [] (txt """\\1"" ,2""" ++ [10]) [] []) = Ok (Some (txt "\"" ,2"), b) /\
    interpolateString (fun _ => UB) 20 (txt "\\1") = Ok (txt "\1") /\
    interpolateString (fun _ => UB) 20 (txt "\"" ,2") = Ok (txt """ ,2").
Proof. eexists. repeat split; vm_compute; reflexivity. Qed.
Print Assumptions C55_backslash_refuted.

(** Code that holds a string with code. *)
Definition exVal (code : list Z) : list Z := txt "<" ++ firstn 1 code ++ txt ">".
Example C55_ex : string_body exVal 34 (txt "a{b+""x{1}""}\n}") (txt "a<b>" ++ [10] ++ txt "}") /\
  acceptString 40 (Buf [] (txt """a{b+""x{1}""}\n}"",5") [] []) = Ok (Some (txt "a{b+""x{1}""}\n}"), Buf [] (txt ",5") [] []).
Proof.
  split; [|vm_compute; reflexivity].
  change (string_body exVal 34 (97 :: 123 :: txt "b+""x{1}""" ++ 125 :: [92; 110; 125]) (97 :: exVal (txt "b+""x{1}""") ++ [10; 125])).
  apply SB_char; try lia. apply SB_code.
  - change (string_code exVal (98 :: 43 :: 34 :: txt "x{1}" ++ 34 :: [])). apply SC_char; try lia. apply SC_char; try lia.
    apply (SC_string exVal 34 (txt "x{1}") (txt "x<1>")); [auto| |constructor].
    change (string_body exVal 34 (120 :: 123 :: [49] ++ 125 :: []) (120 :: exVal [49] ++ [])).
    apply SB_char; try lia. apply SB_code; [|constructor]. apply SC_char; try lia. constructor.
  - change [10; 125] with (meaning_of_escape 110 :: [125]).
    apply SB_escape; [lia|reflexivity|reflexivity|]. apply SB_char; try lia. constructor.
Qed.
