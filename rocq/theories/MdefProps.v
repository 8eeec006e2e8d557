(** C43 and C53: machine definition files. *)
From Coq Require Import ZArith List Bool String Ascii Lia ZifyBool ZifyNat.
From Verif Require Import Base BaseFacts Arith ExprSpec ExprProps LinkExprModel AssignModel MdefModel MdefSpec MdefProofs MdefFile.
Import ListNotations.
Open Scope Z_scope.

(** What the linker computes for a symbol of the file when [start] and [size] give the
    properties of the groups. *)
Definition symbol_is (F : fmath) (bs : list Z) (v : symval) : Prop :=
  forall c, match v with
  | SNumber z => calculateExpressionValue F c bs = Ok (Some (Entry None z))
  | SStart k => forall z, c_property c (s32 k) 0 = Ok z -> calculateExpressionValue F c bs = Ok (Some (Entry None z))
  | SSize k => forall z, c_property c (s32 k) 1 = Ok z -> calculateExpressionValue F c bs = Ok (Some (Entry None z))
  end.

(** A file that consists of well-formed lines is accepted, and defines the pools, groups,
    symbols and formats that its lines say, in their order.  Missing: binary literals,
    anything after CBM_PRG[x] on its line, operators on properties, expressions after
    the first of a pool that start with a sign (the theorems below show that these fail),
    and two pools with the same name. *)
Theorem C53_file_partial : forall F ls ts lay,
  Forall line_ok ls -> Forall line_no_binary ls -> Forall line_cbm_last ls ->
  Forall2 (fun l t => spelled (lshow l) t) ls ts ->
  file_defines ls nothing = Some lay -> l_formats lay <> [] ->
  exists m, mdef_Read F ts = Ok m /\
    m_pools m = l_pools lay /\ m_groups m = l_groups lay /\ m_formats m = l_formats lay /\ m_cbm m = l_cbm lay /\
    Forall2 (fun a b => fst a = fst b /\ symbol_is F (snd a) (snd b)) (m_symbols m) (l_symbols lay).
Proof.
  intros F ls ts lay O NB CL S H NF.
  destruct (lines_correct F ls ts (Mdef [] [] [] [] [] 0 0) nothing lay O NB CL S) as (m & P & R); [|exact H|].
  { unfold rel, nothing. cbn. repeat split; auto. }
  destruct R as (R1 & R2 & R3 & R4 & R5 & R6). exists m. unfold mdef_Read. rewrite P. cbn [bind].
  split; [destruct (m_formats m); [congruence|reflexivity]|].
  repeat split; auto. clear - R4. induction R4 as [|a b la lb (E & K) _ IH]; constructor; [|exact IH]. split; [exact E|].
  intros c. destruct (snd b); apply K.
Qed.

(** A file whose lines name no format is rejected. *)
Theorem C53_no_format : forall F ls ts lay,
  Forall line_ok ls -> Forall line_no_binary ls -> Forall line_cbm_last ls ->
  Forall2 (fun l t => spelled (lshow l) t) ls ts ->
  file_defines ls nothing = Some lay -> l_formats lay = [] -> mdef_Read F ts = Err.
Proof.
  intros F ls ts lay O NB CL S H NF.
  destruct (lines_correct F ls ts (Mdef [] [] [] [] [] 0 0) nothing lay O NB CL S) as (m & P & R); [|exact H|].
  { unfold rel, nothing. cbn. repeat split; auto. }
  destruct R as (R1 & R2 & R3 & R4 & R5 & R6). unfold mdef_Read. rewrite P. cbn [bind].
  destruct (m_formats m); [reflexivity|congruence].
Qed.
Print Assumptions C53_no_format.

(** An expression has its documented value, as the address of a pool (a bit pattern)
    and as a symbol.  Missing: binary literals. *)
Theorem C43_expression_partial : forall F e v b t1 t2, mexp_ok e -> no_binary e -> mvalue None e = Some v -> In b documented_formats ->
  spelled (text "POOL" :: text "A" :: mshow e ++ [text "0"; text "1"]) t1 ->
  spelled (text "SYMBOL" :: text "B" :: mshow e) t2 ->
  exists m bs, mdef_Read F [t1; t2; text "FORMATS " ++ b] = Ok m /\
    m_pools m = [Pool (-1) (2 ^ 32 - 1) (u32 v) 0 1 false] /\
    m_symbols m = [(text "B", bs)] /\ forall c, calculateExpressionValue F c bs = Ok (Some (Entry None v)).
Proof.
  intros F e v b t1 t2 O NB M B S1 S2.
  set (d := PDef e (EDec (text "0")) (EDec (text "1")) None None).
  destruct (C53_file_partial F [LPool (text "A") d; LSymbol (text "B") e; LFormats [FName b]] [t1; t2; text "FORMATS " ++ b]
    (Layout [Pool (-1) (2 ^ 32 - 1) (u32 v) 0 1 false] [(text "A", [0%nat])] [] [(text "B", SNumber v)] [b] 0)) as (m & P & M1 & M2 & M3 & M4 & M5).
  - assert (WA : forall c, 65 <= c <= 90 -> is_word [c]).
    { intros c Hc. split; [discriminate|]. constructor; [|constructor]. unfold word_char, blank, punct. cbn. lia. }
    assert (W0 : forall z, mexp_ok (EDec [z])) by (intros z; split; [exact I|cbn; lia]).
    constructor; [|constructor; [|constructor; [|constructor]]].
    + split; [apply (WA 65); lia|]. repeat split; cbn; auto; try apply O; try discriminate; lia.
    + split; [apply (WA 66); lia|]. split; [cbn; lia|exact O].
    + split; [discriminate|]. constructor; [exact B|constructor].
  - constructor; [|constructor; [|constructor; [|constructor]]].
    + repeat split; cbn; auto; discriminate.
    + exact NB.
    + constructor; [exact I|constructor].
  - repeat constructor.
  - constructor; [exact S1|]. constructor; [exact S2|]. constructor; [|constructor].
    cbn [lshow flat_map fmt_show app].
    change (spelled (text "FORMATS" :: [b]) (text "FORMATS" ++ 32 :: b)).
    assert (W : is_word b).
    { unfold documented_formats in B. cbn [map In] in B.
      assert (K : forall w, (match w with [] => false | _ => true end) && forallb (fun c => (65 <=? c) && (c <=? 95) && negb (c =? 91) && negb (c =? 93) || (48 <=? c) && (c <=? 57)) w = true -> is_word w).
      { intros w Hw. apply andb_prop in Hw as (H1 & H2). split; [destruct w; discriminate|].
        apply Forall_forall. intros c Hc. rewrite forallb_forall in H2. specialize (H2 c Hc). unfold word_char, blank, punct. cbn. lia. }
      repeat (destruct B as [<-|B]; [apply K; reflexivity|]). destruct B. }
    apply sp_word.
    + split; [discriminate|]. apply Forall_forall. intros c Hc. unfold word_char, blank, punct. cbn in *. lia.
    + intros (K & _). apply K. left. reflexivity.
    + apply sp_blank; [left; reflexivity|]. rewrite <- (app_nil_r b) at 2. apply sp_word; [exact W|exact I|constructor].
  - unfold file_defines, defines, pool_of. cbn [d d_address d_bank d_size d_image d_overlay]. rewrite M. reflexivity.
  - discriminate.
  - inversion M5 as [|(n, bs) ? ? ? (E1 & E2) E3]; subst. inversion E3; subst. cbn in E1, E2. subst n.
    exists m, bs. split; [exact P|]. split; [exact M1|]. split; [symmetry; exact H|]. exact E2.
Qed.

(** A binary literal is never accepted, although the documentation has them: the parser
    looks for a token of two percent signs, and a percent sign is a token of its own. *)
Theorem C43_binary_refuted : forall F m ds t, spelled (text "POOL" :: text "A" :: [37] :: ds) t ->
  forall m', parseLine F m t <> Ok m'.
Proof.
  intros F m ds t S m' H. pose proof (next_at _ _ S) as A0. unfold parseLine in H.
  set (p := nextToken t) in *. clearbody p.
  pose proof (step_at _ _ _ A0) as A1. pose proof (step_at _ _ _ A1) as A2.
  rewrite (proj1 A0) in H. rewrite !(is_beq _ _ _ _ A0) in H. change (beq (chars "POOL") (text "POOL")) with true in H.
  cbn [text map list_ascii_of_string] in H. unfold parsePoolDirective in H. rewrite (proj1 A1) in H.
  cbn [text map list_ascii_of_string] in H.
  set (q := MdefModel.step (MdefModel.step p)) in *.
  assert (S0 : st_at (start q) ([37] :: ds) []) by (split; [exact A2|reflexivity]).
  set (x := PCtx true (m_index m) false (m_groups m)) in *.
  assert (P : parseExpression_1 x (start q) = Ok (false, start q)).
  { assert (P4 : parseExpression_4 x (start q) = Ok (false, start q)).
    { unfold parseExpression_4. rewrite (ch_at _ _ _ _ _ S0). change (beq [64] [37]) with false. rewrite andb_false_r. unfold parseInteger.
      rewrite (tok_at _ _ _ _ S0). cbv iota. rewrite (ch_at _ _ _ _ _ S0). change (beq [36] [37]) with false.
      unfold tokenIs. rewrite (tok_at _ _ _ _ S0). change (beq [37; 37] [37]) with false. cbv iota. rewrite (tok_at _ _ _ _ S0). reflexivity. }
    unfold parseExpression_1. set (n := (8 * (List.length (tk (start q)) + List.length (rest (start q))) + 8)%nat).
    assert (L : exists k, n = Datatypes.S (Datatypes.S (Datatypes.S k))) by (exists (n - 3)%nat; lia). destruct L as (k & ->).
    cbn [parse1 parse2 parse3]. rewrite !(ch_at _ _ _ _ _ S0).
    change (beq [43] [37]) with false. change (beq [45] [37]) with false. change (beq [40] [37]) with false. cbv iota. rewrite P4. reflexivity. }
  unfold parsePool, expectExpression in H. fold x in H. unfold parseExpression at 1 in H. rewrite P in H. cbn [bind] in H. discriminate H.
Qed.

(** The examples of the documentation: a bank of -1 is taken as the second half of a
    subtraction.  The first pool is then at address -1, in bank $400000 and of size 0,
    and the pools for RAM are refused, so the file is. *)
Theorem C43_documented_example_refuted :
  (exists m, mdef_Read exF (map text ["POOL ROM $000000 -1 $400000 0"; "FORMATS BIN"]%string) = Ok m /\
     m_pools m = [Pool (-1) (2 ^ 32 - 1) (2 ^ 32 - 1) 4194304 0 false]) /\
  mdef_Read exF (map text ["POOL RAM $FF0000 -1 $10000"; "FORMATS BIN"]%string) = Err /\
  mdef_Read exF (map text ["POOL ROM $000000 -1 $400000 0"; "POOL RAM $FF0000 -1 $10000"; "GROUP CODE ROM"; "GROUP DATA ROM";
    "GROUP BSS RAM"; "FORMATS BIN MEGA_DRIVE"]%string) = Err.
Proof. split; [eexists; split; vm_compute; reflexivity|]. split; vm_compute; reflexivity. Qed.

(** An operand may be missing: the rest of the expression is then ignored. *)
Theorem C43_dangling_refuted :
  forall s, In s ["POOL A (2*) 0 $10"; "POOL A (2+) 0 $10"]%string ->
  exists m, mdef_Read exF [text s; text "FORMATS BIN"] = Ok m /\
    map p_loc (m_pools m) = [2] /\ map p_size (m_pools m) = [16].
Proof.
  intros s H. cbn in H. destruct H as [<-|[<-|[]]]; eexists; (split; [vm_compute; reflexivity|split; reflexivity]).
Qed.

(** A property cannot be part of an expression. *)
Theorem C43_property_expression_refuted :
  forall s, In s ["SYMBOL End BSS.start+BSS.size"; "SYMBOL End BSS.start+4"]%string ->
  mdef_Read exF (map text ["POOL RAM $C000 0 $2000"; "GROUP BSS RAM"; s; "FORMATS BIN"]%string) = Err.
Proof. intros s H. cbn in H. destruct H as [<-|[<-|[]]]; vm_compute; reflexivity. Qed.

(** The token after the ] of CBM_PRG[x] is skipped. *)
Theorem C53_cbm_format_refuted :
  exists m, mdef_Read exF [text "FORMATS CBM_PRG[$801] BIN"] = Ok m /\ m_formats m = [text "CBM_PRG"].
Proof. eexists. split; vm_compute; reflexivity. Qed.

(** ** A file that meets the hypotheses *)
Ltac spell :=
  repeat match goal with
  | |- spelled [] [] => apply sp_end
  | |- spelled _ (32 :: _) => apply sp_blank; [left; reflexivity|]
  | |- spelled ([?c] :: _) (?c :: _) => apply sp_punct; [unfold punct; cbn; tauto|]
  | |- spelled (?w :: ?ts) ?t => let r := eval vm_compute in (skipn (List.length w) t) in change (spelled (w :: ts) (w ++ r)); apply sp_word;
      [split; [discriminate|]; apply Forall_forall; intros ? Hc; unfold word_char, blank, punct; cbn in *; lia
      |cbv iota; try exact I; intros (K1 & K2 & _); first [apply K1; left; reflexivity|apply K2; unfold punct; cbn; tauto] | ]
  end.

Definition num (s : string) : mexp := EDec (text s).
Definition hex (s : string) : mexp := EHex (text s).
Definition gb_lines : list mline :=
  [LPool (text "HOME") (PDef (hex "0000") (num "0") (hex "4000") (Some (num "0")) None);
   LPools (text "BANKS") (num "1") (num "31") (PDef (hex "4000") EAt (hex "4000") (Some (EBin OpMul EAt (hex "4000"))) None);
   LPool (text "RAM") (PDef (hex "C000") (EParen (ENeg (num "1"))) (hex "2000") None None);
   LBlank;
   LGroup (text "CODE") None [text "HOME"; text "BANKS"];
   LGroup (text "BSS") (Some (text "BSS")) [text "RAM"];
   LProperty (text "BssEnd") (text "BSS") false;
   LFormats [FName (text "BIN"); FName (text "GAME_BOY")]].
Definition gb_text : list (list Z) := map text
  ["POOL HOME $0000 0 $4000 0"; "POOLS BANKS[1:31] $4000 @ $4000 @*$4000"; "POOL RAM $C000 (-1) $2000"; "";
   "GROUP CODE HOME BANKS"; "GROUP BSS:BSS RAM"; "SYMBOL BssEnd BSS.size"; "FORMATS BIN GAME_BOY"]%string.
Ltac words := repeat split; try discriminate; try (apply Forall_forall; intros ? Hc; unfold word_char, blank, punct; cbn in *; lia).
Example C53_example :
  Forall line_ok gb_lines /\ Forall line_no_binary gb_lines /\ Forall line_cbm_last gb_lines /\
  Forall2 (fun l t => spelled (lshow l) t) gb_lines gb_text /\
  exists lay, file_defines gb_lines nothing = Some lay /\ List.length (l_pools lay) = 33%nat /\
    nth_error (l_pools lay) 3 = Some (Pool 49152 (2 ^ 32 - 1) 16384 3 16384 false) /\
    map g_name (l_groups lay) = [text "CODE"; text "BSS"] /\ l_formats lay = [text "BIN"; text "GAME_BOY"].
Proof.
  split; [|split; [|split; [|split]]].
  - assert (WN : forall w, (match w with [] => false | _ => true end) && forallb (fun c => (65 <=? c) && (c <=? 90) || (97 <=? c) && (c <=? 122) || (c =? 95) || (48 <=? c) && (c <=? 57)) w = true -> is_word w).
    { intros w Hw. apply andb_prop in Hw as (H1 & H2). split; [destruct w; discriminate|].
      apply Forall_forall. intros c Hc. rewrite forallb_forall in H2. specialize (H2 c Hc). unfold word_char, blank, punct. cbn. lia. }
    assert (EX : forall e, mgrouped 1 e -> (mdepth e <=? 256) = true -> mexp_ok e) by (intros e G D; split; [exact G|lia]).
    assert (PD : forall a b c d, mexp_ok a -> mexp_ok b -> mexp_ok c -> starts_sign b = false -> starts_sign c = false ->
      match d with Some e => mexp_ok e /\ starts_sign e = false | None => True end -> pdef_ok (PDef a b c d None)).
    { intros a b c d Ha Hb Hc Sb Sc Hd. repeat split; try apply Ha; try apply Hb; try apply Hc; auto; cbn in *; subst; try apply Hd; discriminate. }
    repeat (apply Forall_cons || apply Forall_nil); cbn [line_ok]; repeat match goal with |- _ /\ _ => split end;
      try (apply WN; reflexivity); try reflexivity; try discriminate; try exact I;
      try (apply PD; try reflexivity; try exact I; try split; try (apply EX; [cbn; auto|reflexivity]); reflexivity);
      try (apply EX; [cbn; auto|reflexivity]);
      try (intros ? E; first [discriminate E|injection E as <-]; apply WN; reflexivity);
      try (repeat (apply Forall_cons; [apply WN; reflexivity|]); apply Forall_nil);
      try (repeat (apply Forall_cons; [cbn; tauto|]); apply Forall_nil).
  - repeat constructor; try discriminate; intros ? E; try discriminate E; injection E as <-; cbn; auto.
  - repeat constructor.
  - repeat (apply Forall2_cons || apply Forall2_nil);
      match goal with |- spelled ?a ?b => let a' := eval vm_compute in a in let b' := eval vm_compute in b in change (spelled a' b') end; spell.
  - eexists. split; [vm_compute; reflexivity|]. repeat split; vm_compute; reflexivity.
Qed.

Print Assumptions C43_expression_partial.
Print Assumptions C43_binary_refuted.
Print Assumptions C43_documented_example_refuted.
Print Assumptions C43_dangling_refuted.
Print Assumptions C43_property_expression_refuted.
Print Assumptions C53_file_partial.
Print Assumptions C53_cbm_format_refuted.
