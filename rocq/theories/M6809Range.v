(** Proofs about the 6809 instruction parser: known operands out of range are reported. *)
From Coq Require Import ZArith List Bool Lia ZifyBool String.
From Verif Require Import Base BaseFacts Arith ArithProofs ExprSpec ExprModel ExprLayout ObjWriteModel OptModel
  SectModel SectSpec SectErrors InstrSpec InstrProofs.
From Verif Require X65Spec X65Only X65Range Z80Range.
From Verif Require Import M6809Model M6809Spec M6809Proofs.
Import ListNotations.
Open Scope string_scope.
Open Scope list_scope.
Open Scope Z_scope.
Notation quiet := X65Only.quiet.
Ltac binds H := repeat (cbn [bind] in H; match type of H with
  | context [match ?x with Ok _ => _ | Err => _ | UB => _ end] => let E := fresh "E" in destruct x as [?x| |] eqn:E; try discriminate H
  | context [bind ?x _] => let E := fresh "E" in destruct x as [?x| |] eqn:E; try discriminate H
  end); cbn [bind] in H.

(** ** Reports are kept *)
Lemma out8_keeps : forall e st, errs_kept st (outputExpr8 e st).
Proof.
  intros e st st' H. unfold outputExpr8 in H. destruct (range_checked e (-128) 255 st) as [[e1 st1]| |] eqn:E; try discriminate. cbn [bind] in H.
  exact (more_trans _ _ _ (checked_keeps _ _ _ _ _ _ E) (expr8_keeps _ _ _ H)).
Qed.
Lemma out16_keeps : forall e st, errs_kept st (outputExpr16 e st).
Proof.
  intros e st st' H. unfold outputExpr16 in H. destruct (range_checked e (-32768) 65535 st) as [[e1 st1]| |] eqn:E; try discriminate. cbn [bind] in H.
  exact (more_trans _ _ _ (checked_keeps _ _ _ _ _ _ E) (expr16_keeps _ _ _ H)).
Qed.
Lemma pc8_keeps : forall F e st, errs_kept st (outputPc8 F e st).
Proof. intros F e st st' H. unfold outputPc8 in H. destruct (expr_PcRelative _ _ _ _); try discriminate. exact (out8_keeps _ _ _ H). Qed.
Lemma pc16_keeps : forall F e st, errs_kept st (outputPc16 F e st).
Proof. intros F e st st' H. unfold outputPc16 in H. destruct (expr_PcRelative _ _ _ _); try discriminate. exact (out16_keeps _ _ _ H). Qed.
Lemma indexed_keeps : forall F a st b st', emitIndexed F a st = Ok (b, st') -> more st st'.
Proof.
  intros F a st b st' H. unfold emitIndexed, done in H. destruct (sect_OutputConst8 _ st) as [st1| |] eqn:E; try discriminate. cbn [bind] in H.
  apply (more_trans _ st1); [exact (const8_keeps _ _ _ E)|].
  destruct (has _ _).
  { destruct (outputExpr8 _ st1) eqn:E1; try discriminate. injection H as _ <-. exact (out8_keeps _ _ _ E1). }
  destruct (has _ _).
  { destruct (outputExpr16 _ st1) eqn:E1; try discriminate. injection H as _ <-. exact (out16_keeps _ _ _ E1). }
  destruct (has _ _).
  { destruct (outputPc8 _ _ st1) eqn:E1; try discriminate. injection H as _ <-. exact (pc8_keeps _ _ _ _ E1). }
  destruct (has _ _).
  { destruct (outputPc16 _ _ st1) eqn:E1; try discriminate. injection H as _ <-. exact (pc16_keeps _ _ _ _ E1). }
  injection H as _ <-. apply more_refl.
Qed.

(** ** What a handler does *)
Lemma emit_back : forall F base a Dc Ec Ic c b s x s', In (c, b) [(Dir, Z.lor base Dc); (Ext, Z.lor base Ec); (Idx, Z.lor base Ic)] ->
  mode_of c (am_mode a) -> emitOpcode F base a Dc Ec Ic s = Ok (x, s') ->
  exists s1, sect_OutputConst8 b s = Ok s1 /\ operand_out F c a s1 = Ok s'.
Proof.
  intros F base a Dc Ec Ic c b s x s' I Mo E. unfold emitOpcode in E.
  destruct I as [I|[I|[I|[]]]]; injection I as <- <-; cbn [mode_of] in Mo; cbn [operand_out].
  - rewrite Mo in E. change (MODE_DIRECT =? MODE_DIRECT) with true in E. cbv iota in E.
    destruct (sect_OutputConst8 _ s) as [s1| |]; try discriminate. cbn [bind] in *. exists s1. split; [reflexivity|].
    destruct (expr_Binary _ _ _ _) as [e| |]; try discriminate. cbn [bind] in *. unfold done in E.
    destruct (outputExpr8 e s1); try discriminate. injection E as _ <-. reflexivity.
  - rewrite Mo in E. change (MODE_EXTENDED =? MODE_DIRECT) with false in E. change (MODE_EXTENDED =? MODE_EXTENDED) with true in E. cbv iota in E.
    destruct (sect_OutputConst8 _ s) as [s1| |]; try discriminate. cbn [bind] in *. exists s1. split; [reflexivity|].
    unfold done in E. destruct (outputExpr16 _ s1); try discriminate. injection E as _ <-. reflexivity.
  - destruct Mo as (_ & M1 & M2 & M3). apply Z.eqb_neq in M1, M2. rewrite M1, M2, M3 in E.
    destruct (sect_OutputConst8 _ s) as [s1| |]; try discriminate. cbn [bind] in *. exists s1. split; [reflexivity|].
    destruct (emitIndexed F a s1) as [[y s2]| |]; try discriminate. cbn [bind] in *. injection E as _ <-. reflexivity.
Qed.
Lemma p16_back : forall F base a c b s x s',
  (match c with Imm16 => Some base | Dir => Some (Z.lor base 0x10) | Ext => Some (Z.lor base 0x30) | Idx => Some (Z.lor base 0x20) | _ => None end) = Some b ->
  mode_of c (am_mode a) -> handleOpcodeP16 F base a s = Ok (x, s') -> exists s1, sect_OutputConst8 b s = Ok s1 /\ operand_out F c a s1 = Ok s'.
Proof.
  intros F base a c b s x s' Hb Mo E. unfold handleOpcodeP16 in E.
  destruct c; try discriminate; injection Hb as <-; cbn [mode_of] in Mo.
  - rewrite Mo in E. change (MODE_IMMEDIATE =? MODE_IMMEDIATE) with true in E. cbv iota in E. unfold done in E.
    destruct (sect_OutputConst8 base s) as [s1| |]; try discriminate. cbn [bind operand_out] in *. exists s1. split; [reflexivity|].
    destruct (outputExpr16 _ s1); try discriminate. injection E as _ <-. reflexivity.
  - rewrite Mo in E. change (MODE_DIRECT =? MODE_IMMEDIATE) with false in E. cbv iota in E.
    eapply (emit_back _ _ _ _ _ _ Dir); [left; reflexivity|exact Mo|exact E].
  - pose proof (proj1 Mo) as M0. apply Z.eqb_neq in M0. rewrite M0 in E.
    eapply (emit_back _ _ _ _ _ _ Idx); [right; right; left; reflexivity|exact Mo|exact E].
  - rewrite Mo in E. change (MODE_EXTENDED =? MODE_IMMEDIATE) with false in E. cbv iota in E.
    eapply (emit_back _ _ _ _ _ _ Ext); [right; left; reflexivity|exact Mo|exact E].
Qed.
(** Columns whose operand is compared with its range. *)
Definition valued (c : column) : bool := match c with Imm8 | Imm16 | Ext | Idx => true | _ => false end.
Lemma handler_back : forall F h base c code a ts st x ts' st', opbytes h base c = Some code -> mode_of c (am_mode a) -> valued c = true ->
  apply_handler F h base a ts st = Ok (x, ts', st') -> exists s, outbytes code st = Ok s /\ operand_out F c a s = Ok st'.
Proof.
  intros F h base c code a ts st x ts' st' Ho Mo Va E.
  assert (Un : forall r : handled, (let! (b, s) := r in Ok (b, ts, s)) = Ok (x, ts', st') -> exists y, r = Ok (y, st')).
  { intros [[y s]| |] W; try discriminate W. cbn [bind] in W. injection W as <- <- <-. eauto. }
  assert (One : forall b, code = [b] -> (exists s1, sect_OutputConst8 b st = Ok s1 /\ operand_out F c a s1 = Ok st') ->
    exists s, outbytes code st = Ok s /\ operand_out F c a s = Ok st').
  { intros b -> (s1 & E1 & E2). exists s1. cbn [outbytes]. rewrite E1. split; [reflexivity|exact E2]. }
  assert (Two : forall b0 b, code = [b0; b] -> (exists s0, sect_OutputConst8 b0 st = Ok s0 /\ exists s1, sect_OutputConst8 b s0 = Ok s1 /\ operand_out F c a s1 = Ok st') ->
    exists s, outbytes code st = Ok s /\ operand_out F c a s = Ok st').
  { intros b0 b -> (s0 & E0 & s1 & E1 & E2). exists s1. cbn [outbytes]. rewrite E0. cbn [bind]. rewrite E1. split; [reflexivity|exact E2]. }
  destruct h; cbn [opbytes apply_handler] in *; try (destruct c; discriminate); apply Un in E; destruct E as (y & E).
  - destruct c; try discriminate; injection Ho as <-; (eapply One; [reflexivity|]); eapply (emit_back _ _ _ _ _ _ _); try exact Mo; try exact E; cbn; tauto.
  - unfold handleOpcodeP8 in E. destruct c; try discriminate; injection Ho as <-; (eapply One; [reflexivity|]); cbn [mode_of] in Mo.
    + rewrite Mo in E. change (MODE_IMMEDIATE =? MODE_IMMEDIATE) with true in E. cbv iota in E. unfold done in E.
      destruct (sect_OutputConst8 base st) as [s1| |]; try discriminate. cbn [bind operand_out] in *. exists s1. split; [reflexivity|].
      destruct (outputExpr8 _ s1); try discriminate. injection E as _ <-. reflexivity.
    + pose proof (proj1 Mo) as M0. apply Z.eqb_neq in M0. rewrite M0 in E.
      eapply (emit_back _ _ _ _ _ _ Idx); [right; right; left; reflexivity|exact Mo|exact E].
    + rewrite Mo in E. change (MODE_EXTENDED =? MODE_IMMEDIATE) with false in E. cbv iota in E.
      eapply (emit_back _ _ _ _ _ _ Ext); [right; left; reflexivity|exact Mo|exact E].
  - destruct c; try discriminate. injection Ho as <-. eapply One; [reflexivity|]. unfold handleOpcodeT16 in E. cbn [operand_out].
    destruct (sect_OutputConst8 base st) as [s1| |]; try discriminate. cbn [bind] in *. exists s1. split; [reflexivity|]. rewrite E. reflexivity.
  - destruct (match c with Imm16 => Some base | _ => _ end) as [b|] eqn:Eb; try discriminate. injection Ho as <-. eapply One; [reflexivity|].
    eapply (p16_back F base a c b); [rewrite <- Eb; destruct c; reflexivity|exact Mo|exact E].
  - destruct (match c with Imm16 => Some base | _ => _ end) as [b|] eqn:Eb; try discriminate. injection Ho as <-. eapply Two; [reflexivity|].
    unfold paged in E. change PAGE1 with 0x10 in E. destruct (sect_OutputConst8 0x10 st) as [s0| |]; try discriminate. exists s0. split; [reflexivity|].
    eapply (p16_back F base a c b); [rewrite <- Eb; destruct c; reflexivity|exact Mo|exact E].
  - destruct (match c with Imm16 => Some base | _ => _ end) as [b|] eqn:Eb; try discriminate. injection Ho as <-. eapply Two; [reflexivity|].
    unfold paged in E. change PAGE2 with 0x11 in E. destruct (sect_OutputConst8 0x11 st) as [s0| |]; try discriminate. exists s0. split; [reflexivity|].
    eapply (p16_back F base a c b); [rewrite <- Eb; destruct c; reflexivity|exact Mo|exact E].
  - destruct c; try discriminate. injection Ho as <-. eapply One; [reflexivity|]. unfold handleImm8, done in E. cbn [operand_out].
    destruct (sect_OutputConst8 base st) as [s1| |]; try discriminate. cbn [bind] in *. exists s1. split; [reflexivity|].
    destruct (outputExpr8 _ s1); try discriminate. injection E as _ <-. reflexivity.
Qed.
Lemma bytes_keep : forall l st, errs_kept st (outbytes l st).
Proof.
  induction l as [|b l IH]; intros st st' H; cbn [outbytes] in H; [injection H as <-; apply more_refl|].
  destruct (sect_OutputConst8 b st) as [s| |] eqn:E; try discriminate. exact (more_trans _ _ _ (const8_keeps _ _ _ E) (IH _ _ H)).
Qed.

(** ** Values out of range *)
Lemma loud8 : forall e v st st', Z80Range.is_num e v -> ~ fits8 v -> outputExpr8 e st = Ok st' -> ~ quiet st st'.
Proof.
  intros e v st st' N B H Q. unfold outputExpr8 in H. destruct (range_checked e (-128) 255 st) as [[e1 st1]| |] eqn:E; try discriminate. cbn [bind] in H.
  destruct (X65Only.more_quiet _ _ _ (checked_keeps _ _ _ _ _ _ E) (expr8_keeps _ _ _ H) Q) as (Q1 & _).
  destruct (Z80Range.num_checked _ _ _ _ _ _ _ N E Q1) as (B1 & _). exact (B B1).
Qed.
Lemma loud16 : forall e v st st', Z80Range.is_num e v -> ~ fits16 v -> outputExpr16 e st = Ok st' -> ~ quiet st st'.
Proof.
  intros e v st st' N B H Q. unfold outputExpr16 in H. destruct (range_checked e (-32768) 65535 st) as [[e1 st1]| |] eqn:E; try discriminate. cbn [bind] in H.
  destruct (X65Only.more_quiet _ _ _ (checked_keeps _ _ _ _ _ _ E) (expr16_keeps _ _ _ H) Q) as (Q1 & _).
  destruct (Z80Range.num_checked _ _ _ _ _ _ _ N E Q1) as (B1 & _). exact (B B1).
Qed.
Lemma loud_idx8 : forall F mode post e v st st', Z80Range.is_num e v -> ~ fits8 v -> has mode MODE_INDEXED_R_8BIT = true ->
  operand_out F Idx (AMode mode post e) st = Ok st' -> ~ quiet st st'.
Proof.
  intros F mode post e v st st' N B Hm H Q. cbn [operand_out] in H. unfold emitIndexed, done in H. cbn [am_post am_mode am_expr] in H.
  destruct (sect_OutputConst8 post st) as [s| |] eqn:E; try discriminate. cbn [bind] in H. rewrite Hm in H.
  destruct (outputExpr8 e s) as [s'| |] eqn:E1; try discriminate. cbn [bind] in H. injection H as <-.
  destruct (X65Only.more_quiet _ _ _ (const8_keeps _ _ _ E) (out8_keeps _ _ _ E1) Q) as (_ & Q2). exact (loud8 _ _ _ _ N B E1 Q2).
Qed.
Lemma loud_idx16 : forall F mode post e v st st', Z80Range.is_num e v -> ~ fits16 v -> has mode MODE_INDEXED_R_8BIT = false ->
  has mode (MODE_INDEXED_R_16BIT + MODE_EXTENDED_INDIRECT) = true -> operand_out F Idx (AMode mode post e) st = Ok st' -> ~ quiet st st'.
Proof.
  intros F mode post e v st st' N B Hm Hn H Q. cbn [operand_out] in H. unfold emitIndexed, done in H. cbn [am_post am_mode am_expr] in H.
  destruct (sect_OutputConst8 post st) as [s| |] eqn:E; try discriminate. cbn [bind] in H. rewrite Hm, Hn in H.
  destruct (outputExpr16 e s) as [s'| |] eqn:E1; try discriminate. cbn [bind] in H. injection H as <-.
  destruct (X65Only.more_quiet _ _ _ (const8_keeps _ _ _ E) (out16_keeps _ _ _ E1) Q) as (_ & Q2). exact (loud16 _ _ _ _ N B E1 Q2).
Qed.
(** The operand is read, and storing it is reported. *)
Lemma operand_loud : forall S cur p f c al rest junk F, setting_ok S cur -> numbers_known S cur f c ->
  (forall n rel, In (n, rel) (numbers f c) -> known_now n = true) ->
  belongs p f c = true -> suits al c = true -> beyond f c -> ends rest ->
  exists a, (forall st0, m6809_ParseAddressingMode junk al (lex (text (form_map g_expr f)) ++ rest) st0 = (true, a, rest, st0)) /\
    mode_of c (am_mode (chosen (page_base p) a)) /\ valued c = true /\
    forall st st', operand_out F c (chosen (page_base p) a) st = Ok st' -> ~ quiet st st'.
Proof.
  intros S cur p f c al rest junk F SO Nk Kn Be Su By En. destruct (ends_stops rest En) as (St & Ns).
  assert (Nu : forall n rel, In (n, rel) (numbers f c) -> isNull (g_expr n) = false /\ Z80Range.is_num (g_expr n) (g_value n) /\
    operand S cur (g_term n) (g_expr n) (g_value n)).
  { intros n rel I. destruct (facts _ _ _ _ _ _ SO Nk I) as (N & V). pose proof (Kn n rel I) as K. pose proof (proj1 (Nk n rel I)) as O.
    split; [exact N|]. split; [split; [exact K|exact (V K)]|exact O]. }
  destruct f as [|n|n|n|n|ind q|far n|l|a b]; cbn [form_map text] in *; try (destruct By; fail).
  - destruct (Nu n false (or_introl eq_refl)) as (N & Nn & _).
    assert (Hh : has al MODE_IMMEDIATE = true) by (destruct c; try discriminate; cbn [suits] in Su; apply andb_prop in Su; tauto).
    exists (AMode MODE_IMMEDIATE (am_post junk) (g_expr n)). split.
    { intro st0. exact (read_immediate junk al (g_expr n) rest st0 Hh N). }
    rewrite chosen_other by discriminate. cbn [beyond] in By.
    destruct c; try discriminate; (split; [reflexivity|]); (split; [reflexivity|]); intros st st' H; cbn [operand_out am_expr] in H.
    + exact (loud8 _ _ _ _ Nn By H).
    + exact (loud16 _ _ _ _ Nn By H).
  - destruct By as (-> & By).
    destruct (suits_address al Ext Su ltac:(cbn; tauto)) as (H0 & H1 & _).
    destruct (Nu n false (or_introl eq_refl)) as (N & Nn & O).
    exists (AMode MODE_ADDRESS (am_post junk) (g_expr n)). split.
    { intro st0. exact (read_address junk al (g_expr n) rest st0 H0 H1 N St). }
    rewrite (chosen_address S cur p (am_post junk) n SO O). cbn [belongs] in Be. apply negb_true_iff in Be. rewrite Be.
    split; [reflexivity|]. split; [reflexivity|]. intros st st' H. cbn [operand_out am_expr] in H. exact (loud16 _ _ _ _ Nn By H).
  - destruct By as (-> & By).
    destruct (suits_address al Ext Su ltac:(cbn; tauto)) as (H0 & _ & H1). destruct (H1 ltac:(cbn; tauto)) as (_ & H2).
    destruct (Nu n false (or_introl eq_refl)) as (N & Nn & O).
    exists (AMode MODE_EXTENDED (am_post junk) (g_expr n)). split.
    { intro st0. exact (read_far junk al (g_expr n) rest st0 H0 H2 St). }
    rewrite chosen_other by discriminate. split; [reflexivity|]. split; [reflexivity|].
    intros st st' H. cbn [operand_out am_expr] in H. exact (loud16 _ _ _ _ Nn By H).
  - destruct q as [r|r|r|r|r|c0 r|s n r|s n]; cbn [beyond] in By; try (destruct By; fail).
    destruct s; try (destruct By; fail).
    + assert (c = Idx) as -> by (destruct ind; destruct c; try discriminate; reflexivity).
      destruct (suits_memory al Su) as (Im & Ni & Hi). destruct (Nu n false (or_introl eq_refl)) as (_ & Nn & _).
      set (a := AMode (Z.lor MODE_INDEXED_R_8BIT (mode_bit ind)) (if ind then Z.lor 0x88 0x10 else 0x88) (g_expr n)).
      exists a. rewrite (chosen_other _ a) by (destruct ind; discriminate). split.
      { intro st0. pose proof (fun al I t => read_sized junk al (g_expr n) r t st0 Short I ltac:(discriminate)) as Rd.
        destruct ind; cbn [place_map] in *.
        - cbn [lex map app lex1]. cbn [m6809_ParseAddressingMode]. rewrite Hi. fold (lex (place_text (Off Short (g_expr n) r) ++ [Rb])).
          unfold lex at 1. rewrite map_app, <- app_assoc. fold (lex (place_text (Off Short (g_expr n) r))). cbn [map lex1 app].
          rewrite Rd by (unfold memory_modes; cbn; tauto). reflexivity.
        - transitivity (parse_mode junk al (lex (place_text (Off Short (g_expr n) r)) ++ rest) st0); [reflexivity|apply (Rd al Im rest)]. }
      split; [destruct ind; repeat split; vm_compute; congruence|]. split; [reflexivity|].
      intros st st' H. apply (loud_idx8 F _ _ _ _ st st' Nn By) in H; [exact H|destruct ind; reflexivity].
    + assert (c = Idx) as -> by (destruct ind; destruct c; try discriminate; reflexivity).
      destruct (suits_memory al Su) as (Im & Ni & Hi). destruct (Nu n false (or_introl eq_refl)) as (_ & Nn & _).
      set (a := AMode (Z.lor MODE_INDEXED_R_16BIT (mode_bit ind)) (if ind then Z.lor 0x89 0x10 else 0x89) (g_expr n)).
      exists a. rewrite (chosen_other _ a) by (destruct ind; discriminate). split.
      { intro st0. pose proof (fun al I t => read_sized junk al (g_expr n) r t st0 Long I ltac:(discriminate)) as Rd.
        destruct ind; cbn [place_map] in *.
        - cbn [lex map app lex1]. cbn [m6809_ParseAddressingMode]. rewrite Hi. fold (lex (place_text (Off Long (g_expr n) r) ++ [Rb])).
          unfold lex at 1. rewrite map_app, <- app_assoc. fold (lex (place_text (Off Long (g_expr n) r))). cbn [map lex1 app].
          rewrite Rd by (unfold memory_modes; cbn; tauto). reflexivity.
        - transitivity (parse_mode junk al (lex (place_text (Off Long (g_expr n) r)) ++ rest) st0); [reflexivity|apply (Rd al Im rest)]. }
      split; [destruct ind; repeat split; vm_compute; congruence|]. split; [reflexivity|].
      intros st st' H. apply (loud_idx16 F _ _ _ _ st st' Nn By) in H; [exact H|destruct ind; reflexivity|destruct ind; reflexivity].
  - assert (c = Idx) as -> by (destruct c; try discriminate; reflexivity). cbn [beyond] in By.
    destruct (suits_memory al Su) as (Im & Ni & Hi). destruct (Nu n false (or_introl eq_refl)) as (N & Nn & _).
    exists (AMode (MODE_EXTENDED_INDIRECT + MODE_INDIRECT_MODIFIER) 0x9F (g_expr n)). rewrite chosen_other by discriminate. split.
    { intro st0. destruct far; cbn [lex map app lex1 m6809_ParseAddressingMode]; rewrite Hi.
      - rewrite (read_far junk MODE_ALLOWED_INDIRECT (g_expr n) (TRb :: rest) st0 eq_refl eq_refl Logic.I). reflexivity.
      - rewrite (read_address junk MODE_ALLOWED_INDIRECT (g_expr n) (TRb :: rest) st0 eq_refl eq_refl N Logic.I). reflexivity. }
    split; [repeat split; vm_compute; congruence|]. split; [reflexivity|].
    intros st st' H. apply (loud_idx16 F _ _ _ _ st st' Nn By) in H; [exact H|reflexivity|reflexivity].
Qed.
Theorem reported : forall S cur st p name cols c code f rest junk b dp ts st',
  setting_ok S cur -> numbers_known S cur f c -> (forall n rel, In (n, rel) (numbers f c) -> known_now n = true) ->
  In (name, cols) table -> In (c, code) cols -> belongs p f c = true -> name <> "LSRA" -> name <> "LSRB" -> beyond f c -> ends rest ->
  m6809_ParseInstruction (s_F S) (page_base p) junk (lex (Word name :: text (form_map g_expr f)) ++ rest) st = Ok (b, dp, ts, st') ->
  x_errors st' <> x_errors st.
Proof.
  intros S cur st p name cols c code f rest junk b dp ts st' SO Nk Kn It Ic Be N1 N2 By En H.
  destruct (in_table _ _ _ _ It Ic N1 N2) as (t & base & al & h & At_ & Rt & Nt & Ob & Su).
  destruct (operand_loud S cur p f c al rest junk (s_F S) SO Nk Kn Be Su By En) as (a & Pa & Mo & Va & Lo).
  unfold m6809_ParseInstruction in H. cbn [lex map app] in H. cbn [lex1] in H. fold (lex (text (form_map g_expr f))) in H. rewrite At_ in H.
  unfold m6809_ParseIntegerInstruction in H. replace ((T_6809_ABX <=? t) && (t <=? T_6809_NOP)) with true in H by lia.
  rewrite Nt in H. rewrite (Pa st) in H. cbv beta iota in H.
  destruct (apply_handler (s_F S) h base (chosen (page_base p) a) rest st) as [[[x ts1] st1]| |] eqn:E; cbn [bind] in H; try discriminate.
  destruct (handler_back _ _ _ _ _ _ _ _ _ _ _ Ob Mo Va E) as (s & E1 & E2).
  assert (Q1 : ~ quiet st st1).
  { intro Q. assert (Mo2 : more s st1).
    { clear - E2 Va. destruct c; try discriminate; cbn [operand_out] in E2; [exact (out8_keeps _ _ _ E2)|exact (out16_keeps _ _ _ E2)| |exact (out16_keeps _ _ _ E2)].
      destruct (emitIndexed _ _ s) as [[y s2]| |] eqn:Ei; try discriminate. cbn [bind] in E2. injection E2 as <-. exact (indexed_keeps _ _ _ _ _ Ei). }
    destruct (X65Only.more_quiet _ _ _ (bytes_keep _ _ _ E1) Mo2 Q) as (_ & Q2). exact (Lo _ _ E2 Q2). }
  assert (Mk : more st st1).
  { clear - E1 E2 Va. apply (more_trans _ s); [exact (bytes_keep _ _ _ E1)|].
    destruct c; try discriminate; cbn [operand_out] in E2; [exact (out8_keeps _ _ _ E2)|exact (out16_keeps _ _ _ E2)| |exact (out16_keeps _ _ _ E2)].
    destruct (emitIndexed _ _ s) as [[y s2]| |] eqn:Ei; try discriminate. cbn [bind] in E2. injection E2 as <-. exact (indexed_keeps _ _ _ _ _ Ei). }
  assert (Md : more st1 st').
  { destruct x; [injection H as _ _ _ <-; apply more_refl|]. injection H as H. unfold m6809_ParseDirective in H.
    destruct ts1 as [|[t1| | | | | | | | | |] ts1]; try (injection H as _ _ _ <-; apply more_refl).
    destruct (t1 =? T_6809_SETDP); [|injection H as _ _ _ <-; apply more_refl].
    destruct (parse_Expression ts1) as [e r1]. destruct (isNull e); [injection H as _ _ _ <-; apply more_refl|].
    destruct (expr_IsConstant e); [|injection H as _ _ _ <-; apply more_error].
    destruct ((0 <=? e_v e) && (e_v e <=? 255)); [injection H as _ _ _ <-; apply more_refl|injection H as _ _ _ <-; apply more_error]. }
  intro Q. destruct (X65Only.more_quiet _ _ _ Mk Md Q) as (Q2 & _). exact (Q1 Q2).
Qed.
