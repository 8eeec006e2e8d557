(** Proofs about the 680x0 instruction parser: bits, products, branches and instructions
    of one word. *)
From Coq Require Import String ZArith List Bool Lia ZifyBool.
From Verif Require Import Base BaseFacts Arith ArithProofs ExprSpec ExprModel ExprLayout ExprTree ExprProofs ObjWriteModel OptModel
  SectModel SectSpec SectProofs InstrSpec InstrProofs.
From Verif Require X65Proofs X65Run Z80Run M6809Proofs.
From Verif Require Import X65Spec M68kModel M68kSpec M68kProofs M68kEa M68kFull M68kParse M68kModes M68kShapes M68kParen M68kOperand M68kHandlers M68kInstr M68kInstr2 M68kInstr3.
Import ListNotations.
Open Scope string_scope.
Open Scope list_scope.
Open Scope Z_scope.

Definition regs8 : list Z := [0; 1; 2; 3; 4; 5; 6; 7].
Lemma in_regs : forall n, 0 <= n <= 7 -> In n regs8.
Proof. intros n H. unfold regs8. cbn [In]. lia. Qed.
Definition codes : list Z := [0; 1; 2; 3; 4; 5; 6; 7; 8; 9; 10; 11; 12; 13; 14; 15].
Lemma fields_cdata : forall new s o mode reg, in_class new s CData o = true -> fields o mode reg -> mode_set dalt sevens mode reg.
Proof.
  intros new s o mode reg C Fi. unfold in_class in C. apply andb_true_iff in C. destruct C as (_ & C).
  apply (fields_noreg o); [exact Fi|destruct o; try reflexivity; discriminate C].
Qed.
Lemma data_modes : forall mode reg svs, mode_set dalt svs mode reg -> is_data mode reg = true.
Proof. unfold mode_set, dalt, is_data. cbn [In]. intros. lia. Qed.
Lemma class_range : forall new s lo hi o, in_class new s (CRange lo hi) o = true -> exists a, o = OImm a /\ lo <= g_value a <= hi.
Proof.
  intros new s lo hi o H. unfold in_class in H. apply andb_true_iff in H. destruct H as (_ & H). destruct o as [| | | | | | | |a| |]; try discriminate H. exists a. split; [reflexivity|]. lia.
Qed.
Lemma class_dec : forall new s o, in_class new s CPreDec o = true -> exists n, o = ODec n.
Proof. intros new s o H. unfold in_class in H. apply andb_true_iff in H. destruct H as (_ & H). destruct o; try discriminate H. eexists. reflexivity. Qed.
Lemma class_target : forall new s o, in_class new s CTarget o = true -> exists a, o = OAbs a None.
Proof.
  intros new s o H. unfold in_class in H. apply andb_true_iff in H. destruct H as (_ & H). destruct o as [| | | | | | |a [z|]| | |]; try discriminate H. exists a. reflexivity.
Qed.

Section Handlers.
Variables (new : bool) (S0 : setting) (fl : bool) (k : nat) (st : xstate) (m0 : msect).
Hypothesis G : good fl S0 k st m0 24.
Notation F := (s_F S0).
Notation pc := (e_pc (s_env S0)).
(** *** Bits *)
Definition bit_ops : list (Z * string) := [(0, "BTST"); (0x40, "BCHG"); (0x80, "BCLR"); (0xC0, "BSET")].
Lemma line_0_bit : forall mc pc0 d name mode reg n ws rest p svs, In (d, name) bit_ops -> mode_set dalt svs mode reg -> incl svs [0; 1] ->
  effective new mc SB mode reg (pc0 + 2 + 2) ws = Some (p, rest) ->
  decode_fields new mc pc0 4 (d / 64) mode reg (n :: ws) 0 = Some (Act name None [Val (n mod 256); p], rest).
Proof.
  intros mc pc0 d name mode reg n ws rest p svs Hd Ms Is E.
  assert (Ms2 : mode_set dalt [0; 1] mode reg) by (destruct Ms as [X|(X & Y)]; [left; exact X|right; split; [exact X|apply Is, Y]]).
  assert (Ea : forall f, ea new mc pc0 mode reg (n :: ws) SB ws f = Some (f p, rest)).
  { intro f. unfold ea. replace (after pc0 (n :: ws) ws) with (pc0 + 2 + 2) by (unfold after, zlen; cbn [List.length]; lia). rewrite E. reflexivity. }
  clear E Ms. destruct Hd as [E|[E|[E|[E|[]]]]]; injection E as <- <-;
    unfold mode_set, dalt in Ms2; cbn [In] in Ms2;
    repeat match type of Ms2 with _ \/ _ => destruct Ms2 as [Ms2|Ms2] end; try (destruct Ms2 as (? & Ms2); repeat match type of Ms2 with _ \/ _ => destruct Ms2 as [Ms2|Ms2] end);
    try contradiction; subst;
    lazy beta iota zeta delta [decode_fields line_0 only_if data alterable is_data is_alterable bit_name andb orb negb Z.eqb Pos.eqb Z.ltb Z.leb Z.compare Pos.compare Pos.compare_cont
       Z.div Z.div_eucl Z.pos_div_eucl Z.to_nat Pos.to_nat Pos.iter_op Nat.add nth Z.mul Pos.mul Z.add Pos.add Pos.succ Z.sub Z.opp Z.pos_sub Pos.pred_double Z.pred_double Z.double Z.succ_double];
    first [rewrite Ea; reflexivity | apply Ea].
Qed.
Lemma h_bit : forall d name o1 o2 src dest A, In (d, name) bit_ops -> opd new SW S0 fl o1 src -> opd new SW S0 fl o2 dest ->
  two new SW CDn CDataAlt o1 o2 \/ two new SW (CRange 0 31) CDn o1 o2 \/ two new SW (CRange 0 7) CMemAlt o1 o2 -> incl (opnd_args o1) A -> incl (opnd_args o2) A ->
  done new S0 fl k st A (handleBitInstruction F d src dest st) (fun mc => Act name None [opnd_place mc SW o1; opnd_place mc SW o2]).
Proof.
  intros d name o1 o2 src dest A Hd O1 O2 C I1 I2. pose proof (proj1 O1) as P1. pose proof (proj1 O2) as P2.
  unfold handleBitInstruction. destruct (kind_tests _ _ (proj1 (proj2 (proj2 P1)))) as (Kd1 & _ & Ki1 & _). destruct (kind_tests _ _ (proj1 (proj2 (proj2 P2)))) as (Kd2 & _).
  rewrite Kd1, Ki1, Kd2. destruct O2 as (_ & G2).
  assert (X : (exists n, o1 = ODreg n /\ in_class new SW CDataAlt o2 = true) \/
              (exists a, o1 = OImm a /\ 0 <= g_value a <= (if is_dreg o2 then 31 else 7) /\ in_class new SW CDataAlt o2 = true)).
  { destruct C as [(C1 & C2)|[(C1 & C2)|(C1 & C2)]].
    - destruct (class_dn _ _ _ C1) as (n & ->). left. exists n. split; [reflexivity|exact C2].
    - destruct (class_range _ _ _ _ _ C1) as (a & -> & V). destruct (class_dn _ _ _ C2) as (n & ->). right. exists a. split; [reflexivity|]. split; [exact V|exact C2].
    - destruct (class_range _ _ _ _ _ C1) as (a & -> & V). destruct (class_malt _ _ _ C2) as (C3 & C4). right. exists a. split; [reflexivity|]. split.
      + replace (is_dreg o2) with false by (destruct o2; try reflexivity; discriminate C4). exact V.
      + unfold in_class. rewrite (class_ok _ _ _ _ C2), C3. reflexivity. }
  assert (Ni : in_class new SW CDataAlt o2 = true -> immediate o2 = false) by (intro Y; destruct (class_dalt _ _ _ Y) as (Y1 & _); destruct o2; try reflexivity; discriminate Y1).
  assert (Fd : in_class new SW CDataAlt o2 = true -> forall mode reg, fields o2 mode reg -> mode_set dalt [0; 1] mode reg).
  { intros Y mode reg Fi. destruct (class_dalt _ _ _ Y) as (Y1 & _). apply (fields_dalt o2); assumption. }
  destruct X as [(n & -> & C2)|(a & -> & V & C2)]; cbn [is_dreg immediate].
  - destruct (dn_facts _ _ _ _ _ P1) as (Ds & N & Rn & _). rewrite Ds. specialize (Ni C2).
    assert (X : done new S0 fl k st A (outputOpcode F [256; d; n * 512] dest st) (fun mc => Act name None [InD n; opnd_place mc SB o2])).
    { apply (h_one new S0 fl k st m0 G _ (0x100 + d + n * 512) SB dalt [0; 1] (fun p => Act name None [InD n; p])).
      - clear -Hd Rn. destruct Hd as [E|[E|[E|[E|[]]]]]; injection E as <- _; each_reg n Rn; reflexivity.
      - apply bit_dn; assumption.
      - apply (given_size new SW SB); assumption.
      - apply Fd, C2.
      - exact I2. }
    destruct X as (s1 & m1 & cells & X1 & X2 & X3 & X4). exists s1, m1, cells. split; [exact X1|]. split; [exact X2|]. split; [exact X3|].
    intros mc more. rewrite X4, (place_size mc SW SB o2) by exact Ni. reflexivity.
  - destruct (imm_arg _ _ _ _ _ P1) as (Da & H & _). rewrite Da. set (hi := if is_dreg o2 then 31 else 7) in *. assert (Hh : 7 <= hi <= 31) by (unfold hi; destruct (is_dreg o2); lia).
    destruct (given_size new SW SB _ _ _ _ _ G2 (Ni C2)) as (_ & _ & mode & reg & Fi & Sh).
    apply (done_mid new S0 fl k st m0 0 4 (d / 64) [2048; d] SB _ _ A dest mode reg _ _
             (fun st1 => let! (e, st2) := range_checked (g_expr a) 0 hi st1 in let! st3 := sect_OutputExpr16 e st2 in m68k_OutputExtensionWords F dest st3)
             2%nat (g_term a) (g_value a) G Sh); try lia.
    + clear -Hd. destruct Hd as [E|[E|[E|[E|[]]]]]; injection E as <- _; reflexivity.
    + clear -Hd. destruct Hd as [E|[E|[E|[E|[]]]]]; injection E as <- _; cbn; lia.
    + intros st1 m1 G1. pose proof G1 as (SO & _). pose proof (argh_now _ (here m1) a (argh_moved _ 2 _ H)) as Nw.
      destruct (now_checked 240 _ (here m1) _ _ _ 0 hi st1 SO Nw ltac:(lia) ltac:(s32) ltac:(s32) V) as (e1 & E1 & N1). rewrite E1. cbn [bind].
      destruct (good_expr16 fl (moved 2 S0) k st1 m1 (240 + 2) _ e1 _ 20 G1 ltac:(lia) N1 ltac:(lia)) as (st2 & m2 & E3 & Em & G3). rewrite E3. cbn [bind].
      exists st2, m2. split; [reflexivity|]. split; [exact Em|]. apply (good_less _ _ _ _ _ _ _ G3). lia.
    + right. apply src_arg, I1. left. reflexivity.
    + intros mc ws rest E. cbn [words Nat.eqb app].
      rewrite (line_0_bit mc pc d name mode reg (word (g_value a)) ws rest _ [0; 1] Hd (Fd C2 mode reg Fi) (incl_refl _) E).
      cbn [opnd_place bits]. rewrite word_small by lia. rewrite !Z.mod_small by lia. rewrite (place_size mc SW SB o2) by apply Ni, C2. reflexivity.
    + exact I2.
Qed.
(** *** Products and quotients *)
Definition md_ops : list (Z * Z * string) := [(0, 0, "MULU"); (0, 1, "MULS"); (1, 0, "DIVU"); (1, 1, "DIVS")].
Lemma long_word : forall sign n m, In sign [0; 1] -> In n regs8 -> In m [0; 1] ->
  let w := orl ([sign * 2048; n * 4096] ++ if m =? 0 then [] else [n]) in
  bit 11 w = (sign =? 1) /\ bit 15 w = false /\ bit 10 w = false /\ (w / 4096) mod 8 = n /\ ((m =? 0) || (w mod 8 =? n)) = true /\ word w = w.
Proof.
  intros sign n m Hs Hn Hm.
  assert (T : forallb (fun sign => forallb (fun n => forallb (fun m =>
    let w := orl ([sign * 2048; n * 4096] ++ if m =? 0 then [] else [n]) in
    Bool.eqb (bit 11 w) (sign =? 1) && negb (bit 15 w) && negb (bit 10 w) && ((w / 4096) mod 8 =? n) && ((m =? 0) || (w mod 8 =? n)) && (word w =? w)) [0; 1]) regs8) [0; 1] = true) by (vm_compute; reflexivity).
  rewrite forallb_forall in T. specialize (T _ Hs). rewrite forallb_forall in T. specialize (T _ Hn). rewrite forallb_forall in T. specialize (T _ Hm).
  cbv zeta in T. cbv zeta. rewrite !andb_true_iff, !negb_true_iff, !Z.eqb_eq, eqb_true_iff in T. tauto.
Qed.
Lemma h_long : forall m sign name o1 n src dest A, In (m, sign, name) md_ops -> new = true -> opd new SL S0 fl o1 src -> opd0 new SL S0 (ODreg n) dest ->
  in_class new SL CData o1 = true -> incl (opnd_args o1) A ->
  done new S0 fl k st A (let! st1 := opword [0x4C00 + m * 64] src st in
    let! st2 := sect_OutputConst16 (orl ([sign * 2048; n * 4096] ++ if m =? 0 then [] else [n])) st1 in m68k_OutputExtensionWords F src st2)
    (fun mc => Act name (Some SL) [opnd_place mc SL o1; InD n]).
Proof.
  intros m sign name o1 n src dest A Hm Nw (_ & _ & _ & mode & reg & Fi & Sh) O2 C I. destruct (dn_facts _ _ _ _ _ O2) as (_ & N & _).
  assert (Hs : In sign [0; 1] /\ In m [0; 1]) by (destruct Hm as [E|[E|[E|[E|[]]]]]; injection E as <- <- _; cbn; tauto). destruct Hs as (Hs & Hm2).
  destruct (long_word sign n m Hs (in_regs n N) Hm2) as (B11 & B15 & B10 & Q & R & Wd). set (w := orl ([sign * 2048; n * 4096] ++ if m =? 0 then [] else [n])) in *. clearbody w.
  apply (done_mid new S0 fl k st m0 4 6 m [0x4C00 + m * 64] SL _ _ A src mode reg _ _ (fun st1 => let! st2 := sect_OutputConst16 w st1 in m68k_OutputExtensionWords F src st2) 2%nat (Num w) w G Sh); try lia.
  - clear -Hm2. destruct Hm2 as [<-|[<-|[]]]; reflexivity.
  - cbn [In] in Hm2. lia.
  - intros st1 m1 G1. destruct (good_16 fl (moved 2 S0) k st1 m1 w (Num w) 20) as (st2 & m2 & E1 & Em & G2); [exact G1|lia|].
    exists st2, m2. rewrite E1. split; [reflexivity|]. split; [exact Em|]. apply (good_less _ _ _ _ _ _ _ G2). lia.
  - left. reflexivity.
  - intros mc ws rest E. cbn [words Nat.eqb app]. rewrite Wd.
    assert (D : decode_fields new mc pc 6 m mode reg (w :: ws) 4 = long_arithmetic new mc pc m mode reg (w :: ws)) by (clear -Hm2; destruct Hm2 as [<-|[<-|[]]]; reflexivity).
    rewrite D. unfold long_arithmetic, data. rewrite B11, B15, B10, Q, R, Nw, (data_modes _ _ _ (fields_cdata _ _ _ _ _ C Fi)). cbn [andb negb only_if].
    unfold ea. replace (after pc (w :: ws) ws) with (pc + 2 + Z.of_nat 2) by (unfold after, zlen; cbn [List.length]; lia). rewrite Nw in E. rewrite E.
    do 3 f_equal. clear -Hm. destruct Hm as [X|[X|[X|[X|[]]]]]; injection X as <- <- <-; reflexivity.
  - exact I.
Qed.
Definition old_sizes (cpu : Z) (s : size) : Prop := s = SL -> (cpu <? CPUF_68020) = false /\ new = true.
Lemma h_muldiv_w : forall op name o1 n src dest A l, In (op, name) [(0xC0C0, "MULU"); (0xC1C0, "MULS"); (0x80C0, "DIVU"); (0x81C0, "DIVS")] ->
  orl l = op + n * 512 -> opd new SW S0 fl o1 src -> opd0 new SW S0 (ODreg n) dest -> in_class new SW CData o1 = true -> incl (opnd_args o1) A ->
  done new S0 fl k st A (outputOpcode F l src st) (fun mc => Act name (Some SW) [opnd_place mc SW o1; InD n]).
Proof.
  intros op name o1 n src dest A l Ho El (_ & G1) O2 C I. destruct (dn_facts _ _ _ _ _ O2) as (_ & N & _).
  apply (h_one new S0 fl k st m0 G _ (op + n * 512) SW dalt sevens (fun p => Act name (Some SW) [p; InD n])); try assumption.
  - apply muldiv_w; assumption.
  - intros mode reg. apply (fields_cdata new SW), C.
Qed.
Lemma h_mul : forall cpu sign name s o1 o2 src dest A, In (sign, name) [(0, "MULU"); (1, "MULS")] -> s <> SB -> old_sizes cpu s ->
  opd new s S0 fl o1 src -> opd new s S0 fl o2 dest -> two new s CData CDn o1 o2 -> incl (opnd_args o1) A ->
  done new S0 fl k st A (handleMUL F cpu sign (code s) src dest st) (fun mc => Act name (Some s) [opnd_place mc s o1; opnd_place mc s o2]).
Proof.
  intros cpu sign name s o1 o2 src dest A Ho Ns Os O1 O2 (C1 & C2) I. destruct (class_dn _ _ _ C2) as (n & ->). pose proof (proj1 O2) as P2.
  destruct (dn_facts _ _ _ _ _ P2) as (Dd & N & Rn & _). unfold handleMUL. rewrite Dd. destruct s; [congruence| |].
  - change (code SW =? SIZE_LONG) with false. cbn [andb].
    apply (h_muldiv_w (0xC0C0 + sign * 256) name o1 n src dest); try assumption.
    + destruct Ho as [E|[E|[]]]; injection E as <- <-; cbn; tauto.
    + clear -Ho Rn. destruct Ho as [E|[E|[]]]; injection E as <- _; each_reg n Rn; reflexivity.
  - destruct (Os eq_refl) as (Cp & Nw). rewrite Cp. change (code SL =? SIZE_LONG) with true. cbn [andb].
    apply (h_long 0 sign name o1 n src dest); try assumption. destruct Ho as [E|[E|[]]]; injection E as <- <-; cbn; tauto.
Qed.
Lemma h_div : forall cpu sign name s o1 o2 src dest A, In (sign, name) [(0, "DIVU"); (1, "DIVS")] -> s <> SB -> old_sizes cpu s ->
  opd new s S0 fl o1 src -> opd new s S0 fl o2 dest -> two new s CData CDn o1 o2 -> incl (opnd_args o1) A ->
  done new S0 fl k st A (handleDIV F sign (code s) src dest st) (fun mc => Act name (Some s) [opnd_place mc s o1; opnd_place mc s o2]).
Proof.
  intros cpu sign name s o1 o2 src dest A Ho Ns Os O1 O2 (C1 & C2) I. destruct (class_dn _ _ _ C2) as (n & ->). pose proof (proj1 O2) as P2.
  destruct (dn_facts _ _ _ _ _ P2) as (Dd & N & Rn & _). unfold handleDIV. rewrite Dd. destruct s; [congruence| |].
  - change (code SW =? SIZE_LONG) with false. cbv iota.
    apply (h_muldiv_w (0x80C0 + sign * 256) name o1 n src dest); try assumption.
    + destruct Ho as [E|[E|[]]]; injection E as <- <-; cbn; tauto.
    + clear -Ho Rn. destruct Ho as [E|[E|[]]]; injection E as <- _; each_reg n Rn; reflexivity.
  - destruct (Os eq_refl) as (Cp & Nw). change (code SL =? SIZE_LONG) with true. cbv iota.
    apply (h_long 1 sign name o1 n src dest); try assumption. destruct Ho as [E|[E|[]]]; injection E as <- <-; cbn; tauto.
Qed.
Lemma h_chk : forall cpu s o1 o2 src dest A, s <> SB -> old_sizes cpu s -> opd new s S0 fl o1 src -> opd new s S0 fl o2 dest -> two new s CData CDn o1 o2 -> incl (opnd_args o1) A ->
  done new S0 fl k st A (handleCHK F cpu (code s) src dest st) (fun mc => Act "CHK" (Some s) [opnd_place mc s o1; opnd_place mc s o2]).
Proof.
  intros cpu s o1 o2 src dest A Ns Os (_ & G1) O2 (C1 & C2) I. destruct (class_dn _ _ _ C2) as (n & ->). pose proof (proj1 O2) as P2.
  destruct (dn_facts _ _ _ _ _ P2) as (Dd & N & Rn & _). unfold handleCHK. rewrite Dd.
  replace ((code s =? SIZE_LONG) && (cpu <? CPUF_68020)) with false by (destruct s; try reflexivity; destruct (Os eq_refl) as (-> & _); reflexivity).
  apply (h_one new S0 fl k st m0 G _ (4 * 4096 + n * 512 + (match s with SW => 6 | _ => 4 end) * 64) s dalt sevens (fun p => Act "CHK" (Some s) [p; InD n])); try assumption.
  - clear -Ns Rn. destruct s; [congruence| |]; each_reg n Rn; reflexivity.
  - apply chk_dn; [exact Ns|intro E; apply (Os E)|exact N].
  - intros mode reg. apply (fields_cdata new s), C1.
Qed.
(** *** Addresses *)
Lemma control_not_imm : forall s o, in_class new s CControl o = true -> immediate o = false.
Proof. intros s o H. unfold in_class in H. apply andb_true_iff in H. destruct H as (_ & H). destruct o; try reflexivity; discriminate H. Qed.
Lemma h_control : forall s l op act o md A, one_ok new op SL [2; 5; 6] [0; 1; 2; 3] act -> orl l = op -> opd new s S0 fl o md -> in_class new s CControl o = true -> incl (opnd_args o) A ->
  done new S0 fl k st A (outputOpcode F l md st) (fun mc => act (opnd_place mc s o)).
Proof.
  intros s l op act o md A Ok1 El (_ & G1) C I. pose proof (control_not_imm _ _ C) as Ni.
  destruct (h_one new S0 fl k st m0 G l op SL [2; 5; 6] [0; 1; 2; 3] act o md A El Ok1 (given_size _ _ SL _ _ _ _ _ G1 Ni)) as (s1 & m1 & cells & X1 & X2 & X3 & X4).
  - intros mode reg Fi. apply (fields_control o mode reg new s); assumption.
  - exact I.
  - exists s1, m1, cells. split; [exact X1|]. split; [exact X2|]. split; [exact X3|]. intros mc more. rewrite X4, (place_size mc s SL) by exact Ni. reflexivity.
Qed.
Lemma h_lea : forall s o1 o2 src dest A, opd new s S0 fl o1 src -> opd new s S0 fl o2 dest -> two new s CControl CAn o1 o2 -> incl (opnd_args o1) A ->
  done new S0 fl k st A (outputOpcode F [0x41C0; a_direct dest * 512] src st) (fun mc => Act "LEA" None [opnd_place mc s o1; opnd_place mc s o2]).
Proof.
  intros s o1 o2 src dest A O1 (P2 & _) (C1 & C2) I. destruct (class_an _ _ _ C2) as (n & -> & _). destruct (an_facts _ _ _ _ _ P2) as (Dd & N & Rn & _). rewrite Dd.
  apply (h_control s _ (4 * 4096 + n * 512 + 7 * 64) (fun p => Act "LEA" None [p; InA n])); try assumption; [apply lea_an, N|].
  clear -Rn. each_reg n Rn; reflexivity.
Qed.
(** *** Instructions of one word *)
Lemma done_table : forall W h r m mode reg A act, W = h * 4096 + r * 512 + m * 64 + (mode * 8 + reg) -> 0 <= h < 16 -> 0 <= r < 8 -> 0 <= m < 8 -> 0 <= mode <= 7 -> 0 <= reg <= 7 ->
  (forall mc more, decode_fields new mc pc r m mode reg more h = Some (act mc, more)) ->
  done new S0 fl k st A (let! st1 := sect_OutputConst16 W st in Ok (true, st1)) act.
Proof. intros. apply (done_fields new S0 fl k st m0 W h r m mode reg A act G); assumption. Qed.
Definition x_ops : list (Z * Z * string) := [(0xC100, 12, "ABCD"); (0x8100, 8, "SBCD"); (0xD100, 13, "ADDX"); (0x9100, 9, "SUBX")].
Lemma x_word : forall op h name s a b, In (op, h, name) x_ops -> In a regs8 -> In b regs8 ->
  orl ([op; a; b * 512] ++ [field s * 64]) = h * 4096 + b * 512 + (4 + field s) * 64 + (0 * 8 + a) /\
  orl ([op; 8; a; b * 512] ++ [field s * 64]) = h * 4096 + b * 512 + (4 + field s) * 64 + (1 * 8 + a).
Proof.
  intros op h name s a b Ho Ha Hb.
  assert (T : forallb (fun o => forallb (fun s => forallb (fun a => forallb (fun b => let '(op, h, _) := o in
    (orl ([op; a; b * 512] ++ [field s * 64]) =? h * 4096 + b * 512 + (4 + field s) * 64 + (0 * 8 + a)) &&
    (orl ([op; 8; a; b * 512] ++ [field s * 64]) =? h * 4096 + b * 512 + (4 + field s) * 64 + (1 * 8 + a))) regs8) regs8) [SB; SW; SL]) x_ops = true) by (vm_compute; reflexivity).
  rewrite forallb_forall in T. specialize (T _ Ho). rewrite forallb_forall in T. assert (Hs : In s [SB; SW; SL]) by (destruct s; cbn; tauto). specialize (T _ Hs).
  rewrite forallb_forall in T. specialize (T _ Ha). rewrite forallb_forall in T. specialize (T _ Hb). cbv beta iota in T. rewrite andb_true_iff, !Z.eqb_eq in T. exact T.
Qed.
Lemma h_xbcd : forall op h name s o1 o2 src dest A, In (op, h, name) x_ops -> (h = 12 \/ h = 8 -> s = SB) -> opd new s S0 fl o1 src -> opd new s S0 fl o2 dest ->
  two new s CDn CDn o1 o2 \/ two new s CPreDec CPreDec o1 o2 ->
  done new S0 fl k st A (handleXBCD op (code s) src dest st) (fun mc => Act name (Some s) [opnd_place mc s o1; opnd_place mc s o2]).
Proof.
  intros op h name s o1 o2 src dest A Ho Hs (P1 & _) (P2 & _) C. unfold handleXBCD. rewrite size_field.
  assert (Hr : 0 <= h < 16) by (destruct Ho as [E|[E|[E|[E|[]]]]]; injection E as _ <- _; lia).
  assert (Fs : 0 <= 4 + field s < 8) by (destruct s; cbn; lia).
  destruct C as [(C1 & C2)|(C1 & C2)].
  - destruct (class_dn _ _ _ C1) as (a & ->). destruct (class_dn _ _ _ C2) as (b & ->).
    destruct (dn_facts _ _ _ _ _ P1) as (D1 & N1 & _ & K1). destruct (dn_facts _ _ _ _ _ P2) as (D2 & N2 & _ & K2).
    apply Z.eqb_eq in K1, K2. rewrite K1, K2, Z.eqb_refl, D1, D2. change (AM_DREG =? AM_ADEC) with false. cbv iota zeta.
    destruct (x_word op h name s a b Ho (in_regs _ N1) (in_regs _ N2)) as (W & _).
    apply (done_table _ h b (4 + field s) 0 a _ _ W); try lia.
    intros mc more. clear -Ho Hs. destruct Ho as [E|[E|[E|[E|[]]]]]; injection E as _ <- <-; [assert (s = SB) as -> by (apply Hs; lia)|assert (s = SB) as -> by (apply Hs; lia)|destruct s|destruct s]; reflexivity.
  - destruct (class_dec _ _ _ C1) as (a & ->). destruct (class_dec _ _ _ C2) as (b & ->).
    destruct (dec_facts _ _ _ _ _ P1) as (D1 & N1 & _ & K1). destruct (dec_facts _ _ _ _ _ P2) as (D2 & N2 & _ & K2).
    rewrite K1, K2, Z.eqb_refl, D1, D2. change (AM_ADEC =? AM_ADEC) with true. cbv iota zeta.
    destruct (x_word op h name s a b Ho (in_regs _ N1) (in_regs _ N2)) as (_ & W).
    apply (done_table _ h b (4 + field s) 1 a _ _ W); try lia.
    intros mc more. clear -Ho Hs. destruct Ho as [E|[E|[E|[E|[]]]]]; injection E as _ <- <-; [assert (s = SB) as -> by (apply Hs; lia)|assert (s = SB) as -> by (apply Hs; lia)|destruct s|destruct s]; reflexivity.
Qed.
Lemma h_exg : forall o1 o2 src dest A, opd new SL S0 fl o1 src -> opd new SL S0 fl o2 dest ->
  two new SL CDn CDn o1 o2 \/ two new SL CAn CAn o1 o2 \/ two new SL CDn CAn o1 o2 ->
  done new S0 fl k st A (handleEXG src dest st) (fun mc => Act "EXG" (Some SL) [opnd_place mc SL o1; opnd_place mc SL o2]) /\
  done new S0 fl k st A (handleEXG dest src st) (fun mc => Act "EXG" (Some SL) (match o1, o2 with ODreg _, OAreg _ => [opnd_place mc SL o1; opnd_place mc SL o2] | _, _ => [opnd_place mc SL o2; opnd_place mc SL o1] end)).
Proof.
  intros o1 o2 src dest A (P1 & _) (P2 & _) C.
  assert (T : forall a b, In a regs8 -> In b regs8 ->
    orl [0x40; 0xC100; a * 512; b] = 12 * 4096 + a * 512 + 5 * 64 + (0 * 8 + b) /\ orl [0x48; 0xC100; a * 512; b] = 12 * 4096 + a * 512 + 5 * 64 + (1 * 8 + b) /\
    orl [0x88; 0xC100; a * 512; b] = 12 * 4096 + a * 512 + 6 * 64 + (1 * 8 + b)).
  { intros a b Ha Hb. assert (T : forallb (fun a => forallb (fun b => (orl [0x40; 0xC100; a * 512; b] =? 12 * 4096 + a * 512 + 5 * 64 + (0 * 8 + b)) &&
      (orl [0x48; 0xC100; a * 512; b] =? 12 * 4096 + a * 512 + 5 * 64 + (1 * 8 + b)) && (orl [0x88; 0xC100; a * 512; b] =? 12 * 4096 + a * 512 + 6 * 64 + (1 * 8 + b))) regs8) regs8 = true) by (vm_compute; reflexivity).
    rewrite forallb_forall in T. specialize (T _ Ha). rewrite forallb_forall in T. specialize (T _ Hb). cbv beta in T. rewrite !andb_true_iff, !Z.eqb_eq in T. tauto. }
  unfold handleEXG. destruct C as [(C1 & C2)|[(C1 & C2)|(C1 & C2)]].
  - destruct (class_dn _ _ _ C1) as (a & ->). destruct (class_dn _ _ _ C2) as (b & ->).
    destruct (dn_facts _ _ _ _ _ P1) as (D1 & N1 & _ & K1). destruct (dn_facts _ _ _ _ _ P2) as (D2 & N2 & _ & K2).
    apply Z.eqb_eq in K1, K2. rewrite K1, K2, Z.eqb_refl, D1, D2. cbn [negb]. change (AM_DREG =? AM_DREG) with true. cbv iota zeta.
    split; [apply (done_table _ 12 a 5 0 b _ _ (proj1 (T a b (in_regs _ N1) (in_regs _ N2))))|apply (done_table _ 12 b 5 0 a _ _ (proj1 (T b a (in_regs _ N2) (in_regs _ N1))))]; try lia; reflexivity.
  - destruct (class_an _ _ _ C1) as (a & -> & _). destruct (class_an _ _ _ C2) as (b & -> & _).
    destruct (an_facts _ _ _ _ _ P1) as (D1 & N1 & _ & _ & K1). destruct (an_facts _ _ _ _ _ P2) as (D2 & N2 & _ & _ & K2).
    apply Z.eqb_eq in K1, K2. rewrite K1, K2, Z.eqb_refl, D1, D2. cbn [negb]. change (AM_AREG =? AM_DREG) with false. cbv iota zeta.
    split; [apply (done_table _ 12 a 5 1 b _ _ (proj1 (proj2 (T a b (in_regs _ N1) (in_regs _ N2)))))|apply (done_table _ 12 b 5 1 a _ _ (proj1 (proj2 (T b a (in_regs _ N2) (in_regs _ N1)))))]; try lia; reflexivity.
  - destruct (class_dn _ _ _ C1) as (a & ->). destruct (class_an _ _ _ C2) as (b & -> & _).
    destruct (dn_facts _ _ _ _ _ P1) as (D1 & N1 & _ & K1). destruct (an_facts _ _ _ _ _ P2) as (D2 & N2 & _ & _ & K2).
    apply Z.eqb_eq in K1, K2. rewrite K1, K2, D1, D2. change (AM_DREG =? AM_AREG) with false. change (AM_AREG =? AM_DREG) with false. change (AM_AREG =? AM_AREG) with true. cbn [negb]. cbv iota zeta.
    split; apply (done_table _ 12 a 6 1 b _ _ (proj2 (proj2 (T a b (in_regs _ N1) (in_regs _ N2))))); try lia; reflexivity.
Qed.
Lemma dn_word : forall c h r m mode s n md A act, opd0 new s S0 (ODreg n) md \/ opd0 new s S0 (OAreg n) md -> c = h * 4096 + r * 512 + m * 64 + mode * 8 -> 0 <= h < 16 -> 0 <= r < 8 -> 0 <= m < 8 -> 0 <= mode <= 7 ->
  (forall mc more, decode_fields new mc pc r m mode n more h = Some (act mc, more)) -> forall l, (forall x, In x regs8 -> orl (l x) = c + x) ->
  done new S0 fl k st A (one_word (l (a_direct md)) st) act.
Proof.
  intros c h r m mode s n md A act O Ec Hh R M Mo Dec l El.
  assert (X : a_direct md = n /\ 0 <= n <= 7) by (destruct O as [O|O]; [destruct (dn_facts _ _ _ _ _ O) as (D & N & _)|destruct (an_facts _ _ _ _ _ O) as (D & N & _)]; split; assumption).
  destruct X as (D & N). unfold one_word. rewrite D, (El n (in_regs _ N)).
  apply (done_table _ h r m mode n); try assumption; lia.
Qed.
Lemma fixed_op : forall op name A, In (op, name) [(0x4AFC, "ILLEGAL"); (0x4E71, "NOP"); (0x4E70, "RESET"); (0x4E73, "RTE"); (0x4E77, "RTR"); (0x4E75, "RTS"); (0x4E76, "TRAPV")] ->
  done new S0 fl k st A (one_word [op] st) (fun mc => Act name None []).
Proof.
  intros op name A H. unfold one_word. apply (done_word new S0 fl k st m0 _ _ _ G). intros mc more. cbn [In] in H.
  destruct H as [E|[E|[E|[E|[E|[E|[E|[]]]]]]]]; injection E as <- <-; reflexivity.
Qed.
(** *** Shifts *)
Definition shift_ops : list (Z * Z * Z * Z * string) :=
  [(0xE100, 0xE1C0, 4, 0, "ASL"); (0xE000, 0xE0C0, 0, 0, "ASR"); (0xE108, 0xE3C0, 4, 1, "LSL"); (0xE008, 0xE2C0, 0, 1, "LSR");
   (0xE118, 0xE7C0, 4, 3, "ROL"); (0xE018, 0xE6C0, 0, 3, "ROR"); (0xE110, 0xE5C0, 4, 2, "ROXL"); (0xE010, 0xE4C0, 0, 2, "ROXR")].
Lemma shift_words : forall op mem up kind name s a b, In (op, mem, up, kind, name) shift_ops -> In a regs8 -> In b regs8 ->
  Z.lor (orl [op; field s * 64; b]) (a * 512) = 14 * 4096 + a * 512 + (up + field s) * 64 + (kind * 8 + b) /\
  orl [op; field s * 64; b; 0x20; a * 512] = 14 * 4096 + a * 512 + (up + field s) * 64 + ((4 + kind) * 8 + b) /\
  0 <= orl [op; field s * 64; b] < 65536 /\ 0 <= kind < 4 /\ (up = 0 \/ up = 4).
Proof.
  intros op mem up kind name s a b Ho Ha Hb.
  assert (T : forallb (fun o => forallb (fun s => forallb (fun a => forallb (fun b => let '(op, _, up, kind, _) := o in
    (Z.lor (orl [op; field s * 64; b]) (a * 512) =? 14 * 4096 + a * 512 + (up + field s) * 64 + (kind * 8 + b)) &&
    (orl [op; field s * 64; b; 0x20; a * 512] =? 14 * 4096 + a * 512 + (up + field s) * 64 + ((4 + kind) * 8 + b)) &&
    (0 <=? orl [op; field s * 64; b]) && (orl [op; field s * 64; b] <? 65536) && (0 <=? kind) && (kind <? 4) && ((up =? 0) || (up =? 4))) regs8) regs8) [SB; SW; SL]) shift_ops = true) by (vm_compute; reflexivity).
  rewrite forallb_forall in T. specialize (T _ Ho). rewrite forallb_forall in T. assert (Hs : In s [SB; SW; SL]) by (destruct s; cbn; tauto). specialize (T _ Hs).
  rewrite forallb_forall in T. specialize (T _ Ha). rewrite forallb_forall in T. specialize (T _ Hb). cbv beta iota in T. rewrite !andb_true_iff, !Z.eqb_eq, orb_true_iff, !Z.eqb_eq in T.
  destruct T as ((((((T1 & T2) & T3) & T4) & T5) & T6) & T7). split; [exact T1|]. split; [exact T2|]. lia.
Qed.
Lemma shift_dec : forall op mem up kind name s, In (op, mem, up, kind, name) shift_ops -> forall mc pc0 a b more,
  decode_fields new mc pc0 a (up + field s) kind b more 14 = Some (Act name (Some s) [Val (eight a); InD b], more) /\
  decode_fields new mc pc0 a (up + field s) (4 + kind) b more 14 = Some (Act name (Some s) [InD a; InD b], more).
Proof.
  intros op mem up kind name s Ho mc pc0 a b more.
  destruct Ho as [E|[E|[E|[E|[E|[E|[E|[E|[]]]]]]]]]; injection E as _ _ <- <- <-; destruct s; split; reflexivity.
Qed.
Lemma h_shift : forall op mem up kind name s o1 o2 src dest A, In (op, mem, up, kind, name) shift_ops -> opd new s S0 fl o1 src -> opd new s S0 fl o2 dest ->
  two new s (CRange 1 8) CDn o1 o2 \/ two new s CDn CDn o1 o2 -> incl (opnd_args o1) A ->
  done new S0 fl k st A (handleShift F op mem (code s) src dest st) (fun mc => Act name (Some s) [opnd_place mc s o1; opnd_place mc s o2]).
Proof.
  intros op mem up kind name s o1 o2 src dest A Ho (P1 & _) (P2 & _) C I. unfold handleShift. rewrite size_field.
  assert (X : exists n, o2 = ODreg n) by (destruct C as [(_ & C)|(_ & C)]; apply (class_dn _ _ _ C)). destruct X as (n & ->).
  destruct (dn_facts _ _ _ _ _ P2) as (D2 & N2 & _ & K2). rewrite K2, D2. destruct (kind_tests _ _ (proj1 (proj2 (proj2 P1)))) as (Kd1 & _ & Ki1 & _). rewrite Kd1, Ki1.
  destruct C as [(C1 & _)|(C1 & _)].
  - destruct (class_range _ _ _ _ _ C1) as (a & -> & V). cbn [immediate]. destruct (imm_arg _ _ _ _ _ P1) as (Da & H & _). rewrite Da.
    pose proof G as (SO & _). pose proof (argh_now _ (here m0) a H) as Nw.
    assert (X : 0 <= g_value a mod 8 <= 7) by (pose proof (Z.mod_pos_bound (g_value a) 8); lia).
    destruct (shift_words op mem up kind name s (g_value a mod 8) n Ho (in_regs _ X) (in_regs _ N2)) as (W & _ & Rg & Kr & Ur).
    destruct (quick_stage S0 (here m0) _ _ _ (orl [op; field s * 64; n]) st SO Nw V ltac:(s32)) as (e0 & e1 & e2 & e3 & E0 & E1 & E2 & E3 & N3).
    rewrite E0. cbn [bind]. rewrite E1. cbn [bind]. rewrite E2. cbn [bind]. rewrite E3. cbn [bind].
    apply (done_expr16 new S0 fl k st m0 245 (g_term a) e3 _ A _ G N3); [lia|apply src_arg, I; left; reflexivity|].
    intros mc more. rewrite W, decode_word; [|lia|lia|destruct s; cbn [field]; lia|lia|lia]. rewrite (proj1 (shift_dec op mem up kind name s Ho mc pc _ n more)).
    cbn [opnd_place]. rewrite eight_of by exact V. rewrite Z.mod_small; [reflexivity|]. destruct s; cbn [bits]; lia.
  - destruct (class_dn _ _ _ C1) as (a & ->). cbn [immediate is_dreg]. destruct (dn_facts _ _ _ _ _ P1) as (D1 & N1 & _). rewrite D1.
    destruct (shift_words op mem up kind name s a n Ho (in_regs _ N1) (in_regs _ N2)) as (_ & W & _ & Kr & Ur).
    apply (done_table _ 14 a (up + field s) (4 + kind) n _ _ W); try lia; [destruct s; cbn [field]; lia|].
    intros mc more. apply (shift_dec op mem up kind name s Ho).
Qed.
Lemma h_shift_mem : forall op mem up kind name o1 src A, In (op, mem, up, kind, name) shift_ops -> opd new SW S0 fl o1 src -> in_class new SW CMemAlt o1 = true -> incl (opnd_args o1) A ->
  done new S0 fl k st A (handleShift F op mem (code SW) src no_mode st) (fun mc => Act name (Some SW) [opnd_place mc SW o1]).
Proof.
  intros op mem up kind name o1 src A Ho (P1 & G1) C I. destruct (class_malt _ _ _ C) as (C1 & C2). unfold handleShift.
  change (a_mode no_mode =? AM_DREG) with false. change (a_mode no_mode =? AM_EMPTY) with true. change (code SW =? SIZE_WORD) with true. cbn [negb]. cbv iota.
  assert (Hm : has (a_mode src) M_MALT = true).
  { pose proof (proj1 (proj2 (proj2 P1))) as Kin. revert Kin. generalize (a_mode src). intros z Kin.
    assert (X : forallb (fun z => has z M_MALT) (kinds o1) = true).
    { clear -C1 C2. destruct o1; try discriminate C1; try discriminate C2; try reflexivity; cbn [kinds]; unfold data_alterable in C1; cbn [through_pc] in C1;
        destruct (is_pc b); try discriminate C1; try reflexivity; destruct (simple _); reflexivity. }
    rewrite forallb_forall in X. apply X, Kin. }
  rewrite Hm.
  apply (h_one new S0 fl k st m0 G _ mem SW malt [0; 1] (fun p => Act name (Some SW) [p])); try assumption.
  - reflexivity.
  - apply one_shift. clear -Ho. cbn [In shift_ops] in *. destruct Ho as [E|[E|[E|[E|[E|[E|[E|[E|[]]]]]]]]]; injection E as _ <- _ _ <-; tauto.
  - intros mode reg Fi. apply (fields_malt o1); assumption.
Qed.
(** *** TRAP, STOP and LINK *)
Lemma h_trap : forall o1 src A, opd new SW S0 fl o1 src -> in_class new SW (CRange 0 15) o1 = true -> incl (opnd_args o1) A ->
  done new S0 fl k st A (handleTRAP F src st) (fun mc => Act "TRAP" None [opnd_place mc SW o1]).
Proof.
  intros o1 src A (P1 & _) C I. destruct (class_range _ _ _ _ _ C) as (a & -> & V). destruct (imm_arg _ _ _ _ _ P1) as (Da & H & _). unfold handleTRAP. rewrite Da.
  pose proof G as (SO & _). pose proof (argh_now _ (here m0) a H) as Nw. set (v := g_value a) in *.
  destruct (now_checked 240 _ (here m0) _ _ v 0 15 st SO Nw ltac:(lia) ltac:(s32) ltac:(s32) V) as (e1 & E1 & N1).
  destruct (now_bin (240 + 2) S0 (here m0) OpOr _ e1 v 0x4E40 (4 * 4096 + 7 * 512 + 1 * 64 + (v / 8 * 8 + v mod 8)) SO N1 ltac:(lia) ltac:(s32)) as (e2 & E2 & N2).
  { right. left. reflexivity. } { cbn [op_meaning]. f_equal. rewrite Z.lor_comm, (sum_lor 0x4E40 v 4); [|lia|change (2 ^ 4) with 16; lia|reflexivity]. Z.div_mod_to_equations. lia. }
  rewrite E1. cbn [bind]. unfold expr_Or. rewrite E2. cbn [bind].
  apply (done_expr16 new S0 fl k st m0 243 (g_term a) e2 _ A _ G N2); [lia|apply src_arg, I; left; reflexivity|].
  intros mc more. rewrite decode_word by (Z.div_mod_to_equations; lia).
  change (decode_fields new mc pc 7 1 (v / 8) (v mod 8) more 4) with (special (v / 8) (v mod 8) more). unfold special.
  replace (v / 8 <? 2) with true by (Z.div_mod_to_equations; lia). cbn [opnd_place bits].
  replace (8 * (v / 8) + v mod 8) with (v mod 2 ^ 16); [reflexivity|]. rewrite Z.mod_small by lia. Z.div_mod_to_equations. lia.
Qed.
Lemma cell16 : forall a st1 m1, argh S0 a -> good fl (moved 2 S0) k st1 m1 22 -> exists st2 m2,
  (let! st2 := sect_OutputExpr16 (g_expr a) st1 in Ok (true, st2)) = Ok (true, st2) /\
  emits (moved 2 S0) k st1 st2 [(2%nat, g_term a, g_value a)] /\ good fl (moved (Z.of_nat 2) (moved 2 S0)) k st2 m2 18.
Proof.
  intros a st1 m1 H G1. pose proof (argh_now _ (here m1) a (argh_moved _ 2 _ H)) as Nw.
  destruct (good_expr16 fl (moved 2 S0) k st1 m1 240 _ _ _ 20 G1 ltac:(lia) Nw ltac:(lia)) as (st2 & m2 & E & Em & G2).
  exists st2, m2. rewrite E. split; [reflexivity|]. split; [exact Em|]. apply (good_less _ _ _ _ _ _ _ G2). lia.
Qed.
Lemma h_stop : forall o1 src A, opd new SW S0 fl o1 src -> in_class new SW CImm o1 = true -> incl (opnd_args o1) A ->
  done new S0 fl k st A (let! st1 := sect_OutputConst16 0x4E72 st in let! st2 := sect_OutputExpr16 (a_imm src) st1 in Ok (true, st2)) (fun mc => Act "STOP" None [opnd_place mc SW o1]).
Proof.
  intros o1 src A (P1 & _) C I. destruct (class_imm _ _ _ C) as (a & ->). destruct (imm_arg _ _ _ _ _ P1) as (Da & H & _). rewrite Da.
  apply (done_cell new S0 fl k st m0 G _ (fun st1 => let! st2 := sect_OutputExpr16 (g_expr a) st1 in Ok (true, st2)) 2%nat (g_term a) (g_value a)).
  - left. reflexivity. - right. apply src_arg, I. left. reflexivity.
  - intros st1 m1. apply cell16, H.
  - intros mc more. reflexivity.
Qed.
Lemma signed_32 : forall v, is_s32 v -> signed 32 (v mod 2 ^ 32) = v.
Proof.
  intros v H. unfold is_s32 in H. unfold signed. rewrite Z.add_mod, Z.mod_mod, <- Z.add_mod by lia. rewrite Z.mod_small by lia. lia.
Qed.
Lemma h_link : forall cpu s o1 a src dest A, s <> SB -> old_sizes cpu s -> opd new s S0 fl o1 src -> opd0 new s S0 (OImm a) dest -> in_class new s CAn o1 = true ->
  (s = SW -> s16 (g_value a)) -> incl [a] A ->
  done new S0 fl k st A (handleLINK cpu (code s) src dest st) (fun mc => Act "LINK" (Some s) [opnd_place mc s o1; Val (g_value a)]).
Proof.
  intros cpu s o1 a src dest A Ns Os (P1 & _) P2 C V I. destruct (class_an _ _ _ C) as (n & -> & _). destruct (an_facts _ _ _ _ _ P1) as (D1 & N1 & Rn & _).
  destruct (imm_arg _ _ _ _ _ P2) as (Da & H & _). unfold handleLINK. rewrite D1, Da.
  replace ((code s =? SIZE_LONG) && (cpu <? CPUF_68020)) with false by (destruct s; try reflexivity; destruct (Os eq_refl) as (-> & _); reflexivity).
  assert (Sr : In a A) by exact (I a (or_introl eq_refl)).
  destruct s; [congruence| |]; change (code SW =? SIZE_WORD) with true; change (code SL =? SIZE_WORD) with false; cbv iota.
  - apply (done_cell new S0 fl k st m0 G _ (fun st1 => let! st2 := sect_OutputExpr16 (g_expr a) st1 in Ok (true, st2)) 2%nat (g_term a) (g_value a)).
    + left. reflexivity. + right. apply src_arg, Sr.
    + intros st1 m1. apply cell16, H.
    + intros mc more. cbn [words Nat.eqb app opnd_place].
      replace (orl [0x4E50; n]) with (4 * 4096 + 7 * 512 + 1 * 64 + (2 * 8 + n)) by (clear -Rn; each_reg n Rn; reflexivity).
      rewrite decode_word by lia.
      change (decode_fields new mc pc 7 1 2 n (word (g_value a) :: more) 4) with (Some (Act "LINK" (Some SW) [InA n; Val (signed 16 (word (g_value a)))], more)).
      rewrite signed_16 by apply V, eq_refl. reflexivity.
  - destruct (Os eq_refl) as (_ & Nw).
    apply (done_cell new S0 fl k st m0 G _ (fun st1 => let! st2 := sect_OutputExpr32 (g_expr a) st1 in Ok (true, st2)) 4%nat (g_term a) (g_value a)).
    + right. reflexivity. + right. apply src_arg, Sr.
    + intros st1 m1 G1. pose proof (argh_now _ (here m1) a (argh_moved _ 2 _ H)) as Nw1.
      destruct (good_expr32 fl (moved 2 S0) k st1 m1 240 _ _ _ 18 G1 ltac:(lia) Nw1 ltac:(lia)) as (st2 & m2 & E & Em & G2).
      exists st2, m2. rewrite E. split; [reflexivity|]. split; [exact Em|exact G2].
    + intros mc more. cbn [words Nat.eqb app opnd_place].
      replace (orl [0x4808; n]) with (4 * 4096 + 4 * 512 + 0 * 64 + (1 * 8 + n)) by (clear -Rn; each_reg n Rn; reflexivity).
      rewrite decode_word by lia.
      change (decode_fields new mc pc 4 0 1 n (word (g_value a / 65536) :: word (g_value a) :: more) 4) with
        (only_if new (Some (Act "LINK" (Some SL) [InA n; Val (signed 32 (word (g_value a / 65536) * 65536 + word (g_value a)))], more))).
      rewrite Nw, two_words, signed_32; [reflexivity|]. pose proof G as (SO & _). apply (now_facts _ _ _ _ _ _ SO (argh_now _ (here m0) a H)).
Qed.
End Handlers.
