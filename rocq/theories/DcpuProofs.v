(** Proofs about the DCPU-16 instruction parser. *)
From Coq Require Import ZArith List Bool Lia ZifyBool Permutation String.
From Verif Require Import Base BaseFacts Arith ExprSpec ExprModel ExprLayout ExprTree ArithProofs ExprProofs
  ReduceProofs ExprTotal LinkExprModel LinkLayout LinkExprProofs ObjWriteModel OptModel SectModel SectSpec SectProofs
  InstrSpec InstrProofs.
From Verif Require X65Spec X65Proofs.
From Verif Require Import DcpuModel DcpuSpec.
Import ListNotations.
Open Scope string_scope.
Open Scope list_scope.
Open Scope Z_scope.
Notation moved := X65Spec.moved.
Notation source_term := X65Spec.source_term.

(** ** Output of words *)
Lemma emits_out : forall S f k st m cells, ready2 st k m (width cells) -> appends S f k st m cells ->
  exists st', f st = Ok st' /\ emits S k st st' cells.
Proof.
  intros S f k st m cells (C & Fi & W & Ro) (bs & ps & Wr & Do).
  destruct (Do m C Fi ltac:(lia)) as [A B].
  destruct B as [st' E]; [rewrite (written_width _ _ _ _ _ _ Wr); exact Ro|].
  exists st'. split; [exact E|]. pose proof (A st' E) as G.
  destruct (grows_current _ _ _ _ _ m G (proj1 (proj2 C))) as (m' & N & D & P & Cc & F & I & _ & U).
  destruct (grows_fields _ _ _ _ _ G) as (_ & Gr & _ & Cu & Er & _ & Sc & St & Ot).
  exists m, m', bs, ps. split; [apply C|]. split; [exact N|]. split; [exact Wr|]. split; [exact D|].
  split; [exact P|]. split.
  { rewrite U. destruct Fi as (_ & _ & _ & -> & _). reflexivity. }
  split; [exact Cc|]. split; [exact F|]. split; [exact I|]. split; [exact Ot|].
  destruct G as (m1 & m2 & _ & G & _). rewrite G. reflexivity.
Qed.
Lemma emits_app2 : forall S k st st1 st2 c1 c2, x_wordSize st = 2 -> (2 | width c1) ->
  emits S k st st1 c1 -> emits S k st1 st2 c2 -> emits S k st st2 (c1 ++ c2).
Proof.
  intros S k st st1 st2 c1 c2 W Ev (m & m1 & b1 & p1 & N & N1 & Wr & D & P & U & C & F & I & O & E)
    (m1' & m2 & b2 & p2 & N1' & N2 & Wr2 & D2 & P2 & U2 & C2 & F2 & I2 & O2 & E2).
  rewrite N1 in N1'. injection N1' as <-.
  assert (Ow : x_wordSize st1 = x_wordSize st) by (rewrite E; reflexivity).
  assert (Oo : x_opts st1 = x_opts st) by (rewrite E; reflexivity).
  exists m, m2, (b1 ++ b2), (p1 ++ p2). split; [exact N|]. split; [exact N2|]. split.
  { apply written_app; [exact Wr|]. rewrite <- U, <- Oo. exact Wr2. }
  split; [rewrite D2, D, <- app_assoc; reflexivity|].
  split; [rewrite P2, P, <- app_assoc; reflexivity|].
  split; [rewrite U2, U, zlen_app; lia|]. split.
  { rewrite C2, C, Ow, W, zlen_app, (written_width _ _ _ _ _ _ Wr). destruct Ev as (q & ->).
    rewrite (Z.add_comm (q * 2)), Z.div_add by lia. rewrite Z.div_mul by lia.
    unfold u32. rewrite Zplus_mod_idemp_l. f_equal. lia. }
  split; [exact F2|]. split; [eapply ident_trans; eassumption|]. split.
  { intros j J. rewrite O2, O by exact J. reflexivity. }
  rewrite E2 at 1. rewrite E. reflexivity.
Qed.
Lemma emits_ready2 : forall S k st st1 m c1 n, ready2 st k m (width c1 + n) -> emits S k st st1 c1 ->
  exists m1, ready2 st1 k m1 n.
Proof.
  intros S k st st1 m c1 n ((C1 & C2 & C3) & Fi & W & Ro)
    (m0 & m1 & b1 & p1 & N & N1 & Wr & D & P & U & C & F & I & O & E).
  rewrite C2 in N. injection N as <-. rewrite (written_width _ _ _ _ _ _ Wr) in U.
  exists m1. split.
  - split; [rewrite E; exact C1|]. split; [exact N1|]. destruct I as (_ & -> & _). rewrite E. exact C3.
  - split; [exact F|]. split; [rewrite E; exact W|]. rewrite U. lia.
Qed.
Lemma ready2_less : forall st k m n n', ready2 st k m n -> n' <= n -> ready2 st k m n'.
Proof. intros st k m n n' (A & B & C & D) L. repeat (split; [assumption|]). lia. Qed.

(** An expression on its way to the section. *)
Definition carries (S : setting) (t : term) (e : expr) (v : Z) : Prop :=
  exists T, operand S None T e v /\ tdepth T <= 256 /\ symbols_within T t /\ (known (s_world S) t -> known (s_world S) T) /\ source_term T.
Lemma setting_moved : forall d S, setting_ok S None -> setting_ok (moved d S) None.
Proof. intros d S (A & B & C). split; [exact A|]. split; [exact B|exact I]. Qed.
Lemma carries_moved : forall d S t e v, carries S t e v -> carries (moved d S) t e v.
Proof.
  intros d S t e v (T & O & D & W & K & So). exists T. split; [apply (X65Proofs.operand_moved S None None d T e v So O)|].
  split; [exact D|]. split; [exact W|]. split; [exact K|exact So].
Qed.
Lemma expr_does2 : forall e k st m, isNull e = false -> x_wordSize st = 2 ->
  nth_error (x_sections st) k = Some m ->
  does (sect_OutputExpr16 e) k st
    (if expr_IsConstant e then number (o_endianness (x_opts st)) 2 (e_v e) else repeat 0 2)
    (if expr_IsConstant e then [] else [APatch (m_used m) (patch_type (x_opts st) 2) e]).
Proof.
  intros e k st m Nu W N. unfold does, sect_OutputExpr16. replace (x_wordSize st >? 2) with false by lia. rewrite Nu.
  destruct (expr_IsConstant e).
  - rewrite <- number_mod. apply (const16_does (e_v e mod 256 ^ Z.of_nat 2)). lia.
  - unfold sect_OutputReloc16, patch_type. destruct (o_endianness (x_opts st));
      apply (reloc_does [0; 0]); try exact N; cbn; lia.
Qed.
Lemma word_out : forall S t e v k st m, setting_ok S None -> carries S t e v -> ready2 st k m 2 ->
  exists st', sect_OutputExpr16 e st = Ok st' /\ appended S k st st' [word_cell t v].
Proof.
  intros S t e v k st m SO Ca R.
  assert (G : forall d, exists st', sect_OutputExpr16 e st = Ok st' /\ emits (moved d S) k st st' [word_cell t v]).
  { intro d. destruct (carries_moved d _ _ _ _ Ca) as (T & Op & De & Wi & Kn & So).
    apply (emits_out _ _ k st m); [exact R|]. destruct R as ((_ & N & _) & _ & W & _).
    destruct (operand_facts _ _ _ _ _ (setting_moved d S SO) Op) as (Nu & Co & Kc).
    pose proof (expr_does2 e k st m Nu W N) as D. destruct (expr_IsConstant e) eqn:C.
    - exists (number (o_endianness (x_opts st)) 2 v), []. split.
      + rewrite <- (app_nil_r (number _ _ _)). apply written_now, written_none.
      + rewrite <- (Co eq_refl). exact D.
    - exists (repeat 0 2), [APatch (m_used m) (patch_type (x_opts st) 2) e]. split; [|exact D].
      rewrite <- (app_nil_r (repeat 0 2)).
      apply written_later; [|exact (operand_resolves _ _ _ _ _ _ (setting_moved d S SO) Op De Wi)|apply written_none].
      intro K. specialize (Kc (Kn K)). discriminate. }
  destruct (G 0) as (st' & E & _). exists st'. split; [exact E|]. intro d. destruct (G d) as (st2 & E2 & Em). congruence.
Qed.
Lemma const_out : forall S v k st m, ready2 st k m 2 ->
  exists st', sect_OutputConst16 v st = Ok st' /\ appended S k st st' [code_cell v].
Proof.
  intros S v k st m R.
  assert (G : forall d, exists st', sect_OutputConst16 v st = Ok st' /\ emits (moved d S) k st st' [code_cell v]).
  { intro d. apply (emits_out _ _ k st m); [exact R|]. apply appends_const. apply const16_does. destruct R as (_ & _ & -> & _). lia. }
  destruct (G 0) as (st' & E & _). exists st'. split; [exact E|]. intro d. destruct (G d) as (st2 & E2 & Em). congruence.
Qed.
Lemma appended_app : forall S k st st1 st2 c1 c2, x_wordSize st = 2 -> (2 | width c1) ->
  appended S k st st1 c1 -> appended S k st1 st2 c2 -> appended S k st st2 (c1 ++ c2).
Proof. intros S k st st1 st2 c1 c2 W Ev A B d. exact (emits_app2 _ _ _ _ _ _ _ W Ev (A d) (B d)). Qed.
Lemma appended_ready : forall S k st st1 m c1 n, ready2 st k m (width c1 + n) -> appended S k st st1 c1 ->
  exists m1, ready2 st1 k m1 n.
Proof. intros S k st st1 m c1 n R A. exact (emits_ready2 _ _ _ _ _ _ _ R (A 0)). Qed.
(** The word after the instruction word. *)
Definition addr_cells (S : setting) (a : addr) (l : list (nat * term * Z)) : Prop :=
  (a = NoAddr /\ l = []) \/ exists t e v, a = Addr e /\ l = [word_cell t v] /\ carries S t e v.
Lemma addr_width : forall S a l, addr_cells S a l -> (2 | width l) /\ 0 <= width l <= 2.
Proof.
  intros S a l [(_ & ->)|(t & e & v & _ & -> & _)]; (split; [|split; discriminate]).
  - exists 0. reflexivity.
  - exists 1. reflexivity.
Qed.
Lemma addr_out : forall S a l k st m, setting_ok S None -> addr_cells S a l -> ready2 st k m 2 ->
  exists st', outputAddr a st = Ok st' /\ appended S k st st' l.
Proof.
  intros S a l k st m SO [(-> & ->)|(t & e & v & -> & -> & Ca)] R; cbn [outputAddr].
  - exists st. split; [reflexivity|]. intro d. destruct (emits_out (moved d S) Ok k st m []) as (st' & E & Em).
    + apply (ready2_less _ _ _ _ _ R). discriminate.
    + exists [], []. split; [apply written_none|apply does_nil].
    + injection E as <-. exact Em.
  - exact (word_out S t e v k st m SO Ca R).
Qed.
Lemma generic_out : forall S m1 m2 data l1 l2 k st m, setting_ok S None ->
  addr_cells S (am_addr m1) l1 -> addr_cells S (am_addr m2) l2 ->
  0 <= data < 16 -> 0 <= am_mode m1 < 64 -> 0 <= am_mode m2 < 64 -> ready2 st k m 6 ->
  exists st', genericInstr m1 m2 data st = Ok st' /\
    appended S k st st' (code_cell (data + 16 * am_mode m1 + 1024 * am_mode m2) :: l1 ++ l2).
Proof.
  intros S m1 m2 data l1 l2 k st m SO A1 A2 Rd R1 R2 R. unfold genericInstr.
  assert (Ew : u16 (Z.lor (Z.lor (Z.shiftl (am_mode m2) 10) (Z.shiftl (am_mode m1) 4)) data) =
    data + 16 * am_mode m1 + 1024 * am_mode m2).
  { rewrite !Z.shiftl_mul_pow2 by lia. rewrite <- Z.lor_assoc. rewrite (lor_low (am_mode m1) data 4) by lia.
    rewrite (lor_low (am_mode m2)) by lia. unfold u16. rewrite Z.mod_small by lia. lia. }
  rewrite Ew. destruct (const_out S (data + 16 * am_mode m1 + 1024 * am_mode m2) k st m) as (st1 & E1 & Em1); [apply (ready2_less _ _ _ _ _ R); lia|].
  rewrite E1. cbn [bind]. destruct (appended_ready S k st st1 m [code_cell (data + 16 * am_mode m1 + 1024 * am_mode m2)] 4 R Em1) as (q1 & Q1).
  destruct (addr_width _ _ _ A1) as (V1 & B1). destruct (addr_width _ _ _ A2) as (V2 & B2).
  destruct (addr_out S _ _ k st1 q1 SO A1 (ready2_less st1 k q1 4 2 Q1 ltac:(lia))) as (st2 & E2 & Em2). rewrite E2. cbn [bind].
  destruct (appended_ready S k st1 st2 q1 l1 2) with (2 := Em2) as (q2 & Q2); [apply (ready2_less _ _ _ _ _ Q1); lia|].
  destruct (addr_out S _ _ k st2 q2 SO A2 Q2) as (st3 & E3 & Em3). exists st3. split; [exact E3|].
  apply (appended_app S k st st1 st3 [code_cell _]); [apply R|exists 1; reflexivity|exact Em1|].
  apply (appended_app S k st1 st2 st3); [apply Q1|exact V1|exact Em2|exact Em3].
Qed.
Lemma jsr_out : forall S m1 l1 k st m, setting_ok S None -> addr_cells S (am_addr m1) l1 ->
  0 <= am_mode m1 < 64 -> ready2 st k m 4 ->
  exists st', jsrInstr m1 1 st = Ok st' /\ appended S k st st' (code_cell (16 + 1024 * am_mode m1) :: l1).
Proof.
  intros S m1 l1 k st m SO A1 R1 R. unfold jsrInstr.
  assert (Ew : u16 (Z.lor (Z.shiftl 1 4) (Z.shiftl (am_mode m1) 10)) = 16 + 1024 * am_mode m1).
  { rewrite !Z.shiftl_mul_pow2 by lia. rewrite Z.lor_comm. rewrite (lor_low (am_mode m1)) by lia. unfold u16. rewrite Z.mod_small by lia. lia. }
  rewrite Ew. destruct (const_out S (16 + 1024 * am_mode m1) k st m) as (st1 & E1 & Em1); [apply (ready2_less _ _ _ _ _ R); lia|].
  rewrite E1. cbn [bind]. destruct (appended_ready S k st st1 m [code_cell (16 + 1024 * am_mode m1)] 2 R Em1) as (q1 & Q1).
  destruct (addr_out S _ _ k st1 q1 SO A1 Q1) as (st2 & E2 & Em2). exists st2. split; [exact E2|].
  apply (appended_app S k st st1 st2 [code_cell _]); [apply R|exists 1; reflexivity|exact Em1|exact Em2].
Qed.

(** ** Operands *)
Lemma carries_arg : forall S a, operand S None (g_term a) (g_expr a) (g_value a) -> source_term (g_term a) ->
  tdepth (g_term a) <= 240 -> carries S (g_term a) (g_expr a) (g_value a).
Proof. intros S a O So D. exists (g_term a). split; [exact O|]. split; [lia|]. split; [apply within_refl|]. split; [tauto|exact So]. Qed.
Lemma checked_word : forall S T e v st, setting_ok S None -> operand S None T e v -> source_term T -> tdepth T <= 241 -> fits16 v ->
  exists e1, expressionCheckSU16 (s_F S) e st = Ok (e1, st) /\ carries S T e1 (v mod 65536).
Proof.
  intros S T e v st SO O So D Fi. unfold expressionCheckSU16.
  destruct (operand_checked S None T e v (-32768) 65535 st SO O) as (e1 & E1 & O1); try (unfold is_s32, fits16 in *; lia).
  rewrite E1. cbn [bind].
  destruct (operand_bin S None OpAnd _ (Num 0xFFFF) e1 (expr_Const 0xFFFF) v 0xFFFF (v mod 65536) SO O1) as (e2 & E2 & O2).
  { apply operand_num. unfold is_s32. lia. }
  { cbn [op_meaning]. f_equal. change 0xFFFF with (Z.ones 16). rewrite Z.land_ones by lia. reflexivity. }
  { exact I. }
  change (build2 (s_F S) (s_garbage S) (s_world S) OpAnd e1 (expr_Const 0xFFFF)) with (expr_Binary (s_F S) OpAnd e1 (expr_Const 0xFFFF)) in E2.
  rewrite E2. cbn [bind]. exists e2. split; [reflexivity|]. eexists. split; [exact O2|].
  split; [cbn [tdepth limited]; lia|]. split; [apply within_bin; [apply within_limited, within_refl|apply within_num]|].
  split; [cbn; tauto|]. cbn. tauto.
Qed.
Lemma checked_address : forall S T e v st, setting_ok S None -> operand S None T e v -> source_term T -> tdepth T <= 240 -> 0 <= v <= 65535 ->
  exists e1, expressionCheckU16 e st = Ok (e1, st) /\ carries S T e1 v.
Proof.
  intros S T e v st SO O So D Fi. unfold expressionCheckU16.
  destruct (operand_checked S None T e v 0 65535 st SO O) as (e1 & E1 & O1); try (unfold is_s32 in *; lia).
  exists e1. split; [exact E1|]. eexists. split; [exact O1|].
  split; [cbn [tdepth limited]; lia|]. split; [apply within_limited, within_refl|]. split; [cbn; tauto|]. cbn. tauto.
Qed.
Lemma all_allowed : forall mode, 0 <= mode < 32 -> allows ADDRF_ALL mode = true.
Proof.
  intros mode R. assert (H : forallb (allows ADDRF_ALL) (map Z.of_nat (seq 0 32)) = true) by (vm_compute; reflexivity).
  rewrite forallb_forall in H. apply H. apply in_map_iff. exists (Z.to_nat mode). split; [lia|]. apply in_seq. lia.
Qed.
Lemma reg_token : forall r, lex1 (Word (reg_name r)) = TId (T_REG_A + reg_number r) /\ 0 <= reg_number r <= 7.
Proof. intros []; (split; [vm_compute; reflexivity|cbn; lia]). Qed.
Lemma comp_reg : forall r ts, indirectComponent (TId (T_REG_A + reg_number r) :: ts) = Ok (Some (CReg (reg_number r), ts)).
Proof. intros [] ts; reflexivity. Qed.
Definition no_minus (ts : list token) : Prop := match ts with TMinus :: _ => False | _ => True end.
Lemma comp_expr : forall e t ts, no_minus ts -> indirectComponent (TExpr e t :: ts) = Ok (Some (CExpr e, ts)).
Proof. intros e t [|[] ts] N; try reflexivity. destruct N. Qed.
(** The rest of the text does not continue the operand. *)
Definition over (ts : list token) : Prop := match ts with [] | TOther :: _ | TComma :: _ => True | _ => False end.
Lemma over_minus : forall ts, over ts -> no_minus ts.
Proof. intros [|[] ts] H; exact H || exact I. Qed.

Definition mode_of (S : setting) (optimize : bool) (f : form arg) (m : amode) : Prop :=
  am_mode m = bits optimize f /\ addr_cells S (am_addr m) (words optimize f) /\
  (forall n, f = Lit n -> short optimize n = false -> am_addr m = Addr (g_expr n)).
Ltac okay := first [exact eq_refl | lia].
Ltac regtok r := destruct (reg_token r) as (?Et & ?Rr).
Lemma addressed : forall S optimize f rest st, setting_ok S None -> numbers_known S f -> fits f -> well_named f ->
  (forall s, f = Special s -> s <> "[--SP]") -> over rest ->
  exists m, addressingMode (s_F S) (s_world S) optimize ADDRF_ALL (lex (text f) ++ rest) st = Ok (Some m, rest, st) /\ mode_of S optimize f m.
Proof.
  intros S optimize f rest st SO Kn Fi Wn Ns Ov.
  destruct f as [r|r|r n|n r|n r n2|s|n|n]; cbn [text lex map app].
  - regtok r. rewrite Et. unfold addressingMode.
    replace ((T_REG_A <=? T_REG_A + reg_number r) && (T_REG_A + reg_number r <=? T_REG_J)) with true by (unfold T_REG_A, T_REG_J; lia).
    replace (ADDR_A + (T_REG_A + reg_number r - T_REG_A)) with (reg_number r) by (unfold ADDR_A; lia).
    rewrite all_allowed by lia. eexists. split; [reflexivity|]. split; [reflexivity|]. split; [left; split; reflexivity|]. intros ? H; discriminate H.
  - regtok r. rewrite Et. unfold addressingMode, indirectAddressing. rewrite comp_reg. cbn [bind indirectLoop List.length parse_ExpectRb].
    cbn [bind lex1 parse_ExpectRb].
    rewrite all_allowed by (unfold ADDR_A_IND; lia). cbn [bind]. eexists. split; [reflexivity|]. split; [reflexivity|]. split; [left; split; reflexivity|]. intros ? H; discriminate H.
  - regtok r. rewrite Et. destruct (Kn n (or_introl eq_refl)) as (O & So & De).
    unfold addressingMode, indirectAddressing. rewrite comp_reg. cbn [bind List.length number_text lex1].
    cbn [indirectLoop]. unfold indirectAdd. rewrite comp_expr by exact I. cbn [bind indirectLoop parse_ExpectRb].
    rewrite all_allowed by (unfold ADDR_A_OFFSET_IND; lia).
    destruct (checked_word S _ _ _ st SO O So ltac:(lia) Fi) as (e1 & E1 & Ca). rewrite E1. cbn [bind].
    eexists. split; [reflexivity|]. split; [reflexivity|]. split; [|intros ? H; discriminate H]. right. exists (g_term n), e1, (g_value n mod 65536). auto.
  - regtok r. rewrite Et. destruct (Kn n (or_introl eq_refl)) as (O & So & De).
    unfold addressingMode, indirectAddressing. cbn [number_text lex1]. rewrite comp_expr by exact I. cbn [bind List.length].
    cbn [indirectLoop]. unfold indirectAdd. rewrite comp_reg. cbn [bind indirectLoop parse_ExpectRb].
    rewrite all_allowed by (unfold ADDR_A_OFFSET_IND; lia).
    destruct (checked_word S _ _ _ st SO O So ltac:(lia) Fi) as (e1 & E1 & Ca). rewrite E1. cbn [bind].
    eexists. split; [reflexivity|]. split; [reflexivity|]. split; [|intros ? H; discriminate H]. right. exists (g_term n), e1, (g_value n mod 65536). auto.
  - regtok r. rewrite Et. destruct (Kn n (or_introl eq_refl)) as (O & So & De). destruct (Kn n2 (or_intror (or_introl eq_refl))) as (O2 & So2 & De2).
    cbn [fits] in Fi.
    destruct (operand_bin S None OpAdd _ _ _ _ _ _ (g_value n + g_value n2) SO O O2) as (e & E & Oe).
    { cbn [op_meaning]. apply inr_of. unfold fits16 in Fi. unfold is_s32. lia. }
    { exact I. }
    change (build2 (s_F S) (s_garbage S) (s_world S) OpAdd (g_expr n) (g_expr n2)) with (expr_Binary (s_F S) OpAdd (g_expr n) (g_expr n2)) in E.
    unfold addressingMode, indirectAddressing. cbn [number_text lex1]. rewrite comp_expr by exact I. cbn [bind List.length].
    cbn [indirectLoop]. unfold indirectAdd at 1. rewrite comp_reg. cbn [bind indirectLoop]. unfold indirectAdd. rewrite comp_expr by exact I.
    cbn [bind]. rewrite E. cbn [bind indirectLoop parse_ExpectRb].
    rewrite all_allowed by (unfold ADDR_A_OFFSET_IND; lia).
    destruct (checked_word S _ _ _ st SO Oe (conj So So2) ltac:(cbn [tdepth]; lia) Fi) as (e1 & E1 & Ca). rewrite E1. cbn [bind].
    eexists. split; [reflexivity|]. split; [reflexivity|]. split; [|intros ? H; discriminate H]. right. exists (Bin OpAdd (g_term n) (g_term n2)), e1, ((g_value n + g_value n2) mod 65536). auto.
  - specialize (Ns s eq_refl). cbn [well_named] in Wn. unfold addressingMode.
    assert (G : exists c, lex1 (Word s) = TId (T_REG_POP + c) /\ 0 <= c <= 5 /\ special_code s specials = ADDR_POP + c).
    { cbn [specials map fst In] in Wn. repeat (destruct Wn as [<-|Wn]); try destruct Wn; try (exfalso; apply Ns; reflexivity);
        [exists 0|exists 0|exists 1|exists 1|exists 2|exists 3|exists 4|exists 5]; (split; [vm_compute; reflexivity|split; [lia|vm_compute; reflexivity]]). }
    destruct G as (c & -> & Rc & Sc).
    replace ((T_REG_A <=? T_REG_POP + c) && (T_REG_POP + c <=? T_REG_J)) with false by (unfold T_REG_A, T_REG_POP, T_REG_J; lia).
    replace ((T_REG_POP <=? T_REG_POP + c) && (T_REG_POP + c <=? T_REG_O)) with true by (unfold T_REG_O, T_REG_POP; lia).
    replace (ADDR_POP + (T_REG_POP + c - T_REG_POP)) with (ADDR_POP + c) by lia.
    rewrite all_allowed by (unfold ADDR_POP; lia). eexists. split; [reflexivity|].
    split; [cbn [am_mode bits]; congruence|]. split; [left; split; reflexivity|]. intros ? H; discriminate H.
  - destruct (Kn n (or_introl eq_refl)) as (O & So & De). cbn [fits] in Fi.
    unfold addressingMode, indirectAddressing. cbn [number_text lex1]. rewrite comp_expr by exact I. cbn [bind List.length].
    cbn [indirectLoop]. cbn [bind parse_ExpectRb].
    rewrite all_allowed by (unfold ADDR_ADDRESS_IND; lia).
    destruct (checked_address S _ _ _ st SO O So ltac:(lia) Fi) as (e1 & E1 & Ca). rewrite E1. cbn [bind].
    eexists. split; [reflexivity|]. split; [reflexivity|]. split; [|intros ? H; discriminate H]. right. exists (g_term n), e1, (g_value n). auto.
  - destruct (Kn n (or_introl eq_refl)) as (O & So & De). cbn [fits] in Fi.
    destruct (operand_facts _ _ _ _ _ SO O) as (Nu & Co & _).
    assert (Pe : parse_Expression (TExpr (g_expr n) (g_tail n) :: rest) = Ok (Some (g_expr n, rest))).
    { pose proof (over_minus _ Ov) as Nm. destruct rest as [|[] rest]; try reflexivity. destruct Nm. }
    unfold addressingMode, indirectAddressing. cbn [number_text lex1 bind]. rewrite Pe. cbn [bind].
    change (negb (Z.land ADDRF_ALL ADDRF_LITERAL =? 0)) with true. cbn [bind].
    assert (Sh : optimizeAddressingMode optimize (AMode ADDR_LITERAL (Addr (g_expr n))) =
      if short optimize n then AMode (ADDR_LITERAL_00 + g_value n mod 65536) NoAddr else AMode ADDR_LITERAL (Addr (g_expr n))).
    { unfold optimizeAddressingMode, short, known_now. destruct optimize; [|reflexivity]. cbn [am_mode am_addr isConst addrValue].
      change (ADDR_LITERAL =? ADDR_LITERAL) with true. cbn [andb].
      destruct (expr_IsConstant (g_expr n)) eqn:C.
      - rewrite (Co eq_refl). unfold u16. change (2 ^ 16) with 65536. change 0x1F with 31. cbn [andb].
        destruct (g_value n mod 65536 <=? 31); cbn [am_mode am_addr isConst addrValue].
        + rewrite andb_false_r. reflexivity.
        + change (ADDR_LITERAL <=? ADDR_J_OFFSET_IND) with false. rewrite andb_false_r. reflexivity.
      - cbn [andb am_mode am_addr]. change (ADDR_LITERAL <=? ADDR_J_OFFSET_IND) with false. rewrite andb_false_r. reflexivity. }
    rewrite Sh. eexists. split; [reflexivity|]. unfold mode_of. cbn [bits words].
    destruct (short optimize n) eqn:Shn.
    + split; [reflexivity|]. split; [left; split; reflexivity|]. intros n0 H0 H1. injection H0 as <-. congruence.
    + split; [reflexivity|]. split; [|intros n0 H0 H1; injection H0 as <-; reflexivity]. right. exists (g_term n), (g_expr n), (g_value n).
      split; [reflexivity|]. split; [reflexivity|]. exact (carries_arg S n O So De).
Qed.
Lemma bits_range : forall optimize f, well_named f -> 0 <= bits optimize f < 64.
Proof.
  intros optimize f Wn. destruct f as [r|r|r n|n r|n r n2|s|n|n]; cbn [bits]; try (destruct r; cbn; lia); try lia.
  - cbn [well_named specials map fst In] in Wn. repeat (destruct Wn as [<-|Wn]); try destruct Wn; vm_compute; split; congruence.
  - unfold short. pose proof (Z.mod_pos_bound (g_value n) 65536 ltac:(lia)). destruct (optimize && known_now n && (g_value n mod 65536 <=? 31)) eqn:E; lia.
Qed.
Lemma ends_over : forall rest, ends rest -> over rest.
Proof. intros [|[] rest] H; exact H || exact I. Qed.
(** The second operand is not one that is rewritten. *)
Lemma not_negated : forall S optimize b m, setting_ok S None -> numbers_known S b -> mode_of S optimize b m ->
  match b with Lit n => known_now n && (0xFFE1 <=? g_value n mod 65536) | _ => false end && optimize = false -> well_named b ->
  (optimize && (am_mode m =? ADDR_LITERAL) && isConst (am_addr m) && (Z.land (u32 (addrValue (am_addr m))) 0xFFFF >=? 0xFFE1)) = false.
Proof.
  intros S optimize b m SO Kn (Mo & _ & Li) Nf Wn. destruct optimize; [|reflexivity]. rewrite andb_true_r in Nf. cbn [andb].
  destruct (am_mode m =? ADDR_LITERAL) eqn:El; [|reflexivity]. apply Z.eqb_eq in El. rewrite El in Mo. unfold ADDR_LITERAL in Mo. cbn [andb].
  destruct b as [r|r|r n|n r|n r n2|s|n|n]; cbn [bits] in Mo; try (destruct r; cbn in Mo; lia); try lia.
  - cbn [well_named specials map fst In] in Wn. repeat (destruct Wn as [<-|Wn]); try destruct Wn; discriminate Mo.
  - destruct (short true n) eqn:Sh.
    + unfold short in Sh. pose proof (Z.mod_pos_bound (g_value n) 65536 ltac:(lia)). lia.
    + rewrite (Li n eq_refl Sh). cbn [isConst addrValue]. unfold known_now in Nf. destruct (expr_IsConstant (g_expr n)) eqn:C; [|reflexivity].
      cbn [andb] in *. destruct (Kn n (or_introl eq_refl)) as (O & _). destruct (operand_facts _ _ _ _ _ SO O) as (_ & Co & _).
      rewrite (Co C). unfold u32. change 0xFFFF with (Z.ones 16). rewrite Z.land_ones by lia. change (2 ^ 16) with 65536.
      rewrite <- (Znumtheory.Zmod_div_mod 65536 (2 ^ 32) (g_value n)) by first [lia | exists 65536; reflexivity]. lia.
Qed.

Lemma basic_handler : forall name op, In (name, op) basic ->
  exists t p, lex1 (Word name) = TId t /\ (T_DCPU16_ADD <=? translateToken t) && (translateToken t <=? T_DCPU16_XOR) = true /\
    nth_error g_instructionHandlers (Z.to_nat (translateToken t - T_DCPU16_ADD)) = Some (op, p, ADDRF_ALL, ADDRF_ALL) /\
    ((p = Generic) \/ (p = Add /\ name = "ADD" /\ op = 2) \/ (p = Sub /\ name = "SUB" /\ op = 3)) /\ 0 <= op < 16.
Proof.
  intros name op H. unfold basic in H.
  repeat (destruct H as [H|H]; [injection H as <- <-; eexists; eexists; split; [vm_compute; reflexivity|]; split; [reflexivity|];
    split; [reflexivity|]; split; [tauto|lia]|]). destruct H.
Qed.
Lemma not_pre : forall (f : form arg) s, match f with Special s => String.eqb s "[--SP]" | _ => false end = false -> f = Special s -> s <> "[--SP]".
Proof. intros f s H -> ->. discriminate H. Qed.
Lemma encoded : forall S k st m optimize name op a b rest,
  ready2 st k m 6 -> setting_ok S None -> numbers_known S a -> numbers_known S b -> In (name, op) basic ->
  well_named a -> well_named b -> fits a -> fits b -> faulty optimize name a b = false -> ends rest ->
  exists st', x10c_ParseInstruction (s_F S) (s_world S) optimize (lex (Word name :: text a ++ Comma :: text b) ++ rest) st = Ok (true, rest, st') /\
    appended S k st st' (basic_encoding optimize op a b).
Proof.
  intros S k st m optimize name op a b rest R SO Ka Kb Ib Wa Wb Fa Fb Nf En.
  unfold faulty in Nf. apply orb_false_elim in Nf. destruct Nf as (Nf & Nn). apply orb_false_elim in Nf. destruct Nf as (Na & Nb).
  destruct (basic_handler _ _ Ib) as (t & p & Et & Ra & Nt & Pp & Ro).
  assert (El : lex (Word name :: text a ++ Comma :: text b) ++ rest = TId t :: lex (text a) ++ TComma :: lex (text b) ++ rest).
  { unfold lex. cbn [map]. rewrite Et, map_app. cbn [map lex1 app]. rewrite <- app_assoc. reflexivity. }
  rewrite El. unfold x10c_ParseInstruction. rewrite Ra, Nt.
  destruct (addressed S optimize a (TComma :: lex (text b) ++ rest) st SO Ka Fa Wa (fun s => not_pre a s Na) I) as (m1 & E1 & M1). rewrite E1. cbn [bind].
  change (negb (ADDRF_ALL =? 0)) with true. cbn [parse_ExpectComma].
  destruct (addressed S optimize b rest st SO Kb Fb Wb (fun s => not_pre b s Nb) (ends_over _ En)) as (m2 & E2 & M2). rewrite E2. cbn [bind].
  assert (Ge : exists st', run optimize p m1 m2 op st = Ok st' /\ appended S k st st' (basic_encoding optimize op a b)).
  { assert (G : exists st', genericInstr m1 m2 op st = Ok st' /\ appended S k st st' (basic_encoding optimize op a b)).
    { unfold basic_encoding. rewrite <- (proj1 M1), <- (proj1 M2).
      apply (generic_out S m1 m2 op _ _ k st m SO (proj1 (proj2 M1)) (proj1 (proj2 M2)) Ro);
        [rewrite (proj1 M1); apply bits_range, Wa|rewrite (proj1 M2); apply bits_range, Wb|exact R]. }
    destruct Pp as [->|[(-> & Hn & Ho)|(-> & Hn & Ho)]]; cbn [run]; [exact G| |];
      unfold addSubInstr; rewrite (not_negated S optimize b m2 SO Kb M2); try exact Wb; try (rewrite Ho in G; rewrite Ho; exact G);
      rewrite Hn in Nn; change (String.eqb "ADD" "ADD" || String.eqb "ADD" "SUB") with true in Nn;
      change (String.eqb "SUB" "ADD" || String.eqb "SUB" "SUB") with true in Nn; cbn [andb] in Nn; rewrite andb_comm; exact Nn. }
  destruct Ge as (st' & Er & Em). rewrite Er. cbn [bind]. exists st'. split; [reflexivity|exact Em].
Qed.
Lemma encoded_jsr : forall S k st m optimize a rest,
  ready2 st k m 4 -> setting_ok S None -> numbers_known S a -> well_named a -> fits a -> faulty optimize "JSR" a a = false -> ends rest ->
  exists st', x10c_ParseInstruction (s_F S) (s_world S) optimize (lex (Word "JSR" :: text a) ++ rest) st = Ok (true, rest, st') /\
    appended S k st st' (jsr_encoding optimize a).
Proof.
  intros S k st m optimize a rest R SO Ka Wa Fa Nf En.
  unfold faulty in Nf. apply orb_false_elim in Nf. destruct Nf as (Nf & _). apply orb_false_elim in Nf. destruct Nf as (Na & _).
  change (lex (Word "JSR" :: text a) ++ rest) with (TId 6008 :: lex (text a) ++ rest).
  unfold x10c_ParseInstruction. change ((T_DCPU16_ADD <=? translateToken 6008) && (translateToken 6008 <=? T_DCPU16_XOR)) with true.
  change (nth_error g_instructionHandlers (Z.to_nat (translateToken 6008 - T_DCPU16_ADD))) with (Some (1, Jsr, ADDRF_ALL, 0)).
  cbn iota beta.
  destruct (addressed S optimize a rest st SO Ka Fa Wa (fun s => not_pre a s Na) (ends_over _ En)) as (m1 & E1 & M1). rewrite E1. cbn [bind].
  change (negb (0 =? 0)) with false. cbn [run].
  destruct (jsr_out S m1 _ k st m SO (proj1 (proj2 M1))) as (st' & Er & Em); [rewrite (proj1 M1); apply bits_range, Wa|exact R|].
  rewrite Er. cbn [bind]. exists st'. split; [reflexivity|]. unfold jsr_encoding. rewrite <- (proj1 M1). exact Em.
Qed.
