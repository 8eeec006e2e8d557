(** Proofs about operands of instructions and what is stored for them. *)
From Coq Require Import ZArith List Bool Lia ZifyBool Permutation.
From Verif Require Import Base BaseFacts Arith ExprSpec ExprModel ExprLayout ExprTree ArithProofs ExprProofs
  ReduceProofs ExprTotal LinkExprModel LinkLayout LinkExprProofs ExprProps ObjWriteModel OptModel SectModel SectSpec SectProofs
  InstrSpec.
Import ListNotations.
Open Scope Z_scope.

Lemma operand_num : forall S cur z, is_s32 z -> operand S cur (Num z) (expr_Const z) z.
Proof.
  intros S cur z H. split; [reflexivity|]. split; [exact H|]. split; [intros ? []|].
  split; [exact I|]. split; [exact I|reflexivity].
Qed.

Lemma operand_s32 : forall S cur t e v, setting_ok S cur -> operand S cur t e v -> is_s32 v.
Proof.
  intros S cur t e v (HF & HE & HP) (B & O & D & K & N & M). exact (meaning_s32 _ _ _ _ HF HE t v O M).
Qed.
Lemma operand_facts : forall S cur t e v, setting_ok S cur -> operand S cur t e v ->
  isNull e = false /\ (expr_IsConstant e = true -> e_v e = v) /\
  (known (s_world S) t -> expr_IsConstant e = true).
Proof.
  intros S cur t e v (HF & HE & HP) (B & O & D & K & N & M).
  destruct (build_ok _ _ _ _ HF HE _ HP _ _ t e v O M B) as (Bf & De & _).
  split; [exact (bf_not_null _ Bf)|]. split.
  - intro C. rewrite (den_const _ _ _ C) in De. congruence.
  - intro Kn. exact (known_const _ _ _ _ _ _ _ Kn B).
Qed.

Lemma operand_bin : forall S cur o t1 t2 e1 e2 a b c, setting_ok S cur ->
  operand S cur t1 e1 a -> operand S cur t2 e2 b -> op_meaning (s_F S) o a b = Some c ->
  (match o with OpDiv | OpMod | OpFdiv => False | _ => True end) ->
  exists e, build2 (s_F S) (s_garbage S) (s_world S) o e1 e2 = Ok e /\ operand S cur (Bin o t1 t2) e c.
Proof.
  intros S cur o t1 t2 e1 e2 a b c (HF & HE & HP) (B1 & O1 & D1 & K1 & N1 & M1) (B2 & O2 & D2 & K2 & N2 & M2) Me No.
  assert (O : term_ok (Bin o t1 t2)) by (split; assumption).
  assert (D : defined (s_world S) (Bin o t1 t2)).
  { intros s I. cbn [values_of] in I. apply in_app_or in I. destruct I; auto. }
  assert (K : divisors_known (s_world S) (Bin o t1 t2)).
  { split; [exact K1|]. split; [exact K2|]. destruct o; tauto. }
  assert (M : meaning (s_F S) (s_env S) (Bin o t1 t2) = Some c) by (cbn [meaning]; rewrite M1, M2; exact Me).
  destruct (build_total _ _ _ _ HF HE _ HP (s_garb S) (s_garbage S) (Bin o t1 t2) c O D K M) as [e B].
  exists e. split.
  - cbn [build] in B. rewrite B1, B2 in B. exact B.
  - split; [exact B|]. split; [exact O|]. split; [exact D|]. split; [exact K|].
    split; [split; assumption|exact M].
Qed.
Lemma operand_pcrel : forall S cur adj t e x c, setting_ok S cur ->
  operand S cur t e x -> is_s32 adj -> ~ paren_head t -> pcrel_meaning x adj (e_pc (s_env S)) = Some c ->
  exists e1, expr_PcRelative (s_F S) cur e adj = Ok e1 /\ operand S cur (PcRel adj t) e1 c.
Proof.
  intros S cur adj t e x c (HF & HE & HP) (B1 & O1 & D1 & K1 & N1 & M1) A Pa Me.
  assert (O : term_ok (PcRel adj t)) by (split; [exact A|]; split; assumption).
  assert (M : meaning (s_F S) (s_env S) (PcRel adj t) = Some c) by (cbn [meaning]; rewrite M1; exact Me).
  destruct (build_total _ _ _ _ HF HE _ HP (s_garb S) (s_garbage S) (PcRel adj t) c O D1 K1 M) as [e1 B].
  exists e1. split.
  - cbn [build] in B. rewrite B1 in B. exact B.
  - repeat (split; [assumption|]). exact M.
Qed.
(** Limits that are met. *)
Definition limited (t : term) (lo hi : Z) : term := Bin OpHighLimit (Bin OpLowLimit t (Num lo)) (Num hi).
Lemma operand_checked : forall S cur t e v lo hi st, setting_ok S cur -> operand S cur t e v ->
  is_s32 lo -> is_s32 hi -> lo <= v <= hi ->
  exists e1, range_checked e lo hi st = Ok (e1, st) /\ operand S cur (limited t lo hi) e1 v.
Proof.
  intros S cur t e v lo hi st SO Op L H R.
  destruct (operand_bin S cur OpLowLimit t (Num lo) e (expr_Const lo) v lo v SO Op (operand_num _ _ _ L)) as (e0 & B0 & O0).
  { cbn. replace (lo <=? v) with true by lia. reflexivity. }
  { exact I. }
  destruct (operand_bin S cur OpHighLimit (Bin OpLowLimit t (Num lo)) (Num hi) e0 (expr_Const hi) v hi v SO O0
              (operand_num _ _ _ H)) as (e1 & B1 & O1).
  { cbn. replace (v <=? hi) with true by lia. reflexivity. }
  { exact I. }
  exists e1. split; [|exact O1]. unfold range_checked, expr_CheckRange.
  destruct (operand_facts _ _ _ _ _ SO Op) as (N & _). rewrite N.
  cbn [build2] in B0, B1. rewrite B0. cbn [bind]. rewrite B1. reflexivity.
Qed.

(** What the linker sees of an operand it also sees of expressions made from it. *)
Definition symbols_within (T t : term) : Prop :=
  incl (values_of T) (values_of t) /\ incl (banks_of T) (banks_of t).
Lemma within_refl : forall t, symbols_within t t.
Proof. intro. split; apply incl_refl. Qed.
Lemma within_num : forall z t, symbols_within (Num z) t.
Proof. intros. split; intros ? []. Qed.
Lemma within_bin : forall o a b t, symbols_within a t -> symbols_within b t -> symbols_within (Bin o a b) t.
Proof. intros o a b t [A1 A2] [B1 B2]. split; cbn [values_of banks_of]; apply incl_app; assumption. Qed.
Lemma within_pcrel : forall n a t, symbols_within a t -> symbols_within (PcRel n a) t.
Proof. intros n a t H. exact H. Qed.
Lemma within_limited : forall a lo hi t, symbols_within a t -> symbols_within (limited a lo hi) t.
Proof. intros. apply within_bin; [apply within_bin; [assumption|]|]; apply within_num. Qed.

Lemma operand_resolves : forall S cur T t e v, setting_ok S cur -> operand S cur T e v -> tdepth T <= 256 ->
  symbols_within T t -> resolves S t e v.
Proof.
  intros S cur T t e v (HF & HE & HP) (B & O & D & K & N & M) De [W1 W2] k a off id c At (L1 & L2 & L3).
  destruct (C07_serialised_expression_keeps_value (s_F S) (s_world S) (s_base S) (s_env S) cur (s_garb S)
              (s_garbage S) T v k a off id c HF HE HP At O D K N De M)
    as (e1 & ov & e' & bs & B1 & R & X & Wr & Ca).
  { split; [exact L1|]. split; intros s I; [apply L2, W1, I|apply L3, W2, I]. }
  rewrite B in B1. injection B1 as <-. exists ov, e', bs. tauto.
Qed.

(** ** Output of an expression *)

Definition sect_OutputExpr (n : nat) : expr -> xstate -> res xstate :=
  match n with 1%nat => sect_OutputExpr8 | 2%nat => sect_OutputExpr16 | _ => sect_OutputExpr32 end.
Definition sizes (n : nat) : Prop := n = 1%nat \/ n = 2%nat \/ n = 4%nat.

Lemma expr_does : forall n e k st m, sizes n -> isNull e = false -> x_wordSize st = 1 ->
  nth_error (x_sections st) k = Some m ->
  does (sect_OutputExpr n e) k st
    (if expr_IsConstant e then number (o_endianness (x_opts st)) n (e_v e) else repeat 0 n)
    (if expr_IsConstant e then [] else [APatch (m_used m) (patch_type (x_opts st) n) e]).
Proof.
  intros n e k st m [->|[->| ->]] Nu W N; unfold does, sect_OutputExpr.
  - unfold sect_OutputExpr8. replace (x_wordSize st >? 1) with false by lia. rewrite Nu.
    destruct (expr_IsConstant e).
    + replace (number (o_endianness (x_opts st)) 1 (e_v e)) with [u8 (e_v e) mod 256].
      * apply const8_does. lia.
      * unfold u8. rewrite Z.mod_mod by lia. destruct (o_endianness (x_opts st)); reflexivity.
    + apply (reloc_does [0]); [exact N|cbn; lia].
  - unfold sect_OutputExpr16. replace (x_wordSize st >? 2) with false by lia. rewrite Nu.
    destruct (expr_IsConstant e).
    + rewrite <- number_mod. apply (const16_does (e_v e mod 256 ^ Z.of_nat 2)). lia.
    + unfold sect_OutputReloc16, patch_type. destruct (o_endianness (x_opts st));
        apply (reloc_does [0; 0]); try exact N; cbn; lia.
  - unfold sect_OutputExpr32. replace (x_wordSize st >? 4) with false by lia. rewrite Nu.
    destruct (expr_IsConstant e).
    + rewrite <- number_mod. apply (const32_does (e_v e mod 256 ^ Z.of_nat 4)). lia.
    + unfold sect_OutputRel32, patch_type. destruct (o_endianness (x_opts st));
        apply (reloc_does [0; 0; 0; 0]); try exact N; cbn; lia.
Qed.

(** A step that appends the cells, given room. *)
Definition appends (S : setting) (f : xstate -> res xstate) (k : nat) (st : xstate) (m : msect)
    (cells : list (nat * term * Z)) : Prop :=
  exists bs ps, written S (x_opts st) (m_used m) cells bs ps /\ does f k st bs ps.
Definition width (cells : list (nat * term * Z)) : Z := sum (map (fun c => Z.of_nat (fst (fst c))) cells).

Lemma written_width : forall S o off cells bs ps, written S o off cells bs ps -> zlen bs = width cells.
Proof.
  intros S o off cells bs ps H. induction H; unfold width in *; cbn [map sum fst].
  - reflexivity.
  - rewrite zlen_app, zlen_number, IHwritten. reflexivity.
  - rewrite zlen_app, zlen_repeat, IHwritten. reflexivity.
Qed.
Lemma appends_emits : forall S f k st m cells, ready st k m (width cells) -> appends S f k st m cells ->
  exists st', f st = Ok st' /\ emits S k st st' cells.
Proof.
  intros S f k st m cells (C & Fi & W & Ro) (bs & ps & Wr & Do).
  destruct (Do m C Fi ltac:(lia)) as [A B].
  destruct B as [st' E]; [rewrite (written_width _ _ _ _ _ _ Wr); exact Ro|].
  exists st'. split; [exact E|]. pose proof (A st' E) as G.
  destruct (grows_current _ _ _ _ _ m G (proj1 (proj2 C))) as (m' & N & D & P & Cc & F & I & _ & U).
  destruct (grows_fields _ _ _ _ _ G) as (_ & Gr & _ & Cu & Er & _ & Sc & St & Ot).
  exists m, m', bs, ps. split; [apply C|]. split; [exact N|]. split; [exact Wr|]. split; [exact D|].
  split; [exact P|]. split.
  { rewrite U. destruct Fi as (_ & _ & _ & -> & _). reflexivity. }
  split; [exact Cc|]. split; [exact F|]. split; [exact I|]. split; [exact Ot|].
  destruct G as (m1 & m2 & _ & G & _). rewrite G. reflexivity.
Qed.
(** Output of an operand. *)
Lemma appends_expr : forall S cur n T t e v k st m, sizes n -> setting_ok S cur -> operand S cur T e v ->
  tdepth T <= 256 -> symbols_within T t -> (known (s_world S) t -> known (s_world S) T) ->
  x_wordSize st = 1 -> nth_error (x_sections st) k = Some m ->
  appends S (sect_OutputExpr n e) k st m [(n, t, v)].
Proof.
  intros S cur n T t e v k st m Si SO Op De Wi Kn W N.
  destruct (operand_facts _ _ _ _ _ SO Op) as (Nu & Co & Kc).
  pose proof (expr_does n e k st m Si Nu W N) as D.
  destruct (expr_IsConstant e) eqn:C.
  - exists (number (o_endianness (x_opts st)) n v), []. split.
    + rewrite <- (app_nil_r (number _ _ _)). apply written_now, written_none.
    + rewrite <- (Co eq_refl). exact D.
  - exists (repeat 0 n), [APatch (m_used m) (patch_type (x_opts st) n) e]. split; [|exact D].
    rewrite <- (app_nil_r (repeat 0 n)). apply written_later; [|exact (operand_resolves _ _ _ _ _ _ SO Op De Wi)|apply written_none].
    intro K. specialize (Kc (Kn K)). discriminate.
Qed.
Lemma appends_const : forall S n f v t k st m, does f k st (number (o_endianness (x_opts st)) n v) [] ->
  appends S f k st m [(n, t, v)].
Proof.
  intros S n f v t k st m D. exists (number (o_endianness (x_opts st)) n v), []. split; [|exact D].
  rewrite <- (app_nil_r (number _ _ _)). apply written_now, written_none.
Qed.
Lemma written_app : forall S o off c1 b1 p1 c2 b2 p2, written S o off c1 b1 p1 ->
  written S o (off + zlen b1) c2 b2 p2 -> written S o off (c1 ++ c2) (b1 ++ b2) (p1 ++ p2).
Proof.
  intros S o off c1 b1 p1 c2 b2 p2 H. revert c2 b2 p2. induction H; intros c2 b2 p2 H2; cbn [app].
  - rewrite Z.add_0_r in H2. exact H2.
  - rewrite <- app_assoc. apply written_now. apply IHwritten.
    rewrite zlen_app, zlen_number in H2. rewrite <- Z.add_assoc. exact H2.
  - rewrite <- app_assoc. apply written_later; [assumption|assumption|]. apply IHwritten.
    rewrite zlen_app, zlen_repeat in H2. rewrite <- Z.add_assoc. exact H2.
Qed.

Lemma emits_app : forall S k st st1 st2 c1 c2, x_wordSize st = 1 ->
  emits S k st st1 c1 -> emits S k st1 st2 c2 -> emits S k st st2 (c1 ++ c2).
Proof.
  intros S k st st1 st2 c1 c2 W (m & m1 & b1 & p1 & N & N1 & Wr & D & P & U & C & F & I & O & E)
    (m1' & m2 & b2 & p2 & N1' & N2 & Wr2 & D2 & P2 & U2 & C2 & F2 & I2 & O2 & E2).
  rewrite N1 in N1'. injection N1' as <-.
  assert (Ow : x_wordSize st1 = x_wordSize st) by (rewrite E; reflexivity).
  assert (Oo : x_opts st1 = x_opts st) by (rewrite E; reflexivity).
  exists m, m2, (b1 ++ b2), (p1 ++ p2). split; [exact N|]. split; [exact N2|]. split.
  { apply written_app; [exact Wr|]. rewrite <- U, <- Oo. exact Wr2. }
  split; [rewrite D2, D, <- app_assoc; reflexivity|].
  split; [rewrite P2, P, <- app_assoc; reflexivity|].
  split; [rewrite U2, U, zlen_app; lia|]. split.
  { rewrite C2, C, Ow, W, !Z.div_1_r, zlen_app. unfold u32. rewrite Zplus_mod_idemp_l. f_equal. lia. }
  split; [exact F2|]. split; [eapply ident_trans; eassumption|]. split.
  { intros j J. rewrite O2, O by exact J. reflexivity. }
  rewrite E2 at 1. rewrite E. reflexivity.
Qed.
Lemma emits_ready : forall S k st st1 m c1 n, ready st k m (width c1 + n) -> emits S k st st1 c1 ->
  exists m1, ready st1 k m1 n /\ m_used m1 = m_used m + width c1.
Proof.
  intros S k st st1 m c1 n ((C1 & C2 & C3) & Fi & W & Ro)
    (m0 & m1 & b1 & p1 & N & N1 & Wr & D & P & U & C & F & I & O & E).
  rewrite C2 in N. injection N as <-. rewrite (written_width _ _ _ _ _ _ Wr) in U.
  exists m1. split; [|exact U]. split.
  - split; [rewrite E; exact C1|]. split; [exact N1|]. destruct I as (_ & -> & _). rewrite E. exact C3.
  - split; [exact F|]. split; [rewrite E; exact W|]. rewrite U. lia.
Qed.

Lemma out_expr : forall S cur n T t e v k st m, sizes n -> setting_ok S cur -> operand S cur T e v ->
  tdepth T <= 256 -> symbols_within T t -> (known (s_world S) t -> known (s_world S) T) ->
  ready st k m (Z.of_nat n) ->
  exists st', sect_OutputExpr n e st = Ok st' /\ emits S k st st' [(n, t, v)].
Proof.
  intros S cur n T t e v k st m Si SO Op De Wi Kn R.
  apply (appends_emits S _ k st m).
  - unfold width. cbn [map sum fst]. rewrite Z.add_0_r. exact R.
  - destruct R as ((_ & N & _) & _ & W & _). eapply appends_expr; eassumption.
Qed.
Lemma out_const8 : forall S v t k st m, ready st k m 1 ->
  exists st', sect_OutputConst8 v st = Ok st' /\ emits S k st st' [(1%nat, t, v)].
Proof.
  intros S v t k st m R. apply (appends_emits S _ k st m); [exact R|]. apply appends_const.
  replace (number (o_endianness (x_opts st)) 1 v) with [v mod 256] by (destruct (o_endianness (x_opts st)); reflexivity).
  apply const8_does. destruct R as (_ & _ & -> & _). lia.
Qed.
Lemma out_const16 : forall S v t k st m, ready st k m 2 ->
  exists st', sect_OutputConst16 v st = Ok st' /\ emits S k st st' [(2%nat, t, v)].
Proof.
  intros S v t k st m R. apply (appends_emits S _ k st m); [exact R|]. apply appends_const.
  apply const16_does. destruct R as (_ & _ & -> & _). lia.
Qed.
Lemma out_const32 : forall S v t k st m, ready st k m 4 ->
  exists st', sect_OutputConst32 v st = Ok st' /\ emits S k st st' [(4%nat, t, v)].
Proof.
  intros S v t k st m R. apply (appends_emits S _ k st m); [exact R|]. apply appends_const.
  apply const32_does. destruct R as (_ & _ & -> & _). lia.
Qed.

(** ** Bit fields *)
Lemma lor_low : forall a b k, 0 <= k -> 0 <= b < 2 ^ k -> Z.lor (a * 2 ^ k) b = a * 2 ^ k + b.
Proof.
  intros a b k K B. symmetry.
  rewrite <- Z.lxor_lor.
  - apply Z.add_nocarry_lxor.
    apply Z.bits_inj'. intros n Hn. rewrite Z.land_spec, Z.bits_0.
    destruct (Z.lt_ge_cases n k) as [L|L].
    + rewrite Z.mul_pow2_bits_low by exact L. reflexivity.
    + rewrite <- (Z.mod_small b (2 ^ k)) by exact B. rewrite Z.mod_pow2_bits_high by lia. apply andb_false_r.
  - apply Z.bits_inj'. intros n Hn. rewrite Z.land_spec, Z.bits_0.
    destruct (Z.lt_ge_cases n k) as [L|L].
    + rewrite Z.mul_pow2_bits_low by exact L. reflexivity.
    + rewrite <- (Z.mod_small b (2 ^ k)) by exact B. rewrite Z.mod_pow2_bits_high by lia. apply andb_false_r.
Qed.
