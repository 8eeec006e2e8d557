(** The bytes of RC811 instructions on their way into a section. *)
From Coq Require Import ZArith List Bool String Lia ZifyBool Permutation.
From Verif Require Import Base BaseFacts Arith ExprSpec ExprModel ExprLayout ArithProofs ExprProofs ObjWriteModel SectModel SectSpec InstrSpec InstrProofs Rc8Model Rc8Spec Rc8Run Rc8Imm.
Import ListNotations.
Open Scope string_scope.
Open Scope list_scope.
Open Scope Z_scope.

(** ** Numbers on their way *)
Section Operands.
Variables (S : setting) (cur : option asect) (t : term).
Hypothesis SO : setting_ok S cur.
Notation F := (s_F S).

(** Expression [e] has value [v] and refers to no more than [t] does. *)
Definition K (n : Z) (e : expr) (v : Z) : Prop :=
  exists T, operand S cur T e v /\ 2 <= n /\ tdepth T <= n /\ symbols_within T t /\ (known (s_world S) t -> known (s_world S) T).
Lemma K_given : forall e v, operand S cur t e v -> tdepth t <= 240 -> K 240 e v.
Proof. intros e v O D. exists t. split; [exact O|]. split; [lia|]. split; [exact D|]. split; [apply within_refl|auto]. Qed.
Lemma K_const : forall n e v, K n e v -> expr_IsConstant e = true -> e_v e = v.
Proof. intros n e v (T & O & _) C. destruct (operand_facts _ _ _ _ _ SO O) as (_ & X & _). exact (X C). Qed.
Lemma K_check : forall n e v l h, K n e v -> is_s32 l -> is_s32 h -> l <= v <= h ->
  exists e1, check_range e l h = Ok (e1, []) /\ K n e1 v /\ expr_IsConstant e1 = expr_IsConstant e.
Proof.
  intros n e v l h (T & O & N2 & D & Wi & Kn) L H B.
  destruct (operand_bin S cur OpLowLimit T (Num l) e (expr_Const l) v l v SO O (operand_num _ _ _ L)) as (e0 & B0 & O0).
  { cbn. replace (l <=? v) with true by lia. reflexivity. }
  { exact Logic.I. }
  destruct (operand_bin S cur OpHighLimit (Bin OpLowLimit T (Num l)) (Num h) e0 (expr_Const h) v h v SO O0
              (operand_num _ _ _ H)) as (e1 & B1 & O1).
  { cbn. replace (v <=? h) with true by lia. reflexivity. }
  { exact Logic.I. }
  destruct (operand_facts _ _ _ _ _ SO O) as (N & _).
  cbn [build2] in B0, B1. exists e1. split; [|split].
  - unfold check_range, expr_CheckRange. rewrite N, B0. cbn [bind]. rewrite B1. reflexivity.
  - exists (limited T l h). split; [exact O1|]. split; [exact N2|]; split; [unfold limited; cbn [tdepth]; lia|].
    split; [apply within_limited, Wi|]. intro Kt. unfold limited. cbn [known]. specialize (Kn Kt). tauto.
  - unfold expr_LowLimit in B0. destruct (isNull e || isNull (expr_Const l)); [discriminate B0|].
    destruct (expr_IsConstant e && expr_IsConstant (expr_Const l) && (e_v e <? e_v (expr_Const l))); [discriminate B0|]. injection B0 as <-.
    unfold expr_HighLimit in B1. cbv zeta in B1. match type of B1 with (if ?c then _ else _) = _ => destruct c; [discriminate B1|] end.
    match type of B1 with (if ?c then _ else _) = _ => destruct c; [discriminate B1|] end. injection B1 as <-.
    cbn [node2 expr_IsConstant expr_Const]. rewrite !andb_true_r. reflexivity.
Qed.
Lemma binary_node : forall o l r e, expr_Binary F o l r = Ok e -> exists v, e = node2 o v l r.
Proof.
  intros o l r e. unfold expr_Binary. destruct (isNull l || isNull r); [discriminate|].
  destruct (build_value F o (e_v l) (e_v r)); [|discriminate|destruct (expr_IsConstant l && expr_IsConstant r); [discriminate|]];
    intro X; injection X as <-; eexists; reflexivity.
Qed.
Lemma K_bin : forall n o e1 a c v, (o = OpAnd \/ o = OpAsl \/ o = OpAsr) -> K n e1 a -> is_s32 c -> op_meaning F o a c = Some v ->
  exists e, bin F o e1 (expr_Const c) = Ok e /\ K n e v /\ expr_IsConstant e = expr_IsConstant e1 /\ isSymbolNode e = false.
Proof.
  intros n o e1 a c v Wo (T & O & N2 & D & Wi & Kn) C M.
  destruct (operand_bin S cur o T (Num c) e1 (expr_Const c) a c v SO O (operand_num _ _ _ C) M) as (e & B & O1).
  { destruct Wo as [->|[->| ->]]; exact Logic.I. }
  assert (B' : expr_Binary F o e1 (expr_Const c) = Ok e) by (destruct Wo as [->|[->| ->]]; exact B).
  exists e. split; [exact B'|]. split.
  - exists (Bin o T (Num c)). split; [exact O1|]. split; [exact N2|]; split; [cbn [tdepth]; lia|]. split; [apply within_bin; [exact Wi|apply within_num]|].
    intro Kt. specialize (Kn Kt). destruct Wo as [->|[->| ->]]; cbn [known]; tauto.
  - destruct (binary_node _ _ _ _ B') as (x & ->). cbn [node2 expr_IsConstant expr_Const]. rewrite andb_true_r. split; reflexivity.
Qed.
Lemma sub_node : forall l r e, isSymbolNode l = false -> expr_Sub F (s_world S) l r = Ok e -> expr_Binary F OpSub l r = Ok e.
Proof.
  intros l r e N. unfold expr_Sub. destruct (expr_Binary F OpSub l r) as [x| |]; cbn [bind]; try discriminate.
  rewrite N, andb_false_r. cbn [andb]. auto.
Qed.
Lemma K_sub : forall n1 n2 e1 e2 a b, K n1 e1 a -> K n2 e2 b -> is_s32 (a - b) -> isSymbolNode e1 = false ->
  exists e, bin F OpSub e1 e2 = Ok e /\ K (Z.max n1 (1 + n2)) e (a - b) /\ expr_IsConstant e = expr_IsConstant e1 && expr_IsConstant e2.
Proof.
  intros n1 n2 e1 e2 a b (T1 & O1 & N1 & D1 & W1 & K1) (T2 & O2 & N2 & D2 & W2 & K2) R Sy.
  destruct (operand_bin S cur OpSub T1 T2 e1 e2 a b (a - b) SO O1 O2) as (e & B & O3).
  { cbn [op_meaning]. unfold inr. unfold is_s32 in R. replace ((- 2 ^ 31 <=? a - b) && (a - b <? 2 ^ 31)) with true by lia. reflexivity. }
  { exact Logic.I. }
  cbn [build2] in B. apply (sub_node _ _ _ Sy) in B.
  exists e. split; [exact B|]. split.
  - exists (Bin OpSub T1 T2). split; [exact O3|]. split; [lia|]. split; [cbn [tdepth]; lia|]. split; [apply within_bin; assumption|].
    intro Kt. cbn [known]. split; auto.
  - destruct (binary_node _ _ _ _ B) as (x & ->). reflexivity.
Qed.
Lemma K_num : forall c, is_s32 c -> K 2 (expr_Const c) c.
Proof.
  intros c C. exists (Num c). split; [apply operand_num, C|]. split; [lia|]. split; [cbn [tdepth]; lia|]. split; [apply within_num|].
  intros _. exact Logic.I.
Qed.
Lemma K_imm : forall n base l h d e v, K n e v -> is_s32 l -> is_s32 h -> l <= v <= h ->
  exists e2, handle_Op_Reg_Imm F base l h d e = Ok (true, [match d with None => Byte base | Some m => opreg base m end; Value e2]) /\ K n e2 (Z.land v 255).
Proof.
  intros n base l h d e v Ke L H B. destruct (K_check _ _ _ _ _ Ke L H B) as (e1 & C & K1 & _).
  destruct (K_bin n OpAnd e1 v 255 (Z.land v 255) (or_introl eq_refl) K1) as (e2 & B2 & K2 & _); [unfold is_s32; lia|reflexivity|].
  exists e2. split; [|exact K2]. unfold handle_Op_Reg_Imm. rewrite C. cbn [bind]. rewrite B2. reflexivity.
Qed.

(** *** Additions to a pair *)
Definition m8 (r : reg) : amode := AMode (Z.shiftl MODE_REG_F (r8 r)) (r8 r) ENull.
Definition m16 (p : pair) : amode := AMode (Z.shiftl MODE_REG_FT (r16 p)) (r16 p) ENull.
Definition item_ok (i : item) (v : Z) : Prop := match i with Byte z => v = z | Value e => K 250 e v | _ => False end.
Lemma item_imm : forall n base l h m e v, K n e v -> n <= 250 -> is_s32 l -> is_s32 h -> l <= v <= h ->
  exists items, handle_Op_Reg_Imm F base l h (Some m) e = Ok (true, items) /\ Forall2 item_ok items [Z.lor base (am_reg m); Z.land v 255].
Proof.
  intros n base l h m e v Ke N L H B. destruct (K_imm _ base _ _ (Some m) _ _ Ke L H B) as (e2 & E & (T & O & N2 & D & X)).
  eexists. split; [exact E|]. constructor; [reflexivity|]. constructor; [|constructor]. exists T. split; [exact O|]. split; [lia|].
  split; [lia|exact X].
Qed.
Definition sixteen (v : Z) : Z := Z.shiftr (s32 (Z.shiftl v 16)) 16.
Definition eight (v : Z) : Z := Z.shiftr (s32 (Z.shiftl v 24)) 24.
Lemma sixteen_is : forall v, sixteen v = (v + 32768) mod 65536 - 32768.
Proof.
  intro v. unfold sixteen. rewrite Z.shiftr_div_pow2, Z.shiftl_mul_pow2 by lia. unfold s32. cbv zeta.
  change (2 ^ 16) with 65536. Z.div_mod_to_equations. lia.
Qed.
Lemma eight_is : forall v, eight v = (v + 128) mod 256 - 128.
Proof.
  intro v. unfold eight. rewrite Z.shiftr_div_pow2, Z.shiftl_mul_pow2 by lia. unfold s32. cbv zeta.
  change (2 ^ 24) with 16777216. Z.div_mod_to_equations. lia.
Qed.
Definition add_pair (p : pair) (e : expr) : outcome :=
  let! (e0, w) := check_range e (-32768) 65535 in
  let! e1 := bin F OpAsl e0 (expr_Const 16) in
  let! e2 := bin F OpAsr e1 (expr_Const 16) in
  if expr_IsConstant e && ((-128 <=? e_v e2) && (e_v e2 <=? 127)) then
    let! (ok, l) := handle_Op_Reg_Imm F 0xBC (-128) 127 (Some (m16 p)) e2 in Ok (ok, w ++ l)
  else
    let! l1 := bin F OpAsl e2 (expr_Const 24) in
    let! l0 := bin F OpAsr l1 (expr_Const 24) in
    let! adjust := bin F OpAsr l0 (expr_Const 8) in
    let! h1 := bin F OpAsr e2 (expr_Const 8) in
    let! h0 := bin F OpSub h1 adjust in
    let! (_, a) := if negb (expr_IsConstant l0) || negb (e_v l0 =? 0) then handle_Op_Reg_Imm F 0xBC (-128) 127 (Some (m16 p)) l0 else no in
    let! (_, b) := if negb (expr_IsConstant h0) || negb (e_v h0 =? 0) then handle_Op_Reg_Imm F 0xA0 (-128) 127 (Some (m8 (hi p))) h0 else no in
    done (w ++ a ++ b).
Lemma add_is : forall p n e, handle_ADD F true (m16 p) (AMode MODE_IMM n e) = add_pair p e.
Proof. intros [] n e; reflexivity. Qed.
Lemma s32_shift : forall v n, 0 <= n -> is_s32 v -> is_s32 (Z.shiftr v n).
Proof.
  intros v n N B. unfold is_s32 in *. rewrite Z.shiftr_div_pow2 by exact N. pose proof (Z.pow_pos_nonneg 2 n ltac:(lia) N).
  split; [apply Z.div_le_lower_bound; nia|]. apply Z.div_lt_upper_bound; nia.
Qed.
Lemma add_pair_good : forall p n e v, K n e v -> n <= 245 -> -0x8000 <= v < 0x7F80 \/ 0x8000 <= v <= 65535 ->
  exists items vs, add_pair p e = Ok (true, items) /\ Forall2 item_ok items vs /\ (List.length vs <= 4)%nat /\ does vs (AddImm16 p v).
Proof.
  intros p n e v Ke N B.
  destruct (K_check _ _ _ (-32768) 65535 Ke) as (e0 & C & K0 & I0); [unfold is_s32; lia|unfold is_s32; lia|lia|].
  destruct (K_bin n OpAsl e0 v 16 (s32 (Z.shiftl v 16)) (or_intror (or_introl eq_refl)) K0) as (e1 & B1 & K1 & I1 & _); [unfold is_s32; lia|reflexivity|].
  destruct (K_bin n OpAsr e1 _ 16 (sixteen v) (or_intror (or_intror eq_refl)) K1) as (e2 & B2 & K2 & I2 & _); [unfold is_s32; lia|reflexivity|].
  pose proof (sixteen_is v) as S16.
  unfold add_pair. rewrite C. cbn [bind]. rewrite B1. cbn [bind]. rewrite B2. cbn [bind].
  destruct (expr_IsConstant e && ((-128 <=? e_v e2) && (e_v e2 <=? 127))) eqn:Q.
  - apply andb_prop in Q. destruct Q as [Q1 Q2]. rewrite (K_const _ _ _ K2) in Q2 by congruence.
    destruct (item_imm n 0xBC (-128) 127 (m16 p) e2 _ K2) as (items & H1 & H2); [lia|unfold is_s32; lia|unfold is_s32; lia|lia|].
    rewrite H1. cbn [bind app]. eexists. eexists. split; [reflexivity|]. split; [exact H2|]. split; [cbn; lia|].
    apply does_small16; [lia|]. rewrite S16. Z.div_mod_to_equations. lia.
  - clear Q.
    destruct (K_bin n OpAsl e2 (sixteen v) 24 (s32 (Z.shiftl (sixteen v) 24)) (or_intror (or_introl eq_refl)) K2) as (l1 & B3 & K3 & I3 & _); [unfold is_s32; lia|reflexivity|].
    destruct (K_bin n OpAsr l1 _ 24 (eight (sixteen v)) (or_intror (or_intror eq_refl)) K3) as (l0 & B4 & K4 & I4 & _); [unfold is_s32; lia|reflexivity|].
    destruct (K_bin n OpAsr l0 _ 8 (Z.shiftr (eight (sixteen v)) 8) (or_intror (or_intror eq_refl)) K4) as (ad & B5 & K5 & I5 & _); [unfold is_s32; lia|reflexivity|].
    destruct (K_bin n OpAsr e2 _ 8 (Z.shiftr (sixteen v) 8) (or_intror (or_intror eq_refl)) K2) as (h1 & B6 & K6 & I6 & Y6); [unfold is_s32; lia|reflexivity|].
    pose proof (eight_is (sixteen v)) as S8. set (x := eight (sixteen v)) in *. set (w := sixteen v) in *.
    assert (Y : exists y, y = Z.shiftr w 8 - Z.shiftr x 8 /\ -128 <= y <= 127 /\ w = 256 * y + x).
    { eexists. split; [reflexivity|]. rewrite !Z.shiftr_div_pow2 by lia. change (2 ^ 8) with 256. clearbody x w. Z.div_mod_to_equations. lia. }
    destruct Y as (y & Ey & By & Ew).
    destruct (K_sub _ _ _ _ _ _ K6 K5) as (h0 & B7 & K7 & I7); [unfold is_s32; lia|exact Y6|]. rewrite <- Ey in K7.
    rewrite B3. cbn [bind]. rewrite B4. cbn [bind]. rewrite B5. cbn [bind]. rewrite B6. cbn [bind]. rewrite B7. cbn [bind].
    destruct (item_imm n 0xBC (-128) 127 (m16 p) l0 _ K4) as (ia & A1 & A2); [lia|unfold is_s32; lia|unfold is_s32; lia|clearbody x w; Z.div_mod_to_equations; lia|].
    destruct (item_imm _ 0xA0 (-128) 127 (m8 (hi p)) h0 _ K7) as (ib & D1 & D2); [lia|unfold is_s32; lia|unfold is_s32; lia|lia|].
    destruct (does_long16 p v x y (v / 65536 - w / 65536)) as (L1 & L2 & L3 & L4).
    { clearbody x w. Z.div_mod_to_equations. lia. } { exact By. } { clearbody x w. Z.div_mod_to_equations. lia. }
    change (am_reg (m16 p)) with (r16 p) in A2. change (am_reg (m8 (hi p))) with (r8 (hi p)) in D2.
    assert (Xz : (negb (expr_IsConstant l0) || negb (e_v l0 =? 0) = true) \/ (negb (expr_IsConstant l0) || negb (e_v l0 =? 0) = false /\ x = 0)).
    { destruct (expr_IsConstant l0) eqn:Cn; [|left; reflexivity]. rewrite (K_const _ _ _ K4 Cn). destruct (Z.eqb_spec x 0); [right; split; [reflexivity|assumption]|left; reflexivity]. }
    assert (Yz : (negb (expr_IsConstant h0) || negb (e_v h0 =? 0) = true) \/ (negb (expr_IsConstant h0) || negb (e_v h0 =? 0) = false /\ y = 0)).
    { destruct (expr_IsConstant h0) eqn:Cn; [|left; reflexivity]. rewrite (K_const _ _ _ K7 Cn). destruct (Z.eqb_spec y 0); [right; split; [reflexivity|assumption]|left; reflexivity]. }
    destruct Xz as [Xz|[Xz X0]]; rewrite Xz; destruct Yz as [Yz|[Yz Y0]]; rewrite Yz; try rewrite A1; try rewrite D1; cbn [bind app no done];
      (eexists; eexists; split; [reflexivity|]).
    + split; [exact (Forall2_app A2 D2)|]. split; [cbn; lia|exact L4].
    + split; [rewrite app_nil_r; exact A2|]. split; [cbn; lia|]. rewrite Y0 in L3. exact L3.
    + split; [exact D2|]. split; [cbn; lia|]. rewrite X0 in L2. exact L2.
    + split; [constructor|]. split; [cbn; lia|]. rewrite X0, Y0 in L1. exact L1.
Qed.

(** *** Loading a pair *)
Lemma high_is : forall p, high (m16 p) = m8 (hi p).
Proof. intros []; reflexivity. Qed.
Lemma low_is : forall p, low (m16 p) = m8 (lo p).
Proof. intros []; reflexivity. Qed.
Lemma has_sign : forall v, 0 <= v < 256 -> has v 0x80 = (128 <=? v).
Proof.
  intros v B. assert (E : forallb (fun n => Bool.eqb (has (Z.of_nat n) 0x80) (128 <=? Z.of_nat n)) (seq 0 256) = true) by (vm_compute; reflexivity).
  rewrite forallb_forall in E. specialize (E (Z.to_nat v)). rewrite Z2Nat.id in E by lia. apply eqb_prop, E. apply in_seq. lia.
Qed.
Lemma load_pair_good : forall p n e v, K n e v -> n <= 245 -> word v ->
  exists items vs, handle_LD_R16_imm F (m16 p) e = Ok (true, items) /\ Forall2 item_ok items vs /\ (List.length vs <= 4)%nat /\ does vs (LdImm16 p v).
Proof.
  intros p n e v Ke N B. unfold word in B.
  destruct (K_check _ _ _ (-32768) 65535 Ke) as (e1 & C & K1 & I1); [unfold is_s32; lia|unfold is_s32; lia|lia|].
  unfold handle_LD_R16_imm. rewrite C. cbn [bind]. rewrite high_is, low_is.
  destruct (expr_IsConstant e1) eqn:Cn.
  - rewrite (K_const _ _ _ K1 Cn). replace (u16 v) with v by (unfold u16; symmetry; apply Z.mod_small; lia). cbv zeta.
    rewrite land255. rewrite Z.shiftr_div_pow2 by lia. change (2 ^ 8) with 256. change (am_reg (m8 (hi p))) with (r8 (hi p)).
    change (am_reg (m8 (lo p))) with (r8 (lo p)). rewrite has_sign by (Z.div_mod_to_equations; lia).
    match goal with |- context [if ?c then _ else _] => destruct c eqn:Q1 end; [|match goal with |- context [if ?c then _ else _] => destruct c eqn:Q2 end].
    + assert (P : p = FT) by (destruct p; [reflexivity|discriminate Q1..]). subst p. eexists. exists [0x81; v mod 256; 0x49].
      split; [reflexivity|]. split; [repeat constructor|]. split; [cbn; lia|]. apply does_ext; [exact B|]. cbn [hi lo r8] in Q1. Z.div_mod_to_equations. lia.
    + assert (P : p = FT) by (destruct p; [reflexivity|discriminate Q2..]). subst p. eexists. exists [0x81; v mod 256; 0x78].
      split; [reflexivity|]. split; [repeat constructor|]. split; [cbn; lia|]. apply does_twice; [exact B|]. cbn [hi lo r8] in Q2. lia.
    + eexists. eexists. split; [reflexivity|]. split; [repeat constructor|]. split; [cbn; lia|].
      pose proof (does_LdImm16 p v B) as D. rewrite !land255 in D. rewrite Z.shiftr_div_pow2 in D by lia. change (2 ^ 8) with 256 in D.
      rewrite mod256_twice in D. rewrite (Z.mod_small (v / 256)) in D by (Z.div_mod_to_equations; lia). exact D.
  - destruct (K_bin n OpAsr e1 v 8 (Z.shiftr v 8) (or_intror (or_intror eq_refl)) K1) as (h & B2 & K2 & _); [unfold is_s32; lia|reflexivity|].
    destruct (K_bin n OpAnd e1 v 255 (Z.land v 255) (or_introl eq_refl) K1) as (l & B3 & K3 & _); [unfold is_s32; lia|reflexivity|].
    rewrite B2. cbn [bind]. rewrite B3. cbn [bind].
    destruct (item_imm n 0x80 0 255 (m8 (hi p)) h _ K2) as (ia & A1 & A2); [lia|unfold is_s32; lia|unfold is_s32; lia
      |rewrite Z.shiftr_div_pow2 by lia; change (2 ^ 8) with 256; Z.div_mod_to_equations; lia|].
    destruct (item_imm n 0x80 0 255 (m8 (lo p)) l _ K3) as (ib & D1 & D2); [lia|unfold is_s32; lia|unfold is_s32; lia
      |rewrite land255; Z.div_mod_to_equations; lia|].
    rewrite A1. cbn [bind]. rewrite D1. cbn [bind app]. eexists. eexists. split; [reflexivity|]. split; [exact (Forall2_app A2 D2)|].
    split; [cbn; lia|]. exact (does_LdImm16 p v B).
Qed.

(** *** Lines *)
Variable target : expr.
Definition ended (rest : list token) (o : outcome) : res (option (list item * list token * bool)) :=
  let! (ok, l) := o in if ok then Ok (Some (l, rest, false)) else Ok (Some (l ++ [Error ERROR_OPERAND], rest, false)).
Notation parse i rest := (rc8_ParseIntegerInstruction F true target (lex (text i) ++ rest)).
Lemma parse_number : forall allowed e e1 rest, has allowed MODE_REGISTER_MASK = false -> has allowed MODE_ADDR = false ->
  has allowed MODE_IMM = true -> check_range e (-32768) 65535 = Ok (e1, []) ->
  parseAddressingMode (TExpr e :: rest) allowed = Ok (Some (AMode MODE_IMM 0 e1, rest), []).
Proof.
  intros allowed e e1 rest A B C D. unfold parseAddressingMode. rewrite A, B, C. cbn [andb]. rewrite D. reflexivity.
Qed.
Lemma parse_two : forall id p r m1 m2 r3 r4, (T_RC8_ADD <=? id) && (id <=? T_RC8_XOR) = true ->
  nth_error (g_Parsers F true) (Z.to_nat (id - T_RC8_ADD)) = Some p -> condition r = Some (CC_ALWAYS, r) ->
  parseAddressingMode r (p_first p) = Ok (Some (m1, TComma :: r3), []) ->
  parseAddressingMode r3 (p_second p) = Ok (Some (m2, r4), []) ->
  rc8_ParseIntegerInstruction F true target (TId id :: r) = ended r4 (p_handler p (p_base p) CC_ALWAYS m1 m2).
Proof.
  intros id p r m1 m2 r3 r4 I N C P1 P2. unfold rc8_ParseIntegerInstruction. rewrite I, N, C, P1. cbn [bind]. rewrite P2. cbn [bind].
  rewrite Z.eqb_refl. cbn [negb]. rewrite andb_false_r. unfold ended. destruct (p_handler p (p_base p) CC_ALWAYS m1 m2) as [[ok l]| |]; cbn [bind]; reflexivity.
Qed.
Ltac parsed C :=
  match goal with |- rc8_ParseIntegerInstruction _ _ _ (?l ++ ?rest) = _ =>
    let x := eval cbv -[app] in l in change l with x; cbn [app] end;
  erewrite parse_two; [|reflexivity|reflexivity|reflexivity|reflexivity|apply parse_number; [reflexivity..|exact C]];
  try reflexivity.
Lemma parse_LdImm : forall r e e1 rest, check_range e (-32768) 65535 = Ok (e1, []) ->
  parse (LdImm r e) rest = ended rest (handle_Op_Reg_Imm F 0x80 (-128) 255 (Some (m8 r)) e1).
Proof. intros r e e1 rest C; destruct r; parsed C. Qed.
Lemma parse_LdImm16 : forall p e e1 rest, check_range e (-32768) 65535 = Ok (e1, []) ->
  parse (LdImm16 p e) rest = ended rest (handle_LD_R16_imm F (m16 p) e1).
Proof. intros p e e1 rest C; destruct p; parsed C. Qed.
Lemma parse_AddImm : forall r e e1 rest, check_range e (-32768) 65535 = Ok (e1, []) ->
  parse (AddImm r e) rest = ended rest (handle_Op_Reg_Imm F 0xA0 (-128) 255 (Some (m8 r)) e1).
Proof. intros r e e1 rest C; destruct r; parsed C. Qed.
Lemma parse_AddImm16 : forall p e e1 rest, check_range e (-32768) 65535 = Ok (e1, []) ->
  parse (AddImm16 p e) rest = ended rest (add_pair p e1).
Proof. intros p e e1 rest C; destruct p; parsed C. Qed.
Lemma parse_SubImm : forall r e e1 rest, check_range e (-32768) 65535 = Ok (e1, []) ->
  parse (SubImm r e) rest =
  ended rest (let! e2 := bin F OpSub (expr_Const 0) e1 in handle_Op_Reg_Imm F 0xA0 (-128) 255 (Some (m8 r)) e2).
Proof. intros r e e1 rest C; destruct r; parsed C. Qed.
Lemma parse_SubImm16 : forall p e e1 rest, check_range e (-32768) 65535 = Ok (e1, []) ->
  parse (SubImm16 p e) rest = ended rest (let! e2 := bin F OpSub (expr_Const 0) e1 in add_pair p e2).
Proof. intros p e e1 rest C; destruct p; parsed C. Qed.
Lemma parse_LogicImm : forall l e e1 rest, check_range e (-32768) 65535 = Ok (e1, []) ->
  parse (LogicImm l e) rest =
  ended rest (handle_Op_Reg_Imm F (match l with Or => 0xB0 | And => 0xB1 | Xor => 0xB2 end) (-128) 255 None e1).
Proof. intros l e e1 rest C; destruct l; parsed C. Qed.

Definition fine (i : instr expr) (j : instr Z) (rest : list token) : Prop :=
  exists items vs, parse i rest = Ok (Some (items, rest, false)) /\ Forall2 item_ok items vs /\ (List.length vs <= 8)%nat /\ does vs j.
Lemma number_fine : forall i a rest, operand_of i = Some a -> t = g_term a ->
  operand S cur (g_term a) (g_expr a) (g_value a) -> tdepth (g_term a) <= 240 -> valid (imap g_value i) ->
  fine (imap g_expr i) (imap g_value i) rest.
Proof.
  intros i a rest Oa Et O D V. rewrite <- Et in O, D. pose proof (K_given _ _ O D) as Ka.
  destruct i; try discriminate Oa; injection Oa as ->; cbn [imap valid] in V |- *;
    (destruct (K_check _ _ _ (-32768) 65535 Ka) as (e1 & C & K1 & I1); [unfold is_s32; lia|unfold is_s32; lia|lia|]).
  - destruct (item_imm _ 0x80 (-128) 255 (m8 r) e1 _ K1) as (items & A1 & A2); [lia|unfold is_s32; lia|unfold is_s32; lia|exact V|].
    exists items. eexists. split; [rewrite (parse_LdImm _ _ _ _ C), A1; reflexivity|]. split; [exact A2|]. split; [cbn; lia|apply does_LdImm].
  - destruct (item_imm _ 0xA0 (-128) 255 (m8 r) e1 _ K1) as (items & A1 & A2); [lia|unfold is_s32; lia|unfold is_s32; lia|exact V|].
    exists items. eexists. split; [rewrite (parse_AddImm _ _ _ _ C), A1; reflexivity|]. split; [exact A2|]. split; [cbn; lia|apply does_AddImm].
  - destruct (K_sub _ _ _ _ _ _ (K_num 0 ltac:(unfold is_s32; lia)) K1) as (e2 & B2 & K2 & _); [unfold is_s32; lia|reflexivity|].
    destruct (item_imm _ 0xA0 (-128) 255 (m8 r) e2 _ K2) as (items & A1 & A2); [lia|unfold is_s32; lia|unfold is_s32; lia|lia|].
    exists items. eexists. split; [rewrite (parse_SubImm _ _ _ _ C), B2; cbn [bind]; rewrite A1; reflexivity|]. split; [exact A2|]. split; [cbn; lia|].
    exact (does_AddImm r (0 - g_value a)).
  - destruct (K_imm _ (match l with Or => 0xB0 | And => 0xB1 | Xor => 0xB2 end) (-128) 255 None e1 _ K1) as (e2 & A1 & (T & X1 & X2 & X3 & X4));
      [unfold is_s32; lia|unfold is_s32; lia|exact V|].
    eexists. eexists. split; [rewrite (parse_LogicImm _ _ _ _ C), A1; reflexivity|].
    split; [constructor; [reflexivity|]; constructor; [|constructor]; exists T; split; [exact X1|]; split; [lia|]; split; [lia|exact X4]|].
    split; [cbn; lia|apply does_LogicImm].
  - destruct (load_pair_good p _ e1 _ K1) as (items & vs & A1 & A2 & A3 & A4); [lia|unfold word; lia|].
    exists items, vs. split; [rewrite (parse_LdImm16 _ _ _ _ C), A1; reflexivity|]. split; [exact A2|]. split; [lia|exact A4].
  - destruct (add_pair_good p _ e1 _ K1) as (items & vs & A1 & A2 & A3 & A4); [lia|lia|].
    exists items, vs. split; [rewrite (parse_AddImm16 _ _ _ _ C), A1; reflexivity|]. split; [exact A2|]. split; [lia|exact A4].
  - destruct (K_sub _ _ _ _ _ _ (K_num 0 ltac:(unfold is_s32; lia)) K1) as (e2 & B2 & K2 & _); [unfold is_s32; lia|reflexivity|].
    destruct (add_pair_good p _ e2 _ K2) as (items & vs & A1 & A2 & A3 & A4); [lia|lia|].
    exists items, vs. split; [rewrite (parse_SubImm16 _ _ _ _ C), B2; cbn [bind]; rewrite A1; reflexivity|]. split; [exact A2|]. split; [lia|exact A4].
Qed.
Lemma plain_fine : forall i rest, operand_of i = None -> valid (imap g_value i) -> ends rest ->
  fine (imap g_expr i) (imap g_value i) rest.
Proof.
  intros i rest N V E. assert (G : good F target (imap g_expr i) (imap g_value i)).
  2:{ destruct G as (bs & R & L & D). exists (map Byte bs), bs. split; [exact (R rest E)|]. split; [|split; assumption].
      clear. induction bs; constructor; [reflexivity|assumption]. }
  destruct i; try discriminate N; cbn [imap] in V |- *.
  - apply g_Nop.
  - apply g_LdT, V.
  - apply g_LdR, V.
  - apply g_LdFT, V.
  - apply g_LdP, V.
  - apply g_Get, V.
  - apply g_Put, V.
  - apply g_GetR, V.
  - apply g_PutR, V.
  - apply g_GetW, V.
  - apply g_PutW, V.
  - apply g_GetP, V.
  - apply g_PutP, V.
  - apply g_Exg, V.
  - apply g_ExgR, V.
  - apply g_ExgP, V.
  - apply g_ExgPP, V.
  - apply g_AddT.
  - apply g_SubT, V.
  - apply g_AddFT, V.
  - apply g_SubFT, V.
  - apply g_Logic, V.
  - apply g_NotF.
  - apply g_NotT.
  - apply g_NotFT.
  - apply g_NegT.
  - apply g_NegFT.
  - apply g_Push, V.
  - apply g_Pop, V.
  - apply g_Swap, V.
Qed.

(** ** Into the section *)
Definition cells (vs : list Z) : list (nat * term * Z) := map (fun v => (1%nat, t, v)) vs.
Lemma emits_nil : forall st k m, ready st k m 0 -> emits S k st st [].
Proof.
  intros st k m ((C1 & C2 & C3) & Fi & W & Ro). exists m, m, [], [].
  split; [exact C2|]. split; [exact C2|]. split; [constructor|]. split; [rewrite app_nil_r; reflexivity|].
  split; [rewrite app_nil_r; apply Permutation_refl|]. change (zlen (@nil Z)) with 0. split; [lia|].
  rewrite W. change (0 / 1) with 0. split; [destruct Fi as (U & _); unfold is_u32 in U; unfold u32; rewrite Z.add_0_r; symmetry; apply Z.mod_small; lia|].
  split; [exact Fi|]. split; [repeat split; reflexivity|]. split; [reflexivity|]. destruct st; reflexivity.
Qed.
Lemma performs : forall items vs st k m, Forall2 item_ok items vs -> ready st k m (Z.of_nat (List.length vs)) ->
  exists st', perform F items st = Ok st' /\ emits S k st st' (cells vs).
Proof.
  induction items as [|i items IH]; intros vs st k m H R; inversion H as [|? v ? vs' Hi Hr]; subst.
  - exists st. split; [reflexivity|]. apply (emits_nil st k m). exact R.
  - assert (One : exists st1, match i with
                  | Byte z => sect_OutputConst8 z st
                  | Value e => sect_OutputExpr8 e st
                  | Relative e => let! e1 := expr_PcRelative F (sect_Current st) e 0 in
                                  let! (e2, st2) := range_checked e1 (-128) 127 st in sect_OutputExpr8 e2 st2
                  | Error n => Ok (err_Error n st)
                  end = Ok st1 /\ emits S k st st1 [(1%nat, t, v)]).
    { assert (R1 : ready st k m 1) by (destruct R as (R1 & R2 & R3 & R4); split; [exact R1|]; split; [exact R2|]; split; [exact R3|]; cbn [List.length] in R4; lia).
      destruct i as [z|e|e|e]; cbn [item_ok] in Hi; try contradiction.
      - subst v. exact (out_const8 S z t k st m R1).
      - destruct Hi as (T & O & _ & D & Wi & Kn).
        apply (out_expr S cur 1 T t e v k st m); [unfold sizes; auto|exact SO|exact O|lia|exact Wi|exact Kn|exact R1]. }
    destruct One as (st1 & E1 & M1).
    destruct (emits_ready S k st st1 m [(1%nat, t, v)] (Z.of_nat (List.length vs'))) as (m1 & R1 & _); [|exact M1|].
    { replace (width [(1%nat, t, v)] + Z.of_nat (List.length vs')) with (Z.of_nat (List.length (v :: vs'))); [exact R|].
      change (width [(1%nat, t, v)]) with 1. cbn [List.length]. lia. }
    destruct (IH vs' st1 k m1 Hr R1) as (st' & P & M2). exists st'. split.
    + cbn [perform]. rewrite E1. exact P.
    + apply (emits_app S k st st1 st' [(1%nat, t, v)] (cells vs')); [destruct R as (_ & _ & W & _); exact W|exact M1|exact M2].
Qed.
End Operands.

Theorem assembled : forall S target i st k m rest, ready st k m 8 -> setting_ok S (here m) ->
  args_known S (here m) i -> valid (imap g_value i) -> ends rest ->
  exists vs st',
    rc8_ParseInstruction (s_F S) true target (lex (text (imap g_expr i)) ++ rest) st = Ok (Some (false, rest, st')) /\
    emits S k st st' (map (fun v => (1%nat, term_of i, v)) vs) /\ (List.length vs <= 8)%nat /\ does vs (imap g_value i).
Proof.
  intros S target i st k m rest R SO A V E.
  assert (Fi : fine S (here m) (term_of i) target (imap g_expr i) (imap g_value i) rest).
  { destruct (operand_of i) as [a|] eqn:Oa.
    - destruct (A a Oa) as (O & D). apply (number_fine S (here m) (term_of i) SO target i a rest Oa); [unfold term_of; rewrite Oa; reflexivity|exact O|exact D|exact V].
    - apply plain_fine; assumption. }
  destruct Fi as (items & vs & P & I & L & D).
  destruct (performs S (here m) (term_of i) SO items vs st k m I) as (st' & P1 & M1).
  { destruct R as (R1 & R2 & R3 & R4). split; [exact R1|]. split; [exact R2|]. split; [exact R3|]. lia. }
  exists vs, st'. split; [|split; [exact M1|split; [exact L|exact D]]].
  unfold rc8_ParseInstruction. rewrite P. cbn [bind]. rewrite P1. reflexivity.
Qed.
