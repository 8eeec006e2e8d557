(** Proofs about expressions in links that leave the sections without addresses. *)
From Coq Require Import ZArith List Bool Lia ZifyBool.
From Verif Require Import Base BaseFacts Arith ExprSpec ExprModel LinkExprModel ExprLayout ExprTree ArithProofs
  ExprProofs ReduceProofs LinkExprProofs RelocSpec.
Import ListNotations.
Open Scope Z_scope.

Section Reloc.
Variable F : fmath.
Variable E : env.
Variable c : linkctx.
Variable id : nat -> Z.
Variable addr : nat -> Z.
Hypothesis HF : fmath_ok F.
Hypothesis HS : forall s, is_s32 (e_sym E s).
Hypothesis HB : forall s, is_s32 (e_bank E s).

Lemma meaning_32 : forall t v, term_ok t -> meaning F E t = Some v -> is_s32 v.
Proof.
  induction t; cbn [term_ok meaning]; intros v O M.
  - injection M as <-. exact O.
  - injection M as <-. apply HS.
  - injection M as <-. apply HB.
  - auto.
  - destruct (meaning F E t); [|discriminate]. eapply un_meaning_s32; eauto.
  - destruct O as [O1 O2]. destruct (meaning F E t1) as [a|]; [|discriminate]. destruct (meaning F E t2) as [b|]; [|discriminate].
    eapply op_meaning_s32; [exact HF| | |exact M]; auto.
  - destruct (meaning F E t); [|discriminate]. unfold pcrel_meaning in M.
    destruct (inr (z + adjustment)); [|discriminate]. destruct (inr (adjustment - e_pc E)); [|discriminate].
    apply inr_s32 in M. apply M.
Qed.

Definition stands (e : entry) (v : Z) : Prop := entry_value addr e = Some v.
Lemma push_inv : forall e st r, push e st = Ok r -> r = e :: st /\ zlen (e :: st) <= 256.
Proof.
  intros e st r H. unfold push, STACKSIZE in H. destruct (zlen st >=? 256) eqn:C; [discriminate|]. injection H as <-.
  split; [reflexivity|]. rewrite zlen_cons. lia.
Qed.

Lemma calc_reloc : forall t v, term_ok t -> coded t -> tidy t -> loaded c id addr E t -> meaning F E t = Some v ->
  forall rest st r, calc F c (object_code id t ++ rest) st = Ok r ->
  exists e, stands e v /\ (values_of t = [] -> en_symbol e = None) /\ (plain t -> en_symbol e = None \/ en_value e = 0) /\
    zlen (e :: st) <= 256 /\ calc F c rest (e :: st) = Ok r.
Proof.
  induction t as [z|s|s|t IH|o t IH|o t1 IH1 t2 IH2|adj t IH]; intros v O CD T L M rest st r H; cbn [object_code] in H.
  - injection M as <-. cbn [term_ok] in O. destruct (word_le32 (u32 z) (u32_range _)) as (a & b & d & e & HW & HV).
    rewrite HW in H. cbn [app calc] in H. change (30 =? 30) with true in H. cbv iota in H. rewrite HV, s32_u32, s32_id in H by assumption.
    destruct (pushInt z st) as [st'| |] eqn:P; try discriminate. apply push_inv in P as [-> P]. cbn [bind] in H.
    exists (Entry None z). split; [reflexivity|]. split; [reflexivity|]. split; [intros []|]. split; [exact P|exact H].
  - injection M as <-. destruct (word_le32 (u32 (id s)) (u32_range _)) as (a & b & d & e & HW & HV).
    rewrite HW in H. cbn [app calc] in H. change (31 =? 30) with false in H. change (31 =? 31) with true in H. cbv iota in H. rewrite HV in H.
    destruct L as (L1 & _). destruct (L1 s (or_introl eq_refl)) as (y & Y & AY). unfold push_symbol in H. rewrite Y in H. cbn [bind] in H.
    unfold address_of in AY. destruct (v_placed y) eqn:PL.
    + injection AY as AY. destruct (pushInt (v_value y) st) as [st'| |] eqn:P; try discriminate. apply push_inv in P as [-> P]. cbn [bind] in H.
      exists (Entry None (v_value y)). split; [unfold stands, entry_value; cbn; congruence|]. split; [reflexivity|]. split; [left; reflexivity|]. split; [exact P|exact H].
    + destruct (v_section y) as [k|] eqn:SY; [|discriminate]. injection AY as AY.
      destruct (push (Entry (Some y) 0) st) as [st'| |] eqn:P; try discriminate. apply push_inv in P as [-> P]. cbn [bind] in H.
      exists (Entry (Some y) 0). split; [unfold stands, entry_value; cbn; rewrite SY; f_equal; lia|]. split; [discriminate|].
      split; [right; reflexivity|]. split; [exact P|exact H].
  - injection M as <-. destruct (word_le32 (u32 (id s)) (u32_range _)) as (a & b & d & e & HW & HV).
    rewrite HW in H. cbn [app calc] in H. change (33 =? 30) with false in H. change (33 =? 31) with false in H. change (33 =? 33) with true in H. cbv iota in H. rewrite HV in H.
    destruct L as (_ & L2 & _). rewrite (L2 s (or_introl eq_refl)) in H. cbn [bind] in H.
    destruct (pushInt (e_bank E s) st) as [st'| |] eqn:P; try discriminate. apply push_inv in P as [-> P]. cbn [bind] in H.
    exists (Entry None (e_bank E s)). split; [reflexivity|]. split; [reflexivity|]. split; [intros []|]. split; [exact P|exact H].
  - exact (IH v O CD T L M rest st r H).
  - cbn [term_ok coded tidy meaning] in *. destruct CD as [NB CD]. destruct (meaning F E t) as [x|] eqn:MT; [|discriminate].
    rewrite <- app_assoc in H. destruct (IH x O CD T L eq_refl _ st r H) as (e & S1 & S2 & _ & S4 & S5).
    assert (OC : exists b, op_code o = Some b /\ un o = true /\ b <> 30 /\ b <> 31 /\ b <> 33).
    { destruct o; try discriminate M; try congruence; (eexists; split; [reflexivity|]; split; [reflexivity|]; lia). }
    destruct OC as (b & OC & UO & B1 & B2 & B3). rewrite OC in S5. cbn [app] in S5. rewrite calc_step in S5 by assumption.
    destruct e as [[y|] z].
    + exfalso. assert (SE : step F c b (Entry (Some y) z :: st) = Err) by (destruct o; try discriminate OC; try discriminate UO; injection OC as <-; reflexivity).
      rewrite SE in S5. discriminate.
    + assert (z = x) by (unfold stands, entry_value in S1; cbn in S1; congruence). subst z. rewrite zlen_cons in S4.
      rewrite (step_unary F c o b x v st UO OC M ltac:(lia)) in S5. cbn [bind] in S5.
      exists (Entry None v). split; [reflexivity|]. split; [reflexivity|]. split; [intros []|]. split; [rewrite zlen_cons; lia|exact S5].
  - cbn [term_ok coded tidy meaning] in *. destruct O as [O1 O2]. destruct CD as [C1 C2]. destruct T as (T1 & T2 & T3).
    destruct (meaning F E t1) as [x|] eqn:M1; [|discriminate]. destruct (meaning F E t2) as [y|] eqn:M2; [|discriminate].
    assert (L12 : loaded c id addr E t1 /\ loaded c id addr E t2).
    { destruct L as (L1 & L2 & L3). unfold loaded. split; (split; [|split; [|exact L3]]); intros s Hs.
      - apply L1; cbn; apply in_or_app; auto.
      - apply L2; cbn; apply in_or_app; auto.
      - apply L1; cbn; apply in_or_app; auto.
      - apply L2; cbn; apply in_or_app; auto. }
    destruct L12 as [L1 L2]. rewrite <- !app_assoc in H.
    destruct (IH1 x O1 C1 T1 L1 eq_refl _ st r H) as (e1 & P1 & P2 & P3 & P4 & P5).
    destruct (IH2 y O2 C2 T2 L2 eq_refl _ (e1 :: st) r P5) as (e2 & Q1 & Q2 & Q3 & Q4 & Q5). clear H P5.
    pose proof (meaning_32 _ _ O1 M1) as X32. pose proof (meaning_32 _ _ O2 M2) as Y32.
    assert (OC : exists b, op_code o = Some b /\ un o = false /\ o <> OpBank /\ b <> 30 /\ b <> 31 /\ b <> 33).
    { destruct o; try discriminate M; (eexists; split; [reflexivity|]; split; [reflexivity|]; split; [discriminate|]; lia). }
    destruct OC as (b & OC & UO & NBK & B1 & B2 & B3). rewrite OC in Q5. cbn [app] in Q5. rewrite calc_step in Q5 by assumption.
    assert (VN : values_of (Bin o t1 t2) = [] -> values_of t1 = [] /\ values_of t2 = []) by (cbn; intros X; apply app_eq_nil in X; exact X).
    rewrite !zlen_cons in Q4. pose proof (zlen_nonneg _ st).
    destruct e1 as [[y1|] z1], e2 as [[y2|] z2].
    + (* two relocatable values: only a difference *)
      assert (SO : o = OpSub).
      { destruct o; try discriminate OC; try discriminate UO; try congruence; injection OC as <-; cbn in Q5; discriminate Q5. }
      subst o. injection OC as <-. destruct (T3 eq_refl) as [V|[V|[PL1 PL2]]]; [specialize (P2 V); discriminate P2|specialize (Q2 V); discriminate Q2|].
      destruct (P3 PL1) as [X|X]; [discriminate X|]. destruct (Q3 PL2) as [Y|Y]; [discriminate Y|]. cbn in X, Y. subst z1 z2.
      cbn [step op_sub popIntPair popInt bind en_symbol] in Q5. unfold same_section in Q5. unfold stands, entry_value in P1, Q1. cbn in P1, Q1.
      destruct (v_section y1) as [k1|]; [|discriminate]. destruct (v_section y2) as [k2|]; [|discriminate].
      destruct (Nat.eqb k1 k2) eqn:K; [|discriminate]. apply Nat.eqb_eq in K. subst k2.
      cbn [op_meaning] in M. apply inr_s32 in M as [M ->].
      assert (CS : c_sub (v_value y1) (v_value y2) = Ok (x - y)).
      { injection P1 as P1. injection Q1 as Q1. unfold c_sub, chk. replace (v_value y1 - v_value y2) with (x - y) by lia.
        unfold is_s32 in M. replace ((- 2 ^ 31 <=? x - y) && (x - y <? 2 ^ 31)) with true by lia. reflexivity. }
      rewrite CS in Q5. cbn [bind] in Q5. destruct (pushInt (x - y) st) as [st'| |] eqn:P; try discriminate. apply push_inv in P as [-> P]. cbn [bind] in Q5.
      exists (Entry None (x - y)). split; [reflexivity|]. split; [reflexivity|]. split; [intros []|]. split; [exact P|exact Q5].
    + (* a relocatable value and a number *)
      unfold stands, entry_value in P1, Q1. cbn in P1, Q1. destruct (v_section y1) as [k1|] eqn:SK; [|discriminate]. injection P1 as P1. injection Q1 as Q1.
      assert (SO : o = OpSub \/ o = OpAdd).
      { destruct o; try discriminate OC; try discriminate UO; try congruence; auto; injection OC as <-; cbn in Q5; discriminate Q5. }
      destruct SO as [-> | ->]; injection OC as <-; cbn [step op_sub op_add popIntPair popInt bind en_symbol en_value] in Q5;
        cbn [op_meaning] in M; apply inr_s32 in M as [M ->].
      * unfold c_sub, chk in Q5. destruct ((- 2 ^ 31 <=? z1 - z2) && (z1 - z2 <? 2 ^ 31)); [|discriminate]. cbn [bind] in Q5.
        destruct (push (Entry (Some y1) (z1 - z2)) st) as [st'| |] eqn:P; try discriminate. apply push_inv in P as [-> P]. cbn [bind] in Q5.
        exists (Entry (Some y1) (z1 - z2)). split; [unfold stands, entry_value; cbn; rewrite SK; f_equal; lia|].
        split; [intros V; apply VN in V as [V _]; specialize (P2 V); discriminate P2|]. split; [intros []|]. split; [exact P|exact Q5].
      * unfold c_add, chk in Q5. destruct ((- 2 ^ 31 <=? z1 + z2) && (z1 + z2 <? 2 ^ 31)); [|discriminate]. cbn [bind] in Q5.
        destruct (push (Entry (Some y1) (z1 + z2)) st) as [st'| |] eqn:P; try discriminate. apply push_inv in P as [-> P]. cbn [bind] in Q5.
        exists (Entry (Some y1) (z1 + z2)). split; [unfold stands, entry_value; cbn; rewrite SK; f_equal; lia|].
        split; [intros V; apply VN in V as [V _]; specialize (P2 V); discriminate P2|]. split; [intros []|]. split; [exact P|exact Q5].
    + unfold stands, entry_value in P1, Q1. cbn in P1, Q1. destruct (v_section y2) as [k2|] eqn:SK; [|discriminate]. injection P1 as P1. injection Q1 as Q1.
      assert (SO : o = OpAdd).
      { destruct o; try discriminate OC; try discriminate UO; try congruence; auto; injection OC as <-; cbn in Q5; discriminate Q5. }
      subst o. injection OC as <-. cbn [step op_add popIntPair popInt bind en_symbol en_value] in Q5.
      cbn [op_meaning] in M. apply inr_s32 in M as [M ->].
      unfold c_add, chk in Q5. destruct ((- 2 ^ 31 <=? z1 + z2) && (z1 + z2 <? 2 ^ 31)); [|discriminate]. cbn [bind] in Q5.
      destruct (push (Entry (Some y2) (z1 + z2)) st) as [st'| |] eqn:P; try discriminate. apply push_inv in P as [-> P]. cbn [bind] in Q5.
      exists (Entry (Some y2) (z1 + z2)). split; [unfold stands, entry_value; cbn; rewrite SK; f_equal; lia|].
      split; [intros V; apply VN in V as [_ V]; specialize (Q2 V); discriminate Q2|]. split; [intros []|]. split; [exact P|exact Q5].
    + unfold stands, entry_value in P1, Q1. cbn in P1, Q1. injection P1 as ->. injection Q1 as ->.
      rewrite (step_binary F c o b x y v st UO NBK X32 Y32 OC M ltac:(lia)) in Q5. cbn [bind] in Q5.
      exists (Entry None v). split; [reflexivity|]. split; [reflexivity|]. split; [intros []|]. split; [rewrite zlen_cons; lia|exact Q5].
  - cbn [term_ok coded tidy meaning] in *. destruct O as (OA & O & _). destruct (meaning F E t) as [x|] eqn:MT; [|discriminate].
    rewrite <- !app_assoc in H. destruct (word_le32 (u32 adj) (u32_range _)) as (a & b & d & e & HW & HV).
    rewrite HW in H. cbn [app calc] in H. change (30 =? 30) with true in H. cbv iota in H. rewrite HV, s32_u32, s32_id in H by assumption.
    destruct (pushInt adj st) as [st'| |] eqn:P; try discriminate. apply push_inv in P as [-> P]. cbn [bind] in H.
    destruct (IH x O CD T L eq_refl _ _ r H) as (e1 & S1 & S2 & _ & S4 & S5). clear H. cbn [app] in S5. rewrite calc_step in S5 by lia.
    cbn [step] in S5. unfold pc_rel, combine in S5. cbn [popIntPair popInt bind noSymbol en_symbol] in S5.
    destruct e1 as [[y|] z]; [cbn in S5; discriminate|]. unfold stands, entry_value in S1. cbn in S1. injection S1 as ->.
    cbn [noSymbol en_symbol andb en_value] in S5. unfold pcrel_meaning in M. destruct (inr (x + adj)) as [q|] eqn:Q; [|discriminate].
    destruct (inr (adj - e_pc E)); [|discriminate].
    assert (CA : c_add adj x = Ok q) by (unfold c_add; rewrite Z.add_comm; apply (proj1 (chk_inr _ _ Q))).
    rewrite CA in S5. cbn [bind] in S5. rewrite !zlen_cons in S4. pose proof (zlen_nonneg _ st).
    rewrite push_ok in S5 by lia. cbn [bind popInt en_value] in S5.
    apply inr_s32 in M as [HZ ->].
    assert (HSS : s32 (q - (c_cpuLocation c + c_offset c)) = q - e_pc E).
    { rewrite <- (s32_id (q - e_pc E)) by assumption. apply s32_eq. apply u32_sub; [reflexivity|]. apply L. }
    rewrite HSS, push_ok in S5 by lia. cbn [bind] in S5.
    exists (Entry None (q - e_pc E)). split; [reflexivity|]. split; [reflexivity|]. split; [intros []|]. split; [rewrite zlen_cons; lia|exact S5].
Qed.
End Reloc.
