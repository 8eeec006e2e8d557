(** Proofs about building, optimising and reducing expressions. *)
From Coq Require Import ZArith List Bool Lia ZifyBool.
From Verif Require Import Base BaseFacts Arith ExprSpec ExprModel ExprLayout ExprTree ArithProofs.
Import ListNotations.
Open Scope Z_scope.

(** Trees as they are built. *)
Fixpoint bf (e : expr) : Prop :=
  match e with
  | ENull => False
  | ENode t c o v s l r =>
      (c = true -> is_s32 v) /\
      match t with
      | TConst => c = true /\ l = ENull /\ r = ENull
      | TSymbol => c = false /\ l = ENull /\ r = ENull
      | TParens => l = ENull /\ bf r /\ c = expr_IsConstant r /\ (c = true -> v = e_v r)
      | TPcRelative => c = false /\ bf l /\ bf r
      | TOperation =>
          match o with
          | OpBank => c = false /\ l = ENull /\ r = ENull
          | OpNone => False
          | _ => if un o then l = ENull /\ bf r else bf l /\ bf r
          end
      end
  end.

Fixpoint depth (e : expr) : Z :=
  match e with
  | ENull => 0
  | ENode t _ o _ _ l r =>
      match t with
      | TConst | TSymbol => 1
      | TParens => depth r
      | TPcRelative => Z.max (depth l) (1 + depth r)
      | TOperation =>
          match o with
          | OpBank => 1
          | _ => if un o then depth r else Z.max (depth l) (1 + depth r)
          end
      end
  end.

Fixpoint svals (e : expr) : list nat :=
  match e with
  | ENull => []
  | ENode t _ _ _ s l r =>
      match t with TSymbol => [s] | _ => svals l ++ svals r end
  end.
Fixpoint sbanks (e : expr) : list nat :=
  match e with
  | ENull => []
  | ENode t _ o _ s l r =>
      match t, o with TOperation, OpBank => [s] | _, _ => sbanks l ++ sbanks r end
  end.

Definition is_paren (e : expr) : Prop := match e with ENode TParens _ _ _ _ _ _ => True | _ => False end.

Lemma den_const : forall F E e, expr_IsConstant e = true -> den F E e = Some (e_v e).
Proof. intros F E [|t c o v s l r] H; [discriminate|]. cbn in *. rewrite H. reflexivity. Qed.
Lemma bf_const_s32 : forall e, bf e -> expr_IsConstant e = true -> is_s32 (e_v e).
Proof. intros [|t c o v s l r] H Hc; [destruct H|]. cbn in *. tauto. Qed.
Lemma bf_not_null : forall e, bf e -> isNull e = false.
Proof. intros [|]; cbn; tauto. Qed.
Lemma depth_pos : forall e, bf e -> 1 <= depth e.
Proof.
  induction e as [|t c o v s l IHl r IHr]; cbn; [tauto|]. intros [_ H].
  destruct t; try lia.
  - destruct o; cbn in H; try tauto; try lia;
      destruct H as [H1 H2]; specialize (IHr H2); cbn; try lia.
  - destruct H as (_ & H1 & H2). specialize (IHl H1). lia.
  - destruct H as (_ & H1 & _). apply IHr, H1.
Qed.

Section Env.
Variable F : fmath.
Variable w : world.
Variable base : nat -> Z.
Variable E : env.
Hypothesis HF : fmath_ok F.
Hypothesis HE : env_ok w base E.

Lemma meaning_s32 : forall t v, term_ok t -> meaning F E t = Some v -> is_s32 v.
Proof.
  destruct HE as (He1 & He2 & _).
  induction t; cbn; intros v Hok H.
  - congruence.
  - injection H as <-. apply He1.
  - injection H as <-. apply He2.
  - auto.
  - destruct (meaning F E t); [|discriminate]. eapply un_meaning_s32; eauto.
  - destruct (meaning F E t1) eqn:E1; [|discriminate]. destruct (meaning F E t2) eqn:E2; [|discriminate].
    destruct Hok. eapply op_meaning_s32; [exact HF| | |exact H]; eauto.
  - destruct (meaning F E t) eqn:E1; [|discriminate]. unfold pcrel_meaning in H.
    destruct (inr (z + adjustment)); [|discriminate]. destruct (inr (adjustment - e_pc E)); [|discriminate]. apply inr_s32 in H. tauto.
Qed.

Definition good (t : term) (e : expr) (v : Z) : Prop :=
  bf e /\ den F E e = Some v /\ depth e <= tdepth t /\ incl (svals e) (values_of t) /\
  incl (sbanks e) (banks_of t) /\ (is_paren e -> paren_head t).

Lemma tdepth_pos : forall t, 1 <= tdepth t.
Proof. induction t; cbn [tdepth]; lia. Qed.

Lemma good_node2 : forall t1 t2 l r a b o v x,
  good t1 l a -> good t2 r b -> un o = false -> o <> OpBank -> o <> OpNone ->
  is_s32 v -> op_meaning F o a b = Some v ->
  (expr_IsConstant l = true -> expr_IsConstant r = true -> x = v) ->
  good (Bin o t1 t2) (node2 o x l r) v.
Proof.
  intros t1 t2 l r a b o v x (B1 & D1 & P1 & S1 & K1 & _) (B2 & D2 & P2 & S2 & K2 & _) Hu Hnb Hnn Hv Hm Hx.
  unfold good, node2. split; [|split; [|split; [|split; [|split]]]].
  - cbn [bf]. split.
    + intros H. apply andb_prop in H as [H1 H2]. rewrite (Hx H1 H2). assumption.
    + rewrite Hu. destruct o; try discriminate; try congruence; auto.
  - cbn [den]. destruct (expr_IsConstant l && expr_IsConstant r) eqn:C.
    + apply andb_prop in C as [H1 H2]. rewrite (Hx H1 H2). reflexivity.
    + rewrite Hu, D1, D2. rewrite Hm. destruct o; try discriminate; congruence.
  - cbn [depth tdepth]. rewrite Hu. destruct o; try congruence; lia.
  - cbn. apply incl_app; [apply incl_appl, S1|apply incl_appr, S2].
  - cbn. destruct o; try congruence; (apply incl_app; [apply incl_appl, K1|apply incl_appr, K2]).
  - cbn. tauto.
Qed.

Lemma build_binary_ok : forall t1 t2 l r a b o v e,
  good t1 l a -> good t2 r b -> un o = false -> o <> OpBank -> o <> OpNone -> limit_op o = false ->
  is_s32 a -> is_s32 b -> is_s32 v -> op_meaning F o a b = Some v ->
  expr_Binary F o l r = Ok e -> good (Bin o t1 t2) e v.
Proof.
  intros t1 t2 l r a b o v e G1 G2 Hu Hnb Hnn Hl Ha Hb Hv Hm He.
  pose proof G1 as (B1 & D1 & _). pose proof G2 as (B2 & D2 & _).
  unfold expr_Binary in He. rewrite (bf_not_null l B1), (bf_not_null r B2) in He. cbn [orb] in He.
  assert (Hc : expr_IsConstant l = true -> expr_IsConstant r = true ->
          build_value F o (e_v l) (e_v r) = Ok v).
  { intros C1 C2. rewrite (den_const F E l C1) in D1. rewrite (den_const F E r C2) in D2.
    injection D1 as ->. injection D2 as ->. apply build_value_ok; auto. }
  destruct (build_value F o (e_v l) (e_v r)) as [x| |] eqn:BV.
  - injection He as <-. eapply good_node2; eauto. intros C1 C2. specialize (Hc C1 C2). congruence.
  - discriminate.
  - destruct (expr_IsConstant l && expr_IsConstant r) eqn:C; [discriminate|]. injection He as <-.
    eapply good_node2; eauto. intros C1 C2. rewrite C1, C2 in C. discriminate.
Qed.

Lemma good_unary : forall t r a o v c x,
  good t r a -> un o = true -> is_s32 v -> un_meaning F o a = Some v ->
  c = expr_IsConstant r -> (expr_IsConstant r = true -> x = v) ->
  good (Un o t) (ENode TOperation c o x 0 ENull r) v.
Proof.
  intros t r a o v c x (B & D & P & S1 & K & _) Hu Hv Hm -> Hx.
  assert (Hb : o <> OpBank /\ o <> OpNone) by (split; intros ->; discriminate). destruct Hb as [Hnb Hnn].
  unfold good. split; [|split; [|split; [|split; [|split]]]].
  - cbn [bf]. split.
    + intros C. rewrite (Hx C). assumption.
    + rewrite Hu. destruct o; try congruence; auto.
  - cbn [den]. destruct (expr_IsConstant r) eqn:C.
    + rewrite Hx by reflexivity. reflexivity.
    + rewrite Hu, D, Hm. destruct o; congruence.
  - cbn [depth tdepth]. rewrite Hu. destruct o; try congruence; lia.
  - cbn. assumption.
  - cbn. destruct o; try congruence; assumption.
  - cbn. tauto.
Qed.

Lemma label_sub : forall s1 s2 v,
  y_section (w_symbol w s1) = y_section (w_symbol w s2) ->
  y_type (w_symbol w s1) = SymLabel -> y_type (w_symbol w s2) = SymLabel ->
  inr (e_sym E s1 - e_sym E s2) = Some v ->
  c_sub (y_value (w_symbol w s1)) (y_value (w_symbol w s2)) = Ok v.
Proof.
  intros s1 s2 v Hs T1 T2 H. destruct HE as (_ & _ & _ & _ & HL & HS & _).
  destruct (HL s1 T1) as [R1 [k Hk]]. destruct (HL s2 T2) as [R2 _].
  destruct (HS s1 k Hk) as (a1 & Ha & V1 & _). specialize (V1 R1).
  rewrite Hs in Hk. destruct (HS s2 k Hk) as (a2 & Ha2 & V2 & _). specialize (V2 R2).
  unfold c_sub. apply chk_inr in H as [H ->].
  replace (y_value (w_symbol w s1) - y_value (w_symbol w s2)) with (e_sym E s1 - e_sym E s2) by lia.
  assumption.
Qed.

Lemma symtype_eqb_eq : forall a b, symtype_eqb a b = true -> a = b.
Proof. intros [] []; cbn; congruence. Qed.
Lemma osect_eqb_eq : forall a b, osect_eqb a b = true -> a = b.
Proof.
  intros [x|] [y|]; cbn; intros H; try discriminate; auto. apply PeanoNat.Nat.eqb_eq in H. congruence.
Qed.

Lemma good_const : forall v t, is_s32 v -> (incl [] (values_of t)) -> good t (expr_Const v) v.
Proof.
  intros v t Hv _. unfold good, expr_Const. cbn.
  pose proof (tdepth_pos t).
  split; [auto|]. split; [reflexivity|]. split; [lia|]. split; [intros ? []|]. split; [intros ? []|tauto].
Qed.

Variable cur : option asect.
Hypothesis HP : pc_known cur E.

Lemma pcrel_s32 : forall x adj pc pc' v, pcrel_meaning x adj pc = Some v -> u32 pc = u32 pc' ->
  s32 (x - (pc' - adj)) = v /\ is_s32 v.
Proof.
  intros x adj pc pc' v H Hpc. unfold pcrel_meaning in H.
  destruct (inr (x + adj)) as [y|] eqn:H1; [|discriminate]. apply inr_s32 in H1 as [H1 ->].
  destruct (inr (adj - pc)); [|discriminate].
  apply inr_s32 in H as [H ->]. split; [|assumption].
  rewrite <- (s32_id (x + adj - pc)) by assumption. apply s32_eq.
  unfold u32 in *. replace (x - (pc' - adj)) with ((x + adj) - pc') by lia.
  rewrite Zminus_mod, <- Hpc, <- Zminus_mod. reflexivity.
Qed.

Lemma build_pcrel_ok : forall t e a adj v e',
  good t e a -> ~ paren_head t -> is_s32 adj -> is_s32 a -> pcrel_meaning a adj (e_pc E) = Some v ->
  expr_PcRelative F cur e adj = Ok e' -> good (PcRel adj t) e' v.
Proof.
  intros t e a adj v e' G Hnp Hadj Ha Hm He. pose proof G as (B & D & P & S1 & K & Pa).
  assert (Hv : is_s32 v).
  { unfold pcrel_meaning in Hm. destruct (inr (a + adj)); [|discriminate].
    destruct (inr (adj - e_pc E)); [|discriminate]. apply inr_s32 in Hm. tauto. }
  assert (Hgen : good (PcRel adj t) (ENode TPcRelative false OpNone 0 0 (expr_Const adj) e) v).
  { unfold good. split; [|split; [|split; [|split; [|split]]]].
    - cbn. repeat split; try discriminate; auto; apply Hadj.
    - cbn [den]. rewrite (den_const F E (expr_Const adj)) by reflexivity. cbn [e_v expr_Const].
      rewrite D. assumption.
    - cbn [depth tdepth]. pose proof (depth_pos e B). unfold expr_Const. cbn [depth]. lia.
    - cbn. assumption.
    - cbn. assumption.
    - cbn. tauto. }
  unfold expr_PcRelative in He. rewrite (bf_not_null e B) in He.
  destruct cur as [s|].
  2:{ injection He as <-. apply Hgen. }
  destruct (a_loadfixed s || a_orgfixed s) eqn:Fx.
  2:{ injection He as <-. apply Hgen. }
  cbn in HP. assert (Hpc : u32 (e_pc E) = u32 (a_pc s + a_cpuOrigin s + a_cpuAdjust s)).
  { apply HP. destruct (a_loadfixed s); auto. }
  set (pc := a_pc s + a_cpuOrigin s + a_cpuAdjust s) in *. clearbody pc.
  destruct e as [|te c o x sy l r]; [destruct B|].
  destruct c.
  - injection He as <-. cbn in D. injection D as ->.
    destruct (pcrel_s32 _ _ _ _ _ Hm Hpc) as [Hs _]. rewrite Hs.
    unfold good. split; [|split; [|split; [|split; [|split]]]].
    + cbn [bf] in *. destruct B as [_ B]. split; [auto|]. destruct te; auto.
      exfalso. apply Hnp, Pa. cbn. exact I.
    + reflexivity.
    + cbn [depth tdepth] in *. lia.
    + cbn in *. assumption.
    + cbn in *. assumption.
    + cbn in *. intros Hp. exfalso. apply Hnp, Pa, Hp.
  - (* a sum with a constant *)
    unfold pcrel_meaning in Hm. destruct (inr (a + adj)) as [y|] eqn:H1; [|discriminate].
    destruct (inr (adj - e_pc E)) as [y2|] eqn:H3; [|discriminate].
    apply inr_s32 in H1 as [H1 ->]. apply inr_s32 in Hm as [H2 Hveq].
    set (e0 := ENode te false o x sy l r) in *.
    unfold expr_Binary in He.
    change (isNull e0 || isNull (expr_Const (s32 (adj - pc)))) with false in He. cbv iota in He.
    assert (Hc0 : expr_IsConstant e0 = false) by reflexivity.
    assert (Hk : s32 (adj - pc) = adj - e_pc E).
    { apply inr_s32 in H3 as [H3 ->]. rewrite <- (s32_id (adj - e_pc E)) by assumption.
      apply s32_eq. unfold u32 in *. rewrite Zminus_mod, <- Hpc, <- Zminus_mod. reflexivity. }
    assert (HQ : op_meaning F OpAdd a (s32 (adj - pc)) = Some v).
    { cbn [op_meaning]. rewrite Hk. rewrite <- (inr_of v Hv). f_equal. lia. }
    assert (Hsum : forall x', good (PcRel adj t) (node2 OpAdd x' e0 (expr_Const (s32 (adj - pc)))) v).
    { intros x'. unfold good, node2. split; [|split; [|split; [|split; [|split]]]].
      - cbn [bf]. rewrite Hc0. cbn [andb]. split; [discriminate|]. cbn. split; [exact B|].
        repeat split; auto; apply s32_range.
      - cbn [den]. rewrite Hc0. cbn [andb un is_unary orb].
        rewrite D. rewrite (den_const F E (expr_Const _)) by reflexivity. cbn [e_v expr_Const]. exact HQ.
      - cbn [depth tdepth un is_unary orb]. unfold expr_Const. cbn [depth].
        pose proof (depth_pos e0 B). lia.
      - change (incl (svals e0 ++ []) (values_of t)). rewrite app_nil_r. assumption.
      - change (incl (sbanks e0 ++ []) (banks_of t)). rewrite app_nil_r. assumption.
      - cbn. tauto. }
    destruct (build_value F OpAdd (e_v e0) (e_v (expr_Const (s32 (adj - pc))))) as [q| |] eqn:BV.
    + injection He as <-. apply Hsum.
    + unfold build_value, c_add, chk in BV. destruct (_ && _) in BV; discriminate.
    + rewrite Hc0 in He. cbn [andb] in He. injection He as <-. apply Hsum.
Qed.

Lemma build1_inv : forall o e e', build1 F o e = Ok e' -> un o = true.
Proof. intros o e e' H. destruct o; cbn in *; try reflexivity; discriminate. Qed.
Lemma build_unary_good : forall t e a o v e', good t e a -> is_s32 a -> is_s32 v -> un_meaning F o a = Some v ->
  build1 F o e = Ok e' -> good (Un o t) e' v.
Proof.
  intros t e a o v e' G Ha Hv Hm He. pose proof G as (B & D & _).
  pose proof (build1_inv o e e' He) as Hu.
  destruct (is_unary o) eqn:U.
  - assert (He' : expr_Unary F o e = Ok e') by (destruct o; try discriminate; exact He).
    unfold expr_Unary in He'. rewrite (bf_not_null e B) in He'.
    destruct (build_value F o 0 (e_v e)) as [x| |] eqn:BV; try discriminate. cbn in He'.
    injection He' as <-. eapply good_unary; eauto.
    intros C. rewrite (den_const F E e C) in D. injection D as D. rewrite D in BV.
    rewrite (build_unary_ok F o a v U Hm) in BV. congruence.
  - destruct o; try discriminate. cbn in He. unfold expr_Bit in He.
    rewrite (bf_not_null e B) in He.
    destruct (expr_IsConstant e && negb (isPowerOfTwo (u32 (e_v e)))); [discriminate|].
    injection He as <-. eapply good_unary; eauto.
    intros C. rewrite (den_const F E e C) in D. injection D as ->.
    unfold un_meaning in Hm. cbv zeta in Hm. fold (u32 a) in Hm. unfold log2n.
    destruct ((0 <? u32 a) && (2 ^ Z.log2 (u32 a) =? u32 a)); congruence.
Qed.

Lemma build_sub_good : forall t1 t2 l r a b v e,
  good t1 l a -> good t2 r b -> is_s32 a -> is_s32 b -> is_s32 v -> op_meaning F OpSub a b = Some v ->
  expr_Sub F w l r = Ok e -> good (Bin OpSub t1 t2) e v.
Proof.
  intros t1 t2 l r a b v e G1 G2 Ha Hb Hv Hm He. unfold expr_Sub in He.
  destruct (expr_Binary F OpSub l r) as [e0| |] eqn:EB; try discriminate. cbn [bind] in He.
  destruct (negb (expr_IsConstant e0) && isSymbolNode l && isSymbolNode r &&
     osect_eqb (y_section (w_symbol w (e_ref l))) (y_section (w_symbol w (e_ref r))) &&
     symtype_eqb (y_type (w_symbol w (e_ref l))) SymLabel &&
     symtype_eqb (y_type (w_symbol w (e_ref r))) SymLabel) eqn:C.
  - repeat (apply andb_prop in C as [C ?]).
    destruct G1 as (B1 & D1 & _). destruct G2 as (B2 & D2 & _).
    destruct l as [|tl cl ol vl sl ll rl]; [destruct B1|]. destruct tl; try discriminate.
    destruct r as [|tr cr o_r vr sr lr rr]; [destruct B2|]. destruct tr; try discriminate.
    cbn in B1, B2. destruct B1 as (_ & -> & _). destruct B2 as (_ & -> & _).
    cbn in D1, D2. injection D1 as <-. injection D2 as <-. cbn in *.
    rewrite (label_sub sl sr v) in He.
    + cbn in He. injection He as <-. apply good_const; [assumption|intros ? []].
    + apply osect_eqb_eq; assumption.
    + apply symtype_eqb_eq; assumption.
    + apply symtype_eqb_eq; assumption.
    + assumption.
  - injection He as <-. eapply build_binary_ok with (a := a) (b := b) (l := l) (r := r); eauto; discriminate.
Qed.

Lemma good_limit : forall o t1 t2 l r a b v,
  good t1 l a -> good t2 r b -> limit_op o = true -> is_s32 a -> op_meaning F o a b = Some v ->
  o <> OpAssert -> good (Bin o t1 t2) (node2 o (e_v l) l r) v.
Proof.
  intros o t1 t2 l r a b v G1 G2 Hl Ha Hm Hna.
  assert (v = a).
  { destruct o; try discriminate; cbn in Hm; [destruct (b <=? a)|destruct (a <=? b)|]; congruence. }
  subst v. eapply good_node2; eauto.
  - destruct o; try discriminate; reflexivity.
  - intros ->; discriminate.
  - intros ->; discriminate.
  - intros C1 _. destruct G1 as (B1 & D1 & _). rewrite (den_const F E l C1) in D1. congruence.
Qed.

Variable garb : nat -> Z.
Variable g : Z.

Lemma build_ok : forall t e v, term_ok t -> meaning F E t = Some v ->
  build F garb g w cur t = Ok e -> good t e v.
Proof.
  induction t; cbn [term_ok meaning build]; intros e v Hok Hm He.
  - injection Hm as <-. injection He as <-. apply good_const; [assumption|intros ? []].
  - injection Hm as <-. unfold expr_Symbol in He.
    pose proof HE as (He1 & _ & Hc & _).
    destruct (y_expression (w_symbol w s)); [|discriminate].
    destruct (y_constant (w_symbol w s)) eqn:C.
    + injection He as <-. rewrite <- (Hc s C). apply good_const; [apply He1|intros ? []].
    + injection He as <-. unfold good. cbn.
      split; [repeat split; discriminate|]. split; [reflexivity|]. split; [lia|].
      split; [apply incl_refl|]. split; [intros ? []|tauto].
  - injection Hm as <-. injection He as <-. unfold good, expr_Bank. cbn.
    split; [repeat split; discriminate|]. split; [reflexivity|]. split; [lia|].
    split; [intros ? []|]. split; [apply incl_refl|tauto].
  - destruct (build F garb g w cur t) as [e0| |] eqn:B0; try discriminate. cbn [bind] in He.
    specialize (IHt e0 v Hok Hm eq_refl). destruct IHt as (B & D & P & S1 & K & _).
    unfold expr_Parens in He. rewrite (bf_not_null e0 B) in He. injection He as <-.
    unfold good. split; [|split; [|split; [|split; [|split]]]].
    + cbn [bf]. split; [|auto].
      intros C. apply bf_const_s32; auto.
    + cbn [den]. destruct (expr_IsConstant e0) eqn:C; [|assumption].
      rewrite (den_const F E e0 C) in D. assumption.
    + cbn. assumption.
    + cbn. assumption.
    + cbn. assumption.
    + cbn. tauto.
  - destruct (build F garb g w cur t) as [e0| |] eqn:B0; try discriminate. cbn [bind] in He.
    destruct (meaning F E t) as [a|] eqn:M; [|discriminate].
    specialize (IHt e0 a Hok eq_refl eq_refl).
    eapply build_unary_good; eauto.
    + exact (meaning_s32 t a Hok M).
    + eapply un_meaning_s32; eauto.
  - destruct (build F garb g w cur t1) as [l| |] eqn:B1; try discriminate. cbn [bind] in He.
    destruct (build F garb g w cur t2) as [r| |] eqn:B2; try discriminate. cbn [bind] in He.
    destruct (meaning F E t1) as [a|] eqn:M1; [|discriminate].
    destruct (meaning F E t2) as [b|] eqn:M2; [|discriminate].
    destruct Hok as [Hok1 Hok2].
    specialize (IHt1 l a Hok1 eq_refl eq_refl). specialize (IHt2 r b Hok2 eq_refl eq_refl).
    assert (Ha : is_s32 a) by exact (meaning_s32 t1 a Hok1 M1).
    assert (Hb : is_s32 b) by exact (meaning_s32 t2 b Hok2 M2).
    assert (Hv : is_s32 v) by (eapply op_meaning_s32; [exact HF|exact Ha|exact Hb|exact Hm]).
    pose proof IHt1 as (Bf1 & D1 & _). pose proof IHt2 as (Bf2 & D2 & _).
    destruct o; cbn [build2 is_unary] in He; try discriminate;
      try (eapply build_binary_ok with (l := l) (r := r); eauto; discriminate).
    + eapply build_sub_good; eauto.
    + unfold expr_LowLimit in He. rewrite (bf_not_null l Bf1), (bf_not_null r Bf2) in He. cbn [orb] in He.
      destruct (_ && _) in He; [discriminate|]. injection He as <-.
      eapply good_limit; eauto; discriminate.
    + unfold expr_HighLimit in He. rewrite (bf_not_null l Bf1), (bf_not_null r Bf2) in He. cbn [orb] in He.
      destruct (_ && _) in He; [discriminate|]. injection He as <-.
      eapply good_limit; eauto; discriminate.
    + unfold expr_Assert in He. rewrite (bf_not_null l Bf1), (bf_not_null r Bf2) in He. cbn [orb] in He.
      cbn in Hm. destruct (b =? 0) eqn:B0; [discriminate|]. injection Hm as ->.
      destruct (expr_IsConstant r) eqn:C.
      * rewrite (den_const F E r C) in D2. injection D2 as D2. rewrite D2 in He.
        unfold truth in He. rewrite B0 in He. injection He as <-.
        destruct IHt1 as (_ & _ & P & S1 & K & Pa). destruct IHt2 as (_ & _ & P2 & _).
        unfold good. split; [assumption|]. split; [assumption|].
        split; [cbn [tdepth]; pose proof (tdepth_pos t2); lia|].
        split; [cbn; apply incl_appl; assumption|]. split; [cbn; apply incl_appl; assumption|].
        cbn. assumption.
      * injection He as <-. eapply good_node2; eauto; try discriminate.
        -- cbn. rewrite B0. reflexivity.
        -- intros _ C2. congruence.
  - destruct (build F garb g w cur t) as [e0| |] eqn:B0; try discriminate. cbn [bind] in He.
    destruct (meaning F E t) as [a|] eqn:M; [|discriminate].
    destruct Hok as (Hadj & Hok & Hnp). specialize (IHt e0 a Hok eq_refl eq_refl).
    eapply build_pcrel_ok; eauto. exact (meaning_s32 t a Hok M).
Qed.

(** ** Optimisation *)

Definition opt_good (e e' : expr) : Prop :=
  opf e' /\ den F E e' = den F E e /\ depth e' <= depth e /\
  incl (svals e') (svals e) /\ incl (sbanks e') (sbanks e).

Lemma opt_const : forall e, bf e -> expr_IsConstant e = true ->
  exists s, expr_Optimize w e = ENode TConst true OpNone (e_v e) s ENull ENull.
Proof.
  induction e as [|t c o v s l IHl r IHr]; cbn [bf expr_IsConstant]; [tauto|].
  intros [_ H] ->. cbn [expr_Optimize e_v].
  destruct t.
  - cbn. eauto.
  - cbn. eauto.
  - cbn. eauto.
  - destruct H as [H _]. discriminate.
  - destruct H as (_ & Hr & Hc & Hv). destruct (IHr Hr (eq_sym Hc)) as [s' ->].
    rewrite (Hv eq_refl). cbn. eauto.
Qed.

Lemma optNode_opf : forall e, opf e -> opt_good e (optNode w e).
Proof.
  intros [|t c o v s l r] H; [destruct H|]. destruct HE as (He1 & _ & Hc & _).
  destruct t; cbn [optNode].
  - pose proof H as [-> _]. unfold opt_good. cbn [optNode].
    split; [exact H|]. split; [reflexivity|]. split; [lia|]. split; apply incl_refl.
  - pose proof H as [-> _]. unfold opt_good.
    split; [exact H|]. split; [reflexivity|]. split; [lia|]. split; apply incl_refl.
  - cbn in H. destruct H as (-> & Hv & -> & ->). unfold opt_good. cbn.
    split; [auto|]. split; [reflexivity|]. split; [lia|]. split; apply incl_refl.
  - cbn in H. destruct H as (-> & -> & ->).
    destruct (y_constant (w_symbol w s)) eqn:C.
    + unfold opt_good. cbn. rewrite <- (Hc s C). split; [auto|]. split; [reflexivity|]. split; [lia|].
      split; intros ? [].
    + unfold opt_good. cbn. split; [auto|]. split; [reflexivity|]. split; [lia|]. split; apply incl_refl.
  - destruct H.
Qed.

Lemma opt_good_trans : forall a b c, opt_good a b -> opt_good b c -> opt_good a c.
Proof.
  unfold opt_good. intros a b c (_ & D1 & P1 & S1 & K1) (O2 & D2 & P2 & S2 & K2).
  split; [assumption|]. split; [congruence|]. split; [lia|]. split; eapply incl_tran; eauto.
Qed.

Lemma optimize_ok : forall e, bf e -> opt_good e (expr_Optimize w e).
Proof.
  induction e as [|t c o v s l IHl r IHr]; [intros []|].
  intros Hb. destruct c.
  { destruct (opt_const _ Hb eq_refl) as [s' ->]. pose proof (depth_pos _ Hb) as Hd.
    pose proof (bf_const_s32 _ Hb eq_refl) as Hs. cbn [e_v] in *. unfold opt_good.
    split; [cbn; auto|]. split; [reflexivity|]. split; [exact Hd|]. split; intros ? []. }
  cbn [bf] in Hb. destruct Hb as [_ H]. cbn [expr_Optimize].
  destruct t.
  - (* operation *)
    cbn [optNode].
    assert (Hsplit : (o = OpBank /\ l = ENull /\ r = ENull) \/
                     (o <> OpBank /\ o <> OpNone /\ un o = true /\ l = ENull /\ bf r) \/
                     (o <> OpBank /\ o <> OpNone /\ un o = false /\ bf l /\ bf r)).
    { destruct o; cbn in H; try tauto;
        try (right; right; repeat split; try discriminate; tauto);
        try (right; left; repeat split; try discriminate; tauto). }
    destruct Hsplit as [(-> & -> & ->)|[(Hnb & Hnn & Hu & -> & Br)|(Hnb & Hnn & Hu & Bl & Br)]].
    + cbn. unfold opt_good. cbn. split; [auto|]. split; [reflexivity|]. split; [lia|]. split; apply incl_refl.
    + specialize (IHr Br). destruct IHr as (O & D & P & S1 & K). unfold opt_good.
      split; [|split; [|split; [|split]]].
      * cbn [opf expr_Optimize]. split; [reflexivity|]. rewrite Hu. destruct o; try congruence; auto.
      * cbn [den]. rewrite Hu, D. destruct o; congruence.
      * cbn [depth]. rewrite Hu. destruct o; try congruence; lia.
      * cbn. assumption.
      * cbn. destruct o; try congruence; assumption.
    + specialize (IHr Br). specialize (IHl Bl).
      destruct IHr as (O & D & P & S1 & K). destruct IHl as (O2 & D2 & P2 & S2 & K2). unfold opt_good.
      split; [|split; [|split; [|split]]].
      * cbn [opf]. split; [reflexivity|]. rewrite Hu. destruct o; try congruence; auto.
      * cbn [den]. rewrite Hu, D, D2. destruct o; congruence.
      * cbn [depth]. rewrite Hu. destruct o; try congruence; lia.
      * cbn. apply incl_app; [apply incl_appl|apply incl_appr]; assumption.
      * cbn. destruct o; try congruence; (apply incl_app; [apply incl_appl|apply incl_appr]; assumption).
  - destruct H as (_ & Bl & Br). specialize (IHl Bl). specialize (IHr Br).
    destruct IHr as (O & D & P & S1 & K). destruct IHl as (O2 & D2 & P2 & S2 & K2). unfold opt_good.
    cbn [optNode]. split; [|split; [|split; [|split]]].
    + cbn. auto.
    + cbn [den]. rewrite D, D2. reflexivity.
    + cbn [depth]. lia.
    + cbn. apply incl_app; [apply incl_appl|apply incl_appr]; assumption.
    + cbn. apply incl_app; [apply incl_appl|apply incl_appr]; assumption.
  - destruct H as [H _]. discriminate.
  - destruct H as (_ & -> & ->). cbn [expr_Optimize].
    apply optNode_opf. cbn. auto.
  - destruct H as (-> & Br & Hc & _). specialize (IHr Br).
    eapply opt_good_trans.
    + assert (Ho : opt_good (ENode TParens false o v s ENull r) (expr_Optimize w r)).
      { destruct IHr as (O & D & P & S1 & K). unfold opt_good.
        split; [assumption|]. split; [exact D|]. split; [exact P|].
        split; [exact S1|]. exact K. }
      exact Ho.
    + apply optNode_opf. apply IHr.
Qed.
End Env.
