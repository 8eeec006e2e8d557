(** When entering, reducing and writing an expression succeed. *)
From Coq Require Import ZArith List Bool Lia ZifyBool.
From Verif Require Import Base BaseFacts Arith ExprSpec ExprModel ExprLayout ExprTree ArithProofs ExprProofs
  ReduceProofs LinkExprModel LinkExprProofs.
Import ListNotations.
Open Scope Z_scope.

Section Total.
Variable F : fmath.
Variable w : world.
Variable base : nat -> Z.
Variable E : env.
Hypothesis HF : fmath_ok F.
Hypothesis HE : env_ok w base E.
Variable cur : option asect.
Hypothesis HP : pc_known cur E.
Variable garb : nat -> Z.
Variable g : Z.
Notation bld := (build F garb g w cur).

Lemma known_const : forall t e, known w t -> bld t = Ok e -> expr_IsConstant e = true.
Proof.
  induction t; cbn [known build]; intros e K H; try tauto.
  - injection H as <-. reflexivity.
  - unfold expr_Symbol in H. rewrite K in H. destruct (y_expression _); [|discriminate].
    injection H as <-. reflexivity.
  - destruct (bld t) as [e0| |]; try discriminate. cbn [bind] in H. specialize (IHt e0 K eq_refl).
    unfold expr_Parens in H. destruct (isNull e0); [discriminate|]. injection H as <-. assumption.
  - destruct (bld t) as [e0| |]; try discriminate. cbn [bind] in H. specialize (IHt e0 K eq_refl).
    unfold build1 in H.
    assert (HU : is_unary o = true -> expr_Unary F o e0 = Ok e -> expr_IsConstant e = true).
    { intros _ HX. unfold expr_Unary in HX. destruct (isNull e0); [discriminate|].
      destruct (build_value F o 0 (e_v e0)); try discriminate. injection HX as <-. assumption. }
    destruct o; cbn in H; try discriminate; try (apply HU; [reflexivity|exact H]).
    unfold expr_Bit in H. destruct (isNull e0); [discriminate|]. destruct (_ && _) in H; [discriminate|].
    injection H as <-. assumption.
  - destruct (bld t1) as [l| |]; try discriminate. destruct (bld t2) as [r| |]; try discriminate.
    cbn [bind] in H. destruct K as [K1 K2]. specialize (IHt1 l K1 eq_refl). specialize (IHt2 r K2 eq_refl).
    assert (HB : forall o' e', expr_Binary F o' l r = Ok e' -> expr_IsConstant e' = true).
    { intros o' e' HX. unfold expr_Binary in HX. destruct (_ || _) in HX; [discriminate|].
      destruct (build_value _ _ _ _); try discriminate.
      - injection HX as <-. cbn. rewrite IHt1, IHt2. reflexivity.
      - rewrite IHt1, IHt2 in HX. discriminate. }
    destruct o; cbn in H; try discriminate; try (eapply HB; exact H).
    + unfold expr_Sub in H. destruct (expr_Binary F OpSub l r) as [e0| |] eqn:EB; try discriminate.
      cbn [bind] in H. rewrite (HB _ _ EB) in H. cbn in H. injection H as <-. eapply HB; eauto.
    + unfold expr_LowLimit in H. destruct (_ || _) in H; [discriminate|]. destruct (_ && _) in H; [discriminate|].
      injection H as <-. cbn. rewrite IHt1, IHt2. reflexivity.
    + unfold expr_HighLimit in H. destruct (_ || _) in H; [discriminate|]. destruct (_ && _) in H; [discriminate|].
      injection H as <-. cbn. rewrite IHt1, IHt2. reflexivity.
    + unfold expr_Assert in H. destruct (_ || _) in H; [discriminate|]. rewrite IHt2 in H.
      destruct (truth _); [|discriminate]. injection H as <-. assumption.
Qed.

Lemma binary_total : forall o l r a b v, bf l -> bf r -> den F E l = Some a -> den F E r = Some b ->
  is_s32 a -> is_s32 b -> limit_op o = false -> un o = false -> o <> OpBank -> o <> OpNone ->
  op_meaning F o a b = Some v ->
  match o with OpDiv | OpMod | OpFdiv => expr_IsConstant r = true | _ => True end ->
  exists e, expr_Binary F o l r = Ok e.
Proof.
  intros o l r a b v Bl Br Dl Dr Ha Hb Hl Hu Hnb Hnn Hm Hdiv. unfold expr_Binary.
  rewrite (bf_not_null l Bl), (bf_not_null r Br). cbn [orb].
  destruct (build_value F o (e_v l) (e_v r)) as [x| |] eqn:BV.
  - eauto.
  - exfalso.
    assert (Hr : expr_IsConstant r = true -> e_v r = b).
    { intros C. rewrite (den_const F E r C) in Dr. congruence. }
    destruct o; try discriminate; try congruence; cbn in BV;
      try (unfold c_sub, c_add, c_mul, c_shl, c_shr, chk in BV; destruct (_ && _) in BV; discriminate);
      specialize (Hr Hdiv); cbn in Hm; destruct (e_v r =? 0) eqn:Q;
      try (assert (Hb0 : (b =? 0) = true) by (rewrite <- Hr; exact Q); rewrite Hb0 in Hm; discriminate).
    + unfold c_div, chk in BV. rewrite Q in BV. destruct (_ && _) in BV; discriminate.
    + unfold c_mod, chk in BV. rewrite Q in BV. destruct (_ && _) in BV; discriminate.
    + discriminate.
  - destruct (expr_IsConstant l && expr_IsConstant r) eqn:C; [|eauto].
    exfalso. apply andb_prop in C as [C1 C2].
    rewrite (den_const F E l C1) in Dl. rewrite (den_const F E r C2) in Dr.
    injection Dl as Dl. injection Dr as Dr. rewrite Dl, Dr in BV.
    rewrite (build_value_ok F o a b v) in BV; auto. discriminate.
Qed.

Lemma build_total : forall t v, term_ok t -> defined w t -> divisors_known w t ->
  meaning F E t = Some v -> exists e, bld t = Ok e.
Proof.
  assert (GD : forall t e a, term_ok t -> meaning F E t = Some a -> bld t = Ok e -> good F E t e a).
  { intros. eapply build_ok; eauto. }
  induction t; cbn [term_ok divisors_known meaning build]; intros v Hok Hdef Hdv Hm.
  - eauto.
  - destruct (Hdef s (or_introl eq_refl)) as [He _]. unfold expr_Symbol. rewrite He.
    destruct (y_constant _); eauto.
  - eauto.
  - destruct (IHt v Hok Hdef Hdv Hm) as [e0 B0]. rewrite B0. cbn [bind].
    destruct (GD t e0 v Hok Hm B0) as (Bf & _). unfold expr_Parens. rewrite (bf_not_null _ Bf). eauto.
  - destruct (meaning F E t) as [a|] eqn:M; [|discriminate].
    destruct (IHt a Hok Hdef Hdv eq_refl) as [e0 B0]. rewrite B0. cbn [bind].
    destruct (GD t e0 a Hok M B0) as (Bf & D & _).
    assert (HU : is_unary o = true -> exists e, expr_Unary F o e0 = Ok e).
    { intros U. unfold expr_Unary. rewrite (bf_not_null _ Bf).
      destruct o; try discriminate; cbn; eauto. }
    destruct o; try discriminate; cbn; try (apply HU; reflexivity).
    unfold expr_Bit. rewrite (bf_not_null _ Bf).
    destruct (expr_IsConstant e0 && negb (isPowerOfTwo (u32 (e_v e0)))) eqn:C; [|eauto].
    exfalso. apply andb_prop in C as [C1 C2]. rewrite (den_const F E e0 C1) in D. injection D as D.
    rewrite D in C2. unfold isPowerOfTwo in C2. cbn [un_meaning] in Hm. fold (u32 a) in Hm. cbv zeta in Hm.
    destruct ((0 <? u32 a) && (2 ^ Z.log2 (u32 a) =? u32 a)); discriminate.
  - destruct (meaning F E t1) as [a|] eqn:M1; [|discriminate].
    destruct (meaning F E t2) as [b|] eqn:M2; [|discriminate].
    destruct Hok as [Hok1 Hok2]. destruct Hdv as (Hd1 & Hd2 & Hd3).
    assert (Hdef1 : defined w t1) by (intros q Hq; apply Hdef; cbn; apply in_or_app; auto).
    assert (Hdef2 : defined w t2) by (intros q Hq; apply Hdef; cbn; apply in_or_app; auto).
    destruct (IHt1 a Hok1 Hdef1 Hd1 eq_refl) as [l B1]. destruct (IHt2 b Hok2 Hdef2 Hd2 eq_refl) as [r B2].
    rewrite B1, B2. cbn [bind].
    destruct (GD t1 l a Hok1 M1 B1) as (Bl & Dl & _). destruct (GD t2 r b Hok2 M2 B2) as (Br & Dr & _).
    assert (Ha : is_s32 a) by exact (meaning_s32 F w base E HF HE t1 a Hok1 M1).
    assert (Hb : is_s32 b) by exact (meaning_s32 F w base E HF HE t2 b Hok2 M2).
    assert (HB : limit_op o = false -> un o = false -> o <> OpBank -> o <> OpNone ->
                 exists e, expr_Binary F o l r = Ok e).
    { intros L U N1 N2. eapply binary_total; eauto. destruct o; auto; eapply known_const; eauto. }
    destruct o; try discriminate; cbn [build2 is_unary]; try (apply HB; (reflexivity || discriminate)).
    + destruct HB as [e0 HB]; try (reflexivity || discriminate). unfold expr_Sub. rewrite HB. cbn [bind].
      destruct (negb (expr_IsConstant e0) && isSymbolNode l && isSymbolNode r &&
     osect_eqb (y_section (w_symbol w (e_ref l))) (y_section (w_symbol w (e_ref r))) &&
     symtype_eqb (y_type (w_symbol w (e_ref l))) SymLabel &&
     symtype_eqb (y_type (w_symbol w (e_ref r))) SymLabel) eqn:C; [|eauto].
      repeat (apply andb_prop in C as [C ?]).
      destruct l as [|tl cl ol vl sl ll rl]; [destruct Bl|]. destruct tl; try discriminate.
      destruct r as [|tr cr o_r vr sr lr rr]; [destruct Br|]. destruct tr; try discriminate.
      cbn in Bl, Br. destruct Bl as (_ & -> & _). destruct Br as (_ & -> & _).
      cbn in Dl, Dr. injection Dl as <-. injection Dr as <-. cbn in *.
      rewrite (label_sub w base E HE sl sr v).
      * cbn. eauto.
      * apply osect_eqb_eq; assumption.
      * apply symtype_eqb_eq; assumption.
      * apply symtype_eqb_eq; assumption.
      * assumption.
    + unfold expr_LowLimit. rewrite (bf_not_null l Bl), (bf_not_null r Br). cbn [orb].
      destruct (expr_IsConstant l && expr_IsConstant r && (e_v l <? e_v r)) eqn:C; [|eauto].
      exfalso. apply andb_prop in C as [C C3]. apply andb_prop in C as [C1 C2].
      rewrite (den_const F E l C1) in Dl. rewrite (den_const F E r C2) in Dr. cbn in Hm.
      destruct (b <=? a) eqn:Q; [|discriminate]. injection Dl as Dl. injection Dr as Dr. lia.
    + unfold expr_HighLimit. rewrite (bf_not_null l Bl), (bf_not_null r Br). cbn [orb].
      destruct (expr_IsConstant l && expr_IsConstant r && (e_v l >? e_v r)) eqn:C; [|eauto].
      exfalso. apply andb_prop in C as [C C3]. apply andb_prop in C as [C1 C2].
      rewrite (den_const F E l C1) in Dl. rewrite (den_const F E r C2) in Dr. cbn in Hm.
      destruct (a <=? b) eqn:Q; [|discriminate]. injection Dl as Dl. injection Dr as Dr. lia.
    + unfold expr_Assert. rewrite (bf_not_null l Bl), (bf_not_null r Br). cbn [orb].
      destruct (expr_IsConstant r) eqn:C; [|eauto]. rewrite (den_const F E r C) in Dr. injection Dr as Dr.
      rewrite Dr. cbn in Hm. unfold truth. destruct (b =? 0); [discriminate|]. cbn. eauto.
  - destruct (meaning F E t) as [a|] eqn:M; [|discriminate]. destruct Hok as (Hadj & Hok & Hnp).
    destruct (IHt a Hok Hdef Hdv eq_refl) as [e0 B0]. rewrite B0. cbn [bind].
    destruct (GD t e0 a Hok M B0) as (Bf & D & _).
    unfold expr_PcRelative. rewrite (bf_not_null _ Bf). destruct cur as [s|]; [|eauto].
    destruct (a_loadfixed s || a_orgfixed s); [|eauto].
    destruct e0 as [|te c o x sy l r]; [destruct Bf|].
    assert (HC : forall z, exists e, expr_Binary F OpAdd (ENode te false o x sy l r) (expr_Const z) = Ok e).
    { intros z. unfold expr_Binary. cbn [isNull orb expr_Const e_v build_value]. unfold c_add, chk.
      destruct (_ && _); cbn; eauto. }
    destruct c; [eauto|]. apply HC.
Qed.

Lemma build_no_bit : forall t e, no_bit t -> bld t = Ok e -> has_bit e = false.
Proof.
  induction t; cbn [no_bit build]; intros e K H.
  - injection H as <-. reflexivity.
  - unfold expr_Symbol in H. destruct (y_expression _); [|discriminate].
    destruct (y_constant _); injection H as <-; reflexivity.
  - injection H as <-. reflexivity.
  - destruct (bld t) as [e0| |]; try discriminate. cbn [bind] in H. specialize (IHt e0 K eq_refl).
    unfold expr_Parens in H. destruct (isNull e0); [discriminate|]. injection H as <-. cbn. assumption.
  - destruct (bld t) as [e0| |]; try discriminate. cbn [bind] in H. destruct K as [Kb K].
    specialize (IHt e0 K eq_refl).
    assert (HU : is_unary o = true -> expr_Unary F o e0 = Ok e -> has_bit e = false).
    { intros U HX. unfold expr_Unary in HX. destruct (isNull e0); [discriminate|].
      destruct (build_value F o 0 (e_v e0)); try discriminate. injection HX as <-. cbn.
      destruct o; try discriminate; assumption. }
    destruct o; cbn in H; try discriminate; try congruence; try (apply HU; [reflexivity|exact H]).
  - destruct (bld t1) as [l| |]; try discriminate. destruct (bld t2) as [r| |]; try discriminate.
    cbn [bind] in H. destruct K as [K1 K2]. specialize (IHt1 l K1 eq_refl). specialize (IHt2 r K2 eq_refl).
    assert (HN : forall o' v', o' <> OpBit -> has_bit (node2 o' v' l r) = false).
    { intros o' v' Hn. cbn. rewrite IHt1, IHt2. destruct o'; (reflexivity || congruence). }
    assert (HB : forall o' e', o' <> OpBit -> expr_Binary F o' l r = Ok e' -> has_bit e' = false).
    { intros o' e' Hn HX. unfold expr_Binary in HX. destruct (_ || _) in HX; [discriminate|].
      destruct (build_value _ _ _ _); try discriminate.
      - injection HX as <-. apply HN, Hn.
      - destruct (_ && _) in HX; [discriminate|]. injection HX as <-. apply HN, Hn. }
    destruct o; cbn in H; try discriminate; try (eapply HB; [|exact H]; discriminate).
    + unfold expr_Sub in H. destruct (expr_Binary F OpSub l r) as [e0| |] eqn:EB; try discriminate.
      cbn [bind] in H. destruct (_ && _) in H.
      * destruct (c_sub _ _); try discriminate. injection H as <-. reflexivity.
      * injection H as <-. eapply HB; [|exact EB]. discriminate.
    + unfold expr_LowLimit in H. destruct (_ || _) in H; [discriminate|]. destruct (_ && _) in H; [discriminate|].
      injection H as <-. apply HN. discriminate.
    + unfold expr_HighLimit in H. destruct (_ || _) in H; [discriminate|]. destruct (_ && _) in H; [discriminate|].
      injection H as <-. apply HN. discriminate.
    + unfold expr_Assert in H. destruct (_ || _) in H; [discriminate|]. destruct (expr_IsConstant r).
      * destruct (truth _); [|discriminate]. injection H as <-. assumption.
      * injection H as <-. apply HN. discriminate.
  - destruct (bld t) as [e0| |]; try discriminate. cbn [bind] in H. specialize (IHt e0 K eq_refl).
    unfold expr_PcRelative in H. destruct (isNull e0); [discriminate|].
    assert (HC : forall z e', expr_Binary F OpAdd e0 (expr_Const z) = Ok e' -> has_bit e' = false).
    { intros z e' HX. unfold expr_Binary in HX. destruct (_ || _) in HX; [discriminate|].
      destruct (build_value _ _ _ _); try discriminate.
      - injection HX as <-. cbn. rewrite IHt. reflexivity.
      - destruct (_ && _) in HX; [discriminate|]. injection HX as <-. cbn. rewrite IHt. reflexivity. }
    destruct cur as [s|].
    + destruct (a_loadfixed s || a_orgfixed s).
      * destruct e0 as [|te c o x sy l r]; [eapply HC, H|]. destruct c; [|eapply HC, H].
        injection H as <-. exact IHt.
      * injection H as <-. cbn. assumption.
    + injection H as <-. cbn. assumption.
Qed.
End Total.

Lemma optNode_no_bit : forall w e, has_bit e = false -> has_bit (optNode w e) = false.
Proof.
  intros w [|t c o v s l r] H; [reflexivity|]. cbn [optNode].
  destruct t; try (destruct c; [reflexivity|exact H]).
  destruct (y_constant _); [reflexivity|]. destruct c; [reflexivity|exact H].
Qed.
Lemma optimize_no_bit : forall w e, has_bit e = false -> has_bit (expr_Optimize w e) = false.
Proof.
  induction e as [|t c o v s l IHl r IHr]; [reflexivity|]. intros H. cbn [expr_Optimize].
  assert (HN : has_bit l = false /\ has_bit r = false /\ (t = TOperation -> o <> OpBit)).
  { cbn in H. destruct t.
    - destruct o; try discriminate; apply orb_false_elim in H as [-> ->]; repeat split; discriminate.
    - apply orb_false_elim in H as [-> ->]; repeat split; discriminate.
    - apply orb_false_elim in H as [-> ->]; repeat split; discriminate.
    - apply orb_false_elim in H as [-> ->]; repeat split; discriminate.
    - apply orb_false_elim in H as [-> ->]; repeat split; discriminate. }
  destruct HN as (Hl & Hr & Ho). specialize (IHl Hl). specialize (IHr Hr).
  assert (HX : has_bit (ENode t c o v s (expr_Optimize w l) (expr_Optimize w r)) = false).
  { cbn. rewrite IHl, IHr. destruct t; auto; destruct o; auto; exfalso; apply Ho; reflexivity. }
  destruct t; apply optNode_no_bit; assumption.
Qed.
Lemma reduce_no_bit : forall F w k a off e ov e', has_bit e = false ->
  reduceExpression F w k a off e = Ok (ov, e') -> has_bit e' = false.
Proof.
  intros F w k a off. induction e as [|t c o v s l IHl r IHr]; intros ov e' H R.
  - cbn in R. injection R as <- <-. reflexivity.
  - cbn [reduceExpression] in R. destruct c; [injection R as <- <-; reflexivity|].
    assert (HN : has_bit l = false /\ has_bit r = false /\ (t = TOperation -> o <> OpBit)).
    { cbn in H. destruct t.
      - destruct o; try discriminate; apply orb_false_elim in H as [-> ->]; repeat split; discriminate.
      - apply orb_false_elim in H as [-> ->]; repeat split; discriminate.
      - apply orb_false_elim in H as [-> ->]; repeat split; discriminate.
      - apply orb_false_elim in H as [-> ->]; repeat split; discriminate.
      - apply orb_false_elim in H as [-> ->]; repeat split; discriminate. }
    destruct HN as (Hl & Hr & Ho).
    assert (HX : forall c' v' l' r', has_bit l' = false -> has_bit r' = false -> has_bit (ENode t c' o v' s l' r') = false).
    { intros c' v' l' r' H1 H2. cbn. rewrite H1, H2. destruct t; auto; destruct o; auto; exfalso; apply Ho; reflexivity. }
    revert R.
    set (binary := let! (lv, l') := reduceExpression F w k a off l in
        match lv with
        | None => Ok (None, ENode t false o v s l' r)
        | Some x =>
            let! (rv, r') := reduceExpression F w k a off r in
            match rv with
            | None => Ok (None, ENode t false o v s l' r')
            | Some y => let! z := reduce_value F o x y in Ok (Some z, constNode o z s)
            end
        end).
    set (lim := fun gd : Z -> Z -> bool => let! (rv, r') := reduceExpression F w k a off r in
        match rv with
        | None => Ok (None, ENode t false o v s l r')
        | Some y =>
            let! (lv, l') := reduceExpression F w k a off l in
            match lv with
            | None => Ok (None, ENode t false o v s l' r')
            | Some x => if gd x y then Ok (Some x, constNode o x s) else Err
            end
        end).
    assert (HB : forall ov e', binary = Ok (ov, e') -> has_bit e' = false).
    { intros ov0 e0 R. unfold binary in R.
      destruct (reduceExpression F w k a off l) as [[lv l']| |] eqn:RL; try discriminate. cbn [bind] in R.
      specialize (IHl lv l' Hl eq_refl). destruct lv; [|injection R as <- <-; auto].
      destruct (reduceExpression F w k a off r) as [[rv r']| |] eqn:RR; try discriminate. cbn [bind] in R.
      specialize (IHr rv r' Hr eq_refl). destruct rv; [|injection R as <- <-; auto].
      destruct (reduce_value F o z z0); try discriminate. cbn in R. injection R as <- <-. reflexivity. }
    assert (HL : forall gd ov e', lim gd = Ok (ov, e') -> has_bit e' = false).
    { intros gd ov0 e0 R. unfold lim in R.
      destruct (reduceExpression F w k a off r) as [[rv r']| |] eqn:RR; try discriminate. cbn [bind] in R.
      specialize (IHr rv r' Hr eq_refl). destruct rv; [|injection R as <- <-; auto].
      destruct (reduceExpression F w k a off l) as [[lv l']| |] eqn:RL; try discriminate. cbn [bind] in R.
      specialize (IHl lv l' Hl eq_refl). destruct lv; [|injection R as <- <-; auto].
      destruct (gd z0 z); [|discriminate]. injection R as <- <-. reflexivity. }
    assert (HU : forall ov e', (let! (rv, r') := reduceExpression F w k a off r in
                match rv with
                | None => Ok (None, ENode t false o v s l r')
                | Some x =>
                    let! z := reduce_value F o 0 x in
                    Ok (Some z, ENode TConst true o z s l ENull)
                end) = Ok (ov, e') -> has_bit e' = false).
    { intros ov0 e0 R. destruct (reduceExpression F w k a off r) as [[rv r']| |] eqn:RR; try discriminate.
      cbn [bind] in R. specialize (IHr rv r' Hr eq_refl). destruct rv; [|injection R as <- <-; auto].
      destruct (reduce_value F o 0 z); try discriminate. cbn in R. injection R as <- <-. cbn. rewrite Hl. reflexivity. }
    clearbody binary. intros R.
    destruct t.
    + destruct o; cbn [is_unary] in R; try (eapply HB; exact R);
        try (eapply HU; exact R); try discriminate.
      * destruct (expr_GetSectionAndOffset w l) as [[kl x]|]; [|eapply HB, R].
        destruct (expr_GetSectionAndOffset w r) as [[kr y]|]; [|eapply HB, R].
        destruct (Nat.eqb kl kr); [|eapply HB, R]. injection R as <- <-. reflexivity.
      * exact (HL (fun x y => x >=? y) ov e' R).
      * exact (HL (fun x y => x <=? y) ov e' R).
      * destruct (y_section (w_symbol w s)); [|injection R as <- <-; apply HX; assumption].
        destruct (nth_error (w_sections w) n); [|discriminate].
        destruct (a_bankfixed a0); injection R as <- <-; apply HX; assumption.
      * exact (HL (fun _ y => truth y) ov e' R).
    + destruct (expr_GetSectionOffset w r k a); [|injection R as <- <-; apply HX; assumption].
      destruct (reduceExpression F w k a off l) as [[lv l']| |] eqn:RL; try discriminate. cbn [bind] in R.
      specialize (IHl lv l' Hl eq_refl). cbv zeta in R. destruct lv; injection R as <- <-; [reflexivity|apply HX; assumption].
    + injection R as <- <-. apply HX; assumption.
    + destruct (y_constant (w_symbol w s)); [injection R as <- <-; apply HX; assumption|].
      destruct (y_type (w_symbol w s)); try discriminate; injection R as <- <-; apply HX; assumption.
    + destruct (reduceExpression F w k a off r) as [[rv r']| |] eqn:RR; try discriminate. cbn [bind] in R.
      specialize (IHr rv r' Hr eq_refl). injection R as <- <-. apply HX; assumption.
Qed.
