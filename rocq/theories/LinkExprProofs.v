(** The linker computes the value of a serialised expression. *)
From Coq Require Import ZArith List Bool Lia ZifyBool.
From Verif Require Import Base BaseFacts Arith ExprSpec ExprModel LinkExprModel ExprLayout ExprTree ArithProofs
  ExprProofs ReduceProofs.
Import ListNotations.
Open Scope Z_scope.

Lemma word_le32 : forall z, is_u32 z -> exists a b c d, le32 z = [a; b; c; d] /\ word a b c d = z.
Proof.
  intros z Hz. unfold le32. do 4 eexists. split; [reflexivity|]. unfold word, is_u32 in *.
  Ltac Zify.zify_post_hook ::= Z.div_mod_to_equations. lia.
Qed.

Section Link.
Variable F : fmath.
Variable E : env.
Variable c : linkctx.
Variable id : nat -> Z.
Hypothesis HF : fmath_ok F.

Definition sees_values (ss : list nat) : Prop :=
  forall s, In s ss -> exists y, c_symbol c (u32 (id s)) = Ok y /\ v_placed y = true /\ v_value y = e_sym E s.
Definition sees_banks (ss : list nat) : Prop :=
  forall s, In s ss -> c_bank c (u32 (id s)) = Ok (Some (e_bank E s)).
Hypothesis Hpc : u32 (c_cpuLocation c + c_offset c) = u32 (e_pc E).

Lemma push_ok : forall v st, zlen st + 1 <= 256 -> pushInt v st = Ok (Entry None v :: st).
Proof.
  intros v st H. unfold pushInt, push, STACKSIZE. destruct (zlen st >=? 256) eqn:C; [lia|reflexivity].
Qed.
Lemma combine_ok : forall f x y z st, f x y = Ok z -> zlen st + 1 <= 256 ->
  combine f (Entry None y :: Entry None x :: st) = Ok (Entry None z :: st).
Proof. intros. unfold combine. cbn. rewrite H. cbn. apply push_ok. assumption. Qed.
Lemma unary_ok : forall f x st, zlen st + 1 <= 256 ->
  unary f (Entry None x :: st) = Ok (Entry None (f x) :: st).
Proof. intros. unfold unary. cbn. apply push_ok. assumption. Qed.
Lemma limit_ok : forall gd x y st, gd x y = true -> zlen st + 1 <= 256 ->
  limit gd (Entry None y :: Entry None x :: st) = Ok (Entry None x :: st).
Proof. intros. unfold limit. cbn. rewrite H. apply push_ok. assumption. Qed.

Lemma step_binary : forall o b x y z st, un o = false -> o <> OpBank -> is_s32 x -> is_s32 y ->
  op_code o = Some b -> op_meaning F o x y = Some z -> zlen st + 1 <= 256 ->
  step F c b (Entry None y :: Entry None x :: st) = Ok (Entry None z :: st).
Proof.
  intros o b x y z st Hu Hb Hx Hy Hc Hm Hst.
  destruct o; try discriminate; try congruence; cbn in Hc; injection Hc as <-; cbn [step];
    cbn [op_meaning] in Hm;
    try (apply combine_ok; [|assumption]).
  - apply (proj1 (chk_inr _ _ Hm)).
  - apply (proj1 (chk_inr _ _ Hm)).
  - injection Hm as <-. rewrite c_xor_ok by assumption. reflexivity.
  - injection Hm as <-. rewrite c_or_ok by assumption. reflexivity.
  - injection Hm as <-. rewrite c_and_ok by assumption. reflexivity.
  - apply shl_ok, Hm.
  - apply shr_ok, Hm.
  - apply chk_inr in Hm. apply Hm.
  - apply div_ok, Hm.
  - apply mod_ok; assumption.
  - injection Hm as <-. reflexivity.
  - injection Hm as <-. reflexivity.
  - injection Hm as <-. rewrite Z.geb_leb. reflexivity.
  - injection Hm as <-. rewrite Z.gtb_ltb. reflexivity.
  - injection Hm as <-. reflexivity.
  - injection Hm as <-. reflexivity.
  - injection Hm as <-. reflexivity.
  - injection Hm as <-. reflexivity.
  - destruct (y <=? x) eqn:C; [|discriminate]. injection Hm as <-. apply limit_ok; [lia|assumption].
  - destruct (x <=? y) eqn:C; [|discriminate]. injection Hm as <-. apply limit_ok; [lia|assumption].
  - destruct (y =? 0); [discriminate|]. injection Hm as <-. reflexivity.
  - injection Hm as <-. reflexivity.
  - injection Hm as <-. reflexivity.
  - destruct (y =? 0) eqn:C; [discriminate|]. injection Hm as <-. apply limit_ok; [|assumption].
    unfold truth. rewrite C. reflexivity.
Qed.
Lemma step_unary : forall o b x z st, un o = true -> op_code o = Some b -> un_meaning F o x = Some z ->
  zlen st + 1 <= 256 -> step F c b (Entry None x :: st) = Ok (Entry None z :: st).
Proof.
  intros o b x z st Hu Hc Hm Hst.
  destruct o; try discriminate; cbn in Hc; try discriminate; injection Hc as <-; cbn [step];
    rewrite unary_ok by assumption;
    cbn [un_meaning] in Hm; injection Hm as <-; try reflexivity.
  unfold truth. rewrite negb_involutive. reflexivity.
Qed.

Lemma calc_step : forall b rest st, b <> 30 -> b <> 31 -> b <> 33 ->
  calc F c (b :: rest) st = let! st' := step F c b st in calc F c rest st'.
Proof.
  intros b rest st H1 H2 H3. cbn [calc].
  destruct (b =? 30) eqn:C1; [lia|]. destruct (b =? 31) eqn:C2; [lia|]. destruct (b =? 33) eqn:C3; [lia|].
  reflexivity.
Qed.
Lemma op_code_plain : forall o b, o <> OpBank -> op_code o = Some b -> b <> 30 /\ b <> 31 /\ b <> 33.
Proof. intros o b Hb H. destruct o; try congruence; cbn in H; try discriminate; injection H as <-; lia. Qed.

Variable w : world.
Variable base : nat -> Z.
Hypothesis HE : env_ok w base E.

Lemma calc_write : forall e bs v, opf e -> writeExpression id e = Ok bs -> den F E e = Some v ->
  sees_values (svals e) -> sees_banks (sbanks e) ->
  forall rest st, zlen st + depth e <= 256 ->
  calc F c (bs ++ rest) st = calc F c rest (Entry None v :: st).
Proof.
  induction e as [|t cc o v s l IHl r IHr]; [intros ? ? []|].
  intros bs z Ho Hw Hd Hsv Hsb rest st Hst. destruct t.
  - pose proof Ho as Ho'.
    apply opf_split in Ho' as [-> [(-> & -> & ->)|[(Hnb & Hnn & Hu & -> & Or)|(Hnb & Hnn & Hu & Ol & Or)]]].
    + cbn in Hd. injection Hd as <-. cbn [writeExpression bind op_code] in Hw. injection Hw as <-.
      destruct (word_le32 (u32 (id s)) (u32_range _)) as (a & b & d & e & HW & HV).
      rewrite HW. cbn [app calc]. change (33 =? 30) with false. change (33 =? 31) with false.
      change (33 =? 33) with true. cbv iota. rewrite HV.
      rewrite (Hsb s (or_introl eq_refl)). cbn [bind]. rewrite push_ok by (cbn in Hst; lia). reflexivity.
    + rewrite den_un in Hd by assumption. destruct (den F E r) as [y|] eqn:DR; [|discriminate].
      cbn [writeExpression] in Hw. cbn [bind] in Hw.
      destruct (writeExpression id r) as [br| |] eqn:WR; try discriminate. cbn [bind] in Hw.
      destruct (op_code o) as [b|] eqn:OC; [|discriminate].
      assert (Hbs : bs = br ++ [b]) by (destruct o; try congruence; injection Hw as <-; reflexivity).
      subst bs. rewrite <- app_assoc. cbn [app].
      assert (Hdep : zlen st + depth r <= 256).
      { cbn [depth] in Hst. rewrite Hu in Hst. destruct o; try congruence; exact Hst. }
      rewrite (IHr br y Or eq_refl eq_refl); auto.
      * destruct (op_code_plain o b Hnb OC) as (N1 & N2 & N3). rewrite calc_step by assumption.
        pose proof (opf_depth_pos r Or).
        rewrite (step_unary o b y z) by (assumption || lia). reflexivity.
      * intros q Hq. apply Hsb. cbn. destruct o; try congruence; exact Hq.
    + rewrite den_bin in Hd by assumption.
      destruct (den F E l) as [x|] eqn:DL; [|discriminate].
      destruct (den F E r) as [y|] eqn:DR; [|discriminate].
      cbn [writeExpression] in Hw.
      destruct (writeExpression id l) as [bl| |] eqn:WL; try discriminate. cbn [bind] in Hw.
      destruct (writeExpression id r) as [br| |] eqn:WR; try discriminate. cbn [bind] in Hw.
      destruct (op_code o) as [b|] eqn:OC; [|discriminate].
      assert (Hbs : bs = bl ++ br ++ [b]) by (destruct o; try congruence; injection Hw as <-; reflexivity).
      subst bs. rewrite <- !app_assoc. cbn [app].
      assert (Hdep : zlen st + Z.max (depth l) (1 + depth r) <= 256).
      { cbn [depth] in Hst. rewrite Hu in Hst. destruct o; try congruence; exact Hst. }
      assert (HsbL : sees_banks (sbanks l) /\ sees_banks (sbanks r)).
      { split; intros q Hq; apply Hsb; cbn; destruct o; try congruence; apply in_or_app; auto. }
      destruct HsbL as [HsbL HsbR].
      rewrite (IHl bl x Ol eq_refl eq_refl); auto; [|intros q Hq; apply Hsv; cbn; apply in_or_app; auto|lia].
      rewrite (IHr br y Or eq_refl eq_refl); auto;
        [|intros q Hq; apply Hsv; cbn; apply in_or_app; auto|rewrite zlen_cons; lia].
      destruct (op_code_plain o b Hnb OC) as (N1 & N2 & N3). rewrite calc_step by assumption.
      pose proof (opf_depth_pos r Or).
      assert (Hx : is_s32 x) by (eapply den_s32 with (e := l); eassumption).
      assert (Hy : is_s32 y) by (eapply den_s32 with (e := r); eassumption).
      rewrite (step_binary o b x y z) by (assumption || lia). reflexivity.
  - pose proof Ho as Ho'. cbn in Ho'. destruct Ho' as (-> & Ol & Or). cbn [den] in Hd.
    destruct (den F E l) as [x|] eqn:DL; [|discriminate].
    destruct (den F E r) as [y|] eqn:DR; [|discriminate].
    cbn [writeExpression] in Hw.
    destruct (writeExpression id l) as [bl| |] eqn:WL; try discriminate. cbn [bind] in Hw.
    destruct (writeExpression id r) as [br| |] eqn:WR; try discriminate. cbn [bind] in Hw.
    injection Hw as <-. rewrite <- !app_assoc. cbn [app]. cbn [depth] in Hst.
    rewrite (IHl bl x Ol eq_refl eq_refl);
      [|intros q Hq; apply Hsv; cbn; apply in_or_app; auto
       |intros q Hq; apply Hsb; cbn; apply in_or_app; auto|lia].
    rewrite (IHr br y Or eq_refl eq_refl);
      [|intros q Hq; apply Hsv; cbn; apply in_or_app; auto
       |intros q Hq; apply Hsb; cbn; apply in_or_app; auto|rewrite zlen_cons; lia].
    pose proof (opf_depth_pos r Or).
    rewrite calc_step by lia. cbn [step]. unfold pc_rel.
    unfold pcrel_meaning in Hd. destruct (inr (y + x)) as [q|] eqn:Q; [|discriminate].
    destruct (inr (x - e_pc E)); [|discriminate].
    rewrite (combine_ok c_add x y q st) by
      (try lia; unfold c_add; rewrite Z.add_comm; apply (proj1 (chk_inr _ _ Q))).
    cbn [bind popInt en_value].
    apply inr_s32 in Hd as [Hz ->].
    assert (HS : s32 (q - (c_cpuLocation c + c_offset c)) = q - e_pc E).
    { rewrite <- (s32_id (q - e_pc E)) by assumption. apply s32_eq. apply u32_sub; [reflexivity|assumption]. }
    rewrite HS, push_ok by lia. reflexivity.
  - pose proof Ho as Ho'. cbn in Ho'. destruct Ho' as (-> & Hv & -> & ->). injection Hd as <-.
    cbn [writeExpression bind] in Hw. injection Hw as <-.
    destruct (word_le32 (u32 v) (u32_range _)) as (a & b & d & e & HW & HV).
    rewrite HW. cbn [app calc]. change (30 =? 30) with true. cbv iota. rewrite HV, s32_u32, s32_id by assumption.
    rewrite push_ok by (cbn in Hst; lia). reflexivity.
  - pose proof Ho as Ho'. cbn in Ho'. destruct Ho' as (-> & -> & ->). injection Hd as <-.
    cbn [writeExpression bind] in Hw. injection Hw as <-.
    destruct (word_le32 (u32 (id s)) (u32_range _)) as (a & b & d & e & HW & HV).
    rewrite HW. cbn [app calc]. change (31 =? 30) with false. change (31 =? 31) with true. cbv iota. rewrite HV.
    destruct (Hsv s (or_introl eq_refl)) as (y & Hy & Hp & Hval).
    unfold push_symbol. rewrite Hy. cbn [bind]. rewrite Hp, Hval. rewrite push_ok by (cbn in Hst; lia). reflexivity.
  - destruct Ho.
Qed.

(** Writing fails only for the BIT operator, which has no code. *)
Fixpoint has_bit (e : expr) : bool :=
  match e with
  | ENull => false
  | ENode t _ o _ _ l r =>
      match t, o with TOperation, OpBit => true | _, _ => has_bit l || has_bit r end
  end.
Lemma write_total : forall e, opf e -> has_bit e = false -> exists bs, writeExpression id e = Ok bs.
Proof.
  induction e as [|t cc o v s l IHl r IHr]; [intros []|]. intros Ho Hb. destruct t.
  - pose proof Ho as Ho'.
    apply opf_split in Ho' as [-> [(-> & -> & ->)|[(Hnb & Hnn & Hu & -> & Or)|(Hnb & Hnn & Hu & Ol & Or)]]].
    + cbn. eauto.
    + assert (Hr : has_bit r = false) by (cbn in Hb; destruct o; try discriminate; exact Hb).
      destruct (IHr Or Hr) as [br WR]. cbn [writeExpression bind]. rewrite WR. cbn [bind].
      destruct (op_code o) eqn:OC; [eauto|]. destruct o; try discriminate.
    + assert (Hr : has_bit l = false /\ has_bit r = false).
      { cbn in Hb. destruct o; try discriminate; apply orb_false_elim in Hb; exact Hb. }
      destruct Hr as [Hbl Hbr]. destruct (IHr Or Hbr) as [br WR]. destruct (IHl Ol Hbl) as [bl WL].
      cbn [writeExpression]. rewrite WL, WR. cbn [bind].
      destruct (op_code o) eqn:OC; [eauto|]. destruct o; try discriminate; congruence.
  - cbn in Ho. destruct Ho as (_ & Ol & Or).
    assert (Hr : has_bit l = false /\ has_bit r = false) by (cbn in Hb; apply orb_false_elim in Hb; exact Hb).
    destruct Hr as [Hbl Hbr]. destruct (IHr Or Hbr) as [br WR]. destruct (IHl Ol Hbl) as [bl WL].
    cbn [writeExpression]. rewrite WL, WR. cbn [bind]. eauto.
  - cbn in Ho. destruct Ho as (_ & _ & -> & ->). cbn. eauto.
  - cbn in Ho. destruct Ho as (_ & -> & ->). cbn. eauto.
  - destruct Ho.
Qed.
End Link.
