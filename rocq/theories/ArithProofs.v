(** The three implementations of arithmetic agree with the meaning of operators. *)
From Coq Require Import ZArith List Bool Lia ZifyBool.
From Verif Require Import Base BaseFacts Arith ExprSpec ExprModel.
Import ListNotations.
Open Scope Z_scope.

Lemma u32_low_bits : forall z n, 0 <= n -> Z.testbit (u32 z) n = if n <? 32 then Z.testbit z n else false.
Proof.
  intros z n Hn. unfold u32. destruct (n <? 32) eqn:E.
  - apply Z.mod_pow2_bits_low. lia.
  - apply Z.mod_pow2_bits_high. lia.
Qed.

Lemma u32_lxor : forall a b, u32 (Z.lxor a b) = Z.lxor (u32 a) (u32 b).
Proof.
  intros. apply Z.bits_inj'. intros n Hn. rewrite Z.lxor_spec, !u32_low_bits by lia.
  destruct (n <? 32); [apply Z.lxor_spec|reflexivity].
Qed.
Lemma u32_lor : forall a b, u32 (Z.lor a b) = Z.lor (u32 a) (u32 b).
Proof.
  intros. apply Z.bits_inj'. intros n Hn. rewrite Z.lor_spec, !u32_low_bits by lia.
  destruct (n <? 32); [apply Z.lor_spec|reflexivity].
Qed.
Lemma u32_land : forall a b, u32 (Z.land a b) = Z.land (u32 a) (u32 b).
Proof.
  intros. apply Z.bits_inj'. intros n Hn. rewrite Z.land_spec, !u32_low_bits by lia.
  destruct (n <? 32); [apply Z.land_spec|reflexivity].
Qed.

(** A number is a 32 bit signed one when all bits from 31 on are its sign. *)
Lemma s32_bits : forall z, is_s32 z <-> (forall n, 31 <= n -> Z.testbit z n = (z <? 0)).
Proof.
  intros z. split.
  - intros [H1 H2] n Hn. destruct (z <? 0) eqn:E.
    + apply Z.bits_above_log2_neg; [lia|].
      apply Z.lt_le_trans with 31; [|lia].
      destruct (Z.eq_dec (Z.pred (- z)) 0) as [->|Hne]; [vm_compute; reflexivity|].
      apply Z.log2_lt_pow2; lia.
    + destruct (Z.eq_dec z 0) as [->|Hne]; [apply Z.bits_0|].
      apply Z.bits_above_log2; [lia|].
      apply Z.lt_le_trans with 31; [|lia]. apply Z.log2_lt_pow2; lia.
  - intros H. unfold is_s32. destruct (z <? 0) eqn:E.
    + assert (Hz : 0 <= Z.lnot z) by (unfold Z.lnot; lia).
      assert (Hm : Z.lnot z = Z.lnot z mod 2 ^ 31).
      { apply Z.bits_inj'. intros n Hn. destruct (Z_lt_ge_dec n 31).
        - rewrite Z.mod_pow2_bits_low by lia. reflexivity.
        - rewrite Z.mod_pow2_bits_high by lia. rewrite Z.lnot_spec by lia. rewrite H by lia. reflexivity. }
      pose proof (Z.mod_pos_bound (Z.lnot z) (2 ^ 31) ltac:(lia)). unfold Z.lnot in *. lia.
    + assert (Hm : z = z mod 2 ^ 31).
      { apply Z.bits_inj'. intros n Hn. destruct (Z_lt_ge_dec n 31).
        - rewrite Z.mod_pow2_bits_low by lia. reflexivity.
        - rewrite Z.mod_pow2_bits_high by lia. apply H. lia. }
      pose proof (Z.mod_pos_bound z (2 ^ 31) ltac:(lia)). lia.
Qed.

Lemma is_s32_lxor : forall a b, is_s32 a -> is_s32 b -> is_s32 (Z.lxor a b).
Proof.
  intros a b Ha Hb. apply s32_bits. intros n Hn. rewrite Z.lxor_spec.
  rewrite (proj1 (s32_bits a) Ha), (proj1 (s32_bits b) Hb) by lia.
  pose proof (Z.lxor_nonneg a b). destruct (a <? 0) eqn:A, (b <? 0) eqn:B, (Z.lxor a b <? 0) eqn:C; cbn; lia.
Qed.
Lemma is_s32_lor : forall a b, is_s32 a -> is_s32 b -> is_s32 (Z.lor a b).
Proof.
  intros a b Ha Hb. apply s32_bits. intros n Hn. rewrite Z.lor_spec.
  rewrite (proj1 (s32_bits a) Ha), (proj1 (s32_bits b) Hb) by lia.
  pose proof (Z.lor_nonneg a b). destruct (a <? 0) eqn:A, (b <? 0) eqn:B, (Z.lor a b <? 0) eqn:C; cbn; lia.
Qed.
Lemma is_s32_land : forall a b, is_s32 a -> is_s32 b -> is_s32 (Z.land a b).
Proof.
  intros a b Ha Hb. apply s32_bits. intros n Hn. rewrite Z.land_spec.
  rewrite (proj1 (s32_bits a) Ha), (proj1 (s32_bits b) Hb) by lia.
  pose proof (Z.land_nonneg a b). destruct (a <? 0) eqn:A, (b <? 0) eqn:B, (Z.land a b <? 0) eqn:C; cbn; lia.
Qed.

Lemma c_xor_ok : forall a b, is_s32 a -> is_s32 b -> c_xor a b = Z.lxor a b.
Proof.
  intros. unfold c_xor. rewrite <- u32_lxor, s32_u32. apply s32_id, is_s32_lxor; assumption.
Qed.
Lemma c_or_ok : forall a b, is_s32 a -> is_s32 b -> c_or a b = Z.lor a b.
Proof.
  intros. unfold c_or. rewrite <- u32_lor, s32_u32. apply s32_id, is_s32_lor; assumption.
Qed.
Lemma c_and_ok : forall a b, is_s32 a -> is_s32 b -> c_and a b = Z.land a b.
Proof.
  intros. unfold c_and. rewrite <- u32_land, s32_u32. apply s32_id, is_s32_land; assumption.
Qed.

Lemma chk_inr : forall z v, inr z = Some v -> chk z = Ok v /\ v = z.
Proof. unfold inr, chk. intros z v H. destruct (_ && _); inversion H. auto. Qed.
Lemma inr_s32 : forall z v, inr z = Some v -> is_s32 v /\ v = z.
Proof.
  unfold inr, is_s32. intros z v H.
  destruct ((- 2 ^ 31 <=? z) && (z <? 2 ^ 31)) eqn:E; inversion H; subst. lia.
Qed.
Lemma inr_of : forall z, is_s32 z -> inr z = Some z.
Proof.
  unfold inr, is_s32. intros z H.
  destruct ((- 2 ^ 31 <=? z) && (z <? 2 ^ 31)) eqn:E; [reflexivity|lia].
Qed.

Lemma mod_chk : forall a b, is_s32 a -> is_s32 b -> b <> 0 -> (a =? - 2 ^ 31) && (b =? -1) = false ->
  chk (Z.quot a b) = Ok (Z.quot a b).
Proof.
  intros a b Ha Hb Hb0 Hc. unfold chk.
  assert (- 2 ^ 31 <= Z.quot a b < 2 ^ 31).
  { unfold is_s32 in *.
    pose proof (Z.quot_abs a b Hb0) as Hq.
    assert (Hle : Z.abs (Z.quot a b) <= Z.abs a).
    { rewrite <- Hq. destruct (Z.eq_dec (Z.abs b) 1) as [E|E].
      - rewrite E, Z.quot_1_r. lia.
      - destruct (Z.eq_dec a 0) as [->|Ha0]; [cbn; lia|].
        apply Z.lt_le_incl, Z.quot_lt; lia. }
    destruct (Z.eq_dec a (- 2 ^ 31)) as [->|Hna]; [|lia].
    assert (b <> -1) by lia.
    split; [lia|].
    destruct (Z.eq_dec b 1) as [->|Hb1]; [rewrite Z.quot_1_r; lia|].
    assert (Z.abs (Z.quot (- 2 ^ 31) b) < 2 ^ 31); [|lia].
    rewrite <- Hq. change (Z.abs (- 2 ^ 31)) with (2 ^ 31). apply Z.quot_lt; lia. }
  destruct ((- 2 ^ 31 <=? Z.quot a b) && (Z.quot a b <? 2 ^ 31)) eqn:E; [reflexivity|lia].
Qed.

(** ** Agreement *)
Lemma shl_ok : forall a b v, (if (0 <=? b) && (b <=? 31) then Some (s32 (Z.shiftl a b)) else None) = Some v ->
  c_shl a b = Ok v.
Proof.
  intros a b v H. destruct ((0 <=? b) && (b <=? 31)) eqn:E; inversion H; subst.
  unfold c_shl. replace ((0 <=? b) && (b <? 32)) with true by lia.
  rewrite Z.shiftl_mul_pow2 by lia. reflexivity.
Qed.
Lemma shr_ok : forall a b v, (if (0 <=? b) && (b <=? 31) then Some (Z.shiftr a b) else None) = Some v ->
  c_shr a b = Ok v.
Proof.
  intros a b v H. destruct ((0 <=? b) && (b <=? 31)) eqn:E; inversion H; subst.
  unfold c_shr. replace ((0 <=? b) && (b <? 32)) with true by lia.
  rewrite Z.shiftr_div_pow2 by lia. reflexivity.
Qed.
Lemma div_ok : forall a b v, (if b =? 0 then None else inr (Z.quot a b)) = Some v -> c_div a b = Ok v.
Proof.
  intros a b v H. unfold c_div. destruct (b =? 0); [discriminate|]. apply chk_inr in H. tauto.
Qed.
Lemma mod_ok : forall a b v, is_s32 a -> is_s32 b ->
  (if b =? 0 then None else if (a =? - 2 ^ 31) && (b =? -1) then None else Some (Z.rem a b)) = Some v ->
  c_mod a b = Ok v.
Proof.
  intros a b v Ha Hb H. unfold c_mod. destruct (b =? 0) eqn:E; [discriminate|].
  destruct ((a =? - 2 ^ 31) && (b =? -1)) eqn:E2; [discriminate|].
  rewrite mod_chk by (auto; lia). cbn. congruence.
Qed.

Definition limit_op (o : op) : bool :=
  match o with OpLowLimit | OpHighLimit | OpAssert => true | _ => false end.

Lemma build_value_ok : forall F o a b v, is_s32 a -> is_s32 b -> limit_op o = false ->
  op_meaning F o a b = Some v -> build_value F o a b = Ok v.
Proof.
  intros F o a b v Ha Hb Hl H.
  destruct o; try discriminate; cbn [op_meaning build_value] in *;
    try (injection H as <-).
  - apply chk_inr in H. apply H.
  - apply chk_inr in H. apply H.
  - rewrite c_xor_ok by assumption. reflexivity.
  - rewrite c_or_ok by assumption. reflexivity.
  - rewrite c_and_ok by assumption. reflexivity.
  - apply shl_ok, H.
  - apply shr_ok, H.
  - apply chk_inr in H. apply H.
  - pose proof (div_ok a b v H). destruct (b =? 0) eqn:E; [discriminate|]. assumption.
  - pose proof (mod_ok a b v Ha Hb H). destruct (b =? 0) eqn:E; [discriminate|]. assumption.
  - reflexivity.
  - reflexivity.
  - rewrite Z.geb_leb. reflexivity.
  - rewrite Z.gtb_ltb. reflexivity.
  - reflexivity.
  - reflexivity.
  - reflexivity.
  - reflexivity.
  - destruct (b =? 0) eqn:E; [discriminate|]. injection H as <-. reflexivity.
  - reflexivity.
  - reflexivity.
Qed.

Lemma build_unary_ok : forall F o a v, is_unary o = true ->
  un_meaning F o a = Some v -> build_value F o 0 a = Ok v.
Proof.
  intros F o a v Hu H. destruct o; try discriminate; cbn in *; try (injection H as <-; reflexivity).
  injection H as <-. unfold truth. rewrite negb_involutive. reflexivity.
Qed.

Lemma reduce_value_ok : forall F o a b v, is_s32 a -> is_s32 b -> limit_op o = false ->
  op_meaning F o a b = Some v -> reduce_value F o a b = Ok v.
Proof.
  intros F o a b v Ha Hb Hl H.
  destruct o; try discriminate; cbn [op_meaning reduce_value] in *;
    try (injection H as <-).
  - apply chk_inr in H. apply H.
  - apply chk_inr in H. apply H.
  - rewrite c_xor_ok by assumption. reflexivity.
  - rewrite c_or_ok by assumption. reflexivity.
  - rewrite c_and_ok by assumption. reflexivity.
  - apply shl_ok, H.
  - apply shr_ok, H.
  - apply chk_inr in H. apply H.
  - apply div_ok, H.
  - apply mod_ok; assumption.
  - reflexivity.
  - reflexivity.
  - rewrite Z.geb_leb. reflexivity.
  - rewrite Z.gtb_ltb. reflexivity.
  - reflexivity.
  - reflexivity.
  - reflexivity.
  - reflexivity.
  - destruct (b =? 0) eqn:E; [discriminate|]. injection H as <-. reflexivity.
  - reflexivity.
  - reflexivity.
Qed.
Lemma reduce_unary_ok : forall F o a v, is_unary o = true ->
  un_meaning F o a = Some v -> reduce_value F o 0 a = Ok v.
Proof.
  intros F o a v Hu H. destruct o; try discriminate; cbn in *; try (injection H as <-; reflexivity).
  injection H as <-. unfold truth, of_bool. destruct (a =? 0); reflexivity.
Qed.

Lemma of_bool_s32 : forall b, is_s32 (of_bool b).
Proof. intros []; unfold is_s32; cbn; lia. Qed.

Lemma op_meaning_s32 : forall F o a b v, fmath_ok F -> is_s32 a -> is_s32 b ->
  op_meaning F o a b = Some v -> is_s32 v.
Proof.
  intros F o a b v HF Ha Hb H. unfold fmath_ok in HF.
  destruct o; try discriminate; cbn [op_meaning] in H; try (injection H as <-);
    try apply of_bool_s32; try (apply inr_s32 in H; tauto); try tauto.
  - apply is_s32_lxor; assumption.
  - apply is_s32_lor; assumption.
  - apply is_s32_land; assumption.
  - destruct (_ && _); inversion H. apply s32_range.
  - destruct ((0 <=? b) && (b <=? 31)) eqn:E; inversion H; subst. rewrite Z.shiftr_div_pow2 by lia.
    unfold is_s32 in *. assert (0 < 2 ^ b) by (apply Z.pow_pos_nonneg; lia). split.
    + apply Z.div_le_lower_bound; nia.
    + apply Z.div_lt_upper_bound; nia.
  - destruct (b =? 0) eqn:E; [discriminate|]. apply inr_s32 in H. tauto.
  - destruct (b =? 0) eqn:E; [discriminate|]. destruct (_ && _); inversion H; subst.
    unfold is_s32 in *. pose proof (Z.rem_bound_abs a b ltac:(lia)). lia.
  - destruct (b <=? a); inversion H; subst; assumption.
  - destruct (a <=? b); inversion H; subst; assumption.
  - destruct (b =? 0); [discriminate|]. injection H as <-. apply HF.
  - apply HF.
  - apply HF.
  - destruct (b =? 0); inversion H; subst; assumption.
Qed.
Lemma un_meaning_s32 : forall F o a v, fmath_ok F -> un_meaning F o a = Some v -> is_s32 v.
Proof.
  intros F o a v HF H. unfold fmath_ok in HF.
  destruct o; try discriminate; cbn [un_meaning] in H; try (injection H as <-);
    try apply of_bool_s32; try apply HF.
  destruct ((0 <? a mod 2 ^ 32) && (2 ^ Z.log2 (a mod 2 ^ 32) =? a mod 2 ^ 32)) eqn:E; inversion H; subst.
  apply andb_prop in E as [E _]. apply Z.ltb_lt in E.
  assert (Hb : 0 <= a mod 2 ^ 32 < 2 ^ 32) by (apply Z.mod_pos_bound; reflexivity).
  pose proof (Z.log2_nonneg (a mod 2 ^ 32)) as Hn.
  assert (Hl : Z.log2 (a mod 2 ^ 32) < 32) by (apply Z.log2_lt_pow2; [exact E|apply Hb]).
  change (Z.pow_pos 2 32) with (2 ^ 32). unfold is_s32. lia.
Qed.
