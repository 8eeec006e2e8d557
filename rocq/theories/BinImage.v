(** Proofs about the files written as raw binary and as Verilog. *)
From Coq Require Import ZArith List Bool Lia ZifyBool Znumtheory.
From Verif Require Import Base BaseFacts Arith ExprModel ObjWriteModel SectModel BinModel BinSpec BinProofs.
Import ListNotations.
Open Scope Z_scope.

Definition sound (m : msect) : Prop :=
  0 <= m_used m /\ 0 <= m_position m /\ m_position m + m_used m < 2 ^ 32 /\ (has_data m = true -> zlen (m_data m) = m_used m).

Lemma ordered_low : forall l a b, a <= b -> ordered b l -> ordered a l.
Proof. intros [|m l] a b H O; [exact I|]. cbn [ordered] in *. split; [lia|apply O]. Qed.
Lemma ordered_all : forall l a m, ordered a l -> Forall sound l -> In m l -> a <= m_position m.
Proof.
  induction l as [|x l IH]; [intros ? ? ? ? []|]; intros a m O S [<-|H]; cbn [ordered] in O; [lia|].
  inversion S as [|? ? (X & _) SL]; subst. specialize (IH _ m (proj2 O) SL H). lia.
Qed.
Lemma zlen_repeat : forall n, zlen (repeat 0 n) = Z.of_nat n.
Proof. intros n. unfold zlen. rewrite repeat_length. reflexivity. Qed.
Lemma byte_repeat : forall n i, byte (repeat 0 n) i = 0.
Proof. intros n i. unfold byte. generalize (Z.to_nat i). induction n; intros [|k]; cbn; auto. Qed.

Lemma write_image : forall l last, Forall sound l -> ordered last l -> image_of last l (writeSections binary_bytes last l).
Proof.
  induction l as [|m l IH]; intros last SO O; cbn [writeSections].
  - unfold image_of. split; [intros ? ? []|]. split; [intros i H; unfold zlen in H; cbn in H; lia|].
    split; [intros ? []|left; reflexivity].
  - inversion SO as [|? ? SM SL]; subst. pose proof SM as (S1 & S2 & S3 & S4). cbn [ordered] in O. destruct O as [O1 O2].
    destruct (has_data m) eqn:D.
    + specialize (S4 eq_refl). rewrite u32_id by lia. set (p := m_position m) in *. set (u := m_used m) in *.
      destruct (IH (p + u) SL O2) as (I1 & I2 & I3 & I4). set (out := writeSections binary_bytes (p + u) l) in *.
      unfold binary_bytes. set (zs := repeat 0 (Z.to_nat (p - last))).
      assert (LZ : zlen zs = p - last) by (unfold zs; rewrite zlen_repeat; lia).
      assert (LO : zlen (zs ++ m_data m ++ out) = p - last + u + zlen out) by (rewrite !zlen_app; lia).
      pose proof (zlen_nonneg Z out) as NO.
      assert (BY : forall i, 0 <= i -> byte (zs ++ m_data m ++ out) i =
        if i <? p - last then 0 else if i <? p - last + u then byte (m_data m) (i - (p - last)) else byte out (i - (p - last + u))).
      { intros i I. rewrite byte_app, LZ by assumption. destruct (i <? p - last) eqn:A; [apply byte_repeat|].
        rewrite byte_app, S4 by lia. replace (i - (p - last) <? u) with (i <? p - last + u) by lia.
        destruct (i <? p - last + u); [reflexivity|]. f_equal. lia. }
      assert (LOW : forall x, In x l -> p + u <= m_position x) by (intros x X; eapply ordered_all; eassumption).
      unfold image_of. rewrite LO. split; [|split; [|split]].
      * intros x i [<-|X] DX I.
        -- fold p u in I |- *. split; [lia|]. rewrite BY by lia.
           replace (p - last + i <? p - last) with false by lia. replace (p - last + i <? p - last + u) with true by lia. f_equal. lia.
        -- destruct (I1 x i X DX I) as [J1 J2]. specialize (LOW x X). split; [lia|]. rewrite BY by lia.
           replace (m_position x - last + i <? p - last) with false by lia.
           replace (m_position x - last + i <? p - last + u) with false by lia.
           rewrite <- J2. f_equal. lia.
      * intros i I N. rewrite BY by lia. destruct (i <? p - last) eqn:A; [reflexivity|].
        destruct (i <? p - last + u) eqn:B.
        -- exfalso. apply (N m (or_introl eq_refl)). unfold covers_at. fold p u. split; [exact D|lia].
        -- apply I2; [lia|]. intros x X C. apply (N x (or_intror X)). unfold covers_at in *. split; [apply C|]. destruct C; lia.
      * intros x [<-|X] DX; [fold p u; lia|]. specialize (I3 x X DX). lia.
      * right. destruct I4 as [I4|(x & X & DX & E)].
        -- exists m. split; [left; reflexivity|]. split; [exact D|]. fold p u. lia.
        -- exists x. split; [right; exact X|]. split; [exact DX|]. lia.
    + assert (O3 : ordered last l) by (eapply ordered_low; [|exact O2]; lia).
      destruct (IH last SL O3) as (I1 & I2 & I3 & I4). split; [|split; [|split]].
      * intros x i [<-|X] DX I; [congruence|]. apply I1; assumption.
      * intros i I N. apply I2; [assumption|]. intros x X. apply N. right; exact X.
      * intros x [<-|X] DX; [congruence|]. apply I3; assumption.
      * destruct I4 as [I4|(x & X & R)]; [left; exact I4|]. right. exists x. split; [right; exact X|exact R].
Qed.

(** ** Verilog *)
Lemma hex_value : forall d, 0 <= d < 16 -> digit_value (hex_digit d) = Some d.
Proof.
  intros d H. unfold hex_digit, digit_value. destruct (d <? 10) eqn:E.
  - replace ((48 <=? 48 + d) && (48 + d <=? 57)) with true by lia. f_equal. lia.
  - replace ((48 <=? 55 + d) && (55 + d <=? 57)) with false by lia.
    replace ((65 <=? 55 + d) && (55 + d <=? 70)) with true by lia. f_equal. lia.
Qed.
Lemma verilog_reads : forall bs, bytes bs -> readmemh (verilog_bytes bs) = Some bs.
Proof.
  induction bs as [|b bs IH]; intros B; [reflexivity|]. inversion B as [|? ? B1 B2]; subst. unfold is_byte in B1.
  cbn [verilog_bytes flat_map app readmemh]. fold (verilog_bytes bs).
  rewrite !hex_value by (Z.div_mod_to_equations; lia). cbn [obind]. rewrite (IH B2). cbn [obind]. change (10 =? 10) with true. cbn match.
  repeat f_equal. Z.div_mod_to_equations; lia.
Qed.
Lemma verilog_app : forall a b, verilog_bytes (a ++ b) = verilog_bytes a ++ verilog_bytes b.
Proof. intros a b. unfold verilog_bytes. apply flat_map_app. Qed.
Lemma write_verilog : forall l last, writeSections verilog_bytes last l = verilog_bytes (writeSections binary_bytes last l).
Proof.
  induction l as [|m l IH]; intros last; cbn [writeSections]; [reflexivity|]. destruct (has_data m); [|apply IH].
  rewrite !verilog_app, IH. reflexivity.
Qed.
Lemma write_bytes : forall l last, Forall (fun m => bytes (m_data m)) l -> bytes (writeSections binary_bytes last l).
Proof.
  induction l as [|m l IH]; intros last B; cbn [writeSections]; [constructor|]. inversion B as [|? ? BM BL]; subst.
  destruct (has_data m); [|apply IH; assumption]. unfold binary_bytes. apply bytes_app. split.
  - generalize (Z.to_nat (m_position m - last)). intros n. induction n; cbn [repeat]; constructor; [unfold is_byte; lia|assumption].
  - apply bytes_app. split; [exact BM|]. apply IH. exact BL.
Qed.
Lemma poke_bytes : forall k bs d, bytes bs -> bytes d -> bytes (poke k bs d).
Proof.
  induction k as [|k IH]; intros bs d B D; cbn [poke].
  - apply bytes_app. split; [exact B|]. revert D. generalize (length bs). intros n. revert d. induction n; intros [|x d] D; cbn [skipn]; try assumption.
    apply IHn. inversion D; assumption.
  - destruct d as [|x d]; [constructor|]. inversion D; subst. constructor; [assumption|apply IH; assumption].
Qed.
Lemma patch_bytes_bytes : forall t z bs, patch_bytes t z = Ok bs -> bytes bs.
Proof.
  intros t z bs H. unfold patch_bytes in H.
  repeat match type of H with (if ?b then _ else _) = _ => destruct b end; try discriminate; injection H as <-;
    try apply le16_bytes; try apply be16_bytes; try apply le32_bytes; try apply be32_bytes.
  constructor; [|constructor]. unfold u8, is_byte. Z.div_mod_to_equations; lia.
Qed.
Lemma backPatch_bytes : forall F w k a ps d d' q, backPatch F w k a ps d = Ok (d', q) -> bytes d -> bytes d'.
Proof.
  intros F w k a ps; induction ps as [|p ps IH]; intros d d' q H B; cbn [backPatch] in H; [injection H as <- <-; exact B|].
  destruct (reduceExpression F w k a (ap_offset p) (ap_expr p)) as [[[z|] e]| |]; try discriminate; cbn [bind] in H.
  - destruct (patch_bytes (ap_type p) z) as [bs| |] eqn:P; try discriminate; cbn [bind] in H.
    destruct (ap_offset p + zlen bs >? zlen d); [discriminate|]. eapply IH; [exact H|]. apply poke_bytes; [|exact B].
    eapply patch_bytes_bytes; exact P.
  - destruct (backPatch F w k a ps d) as [[d1 q1]| |] eqn:BP; try discriminate. cbn [bind] in H. injection H as <- <-. eapply IH; eassumption.
Qed.

(** ** The whole run *)
Lemma relocate_nth : forall sections l ys r y, relocate_all sections l = Ok ys -> nth_error l r = Some y ->
  exists s, nth_error ys r = Some s /\ relocate sections y = Ok s.
Proof.
  intros sections l; induction l as [|x l IH]; intros ys r y H N; cbn [relocate_all] in H; [destruct r; discriminate|].
  destruct (relocate sections x) as [s| |] eqn:R; try discriminate. cbn [bind] in H.
  destruct (relocate_all sections l) as [t| |] eqn:T; try discriminate. cbn [bind] in H. injection H as <-.
  destruct r as [|r]; cbn [nth_error] in *; [injection N as <-; eauto|]. eapply IH; [reflexivity|exact N].
Qed.

Lemma write_inv : forall f F st l' out, internalWrite f F st = Ok (Some (l', out)) ->
  exists l ys first r,
    place (b_wordSize st) (b_machine st) (b_align st) 0 (b_sections st) = Ok (Some l) /\
    relocate_all l (b_symbols st) = Ok ys /\
    patch_BackPatch F (World (fun r => nth r ys no_symbol) (map m_sect l)) 0 l = Ok l' /\
    l' = first :: r /\ out = writeSections f (m_position first) l'.
Proof.
  intros f F st l' out H. unfold internalWrite, commonPatch in H. destruct (b_sections st) as [|x xs] eqn:B; [discriminate|].
  destruct (needsOrg (x :: xs) && negb (a_loadfixed (m_sect x) || a_bankfixed (m_sect x))); [discriminate|].
  destruct (place (b_wordSize st) (b_machine st) (b_align st) 0 (x :: xs)) as [[l|]| |]; try discriminate. cbn [bind] in H.
  destruct (relocate_all l (b_symbols st)) as [ys| |] eqn:Y; try discriminate. cbn [bind] in H.
  destruct (patch_BackPatch _ _ _ l) as [l2| |] eqn:P; try discriminate. cbn [bind] in H.
  destruct l2 as [|f1 r]; [discriminate|]. injection H as <- <-. exists l, ys, f1, r. auto 6.
Qed.

Lemma Forall2_nth : forall A B (R : A -> B -> Prop) l l', Forall2 R l l' ->
  forall k a, nth_error l k = Some a -> exists b, nth_error l' k = Some b /\ R a b.
Proof.
  intros A B R l l' H; induction H as [|x y l l' Hx H IH]; intros [|k] a N; cbn in *; try discriminate; [injection N as <-; eauto|auto].
Qed.
Lemma Forall2_trans3 : forall A (R S T : A -> A -> Prop) l1 l2 l3, Forall2 R l1 l2 -> Forall2 S l2 l3 ->
  (forall a b c, R a b -> S b c -> T a c) -> Forall2 T l1 l3.
Proof.
  intros A R S T l1 l2 l3 H; revert l3; induction H as [|x y l1 l2 Hx H IH]; intros l3 H3 X; inversion H3; subst; constructor; eauto.
Qed.

Lemma patched_place : forall F w k l l', patch_BackPatch F w k l = Ok l' ->
  Forall (fun m => Forall (fun p => 0 <= ap_offset p) (m_patches m)) l ->
  Forall2 (fun m m' => m_used m' = m_used m /\ m_alloc m' = m_alloc m /\ m_position m' = m_position m /\ m_sect m' = m_sect m /\
    zlen (m_data m') = zlen (m_data m) /\ (bytes (m_data m) -> bytes (m_data m'))) l l'.
Proof.
  intros F w k l; revert k; induction l as [|m l IH]; intros k l' H G; cbn [patch_BackPatch] in H; [injection H as <-; constructor|].
  inversion G as [|? ? GM GL]; subst.
  destruct (backPatch F w k (m_sect m) (m_patches m) (m_data m)) as [[d ps]| |] eqn:B; try discriminate. cbn [bind] in H.
  destruct (patch_BackPatch F w (S k) l) as [r'| |] eqn:R; try discriminate. cbn [bind] in H. injection H as <-.
  constructor; [|eapply IH; eassumption]. destruct (set_data_same d ps m) as (-> & -> & -> & -> & -> & _).
  destruct (backPatch_ok _ _ _ _ _ _ _ _ B GM) as (L & _). pose proof (backPatch_bytes _ _ _ _ _ _ _ _ B). auto 7.
Qed.
