(** Facts about file contents. *)
From Coq Require Import ZArith List Bool Lia ZifyBool ZifyNat.
From Verif Require Import Base BaseFacts FileModel.
Import ListNotations.
Open Scope Z_scope.

(** The byte at offset [k]; 0 outside. *)
Definition byte (d : list Z) (k : Z) : Z := nth (Z.to_nat k) d 0.

Lemma byte_ext : forall a b, zlen a = zlen b -> (forall k, 0 <= k < zlen a -> byte a k = byte b k) -> a = b.
Proof.
  intros a b L H. apply (nth_ext a b 0 0).
  - unfold zlen in L. lia.
  - intros n N. specialize (H (Z.of_nat n)). unfold byte, zlen in H. rewrite Nat2Z.id in H. apply H. lia.
Qed.
Lemma byte_over : forall d k, zlen d <= k -> byte d k = 0.
Proof. intros d k H. apply nth_overflow. unfold zlen in H. lia. Qed.
Lemma byte_app : forall a b k, 0 <= k -> byte (a ++ b) k = if k <? zlen a then byte a k else byte b (k - zlen a).
Proof.
  intros a b k K. unfold byte, zlen. destruct (k <? Z.of_nat (length a)) eqn:E.
  - apply app_nth1. lia.
  - rewrite app_nth2 by lia. f_equal. lia.
Qed.
Lemma byte_repeat : forall c n k, 0 <= k < Z.of_nat n -> byte (repeat c n) k = c.
Proof. intros c n k K. unfold byte. rewrite nth_indep with (d' := c) by (rewrite repeat_length; lia). apply nth_repeat. Qed.
Lemma byte_repeat0 : forall n k, byte (repeat 0 n) k = 0.
Proof. intros n k. unfold byte. apply nth_repeat. Qed.
Lemma byte_firstn : forall d n k, 0 <= k -> byte (firstn n d) k = if k <? Z.of_nat n then byte d k else 0.
Proof.
  intros d n k K. unfold byte. destruct (k <? Z.of_nat n) eqn:E.
  - rewrite <- (firstn_skipn n d) at 2.
    destruct (Nat.lt_ge_cases (Z.to_nat k) (length (firstn n d))) as [L|G].
    + symmetry. apply app_nth1. auto.
    + rewrite nth_overflow by auto. rewrite firstn_length in G. symmetry. apply nth_overflow.
      rewrite firstn_skipn. lia.
  - apply nth_overflow. rewrite firstn_length. lia.
Qed.
Lemma byte_skipn : forall d n k, 0 <= k -> byte (skipn n d) k = byte d (k + Z.of_nat n).
Proof.
  intros d n k K. unfold byte. rewrite <- (firstn_skipn n d) at 2.
  destruct (Nat.le_gt_cases n (length d)) as [L|G].
  - rewrite app_nth2; rewrite firstn_length; [f_equal; lia|lia].
  - rewrite !nth_overflow; auto.
    + rewrite firstn_skipn. lia.
    + rewrite skipn_length. lia.
Qed.
Lemma byte_map : forall (f : Z -> Z) a n k, 0 <= k < Z.of_nat n -> byte (map f (zseq a n)) k = f (a + k).
Proof.
  intros f a n. revert a. induction n as [|n IH]; intros a k K; [lia|].
  cbn [zseq map]. destruct (Z.eq_dec k 0) as [->|N].
  - cbn. f_equal. lia.
  - unfold byte in *. replace (Z.to_nat k) with (S (Z.to_nat (k - 1))) by lia. cbn [nth].
    rewrite IH by lia. f_equal. lia.
Qed.
Lemma zseq_length : forall n a, length (zseq a n) = n.
Proof. induction n as [|n IH]; intro a; cbn; auto. Qed.
Lemma zlen_map_zseq : forall (f : Z -> Z) a n, zlen (map f (zseq a n)) = Z.of_nat n.
Proof. intros f a n. unfold zlen. now rewrite map_length, zseq_length. Qed.
Lemma zlen_repeat : forall (c : Z) n, zlen (repeat c n) = Z.of_nat n.
Proof. intros. unfold zlen. now rewrite repeat_length. Qed.

Lemma overwrite_byte : forall d p bs k, 0 <= p -> 0 <= k ->
  byte (overwrite d p bs) k = if (p <=? k) && (k <? p + zlen bs) then byte bs (k - p) else byte d k.
Proof.
  intros d p bs k P K. destruct bs as [|c bs'].
  - cbn [overwrite]. change (zlen []) with 0. destruct ((p <=? k) && (k <? p + 0)) eqn:E; [lia|reflexivity].
  - unfold overwrite. set (bs := c :: bs'). pose proof (zlen_nonneg _ bs). pose proof (zlen_nonneg _ d).
    assert (LF : zlen (firstn (Z.to_nat p) (d ++ repeat 0 (Z.to_nat (p - zlen d)))) = p).
    { unfold zlen. rewrite firstn_length, app_length, repeat_length. unfold zlen in *. lia. }
    rewrite byte_app by auto. rewrite LF.
    destruct (k <? p) eqn:E1.
    + rewrite byte_firstn by auto. destruct (k <? Z.of_nat (Z.to_nat p)) eqn:E2; [|lia].
      rewrite byte_app by auto. destruct ((p <=? k) && (k <? p + zlen bs)) eqn:E3; [lia|].
      destruct (k <? zlen d) eqn:E4; [reflexivity|]. rewrite byte_repeat0. symmetry. apply byte_over. lia.
    + rewrite byte_app by lia. destruct ((p <=? k) && (k <? p + zlen bs)) eqn:E3.
      * destruct (k - p <? zlen bs) eqn:E4; [reflexivity|lia].
      * destruct (k - p <? zlen bs) eqn:E4; [lia|]. rewrite byte_skipn by lia. f_equal. lia.
Qed.
Lemma overwrite_zlen : forall d p bs, 0 <= p ->
  zlen (overwrite d p bs) = if zlen bs =? 0 then zlen d else Z.max (zlen d) (p + zlen bs).
Proof.
  intros d p [|c bs'] P; [reflexivity|]. unfold overwrite. set (bs := c :: bs').
  assert (zlen bs > 0) by (unfold bs; rewrite zlen_cons; pose proof (zlen_nonneg _ bs'); lia).
  destruct (zlen bs =? 0) eqn:E; [lia|]. rewrite !zlen_app.
  assert (zlen (firstn (Z.to_nat p) (d ++ repeat 0 (Z.to_nat (p - zlen d)))) = p) as ->.
  { unfold zlen. rewrite firstn_length, app_length, repeat_length. unfold zlen in *. lia. }
  assert (zlen (skipn (Z.to_nat (p + zlen bs)) d) = Z.max 0 (zlen d - (p + zlen bs))).
  { unfold zlen. rewrite skipn_length. unfold zlen in *. lia. }
  lia.
Qed.
Lemma overwrite_end : forall d bs, overwrite d (zlen d) bs = d ++ bs.
Proof.
  intros d bs. pose proof (zlen_nonneg _ d). pose proof (zlen_nonneg _ bs).
  apply byte_ext.
  - rewrite overwrite_zlen, zlen_app by auto. destruct (zlen bs =? 0) eqn:E; lia.
  - intros k K. rewrite overwrite_byte by lia. rewrite byte_app by lia.
    rewrite overwrite_zlen in K by auto.
    destruct (zlen bs =? 0) eqn:E0.
    + destruct ((zlen d <=? k) && (k <? zlen d + zlen bs)) eqn:E, (k <? zlen d) eqn:E2; try lia; reflexivity.
    + destruct ((zlen d <=? k) && (k <? zlen d + zlen bs)) eqn:E, (k <? zlen d) eqn:E2; try lia; reflexivity.
Qed.
Lemma overwrite_middle : forall a b c p bs, p = zlen a -> zlen bs = zlen b ->
  overwrite (a ++ b ++ c) p bs = a ++ bs ++ c.
Proof.
  intros a b c p bs -> L. pose proof (zlen_nonneg _ a). pose proof (zlen_nonneg _ b). pose proof (zlen_nonneg _ c).
  apply byte_ext.
  - rewrite overwrite_zlen by auto. rewrite !zlen_app. destruct (zlen bs =? 0) eqn:E; lia.
  - intros k K. rewrite overwrite_byte by lia. rewrite (byte_app a (b ++ c)), (byte_app a (bs ++ c)) by lia.
    destruct (k <? zlen a) eqn:E1.
    + destruct ((zlen a <=? k) && (k <? zlen a + zlen bs)) eqn:E; [lia|reflexivity].
    + rewrite !byte_app by lia. destruct ((zlen a <=? k) && (k <? zlen a + zlen bs)) eqn:E.
      * destruct (k - zlen a <? zlen bs) eqn:E2; [reflexivity|lia].
      * destruct (k - zlen a <? zlen b) eqn:E2; [lia|]. destruct (k - zlen a <? zlen bs) eqn:E3; [lia|].
        now rewrite L.
Qed.
