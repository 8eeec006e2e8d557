(** Lemmas about the vocabulary of Base.v. *)
From Coq Require Import ZArith List Bool Lia ZifyBool ZifyNat.
From Verif Require Import Base.
Import ListNotations.
Open Scope Z_scope.
Ltac Zify.zify_post_hook ::= Z.div_mod_to_equations.

Lemma beq_eq : forall a b, beq a b = true <-> a = b.
Proof.
  induction a as [|x a IH]; intros [|y b]; cbn; split; intro H; try easy.
  - apply andb_true_iff in H as [H1 H2]. apply IH in H2.
    apply Z.eqb_eq in H1. now subst.
  - inversion H; subst. rewrite Z.eqb_refl. now apply IH.
Qed.

Lemma beq_refl : forall a, beq a a = true.
Proof. intro a. now apply beq_eq. Qed.

Lemma beq_neq : forall a b, beq a b = false <-> a <> b.
Proof.
  intros a b. destruct (beq a b) eqn:E.
  - apply beq_eq in E. split; intros; [discriminate|contradiction].
  - split; auto. intros _ H. apply beq_eq in H. congruence.
Qed.

Lemma get32_le32 : forall v s, is_u32 v -> get32 (le32 v ++ s) = Some (v, s).
Proof.
  intros v s H. unfold get32, le32, is_u32 in *. cbn [app].
  do 2 f_equal. lia.
Qed.

Lemma le32_bytes : forall v, bytes (le32 v).
Proof. intro v. unfold le32, bytes, is_byte. repeat constructor; lia. Qed.
Lemma le16_bytes : forall v, bytes (le16 v).
Proof. intro v. unfold le16, bytes, is_byte. repeat constructor; lia. Qed.
Lemma be32_bytes : forall v, bytes (be32 v).
Proof. intro v. unfold be32, bytes, is_byte. repeat constructor; lia. Qed.
Lemma be16_bytes : forall v, bytes (be16 v).
Proof. intro v. unfold be16, bytes, is_byte. repeat constructor; lia. Qed.

Lemma take_app : forall d s, take (length d) (d ++ s) = Some (d, s).
Proof. induction d as [|b d IH]; intro s; cbn; [reflexivity|now rewrite IH]. Qed.

Lemma take_app' : forall n d s, n = length d -> take n (d ++ s) = Some (d, s).
Proof. intros; subst. apply take_app. Qed.

Lemma take_inv : forall n s d r,
  take n s = Some (d, r) -> s = d ++ r /\ length d = n.
Proof.
  induction n as [|n IH]; intros [|b s] d r H; cbn in H;
    try (inversion H; subst; auto; fail).
  destruct (take n s) as [[d' r']|] eqn:E; [|discriminate].
  inversion H; subst. destruct (IH _ _ _ E) as [-> <-]. auto.
Qed.

Lemma getsz_app : forall n s, cstr n -> getsz (n ++ 0 :: s) = Some (n, s).
Proof.
  induction n as [|b n IH]; intros s H; cbn; [reflexivity|].
  inversion H; subst.
  destruct (b =? 0) eqn:E; [lia|]. now rewrite IH.
Qed.

Lemma zlen_app : forall A (a b : list A), zlen (a ++ b) = zlen a + zlen b.
Proof. intros. unfold zlen. rewrite app_length. lia. Qed.
Lemma zlen_cons : forall A (a : A) b, zlen (a :: b) = 1 + zlen b.
Proof. intros. unfold zlen. cbn [length]. lia. Qed.
Lemma zlen_nil : forall A, zlen (@nil A) = 0.
Proof. reflexivity. Qed.
Lemma zlen_nonneg : forall A (l : list A), 0 <= zlen l.
Proof. intros. unfold zlen. lia. Qed.

Lemma bytes_app : forall a b, bytes (a ++ b) <-> bytes a /\ bytes b.
Proof. intros. unfold bytes. apply Forall_app. Qed.

Lemma sum_app : forall a b, sum (a ++ b) = sum a + sum b.
Proof. induction a; intros; cbn; [reflexivity|]. rewrite IHa. lia. Qed.

Lemma u32_id : forall z, is_u32 z -> u32 z = z.
Proof. unfold u32, is_u32. intros. now apply Z.mod_small. Qed.
Lemma u32_range : forall z, is_u32 (u32 z).
Proof. unfold u32, is_u32. intros. lia. Qed.
Lemma s32_id : forall z, is_s32 z -> s32 z = z.
Proof. unfold s32, is_s32. intros. lia. Qed.
Lemma s32_range : forall z, is_s32 (s32 z).
Proof. unfold s32, is_s32. intros. lia. Qed.
Lemma s32_u32 : forall z, s32 (u32 z) = s32 z.
Proof. unfold s32, u32. intros. rewrite <- (Zplus_mod_idemp_l z). reflexivity. Qed.
Lemma u32_s32 : forall z, u32 (s32 z) = u32 z.
Proof.
  unfold s32, u32. intros.
  rewrite Zminus_mod_idemp_l. f_equal. lia.
Qed.
Lemma s32_eq : forall a b, u32 a = u32 b -> s32 a = s32 b.
Proof. intros. rewrite <- (s32_u32 a), <- (s32_u32 b). now rewrite H. Qed.

Lemma app_inj_len : forall A (a b c d : list A),
  length a = length c -> a ++ b = c ++ d -> a = c /\ b = d.
Proof.
  induction a as [|x a IH]; intros b [|y c] d L H; cbn in *; try discriminate; auto.
  inversion H; subst. injection L as L. destruct (IH _ _ _ L H2); subst; auto.
Qed.
