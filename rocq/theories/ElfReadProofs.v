(** Proofs about the linker's reader of ELF objects: the tables of the file. *)
From Coq Require Import String ZArith List Bool Lia ZifyBool ZifyNat Sorted.
From Verif Require Import Base BaseFacts Arith AssignModel LinkExprModel LinkModel LinkSpec ResolveProofs ObjModel
  MdefModel ElfModel ElfSpec ElfProofs ElfProofs2 ElfReadModel ElfReadSpec.
Import ListNotations.
Open Scope string_scope.
Open Scope list_scope.
Open Scope Z_scope.

(** ** Loops *)
Lemma mapr_nth : forall A B (g : A -> res B) l m, length l = length m ->
  (forall i a b, nth_error l i = Some a -> nth_error m i = Some b -> g a = Ok b) -> mapr g l = Ok m.
Proof.
  intros A B g. induction l as [|a l IH]; intros [|b m] L H; cbn in L; try discriminate; [reflexivity|]. cbn [mapr].
  rewrite (H 0%nat a b eq_refl eq_refl). cbn [bind]. rewrite (IH m); [reflexivity|lia|]. intros i x y X Y. apply (H (S i)); assumption.
Qed.
Lemma mapr_choice : forall A B (g : A -> res B) (R : nat -> A -> B -> Prop) l,
  (forall i a, nth_error l i = Some a -> exists b, g a = Ok b /\ R i a b) ->
  exists m, mapr g l = Ok m /\ length m = length l /\ forall i a b, nth_error l i = Some a -> nth_error m i = Some b -> R i a b.
Proof.
  intros A B g R l H. destruct (nth_choice _ _ (fun i a b => g a = Ok b /\ R i a b) l H) as [m [L M]]. exists m. split; [|split; [exact L|]].
  - apply mapr_nth; [auto|]. intros i a b X Y. apply (M i a b X Y).
  - intros i a b X Y. apply (M i a b X Y).
Qed.
Lemma foldr_inv : forall A B (g : A -> B -> res B) (P : nat -> B -> Prop) l b0, P 0%nat b0 ->
  (forall i a b, nth_error l i = Some a -> P i b -> exists b', g a b = Ok b' /\ P (S i) b') ->
  exists b', foldr g l b0 = Ok b' /\ P (length l) b'.
Proof.
  intros A B g P l. revert P. induction l as [|a l IH]; intros P b0 H0 H; cbn [foldr length].
  - exists b0. auto.
  - destruct (H 0%nat a b0 eq_refl H0) as [b1 [E1 P1]]. rewrite E1. cbn [bind]. apply (IH (fun i b => P (S i) b) b1 P1).
    intros i x b X Y. apply (H (S i)); assumption.
Qed.
Lemma seq_nth_error : forall n i k, nth_error (seq 0 n) i = Some k -> k = i /\ (i < n)%nat.
Proof.
  intros n i k H. assert (L : (i < n)%nat) by (rewrite <- (seq_length n 0); apply nth_error_Some; congruence).
  apply nth_error_nth with (d := 0%nat) in H. rewrite seq_nth in H by exact L. lia.
Qed.
Lemma numbered_nth : forall A (l : list A) m i a, nth_error (numbered l) m = Some (i, a) -> i = m /\ nth_error l m = Some a.
Proof.
  intros A l m i a H. unfold numbered in H.
  assert (G : forall (s : list nat) (l : list A) m i a, nth_error (List.combine s l) m = Some (i, a) -> nth_error s m = Some i /\ nth_error l m = Some a).
  { clear. induction s as [|x s IH]; intros [|y l] [|m] i a H; cbn in H; try discriminate; [injection H as -> ->; auto|]. apply IH in H. auto. }
  apply G in H. destruct H as [H1 H2]. apply seq_nth_error in H1. split; [apply H1|exact H2].
Qed.
Lemma numbered_length : forall A (l : list A), length (numbered l) = length l.
Proof. intros A l. unfold numbered. rewrite combine_length, seq_length. apply Nat.min_id. Qed.

(** ** Numbers *)
Lemma slice_len : forall f k n l, slice f k n = l -> zlen l = n -> 0 < n -> 0 <= k -> k + n <= zlen f.
Proof.
  intros f k n l E L N K. subst l. unfold slice, zlen in *. rewrite firstn_length, skipn_length in L. lia.
Qed.
Lemma slice_full : forall f k n, 0 <= k -> 0 <= n -> k + n <= zlen f -> zlen (slice f k n) = n.
Proof. intros f k n K N L. unfold slice, zlen in *. rewrite firstn_length, skipn_length. lia. Qed.
Lemma half_get : forall big f k v, half_at big f k v -> fget_half f big k = Ok v.
Proof.
  intros big f k v [V [_ E]]. unfold fget_half. rewrite E. destruct big; cbn [be16 le16]; f_equal; Z.div_mod_to_equations; lia.
Qed.
Lemma word_get : forall big f k v, word_at big f k v -> fget_word f big k = Ok v.
Proof.
  intros big f k v [V [_ E]]. unfold fget_word. rewrite E. destruct big; cbn [be32 le32]; unfold word_of; f_equal; Z.div_mod_to_equations; lia.
Qed.
Lemma word_len : forall big f k v, word_at big f k v -> 0 <= k /\ k + 4 <= zlen f.
Proof.
  intros big f k v [V [K E]]. split; [exact K|]. apply (slice_len _ _ _ _ E); [|lia|exact K]. destruct big; reflexivity.
Qed.
Lemma byte_get : forall f k v, slice f k 1 = [v] -> fget_byte f k = Ok v.
Proof. intros f k v E. unfold fget_byte. rewrite E. reflexivity. Qed.
Lemma byte_some : forall f k, 0 <= k -> k + 1 <= zlen f -> exists v, fget_byte f k = Ok v.
Proof.
  intros f k K L. pose proof (slice_full f k 1 K ltac:(lia) L) as Q. unfold fget_byte. unfold zlen in Q.
  destruct (slice f k 1) as [|a [|b r]]; cbn in Q; try lia. eauto.
Qed.
Lemma word_some : forall big f k, 0 <= k -> k + 4 <= zlen f -> exists v, fget_word f big k = Ok v.
Proof.
  intros big f k K L. pose proof (slice_full f k 4 K ltac:(lia) L) as Q. unfold fget_word. unfold zlen in Q.
  destruct (slice f k 4) as [|a [|b [|c [|d [|e r]]]]]; cbn in Q; try lia. eauto.
Qed.
Lemma fread_ok : forall f h, inside f h -> fread f (sh_offset h) (sh_size h) = Ok (contents f h).
Proof.
  intros f h [O [Z0 L]]. unfold fread. rewrite slice_full by lia. rewrite Z.eqb_refl. reflexivity.
Qed.

(** ** The header of the file *)
Lemma readHeader_ok : forall big f hs names, elf32 big 4 f hs names ->
  exists off, readHeader f = Ok (big, off, 40, zlen hs, names) /\
    forall k h, nth_error hs k = Some h -> header_at big f (off + 40 * Z.of_nat k) h.
Proof.
  intros big f hs names [ID TY MA VE EH SE SN SX [off [OF HD]] NU].
  exists off. split; [|exact HD].
  assert (B : slice f 4 1 = [1] /\ slice f 5 1 = [if big then 2 else 1] /\ slice f 6 1 = [1]).
  { unfold slice in *. change (Z.to_nat 0) with 0%nat in ID. change (Z.to_nat 7) with 7%nat in ID. cbn [skipn] in ID.
    do 7 (destruct f as [|? f]; [discriminate ID|]). cbn [firstn] in ID. injection ID as -> -> -> -> -> -> ->. repeat split; reflexivity. }
  destruct B as [B4 [B5 B6]].
  unfold readHeader. rewrite (byte_get _ _ _ B4), (byte_get _ _ _ B5), (byte_get _ _ _ B6). cbn [bind].
  replace ((if big then 2 else 1) =? 2) with big by (destruct big; reflexivity).
  replace (negb (1 =? 1) || negb (1 =? 1)) with false by reflexivity.
  replace (negb ((if big then 2 else 1) =? 1) && negb big) with false by (destruct big; reflexivity).
  rewrite (half_get _ _ _ _ TY), (half_get _ _ _ _ MA), (word_get _ _ _ _ VE), (word_get _ _ _ _ OF),
    (half_get _ _ _ _ EH), (half_get _ _ _ _ SE), (half_get _ _ _ _ SN), (half_get _ _ _ _ SX). reflexivity.
Qed.
Lemma readSectionHeader_ok : forall big f q h, header_at big f q h -> readSectionHeader f big q = Ok h.
Proof.
  intros big f q h H. unfold header_at, words_at in H. unfold readSectionHeader.
  rewrite <- (Z.add_0_r q) at 1.
  rewrite (word_get _ _ (q + 0) _ (H 0%nat _ eq_refl)). cbn [bind].
  rewrite (word_get _ _ (q + 4) _ (H 1%nat _ eq_refl)). cbn [bind].
  rewrite (word_get _ _ (q + 8) _ (H 2%nat _ eq_refl)). cbn [bind].
  rewrite (word_get _ _ (q + 12) _ (H 3%nat _ eq_refl)). cbn [bind].
  rewrite (word_get _ _ (q + 16) _ (H 4%nat _ eq_refl)). cbn [bind].
  rewrite (word_get _ _ (q + 20) _ (H 5%nat _ eq_refl)). cbn [bind].
  rewrite (word_get _ _ (q + 24) _ (H 6%nat _ eq_refl)). cbn [bind].
  rewrite (word_get _ _ (q + 28) _ (H 7%nat _ eq_refl)). cbn [bind].
  rewrite (word_get _ _ (q + 32) _ (H 8%nat _ eq_refl)). cbn [bind].
  rewrite (word_get _ _ (q + 36) _ (H 9%nat _ eq_refl)). cbn [bind]. destruct h. reflexivity.
Qed.
Lemma readSectionHeaders_ok : forall big f off hs, zlen f < 2 ^ 32 ->
  (forall k h, nth_error hs k = Some h -> header_at big f (off + 40 * Z.of_nat k) h) ->
  readSectionHeaders f big off 40 (zlen hs) = Ok hs.
Proof.
  intros big f off hs L H. unfold readSectionHeaders. unfold zlen at 1. rewrite Nat2Z.id. apply mapr_nth; [apply seq_length|].
  intros i a b A B. apply seq_nth_error in A. destruct A as [-> _]. pose proof (H _ _ B) as HB.
  replace (off + Z.of_nat i * 40) with (off + 40 * Z.of_nat i) by lia. pose proof (word_len _ _ _ _ (HB 0%nat _ eq_refl)) as Q.
  rewrite u32_small by (unfold is_u32; lia). apply readSectionHeader_ok. exact HB.
Qed.

(** ** Strings *)
Lemma terminated_ok : forall s r, Forall (fun b => b <> 0) s -> terminated (s ++ 0 :: r) = Some s.
Proof.
  induction s as [|b s IH]; intros r H; cbn; [reflexivity|]. inversion H; subst. destruct (b =? 0) eqn:E; [lia|]. rewrite IH by assumption. reflexivity.
Qed.
Lemma getString_ok : forall t k s, string_at t k s -> getString t k = Ok s.
Proof.
  intros t k s [K [N E]]. pose proof (zlen_nonneg _ s) as S0.
  assert (L : k + (zlen s + 1) <= zlen t) by (apply (slice_len _ _ _ _ E); [rewrite zlen_app; reflexivity|lia|exact K]).
  unfold getString. destruct (zlen t <=? k) eqn:Q; [lia|]. unfold slice in E.
  rewrite <- (firstn_skipn (Z.to_nat (zlen s + 1)) (skipn (Z.to_nat k) t)), E, <- app_assoc. cbn [app]. rewrite terminated_ok by exact N. reflexivity.
Qed.

(** ** Tables *)
Definition raw_symbol (strings : list Z) (idx : list Z) (y : esymbol) (x : rsym) : Prop :=
  rs_name x = [] /\ rs_section x = None /\ rs_nameindex x <> 0 /\ string_at strings (rs_nameindex x) (ey_name y) /\
  rs_value x = u32 (ey_value y) /\ rs_type x <> STT_SECTION /\
  match ey_where y with Undefined => rs_shndx x = 0 | Absolute => rs_shndx x = 0xfff1 | Within k => nth_error idx k = Some (rs_shndx x) end.
Definition raw_reloc (r : ereloc) (x : rrel) : Prop :=
  x = RRel (er_offset r) (s32 (er_addend r)) (1 + Z.of_nat (er_symbol r)) (if er_relative r then 4 else 1).
Lemma readSymbol_ok : forall big f strings idx q y, symbol_at big f strings idx q y -> exists x, readSymbol f big q = Ok x /\ raw_symbol strings idx y x.
Proof.
  intros big f strings idx q y [[n [N [N0 NS]]] [V [[ty [T B]] [i [I W]]]]].
  pose proof (word_len _ _ _ _ N) as [Q0 _].
  assert (QL : q + 14 + 2 <= zlen f).
  { destruct I as [_ [I0 IE]]. apply (slice_len _ _ _ _ IE); [destruct big; reflexivity|lia|lia]. }
  unfold readSymbol. rewrite (word_get _ _ _ _ N). cbn [bind]. rewrite (word_get _ _ _ _ V). cbn [bind].
  destruct (word_some big f (q + 8) ltac:(lia) ltac:(lia)) as [w ->]. cbn [bind]. rewrite (byte_get _ _ _ B). cbn [bind].
  destruct (byte_some f (q + 13) ltac:(lia) ltac:(lia)) as [b ->]. cbn [bind]. rewrite (half_get _ _ _ _ I). cbn [bind].
  eexists. split; [reflexivity|]. unfold raw_symbol. cbn [rs_name rs_section rs_nameindex rs_value rs_type rs_shndx].
  repeat (split; [first [reflexivity|assumption]|]). split; [|exact W].
  change 15 with (Z.ones 4). rewrite Z.land_ones by lia. unfold STT_SECTION. destruct (ey_global y); Z.div_mod_to_equations; lia.
Qed.
Lemma null_symbol : forall big f q, slice f q 16 = repeat 0 16 -> 0 <= q -> readSymbol f big q = Ok (RSym [] None 0 0 0 0).
Proof.
  intros big f q E Q.
  assert (G : exists a r, f = a ++ repeat 0 16 ++ r /\ length a = Z.to_nat q).
  { unfold slice in E. change (Z.to_nat 16) with 16%nat in E. exists (firstn (Z.to_nat q) f), (skipn 16 (skipn (Z.to_nat q) f)). split.
    - rewrite <- E, firstn_skipn, firstn_skipn. reflexivity.
    - rewrite firstn_length. assert (length (firstn 16 (skipn (Z.to_nat q) f)) = 16%nat) by (rewrite E; reflexivity).
      rewrite firstn_length, skipn_length in H. lia. }
  destruct G as [a [r [-> LA]]].
  assert (S : forall k n, (k + n <= 16)%nat -> slice (a ++ repeat 0 16 ++ r) (q + Z.of_nat k) (Z.of_nat n) = repeat 0 n).
  { intros k n KN. unfold slice. replace (Z.to_nat (q + Z.of_nat k)) with (length a + k)%nat by lia. rewrite Nat2Z.id.
    rewrite skipn_app. rewrite skipn_all2 by lia. replace (length a + k - length a)%nat with k by lia. cbn [app].
    replace 16%nat with (k + (n + (16 - k - n)))%nat by lia. rewrite !repeat_app, <- !app_assoc.
    rewrite skipn_app, skipn_all2 by (rewrite repeat_length; lia). rewrite repeat_length, Nat.sub_diag. cbn [skipn app].
    rewrite firstn_app, firstn_all2 by (rewrite repeat_length; lia). rewrite repeat_length, Nat.sub_diag. cbn [firstn]. apply app_nil_r. }
  unfold readSymbol, fget_word, fget_byte, fget_half.
  rewrite <- (Z.add_0_r q) at 1.
  pose proof (S 0%nat 4%nat ltac:(lia)) as S0. pose proof (S 4%nat 4%nat ltac:(lia)) as S4. pose proof (S 8%nat 4%nat ltac:(lia)) as S8.
  pose proof (S 12%nat 1%nat ltac:(lia)) as S12. pose proof (S 13%nat 1%nat ltac:(lia)) as S13. pose proof (S 14%nat 2%nat ltac:(lia)) as S14.
  cbn [Z.of_nat Pos.of_succ_nat Pos.succ] in S0, S4, S8, S12, S13, S14.
  rewrite S0, S4, S8, S12, S13, S14. destruct big; reflexivity.
Qed.
Lemma readRelA_ok : forall big f q r, reloc_at big f q r -> exists x, readRelA f big q = Ok x /\ raw_reloc r x.
Proof.
  intros big f q r H. unfold reloc_at, words_at in H. unfold readRelA. replace (fget_word f big q) with (fget_word f big (q + 0)) by (rewrite Z.add_0_r; reflexivity).
  rewrite (word_get _ _ (q + 0) _ (H 0%nat _ eq_refl)). cbn [bind]. rewrite (word_get _ _ (q + 4) _ (H 1%nat _ eq_refl)). cbn [bind].
  rewrite (word_get _ _ (q + 8) _ (H 2%nat _ eq_refl)). cbn [bind]. eexists. split; [reflexivity|]. unfold raw_reloc.
  rewrite s32_u32. f_equal; destruct (er_relative r); Z.div_mod_to_equations; lia.
Qed.
Lemma entries_ok : forall A (g : Z -> res A) (h : shdr) (n : nat) (R : nat -> A -> Prop) size,
  0 < size -> sh_entsize h = size -> sh_size h = size * Z.of_nat n -> 0 <= sh_offset h -> sh_offset h + sh_size h < 2 ^ 32 ->
  (forall i, (i < n)%nat -> exists x, g (sh_offset h + size * Z.of_nat i) = Ok x /\ R i x) ->
  exists l, entries g h (sh_size h / sh_entsize h) = Ok l /\ length l = n /\ forall i x, nth_error l i = Some x -> R i x.
Proof.
  intros A g h n R size S0 ES SZ O L H. unfold entries. rewrite ES, SZ.
  replace (size * Z.of_nat n / size) with (Z.of_nat n) by (rewrite Z.mul_comm, Z.div_mul by lia; reflexivity). rewrite Nat2Z.id.
  destruct (mapr_choice _ _ (fun i => g (u32 (sh_offset h + Z.of_nat i * size))) (fun i _ x => R i x) (seq 0 n)) as [m [M [LM RM]]].
  - intros i a I. apply seq_nth_error in I. destruct I as [-> I]. rewrite u32_small by (unfold is_u32; nia).
    replace (sh_offset h + Z.of_nat i * size) with (sh_offset h + size * Z.of_nat i) by lia. apply H. exact I.
  - exists m. rewrite seq_length in LM. split; [exact M|]. split; [exact LM|]. intros i x I.
    assert (LI : (i < n)%nat) by (rewrite <- LM; apply nth_error_Some; congruence).
    apply (RM i i x); [|exact I]. rewrite (nth_error_nth' _ 0%nat) by (rewrite seq_length; exact LI). rewrite seq_nth by exact LI. reflexivity.
Qed.
