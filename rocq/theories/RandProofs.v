(** The generator is a permutation of the seeds. *)
From Coq Require Import ZArith List Bool Lia ZifyBool.
From Verif Require Import Base BaseFacts Arith RandModel.
Import ListNotations.
Open Scope Z_scope.

Definition back1 (s : Z) : Z := u32 (Z.lxor s (Z.lxor (Z.shiftl s 13) (Z.shiftl s 26))).
Definition back2 (s : Z) : Z := Z.lxor s (Z.shiftr s 17).
Definition back3 (s : Z) : Z :=
  u32 (Z.lxor s (Z.lxor (Z.shiftl s 5) (Z.lxor (Z.shiftl s 10) (Z.lxor (Z.shiftl s 15)
    (Z.lxor (Z.shiftl s 20) (Z.lxor (Z.shiftl s 25) (Z.shiftl s 30))))))).

Lemma bit_u32 : forall z i, 0 <= i -> Z.testbit (u32 z) i = (i <? 32) && Z.testbit z i.
Proof.
  intros z i H. unfold u32. destruct (Z.ltb_spec i 32).
  - rewrite Z.mod_pow2_bits_low by lia. reflexivity.
  - rewrite Z.mod_pow2_bits_high by lia. reflexivity.
Qed.
Lemma u32_bits : forall s i, is_u32 s -> 32 <= i -> Z.testbit s i = false.
Proof. intros s i H L. rewrite <- (u32_id s H), bit_u32 by lia. destruct (Z.ltb_spec i 32); [lia|reflexivity]. Qed.
Lemma bits_u32 : forall s, (forall i, 32 <= i -> Z.testbit s i = false) -> 0 <= s -> is_u32 s.
Proof.
  intros s H L. assert (E : s = u32 s).
  { apply Z.bits_inj'. intros i Hi. rewrite bit_u32 by lia. destruct (Z.ltb_spec i 32); [reflexivity|apply H; lia]. }
  rewrite E. apply u32_range.
Qed.
Lemma xor_u32 : forall a b, is_u32 a -> is_u32 b -> is_u32 (Z.lxor a b).
Proof.
  intros a b A B. apply bits_u32.
  - intros i H. rewrite Z.lxor_spec, (u32_bits a), (u32_bits b); auto.
  - apply Z.lxor_nonneg. unfold is_u32 in *. lia.
Qed.
Lemma shr_u32 : forall a n, is_u32 a -> 0 <= n -> is_u32 (Z.shiftr a n).
Proof.
  intros a n A L. unfold is_u32 in *. rewrite Z.shiftr_div_pow2 by lia.
  assert (0 < 2 ^ n) by (apply Z.pow_pos_nonneg; lia). split; [apply Z.div_pos; lia|].
  apply Z.le_lt_trans with a; [|lia]. apply Z.div_le_upper_bound; nia.
Qed.
Lemma step1_u32 : forall s, is_u32 s -> is_u32 (step1 s).
Proof. intros. apply xor_u32; auto. apply u32_range. Qed.
Lemma step2_u32 : forall s, is_u32 s -> is_u32 (step2 s).
Proof. intros. apply xor_u32; auto. apply shr_u32; auto. lia. Qed.
Lemma step3_u32 : forall s, is_u32 s -> is_u32 (step3 s).
Proof. intros. apply xor_u32; auto. apply u32_range. Qed.
Lemma nextSeed_u32 : forall s, is_u32 s -> is_u32 (nextSeed s).
Proof. intros. apply step3_u32, step2_u32, step1_u32; auto. Qed.

Lemma tb_u32 : forall z i, Z.testbit (u32 z) i = (i <? 32) && Z.testbit z i.
Proof.
  intros z i. destruct (Z.ltb_spec i 0) as [L|L]; [|apply bit_u32; lia].
  rewrite !Z.testbit_neg_r by lia. symmetry. apply andb_false_r.
Qed.
Lemma tb_shl : forall z n i, 0 <= n -> Z.testbit (Z.shiftl z n) i = Z.testbit z (i - n).
Proof.
  intros z n i H. destruct (Z.ltb_spec i 0) as [L|L]; [|apply Z.shiftl_spec; lia].
  rewrite !Z.testbit_neg_r by lia. reflexivity.
Qed.
Lemma low32 : forall a b, is_u32 a -> is_u32 b ->
  (forall i, 0 <= i < 32 -> Z.testbit a i = Z.testbit b i) -> a = b.
Proof.
  intros a b A B H. apply Z.bits_inj'. intros i Hi. destruct (Z.ltb_spec i 32) as [L|L].
  - apply H. lia.
  - rewrite (u32_bits a), (u32_bits b); auto.
Qed.
Ltac norm i :=
  repeat match goal with
  | |- context [i - ?a - ?b] => let v := eval vm_compute in (a + b) in replace (i - a - b) with (i - v) by lia
  end.
Ltac bits s i Hi :=
  repeat first [rewrite Z.lxor_spec | rewrite tb_u32 | rewrite tb_shl by lia | rewrite Z.shiftr_spec by lia]; norm i;
  repeat match goal with
  | |- context [i <? 32] => replace (i <? 32) with true by lia
  | |- context [i - ?a <? 32] => replace (i - a <? 32) with true by lia
  | |- context [Z.testbit s (i - ?a)] => rewrite (Z.testbit_neg_r s (i - a)) by lia
  | |- context [Z.testbit s (i + ?a + ?b)] => rewrite (u32_bits s (i + a + b)) by (assumption || lia)
  end; cbn [andb];
  repeat match goal with |- context [Z.testbit s ?x] => destruct (Z.testbit s x) end; reflexivity.

Lemma back1_u32 : forall s, is_u32 (back1 s).
Proof. intros. apply u32_range. Qed.
Lemma back3_u32 : forall s, is_u32 (back3 s).
Proof. intros. apply u32_range. Qed.

Lemma step1_back : forall s, is_u32 s -> step1 (back1 s) = s.
Proof.
  intros s H. apply low32; [apply step1_u32, back1_u32|exact H|]. intros i Hi. unfold step1, back1. bits s i Hi.
Qed.
Lemma back_step1 : forall s, is_u32 s -> back1 (step1 s) = s.
Proof. intros s H. apply low32; [apply back1_u32|exact H|]. intros i Hi. unfold step1, back1. bits s i Hi. Qed.
Lemma step2_back : forall s, is_u32 s -> step2 (step2 s) = s.
Proof. intros s H. apply low32; [apply step2_u32, step2_u32, H|exact H|]. intros i Hi. unfold step2. bits s i Hi. Qed.
Lemma step3_back : forall s, is_u32 s -> step3 (back3 s) = s.
Proof. intros s H. apply low32; [apply step3_u32, back3_u32|exact H|]. intros i Hi. unfold step3, back3. bits s i Hi. Qed.
Lemma back_step3 : forall s, is_u32 s -> back3 (step3 s) = s.
Proof. intros s H. apply low32; [apply back3_u32|exact H|]. intros i Hi. unfold step3, back3. bits s i Hi. Qed.

Lemma nextSeed_onto : forall s, is_u32 s -> exists p, is_u32 p /\ nextSeed p = s.
Proof.
  intros s H. exists (back1 (step2 (back3 s))). split; [apply back1_u32|]. unfold nextSeed.
  rewrite step1_back by (apply step2_u32, back3_u32). rewrite step2_back by apply back3_u32. apply step3_back, H.
Qed.
Lemma nextSeed_inj : forall a b, is_u32 a -> is_u32 b -> nextSeed a = nextSeed b -> a = b.
Proof.
  intros a b A B E. unfold nextSeed in E. apply (f_equal back3) in E.
  rewrite !back_step3 in E by auto using step2_u32, step1_u32.
  apply (f_equal step2) in E. rewrite !step2_back in E by auto using step1_u32.
  apply (f_equal back1) in E. rewrite !back_step1 in E by auto. exact E.
Qed.

Lemma rand_value : forall lo hi s, is_s32 lo -> is_s32 hi -> is_u32 s -> lo <= hi -> hi < 2 ^ 31 - 1 -> hi - lo + 1 < 2 ^ 31 ->
  rand lo hi s = Ok (lo + nextSeed s mod (hi - lo + 1), nextSeed s).
Proof.
  intros lo hi s Hl Hh Hs L M W. unfold rand, c_add, c_sub, chk, is_s32 in *.
  assert (E1 : (- 2 ^ 31 <=? 1 + hi) && (1 + hi <? 2 ^ 31) = true) by lia. rewrite E1. cbn [bind].
  assert (E2 : (- 2 ^ 31 <=? 1 + hi - lo) && (1 + hi - lo <? 2 ^ 31) = true) by lia. rewrite E2. cbn [bind].
  rewrite (u32_id (1 + hi - lo)) by (unfold is_u32; lia).
  destruct (Z.eqb_spec (1 + hi - lo) 0); [lia|]. f_equal. f_equal.
  rewrite s32_u32. replace (1 + hi - lo) with (hi - lo + 1) by lia.
  pose proof (Z.mod_pos_bound (nextSeed s) (hi - lo + 1) ltac:(lia)) as B.
  set (m := nextSeed s mod (hi - lo + 1)) in *. clearbody m.
  assert (E : s32 (m + u32 lo) = s32 (lo + m)).
  { apply s32_eq. unfold u32. rewrite Zplus_mod_idemp_r. f_equal. lia. }
  rewrite E. apply s32_id. unfold is_s32. lia.
Qed.
Lemma rand_seed : forall lo hi a v s, rand lo hi a = Ok (v, s) -> s = nextSeed a.
Proof.
  intros lo hi a v s H. unfold rand in H.
  destruct (c_add 1 hi) as [x| |]; cbn [bind] in H; try discriminate.
  destruct (c_sub x lo) as [y| |]; cbn [bind] in H; try discriminate.
  destruct (u32 y =? 0); [discriminate|]. congruence.
Qed.
Lemma draws_u32 : forall bounds s vs s', is_u32 s -> draws bounds s = Ok (vs, s') -> is_u32 s'.
Proof.
  induction bounds as [|(lo, hi) r IH]; intros s vs s' Hs H; cbn [draws] in H.
  - injection H as <- <-. exact Hs.
  - destruct (rand lo hi s) as [(v, s1)| |] eqn:R; cbn [bind] in H; try discriminate.
    destruct (draws r s1) as [(vs', s2)| |] eqn:D; cbn [bind] in H; try discriminate.
    injection H as <- <-. apply (IH s1 vs'); [|exact D]. rewrite (rand_seed _ _ _ _ _ R). apply nextSeed_u32, Hs.
Qed.
