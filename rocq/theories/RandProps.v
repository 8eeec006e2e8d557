(** C42: random numbers. *)
From Coq Require Import ZArith List Bool Lia.
From Verif Require Import Base BaseFacts Arith RandModel RandProofs.
Import ListNotations.
Open Scope Z_scope.

(** rand(lower,upper) lies in [lower;upper], whatever the seed.  Partial: the range
    must have fewer than 2^31 values and end below 2^31-1 (see the refutations). *)
Theorem C42_range_partial : forall lower upper s,
  is_s32 lower -> is_s32 upper -> is_u32 s ->
  lower <= upper -> upper < 2 ^ 31 - 1 -> upper - lower + 1 < 2 ^ 31 ->
  exists v s', rand lower upper s = Ok (v, s') /\ lower <= v <= upper /\ is_u32 s'.
Proof.
  intros lo hi s Hl Hh Hs L M W. rewrite rand_value by auto. do 2 eexists. split; [reflexivity|].
  pose proof (Z.mod_pos_bound (nextSeed s) (hi - lo + 1) ltac:(lia)). split; [lia|apply nextSeed_u32; auto].
Qed.

(** Every value of the range comes up for some seed: neither end is left out. *)
Theorem C42_every_value_partial : forall lower upper v,
  is_s32 lower -> is_s32 upper -> lower <= v <= upper -> upper < 2 ^ 31 - 1 -> upper - lower + 1 < 2 ^ 31 ->
  exists s s', is_u32 s /\ rand lower upper s = Ok (v, s').
Proof.
  intros lo hi v Hl Hh V M W.
  destruct (nextSeed_onto (v - lo)) as (p & Hp & E); [unfold is_u32, is_s32 in *; lia|].
  exists p, (v - lo). split; [exact Hp|]. rewrite rand_value by (auto; lia). rewrite E.
  rewrite Z.mod_small by lia. f_equal. f_equal. lia.
Qed.

(** The new seed determines the old one: two different seeds never run together, so
    the sequence is periodic from the start, and a seed other than 0 never becomes 0. *)
Theorem C42_seed_permutation : forall lo1 hi1 lo2 hi2 a b v w s,
  is_u32 a -> is_u32 b -> rand lo1 hi1 a = Ok (v, s) -> rand lo2 hi2 b = Ok (w, s) -> a = b.
Proof.
  intros lo1 hi1 lo2 hi2 a b v w s A B H1 H2. apply rand_seed in H1. apply rand_seed in H2.
  apply nextSeed_inj; congruence.
Qed.
Theorem C42_seed_nonzero : forall lo hi s v s', is_u32 s -> s <> 0 -> rand lo hi s = Ok (v, s') -> s' <> 0.
Proof.
  intros lo hi s v s' Hs N H E. subst s'.
  assert (Z0 : rand 0 0 0 = Ok (0, 0)) by reflexivity.
  apply N. apply (C42_seed_permutation _ _ _ _ s 0 _ _ 0 Hs ltac:(unfold is_u32; lia) H Z0).
Qed.

(** Writing the value of __RANDSEED back with RANDSEED replays the sequence, and the
    seed set by RANDSEED is all that the numbers depend on. *)
Theorem C42_replay : forall s bounds vs s', is_u32 s -> draws bounds s = Ok (vs, s') ->
  draws bounds (setSeed (seedSymbol s)) = Ok (vs, s') /\
  is_u32 s' /\ setSeed (seedSymbol s') = s'.
Proof.
  intros s bounds vs s' Hs H. split; [|split].
  - unfold setSeed, seedSymbol. rewrite u32_s32, u32_id by auto. exact H.
  - apply (draws_u32 bounds s vs s' Hs H).
  - unfold setSeed, seedSymbol. rewrite u32_s32. apply u32_id, (draws_u32 bounds s vs s' Hs H).
Qed.

(** A range that ends at the largest integer, or has 2^31 values or more, is undefined;
    so is an empty range. *)
Theorem C42_wide_range_refuted : forall s,
  rand 0 (2 ^ 31 - 1) s = UB /\ rand (- 2 ^ 30) (2 ^ 30) s = UB /\ rand 1 0 s = UB.
Proof. intros s. repeat split. Qed.
(** After RANDSEED 0 every number is the lower bound. *)
Theorem C42_zero_seed_refuted : forall lo hi, is_s32 lo -> is_s32 hi -> lo <= hi -> hi < 2 ^ 31 - 1 -> hi - lo + 1 < 2 ^ 31 ->
  rand lo hi (setSeed 0) = Ok (lo, setSeed 0).
Proof.
  intros lo hi Hl Hh L M W. change (setSeed 0) with 0. rewrite rand_value by (auto; unfold is_u32; lia).
  change (nextSeed 0) with 0. rewrite Z.mod_0_l by lia. f_equal. f_equal. lia.
Qed.
(** Bounds in the wrong order are not refused: the value lies in neither range. *)
Theorem C42_reversed_refuted : exists v s, rand 10 5 initialSeed = Ok (v, s) /\ ~ (5 <= v <= 10).
Proof. do 2 eexists. split; [vm_compute; reflexivity|]. lia. Qed.

Example C42_example : is_u32 initialSeed /\
  draws [(1, 6); (1, 6); (-100, 100); (0, 255)] initialSeed = Ok ([5; 6; 38; 50], 1902161458).
Proof. split; [unfold is_u32, initialSeed; lia|vm_compute; reflexivity]. Qed.

Print Assumptions C42_range_partial.
Print Assumptions C42_every_value_partial.
Print Assumptions C42_seed_permutation.
Print Assumptions C42_seed_nonzero.
Print Assumptions C42_replay.
Print Assumptions C42_wide_range_refuted.
Print Assumptions C42_zero_seed_refuted.
Print Assumptions C42_reversed_refuted.
