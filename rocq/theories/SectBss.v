(** Proofs about reserving space in sections without data. *)
From Coq Require Import ZArith List Bool Lia ZifyBool Permutation.
From Verif Require Import Base BaseFacts Arith ExprModel ObjWriteModel OptModel SectModel SectSpec SectProofs SectTouch SectRun.
Import ListNotations.
Open Scope Z_scope.

Definition reserves (k : nat) (st st' : xstate) (m m' : msect) (n : Z) : Prop :=
  current_section st' k m' GBss /\ section_fine GBss m' /\ same_identity m m' /\ m_patches m' = m_patches m /\
  m_used m' = m_used m + n /\ m_pc m' = u32 (m_pc m + n / x_wordSize st) /\ rest_same k st st' /\
  x_wordSize st' = x_wordSize st /\ x_opts st' = x_opts st.

Lemma reserves_refl : forall k st m, current_section st k m GBss -> section_fine GBss m -> reserves k st st m m 0.
Proof.
  intros k st m C F. unfold reserves. rewrite Zdiv_0_l, !Z.add_0_r.
  split; [exact C|]. split; [exact F|]. split; [apply same_identity_refl|]. split; [reflexivity|]. split; [reflexivity|].
  split; [symmetry; apply u32_id; apply F|]. split; [unfold rest_same; repeat split|]. split; reflexivity.
Qed.
Lemma reserves_trans : forall k a b c m m1 m2 n1 n2, reserves k a b m m1 n1 -> reserves k b c m1 m2 n2 ->
  0 < x_wordSize a -> (x_wordSize a | n1) -> reserves k a c m m2 (n1 + n2).
Proof.
  intros k a b c m m1 m2 n1 n2 (A1&A2&A3&A4&A5&A6&A7&A8&A9) (B1&B2&B3&B4&B5&B6&B7&B8&B9) W V.
  unfold reserves. split; [exact B1|]. split; [exact B2|]. split; [eapply same_identity_trans; eassumption|].
  split; [congruence|]. split; [lia|].
  split. { rewrite B6, A6, A8, u32_add. destruct V as [z ->]. rewrite Z.div_add_l, Z.div_mul by lia. f_equal. lia. }
  split; [eapply rest_same_trans; eassumption|]. split; congruence.
Qed.

Lemma skip_reserves : forall n k st m, current_section st k m GBss -> section_fine GBss m ->
  0 < x_wordSize st -> (x_wordSize st | n) -> 0 <= n -> m_used m + n < 2 ^ 32 ->
  exists st' m', sect_SkipBytes n st = Ok st' /\ reserves k st st' m m' n.
Proof.
  intros n k st m C F W V N L. unfold sect_SkipBytes. destruct (n =? 0) eqn:Z0.
  { apply Z.eqb_eq in Z0. subst n. exists st, m. split; [reflexivity|]. apply reserves_refl; assumption. }
  apply Z.eqb_neq in Z0. assert (G : x_wordSize st <= n) by (apply Z.divide_pos_le; [lia|assumption]).
  replace (x_wordSize st >? n) with false by lia.
  destruct C as (C1 & C2 & C3).
  unfold checkAvailableSpace. replace (n =? 0) with false by lia. replace (x_wordSize st >? n) with false by lia.
  rewrite C1. unfold currentSectionType at 1. rewrite C1, C2, C3. cbn [bind].
  unfold linemap_AddCurrent, the_current at 1. rewrite C1, C2. cbn [bind].
  set (m1 := set_content _ _ _ _ _ m).
  unfold currentSectionType. cbn [x_current with_sections]. rewrite C1. cbn [x_sections with_sections].
  rewrite (nth_replace_same _ _ _ _ _ C2). cbn [x_groups with_sections]. change (ws_group (m_w m1)) with (ws_group (m_w m)).
  rewrite C3. cbn [bind]. unfold the_current. cbn [x_current with_sections]. rewrite C1. cbn [x_sections with_sections].
  rewrite (nth_replace_same _ _ _ _ _ C2). cbn [bind].
  eexists. eexists. split; [reflexivity|].
  destruct F as (F1 & F2 & F3 & F4). unfold is_u32 in *.
  unfold reserves, current_section. cbn [x_current x_sections x_groups x_wordSize x_opts with_sections].
  rewrite C1. split.
  { split; [reflexivity|]. split.
    - eapply nth_replace_same. eapply nth_replace_same. exact C2.
    - exact C3. }
  split.
  { unfold section_fine. split; [apply u32_range|]. split; [apply u32_range|]. split; [exact F3|exact F4]. }
  split; [unfold same_identity; repeat split|]. split; [reflexivity|].
  split; [unfold m_used; cbn; apply u32_id; unfold is_u32; unfold m_used in *; lia|]. split; [reflexivity|].
  split; [|split; reflexivity].
  unfold rest_same. cbn [x_sections x_current x_scope x_stack x_errors with_sections].
  repeat match goal with |- _ /\ _ => split end; try reflexivity; try (symmetry; exact C1); try exact C1.
  intros j J. rewrite !nth_replace_other by exact J. reflexivity.
Qed.

Lemma pad_align : forall off a, 0 < a -> (off + a - 1) / a * a - off = pad off a.
Proof.
  intros off a A. unfold pad.
  pose proof (Z.div_mod off a ltac:(lia)). pose proof (Z.mod_pos_bound off a A).
  destruct (Z.eq_dec (off mod a) 0) as [E|E].
  - rewrite Z.mod_opp_l_z by lia. rewrite <- (Z.div_unique (off + a - 1) a (off / a) (a - 1)) by lia. lia.
  - rewrite Z.mod_opp_l_nz by lia. rewrite <- (Z.div_unique (off + a - 1) a (off / a + 1) (off mod a - 1)) by lia. lia.
Qed.
Lemma alignToNext_pad : forall off a, 0 <= off -> 0 < a -> off + a - 1 < 2 ^ 32 ->
  exists t, alignToNext off a = Ok t /\ u32 (t - off) = pad off a.
Proof.
  intros off a O A L. unfold alignToNext. replace (a =? 0) with false by lia. eexists. split; [reflexivity|].
  rewrite (u32_id (off + a - 1)) by (unfold is_u32; lia). rewrite <- pad_align by exact A.
  pose proof (Z.div_mod (off + a - 1) a ltac:(lia)). pose proof (Z.mod_pos_bound (off + a - 1) a A).
  replace (off + a - 1 - (off + a - 1) mod a) with ((off + a - 1) / a * a) by lia.
  apply u32_id. unfold is_u32. nia.
Qed.
Lemma pad_divide : forall w off a, 0 < a -> (w | off) -> (w | a) -> (w | pad off a).
Proof.
  intros w off a A O D. unfold pad. rewrite Z.mod_eq by lia.
  apply Z.divide_sub_r; [apply Z.divide_opp_r, O|]. apply Z.divide_mul_l, D.
Qed.
Lemma align_reserves : forall a k st m, current_section st k m GBss -> section_fine GBss m ->
  0 < x_wordSize st -> (x_wordSize st | m_used m) -> (x_wordSize st | a) -> 0 < a -> m_used m + a <= 2 ^ 32 ->
  exists st' m', sect_Align a st = Ok st' /\ reserves k st st' m m' (pad (m_used m) a).
Proof.
  intros a k st m C F W V V2 A L. unfold sect_Align.
  assert (G : x_wordSize st <= a) by (apply Z.divide_pos_le; [lia|assumption]). replace (x_wordSize st >? a) with false by lia.
  unfold the_current. destruct C as (C1 & C2 & C3). rewrite C1, C2. cbn [bind].
  assert (U : 0 <= m_used m) by apply F.
  destruct (alignToNext_pad (m_used m) a U A) as (t & T1 & T2); [lia|]. rewrite T1. cbn [bind]. rewrite T2.
  assert (P : 0 <= pad (m_used m) a < a) by (apply Z.mod_pos_bound; exact A).
  apply skip_reserves; try (unfold current_section; auto; fail); try lia; try assumption.
  apply pad_divide; assumption.
Qed.

Lemma dbs_reserves : forall l k st m, x_wordSize st = 1 -> Forall (fun a => a = AEmpty) l ->
  current_section st k m GBss -> section_fine GBss m -> m_used m + zlen l < 2 ^ 32 ->
  exists st' m', handleArgs (fun _ => handleDb) l st = Ok st' /\ reserves k st st' m m' (zlen l).
Proof.
  induction l as [|a l IH]; intros k st m W E C F L.
  - exists st, m. split; [reflexivity|]. apply reserves_refl; assumption.
  - inversion E; subst. assert (Q : zlen (AEmpty :: l) = 1 + zlen l) by (unfold zlen; cbn [length]; lia).
    rewrite Q in *. pose proof (zlen_nonneg _ l).
    destruct (skip_reserves 1 k st m) as (st1 & m1 & S1 & R1); try assumption; try lia; [rewrite W; apply Z.divide_refl|].
    destruct R1 as (A1&A2&A3&A4&A5&A6&A7&A8&A9).
    destruct (IH k st1 m1) as (st2 & m2 & S2 & R2); try assumption; try congruence; [lia|].
    exists st2, m2. split; [cbn [handleArgs handleDb]; rewrite S1; exact S2|].
    eapply reserves_trans; [|exact R2|lia|rewrite W; apply Z.divide_1_l]. repeat (split; try assumption).
Qed.

Lemma zlen_dbs : forall o l, Forall (fun a => a = AEmpty) l -> zlen (flat_map (arg_bytes o 1) l) = zlen l.
Proof.
  intros o l H. induction H as [|a l E H IH]; [reflexivity|]. subst a. cbn [flat_map]. rewrite zlen_app, IH.
  unfold zlen. cbn [length arg_bytes repeat]. lia.
Qed.

Lemma step_reserves : forall d k st m limit, current_section st k m GBss -> section_fine GBss m ->
  x_wordSize st = 1 \/ x_wordSize st = 2 -> (x_wordSize st | m_used m) -> reserve_ok (x_wordSize st) limit d ->
  m_used m + zlen (emitted (x_opts st) (m_used m) d) <= limit -> limit < 2 ^ 32 ->
  exists st' m', step d st = Ok st' /\ reserves k st st' m m' (zlen (emitted (x_opts st) (m_used m) d)) /\
    (x_wordSize st | zlen (emitted (x_opts st) (m_used m) d)).
Proof.
  intros d k st m limit C F W V O L LM. assert (U : 0 <= m_used m) by apply F.
  pose proof (zlen_nonneg _ (emitted (x_opts st) (m_used m) d)) as NN.
  destruct d; try contradiction; cbn [step emitted reserve_ok data_ok] in *.
  - destruct O as [O1 O2]. rewrite zlen_dbs in * by exact O2.
    destruct (dbs_reserves l k st m O1 O2 C F) as (st' & m' & A & B); [lia|]. exists st', m'.
    split; [exact A|]. split; [exact B|]. rewrite O1. apply Z.divide_1_l.
  - destruct O as (O1 & O2 & O3). rewrite zlen_repeat, Z2Nat.id in * by lia.
    unfold defineSpace. replace (n >=? 0) with true by lia.
    assert (E : u32 (u32 n * multiplier) = multiplier * n).
    { unfold u32. rewrite Zmult_mod_idemp_l, Z.mul_comm, Z.mod_small; lia. }
    rewrite E. destruct (skip_reserves (multiplier * n) k st m C F) as (st' & m' & A & B); try assumption; try lia.
    exists st', m'. auto.
  - assert (P : 0 <= pad (m_used m) 2 < 2) by (apply Z.mod_pos_bound; lia).
    rewrite zlen_repeat, Z2Nat.id in * by lia. unfold handleEven.
    assert (D2 : (x_wordSize st | 2)) by (destruct W as [-> | ->]; [apply Z.divide_1_l|apply Z.divide_refl]).
    destruct (align_reserves 2 k st m C F) as (st' & m' & A & B); try assumption; try lia.
    { assert (m_used m mod 2 = 0 \/ m_used m mod 2 = 1) by (pose proof (Z.mod_pos_bound (m_used m) 2); lia).
      unfold pad in *. pose proof (Z.div_mod (m_used m) 2 ltac:(lia)). 
      destruct H. { lia. } rewrite Z.mod_opp_l_nz in * by lia. lia. }
    exists st', m'. split; [exact A|]. split; [exact B|]. apply pad_divide; [lia|assumption|assumption].
  - destruct O as (O1 & O2 & O3 & O4).
    assert (P : 0 <= pad (m_used m) align < align) by (apply Z.mod_pos_bound; lia).
    rewrite zlen_repeat, Z2Nat.id in * by lia. unfold handleCnop.
    replace (offset >=? 0) with true by lia. replace (align >=? 0) with true by lia.
    destruct (align_reserves align k st m C F) as (st1 & m1 & A & B); try assumption; try lia.
    pose proof B as (B1&B2&B3&B4&B5&B6&B7&B8&B9).
    assert (PD : (x_wordSize st | pad (m_used m) align)) by (apply pad_divide; [lia|assumption|assumption]).
    destruct (skip_reserves offset k st1 m1 B1 B2) as (st2 & m2 & A' & B'); try (rewrite B8); try assumption; try lia.
    exists st2, m2. rewrite A. cbn [bind]. split; [exact A'|]. split.
    + eapply reserves_trans; [exact B|exact B'|lia|exact PD].
    + apply Z.divide_add_r; assumption.
  - exists (with_position file line st), m. split; [reflexivity|]. split; [|apply Z.divide_0_r].
    exact (reserves_refl k st m C F).
Qed.

Lemma run_reserves : forall ds st k m limit,
  current_section st k m GBss -> section_fine GBss m ->
  x_wordSize st = 1 \/ x_wordSize st = 2 -> (x_wordSize st | m_used m) ->
  Forall (reserve_ok (x_wordSize st) limit) ds ->
  m_used m + zlen (emitted_all (x_opts st) (m_used m) ds) <= limit -> limit < 2 ^ 32 ->
  exists st' m', run ds st = Ok st' /\ reserves k st st' m m' (zlen (emitted_all (x_opts st) (m_used m) ds)).
Proof.
  induction ds as [|d ds IH]; intros st k m limit C F W V O L LM.
  - exists st, m. split; [reflexivity|]. apply reserves_refl; assumption.
  - inversion O as [|? ? O1 O2]; subst.
    assert (E : emitted_all (x_opts st) (m_used m) (d :: ds) =
      emitted (x_opts st) (m_used m) d ++ emitted_all (x_opts st) (m_used m + zlen (emitted (x_opts st) (m_used m) d)) ds)
      by (destruct d; try contradiction; reflexivity).
    rewrite E, zlen_app in *.
    match type of L with _ + (zlen ?a + zlen ?b) <= _ => pose proof (zlen_nonneg _ a); pose proof (zlen_nonneg _ b) end.
    destruct (step_reserves d k st m limit C F W V O1) as (st1 & m1 & A & B & D); [lia|exact LM|].
    pose proof B as (B1&B2&B3&B4&B5&B6&B7&B8&B9).
    destruct (IH st1 k m1 limit B1 B2) as (st2 & m2 & A2 & R2); rewrite ?B8, ?B9, ?B5; try assumption; try lia.
    { apply Z.divide_add_r; assumption. }
    exists st2, m2. cbn [run]. rewrite A. cbn [bind]. split; [exact A2|].
    rewrite B5, B9 in R2. eapply reserves_trans; [exact B|exact R2|lia|exact D].
Qed.
