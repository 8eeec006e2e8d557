(** Proofs about the map file and the listing. *)
From Coq Require Import String ZArith List Bool Lia ZifyBool ZifyNat Permutation Sorted.
From Verif Require Import Base BaseFacts PoolSpec AssignModel AssignSpec Arith LinkExprModel LinkModel LinkSpec ResolveProofs NeededProofs
  MdefModel ImageSpec WholeModel WholeSpec WholeProofs ReportModel ReportSpec.
Import ListNotations.
Open Scope string_scope.
Open Scope list_scope.
Open Scope Z_scope.

(** ** Numbers *)
Lemma zlen_app' : forall A (a b : list A), zlen (a ++ b) = zlen a + zlen b.
Proof. intros. unfold zlen. rewrite app_length. lia. Qed.
Lemma read16_app : forall a b, read16 (a ++ b) = read16 a * 16 ^ zlen b + read16 b.
Proof.
  intros a b. unfold read16. rewrite fold_left_app. generalize (fold_left (fun x c => 16 * x + value16 c) a 0). intro x. revert x.
  induction b as [|c b IH]; intro x; cbn [fold_left].
  - unfold zlen. cbn. lia.
  - rewrite IH, (IH (16 * 0 + value16 c)). unfold zlen. cbn [List.length]. rewrite Nat2Z.inj_succ, Z.pow_succ_r by lia. ring.
Qed.
Lemma read10_app : forall a b, read10 (a ++ b) = read10 a * 10 ^ zlen b + read10 b.
Proof.
  intros a b. unfold read10. rewrite fold_left_app. generalize (fold_left (fun x c => 10 * x + (c - 48)) a 0). intro x. revert x.
  induction b as [|c b IH]; intro x; cbn [fold_left].
  - unfold zlen. cbn. lia.
  - rewrite IH, (IH (10 * 0 + (c - 48))). unfold zlen. cbn [List.length]. rewrite Nat2Z.inj_succ, Z.pow_succ_r by lia. ring.
Qed.
Lemma hexDigit_ok : forall d, 0 <= d < 16 -> is_digit16 (hexDigit d) /\ value16 (hexDigit d) = d /\ (d <> 0 -> hexDigit d <> 48).
Proof. intros d H. unfold is_digit16, value16, hexDigit. destruct (d <? 10) eqn:E; [destruct (48 + d <=? 57) eqn:F|destruct (55 + d <=? 57) eqn:F]; lia. Qed.
Lemma hexDigits_ok : forall n v r, 0 <= v < 16 ^ Z.of_nat n ->
  exists ds, hexDigits n v r = ds ++ r /\ Forall is_digit16 ds /\ read16 ds = v /\ (v <> 0 -> ds <> [] /\ hd 0 ds <> 48) /\
    (forall k, 0 <= k -> v < 16 ^ k -> zlen ds <= k).
Proof.
  induction n as [|n IH]; intros v r V.
  - exists []. change (16 ^ Z.of_nat 0) with 1 in V. cbn. repeat split; auto; try lia; intros; unfold zlen; cbn; lia.
  - cbn [hexDigits]. destruct (v =? 0) eqn:E.
    + exists []. apply Z.eqb_eq in E as ->. cbn. repeat split; auto; try lia; intros; unfold zlen; cbn; lia.
    + rewrite Nat2Z.inj_succ, Z.pow_succ_r in V by lia.
      assert (D : 0 <= v / 16 < 16 ^ Z.of_nat n) by (split; [apply Z.div_pos; lia|apply Z.div_lt_upper_bound; lia]).
      assert (M : 0 <= v mod 16 < 16) by (apply Z.mod_pos_bound; lia).
      destruct (hexDigit_ok _ M) as (D1 & D2 & D3). pose proof (Z.div_mod v 16 ltac:(lia)) as DM.
      destruct (IH (v / 16) (hexDigit (v mod 16) :: r) D) as (ds & E1 & E2 & E3 & E4 & E5).
      exists (ds ++ [hexDigit (v mod 16)]). rewrite E1, <- app_assoc. split; [reflexivity|].
      split; [apply Forall_app; auto|]. split.
      { rewrite read16_app, E3. unfold zlen, read16. cbn [List.length fold_left]. rewrite D2. change (Z.of_nat 1) with 1. lia. }
      split.
      { intros _. split; [destruct ds; discriminate|]. destruct (Z.eq_dec (v / 16) 0) as [Q|Q].
        - destruct ds as [|d ds]; cbn; [apply D3; lia|]. exfalso. pose proof (E5 0 ltac:(lia)) as K. rewrite Q in K. unfold zlen in K. cbn in K. lia.
        - destruct (E4 Q) as (N1 & N2). destruct ds; [congruence|exact N2]. }
      intros k K Vk. rewrite zlen_app'. unfold zlen at 2. cbn [List.length].
      destruct (Z.eq_dec k 0) as [->|Kz]; [change (16 ^ 0) with 1 in Vk; lia|].
      replace k with (Z.succ (k - 1)) in Vk by lia. rewrite Z.pow_succ_r in Vk by lia.
      assert (v / 16 < 16 ^ (k - 1)) by (apply Z.div_lt_upper_bound; lia). specialize (E5 (k - 1) ltac:(lia) ltac:(assumption)). lia.
Qed.
Lemma read16_zeros : forall n, read16 (repeat 48 n) = 0.
Proof. induction n; [reflexivity|]. replace (S n) with (n + 1)%nat by lia. rewrite repeat_app, read16_app, IHn. reflexivity. Qed.
Lemma zlen_repeat' : forall A (x : A) n, zlen (repeat x n) = Z.of_nat n.
Proof. intros. unfold zlen. now rewrite repeat_length. Qed.
Lemma print_X_ok : forall w v, 1 <= w -> 0 <= v < 2 ^ 32 -> hexadecimal w v (print_X w v) /\ (v < 16 ^ w -> zlen (print_X w v) = w).
Proof.
  intros w v W V. unfold print_X.
  assert (G : forall t, Forall is_digit16 t -> read16 t = v -> 1 <= zlen t -> (1 < zlen t -> hd 0 t <> 48) -> (v < 16 ^ w -> zlen t <= w) ->
    hexadecimal w v (repeat 48 (Z.to_nat (w - zlen t)) ++ t) /\ (v < 16 ^ w -> zlen (repeat 48 (Z.to_nat (w - zlen t)) ++ t) = w)).
  { intros t T1 T2 T3 T4 T5. unfold hexadecimal. rewrite zlen_app', zlen_repeat', read16_app, read16_zeros, T2. split; [|lia].
    split; [apply Forall_app; split; [apply Forall_forall; intros x X; apply repeat_spec in X as ->; left; lia|exact T1]|].
    split; [lia|]. split; [lia|]. intro L. replace (Z.to_nat (w - zlen t)) with 0%nat by lia. cbn. apply T4. lia. }
  cbv zeta. destruct (v =? 0) eqn:E.
  - apply Z.eqb_eq in E as ->. apply (G [48]); [constructor; [left; lia|constructor]|reflexivity|unfold zlen; cbn; lia|unfold zlen; cbn; lia|unfold zlen; cbn; lia].
  - destruct (hexDigits_ok 8 v [] ltac:(change (16 ^ Z.of_nat 8) with (2 ^ 32); lia)) as (ds & E1 & E2 & E3 & E4 & E5).
    rewrite E1, app_nil_r. destruct (E4 ltac:(lia)) as (N1 & N2). apply (G ds); auto; [|intros; apply E5; lia].
    destruct ds; [congruence|]. unfold zlen. cbn. lia.
Qed.
Lemma decDigits_ok : forall n v r, 0 <= v < 10 ^ Z.of_nat n ->
  exists ds, decDigits n v r = ds ++ r /\ Forall is_digit10 ds /\ read10 ds = v /\ (v <> 0 -> ds <> [] /\ hd 0 ds <> 48) /\ (v = 0 -> ds = []).
Proof.
  induction n as [|n IH]; intros v r V.
  - exists []. change (10 ^ Z.of_nat 0) with 1 in V. cbn. repeat split; auto; lia.
  - cbn [decDigits]. destruct (v =? 0) eqn:E.
    + exists []. apply Z.eqb_eq in E as ->. cbn. repeat split; auto; lia.
    + rewrite Nat2Z.inj_succ, Z.pow_succ_r in V by lia.
      assert (D : 0 <= v / 10 < 10 ^ Z.of_nat n) by (split; [apply Z.div_pos; lia|apply Z.div_lt_upper_bound; lia]).
      assert (M : 0 <= v mod 10 < 10) by (apply Z.mod_pos_bound; lia). pose proof (Z.div_mod v 10 ltac:(lia)) as DM.
      destruct (IH (v / 10) (48 + v mod 10 :: r) D) as (ds & E1 & E2 & E3 & E4 & E5).
      exists (ds ++ [48 + v mod 10]). rewrite E1, <- app_assoc. split; [reflexivity|].
      split; [apply Forall_app; split; [exact E2|constructor; [unfold is_digit10; lia|constructor]]|]. split.
      { rewrite read10_app, E3. unfold zlen, read10. cbn [List.length fold_left]. change (Z.of_nat 1) with 1. lia. }
      split; [|lia]. intros _. split; [destruct ds; discriminate|]. destruct (Z.eq_dec (v / 10) 0) as [Q|Q].
      * rewrite (E5 Q). cbn [hd app]. lia.
      * destruct (E4 Q) as (N1 & N2). destruct ds; [congruence|exact N2].
Qed.
Lemma print_d_ok : forall v, 0 <= v < 2 ^ 31 -> decimal v (print_d (s32 v)).
Proof.
  intros v V. replace (s32 v) with v by (unfold s32; rewrite Z.mod_small; lia). unfold print_d, decimal. destruct (v =? 0) eqn:E.
  - apply Z.eqb_eq in E as ->. split; [constructor; [unfold is_digit10; lia|constructor]|]. repeat split; unfold zlen; cbn; lia.
  - replace (v <? 0) with false by lia. destruct (decDigits_ok 10 v [] ltac:(change (10 ^ Z.of_nat 10) with 10000000000; lia)) as (ds & E1 & E2 & E3 & E4 & E5).
    rewrite E1, app_nil_r. destruct (E4 ltac:(lia)) as (N1 & N2). repeat split; auto. destruct ds; [congruence|]. unfold zlen. cbn. lia.
Qed.
Lemma field_size : forall v, 0 <= v < 2 ^ 32 -> 4 <= map_GetValueFieldSize v 4 /\ v < 16 ^ map_GetValueFieldSize v 4.
Proof.
  assert (G : forall n x k, 0 <= x < 16 ^ Z.of_nat n -> 0 <= k -> k <= fieldLoop n x k /\ x < 16 ^ (fieldLoop n x k - k)).
  { induction n as [|n IH]; intros x k X K; cbn [fieldLoop].
    - change (16 ^ Z.of_nat 0) with 1 in X. rewrite Z.sub_diag. change (16 ^ 0) with 1. lia.
    - destruct (x =? 0) eqn:E; [rewrite Z.sub_diag; change (16 ^ 0) with 1; lia|].
      rewrite Nat2Z.inj_succ, Z.pow_succ_r in X by lia. rewrite Z.shiftr_div_pow2 by lia. change (2 ^ 4) with 16.
      assert (D : 0 <= x / 16 < 16 ^ Z.of_nat n) by (split; [apply Z.div_pos; lia|apply Z.div_lt_upper_bound; lia]).
      destruct (IH (x / 16) (k + 1) D ltac:(lia)) as (A & B). split; [lia|].
      remember (fieldLoop n (x / 16) (k + 1)) as m. replace (m - k) with (Z.succ (m - (k + 1))) by lia. rewrite Z.pow_succ_r by lia.
      pose proof (Z.div_mod x 16 ltac:(lia)). pose proof (Z.mod_pos_bound x 16 ltac:(lia)). lia. }
  intros v V. unfold map_GetValueFieldSize. change (4 * 4) with 16. rewrite Z.shiftr_div_pow2 by lia.
  assert (D : 0 <= v / 2 ^ 16 < 2 ^ 16) by (split; [apply Z.div_pos; lia|apply Z.div_lt_upper_bound; lia]).
  destruct (G 8%nat (v / 2 ^ 16) 4 ltac:(change (16 ^ Z.of_nat 8) with (2 ^ 32); lia) ltac:(lia)) as (A & B). split; [exact A|].
  remember (fieldLoop 8 (v / 2 ^ 16) 4) as m. replace m with (4 + (m - 4)) by lia. rewrite Z.pow_add_r by lia. change (16 ^ 4) with (2 ^ 16).
  pose proof (Z.div_mod v (2 ^ 16) ltac:(lia)). pose proof (Z.mod_pos_bound v (2 ^ 16) ltac:(lia)). nia.
Qed.

(** ** Lists *)
Lemma Permutation_filter : forall A (f : A -> bool) l l', Permutation l l' -> Permutation (filter f l) (filter f l').
Proof.
  intros A f l l' P. induction P; cbn.
  - constructor.
  - destruct (f x); [constructor|]; assumption.
  - destruct (f x), (f y); try constructor; apply Permutation_refl.
  - eapply Permutation_trans; eassumption.
Qed.
Lemma StronglySorted_filter : forall A (R : A -> A -> Prop) f l, StronglySorted R l -> StronglySorted R (filter f l).
Proof.
  intros A R f l H. induction H as [|a l H IH F]; cbn; [constructor|]. destruct (f a); [|exact IH]. constructor; [exact IH|].
  rewrite Forall_forall in *. intros x X. apply filter_In in X as (X & _). auto.
Qed.
Lemma StronglySorted_weaken : forall A (R Q : A -> A -> Prop) l, (forall a b, In a l -> In b l -> R a b -> Q a b) -> StronglySorted R l -> StronglySorted Q l.
Proof.
  intros A R Q l W H. induction H as [|a l H IH F]; [constructor|]. constructor.
  - apply IH. intros. apply W; auto; right; assumption.
  - rewrite Forall_forall in *. intros x X. apply W; [left; reflexivity|right; exact X|auto].
Qed.
Lemma StronglySorted_map : forall A B (g : A -> B) R l, StronglySorted R (map g l) -> StronglySorted (fun a b => R (g a) (g b)) l.
Proof.
  intros A B g R. induction l as [|a l IH]; cbn; intro H; [constructor|]. apply StronglySorted_inv in H as (H1 & H2). constructor; auto.
  rewrite Forall_map in H2. exact H2.
Qed.
Lemma qsort_ok : forall sorter A (c : A -> A -> res Z) (v : A -> A -> Z) l, sorts sorter -> (forall a b, In a l -> In b l -> c a b = Ok (v a b)) -> an_order v l ->
  exists l', qsort sorter c l = Ok l' /\ Permutation l' l /\ StronglySorted (fun a b => v a b <= 0) l'.
Proof.
  intros sorter A c v l SO C O. unfold qsort.
  assert (F : forallb (fun a => forallb (fun b => match c a b with Ok _ => true | _ => false end) l) l = true).
  { apply forallb_forall. intros a Ia. apply forallb_forall. intros b Ib. rewrite (C a b Ia Ib). reflexivity. }
  rewrite F. set (g := fun a b => match c a b with Ok v0 => v0 | _ => 0 end).
  assert (E : forall a b, In a l -> In b l -> g a b = v a b) by (intros a b Ia Ib; unfold g; rewrite (C a b Ia Ib); reflexivity).
  assert (O' : an_order g l).
  { destruct O as (O1 & O2). split.
    - intros a b Ia Ib. rewrite !E by assumption. auto.
    - intros x y z X Y Z. rewrite !E by assumption. eauto. }
  destruct (SO A g l O') as (P & Q). exists (sorter A g l). split; [reflexivity|]. split; [exact P|].
  eapply StronglySorted_weaken; [|exact Q]. intros a b Ia Ib. cbv beta. rewrite E; [auto|eapply Permutation_in; eassumption..].
Qed.

(** ** What the linked program holds *)
Lemma own_types : forall y, own y = true -> ls_type y = SYM_EXPORT \/ ls_type y = SYM_LOCAL \/ ls_type y = SYM_LOCALEXPORT.
Proof. intros y H. unfold own in H. rewrite !orb_true_iff, !Z.eqb_eq in H. tauto. Qed.
Definition resolved (s : lsect) (y : lsym) : lsym :=
  LSym (ls_name y) (ls_type y) (address s y) true (ls_file y) (ls_line y) (Some (sc_id s)) (ls_expr y).
(** Symbol [y] of the linked program comes from [y0] of section [s]. *)
Definition symbol_rel (p2 : program) (s : lsect) (y0 y : lsym) : Prop :=
  (own y0 = true /\ y = resolved s y0) \/
  (own y0 = false /\ sym_IsImport y = true /\ (y = y0 \/ exists d x, defines p2 s y0 d x /\ ls_value y = address d x)).
Definition section_rel (p2 : program) (s s4 : lsect) : Prop :=
  sc_place s4 = sc_place s /\ sc_lines s4 = sc_lines s /\
  (sc_used s = true -> Forall2 (symbol_rel p2 s) (sc_symbols s) (sc_symbols s4)).
Lemma patchSection_same : forall F ar osr lv gp ai p i s s', patchSection F ar osr lv gp ai p i s = Ok s' ->
  sc_place s' = sc_place s /\ sc_symbols s' = sc_symbols s /\ sc_lines s' = sc_lines s.
Proof.
  intros F ar osr lv gp ai p i s s' H. unfold patchSection in H. destruct (sc_data s).
  - destruct (patchAll _ _ _ _ _) as [[d' qs]| |] in H; try discriminate. cbn [bind] in H. injection H as <-. auto.
  - destruct (sc_patches s); [|discriminate]. injection H as <-. auto.
Qed.
Lemma Forall2_nth_build : forall A B (R : A -> B -> Prop) l l', length l' = length l ->
  (forall k a, nth_error l k = Some a -> exists b, nth_error l' k = Some b /\ R a b) -> Forall2 R l l'.
Proof.
  induction l as [|a l IH]; intros [|b l'] L H; cbn in L; try discriminate; constructor.
  - destruct (H 0%nat a eq_refl) as (b' & E & X). injection E as <-. exact X.
  - apply IH; [lia|]. intros k x N. exact (H (S k) x N).
Qed.
Lemma linked_program : forall F lv gp cf entry p p4, config_ok cf -> loaded p -> linkProgram F lv gp cf entry p = Ok p4 ->
  exists p1 p2, chosen p entry p1 /\ laid_out cf p1 p2 /\ Forall2 (section_rel p2) p2 p4 /\
    (forall s, In s p2 -> sc_used s = true -> 0 <= s_cpuByteLocation (sc_place s) /\ s_cpuByteLocation (sc_place s) + s_size (sc_place s) < 2 ^ 31 /\ 0 <= s_size (sc_place s)) /\
    Forall has_contents p4.
Proof.
  intros F lv gp cf entry p p4 CF L H. unfold linkProgram in H.
  destruct (smart_Process _ p entry) as [p1| |] eqn:S1; try discriminate. cbn [bind] in H.
  destruct (assign_Process cf (map sc_place p1)) as [out| |] eqn:A; try discriminate. cbn [bind] in H.
  destruct (rejoin p1 out) as [p2| |] eqn:RJ; try discriminate. cbn [bind] in H.
  destruct (sect_ResolveUnresolved lv p2) as [p3| |] eqn:RS; try discriminate. cbn [bind] in H.
  destruct (linked_facts F lv gp cf entry p p1 out p2 p3 p4 CF L S1 A RJ RS H) as ((CH & SO & LO & ND2) & (FI & FR & HP & RV) & P4 & L4 & M4 & HC4).
  exists p1, p2. split; [exact CH|]. split; [exact LO|]. split; [|split; [|exact HC4]].
  - unfold sect_ResolveUnresolved in RS.
    destruct (resolveSections_ok p2 FR lv (length p2) p2 0 p3 (prog_ok_init p2) (resolving_none lv p2) RS) as (_ & _ & _ & DN).
    apply Forall2_nth_build; [exact L4|]. intros k s N. destruct (Forall2_nth_l _ _ _ _ _ _ _ HP N) as (s3 & N3 & HS).
    unfold patch_Process in H. destruct (patchSections_at _ _ _ _ _ _ _ _ _ _ _ _ H N3) as (s4 & N4 & HE).
    destruct HS as (E3 & FS). pose proof (f_equal sc_place E3) as Epl. pose proof (f_equal sc_lines E3) as Eln. cbn [set_symbols sc_place sc_lines] in Epl, Eln.
    exists s4. split; [exact N4|].
    assert (K : sc_place s4 = sc_place s3 /\ sc_symbols s4 = sc_symbols s3 /\ sc_lines s4 = sc_lines s3).
    { destruct (sc_used s3); [exact (patchSection_same _ _ _ _ _ _ _ _ _ _ HE)|subst; auto]. }
    destruct K as (K1 & K2 & K3). split; [congruence|]. split; [congruence|]. intro U. rewrite K2.
    apply Forall2_nth_build; [clear - FS; induction FS; cbn; congruence|]. intros j y0 J.
    destruct (Forall2_nth_l _ _ _ _ _ _ _ FS J) as (y & J3 & SY). exists y. split; [exact J3|].
    assert (KL : (k < length p2)%nat) by (apply nth_error_Some; congruence).
    assert (JL : (j < length (sc_symbols s))%nat) by (apply nth_error_Some; congruence).
    destruct (DN k s j ltac:(lia) N U JL) as (s' & y' & G & D). unfold get_sym in G. rewrite N3 in G.
    rewrite J3 in G. injection G as <- <-.
    assert (FRy : ls_resolved y0 = false) by (apply (FR s y0 (nth_error_In _ _ N) (nth_error_In _ _ J))).
    destruct SY as [->|(d & x & DF & ->)].
    + right. destruct D as [D|(D & _)]; [congruence|]. split; [unfold own; rewrite D; reflexivity|]. split; [unfold sym_IsImport; rewrite D; reflexivity|left; reflexivity].
    + inversion DF as [T | d' x' T Q | d' x' T Q]; subst.
      * left. split; [unfold own; destruct T as [->|[->| ->]]; reflexivity|reflexivity].
      * right. split; [unfold own; rewrite T; reflexivity|]. split; [unfold sym_IsImport; cbn; rewrite T; reflexivity|]. right. exists d, x. auto.
      * right. split; [unfold own; rewrite T; reflexivity|]. split; [unfold sym_IsImport; cbn; rewrite T; reflexivity|]. right. exists d, x. auto.
  - intros s I U. destruct (laid_in _ _ _ _ LO I) as (s1 & I1 & AP). pose proof (ap_place _ _ _ AP) as PW.
    destruct (pw_same _ _ _ PW) as (_ & P2 & P3 & P4' & _). unfold sc_used in U. rewrite P4' in U.
    rewrite Forall_map, Forall_forall in SO. destruct (SO s1 I1) as (Sz & _).
    destruct (s_group (sc_place s1)) as [g|] eqn:G.
    + destruct (pw_pool _ _ _ PW U g G) as (G' & k & q & _ & _ & NQ & _ & W & _). unfold within in W. cbn [fst snd] in W.
      destruct CF as [CP _]. rewrite Forall_forall in CP. specialize (CP q (nth_error_In _ _ NQ)). cbv beta in CP. lia.
    + destruct (pw_equ _ _ _ PW U G) as (-> & _). lia.
Qed.

(** ** The map file *)
Lemma fold_longest : forall ys a, let r := fold_left longest ys a in
  fst a <= fst r /\ snd a <= snd r /\ (forall y, In y ys -> inMap y = true -> zlen (ls_name y) <= fst r /\ ls_value y <= snd r) /\
  (snd r = snd a \/ exists y, In y ys /\ inMap y = true /\ ls_value y = snd r).
Proof.
  induction ys as [|y ys IH]; intro a; cbv zeta; cbn [fold_left].
  - repeat split; try lia; try (intros; contradiction); try (left; reflexivity).
  - destruct (IH (longest a y)) as (A & B & C & D). cbv zeta in *.
    assert (L : fst a <= fst (longest a y) /\ snd a <= snd (longest a y) /\ (inMap y = true -> zlen (ls_name y) <= fst (longest a y) /\ ls_value y <= snd (longest a y)) /\
      (snd (longest a y) = snd a \/ inMap y = true /\ ls_value y = snd (longest a y))).
    { unfold longest. destruct (inMap y); cbn [fst snd]; [|repeat split; try lia; auto; discriminate].
      destruct (zlen (ls_name y) >? fst a) eqn:E1, (ls_value y >? snd a) eqn:E2; repeat split; try lia; auto. }
    destruct L as (L1 & L2 & L3 & L4). split; [lia|]. split; [lia|]. split.
    + intros z [<-|Z] M; [destruct (L3 M); lia|auto].
    + destruct D as [D|(z & Z & M & V)]; [|right; exists z; cbn; auto]. destruct L4 as [L4|(M & V)]; [left; congruence|right; exists y; cbn; split; auto; split; congruence].
Qed.
Lemma longest_ok : forall ss a, let r := fold_left (fun a s => fold_left longest (sc_symbols s) a) ss a in
  fst a <= fst r /\ snd a <= snd r /\ (forall s y, In s ss -> In y (sc_symbols s) -> inMap y = true -> zlen (ls_name y) <= fst r /\ ls_value y <= snd r) /\
  (snd r = snd a \/ exists s y, In s ss /\ In y (sc_symbols s) /\ inMap y = true /\ ls_value y = snd r).
Proof.
  induction ss as [|s ss IH]; intro a; cbv zeta; cbn [fold_left].
  - repeat split; try lia; try (intros; contradiction); try (left; reflexivity).
  - pose proof (fold_longest (sc_symbols s) a) as (A1 & A2 & A3 & A4). cbv zeta in *. destruct (IH (fold_left longest (sc_symbols s) a)) as (B1 & B2 & B3 & B4).
    split; [lia|]. split; [lia|]. split.
    + intros t y [<-|T] Y M; [destruct (A3 y Y M); lia|eauto].
    + destruct B4 as [B4|(t & y & T & Y & M & V)]; [|right; exists t, y; cbn; auto].
      destruct A4 as [A4|(y & Y & M & V)]; [left; congruence|right; exists s, y; cbn; split; auto; split; auto; split; congruence].
Qed.

Lemma mapLine_ok : forall names w n s y, 1 <= w -> is_s32 (address s y) -> (0 <= address s y -> address s y < 16 ^ w) -> zlen (ls_name y) <= n ->
  0 <= ls_file y -> (ls_file y = no_file \/ (exists f, nth_error names (Z.to_nat (ls_file y)) = Some f) /\ 0 <= ls_line y < 2 ^ 31) ->
  exists t, mapLine names w n (resolved s y) = Ok t /\ map_line names w n s y t.
Proof.
  intros names w n s y W V F N P K. unfold mapLine. cbn [resolved ls_file ls_value ls_name ls_line].
  assert (V2 : 0 <= u32 (address s y) < 2 ^ 32) by (apply Z.mod_pos_bound; lia).
  destruct (print_X_ok w _ W V2) as (H1 & H2).
  assert (H3 : 0 <= address s y -> zlen (print_X w (u32 (address s y))) = w).
  { intro NN. apply H2. unfold u32. rewrite Z.mod_small; [auto|unfold is_s32 in V; lia]. }
  change UINT32_MAX with no_file. destruct (ls_file y =? no_file) eqn:E; cbn [negb].
  - eexists. split; [reflexivity|]. exists (print_X w (u32 (address s y))), []. rewrite E. repeat split; auto; try apply H1.
  - destruct K as [K|((f & Nf) & L)]; [lia|]. unfold obj_GetFilename. rewrite Nf. cbn [bind]. eexists. split; [reflexivity|].
    exists (print_X w (u32 (address s y))), (text " " ++ (f ++ text ":" ++ print_d (s32 (ls_line y)))). rewrite E.
    split; [exact H1|]. split; [exact H3|]. split.
    { eexists. split; [|reflexivity]. exists f, (print_d (s32 (ls_line y))). split; [exact Nf|]. split; [apply print_d_ok, L|reflexivity]. }
    split; [exact N|]. change (chars " | ") with (text " | "). change (text " | ") with (text " |" ++ text " ") at 2.
    unfold print_s. change (chars ":") with (text ":"). change (chars "$") with (text "$"). rewrite <- !app_assoc. reflexivity.
Qed.
Lemma mapLines_filter : forall names w n ys, mapLines names w n ys = mapLines names w n (filter inMap ys).
Proof.
  intros names w n. induction ys as [|y ys IH]; [reflexivity|]. cbn [mapLines filter]. destruct (inMap y) eqn:M.
  - cbn [mapLines]. rewrite M, IH. reflexivity.
  - cbn [bind]. rewrite IH. destruct (mapLines names w n (filter inMap ys)); reflexivity.
Qed.
Lemma mapLines_ok : forall names w n s ys, (forall y, In y ys -> own y = true /\ exists t, mapLine names w n (resolved s y) = Ok t /\ map_line names w n s y t) ->
  exists lines, mapLines names w n (map (resolved s) ys) = Ok (concat lines) /\ Forall2 (map_line names w n s) ys lines.
Proof.
  intros names w n s. induction ys as [|y ys IH]; intro H.
  - exists []. split; [reflexivity|constructor].
  - destruct (H y (or_introl eq_refl)) as (O & t & E & M). destruct IH as (lines & E2 & F2); [intros z Z; apply H; right; exact Z|].
    exists (t :: lines). split; [|constructor; assumption]. cbn [map mapLines].
    assert (I : inMap (resolved s y) = true).
    { unfold inMap, sym_IsImport, own in *. cbn. destruct (Z.eqb_spec (ls_type y) SYM_IMPORT) as [Q|]; [rewrite Q in O; discriminate|].
      destruct (Z.eqb_spec (ls_type y) SYM_LOCALIMPORT) as [Q|]; [rewrite Q in O; discriminate|reflexivity]. }
    rewrite I, E. cbn [bind]. rewrite E2. reflexivity.
Qed.
Lemma symbols_in_map : forall p2 s l l', Forall2 (symbol_rel p2 s) l l' -> filter inMap l' = map (resolved s) (filter own l).
Proof.
  intros p2 s l l' H. induction H as [|y0 y l l' R H IH]; [reflexivity|]. cbn [filter]. destruct R as [(O & ->)|(O & I & _)]; rewrite O.
  - assert (M : inMap (resolved s y0) = true).
    { unfold inMap, sym_IsImport, own in *. cbn. destruct (Z.eqb_spec (ls_type y0) SYM_IMPORT) as [Q|]; [rewrite Q in O; discriminate|].
      destruct (Z.eqb_spec (ls_type y0) SYM_LOCALIMPORT) as [Q|]; [rewrite Q in O; discriminate|reflexivity]. }
    rewrite M, IH. reflexivity.
  - unfold inMap. rewrite I. exact IH.
Qed.
Lemma map_preimage : forall A B (g : A -> B) l l', Permutation l' (map g l) -> exists k, l' = map g k /\ Permutation k l.
Proof.
  intros A B g l l' P. destruct (Permutation_map_inv g l P) as (k & E & Q). exists k. split; [exact E|apply Permutation_sym, Q].
Qed.
Definition symbol_order (a b : lsym) : Z :=
  if negb (Bool.eqb (sym_IsImport a) (sym_IsImport b)) then b2z (sym_IsImport a) - b2z (sym_IsImport b) else ls_value a - ls_value b.
Lemma writeSection_ok : forall sorter names w n p2 s s4, sorts sorter -> section_rel p2 s s4 -> In s p2 -> sc_used s = true -> comparable p2 -> known_places names s ->
  1 <= w -> (forall y, In y (defined s) -> (0 <= address s y -> address s y < 16 ^ w) /\ zlen (ls_name y) <= n) ->
  exists t, writeSectionToMapFile sorter names w n s4 = Ok t /\ map_section names w n s t.
Proof.
  intros sorter names w n p2 s s4 SO (RP & RL & RS) I U (lo & LO & CM) KP W B. specialize (RS U).
  assert (V : forall y, In y (sc_symbols s4) -> lo <= ls_value y < lo + 2 ^ 31).
  { intros y Y. apply In_nth_error in Y as (j & J). destruct (ResolveProofs.Forall2_nth _ _ _ _ _ _ _ RS J) as (y0 & J0 & R).
    destruct (CM s y0 I U (nth_error_In _ _ J0)) as (C1 & C2). destruct R as [(O & ->)|(O & _ & [->|(d & x & D & ->)])].
    - cbn. apply (C1 s y0). constructor. apply own_types, O.
    - rewrite (C2 O). lia.
    - apply C1, D. }
  destruct (qsort_ok sorter lsym compareSymbols symbol_order (sc_symbols s4) SO) as (ys & Q & P & ST).
  { intros a b Ia Ib. unfold compareSymbols, symbol_order. destruct (negb _); [reflexivity|]. unfold c_sub, chk. specialize (V a Ia) as Va. specialize (V b Ib) as Vb.
    replace ((- 2 ^ 31 <=? ls_value a - ls_value b) && (ls_value a - ls_value b <? 2 ^ 31)) with true by lia. reflexivity. }
  { split.
    - intros a b _ _. unfold symbol_order. destruct (sym_IsImport a), (sym_IsImport b); cbn; lia.
    - intros x y z _ _ _. unfold symbol_order. destruct (sym_IsImport x), (sym_IsImport y), (sym_IsImport z); cbn; lia. }
  unfold writeSectionToMapFile. rewrite Q. cbn [bind]. rewrite mapLines_filter.
  pose proof (Permutation_filter _ inMap _ _ P) as PF. rewrite (symbols_in_map _ _ _ _ RS) in PF.
  destruct (map_preimage _ _ _ _ _ PF) as (ks & Ek & Pk). rewrite Ek.
  destruct (mapLines_ok names w n s ks) as (lines & El & Fl).
  { intros y Y. apply (Permutation_in _ Pk) in Y. split; [apply filter_In in Y as (_ & Y); exact Y|].
    destruct (B y Y) as (B1 & B2). destruct (KP y Y) as (K1 & K2). apply mapLine_ok; auto. unfold is_s32.
    apply filter_In in Y as (Y1 & Y2). destruct (CM s y I U Y1) as (C1 & _).
    assert (lo <= address s y < lo + 2 ^ 31) by (apply C1; constructor; apply own_types, Y2). lia. }
  rewrite El. eexists. split; [reflexivity|]. exists ks, lines. split; [exact Pk|]. split; [|auto].
  apply (StronglySorted_map _ _ (resolved s) (fun a b => ls_value a <= ls_value b)). rewrite <- Ek.
  apply (StronglySorted_filter _ _ inMap) in ST. eapply StronglySorted_weaken; [|exact ST]. intros a b Ia Ib.
  apply filter_In in Ia as (_ & Ia). apply filter_In in Ib as (_ & Ib). unfold inMap in Ia, Ib. unfold symbol_order.
  destruct (sym_IsImport a), (sym_IsImport b); try discriminate. cbn. lia.
Qed.
Lemma Forall2_filter : forall A B (R : A -> B -> Prop) f g l l', (forall a b, R a b -> f a = g b) -> Forall2 R l l' ->
  Forall2 (fun a b => R a b /\ f a = true /\ In a l) (filter f l) (filter g l').
Proof.
  intros A B R f g l l' E H.
  assert (G : forall m, incl l m -> Forall2 (fun a b => R a b /\ f a = true /\ In a m) (filter f l) (filter g l')).
  { induction H as [|a b l l' X H IH]; intros m Im; [constructor|]. cbn [filter]. rewrite <- (E a b X). destruct (f a) eqn:Fa.
    - constructor; [split; [exact X|split; [exact Fa|apply Im; left; reflexivity]]|]. apply IH. intros z Z. apply Im. right. exact Z.
    - apply IH. intros z Z. apply Im. right. exact Z. }
  apply G, incl_refl.
Qed.
Lemma map_written : forall sorter names p2 p4, sorts sorter -> Forall2 (section_rel p2) p2 p4 -> comparable p2 ->
  (forall s, In s p2 -> sc_used s = true -> known_places names s) ->
  exists t, map_Write sorter names p4 = Ok t /\ map_file names p2 t.
Proof.
  intros sorter names p2 p4 SO F CM KP. unfold map_Write.
  pose proof (longest_ok (usedSections p4) (0, 0)) as (A1 & A2 & A3 & A4). cbv zeta in *. fold (findLongestSymbolName p4) in *.
  destruct (findLongestSymbolName p4) as (len, value). cbn [fst snd] in *.
  assert (FU : Forall2 (fun s s4 => section_rel p2 s s4 /\ sc_used s = true /\ In s p2) (filter sc_used p2) (usedSections p4)).
  { apply Forall2_filter; [|exact F]. intros s s4 (E & _). unfold sc_used. rewrite E. reflexivity. }
  assert (VR : 0 <= value < 2 ^ 31).
  { split; [exact A2|]. destruct A4 as [->|(s4 & y & I4 & Y & M & <-)]; [lia|]. destruct CM as (lo & LO & CM).
    apply In_nth_error in I4 as (k & K). destruct (ResolveProofs.Forall2_nth _ _ _ _ _ _ _ FU K) as (s & Ks & R & U & I).
    destruct R as (_ & _ & RS). apply In_nth_error in Y as (j & J). destruct (ResolveProofs.Forall2_nth _ _ _ _ _ _ _ (RS U) J) as (y0 & J0 & R).
    destruct (CM s y0 I U (nth_error_In _ _ J0)) as (C1 & _). unfold inMap in M. destruct R as [(O & ->)|(O & Im & _)]; [|rewrite Im in M; discriminate].
    cbn. assert (lo <= address s y0 < lo + 2 ^ 31) by (apply C1; constructor; apply own_types, O). lia. }
  assert (VU : u32 value = value) by (unfold u32; rewrite Z.mod_small; lia). rewrite VU.
  destruct (field_size value ltac:(lia)) as (W1 & W2). remember (map_GetValueFieldSize value 4) as w.
  assert (G : forall a b, Forall2 (fun s s4 => section_rel p2 s s4 /\ sc_used s = true /\ In s p2) a b -> incl b (usedSections p4) ->
    exists ts, writeMapSections sorter names w len b = Ok (concat ts) /\ Forall2 (map_section names w len) a ts).
  { intros a b H. induction H as [|s s4 a b (R & U & I) H IH]; intro In4; [exists []; split; [reflexivity|constructor]|].
    destruct IH as (ts & E & Ft); [intros z Z; apply In4; right; exact Z|].
    destruct (writeSection_ok sorter names w len p2 s s4 SO R I U CM (KP s I U) ltac:(lia)) as (t & Et & Mt).
    { intros y Y. assert (X : In (resolved s y) (sc_symbols s4) /\ inMap (resolved s y) = true).
      { apply filter_In. destruct R as (_ & _ & RS). rewrite (symbols_in_map _ _ _ _ (RS U)). apply in_map, Y. }
      destruct X as (X1 & X2). destruct (A3 s4 (resolved s y) (In4 s4 (or_introl eq_refl)) X1 X2) as (L1 & L2). cbn in L1, L2. split; [|exact L1]. intro. lia. }
    exists (t :: ts). split; [|constructor; assumption]. cbn [writeMapSections]. rewrite Et. cbn [bind]. rewrite E. reflexivity. }
  destruct (G _ _ FU (incl_refl _)) as (ts & E & Ft). rewrite E. eexists. split; [reflexivity|]. exists w, len, ts. auto.
Qed.

(** ** The listing *)
Lemma dataBytes_ok : forall d n k, 0 <= k -> k + Z.of_nat n <= zlen d -> Forall (fun b => 0 <= b < 256) d ->
  exists hs, dataBytes d k n = Ok (concat (map (fun h => text " " ++ h) hs)) /\ Forall2 (hexadecimal 2) (slice d k (Z.of_nat n)) hs /\ Forall (fun h => zlen h = 2) hs.
Proof.
  intros d. induction n as [|n IH]; intros k K L B.
  - exists []. unfold slice. cbn. repeat split; constructor.
  - unfold zlen in L. destruct (IH (k + 1)) as (hs & E & F & G); [lia|unfold zlen; lia|exact B|].
    destruct (nth_error d (Z.to_nat k)) as [b|] eqn:N; [|apply nth_error_None in N; lia].
    assert (Bb : 0 <= b < 256) by (rewrite Forall_forall in B; apply B; eapply nth_error_In; eassumption).
    destruct (print_X_ok 2 b ltac:(lia) ltac:(lia)) as (H1 & H2). exists (print_X 2 b :: hs). cbn [dataBytes]. rewrite N, E. cbn [bind].
    split; [reflexivity|]. split; [|constructor; [apply H2; change (16 ^ 2) with 256; lia|exact G]].
    unfold slice in *. rewrite Nat2Z.id in *. replace (Z.to_nat (k + 1)) with (S (Z.to_nat k)) in F by lia.
    assert (Sk : skipn (Z.to_nat k) d = b :: skipn (S (Z.to_nat k)) d).
    { clear - N. revert N. generalize (Z.to_nat k). intro m. revert d. induction m as [|m IH]; intros [|x d] N; cbn in N; try discriminate.
      - injection N as ->. reflexivity.
      - cbn [skipn]. apply IH, N. }
    rewrite Sk. cbn [firstn]. constructor; [exact H1|exact F].
Qed.
Lemma concat_len : forall hs, Forall (fun h => zlen h = 2) hs -> zlen (concat (map (fun h => text " " ++ h) hs)) = 3 * zlen hs.
Proof.
  induction 1 as [|h hs E H IH]; [reflexivity|]. cbn [map concat]. rewrite !zlen_app', IH, E. change (zlen (text " ")) with 1. unfold zlen. cbn [List.length]. lia.
Qed.
Lemma Forall2_len : forall A B (R : A -> B -> Prop) l l', Forall2 R l l' -> zlen l' = zlen l.
Proof. intros A B R l l' H. unfold zlen. f_equal. induction H; cbn; congruence. Qed.
Lemma slice_len : forall d k n, 0 <= k -> 0 <= n -> k + n <= zlen d -> zlen (slice d k n) = n.
Proof. intros d k n K N L. unfold slice, zlen in *. rewrite firstn_length, skipn_length. lia. Qed.
Lemma listLines_ok : forall names w s ls o, 1 <= w ->
  (forall d, sc_data s = Some d -> zlen d = s_size (sc_place s) /\ Forall (fun b => 0 <= b < 256) d) ->
  0 <= s_cpuByteLocation (sc_place s) -> s_cpuByteLocation (sc_place s) + s_size (sc_place s) < 2 ^ 31 -> 0 <= s_size (sc_place s) ->
  (forall l, In l ls -> 0 <= ln_offset l <= s_size (sc_place s) /\ 0 <= ln_line l < 2 ^ 31 /\ (exists f, nth_error names (Z.to_nat (ln_file l)) = Some f) /\ lineAddress s l < 16 ^ w) ->
  StronglySorted (fun a b => ln_offset a <= ln_offset b) ls ->
  (sc_data s <> None -> ls <> [] -> o = match ls with l :: _ => ln_offset l | [] => 0 end) ->
  exists t, listLines names w s o ls = Ok t /\ list_lines names w s ls t.
Proof.
  intros names w s ls. induction ls as [|l r IH]; intros o W D A1 A2 A3 L ST O; [exists []; split; reflexivity|].
  destruct (L l (or_introl eq_refl)) as ((O1 & O2) & LN & (f & Nf) & LA). apply StronglySorted_inv in ST as (ST & Fr).
  cbn [listLines list_lines]. set (next := match r with l' :: _ => ln_offset l' | [] => s_size (sc_place s) end).
  assert (NX : ln_offset l <= next <= s_size (sc_place s)).
  { unfold next. destruct r as [|l' r']; [lia|]. inversion Fr; subst. destruct (L l' (or_intror (or_introl eq_refl))) as ((Q1 & Q2) & _). lia. }
  destruct (IH next W D A1 A2 A3) as (t2 & E2 & L2); [intros x X; apply L; right; exact X|exact ST|intros; unfold next; destruct r; [congruence|reflexivity]|].
  unfold obj_GetFilename. rewrite Nf. cbn [bind]. rewrite E2. cbn [bind].
  assert (LAE : lineAddress s l = s_cpuByteLocation (sc_place s) + ln_offset l) by (unfold lineAddress, u32; rewrite Z.mod_small; lia).
  rewrite LAE in *. destruct (print_X_ok w (s_cpuByteLocation (sc_place s) + ln_offset l) W ltac:(lia)) as (H1 & H2).
  assert (PL : place names (ln_file l) (ln_line l) (f ++ text ":" ++ print_d (s32 (ln_line l)))).
  { exists f, (print_d (s32 (ln_line l))). split; [exact Nf|]. split; [apply print_d_ok, LN|reflexivity]. }
  destruct (sc_data s) as [d|] eqn:SD.
  - destruct (D d eq_refl) as (DL & DB). rewrite (O ltac:(discriminate) ltac:(discriminate)) in *.
    assert (UN : u32 (next - ln_offset l) = next - ln_offset l) by (unfold u32; rewrite Z.mod_small; lia). rewrite UN.
    set (m := Z.min 4 (next - ln_offset l)).
    assert (ME : (if next - ln_offset l >? 4 then 4 else next - ln_offset l) = m) by (unfold m; destruct (next - ln_offset l >? 4) eqn:Q; lia). rewrite ME.
    destruct (dataBytes_ok d (Z.to_nat m) (ln_offset l)) as (hs & Eb & Fb & Gb); [lia|unfold m; lia|exact DB|].
    rewrite Eb. cbn [bind]. rewrite Z2Nat.id in Fb by (unfold m; lia).
    set (b := concat (map (fun h => text " " ++ h) hs) ++ (if next - ln_offset l >? 4 then text " ..." else [])).
    assert (BL : zlen b = m * 3 + (if next - ln_offset l >? 4 then 4 else 0)).
    { unfold b. rewrite zlen_app', (concat_len _ Gb), (Forall2_len _ _ _ _ _ Fb), slice_len by (unfold m; lia). change (zlen (text " ...")) with 4. destruct (next - ln_offset l >? 4); [|change (zlen (@nil Z)) with 0]; [change (zlen (text " ...")) with 4|]; lia. }
    eexists. split; [reflexivity|]. eexists _, t2. split; [|split; [exact L2|]].
    + exists (print_X w (s_cpuByteLocation (sc_place s) + ln_offset l)), b, (f ++ text ":" ++ print_d (s32 (ln_line l))).
      split; [exact H1|]. split; [apply H2; lia|]. rewrite SD. split; [exists hs; split; [exact Fb|reflexivity]|]. split; [exact PL|reflexivity].
    + rewrite BL. unfold b, print_s. cbn [app]. rewrite Z.sub_0_r. change (chars " ...") with (text " ..."). change (chars " | ") with (text " | "). change (chars ":") with (text ":").
      change (zlen (@nil Z)) with 0. rewrite ?Z.sub_0_r. rewrite <- !app_assoc. reflexivity.
  - change (0 >? 4) with false. cbn [bind]. eexists. split; [reflexivity|]. eexists _, t2. split; [|split; [exact L2|]].
    + exists (print_X w (s_cpuByteLocation (sc_place s) + ln_offset l)), [], (f ++ text ":" ++ print_d (s32 (ln_line l))).
      split; [exact H1|]. split; [apply H2; lia|]. rewrite SD. split; [reflexivity|]. split; [exact PL|reflexivity].
    + unfold print_s. cbn [app]. change (17 - zlen (@nil Z)) with 17. change (17 - (0 * 3 + 0) - zlen (@nil Z)) with 17.
      change (chars " | ") with (text " | "). change (chars ":") with (text ":"). rewrite <- !app_assoc. reflexivity.
Qed.
Lemma longest_address : forall ss a, let r := fold_left (fun a s => fold_left (fun a l => if lineAddress s l >? a then lineAddress s l else a) (sc_lines s) a) ss a in
  a <= r /\ (forall s l, In s ss -> In l (sc_lines s) -> lineAddress s l <= r) /\ (a < 2 ^ 32 -> r < 2 ^ 32).
Proof.
  assert (G : forall s ls a, let r := fold_left (fun a l => if lineAddress s l >? a then lineAddress s l else a) ls a in
    a <= r /\ (forall l, In l ls -> lineAddress s l <= r) /\ (a < 2 ^ 32 -> r < 2 ^ 32)).
  { intros s. induction ls as [|l ls IH]; intro a; cbv zeta; cbn [fold_left]; [repeat split; try lia; intros; contradiction|].
    destruct (IH (if lineAddress s l >? a then lineAddress s l else a)) as (A & B & C). cbv zeta in *.
    assert (lineAddress s l < 2 ^ 32) by (apply Z.mod_pos_bound; lia).
    destruct (lineAddress s l >? a) eqn:E; (split; [lia|]); (split; [intros x [<-|X]; [lia|auto]|intro; apply C; lia]). }
  induction ss as [|s ss IH]; intro a; cbv zeta; cbn [fold_left]; [repeat split; try lia; intros; contradiction|].
  destruct (G s (sc_lines s) a) as (A & B & C). cbv zeta in *.
  destruct (IH (fold_left (fun a l => if lineAddress s l >? a then lineAddress s l else a) (sc_lines s) a)) as (A' & B' & C'). cbv zeta in *.
  split; [lia|]. split; [|auto]. intros t l [<-|T] L; [specialize (B l L); lia|eauto].
Qed.
Lemma list_written : forall sorter names p, sorts sorter ->
  (forall s, In s p -> sc_used s = true -> 0 <= s_cpuByteLocation (sc_place s) /\ s_cpuByteLocation (sc_place s) + s_size (sc_place s) < 2 ^ 31 /\ 0 <= s_size (sc_place s) /\
     lines_fine names s /\ from_the_start s /\ (forall d, sc_data s = Some d -> zlen d = s_size (sc_place s) /\ Forall (fun b => 0 <= b < 256) d)) ->
  exists t, list_Write sorter names p = Ok t /\ list_file names p t.
Proof.
  intros sorter names p SO H. unfold list_Write. pose proof (longest_address (usedSections p) 0) as (A & B & C). cbv zeta in *. fold (findLongestAddress p) in *.
  destruct (field_size (findLongestAddress p) ltac:(lia)) as (W1 & W2). remember (map_GetValueFieldSize (findLongestAddress p) 4) as w.
  assert (G : forall ss, incl ss (usedSections p) -> exists ts, writeListSections sorter names w ss = Ok (concat ts) /\ Forall2 (list_section names w) ss ts).
  { induction ss as [|s ss IH]; intro Is; [exists []; split; [reflexivity|constructor]|].
    destruct IH as (ts & E & F); [intros z Z; apply Is; right; exact Z|].
    pose proof (Is s (or_introl eq_refl)) as Iu. pose proof Iu as Iu2. apply filter_In in Iu as (I & U). destruct (H s I U) as (H1 & H2 & H3 & LF & FS & HD).
    destruct (qsort_ok sorter lline compareLineMappings (fun a b => ln_offset a - ln_offset b) (sc_lines s) SO) as (ls & Q & P & ST).
    { intros a b Ia Ib. unfold compareLineMappings. f_equal. destruct (LF a Ia) as ((P1 & P2) & _). destruct (LF b Ib) as ((P3 & P4) & _).
      unfold s32, u32. rewrite <- (Z.add_mod_idemp_l ((ln_offset a - ln_offset b) mod 2 ^ 32)) by lia. rewrite Z.mod_mod by lia. rewrite Z.add_mod_idemp_l by lia.
      rewrite Z.mod_small; lia. }
    { split; intros; lia. }
    destruct (listLines_ok names w s ls 0 ltac:(lia) HD H1 H2 H3) as (t & Et & Lt).
    { intros l L. apply (Permutation_in _ P) in L. destruct (LF l L) as (Q1 & Q2 & Q3). specialize (B s l Iu2 L). repeat split; try lia; auto. }
    { eapply StronglySorted_weaken; [|exact ST]. cbv beta. intros; lia. }
    { intros D N. destruct ls as [|l r]; [congruence|]. destruct FS as (x & X & Xo); [exact D|intro E0; rewrite E0 in P; apply Permutation_sym, Permutation_nil in P; discriminate|].
      apply (Permutation_in _ (Permutation_sym P)) in X. destruct (LF l) as ((Q1 & _) & _); [apply (Permutation_in _ P); left; reflexivity|].
      apply StronglySorted_inv in ST as (_ & Fr). destruct X as [->|X]; [lia|]. rewrite Forall_forall in Fr. specialize (Fr x X). cbv beta in Fr. lia. }
    exists (t :: ts). split.
    - cbn [writeListSections]. unfold writeSection. rewrite Q. cbn [bind]. rewrite Et. cbn [bind]. rewrite E. reflexivity.
    - constructor; [|exact F]. exists ls. split; [exact P|]. split; [|exact Lt]. eapply StronglySorted_weaken; [|exact ST]. cbv beta. intros; lia. }
  destruct (G _ (incl_refl _)) as (ts & E & F). rewrite E. eexists. split; [reflexivity|]. exists w, ts. auto.
Qed.
