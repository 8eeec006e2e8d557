(** Placement fails only when there is no room (for C16). *)
From Coq Require Import ZArith List Bool Lia ZifyBool ZifyNat Permutation Sorted.
From Verif Require Import Base BaseFacts PoolModel PoolSpec PoolProofs AssignModel AssignSpec AssignProofs.
Import ListNotations.
Open Scope Z_scope.

Lemma pool_refused : forall base size free placed q,
  pool_ok base size -> inv base size free placed -> separated free ->
  req_ok base size q -> 0 < req_size q -> serve free q = Ok None ->
  match q with
  | Absolute n loc => ~ all_free base size placed loc n
  | Aligned n align page =>
      page = NONE -> forall x, (align <> NONE -> x mod align = 0) -> ~ all_free base size placed x n
  end.
Proof.
  intros base size free placed q P I SP R Zq.
  pose proof (inv_free _ _ _ _ I) as IF.
  destruct q as [n loc|n a ps]; cbn [req_size] in Zq.
  - intros H A. destruct (free_in_chunk _ _ _ _ _ _ I SP Zq A) as (c & Hc & B1 & B2).
    cbn in H. destruct (pool_AllocateAbsolute free n loc) eqn:E2; [discriminate|].
    cbn in R. eapply (absolute_complete base size); eauto; lia.
  - intros H -> x HA A. destruct (free_in_chunk _ _ _ _ _ _ I SP Zq A) as (c & Hc & B1 & B2).
    cbn [serve] in H. unfold pool_AllocateAligned in H. rewrite Z.eqb_refl, andb_true_r in H. cbn [negb] in H.
    destruct R as (R1 & R2 & _).
    destruct (Z.eqb_spec a NONE) as [->|Na].
    + pose proof (memory_first_fit base size free n P IF SP Zq) as FF.
      destruct (pool_AllocateMemory free n) as [[l f]|] eqn:EM; [discriminate|]. eapply FF; eauto.
    + destruct R2 as [R2|[R2 R3]]; [contradiction|].
      pose proof (aligned_first_fit base size free n a P IF SP Zq R2 R3) as FF.
      destruct free as [|c0 r0]; [destruct Hc|].
      destruct (Z.eqb_spec a 0); [lia|].
      destruct (alignedLoop (c0 :: r0) n a) as [[l f]|] eqn:EM; [discriminate|]. eapply FF; eauto.
Qed.

Lemma tryPools_none : forall cf m ks bank q, tryPools cf m ks bank q = Ok None ->
  forall k p f, In k ks -> nth_error (cf_pools cf) k = Some p -> nth_error m k = Some f ->
    bank = -1 \/ bank = p_bank p -> serve f q = Ok None.
Proof.
  intros cf m ks bank q. induction ks as [|k0 ks IH]; intros H k p f Hk Hp Hf Hb; [destruct Hk|].
  cbn in H. destruct (nth_error (cf_pools cf) k0) as [p0|] eqn:E1; [|discriminate].
  destruct (nth_error m k0) as [f0|] eqn:E2; [|discriminate].
  destruct Hk as [->|Hk].
  - assert (p0 = p) by congruence. assert (f0 = f) by congruence. subst.
    replace ((bank =? -1) || (bank =? p_bank p)) with true in H by lia.
    destruct (serve f q) as [[[l f']|]| |]; cbn in H; try discriminate; auto.
  - destruct (_ || _); [|eauto].
    destruct (serve f0 q) as [[[l f']|]| |]; cbn in H; try discriminate; eauto.
Qed.

(** ** the free lists stay separated when no section is empty *)
Definition MS (m : mem) : Prop := Forall separated m.

Lemma MS_set : forall m k f, MS m -> separated f -> MS (set_nth m k f).
Proof.
  unfold MS. induction m as [|x m IH]; intros [|k] f H Hf; cbn; auto; inversion H; subst; constructor; auto.
Qed.

Lemma MS_init : forall cf, MS (initMem cf).
Proof.
  intro cf. unfold MS, initMem. rewrite Forall_map, Forall_forall. intros p _. cbn. split; [|exact I].
  intros d [].
Qed.

Definition the_request (kd : kind) (s : section) : request :=
  match kd with
  | KAbs => Absolute (s_size s) (u32 (s_cpuByteLocation s))
  | KFloat => Aligned (s_size s) (u32 (s_byteAlign s)) (u32 (s_page s))
  end.

Lemma request_ok : forall cf kd s, config_ok cf -> section_ok s ->
  (kd = KAbs -> s_cpuByteLocation s <> -1) ->
  forall k p, nth_error (cf_pools cf) k = Some p -> req_ok (p_loc p) (p_size p) (the_request kd s).
Proof.
  intros cf kd s CF SO KA k p Hp. destruct SO as (Z1 & O1 & A1 & P1 & W1 & As & Pn).
  pose proof CF as [CP _]. rewrite Forall_forall in CP. specialize (CP p (nth_error_In _ _ Hp)). cbn in CP.
  destruct kd; cbn [the_request].
  - specialize (KA eq_refl). rewrite u32_id by (unfold is_u32; lia). cbn. lia.
  - destruct (u32_attr (s_byteAlign s) ltac:(lia)) as [[a1 a2]|[a1 [a2 a3]]];
    destruct (u32_attr (s_page s) ltac:(lia)) as [[p1 p2]|[p1 [p2 p3]]]; cbn; unfold NONE in *; lia.
Qed.

Lemma place_MS : forall cf kd s m g ss s' m', config_ok cf -> section_ok s -> s_group s = Some g ->
  (kd = KAbs -> s_cpuByteLocation s <> -1) -> 0 < s_size s -> MI cf m ss -> MS m ->
  place cf kd s m = Ok (s', m') -> MS m'.
Proof.
  intros cf kd s m g ss s' m' CF SO Eg KA Zs M MSm H.
  assert (T : forall G pl, tryPools cf m (g_pools G) (s_cpuBank s) (the_request kd s) = Ok (Some pl) -> MS (pl_mem pl)).
  { intros G pl T. apply tryPools_some in T as (k & p & f & f' & l & _ & Hp & Hf & SV & _ & ->). cbn.
    pose proof (request_ok cf kd s CF SO KA k p Hp) as R.
    assert (PO : PoolSpec.pool_ok (p_loc p) (p_size p)).
    { destruct CF as [CP _]. rewrite Forall_forall in CP. specialize (CP p (nth_error_In _ _ Hp)). unfold PoolSpec.pool_ok. lia. }
    pose proof (proj2 M k p f Hp Hf) as IV.
    apply MS_set; auto. eapply carved_separated; [exact PO|apply (inv_free _ _ _ _ IV)| | |].
    - instantiate (1 := req_size (the_request kd s)). destruct kd; cbn; lia.
    - unfold MS in MSm. rewrite Forall_forall in MSm. apply MSm. eapply nth_error_In; eauto.
    - eapply serve_carved; eauto. apply (inv_free _ _ _ _ IV). }
  destruct kd; cbn [place] in H.
  - unfold placeAbsolute, group_AllocateAbsolute in H. rewrite Eg in H.
    destruct (findGroup _ _) as [G|]; cbn [bind] in H; [|discriminate]. specialize (T G). cbn [the_request] in T.
    destruct (tryPools _ _ _ _ _) as [[pl|]| |]; cbn [bind] in H; try discriminate. inversion H; subst. now apply T.
  - unfold isEqu in H. rewrite Eg in H. unfold placeFloating, group_AllocateAligned in H. rewrite Eg in H.
    destruct (findGroup _ _) as [G|]; cbn [bind] in H; [|discriminate]. specialize (T G). cbn [the_request] in T.
    destruct (tryPools _ _ _ _ _) as [[pl|]| |]; cbn [bind] in H; try discriminate.
    destruct (_ =? 0); [discriminate|]. inversion H; subst. now apply T.
Qed.

Lemma place_Err : forall cf kd s m g, s_group s = Some g -> place cf kd s m = Err ->
  forall G, find (fun G => beq (g_name G) (og_name g)) (cf_groups cf) = Some G ->
  tryPools cf m (g_pools G) (s_cpuBank s) (the_request kd s) = Ok None \/
  tryPools cf m (g_pools G) (s_cpuBank s) (the_request kd s) = Err.
Proof.
  intros cf kd s m g Eg H G HG. destruct kd; cbn [place] in H.
  - unfold placeAbsolute, group_AllocateAbsolute in H. rewrite Eg, findGroup_find, HG in H.
    cbn [the_request]. destruct (tryPools _ _ _ _ _) as [[pl|]| |]; cbn [bind] in H; try discriminate; auto.
  - unfold isEqu in H. rewrite Eg in H. unfold placeFloating, group_AllocateAligned in H.
    rewrite Eg, findGroup_find, HG in H.
    cbn [the_request]. destruct (tryPools _ _ _ _ _) as [[pl|]| |]; cbn [bind] in H; try discriminate; auto.
    destruct (_ =? 0); discriminate.
Qed.

Lemma tryPools_not_Err : forall cf m ks bank q,
  (forall k p f, nth_error (cf_pools cf) k = Some p -> nth_error m k = Some f -> serve f q <> Err) ->
  tryPools cf m ks bank q <> Err.
Proof.
  intros cf m ks bank q H. induction ks as [|k ks IH]; cbn; [discriminate|].
  destruct (nth_error (cf_pools cf) k) as [p|] eqn:E1; [|discriminate].
  destruct (nth_error m k) as [f|] eqn:E2; [|discriminate].
  destruct (_ || _); auto. specialize (H k p f E1 E2).
  destruct (serve f q) as [[[l f']|]| |]; cbn; try discriminate; auto.
Qed.

(** ** the point of failure *)
Definition failure (cf : config) (ss0 : list section) : Prop :=
  exists mid s m g done rest, gpasses = done ++ g :: rest /\
    Forall2 (fun a b => status cf done a b \/ status cf (done ++ [g]) a b) ss0 mid /\
    In s ss0 /\ In s mid /\ s_used s = true /\ gp_guard g s = true /\ isEqu s = false /\
    first_kind gpasses s = Some (gp_kind g) /\
    MI cf m mid /\ MS m /\ place cf (gp_kind g) s m = Err.

Lemma pass_Err : forall cf done g rest, config_ok cf -> gpasses = done ++ g :: rest ->
  forall ss ss0 pre pre0 m,
  Forall section_ok (pre0 ++ ss0) ->
  Forall (fun s => s_used s = true -> s_group s <> None -> 0 < s_size s) ss0 ->
  Forall2 (status cf (done ++ [g])) pre0 pre ->
  Forall2 (status cf done) ss0 ss -> MI cf m (pre ++ ss) -> MS m ->
  match forEachUsed (gstep cf g) ss m with
  | Err => failure cf (pre0 ++ ss0)
  | Ok (_, m') => MS m'
  | UB => True
  end.
Proof.
  intros cf done g rest CF EG. induction ss as [|s ss IH]; intros ss0 pre pre0 m SO ZZ FP F M MSm.
  - cbn. exact MSm.
  - inversion F as [|s0 ? ss0' ? Hst F']; subst. inversion ZZ as [|? ? Z0 ZZ']; subst.
    cbn [forEachUsed].
    assert (So0 : section_ok s0).
    { rewrite Forall_forall in SO. apply SO. apply in_app_iff. right. now left. }
    assert (Hg : In g gpasses) by (rewrite EG; apply in_app_iff; right; now left).
    assert (STEP :
       match (if s_used s then gstep cf g s m else keep s m) with
       | Ok (s1, m1) => status cf (done ++ [g]) s0 s1 /\ MI cf m1 (pre ++ s1 :: ss) /\ MS m1
       | Err => failure cf (pre0 ++ s0 :: ss0')
       | UB => True
       end).
    { destruct Hst as [[-> Hfalse]|[Hu (kd & Hk & PB)]].
      - destruct (s_used s0) eqn:Eu.
        + unfold gstep. destruct (gp_guard g s0) eqn:Eg.
          * assert (FK : first_kind gpasses s0 = Some (gp_kind g)).
            { rewrite EG, first_kind_app, first_kind_none by auto.
              unfold first_kind. cbn [find]. now rewrite Eg. }
            assert (KA : gp_kind g = KAbs -> s_cpuByteLocation s0 <> -1).
            { intro K. now destruct (abs_guard g s0 Hg K Eg). }
            destruct (place cf (gp_kind g) s0 m) as [[s1 m1]| |] eqn:E; auto.
            -- assert (X : MI cf m1 (pre ++ s1 :: ss) /\ placed_by cf (gp_kind g) s0 s1).
               { destruct (gp_kind g) eqn:Ek; cbn [place] in E.
                 - destruct (abs_kind s0 FK) as [K1 K2]. eapply place_absolute_ok; eauto.
                 - unfold isEqu in E. destruct (s_group s0) eqn:Egr.
                   + eapply place_floating_ok; eauto.
                   + inversion E; subst. now apply place_equ_ok. }
               destruct X as [X1 X2]. split; [right; eauto|]. split; auto.
               destruct (s_group s0) as [gr|] eqn:Egr.
               ++ exact (place_MS cf (gp_kind g) s0 m gr _ s1 m1 CF So0 Egr KA (Z0 eq_refl ltac:(congruence)) M MSm E).
               ++ destruct (gp_kind g) eqn:Ek; cbn [place] in E.
                  ** unfold placeAbsolute in E. rewrite Egr in E. discriminate.
                  ** unfold isEqu in E. rewrite Egr in E. inversion E; subst. exact MSm.
            -- exists (pre ++ s0 :: ss), s0, m, g, done, rest. split; [exact EG|]. split.
               { apply Forall2_app.
                 - clear - FP. induction FP; constructor; auto.
                 - constructor; [left; left; auto|]. clear - F'. induction F'; constructor; auto. }
               split; [apply in_app_iff; right; now left|].
               split; [apply in_app_iff; right; now left|].
               split; [auto|]. split; [auto|]. split.
               { destruct (isEqu s0) eqn:Q; auto. destruct (gp_kind g) eqn:K; cbn [place] in E.
                 - destruct (abs_guard g s0 Hg K Eg). congruence.
                 - rewrite Q in E. discriminate. }
               auto.
          * cbn. split; auto. left. split; auto.
            intros _ g0 Hg0. apply in_app_iff in Hg0 as [Hg0|[<-|[]]]; auto.
        + cbn. split; auto. left. split; auto. congruence.
      - pose proof (pb_assigned _ _ _ _ PB) as As.
        assert (E' : (if s_used s then gstep cf g s m else keep s m) = Ok (s, m)).
        { destruct (s_used s); unfold gstep, keep; [|reflexivity].
          destruct (gp_guard g s) eqn:Eg; [|reflexivity].
          pose proof (guard_unassigned g s Hg Eg). congruence. }
        rewrite E'. split; auto. right. eauto. }
    destruct (if s_used s then gstep cf g s m else keep s m) as [[s1 m1]| |]; cbn [bind]; auto.
    destruct STEP as (S1 & S2 & S3).
    specialize (IH ss0' (pre ++ [s1]) (pre0 ++ [s0]) m1).
    rewrite <- !app_assoc in IH. cbn [app] in IH.
    specialize (IH SO ZZ'). 
    assert (FP' : Forall2 (status cf (done ++ [g])) (pre0 ++ [s0]) (pre ++ [s1])) by (apply Forall2_app; auto).
    specialize (IH FP' F' S2 S3).
    destruct (forEachUsed (gstep cf g) ss m1) as [[r' m2]| |]; cbn; auto.
Qed.

Lemma passes_Err : forall cf rest fs done, config_ok cf -> gpasses = done ++ rest ->
  Forall2 (fun f g => pass_eq f cf g) fs rest ->
  forall ss ss0 m,
  Forall section_ok ss0 ->
  Forall (fun s => s_used s = true -> s_group s <> None -> 0 < s_size s) ss0 ->
  Forall2 (status cf done) ss0 ss -> MI cf m ss -> MS m ->
  runPasses fs ss m = Err -> failure cf ss0.
Proof.
  intros cf rest. induction rest as [|g rest IH]; intros fs done CF EG FF ss ss0 m SO ZZ F M MSm H.
  - inversion FF; subst. discriminate.
  - inversion FF as [|f ? fs' ? Hf FF']; subst. cbn [runPasses] in H.
    rewrite (forEachUsed_ext f (gstep cf g)) in H by (intros; apply Hf).
    pose proof (pass_Err cf done g rest CF EG ss ss0 [] [] m SO ZZ (Forall2_nil _) F M MSm) as N.
    destruct (forEachUsed (gstep cf g) ss m) as [[ss1 m1]| |] eqn:E; cbn [bind] in H; try discriminate; auto.
    destruct (pass_ok cf done g rest CF EG ss ss0 [] m ss1 m1 SO F M E) as [F1 M1].
    eapply (IH fs' (done ++ [g])); eauto. rewrite <- app_assoc. exact EG.
Qed.

Lemma refused_full : forall cf ss,
  config_ok cf -> Forall section_ok ss -> Forall group_kind_ok ss ->
  Forall (fun s => s_used s = true -> s_group s <> None -> 0 < s_size s) ss ->
  Forall (fun s => s_page s = -1 \/ s_cpuByteLocation s <> -1) ss ->
  assign_Process cf ss = Err ->
  exists mid s g, In s ss /\ s_used s = true /\ s_group s = Some g /\
    Forall2 (fun a b => b = a \/ placed_well cf a b) ss mid /\ In s mid /\
    forall G k p, find (fun G => beq (g_name G) (og_name g)) (cf_groups cf) = Some G ->
      In k (g_pools G) -> nth_error (cf_pools cf) k = Some p ->
      s_cpuBank s = -1 \/ s_cpuBank s = p_bank p ->
      ~ room_for p (ranges_in k mid) s.
Proof.
  intros cf ss CF SO GK ZZ PG H. unfold assign_Process in H.
  destruct (assign_Place cf ss (initMem cf)) as [[a b]| |] eqn:E; cbn in H; try discriminate.
  unfold assign_Place in E.
  assert (FL : failure cf ss).
  { eapply (passes_Err cf gpasses _ [] CF eq_refl (passes_eq cf) ss ss (initMem cf)); eauto.
    - clear. induction ss; constructor; auto. left. split; auto. intros _ g [].
    - now apply MI_init.
    - apply MS_init. }
  destruct FL as (mid & s & m & g & done & rest & EG & F2 & I1 & I2 & U & GG & NE & FK & M & MSm & PE).
  unfold isEqu in NE. destruct (s_group s) as [gr|] eqn:Egr; [|discriminate].
  exists mid, s, gr. repeat (split; [assumption|]). split.
  { clear - F2 SO. induction F2 as [|x y l l' HH F2 IH]; constructor.
    - assert (K : forall d, status cf d x y -> y = x \/ placed_well cf x y).
      { intros d [[-> _]|HH']; auto. right. apply status_placed_well; [now inversion SO|]. right. exact HH'. }
      destruct HH; eauto.
    - apply IH. now inversion SO. }
  split; [assumption|].
  assert (SOs : section_ok s) by (rewrite Forall_forall in SO; auto).
  assert (GKs : group_kind_ok s) by (rewrite Forall_forall in GK; auto).
  assert (Zs : 0 < s_size s) by (rewrite Forall_forall in ZZ; apply ZZ; auto; congruence).
  assert (Pgs : s_page s = -1 \/ s_cpuByteLocation s <> -1) by (rewrite Forall_forall in PG; auto).
  assert (KA : gp_kind g = KAbs -> s_cpuByteLocation s <> -1).
  { intro K. rewrite K in FK. now destruct (abs_kind s FK). }
  assert (KF : gp_kind g = KFloat -> s_cpuByteLocation s = -1).
  { intro K. destruct (Z.eq_dec (s_cpuByteLocation s) (-1)) as [|N]; auto.
    rewrite (org_kind s) in FK; [rewrite K in FK; discriminate|apply SOs| |auto|auto].
    unfold isEqu. now rewrite Egr. }
  intros G k p HG Hk Hp Hb (x & A & X1 & X2).
  assert (RQ := request_ok cf (gp_kind g) s CF SOs KA).
  assert (Hf : exists f, nth_error m k = Some f).
  { apply nth_error_exists. rewrite (proj1 M). apply nth_error_Some. congruence. }
  destruct Hf as [f Hf].
  assert (TN : tryPools cf m (g_pools G) (s_cpuBank s) (the_request (gp_kind g) s) = Ok None).
  { destruct (place_Err cf (gp_kind g) s m gr Egr PE G HG) as [T|T]; auto. exfalso.
    apply (tryPools_not_Err cf m (g_pools G) (s_cpuBank s) (the_request (gp_kind g) s)); auto.
    intros k' p' f' Hp' Hf'. destruct (serve_no_UB _ _ f' _ (RQ k' p' Hp')) as [? ->]. discriminate. }
  pose proof (tryPools_none _ _ _ _ _ TN k p f Hk Hp Hf Hb) as SN.
  assert (PO : PoolSpec.pool_ok (p_loc p) (p_size p)).
  { destruct CF as [CP _]. rewrite Forall_forall in CP. specialize (CP p (nth_error_In _ _ Hp)). unfold PoolSpec.pool_ok. lia. }
  assert (SPf : separated f) by (unfold MS in MSm; rewrite Forall_forall in MSm; apply MSm; eapply nth_error_In; eauto).
  assert (RZ : 0 < req_size (the_request (gp_kind g) s)) by (destruct (gp_kind g); cbn; lia).
  pose proof (pool_refused _ _ _ _ _ PO (proj2 M k p f Hp Hf) SPf (RQ k p Hp) RZ SN) as PR.
  destruct SOs as (Z1 & O1 & A1 & P1 & W1 & As & Pn).
  destruct (gp_kind g); cbn [the_request] in PR.
  - specialize (KA eq_refl). rewrite X1 in A by auto. apply PR.
    rewrite u32_id by (unfold is_u32; lia). exact A.
  - specialize (KF eq_refl). apply (PR ltac:(destruct Pgs as [->|]; [reflexivity|congruence]) x); auto.
    intro NN. destruct (u32_attr (s_byteAlign s) ltac:(lia)) as [[a1 a2]|[a1 [a2 a3]]]; [congruence|].
    rewrite a2. apply X2; auto.
Qed.
