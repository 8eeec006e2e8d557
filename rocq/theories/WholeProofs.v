(** Proofs about a whole link. *)
From Coq Require Import ZArith List Bool Lia ZifyBool ZifyNat Permutation.
From Verif Require Import Base BaseFacts PoolModel PoolSpec AssignModel AssignSpec AssignProps Arith ExprSpec ExprModel ExprLayout LinkExprModel
  LinkLayout ExprProps LinkModel LinkSpec ResolveProofs PatchProofs SmartProofs NeededProofs LinkProps FileModel ImageModel ImageSpec
  ImageProofs ImageProps WholeModel WholeSpec.
Import ListNotations.
Open Scope Z_scope.

(** ** Sections in use *)
Lemma chosen_ok : forall p entry p1, loaded p -> smart_Process (S (length p)) p entry = Ok p1 -> chosen p entry p1.
Proof.
  intros p entry p1 L H. destruct entry as [name|].
  - destruct (C20_smart_linking p name (ld_fresh _ L) (ld_ids _ L) (ld_unused _ L)) as (_ & _ & HO). specialize (HO p1 H).
    destruct HO as [A B]. split; [exact A|]. intros k s N. rewrite <- B. split.
    + intros U. exists s. auto.
    + intros (s' & N' & U). congruence.
  - cbn in H. injection H as <-. split.
    + induction p as [|s p IH]; cbn; constructor; auto. apply IH. destruct L as [a b c d e f g h]. cbn in *.
      constructor; auto.
      * intros s' y I1 I2. apply (a s' y); [right|]; assumption.
      * now inversion b.
      * inversion d; auto.
    + intros k s N.  split; [auto|]. intros _.
      apply nth_error_In in N. apply in_map_iff in N as (s0 & <- & _). reflexivity.
Qed.
Lemma chosen_in : forall p entry p1 s, chosen p entry p1 -> In s p1 -> exists s0, In s0 p /\ (s = s0 \/ s = set_used s0).
Proof.
  intros p entry p1 s [A _] I. apply In_nth_error in I as [k N]. destruct (Forall2_nth _ _ _ _ _ _ _ A N) as (s0 & N0 & H).
  exists s0. split; [eapply nth_error_In; eauto|exact H].
Qed.
Lemma chosen_ids : forall p entry p1, chosen p entry p1 -> map sc_id p1 = map sc_id p.
Proof.
  intros p entry p1 [A _]. induction A as [|s s' l l' H A IH]; [reflexivity|]. cbn. f_equal; [|exact IH].
  destruct H as [->| ->]; reflexivity.
Qed.
Lemma chosen_places : forall p entry p1, loaded p -> chosen p entry p1 -> Forall section_ok (map sc_place p1).
Proof.
  intros p entry p1 L C. apply Forall_map, Forall_forall. intros s I. destruct (chosen_in _ _ _ _ C I) as (s0 & I0 & H).
  pose proof (ld_places _ L) as P. rewrite Forall_map, Forall_forall in P. specialize (P s0 I0).
  destruct H as [->| ->]; [exact P|]. exact P.
Qed.

(** ** Places *)
Definition joined (p : program) (q : section) : lsect :=
  match find (fun s => sc_id s =? s_id q) p with
  | Some s => set_place s q
  | None => set_place (LSect q 0 false [] [] [] None []) q
  end.
Lemma rejoin_map : forall p out p2, rejoin p out = Ok p2 -> p2 = map (joined p) out.
Proof.
  intros p. induction out as [|q out IH]; intros p2 H; cbn [rejoin] in H; [injection H as <-; reflexivity|].
  destruct (find (fun s => sc_id s =? s_id q) p) as [s|] eqn:E; [|discriminate].
  destruct (rejoin p out) as [r| |]; try discriminate. cbn [bind] in H. injection H as <-. cbn [map]. f_equal; [|auto].
  unfold joined. rewrite E. reflexivity.
Qed.
Lemma find_id : forall p s k, NoDup (map sc_id p) -> In s p -> sc_id s = k -> find (fun s => sc_id s =? k) p = Some s.
Proof.
  induction p as [|a p IH]; intros s k ND I E; [destruct I|]. cbn in *. apply NoDup_cons_iff in ND as [N1 N2].
  destruct I as [->|I].
  - now rewrite E, Z.eqb_refl.
  - destruct (Z.eqb_spec (sc_id a) k) as [Q|Q]; [|auto]. exfalso. apply N1. rewrite Q, <- E. now apply in_map.
Qed.
Lemma laid_out_ok : forall cf p1 out p2, config_ok cf -> NoDup (map sc_id p1) -> Forall section_ok (map sc_place p1) ->
  assign_Process cf (map sc_place p1) = Ok out -> rejoin p1 out = Ok p2 ->
  laid_out cf p1 p2 /\ map sc_place p2 = out.
Proof.
  intros cf p1 out p2 CF ND SO A R. apply rejoin_map in R as ->.
  assert (MP : map sc_place (map (joined p1) out) = out).
  { rewrite map_map. rewrite <- (map_id out) at 2. apply map_ext. intros q. unfold joined.
    destruct (find _ p1); reflexivity. }
  destruct (C16_placement_sound cf _ out CF SO A) as (ss' & P & F2 & D & _).
  split; [split|assumption].
  - exists (map (joined p1) ss'). split; [now apply Permutation_map|].
    assert (J : forall l q, Forall2 (placed_well cf) (map sc_place l) q -> incl l p1 ->
              Forall2 (at_its_place cf) l (map (joined p1) q)).
    { induction l as [|s l IH]; intros q H I; cbn [map] in H; inversion H as [|? b ? qs PW FR]; subst; cbn [map]; constructor.
      - destruct (pw_same _ _ _ PW) as [Hid _].
        assert (E : joined p1 b = set_place s b).
        { unfold joined. rewrite (find_id p1 s) by (auto; apply I; now left). reflexivity. }
        rewrite E. constructor; reflexivity || exact PW.
      - apply IH; auto. intros x Hx. apply I. now right. }
    apply J; [exact F2|apply incl_refl].
  - rewrite MP. exact D.
Qed.

Lemma laid_in : forall cf p1 p2 s, laid_out cf p1 p2 -> In s p2 -> exists s1, In s1 p1 /\ at_its_place cf s1 s.
Proof.
  intros cf p1 p2 s [(p' & P & F2) _] I. apply (Permutation_in _ (Permutation_sym P)) in I.
  apply In_nth_error in I as [k N]. destruct (Forall2_nth _ _ _ _ _ _ _ F2 N) as (s1 & N1 & H).
  exists s1. split; [eapply nth_error_In; eauto|exact H].
Qed.
Lemma laid_ids : forall cf p1 p2, laid_out cf p1 p2 -> NoDup (map sc_id p1) -> NoDup (map sc_id p2).
Proof.
  intros cf p1 p2 [(p' & P & F2) _] ND. apply (Permutation_NoDup (l := map sc_id p')); [now apply Permutation_map|].
  replace (map sc_id p') with (map sc_id p1); [assumption|].
  clear P ND. induction F2 as [|a b l l' H F2 IH]; [reflexivity|]. cbn. f_equal; [|assumption].
  destruct (pw_same _ _ _ (ap_place _ _ _ H)) as [E _]. unfold sc_id. now rewrite E.
Qed.

(** What is known of every section of the final layout. *)
Record final (p : program) (s : lsect) : Prop := {
  fi_fresh : forall y, In y (sc_symbols s) -> ls_resolved y = false /\ (ls_section y = None \/ ls_section y = Some (sc_id s) /\ s_group (sc_place s) <> None) /\ ls_type y <> SYM_LINKER;
  fi_has : has_contents s;
  fi_patches : forall d, sc_data s = Some d -> Forall (inside d) (sc_patches s) /\ ForallOrdPairs LinkSpec.disjoint (sc_patches s);
  fi_placed : s_used (sc_place s) = true -> s_group (sc_place s) <> None -> s_cpuLocation (sc_place s) <> -1 }.
Lemma final_ok : forall cf p entry p1 p2 s, config_ok cf -> loaded p -> chosen p entry p1 -> laid_out cf p1 p2 -> In s p2 -> final p2 s.
Proof.
  intros cf p entry p1 p2 s CF L C LO I. destruct (laid_in _ _ _ _ LO I) as (s1 & I1 & [PW E1 E2 E3 E4 _ _]).
  destruct (chosen_in _ _ _ _ C I1) as (s0 & I0 & H0).
  assert (B : sc_symbols s1 = sc_symbols s0 /\ sc_data s1 = sc_data s0 /\ sc_patches s1 = sc_patches s0 /\
    s_group (sc_place s1) = s_group (sc_place s0) /\ s_size (sc_place s1) = s_size (sc_place s0) /\
    s_cpuByteLocation (sc_place s1) = s_cpuByteLocation (sc_place s0) /\ s_cpuLocation (sc_place s1) = s_cpuLocation (sc_place s0)).
  { destruct H0 as [->| ->]; cbn; repeat (split; [reflexivity|]); reflexivity. }
  destruct B as (B1 & B2 & B3 & B4 & B5 & B6 & B7). destruct (pw_same _ _ _ PW) as (P1 & P2 & P3 & P4 & P5 & _).
  constructor.
  - intros y Hy. destruct (ld_fresh _ L s0 y I0) as (F1 & F2 & F3); [congruence|]. split; [exact F1|]. split; [|exact F3].
    destruct F2 as [F2|[F2 F4]]; [left; exact F2|]. right. unfold sc_id in *. assert (B0 : s_id (sc_place s1) = s_id (sc_place s0)) by (destruct H0 as [->| ->]; reflexivity).
    split; congruence.
  - intros U NB. destruct (ld_contents _ L s0 I0) as (d & D1 & D2).
    { unfold isBss_ in *. now rewrite <- B4, <- P2. }
    exists d. split; congruence.
  - intros d D. rewrite E4, B3. apply (ld_patches _ L s0); auto. congruence.
  - intros U G. rewrite P4 in U.
    pose proof (ld_places _ L) as SP. rewrite Forall_map, Forall_forall in SP. specialize (SP s0 I0).
    assert (SO : section_ok (sc_place s1)) by (destruct H0 as [->| ->]; exact SP). rewrite P2 in G.
    assert (GK : group_kind_ok (sc_place s1)) by (unfold group_kind_ok; rewrite B4; apply (ld_kinds _ L s0 I0)).
    destruct (s_group (sc_place s1)) as [g|] eqn:EG; [|congruence].
    destruct (Z.eq_dec (s_cpuByteLocation (sc_place s1)) (-1)) as [O|O].
    + destruct (pw_floating _ _ _ PW U ltac:(congruence) O) as [-> _].
      destruct (pw_pool _ _ _ PW U g EG) as (G' & k & q & _ & _ & NQ & _ & W & _). unfold within in W. cbn [fst snd] in W.
      destruct CF as [CP _]. rewrite Forall_forall in CP. specialize (CP q (nth_error_In _ _ NQ)). cbv beta in CP.
      destruct SO as (_ & _ & _ & _ & MW & _).
      assert (0 <= s_cpuByteLocation (sc_place s) / s_minimumWordSize (sc_place s1)) by (apply Z.div_pos; lia). lia.
    + destruct (pw_org _ _ _ PW U ltac:(congruence)) as [_ ->]; auto.
      rewrite B7. destruct (ld_orgs _ L s0 I0); [congruence|assumption].
Qed.

(** ** Patches *)
Lemma patched_keeps : forall F ar osr lv gp ai p i s s', 
  (forall d, sc_data s = Some d -> Forall (inside d) (sc_patches s) /\ ForallOrdPairs LinkSpec.disjoint (sc_patches s)) ->
  patchSection F ar osr lv gp ai p i s = Ok s' ->
  sc_place s' = sc_place s /\
  match sc_data s, sc_data s' with Some d, Some d' => zlen d' = zlen d | None, None => True | _, _ => False end.
Proof.
  intros F ar osr lv gp ai p i s s' PO H. unfold patchSection in H. destruct (sc_data s) as [d|] eqn:D.
  - destruct (patchAll _ _ _ _ _) as [[d' qs]| |] eqn:PA in H; try discriminate. cbn [bind] in H. injection H as <-. cbn.
    split; [reflexivity|]. destruct (PO d eq_refl) as [A B].
    destruct (C10_section_patched _ _ _ _ _ _ _ A B PA) as [Z _]. exact Z.
  - destruct (sc_patches s); [|discriminate]. injection H as <-. rewrite D. auto.
Qed.

Lemma slice_at : forall d e a b n, 0 <= a -> 0 <= b -> 0 <= n -> a + n <= zlen d -> b + n <= zlen e ->
  (forall k, 0 <= k < n -> at_ d (a + k) = at_ e (b + k)) -> slice d a n = slice e b n.
Proof.
  intros d e a b n A B N LD LE H. unfold slice, zlen in *. apply (nth_ext _ _ 0 0).
  - rewrite !firstn_length, !skipn_length. lia.
  - intros k K. rewrite firstn_length, skipn_length in K.
    assert (NF : forall (l : list Z) m j, (j < m)%nat -> nth j (firstn m l) 0 = nth j l 0).
    { induction l as [|x l IH]; intros m j J; [now rewrite firstn_nil|]. destruct m; [lia|]. destruct j; [reflexivity|]. cbn. apply IH. lia. }
    assert (NS : forall (l : list Z) m j, nth j (skipn m l) 0 = nth (m + j) l 0).
    { induction l as [|x l IH]; intros m j; [now rewrite skipn_nil; destruct j, m|]. destruct m; [reflexivity|]. cbn. apply IH. }
    rewrite !NF, !NS by lia. specialize (H (Z.of_nat k) ltac:(lia)). unfold at_ in H.
    replace (Z.to_nat (a + Z.of_nat k)) with (Z.to_nat a + k)%nat in H by lia.
    replace (Z.to_nat (b + Z.of_nat k)) with (Z.to_nat b + k)%nat in H by lia. exact H.
Qed.

(** ** What an expression of a patch sees *)
Lemma sees_layout : forall lv gp p2 p3 i s q id E t,
  fresh p2 -> NoDup (map sc_id p2) -> (forall d, In d p2 -> final p2 d) -> resolving lv p2 p3 ->
  nth_error p2 i = Some s -> s_used (sc_place s) = true ->
  layout p2 i s q id E t -> linker_sees (patch_ctx lv gp p3 i false s (pt_offset q)) id E t.
Proof.
  intros lv gp p2 p3 i s q id E t HF ND FI HR N U [LP LV LB]. unfold linker_sees, patch_ctx. cbn [c_cpuLocation c_offset c_symbol c_bank].
  assert (I : In s p2) by (eapply nth_error_In; eauto).
  assert (PL : forall y d x, defines p2 s y d x ->
     negb (s_cpuLocation (sc_place d) =? -1) || match s_group (sc_place d) with None => true | Some _ => false end = true).
  { intros y d x HD. assert (K : (s_used (sc_place d) = true \/ s_group (sc_place d) = None) /\ In d p2).
    { inversion HD as [_ | d' x' _ (p1 & p2' & _ & _ & E1 & _ & O & _) | d' x' _ (p1 & p2' & _ & _ & E1 & _ & [O _] & _)]; subst.
      - auto.
      - split; [exact O|]. apply in_elt.
      - split; [left; exact O|]. apply in_elt. }
    destruct K as [K ID]. destruct (s_group (sc_place d)) as [g|] eqn:G; [|now rewrite orb_true_r].
    destruct K as [K|K]; [|discriminate]. pose proof (fi_placed _ _ (FI d ID) K ltac:(congruence)). lia. }
  split; [|split].
  - rewrite LP. reflexivity.
  - intros n Hn. destruct (LV n Hn) as (d & x & (y & SA & HD & R) & EV).
    exists (seen y x d). split; [|split].
    + eapply C18_symbol_has_exporters_address; eauto.
    + unfold seen. cbn [v_placed]. eapply PL; eauto.
    + cbn. congruence.
  - intros n Hn. destruct (LB n Hn) as (d & x & (y & SA & HD & R) & EV & NB). rewrite EV.
    eapply C18_symbol_has_exporters_bank; eauto.
Qed.

(** ** The whole link *)
Definition after_patching (F : fmath) (lv : program -> list Z -> res (Z * option Z)) (gp : program -> Z -> Z -> res Z) (p2 p3 p4 : program) : Prop :=
  forall i s, nth_error p2 i = Some s -> exists s4, nth_error p4 i = Some s4 /\ sc_place s4 = sc_place s /\
     match sc_data s, sc_data s4 with Some d, Some d' => zlen d' = zlen d | None, None => True | _, _ => False end /\
     (sc_used s = true -> forall d, sc_data s = Some d -> exists d' qs',
        sc_data s4 = Some d' /\
        patchAll false false (fun q => calculateExpressionValue F (patch_ctx lv gp p3 i false s (pt_offset q)) (pt_expr q)) d (sc_patches s) = Ok (d', qs')).
Lemma linked_facts : forall F lv gp cf entry p p1 out p2 p3 p4,
  config_ok cf -> loaded p ->
  smart_Process (S (length p)) p entry = Ok p1 -> assign_Process cf (map sc_place p1) = Ok out -> rejoin p1 out = Ok p2 ->
  sect_ResolveUnresolved lv p2 = Ok p3 -> patch_Process F false false lv gp false p3 = Ok p4 ->
  (chosen p entry p1 /\ Forall section_ok (map sc_place p1) /\ laid_out cf p1 p2 /\ NoDup (map sc_id p2)) /\
  ((forall s, In s p2 -> final p2 s) /\ fresh p2 /\ prog_ok p2 p3 /\ resolving lv p2 p3) /\
  after_patching F lv gp p2 p3 p4 /\ length p4 = length p2 /\ map sc_place p4 = out /\ Forall has_contents p4.
Proof.
  intros F lv gp cf entry p p1 out p2 p3 p4 CF L S1 A RJ RS PP.
  pose proof (chosen_ok _ _ _ L S1) as CH. pose proof (chosen_places _ _ _ L CH) as SO.
  assert (ND1 : NoDup (map sc_id p1)) by (rewrite (chosen_ids _ _ _ CH); apply (ld_ids _ L)).
  destruct (laid_out_ok _ _ _ _ CF ND1 SO A RJ) as [LO MP].
  pose proof (laid_ids _ _ _ LO ND1) as ND2.
  assert (FI : forall s, In s p2 -> final p2 s) by (intros s I; eapply final_ok; eauto).
  assert (FR : fresh p2) by (intros s y I J; apply (fi_fresh _ _ (FI s I) y J)).
  unfold sect_ResolveUnresolved in RS.
  destruct (resolveSections_ok p2 FR lv (length p2) p2 0 p3 (prog_ok_init p2) (resolving_none lv p2) RS) as (HP & _ & RV & _).
  assert (P4 : after_patching F lv gp p2 p3 p4).
  { intros i s N. destruct (Forall2_nth_l _ _ _ _ _ _ _ HP N) as (s3 & N3 & HS).
    pose proof (sect_ok_same p2 s s3 HS) as [SPl _]. destruct HS as [HS1 _].
    assert (D3 : sc_data s3 = sc_data s) by (rewrite HS1; reflexivity).
    assert (Q3 : sc_patches s3 = sc_patches s) by (rewrite HS1; reflexivity).
    unfold patch_Process in PP. destruct (patchSections_at _ _ _ _ _ _ _ _ _ _ _ _ PP N3) as (s4 & N4 & HE). cbn [plus] in HE.
    assert (HC : forall off, patch_ctx lv gp p3 i false s3 off = patch_ctx lv gp p3 i false s off).
    { intros off. unfold patch_ctx, sc_id, sc_cpuLocation. rewrite SPl. reflexivity. }
    exists s4. split; [assumption|]. unfold sc_used in *. rewrite SPl in HE. destruct (s_used (sc_place s)).
    - assert (PO : forall d, sc_data s3 = Some d -> Forall (inside d) (sc_patches s3) /\ ForallOrdPairs LinkSpec.disjoint (sc_patches s3)).
      { rewrite D3, Q3. apply (fi_patches _ _ (FI s (nth_error_In _ _ N))). }
      destruct (patched_keeps _ _ _ _ _ _ _ _ _ _ PO HE) as [K1 K2]. rewrite D3 in K2.
      split; [congruence|]. split; [assumption|]. intros _ d Ed.
      unfold patchSection in HE. rewrite D3, Ed, Q3 in HE.
      destruct (patchAll _ _ _ _ _) as [[d' qs]| |] eqn:PA in HE; try discriminate. cbn [bind] in HE. injection HE as <-. cbn.
      exists d', qs. split; [reflexivity|]. rewrite <- PA. clear - HC.
      assert (EX : forall e1 e2, (forall q, e1 q = e2 q) -> forall l x, patchAll false false e1 x l = patchAll false false e2 x l).
      { intros e1 e2 EQ. induction l as [|q l IH]; intros x; [reflexivity|]. cbn [patchAll]. unfold onePatch. rewrite EQ.
        destruct (e2 q) as [oe| |]; [|reflexivity|reflexivity]. cbn [bind].
        destruct oe as [e|]; [|cbn [bind]; rewrite IH; reflexivity].
        destruct (en_symbol e); [reflexivity|]. destruct (storePatch _ _ _ _ _); cbn [bind]; [|reflexivity|reflexivity].
        rewrite IH. reflexivity. }
      apply EX. intros q. now rewrite HC.
    - subst s4. split; [congruence|]. split; [rewrite D3; destruct (sc_data s); auto|]. discriminate. }
  assert (L4 : length p4 = length p2).
  { unfold patch_Process in PP. rewrite (patchSections_len _ _ _ _ _ _ _ _ _ _ PP). clear - HP. induction HP; cbn; congruence. }
  assert (M4 : map sc_place p4 = out).
  { rewrite <- MP. revert P4 L4. clear. revert p4.
    assert (G : forall (a b : list lsect), length a = length b ->
      (forall i s, nth_error b i = Some s -> exists s4, nth_error a i = Some s4 /\ sc_place s4 = sc_place s) -> map sc_place a = map sc_place b).
    { induction a as [|x a IH]; intros [|y b] LN H; cbn in LN; try lia; [reflexivity|]. cbn. f_equal.
      - destruct (H 0%nat y eq_refl) as (s4 & [= ->] & E). exact E.
      - apply IH; [lia|]. intros i s N. exact (H (S i) s N). }
    intros p4 P4 L4. apply G; [assumption|]. intros i s N. destruct (P4 i s N) as (s4 & A & B & _). eauto. }
  assert (HC4 : Forall has_contents p4).
  { apply Forall_forall. intros s4 I. apply In_nth_error in I as [i N4].
    destruct (nth_error p2 i) as [s|] eqn:N; [|apply nth_error_None in N; assert (i < length p4)%nat by (apply nth_error_Some; congruence); lia].
    destruct (P4 i s N) as (s4' & N4' & E1 & E2 & _). rewrite N4 in N4'. injection N4' as <-.
    intros U B. rewrite E1 in *. destruct (fi_has _ _ (FI s (nth_error_In _ _ N)) U) as (d & D1 & D2).
    { unfold isBss_ in *. rewrite E1 in B. exact B. }
    rewrite D1 in E2. destruct (sc_data s4) as [d'|]; [|contradiction]. exists d'. split; [reflexivity|congruence]. }
  split; [auto|]. split; [auto|]. split; [exact P4|]. auto.
Qed.
Lemma linked_ok : forall F lv gp log2n cf entry p fs,
  fmath_ok F -> config_ok cf -> image_config_ok 0 cf -> loaded p ->
  linkBinary F lv gp log2n cf entry (-1) p = Ok fs ->
  exists p1 p2, chosen p entry p1 /\ laid_out cf p1 p2 /\
    (exists main, findFile fs MAIN = Some main) /\
    (forall o s, In s p2 -> imaged o s = true -> exists f, findFile fs o = Some f) /\
    forall o f, findFile fs o = Some f ->
      (forall i s, nth_error p2 i = Some s -> imaged o s = true -> section_in_file F p2 i s (f_data f)) /\
      (forall k, 0 <= k < zlen (f_data f) -> (forall s, In s p2 -> imaged o s = true -> ImageSpec.covers s k = false) ->
         at_ (f_data f) k = 255).
Proof.
  intros F lv gp log2n cf entry p fs HF CF IC L H. unfold linkBinary in H.
  destruct (smart_Process _ p entry) as [p1| |] eqn:S1; try discriminate. cbn [bind] in H.
  destruct (assign_Process cf (map sc_place p1)) as [out| |] eqn:A; try discriminate. cbn [bind] in H.
  destruct (rejoin p1 out) as [p2| |] eqn:RJ; try discriminate. cbn [bind] in H.
  destruct (sect_ResolveUnresolved lv p2) as [p3| |] eqn:RS; try discriminate. cbn [bind] in H.
  destruct (patch_Process F false false lv gp false p3) as [p4| |] eqn:PP; try discriminate. cbn [bind] in H.
  destruct (linked_facts F lv gp cf entry p p1 out p2 p3 p4 CF L S1 A RJ RS PP) as ((CH & SO & LO & ND2) & (FI & FR & HP & RV) & P4 & L4 & M4 & HC4).
  destruct (C21_linked_image cf 0 _ out p4 CF IC (Z.le_refl 0) SO A M4 HC4) as [IO ID].
  destruct (C21_image_contents log2n [] p4 IO ID) as (fs' & main & d & W & FM & FD & IH & OV).
  unfold image_WriteBinary in H. change emptyFile with (File [] (zlen (@nil Z))) in H. rewrite W in H. injection H as <-.
  cbn [app] in FD.
  assert (IM : forall i s s4 o, nth_error p2 i = Some s -> nth_error p4 i = Some s4 -> imaged o s4 = imaged o s /\
     img_start s4 = img_start s /\ img_end s4 = img_end s /\ s_size (sc_place s4) = s_size (sc_place s) /\
     forall k, ImageSpec.covers s4 k = ImageSpec.covers s k).
  { intros i s s4 o N N4. destruct (P4 i s N) as (s4' & N4' & E1 & _). rewrite N4 in N4'. injection N4' as <-.
    unfold imaged, img_end, img_start, ImageSpec.covers, img_end, img_start. rewrite E1. auto. }
  assert (HO : forall o f, findFile fs' o = Some f -> image_holds o p4 (f_data f)).
  { intros o f FF. destruct (Z.eq_dec o MAIN) as [->|NE].
    - rewrite FM in FF. injection FF as <-. rewrite FD. exact IH.
    - apply (proj1 (OV o NE) f FF). }
  exists p1, p2. split; [assumption|]. split; [assumption|]. split; [eauto|]. split.
  { intros o s I IMs. destruct (Z.eq_dec o MAIN) as [->|NE]; [eauto|].
    destruct (findFile fs' o) as [f|] eqn:FF; [eauto|]. exfalso.
    apply In_nth_error in I as [i N]. destruct (P4 i s N) as (s4 & N4 & _). destruct (IM i s s4 o N N4) as [E _].
    pose proof (proj1 (proj2 (OV o NE)) FF s4 (nth_error_In _ _ N4)). congruence. }
  intros o f FF. specialize (HO o f FF). split.
  - intros i s N IMs. destruct (P4 i s N) as (s4 & N4 & E1 & E2 & E3). destruct (IM i s s4 o N N4) as (J1 & J2 & J3 & J4 & _).
    assert (I4 : In s4 p4) by (eapply nth_error_In; eauto).
    rewrite <- J1 in IMs. pose proof IMs as IMs'. rewrite J1 in IMs'.
    rewrite Forall_forall in IO. destruct (IO s4 I4 (ex_intro _ o IMs)) as (S0 & S2 & _ & d4 & D4 & L4').
    assert (U : s_used (sc_place s) = true).
    { unfold imaged in IMs'. destruct (s_used (sc_place s)); [reflexivity|discriminate]. }
    destruct (sc_data s) as [d0|] eqn:D0; [|rewrite D4 in E2; contradiction]. rewrite D4 in E2.
    destruct (E3 U d0 eq_refl) as (d' & qs' & D' & PA). rewrite D4 in D'. injection D' as <-.
    destruct (fi_patches _ _ (FI s (nth_error_In _ _ N)) d0 D0) as [PI PD].
    destruct (C10_section_patched _ _ _ _ _ _ _ PI PD PA) as (Z1 & Z2 & Z3).
    assert (BY : forall k, 0 <= k < s_size (sc_place s) -> at_ (f_data f) (img_start s + k) = at_ d4 k).
    { intros k K. rewrite <- J2. rewrite (ih_section _ _ _ HO s4 I4 IMs k) by lia. unfold content. now rewrite D4. }
    constructor.
    + split; [lia|]. rewrite <- J3. apply (ih_inside _ _ _ HO); auto.
    + intros k K NC. rewrite BY by assumption. unfold content. rewrite D0. unfold at_.
      assert (NE : nth_error d4 (Z.to_nat k) = nth_error d0 (Z.to_nat k)).
      { apply Z3; [lia|]. intros q Iq Cq. exfalso. exact (NC q Iq Cq). }
      rewrite <- !nth_default_eq. unfold nth_default. now rewrite NE.
    + intros q t id E v Iq AS LY MV.
      assert (LS : linker_sees (patch_ctx lv gp p3 i false s (pt_offset q)) id E t) by (eapply sees_layout; eauto).
      destruct AS as (TK & TD & w & base & cur & garb & g & k & a & off & e & ov & e' & A1 & A2 & A3 & A4 & A5 & A6 & A7).
      destruct (C07_entered_expression_keeps_value F w base E cur garb g t v k a off id _ e HF A1 A2 A3 TK A4 TD MV LS A5)
        as (ov' & e'' & R1 & _ & R2).
      rewrite A6 in R1. injection R1 as <- <-. specialize (R2 _ A7).
      destruct (Z2 q Iq) as [Q|(en & Q & Q1 & _ & Q3)]; rewrite R2 in Q; [discriminate|]. injection Q as <-.
      cbn [stored en_symbol en_value] in Q1, Q3. split; [assumption|]. rewrite <- Q3.
      rewrite Forall_forall in PI. destruct (PI q Iq) as (T1 & T2 & T3).
      assert (WN : 0 <= width (pt_type q)).
      { unfold width. destruct (pt_type q) as [|[[]|[]|]|]; try lia; destruct p0; lia. }
      assert (BE : img_end s <= zlen (f_data f)) by (rewrite <- J3; apply (ih_inside _ _ _ HO); auto).
      unfold img_end in BE.
      apply slice_at; try lia. intros j J. rewrite <- Z.add_assoc. apply BY. lia.
  - intros k K NC. apply (ih_gap _ _ _ HO); [assumption|]. intros s4 I4 IM4.
    apply In_nth_error in I4 as [i N4].
    destruct (nth_error p2 i) as [s|] eqn:N; [|apply nth_error_None in N; assert (i < length p4)%nat by (apply nth_error_Some; congruence); lia].
    destruct (IM i s s4 o N N4) as (J1 & _ & _ & _ & J5). rewrite J5. apply NC; [eapply nth_error_In; eauto|congruence].
Qed.
