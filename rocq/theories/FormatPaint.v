(** Proofs about files made of sections at offsets: F256 kernel user programs and
    HC800 executables. *)
From Coq Require Import ZArith List Bool Lia ZifyBool ZifyNat.
From Verif Require Import Base BaseFacts AssignModel AssignSpec LinkModel FileModel FileProofs ImageModel
  FormatModel FormatSpec FormatProofs.
Import ListNotations.
Open Scope Z_scope.

Definition paint1 (fill : Z) (d : list Z) (w : Z * list Z) : list Z :=
  overwrite (d ++ repeat fill (Z.to_nat (fst w - zlen d))) (fst w) (snd w).
Definition paint (fill : Z) (d : list Z) (ws : list (Z * list Z)) : list Z := fold_left (paint1 fill) ws d.
Lemma paint1_zlen : forall fill d a bs, 0 <= a -> zlen (paint1 fill d (a, bs)) = Z.max (zlen d) (a + zlen bs).
Proof.
  intros fill d a bs A. unfold paint1. cbn [fst snd]. pose proof (zlen_nonneg _ bs). pose proof (zlen_nonneg _ d).
  rewrite overwrite_zlen by lia. rewrite zlen_app, zlen_repeat. destruct (zlen bs =? 0) eqn:E; lia.
Qed.
Lemma paint1_byte : forall fill d a bs x, 0 <= a -> 0 <= x < Z.max (zlen d) (a + zlen bs) ->
  byte (paint1 fill d (a, bs)) x = if (a <=? x) && (x <? a + zlen bs) then byte bs (x - a) else if x <? zlen d then byte d x else fill.
Proof.
  intros fill d a bs x A X. unfold paint1. cbn [fst snd]. pose proof (zlen_nonneg _ bs). pose proof (zlen_nonneg _ d).
  rewrite overwrite_byte by lia. destruct ((a <=? x) && (x <? a + zlen bs)) eqn:E; [reflexivity|].
  rewrite byte_app by lia. destruct (x <? zlen d) eqn:E2; [reflexivity|]. apply byte_repeat. lia.
Qed.
Lemma paint_painted : forall fill ws d, Forall (fun w => 0 <= fst w) ws -> writes_disjoint ws ->
  painted fill d ws (paint fill d ws).
Proof.
  intros fill. induction ws as [|[a bs] ws IH]; intros d F D.
  - cbn. constructor; [intros ? ? []| |left; reflexivity]. intros x X _. destruct (x <? zlen d) eqn:E; [reflexivity|lia].
  - inversion F as [|? ? F1 F2]; subst. inversion D as [|? ? D1 D2]; subst. cbn [fst] in F1. cbn [paint fold_left].
    change (fold_left (paint1 fill) ws (paint1 fill d (a, bs))) with (paint fill (paint1 fill d (a, bs)) ws).
    destruct (IH (paint1 fill d (a, bs)) F2 D2) as [W R Sz]. pose proof (zlen_nonneg _ bs). pose proof (zlen_nonneg _ d).
    set (e := paint fill (paint1 fill d (a, bs)) ws) in *.
    assert (L : Z.max (zlen d) (a + zlen bs) <= zlen e).
    { rewrite <- (paint1_zlen fill d a bs F1). unfold e. generalize (paint1 fill d (a, bs)) as q. clear - F2.
      induction ws as [|[b cs] ws IH]; intros q; [cbn; lia|]. inversion F2; subst. cbn [fst] in *. cbn [paint fold_left].
      specialize (IH H2 (paint1 fill q (b, cs))). rewrite paint1_zlen in IH by auto. unfold paint in IH. lia. }
    constructor.
    + intros b cs [E|I]; [inversion E; subst b cs; clear E|now apply W]. split; [lia|]. intros k K.
      rewrite R; [|lia|].
      * rewrite paint1_zlen by auto. destruct (a + k <? Z.max (zlen d) (a + zlen bs)) eqn:E; [|lia].
        change (byte (paint1 fill d (a, bs)) (a + k) = byte bs k). rewrite paint1_byte by lia.
        destruct ((a <=? a + k) && (a + k <? a + zlen bs)) eqn:E2; [f_equal; lia|lia].
      * intros b cs I X. rewrite Forall_forall in D1. apply (D1 (b, cs) I (a + k)); cbn [fst snd]; lia.
    + intros x X N. rewrite R; [|lia|intros b cs I; apply N; right; auto]. rewrite paint1_zlen by auto.
      assert (NX : ~ (a <= x < a + zlen bs)) by (apply N; left; auto).
      destruct (x <? Z.max (zlen d) (a + zlen bs)) eqn:E.
      * change (byte (paint1 fill d (a, bs)) x = if x <? zlen d then byte d x else fill). rewrite paint1_byte by lia.
        destruct ((a <=? x) && (x <? a + zlen bs)) eqn:E2; [lia|]. reflexivity.
      * destruct (x <? zlen d) eqn:E2; [lia|reflexivity].
    + destruct Sz as [Sz|(b & cs & I & E)].
      * rewrite paint1_zlen in Sz by auto. destruct (Z_le_gt_dec (a + zlen bs) (zlen d)); [left; lia|].
        right. exists a, bs. split; [left; auto|lia].
      * right. exists b, cs. split; [right; auto|auto].
Qed.
Lemma overwrite_app_r : forall pre d a bs, 0 <= a -> overwrite (pre ++ d) (zlen pre + a) bs = pre ++ overwrite d a bs.
Proof.
  intros pre d a bs A. pose proof (zlen_nonneg _ pre). pose proof (zlen_nonneg _ d). pose proof (zlen_nonneg _ bs).
  apply byte_ext.
  - rewrite zlen_app, !overwrite_zlen, zlen_app by lia. destruct (zlen bs =? 0); lia.
  - intros x X. rewrite overwrite_zlen in X by lia. rewrite zlen_app in X. assert (0 <= x) by (destruct (zlen bs =? 0); lia).
    rewrite overwrite_byte, !byte_app by lia. destruct (x <? zlen pre) eqn:E.
    + destruct ((zlen pre + a <=? x) && (x <? zlen pre + a + zlen bs)) eqn:E2; [lia|reflexivity].
    + rewrite overwrite_byte by lia.
      replace ((a <=? x - zlen pre) && (x - zlen pre <? a + zlen bs)) with ((zlen pre + a <=? x) && (x <? zlen pre + a + zlen bs)) by lia.
      destruct ((zlen pre + a <=? x) && (x <? zlen pre + a + zlen bs)); [f_equal; lia|reflexivity].
Qed.

(** ** KUP *)
(** The sections the writer writes. *)
Definition kupImaged (s : lsect) : bool :=
  let q := sc_place s in
  negb (isEqu q) && (s_used q && s_assigned q && negb (s_imageLocation q =? -1) && negb (isBss q)).
Fixpoint kupWrites (imageStart : Z) (p : program) : list (Z * list Z) :=
  match p with
  | [] => []
  | s :: r =>
      match sc_data s with
      | Some d => if kupImaged s then (s_imageLocation (sc_place s) - imageStart, d) :: kupWrites imageStart r else kupWrites imageStart r
      | None => kupWrites imageStart r
      end
  end.
Lemma kup_sections_written : forall p f imageStart f' size',
  kupSections f imageStart (zlen (f_data f)) p = Ok (f', size') ->
  0 <= imageStart -> Forall (fun s => kupImaged s = true -> s_imageLocation (sc_place s) + s_size (sc_place s) < 2 ^ 31 /\
     0 <= s_size (sc_place s) /\ forall d, sc_data s = Some d -> zlen d = s_size (sc_place s)) p ->
  f_data f' = paint 255 (f_data f) (kupWrites imageStart p) /\ size' = zlen (f_data f') /\
  Forall (fun s => kupImaged s = true -> imageStart + 10 <= s_imageLocation (sc_place s) /\ sc_data s <> None) p.
Proof.
  induction p as [|s p IH]; intros f imageStart f' size' H IS F.
  - cbn [kupSections] in H. injection H as <- <-. split; [reflexivity|split; [reflexivity|constructor]].
  - inversion F as [|? ? F1 F2]; subst. cbn [kupSections] in H. cbn [kupWrites].
    assert (KI : kupImaged s = negb (isEqu (sc_place s)) && (s_used (sc_place s) && s_assigned (sc_place s) && negb (s_imageLocation (sc_place s) =? -1) && negb (isBss (sc_place s)))) by reflexivity.
    destruct (isEqu (sc_place s)) eqn:EQ.
    { cbn [negb andb] in KI. rewrite KI. destruct (IH _ _ _ _ H IS F2) as (A & B & C). destruct (sc_data s); (split; [exact A|split; [auto|constructor; [rewrite KI; discriminate|auto]]]). }
    cbn [negb andb] in KI.
    destruct (s_used (sc_place s) && s_assigned (sc_place s) && negb (s_imageLocation (sc_place s) =? -1) && negb (isBss (sc_place s))) eqn:SEL; rewrite KI in *.
    2:{ destruct (IH _ _ _ _ H IS F2) as (A & B & C). destruct (sc_data s); (split; [exact A|split; [auto|constructor; [rewrite KI; discriminate|auto]]]). }
    destruct (F1 eq_refl) as (G1 & G2 & G3).
    destruct (s_imageLocation (sc_place s) <? imageStart + F256_HEADER_SIZE) eqn:HO; [discriminate|]. unfold F256_HEADER_SIZE in HO.
    destruct (sc_data s) as [d|] eqn:SD; [|discriminate]. specialize (G3 d eq_refl).
    destruct (zlen d <? s_size (sc_place s)) eqn:ZD; [lia|].
    set (loc := s_imageLocation (sc_place s)) in *.
    rewrite (u32_id (loc - imageStart)) in H by (unfold is_u32; lia).
    rewrite (u32_id (loc - imageStart + s_size (sc_place s))) in H by (unfold is_u32; lia).
    set (st := loc - imageStart) in *.
    set (f1 := if st >? zlen (f_data f) then _ else f) in H.
    assert (E1 : f_data f1 = f_data f ++ repeat 255 (Z.to_nat (st - zlen (f_data f)))).
    { unfold f1. destruct (st >? zlen (f_data f)) eqn:E.
      - unfold kupFill, ffill, fwrite, fseek. cbn [f_data f_pos]. apply overwrite_end.
      - replace (Z.to_nat (st - zlen (f_data f))) with 0%nat by lia. cbn. now rewrite app_nil_r. }
    clearbody f1.
    assert (E2 : f_data (fwrite (fseek f1 st) (firstn (Z.to_nat (s_size (sc_place s))) d)) = paint1 255 (f_data f) (st, d)).
    { unfold fwrite, fseek, paint1. cbn [f_data f_pos fst snd]. rewrite E1. rewrite <- G3, firstn_zlen. reflexivity. }
    set (f2 := fwrite (fseek f1 st) (firstn (Z.to_nat (s_size (sc_place s))) d)) in *. clearbody f2.
    assert (E3 : (if st + s_size (sc_place s) >? zlen (f_data f) then st + s_size (sc_place s) else zlen (f_data f)) = zlen (f_data f2)).
    { rewrite E2, paint1_zlen by lia. rewrite G3. destruct (st + s_size (sc_place s) >? zlen (f_data f)) eqn:E; lia. }
    rewrite E3 in H. destruct (IH _ _ _ _ H IS F2) as (A & B & C). split; [|split; [auto|]].
    + rewrite A, E2. reflexivity.
    + constructor; auto. intros _. split; [lia|rewrite SD; discriminate].
Qed.
Lemma in_kupWrites : forall is p a d, In (a, d) (kupWrites is p) <->
  exists s, In s p /\ kupImaged s = true /\ sc_data s = Some d /\ a = s_imageLocation (sc_place s) - is.
Proof.
  intros is p a d. induction p as [|s p IH]; cbn [kupWrites].
  - split; [intros []|intros (s & [] & _)].
  - destruct (sc_data s) as [e|] eqn:SD; [destruct (kupImaged s) eqn:KI|].
    + cbn [In]. rewrite IH. split.
      * intros [E|(t & I & X)]; [injection E as <- <-; exists s; cbn; auto|exists t; split; [right; auto|auto]].
      * intros (t & [<-|I] & X1 & X2 & X3); [left; congruence|right; eauto].
    + rewrite IH. split.
      * intros (t & I & X). exists t. split; [right; auto|auto].
      * intros (t & [<-|I] & X1 & X2 & X3); [congruence|eauto].
    + rewrite IH. split.
      * intros (t & I & X). exists t. split; [right; auto|auto].
      * intros (t & [<-|I] & X1 & X2 & X3); [congruence|eauto].
Qed.
(** The writer writes the sections with contents. *)
Lemma kup_imaged_loads : forall s d, sc_data s = Some d -> kupImaged s = true ->
  loads s (s_cpuByteLocation (sc_place s)) d.
Proof.
  intros s d SD KI. unfold loads, contents. rewrite SD. unfold kupImaged in KI. rewrite !andb_true_iff in KI.
  destruct (s_used (sc_place s)); [reflexivity|]. destruct KI as [_ [[[X _] _] _]]. discriminate.
Qed.
Lemma loads_kup_imaged : forall s a d, image_from 0 s -> loads s a d ->
  kupImaged s = true /\ sc_data s = Some d /\ s_imageLocation (sc_place s) = a /\ 0 <= a.
Proof.
  intros s a d IF L. destruct (IF a d L) as (U & AS & _ & (g & G1 & G2) & B & I).
  unfold loads, contents in L. destruct (sc_data s) as [e|]; [|discriminate]. rewrite U in L. injection L as <- <-.
  unfold kupImaged, isEqu, isBss. rewrite U, AS, G1. rewrite I. cbn [andb negb].
  destruct (s_cpuByteLocation (sc_place s) - 0 =? -1) eqn:E; [lia|]. destruct (og_type g =? GROUP_BSS) eqn:E2; [lia|].
  repeat split; auto; lia.
Qed.
Lemma writes_disjoint_map : forall is p, memory_disjoint p -> Forall (image_from 0) p -> writes_disjoint (kupWrites is p).
Proof.
  intros is p D. induction D as [|s p F D IH]; intro IF; [constructor|]. inversion IF as [|? ? IF1 IF2]; subst. cbn [kupWrites].
  destruct (sc_data s) as [d|] eqn:SD; [|auto]. destruct (kupImaged s) eqn:KI; [|auto]. constructor; [|apply IH; auto].
  apply Forall_forall. intros [b e] I x X Y. cbn [fst snd] in *. apply in_kupWrites in I as (t & IT & KT & TD & ->).
  pose proof (kup_imaged_loads s d SD KI) as LS. pose proof (kup_imaged_loads t e TD KT) as LT.
  rewrite Forall_forall in F, IF2. destruct (loads_kup_imaged s _ d IF1 LS) as (_ & _ & E1 & _).
  destruct (loads_kup_imaged t _ e (IF2 t IT) LT) as (_ & _ & E2 & _).
  apply (F t IT _ d _ e (x + is) LS LT); lia.
Qed.
Lemma text_loads : forall p s, f256_program p -> In s p -> s_used (sc_place s) && isText s = true ->
  exists a d, loads s a d /\ sc_cpuLocation s = a /\ zlen d = s_size (sc_place s) /\ d <> [] /\ 0 <= a /\ a + zlen d <= 65536.
Proof.
  intros p s (F & _ & _) I H. apply andb_true_iff in H as [U T]. rewrite Forall_forall in F.
  destruct (F s I U) as (d & SD & SZ & NE & CL & A & B).
  - unfold isText in T. destruct (s_group (sc_place s)) as [g|]; [|discriminate]. exists g. split; auto. lia.
  - exists (s_cpuByteLocation (sc_place s)), d. unfold loads, contents. rewrite SD, U. repeat split; auto.
Qed.
Lemma loads_text : forall p s a d, f256_program p -> In s p -> loads s a d -> s_used (sc_place s) && isText s = true.
Proof.
  intros p s a d (_ & F & _) I L. rewrite Forall_forall in F. unfold loads, contents in L.
  destruct (sc_data s) as [e|] eqn:SD; [|discriminate]. destruct (s_used (sc_place s)); [|discriminate].
  destruct (F s I) as (g & G1 & G2); [congruence|]. unfold isText. rewrite G1, G2. reflexivity.
Qed.
Lemma f256_tail : forall s p, f256_program (s :: p) -> f256_program p.
Proof. intros s p (A & B & C). inversion A; subst. inversion B; subst. inversion C; subst. repeat split; auto. Qed.
Lemma first_code : forall p a0, f256_program p -> sect_StartAddressOfFirstCodeSection p = Ok a0 ->
  0 <= a0 < 65536 /\ forall s a d, In s p -> loads s a d -> a0 <= a.
Proof.
  induction p as [|s p IH]; intros a0 F H; [discriminate|]. cbn [sect_StartAddressOfFirstCodeSection] in H.
  change (sc_used s) with (s_used (sc_place s)) in H.
  destruct (s_used (sc_place s) && isText s) eqn:E.
  - injection H as <-. destruct (text_loads (s :: p) s F (or_introl eq_refl) E) as (a & d & L & CL & SZ & NE & A & B).
    assert (0 < zlen d) by (destruct d; [contradiction|rewrite zlen_cons; pose proof (zlen_nonneg _ d); lia]).
    rewrite CL. split; [lia|]. intros t b e [<-|I] LT.
    + unfold loads in *. rewrite L in LT. injection LT as <- _. lia.
    + destruct F as (_ & _ & F). inversion F as [|? ? F1 F2]; subst. rewrite Forall_forall in F1. eapply F1; eauto.
  - destruct (IH a0 (f256_tail _ _ F) H) as [A B]. split; auto. intros t b e [<-|I] LT; [|eauto].
    rewrite (loads_text _ s b e F (or_introl eq_refl) LT) in E. discriminate.
Qed.
Lemma last_code : forall p z, f256_program p -> memory_disjoint p -> sect_EndAddressOfLastCodeSection p = Ok z ->
  0 <= z < 65536 /\ (forall s a d, In s p -> loads s a d -> a + zlen d <= z + 1) /\ exists s a d, In s p /\ loads s a d /\ a + zlen d = z + 1.
Proof.
  intros p z F D H. unfold sect_EndAddressOfLastCodeSection in H.
  set (step := fun (a : Z) (s : lsect) => if sc_used s && isText s then sc_cpuLocation s + s_size (sc_place s) - 1 else a) in H.
  assert (G : forall p', f256_program p' -> memory_disjoint p' -> forall z0, 
    (fold_left step p' z0 = z0 /\ (forall s a d, In s p' -> loads s a d -> False)) \/
    (exists s a d, In s p' /\ loads s a d /\ fold_left step p' z0 = a + zlen d - 1 /\ forall t b e, In t p' -> loads t b e -> b + zlen e <= a + zlen d)).
  { clear. induction p' as [|s p IH]; intros F D z0; [left; split; [reflexivity|intros ? ? ? []]|].
    cbn [fold_left]. inversion D as [|? ? D1 D2]; subst. destruct (IH (f256_tail _ _ F) D2 (step z0 s)) as [[E N]|(t & b & e & I & L & E & M)].
    - assert (ST : step z0 s = if s_used (sc_place s) && isText s then sc_cpuLocation s + s_size (sc_place s) - 1 else z0) by reflexivity.
      rewrite E, ST. destruct (s_used (sc_place s) && isText s) eqn:T.
      + destruct (text_loads (s :: p) s F (or_introl eq_refl) T) as (a & d & L & CL & SZ & NE & A & B).
        right. exists s, a, d. split; [left; auto|]. split; auto. split; [rewrite CL, SZ; reflexivity|].
        intros t b e [<-|I] LT; [|exfalso; eauto]. unfold loads in *. rewrite L in LT. injection LT as <- <-. lia.
      + left. split; auto. intros t b e [<-|I] LT; [|eauto].
        rewrite (loads_text _ s b e F (or_introl eq_refl) LT) in T. discriminate.
    - right. exists t, b, e. split; [right; auto|]. split; auto. split; auto. intros u c g [<-|IU] LU; [|eauto].
      pose proof (loads_text _ s c g F (or_introl eq_refl) LU) as TS.
      destruct (text_loads (s :: p) s F (or_introl eq_refl) TS) as (a' & d' & L' & _ & _ & NE & A & _).
      unfold loads in *. rewrite LU in L'. injection L' as <- <-.
      pose proof (loads_text p t b e (f256_tail _ _ F) I L) as TT.
      destruct (text_loads p t (f256_tail _ _ F) I TT) as (a' & d' & L' & _ & _ & NE' & A' & _).
      unfold loads in *. rewrite L in L'. injection L' as <- <-.
      assert (P1 : 0 < zlen g) by (destruct g; [contradiction|rewrite zlen_cons; pose proof (zlen_nonneg _ g); lia]).
      assert (P2 : 0 < zlen e) by (destruct e; [contradiction|rewrite zlen_cons; pose proof (zlen_nonneg _ e); lia]).
      destruct F as (_ & _ & F). inversion F as [|? ? F1 F2]; subst. rewrite Forall_forall in F1, D1.
      pose proof (F1 t I c g b e LU L) as LE. destruct (Z_lt_ge_dec b (c + zlen g)) as [X|X]; [|lia].
      exfalso. apply (D1 t I c g b e b LU L); lia. }
  destruct (G p F D 0) as [[E N]|(s & a & d & I & L & E & M)].
  - rewrite E in H. discriminate.
  - rewrite E in H. destruct (a + zlen d - 1 =? 0) eqn:E0; [discriminate|]. injection H as <-.
    pose proof (loads_text p s a d F I L) as TS. destruct (text_loads p s F I TS) as (a' & d' & L' & _ & _ & NE & A & B).
    unfold loads in *. rewrite L in L'. injection L' as <- <-.
    assert (P1 : 0 < zlen d) by (destruct d; [contradiction|rewrite zlen_cons; pose proof (zlen_nonneg _ d); lia]).
    split; [lia|]. split; [intros t b e IT LT; specialize (M t b e IT LT); lia|]. exists s, a, d. split; auto. split; auto. lia.
Qed.
Lemma kup_written : forall p name pad f, foenix_WriteExecutableKUP p (Some name) pad = Ok f ->
  f256_program p -> memory_disjoint p -> Forall (image_from 0) p ->
  exists y n slot, sect_FindExportedSymbol p name = Some y /\ 1 <= n <= 4 /\ 1 <= slot /\ slot + n <= 8 /\
    (forall s a d, In s p -> loads s a d -> slot * 8192 + 10 <= a /\ a + zlen d <= (slot + n) * 8192) /\
    (if pad then zlen (f_data f) mod 8192 = 0 else zlen (f_data f) <= n * 8192) /\
    forall m, exists m', kup_load (f_data f) m = Some (m', n, slot, u16 (ls_value y)) /\ memory_has m' p.
Proof.
  intros p name pad f H F D IF. unfold foenix_WriteExecutableKUP in H.
  destruct (sect_FindExportedSymbol p name) as [y|] eqn:EY; [|discriminate].
  destruct (sect_StartAddressOfFirstCodeSection p) as [a0| |] eqn:EA; [|discriminate|discriminate]. cbn [bind] in H.
  destruct (sect_EndAddressOfLastCodeSection p) as [z0| |] eqn:EZ; [|discriminate|discriminate]. cbn [bind] in H.
  destruct (first_code p a0 F EA) as [A1 A2]. destruct (last_code p z0 F D EZ) as (Z1 & Z2 & s1 & a1 & d1 & I1 & L1 & E1).
  unfold F256_SLOT_SIZE, F256_HEADER_SIZE in H. rewrite !Z.quot_div_nonneg in H by lia.
  set (slot := a0 / 8192) in *. set (last := z0 / 8192) in *.
  assert (SB : 8192 * slot <= a0 < 8192 * slot + 8192) by (unfold slot; Z.div_mod_to_equations; lia).
  assert (LB : 8192 * last <= z0 < 8192 * last + 8192) by (unfold last; Z.div_mod_to_equations; lia).
  clearbody slot last.
  assert (AZ : a0 <= z0).
  { pose proof (A2 s1 a1 d1 I1 L1). pose proof (loads_text p s1 a1 d1 F I1 L1) as TS.
    destruct (text_loads p s1 F I1 TS) as (a' & d' & L' & _ & _ & NE & _ & _).
    unfold loads in *. rewrite L1 in L'. injection L' as <- <-.
    assert (0 < zlen d1) by (destruct d1; [contradiction|rewrite zlen_cons; pose proof (zlen_nonneg _ d1); lia]). lia. }
  destruct (ls_value y <? 10 + 2) eqn:C1; [discriminate|]. destruct (slot =? 0) eqn:C2; [discriminate|].
  destruct (last - slot + 1 >? 4) eqn:C3; [discriminate|].
  set (n := last - slot + 1) in *. assert (NR : 1 <= n <= 4) by (unfold n; lia).
  set (f5 := ffill _ 0 4) in H.
  assert (E5 : at_end f5 ([242; 86; n; slot] ++ le16 (u16 (ls_value y)) ++ [0; 0; 0; 0])).
  { unfold f5. assert (X1 : at_end (fputc (fputc (fputlw emptyFile 22258) n) slot) ((([] ++ le16 22258) ++ [n]) ++ [slot])).
    { apply fputc_end; [|unfold is_byte; lia]. apply fputc_end; [|unfold is_byte; lia]. apply fputlw_end; [reflexivity|lia]. }
    unfold ffill. apply (fwrite_end _ ((([] ++ le16 22258) ++ [n]) ++ [slot] ++ le16 (u16 (ls_value y))) (repeat 0 (Z.to_nat 4))).
    unfold fputlw. rewrite (app_assoc _ [slot]). now apply fwrite_end. }
  clearbody f5. unfold writeKUPSections in H.
  replace (ftell f5) with (zlen (f_data f5)) in H by (rewrite E5; reflexivity).
  unfold F256_SLOT_SIZE in H.
  destruct (kupSections f5 (slot * 8192) (zlen (f_data f5)) p) as [[f6 size]| |] eqn:KS; [|discriminate|discriminate].
  cbn [bind] in H.
  assert (FK : Forall (fun s => kupImaged s = true -> s_imageLocation (sc_place s) + s_size (sc_place s) < 2 ^ 31 /\
     0 <= s_size (sc_place s) /\ forall d, sc_data s = Some d -> zlen d = s_size (sc_place s)) p).
  { apply Forall_forall. intros s I K. destruct F as (F1 & F2 & F3).
    assert (U : s_used (sc_place s) = true) by (unfold kupImaged in K; rewrite !andb_true_iff in K; tauto).
    destruct (sc_data s) as [d|] eqn:SD.
    - pose proof (kup_imaged_loads s d SD K) as L. rewrite Forall_forall in IF.
      destruct (loads_kup_imaged s _ d (IF s I) L) as (_ & _ & EL & _).
      pose proof (loads_text p s _ d (conj F1 (conj F2 F3)) I L) as TS.
      destruct (text_loads p s (conj F1 (conj F2 F3)) I TS) as (a' & d' & L' & _ & SZ & NE & A & B).
      unfold loads in *. rewrite L in L'. injection L' as <- <-. rewrite EL. pose proof (zlen_nonneg _ d).
      split; [lia|]. split; [lia|]. intros e X. injection X as <-. auto.
    - exfalso. assert (T : isText s = true \/ isText s = false) by (destruct (isText s); auto). destruct T as [T|T].
      + destruct (text_loads p s (conj F1 (conj F2 F3)) I) as (a' & d' & L' & _); [now rewrite U, T|].
        unfold loads, contents in L'. rewrite SD in L'. discriminate.
      + (* neither code nor BSS: refused by the hypothesis on groups *)
        clear - KS K SD I T U. revert f5 KS. generalize (zlen (f_data f6)). intros _ f5 KS. revert f5 KS.
        assert (X : forall p f sz, In s p -> kupSections f (slot * 8192) sz p = Ok (f6, size) -> False).
        { induction p0 as [|t q IH]; intros f sz J Q; [destruct J|]. cbn [kupSections] in Q. destruct J as [->|J].
          - unfold kupImaged in K. apply andb_true_iff in K as [K1 K2]. destruct (isEqu (sc_place s)); [discriminate|]. rewrite K2 in Q.
            destruct (_ <? _) in Q; [discriminate|]. rewrite SD in Q. discriminate.
          - destruct (isEqu (sc_place t)); [eauto|]. destruct (_ && _ && _ && _) in Q; [|eauto].
            destruct (_ <? _) in Q; [discriminate|]. destruct (sc_data t); [|discriminate]. destruct (_ <? _) in Q; [discriminate|]. eauto. }
        intros f5 KS. eapply X; eauto. }
  destruct (kup_sections_written p f5 (slot * 8192) f6 size KS) as (P1 & P2 & P3); [lia|auto|].
  assert (WD : writes_disjoint (kupWrites (slot * 8192) p)) by (apply writes_disjoint_map; auto).
  assert (W0 : Forall (fun w : Z * list Z => 0 <= fst w) (kupWrites (slot * 8192) p)).
  { apply Forall_forall. intros [a d] I. apply in_kupWrites in I as (s & I & K & SD & ->). rewrite Forall_forall in P3. specialize (P3 s I K). cbn [fst]. lia. }
  destruct (paint_painted 255 (kupWrites (slot * 8192) p) (f_data f5) W0 WD) as [PW PR PS]. rewrite <- P1 in PW, PR, PS.
  assert (HL : zlen (f_data f5) = 10) by (rewrite E5; reflexivity).
  assert (LIM : forall s a d, In s p -> loads s a d -> slot * 8192 + 10 <= a /\ a + zlen d <= (slot + n) * 8192).
  { intros s a d I L. rewrite Forall_forall in IF, P3. destruct (loads_kup_imaged s a d (IF s I) L) as (K & SD & EL & _).
    destruct (P3 s I K) as [X _]. pose proof (Z2 s a d I L). split; [lia|]. unfold n. lia. }
  assert (ZL : zlen (f_data f6) <= n * 8192).
  { destruct PS as [PS|(a & d & I & E)]; [lia|]. apply in_kupWrites in I as (s & I & K & SD & ->).
    pose proof (kup_imaged_loads s d SD K) as L. rewrite Forall_forall in IF. destruct (loads_kup_imaged s _ d (IF s I) L) as (_ & _ & EL & _).
    specialize (LIM s _ d I L). lia. }
  assert (Z10 : 10 <= zlen (f_data f6)).
  { pose proof (Forall_forall (fun w => 0 <= fst w) (kupWrites (slot * 8192) p)) as [X _]. rewrite P1. clear - W0 HL. revert W0 HL. generalize (f_data f5).
    generalize (kupWrites (slot * 8192) p). intro ws. induction ws as [|[a bs] ws IH]; intros d W L; [cbn; lia|].
    inversion W; subst. cbn [fst] in *. cbn [paint fold_left]. pose proof (paint1_zlen 255 d a bs H1).
    assert (G : forall ws d, Forall (fun w : Z * list Z => 0 <= fst w) ws -> zlen d <= zlen (paint 255 d ws)).
    { clear. induction ws as [|[a bs] ws IH]; intros d W; [cbn; lia|]. inversion W; subst. cbn [fst] in *. cbn [paint fold_left].
      specialize (IH (paint1 255 d (a, bs)) H2). rewrite paint1_zlen in IH by auto. unfold paint in IH. lia. }
    specialize (G ws (paint1 255 d (a, bs)) H2). unfold paint in G. lia. }
  assert (HD : forall k, 0 <= k < 10 -> byte (f_data f6) k = byte (f_data f5) k).
  { intros k K. pose proof (PR k) as R. rewrite HL in R. destruct (k <? 10) eqn:E; [|lia]. apply R; [lia|].
    intros a d I X. apply in_kupWrites in I as (s & I & KI & SD & ->). rewrite Forall_forall in P3. destruct (P3 s I KI). lia. }
  set (d6 := f_data f6) in *.
  assert (SP : exists r, d6 = ([242; 86; n; slot] ++ le16 (u16 (ls_value y)) ++ [0; 0; 0; 0]) ++ r).
  { exists (skipn 10 d6). rewrite <- (firstn_skipn 10 d6) at 1. f_equal. apply byte_ext.
    - unfold zlen. rewrite firstn_length. unfold zlen in Z10. cbn [length app le16]. lia.
    - intros k K. assert (zlen (firstn 10 d6) = 10) as Q by (unfold zlen in *; rewrite firstn_length; lia). rewrite Q in K.
      rewrite byte_firstn by lia. destruct (k <? Z.of_nat 10) eqn:E; [|lia]. rewrite HD by lia. rewrite E5. reflexivity. }
  assert (FD : exists fill, f_data f = d6 ++ fill /\ (if pad then zlen (f_data f) mod 8192 = 0 else zlen (f_data f) <= n * 8192)).
  { destruct pad; (match type of H with Ok ?a = Ok ?b => assert (EF : a = b) by congruence end); rewrite <- EF; clear EF H.
    - exists (repeat 255 (Z.to_nat (8192 - size mod 8192))).
      assert (X : f_data (kupFill f6 size (8192 - size mod 8192)) = d6 ++ repeat 255 (Z.to_nat (8192 - size mod 8192))).
      { unfold kupFill, ffill, fwrite, fseek. cbn [f_data f_pos]. rewrite P2. apply overwrite_end. }
      split; auto. rewrite X, zlen_app, zlen_repeat. fold d6 in P2. rewrite <- P2.
      pose proof (Z.mod_pos_bound size 8192 eq_refl). rewrite Z2Nat.id by lia.
      replace (size + (8192 - size mod 8192)) with ((size / 8192 + 1) * 8192) by (pose proof (Z.div_mod size 8192); lia).
      apply Z.mod_mul. lia.
    - exists []. rewrite app_nil_r. auto. }
  destruct FD as (fill & FD & FS). exists y, n, slot. split; auto. split; [lia|]. split; [lia|]. split; [unfold n; lia|]. split; auto.
  split; auto. intro m. exists (poke m (slot * 8192) (f_data f)). split.
  - destruct SP as (r & SP). rewrite FD. rewrite SP. unfold le16. cbn [app kup_load].
    assert (u16 (ls_value y) mod 256 + 256 * (u16 (ls_value y) / 256 mod 256) = u16 (ls_value y)) as ->; [|reflexivity].
    assert (0 <= u16 (ls_value y) < 65536) by (unfold u16; apply Z.mod_pos_bound; lia). Z.div_mod_to_equations. lia.
  - intros s a d I L k K. rewrite Forall_forall in IF. destruct (loads_kup_imaged s a d (IF s I) L) as (KI & SD & EL & _).
    destruct (LIM s a d I L) as [X1 X2].
    assert (IW : In (a - slot * 8192, d) (kupWrites (slot * 8192) p)) by (apply in_kupWrites; exists s; repeat split; auto; lia).
    destruct (PW _ _ IW) as [Y1 Y2]. replace (a + k) with (slot * 8192 + (a - slot * 8192 + k)) by lia.
    rewrite poke_in by (rewrite FD, zlen_app; pose proof (zlen_nonneg _ fill); lia).
    rewrite FD. rewrite app_nth1 by (unfold zlen in *; lia). apply Y2. auto.
Qed.

(** ** HC800 executables *)
Lemma hc_tail : forall s p, hc800_program (s :: p) -> hc800_program p.
Proof. intros s p (A & B & C). inversion A; subst. inversion B; subst. inversion C; subst. repeat split; auto. Qed.
Lemma in_bank : forall b p a d, In (a, d) (bank_sections b p) <->
  exists s, In s p /\ s_cpuBank (sc_place s) = b /\ sc_data s = Some d /\ a = s_imageLocation (sc_place s).
Proof.
  intros b p a d. induction p as [|s p IH]; cbn [bank_sections].
  - split; [intros []|intros (s & [] & _)].
  - destruct (sc_data s) as [e|] eqn:SD; [destruct (s_cpuBank (sc_place s) =? b) eqn:KI|].
    + cbn [In]. rewrite IH. split.
      * intros [E|(t & I & X)]; [injection E as <- <-; exists s; split; [left; auto|split; [lia|auto]]|exists t; split; [right; auto|auto]].
      * intros (t & [<-|I] & X1 & X2 & X3); [left; congruence|right; eauto].
    + rewrite IH. split.
      * intros (t & I & X). exists t. split; [right; auto|auto].
      * intros (t & [<-|I] & X1 & X2 & X3); [lia|eauto].
    + rewrite IH. split.
      * intros (t & I & X). exists t. split; [right; auto|auto].
      * intros (t & [<-|I] & X1 & X2 & X3); [congruence|eauto].
Qed.
Lemma bank_later : forall b p s, hc800_program (s :: p) -> 129 <= b -> s_cpuBank (sc_place s) > b -> bank_sections b p = [].
Proof.
  intros b p s (_ & B & _) L G. inversion B as [|? ? B1 _]; subst. destruct (bank_sections b p) as [|[a d] r] eqn:E; [reflexivity|].
  assert (I : In (a, d) (bank_sections b p)) by (rewrite E; left; auto). apply in_bank in I as (t & I & X & _).
  rewrite Forall_forall in B1. specialize (B1 t I). lia.
Qed.
Lemma bankLoop_written : forall p f pre d b, hc800_program p -> 129 <= b <= 255 ->
  Forall (fun s => b <= s_cpuBank (sc_place s)) p -> f_data f = pre ++ d ->
  exists f' rest, bankLoop f b (zlen pre) (zlen d) p = Ok (f', rest) /\ f_data f' = pre ++ paint 0 d (bank_sections b p) /\
    bank_sections b rest = [] /\ (length rest <= length p)%nat.
Proof.
  induction p as [|s p IH]; intros f pre d b HP B F FD.
  - exists f, []. cbn. auto.
  - inversion F as [|? ? F1 F2]; subst. cbn [bankLoop bank_sections]. destruct (s_cpuBank (sc_place s) <? b) eqn:C1; [lia|].
    destruct (s_cpuBank (sc_place s) =? b) eqn:C2.
    + pose proof HP as (H1 & _ & _). inversion H1 as [|? ? G _]; subst. destruct G as (g & EG & GB & GT); [lia|]. rewrite EG.
      destruct (og_type g =? GROUP_BSS) eqn:TB.
      * rewrite GB by lia. destruct (IH f pre d b (hc_tail _ _ HP) B F2 FD) as (f' & rest & R1 & R2 & R3 & R4).
        exists f', rest. repeat split; auto. cbn. lia.
      * destruct GT as (e & SD & SZ & L1 & L2); [lia|]. rewrite SD. destruct (zlen e <? s_size (sc_place s)) eqn:ZE; [lia|].
        set (loc := s_imageLocation (sc_place s)) in *. set (f1 := if zlen d <? loc then _ else _).
        assert (E1 : f_data f1 = pre ++ d ++ repeat 0 (Z.to_nat (loc - zlen d))).
        { unfold f1. destruct (zlen d <? loc) eqn:E.
          - unfold fwrite, fseek_end. cbn [f_data f_pos]. rewrite overwrite_end, FD, <- app_assoc. reflexivity.
          - replace (Z.to_nat (loc - zlen d)) with 0%nat by lia. cbn. now rewrite app_nil_r. }
        clearbody f1. rewrite <- SZ, firstn_zlen.
        assert (E2 : f_data (fwrite (fseek f1 (zlen pre + loc)) e) = pre ++ paint1 0 d (loc, e)).
        { unfold fwrite, fseek. cbn [f_data f_pos]. rewrite E1. now rewrite overwrite_app_r by lia. }
        assert (E3 : (if loc + zlen e >? (if zlen d <? loc then loc else zlen d) then loc + zlen e else (if zlen d <? loc then loc else zlen d)) = zlen (paint1 0 d (loc, e))).
        { rewrite paint1_zlen by lia. pose proof (zlen_nonneg _ e). destruct (zlen d <? loc) eqn:X1; destruct (_ >? _) eqn:X2; lia. }
        rewrite E3. destruct (IH _ pre _ b (hc_tail _ _ HP) B F2 E2) as (f' & rest & R1 & R2 & R3 & R4).
        exists f', rest. repeat split; auto. cbn. lia.
    + assert (N : bank_sections b p = []) by (eapply bank_later; eauto; lia).
      exists f, (s :: p). split; [reflexivity|]. rewrite N. cbn [bank_sections]. rewrite C2, N.
      split; [destruct (sc_data s); exact FD|]. split; [destruct (sc_data s); reflexivity|auto].
Qed.
Definition bank_data (b : Z) (p : program) : list Z := paint 0 [] (bank_sections b p).
Definition enc (h : Z * list Z) : list Z := [fst h] ++ le16 (zlen (snd h)) ++ snd h.
Lemma hunkEnd_written : forall f D t bs, at_end f ([] ++ D ++ [t; 0; 0] ++ bs) -> zlen bs < 65536 ->
  at_end (writeHunkEnd f (zlen D + 3)) (D ++ enc (t, bs)).
Proof.
  intros f D t bs E L. cbn [app] in E. unfold writeHunkEnd, ftell. pose proof (zlen_nonneg _ bs). pose proof (zlen_nonneg _ D).
  rewrite E. cbn [f_pos].
  replace (zlen (D ++ t :: 0 :: 0 :: bs) - (zlen D + 3)) with (zlen bs) by (rewrite zlen_app, !zlen_cons; lia).
  unfold fputlw, fwrite, fseek, fseek_end, at_end. cbn [f_data f_pos].
  assert (U : u16 (u16 (zlen bs)) = zlen bs) by (unfold u16; rewrite !Z.mod_small; lia). rewrite U.
  replace (D ++ t :: 0 :: 0 :: bs) with ((D ++ [t]) ++ [0; 0] ++ bs) by (rewrite <- app_assoc; reflexivity).
  rewrite overwrite_middle; [|rewrite zlen_app; change (zlen [t]) with 1; lia|reflexivity].
  unfold enc. cbn [fst snd]. rewrite <- app_assoc. reflexivity.
Qed.
Lemma bank_ranges : forall b p, hc800_program p -> 129 <= b <= 255 ->
  Forall (fun w => 0 <= fst w) (bank_sections b p) /\ writes_disjoint (bank_sections b p) /\
  Forall (fun w => fst w + zlen (snd w) < 65535) (bank_sections b p).
Proof.
  intros b p HP B. pose proof HP as (H1 & _ & H3).
  assert (X : forall a d, In (a, d) (bank_sections b p) -> 0 <= a /\ a + zlen d < 65535).
  { intros a d I. apply in_bank in I as (s & I & E & SD & ->). rewrite Forall_forall in H1.
    destruct (H1 s I) as (g & EG & GB & GT); [lia|]. destruct (Z.eq_dec (og_type g) GROUP_BSS) as [T|T].
    - rewrite GB in SD by auto. discriminate.
    - destruct (GT T) as (e & SD' & SZ & L1 & L2). rewrite SD in SD'. injection SD' as <-. lia. }
  split; [|split].
  - apply Forall_forall. intros [a d] I. apply X in I. cbn. lia.
  - clear - H3. induction H3 as [|s p F D IH]; [constructor|]. cbn [bank_sections]. destruct (sc_data s) as [d|] eqn:SD; [|auto].
    destruct (s_cpuBank (sc_place s) =? b) eqn:E; [|auto]. constructor; [|exact IH]. apply Forall_forall. intros [a e] I x Y1 Y2.
    apply in_bank in I as (t & I & Et & TD & ->). rewrite Forall_forall in F. apply (F t I d e x); auto. lia.
  - apply Forall_forall. intros [a d] I. apply X in I. cbn. lia.
Qed.
Lemma bank_data_painted : forall b p, hc800_program p -> 129 <= b <= 255 ->
  painted 0 [] (bank_sections b p) (bank_data b p) /\ zlen (bank_data b p) < 65535.
Proof.
  intros b p HP B. destruct (bank_ranges b p HP B) as (R1 & R2 & R3). pose proof (paint_painted 0 _ [] R1 R2) as P. split; [exact P|].
  destruct (pt_size _ _ _ _ P) as [E|(a & d & I & E)]; unfold bank_data; rewrite <- ?E; [rewrite E; cbn; lia|].
  rewrite Forall_forall in R3. specialize (R3 _ I). cbn in R3. lia.
Qed.
Lemma writeBank_written : forall p f D b s, hc800_program (s :: p) -> 129 <= b <= 255 -> s_cpuBank (sc_place s) = b ->
  at_end f D ->
  exists f' rest, writeBank f (s :: p) b = Ok (f', rest) /\ at_end f' (D ++ enc (2, b :: bank_data b (s :: p))) /\
    bank_sections b rest = [] /\ (length rest <= length (s :: p))%nat.
Proof.
  intros p f D b s HP B EB E. unfold writeBank, writeHunkStart.
  assert (E1 : at_end (fputc (fputlw (fputc f 2) 0) b) ((D ++ [2; 0; 0]) ++ [b])).
  { apply fputc_end; [|unfold is_byte; lia]. replace (D ++ [2; 0; 0]) with ((D ++ [2]) ++ le16 0) by (rewrite <- app_assoc; reflexivity).
    apply fputlw_end; [|lia]. apply fputc_end; auto. unfold is_byte. lia. }
  assert (E0 : at_end (fputlw (fputc f 2) 0) (D ++ [2; 0; 0])).
  { replace (D ++ [2; 0; 0]) with ((D ++ [2]) ++ le16 0) by (rewrite <- app_assoc; reflexivity).
    apply fputlw_end; [|lia]. apply fputc_end; auto. unfold is_byte. lia. }
  assert (u8 b = b) as -> by (unfold u8; rewrite Z.mod_small; lia).
  set (f2 := fputc (fputlw (fputc f 2) 0) b) in *.
  assert (T : ftell f2 = zlen ((D ++ [2; 0; 0]) ++ [b])) by (rewrite E1; reflexivity). rewrite T.
  assert (FG : Forall (fun t => b <= s_cpuBank (sc_place t)) (s :: p)).
  { constructor; [lia|]. destruct HP as (_ & O & _). inversion O as [|? ? O1 _]; subst. rewrite Forall_forall in *. intros t I. specialize (O1 t I). lia. }
  destruct (bankLoop_written (s :: p) f2 ((D ++ [2; 0; 0]) ++ [b]) [] b HP B FG) as (f3 & rest & L1 & L2 & L3 & L4).
  { rewrite E1. cbn [f_data]. now rewrite app_nil_r. }
  change (zlen []) with 0 in L1. rewrite L1. cbn [bind]. eexists. exists rest. split; [reflexivity|]. split; [|auto].
  assert (T0 : ftell (fputlw (fputc f 2) 0) = zlen D + 3) by (rewrite E0; unfold ftell; cbn [f_pos]; rewrite zlen_app; reflexivity).
  rewrite T0. apply hunkEnd_written.
  - unfold fseek_end, at_end. rewrite L2. cbn [app]. fold (bank_data b (s :: p)). rewrite <- !app_assoc. reflexivity.
  - rewrite zlen_cons. destruct (bank_data_painted b _ HP B). lia.
Qed.
Lemma bankHunks_none : forall fuel p f b, bank_sections b p = [] -> bankHunks fuel f b p = Ok f.
Proof.
  induction fuel as [|fuel IH]; intros p f b N; [reflexivity|]. destruct p as [|s p]; [reflexivity|]. cbn [bankHunks bank_sections] in *.
  destruct (sc_data s) as [d|]; [|rewrite andb_false_r; auto]. destruct (s_cpuBank (sc_place s) =? b); [discriminate|]. cbn [andb]. auto.
Qed.
Definition bank_hunk (b : Z) (p : program) : list (Z * list Z) :=
  match bank_sections b p with [] => [] | _ => [(2, b :: bank_data b p)] end.
Lemma bankHunks_written : forall p fuel f D b, hc800_program p -> 129 <= b <= 255 -> at_end f D -> (length p <= fuel)%nat ->
  exists f', bankHunks fuel f b p = Ok f' /\ at_end f' (D ++ concat (map enc (bank_hunk b p))).
Proof.
  induction p as [|s p IH]; intros fuel f D b HP B E L.
  - exists f. split; [destruct fuel; reflexivity|]. cbn. now rewrite app_nil_r.
  - destruct fuel as [|fuel]; [cbn in L; lia|]. cbn [bankHunks]. unfold bank_hunk. cbn [bank_sections].
    destruct (sc_data s) as [d|] eqn:SD.
    + rewrite andb_true_r. destruct (s_cpuBank (sc_place s) =? b) eqn:EB.
      * assert (EB' : s_cpuBank (sc_place s) = b) by lia. rewrite EB'. destruct (writeBank_written p f D b s HP B EB' E) as (f' & rest & W & E' & N & _).
        rewrite W. cbn [bind]. exists f'. split; [now apply bankHunks_none|]. cbn [map concat]. rewrite app_nil_r. exact E'.
      * destruct (IH fuel f D b (hc_tail _ _ HP) B E) as (f' & W & E'); [cbn in L; lia|]. exists f'. split; auto.
        unfold bank_hunk, bank_data in *. cbn [bank_sections]. rewrite SD, EB. exact E'.
    + rewrite andb_false_r. destruct (IH fuel f D b (hc_tail _ _ HP) B E) as (f' & W & E'); [cbn in L; lia|]. exists f'. split; auto.
      unfold bank_hunk, bank_data in *. cbn [bank_sections]. rewrite SD. exact E'.
Qed.
Lemma dataHunks_written : forall p banks f D, hc800_program p -> Forall (fun b => 129 <= b <= 255) banks -> at_end f D ->
  exists f', dataHunks f p banks = Ok f' /\ at_end f' (D ++ concat (map enc (concat (map (fun b => bank_hunk b p) banks)))).
Proof.
  intros p. induction banks as [|b banks IH]; intros f D HP F E.
  - exists f. split; [reflexivity|]. cbn. now rewrite app_nil_r.
  - inversion F as [|? ? F1 F2]; subst. cbn [dataHunks].
    destruct (bankHunks_written p (length p) f D b HP F1 E) as (f1 & W1 & E1); [lia|]. rewrite W1. cbn [bind].
    destruct (IH f1 _ HP F2 E1) as (f2 & W2 & E2). exists f2. split; auto. cbn [map concat]. rewrite map_app, concat_app, app_assoc. exact E2.
Qed.
Lemma le16_back : forall v, 0 <= v < 65536 -> exists a b, le16 v = [a; b] /\ a + 256 * b = v.
Proof. intros v V. exists (v mod 256), (v / 256 mod 256). split; [reflexivity|]. Z.div_mod_to_equations. lia. Qed.
Lemma hunks_load : forall hs fuel, Forall (fun h => fst h <> 1 /\ zlen (snd h) < 65536) hs -> (length hs < fuel)%nat ->
  hc800_hunks fuel (concat (map enc hs) ++ [1; 0; 0]) = Some hs.
Proof.
  induction hs as [|[t bs] hs IH]; intros fuel F L.
  - destruct fuel as [|fuel]; [cbn in L; lia|]. reflexivity.
  - destruct fuel as [|fuel]; [cbn in L; lia|]. inversion F as [|? ? [F1 F1'] F2]; subst. cbn [fst snd] in *. pose proof (zlen_nonneg _ bs).
    cbn [map concat]. unfold enc at 1. cbn [fst snd]. destruct (le16_back (zlen bs)) as (l & h & E & V); [lia|]. rewrite E.
    cbn [app hc800_hunks]. rewrite V. rewrite <- app_assoc. unfold zlen. rewrite Nat2Z.id. rewrite take_app.
    destruct (t =? 1) eqn:T; [lia|]. rewrite IH; auto. cbn in L. lia.
Qed.
Definition banks_of (p : program) : list (Z * list Z) :=
  map (fun b => (b, bank_data b p)) (filter (fun b => match bank_sections b p with [] => false | _ => true end) (zseq 129 127)).
Lemma banks_load : forall p bs, hc800_banks (concat (map (fun b => bank_hunk b p) bs)) =
  Some (map (fun b => (b, bank_data b p)) (filter (fun b => match bank_sections b p with [] => false | _ => true end) bs)).
Proof.
  intros p. induction bs as [|b bs IH]; [reflexivity|]. cbn [map concat filter]. unfold bank_hunk at 1.
  destruct (bank_sections b p) eqn:E; [exact IH|]. cbn [app hc800_banks Z.eqb Pos.eqb]. rewrite IH. reflexivity.
Qed.
Lemma hc800_written : forall p configuration, hc800_program p -> zlen configuration = 9 ->
  exists f, hc800_WriteExecutable p configuration = Ok f /\ hc800_load (f_data f) = Some (configuration, banks_of p).
Proof.
  intros p conf HP CL. unfold hc800_WriteExecutable, writeHunkStart.
  assert (E0 : at_end (fwrite emptyFile [85; 67]) [85; 67]) by reflexivity. set (f0 := fwrite emptyFile [85; 67]) in *. clearbody f0.
  assert (E1 : at_end (fputlw (fputc f0 0) 0) ([85; 67] ++ [0; 0; 0])).
  { replace ([85; 67] ++ [0; 0; 0]) with (([85; 67] ++ [0]) ++ le16 0) by reflexivity.
    apply fputlw_end; [|lia]. apply fputc_end; auto. unfold is_byte. lia. }
  assert (T1 : ftell (fputlw (fputc f0 0) 0) = zlen [85; 67] + 3) by (rewrite E1; reflexivity). rewrite T1.
  set (f2 := writeHunkEnd _ _).
  assert (E2 : at_end f2 ([85; 67] ++ enc (0, conf))).
  { unfold f2. apply hunkEnd_written; [|lia]. cbn [app]. apply (fwrite_end _ _ conf E1). }
  clearbody f2.
  assert (FB : Forall (fun b => 129 <= b <= 255) (zseq 129 127)).
  { assert (G : forall n a, Forall (fun b => a <= b < a + Z.of_nat n) (zseq a n)).
    { induction n as [|n IH]; intro a; cbn [zseq]; constructor; [lia|]. eapply Forall_impl; [|apply (IH (a + 1))]. cbn beta. intros x X. lia. }
    eapply Forall_impl; [|apply G]. cbn beta. lia. }
  destruct (dataHunks_written p (zseq 129 127) f2 _ HP FB E2) as (f3 & W3 & E3). rewrite W3. cbn [bind].
  eexists. split; [reflexivity|].
  set (D := ([85; 67] ++ enc (0, conf)) ++ concat (map enc (concat (map (fun b => bank_hunk b p) (zseq 129 127))))) in *.
  assert (E4 : at_end (fputlw (fputc f3 1) 0) (D ++ [1; 0; 0])).
  { replace (D ++ [1; 0; 0]) with ((D ++ [1]) ++ le16 0) by (rewrite <- app_assoc; reflexivity).
    apply fputlw_end; [|lia]. apply fputc_end; auto. unfold is_byte. lia. }
  assert (T4 : ftell (fputlw (fputc f3 1) 0) = zlen D + 3) by (rewrite E4; unfold ftell; cbn [f_pos]; rewrite zlen_app; reflexivity). rewrite T4.
  assert (E5 : at_end (writeHunkEnd (fputlw (fputc f3 1) 0) (zlen D + 3)) (D ++ enc (1, []))).
  { apply hunkEnd_written; [exact E4|cbn; lia]. }
  rewrite E5. cbn [f_data]. unfold D. set (hs := concat (map (fun b => bank_hunk b p) (zseq 129 127))).
  replace ((([85; 67] ++ enc (0, conf)) ++ concat (map enc hs)) ++ enc (1, [])) with (85 :: 67 :: (concat (map enc ((0, conf) :: hs)) ++ [1; 0; 0])).
  2:{ cbn [map concat]. rewrite <- !app_assoc. reflexivity. }
  assert (BL : hc800_banks hs = Some (banks_of p)) by exact (banks_load p (zseq 129 127)).
  unfold hc800_load. rewrite hunks_load.
  - rewrite CL. cbn [Z.eqb Pos.eqb andb]. rewrite BL. reflexivity.
  - constructor; [cbn; lia|]. apply Forall_forall. intros [t bs] I. unfold hs in I. apply in_concat in I as (l & I1 & I2).
    apply in_map_iff in I1 as (b & <- & I1). rewrite Forall_forall in FB. specialize (FB b I1). unfold bank_hunk in I2.
    destruct (bank_sections b p); [destruct I2|]. destruct I2 as [E|[]]. injection E as <- <-. cbn [fst snd]. rewrite zlen_cons.
    destruct (bank_data_painted b p HP FB). lia.
  - rewrite !app_length. assert ((length ((0%Z, conf) :: hs) <= length (concat (map enc ((0%Z, conf) :: hs))))%nat).
    { apply concat_longer. intros [t bs] _. unfold enc. cbn. lia. }
    cbn [length] in *. lia.
Qed.
