(** Proofs about raw binary output. *)
From Coq Require Import ZArith List Bool Lia ZifyBool Znumtheory.
From Verif Require Import Base BaseFacts Arith ExprModel ObjWriteModel SectModel BinModel BinSpec.
Import ListNotations.
Open Scope Z_scope.

Lemma u32_id : forall z, 0 <= z < 2 ^ 32 -> u32 z = z.
Proof. intros z H. unfold u32. apply Z.mod_small. exact H. Qed.

Lemma assign_same : forall c m, let m1 := assignSection c m in
  m_used m1 = m_used m /\ m_alloc m1 = m_alloc m /\ m_data m1 = m_data m /\ m_patches m1 = m_patches m /\
  a_loadfixed (m_sect m1) = is_fixed c m /\ a_aligned (m_sect m1) = a_aligned (m_sect m) /\
  a_paged (m_sect m1) = a_paged (m_sect m) /\ ws_align (m_w m1) = ws_align (m_w m) /\ ws_page (m_w m1) = ws_page (m_w m).
Proof.
  intros c m. unfold assignSection, is_fixed. destruct (a_bankfixed (m_sect m)); [|rewrite orb_false_r; cbn; auto 12].
  destruct c; cbn [andb]; rewrite ?orb_true_r, ?orb_false_r; cbn; auto 12.
Qed.
Lemma assign_position : forall c align m, good_section align m -> fixed_position c m < 2 ^ 32 ->
  a_cpuOrigin (m_sect m) + bank_origin c (m_sect m) < 2 ^ 32 ->
  m_position (assignSection c m) = fixed_position c m /\
  a_cpuOrigin (m_sect (assignSection c m)) = a_cpuOrigin (m_sect m) + bank_origin c (m_sect m) /\
  0 <= fixed_position c m.
Proof.
  intros c align m (G1 & G2 & G3 & G4 & G5 & _) H1 H2.
  unfold fixed_position, assignSection, bank_position, bank_origin in *. destruct (a_bankfixed (m_sect m)); [|lia].
  assert (X : forall b p o, m_position (set_place b p o m) = p /\ a_cpuOrigin (m_sect (set_place b p o m)) = o) by (split; reflexivity).
  destruct c.
  - lia.
  - destruct (X true (u32 (m_position m + a_bank (m_sect m) * 256)) (u32 (a_cpuOrigin (m_sect m) + a_bank (m_sect m) * 256))) as [-> ->].
    rewrite !u32_id; lia.
  - destruct (X true (u32 (m_position m + a_bank (m_sect m) * 16384))
      (u32 (a_cpuOrigin (m_sect m) + (if a_bank (m_sect m) =? 0 then 0 else 16384)))) as [-> ->].
    destruct (a_bank (m_sect m) =? 0); rewrite !u32_id; lia.
Qed.

Lemma align_up : forall pos a, 0 <= pos -> 0 < a -> pos + a - 1 < 2 ^ 32 ->
  let p := u32 (pos + a - 1) in pos <= p - p mod a < pos + a /\ (a | p - p mod a).
Proof.
  intros pos a P A L p. unfold p. rewrite u32_id by lia. pose proof (Z.mod_pos_bound (pos + a - 1) a A) as M.
  split; [lia|]. exists ((pos + a - 1) / a). pose proof (Z.div_mod (pos + a - 1) a ltac:(lia)). lia.
Qed.

Lemma place_ok : forall ws c align l pos l',
  0 < ws -> Forall (good_section align) l -> 0 <= pos ->
  forall limit, pos <= limit /\ 0 <= limit /\ limit + room align l < 2 ^ 32 /\
    (forall m, In m l -> is_fixed c m = true -> fixed_position c m + m_used m <= limit /\
      a_cpuOrigin (m_sect m) + bank_origin c (m_sect m) < 2 ^ 32) ->
  place ws c align pos l = Ok (Some l') ->
  Forall2 (fun m m' => placed_as ws c align m m' /\ m_data m' = m_data m /\ m_patches m' = m_patches m /\
    a_loadfixed (m_sect m') = true) l l' /\
  ordered pos l' /\ Forall (fun m' => 0 <= m_position m' /\ m_position m' + m_used m' < 2 ^ 32) l'.
Proof.
  intros ws c align l; induction l as [|m l IH]; intros pos l' W G P limit (PL & B0 & B1 & HF) H; cbn [place] in H.
  - inversion H; subst. split; [constructor|]. split; [exact I|constructor].
  - inversion G as [|? ? GM GL]; subst. destruct (assign_same c m) as (A1 & A2 & A3 & A4 & A5 & A6 & A7 & A8 & A9).
    cbn [room fold_right] in B1. fold (room align l) in B1.
    pose proof GM as (G1 & G2 & G3 & G4 & G5 & G6 & G7 & G8).
    assert (RL : 0 <= room align l).
    { clear - GL. induction GL as [|x r (X1 & _ & _ & _ & _ & X2 & _ & X3) _ IHr]; cbn [room fold_right]; [lia|]. fold (room align r). lia. }
    set (m1 := assignSection c m) in *. rewrite A5 in H. destruct (is_fixed c m) eqn:LF.
    + destruct (HF m (or_introl eq_refl) LF) as [H1 H2].
      destruct (assign_position c align m GM) as (Q1 & Q2 & Q3); [lia|exact H2|]. fold m1 in Q1, Q2.
      destruct (m_position m1 <? pos) eqn:LT; [discriminate|].
      assert (U : u32 (m_position m1 + m_used m1) = fixed_position c m + m_used m) by (rewrite Q1, A1, u32_id; lia).
      rewrite U in H. destruct (place ws c align _ l) as [[r'|]| |] eqn:R; try discriminate. cbn [bind] in H. inversion H; subst l'.
      destruct (IH (fixed_position c m + m_used m) r' W GL ltac:(lia) limit) as (I1 & I2 & I3); [|exact R|].
      { split; [lia|]. split; [lia|]. split; [lia|]. intros x X. apply HF. right; exact X. }
      split; [|split].
      * constructor; [|exact I1]. split; [|split; [exact A3|split; [exact A4|congruence]]]. unfold placed_as. rewrite A1, A2, A3, Q1, Q2, LF.
        split; [reflexivity|]. split; [reflexivity|]. split; [reflexivity|]. split; [intros _; split; reflexivity|discriminate].
      * cbn [ordered]. rewrite Q1, A1. split; [lia|exact I2].
      * constructor; [|exact I3]. rewrite Q1, A1. lia.
    + rewrite A6, A8 in H. fold (alignment_of align m) in H. rewrite A7, A9, A1 in H.
      set (a := alignment_of align m) in *. destruct (a =? 0) eqn:A0; [discriminate|].
      destruct (align_up pos a P ltac:(lia) ltac:(lia)) as [AU AD].
      set (p2 := u32 (pos + a - 1) - u32 (pos + a - 1) mod a) in *. cbn zeta in AU, AD.
      destruct (a_paged (m_sect m) && (m_used m >? ws_page (m_w m))) eqn:PG; [discriminate|].
      destruct (a_paged (m_sect m) && (ws_page (m_w m) =? 0)) eqn:PZ; [discriminate|].
      set (pg := ws_page (m_w m)) in *. set (u := m_used m) in *.
      set (p3 := if a_paged (m_sect m) && (pg - p2 mod pg <? u) then u32 (p2 + (pg - p2 mod pg)) else p2) in *.
      assert (P3 : p2 <= p3 <= p2 + pg /\ p3 + u < limit + a + pg + u /\ 
        ((pg | a) \/ (a | pg) \/ a_paged (m_sect m) = false -> (a | p3)) /\
        (a_paged (m_sect m) = true -> p3 / pg = (p3 + Z.max 1 u - 1) / pg)).
      { unfold p3. destruct (a_paged (m_sect m)) eqn:PA.
        - pose proof (G7 eq_refl) as PP. cbn [andb] in *. pose proof (Z.mod_pos_bound p2 pg PP) as MB.
          destruct (pg - p2 mod pg <? u) eqn:RM.
          + rewrite u32_id by lia. split; [lia|]. split; [lia|].
            assert (PD : (pg | p2 + (pg - p2 mod pg))).
            { exists (p2 / pg + 1). pose proof (Z.div_mod p2 pg ltac:(lia)). lia. }
            split.
            * intros [D|[D|D]]; [|eapply Z.divide_trans; eassumption|discriminate].
              exfalso. assert (p2 mod pg = 0) by (apply Z.mod_divide; [lia|]; eapply Z.divide_trans; eassumption). lia.
            * intros _. destruct PD as [z PD]. rewrite PD.
              replace (z * pg + Z.max 1 u - 1) with ((Z.max 1 u - 1) + z * pg) by lia.
              rewrite Z.div_mul, Z.div_add, Z.div_small by lia. lia.
          + split; [lia|]. split; [lia|]. split; [auto|]. intros _.
            pose proof (Z.div_mod p2 pg ltac:(lia)) as DM.
            replace (p2 + Z.max 1 u - 1) with ((p2 mod pg + Z.max 1 u - 1) + (p2 / pg) * pg) by lia.
            rewrite Z.div_add by lia. rewrite (Z.div_small (p2 mod pg + Z.max 1 u - 1)) by lia. lia.
        - cbn [andb]. split; [lia|]. split; [lia|]. split; [auto|discriminate]. }
      destruct P3 as (P3a & P3b & P3c & P3d).
      assert (U : u32 (p3 + u) = p3 + u) by (apply u32_id; lia). rewrite U in H.
      destruct (place ws c align _ l) as [[r'|]| |] eqn:R; try discriminate. cbn [bind] in H. inversion H; subst l'.
      destruct (IH (p3 + u) r' W GL ltac:(lia) (limit + u + a + pg)) as (I1 & I2 & I3); [|exact R|].
      { split; [lia|]. split; [lia|]. split; [lia|]. intros x X LX. destruct (HF x (or_intror X) LX). split; [lia|assumption]. }
      assert (V1 : m_used (set_place true p3 (p3 / ws) m1) = u) by (exact A1).
      split; [|split].
      * constructor; [|exact I1]. split.
        -- unfold placed_as. rewrite V1. change (m_alloc (set_place true p3 (p3 / ws) m1)) with (m_alloc m1).
           change (m_data (set_place true p3 (p3 / ws) m1)) with (m_data m1). rewrite A2, A3.
           split; [reflexivity|]. split; [reflexivity|]. split; [reflexivity|]. rewrite LF. split; [discriminate|]. intros _.
           split; [reflexivity|]. split; [exact P3c|exact P3d].
        -- split; [exact A3|]. split; [exact A4|reflexivity].
      * cbn [ordered]. rewrite V1. change (m_position (set_place true p3 (p3 / ws) m1)) with p3. split; [lia|exact I2].
      * constructor; [|exact I3]. rewrite V1. change (m_position (set_place true p3 (p3 / ws) m1)) with p3. lia.
Qed.
(** ** Patches *)
Lemma byte_cons : forall d l i, 0 <= i -> byte (d :: l) i = if i =? 0 then d else byte l (i - 1).
Proof.
  intros d l i H. unfold byte. destruct (i =? 0) eqn:E.
  - replace i with 0 by lia. reflexivity.
  - replace (Z.to_nat i) with (S (Z.to_nat (i - 1))) by lia. reflexivity.
Qed.
Lemma byte_app : forall a b i, 0 <= i -> byte (a ++ b) i = if i <? zlen a then byte a i else byte b (i - zlen a).
Proof.
  intros a b i H. unfold byte, zlen. destruct (i <? Z.of_nat (length a)) eqn:E.
  - apply app_nth1. lia.
  - rewrite app_nth2 by lia. f_equal. lia.
Qed.
Lemma byte_skipn : forall n d i, 0 <= i -> byte (skipn n d) i = byte d (i + Z.of_nat n).
Proof.
  intros n d i H. unfold byte. replace (Z.to_nat (i + Z.of_nat n)) with (n + Z.to_nat i)%nat by lia.
  revert n; induction d as [|x d IH]; intros [|n]; cbn [skipn Nat.add nth]; try reflexivity.
  - destruct (Z.to_nat i); reflexivity.
  - apply IH.
Qed.
Lemma poke_len : forall k bs d, Z.of_nat k + zlen bs <= zlen d -> zlen (poke k bs d) = zlen d.
Proof.
  induction k as [|k IH]; intros bs d H; cbn [poke].
  - rewrite zlen_app. unfold zlen in *. rewrite skipn_length. lia.
  - destruct d as [|x d]; [reflexivity|]. rewrite !zlen_cons in *. rewrite IH; lia.
Qed.
Lemma poke_byte : forall k bs d i, Z.of_nat k + zlen bs <= zlen d -> 0 <= i ->
  byte (poke k bs d) i = if (Z.of_nat k <=? i) && (i <? Z.of_nat k + zlen bs) then byte bs (i - Z.of_nat k) else byte d i.
Proof.
  induction k as [|k IH]; intros bs d i H I; cbn [poke].
  - rewrite byte_app by assumption. change (Z.of_nat 0) with 0. rewrite Z.sub_0_r, Z.add_0_l.
    replace (0 <=? i) with true by lia. cbn [andb]. destruct (i <? zlen bs) eqn:E; [reflexivity|].
    rewrite byte_skipn by lia. f_equal. unfold zlen. lia.
  - destruct d as [|x d]; [exfalso; pose proof (zlen_nonneg Z bs); rewrite zlen_nil in H; lia|].
    rewrite zlen_cons in H. rewrite byte_cons by assumption. destruct (i =? 0) eqn:E.
    + replace (Z.of_nat (S k) <=? i) with false by lia. cbn [andb]. rewrite byte_cons by assumption. rewrite E. reflexivity.
    + rewrite IH by lia. rewrite (byte_cons x d i) by lia. rewrite E.
      replace (Z.of_nat k <=? i - 1) with (Z.of_nat (S k) <=? i) by lia.
      replace (i - 1 <? Z.of_nat k + zlen bs) with (i <? Z.of_nat (S k) + zlen bs) by lia.
      replace (i - 1 - Z.of_nat k) with (i - Z.of_nat (S k)) by lia. reflexivity.
Qed.

Lemma patch_bytes_ok : forall t z bs, patch_bytes t z = Ok bs ->
  zlen bs = width t /\ representable t z /\ forall d i,
    (forall x, 0 <= x < width t -> byte d (i + x) = byte bs x) -> fetch t d i = z mod 2 ^ (8 * width t).
Proof.
  intros t z bs H. unfold patch_bytes in H.
  assert (T : t = 0 \/ t = 1 \/ t = 2 \/ t = 3 \/ t = 4).
  { repeat match type of H with (if ?b then _ else _) = _ => destruct b eqn:?; [lia|] end. discriminate. }
  pose proof (Z.div_mod z (2 ^ 32) ltac:(lia)) as D32.
  destruct T as [-> | [-> | [-> | [-> | ->]]]]; cbn [Z.eqb] in H; cbn in H.
  - destruct ((-128 <=? z) && (z <=? 255)) eqn:R; [|discriminate]. injection H as <-. split; [reflexivity|]. split; [cbn; lia|].
    intros d i X. unfold fetch; cbn zeta. change (0 =? 0) with true. cbn match. specialize (X 0 ltac:(cbn; lia)).
    rewrite Z.add_0_r in X. rewrite X. reflexivity.
  - destruct ((-32768 <=? z) && (z <=? 65535)) eqn:R; [|discriminate]. injection H as <-. split; [reflexivity|]. split; [cbn; lia|].
    intros d i X. unfold fetch; cbn zeta. change (1 =? 0) with false. change (1 =? 1) with true. cbn match.
    pose proof (X 0 ltac:(cbn; lia)) as X0. pose proof (X 1 ltac:(cbn; lia)) as X1. rewrite Z.add_0_r in X0. rewrite X0, X1.
    change (2 ^ (8 * width 1)) with 65536. unfold byte, le16, u16, u8; change (Z.to_nat 0) with 0%nat; change (Z.to_nat 1) with 1%nat; try change (Z.to_nat 2) with 2%nat; try change (Z.to_nat 3) with 3%nat; cbn [nth]. clear; Z.div_mod_to_equations; lia.
  - destruct ((-32768 <=? z) && (z <=? 65535)) eqn:R; [|discriminate]. injection H as <-. split; [reflexivity|]. split; [cbn; lia|].
    intros d i X. unfold fetch; cbn zeta. change (2 =? 0) with false. change (2 =? 1) with false. change (2 =? 2) with true. cbn match.
    pose proof (X 0 ltac:(cbn; lia)) as X0. pose proof (X 1 ltac:(cbn; lia)) as X1. rewrite Z.add_0_r in X0. rewrite X0, X1.
    change (2 ^ (8 * width 2)) with 65536. unfold byte, be16, u16, u8; change (Z.to_nat 0) with 0%nat; change (Z.to_nat 1) with 1%nat; try change (Z.to_nat 2) with 2%nat; try change (Z.to_nat 3) with 3%nat; cbn [nth]. clear; Z.div_mod_to_equations; lia.
  - injection H as <-. split; [reflexivity|]. split; [exact I|].
    intros d i X. unfold fetch; cbn zeta. change (3 =? 0) with false. change (3 =? 1) with false. change (3 =? 2) with false. change (3 =? 3) with true. cbn match.
    pose proof (X 0 ltac:(cbn; lia)) as X0. pose proof (X 1 ltac:(cbn; lia)) as X1. pose proof (X 2 ltac:(cbn; lia)) as X2. pose proof (X 3 ltac:(cbn; lia)) as X3.
    rewrite Z.add_0_r in X0. rewrite X0, X1, X2, X3.
    change (2 ^ (8 * width 3)) with (2 ^ 32). unfold byte, le32, u32, u8; change (Z.to_nat 0) with 0%nat; change (Z.to_nat 1) with 1%nat; try change (Z.to_nat 2) with 2%nat; try change (Z.to_nat 3) with 3%nat; cbn [nth].
    clear; Z.div_mod_to_equations; lia.
  - injection H as <-. split; [reflexivity|]. split; [exact I|].
    intros d i X. unfold fetch; cbn zeta. change (4 =? 0) with false. change (4 =? 1) with false. change (4 =? 2) with false. change (4 =? 3) with false. cbn match.
    pose proof (X 0 ltac:(cbn; lia)) as X0. pose proof (X 1 ltac:(cbn; lia)) as X1. pose proof (X 2 ltac:(cbn; lia)) as X2. pose proof (X 3 ltac:(cbn; lia)) as X3.
    rewrite Z.add_0_r in X0. rewrite X0, X1, X2, X3.
    change (2 ^ (8 * width 4)) with (2 ^ 32). unfold byte, be32, u32, u8; change (Z.to_nat 0) with 0%nat; change (Z.to_nat 1) with 1%nat; try change (Z.to_nat 2) with 2%nat; try change (Z.to_nat 3) with 3%nat; cbn [nth].
    clear; Z.div_mod_to_equations; lia.
Qed.

Lemma fetch_ext : forall t d d' i i', (forall x, 0 <= x < width t -> byte d (i + x) = byte d' (i' + x)) -> fetch t d i = fetch t d' i'.
Proof.
  intros t d d' i i' H. unfold fetch, width in *; cbn zeta.
  assert (Z0 : byte d i = byte d' i') by (rewrite <- (Z.add_0_r i), <- (Z.add_0_r i'); apply H; destruct (t =? 0), ((t =? 1) || (t =? 2)); lia).
  destruct (t =? 0) eqn:E0; [exact Z0|]. rewrite Z0, (H 1) by (destruct ((t =? 1) || (t =? 2)); lia).
  destruct (t =? 1) eqn:E1; [reflexivity|]. destruct (t =? 2) eqn:E2; [reflexivity|]. cbn [orb] in H.
  rewrite (H 2), (H 3) by lia. reflexivity.
Qed.

Lemma backPatch_ok : forall F w k a ps d d' q, backPatch F w k a ps d = Ok (d', q) ->
  Forall (fun p => 0 <= ap_offset p) ps ->
  zlen d' = zlen d /\
  (forall i, 0 <= i -> (forall p, In p ps -> ~ touches p i) -> byte d' i = byte d i) /\
  (ForallOrdPairs (fun p q => forall i, touches p i -> touches q i -> False) ps ->
   forall p z e, In p ps -> reduceExpression F w k a (ap_offset p) (ap_expr p) = Ok (Some z, e) ->
     ap_offset p + width (ap_type p) <= zlen d /\ holds_number d' (ap_offset p) (ap_type p) z) /\
  (forall p e, In p ps -> reduceExpression F w k a (ap_offset p) (ap_expr p) = Ok (None, e) ->
     In (APatch (ap_offset p) (ap_type p) e) q).
Proof.
  intros F w k a ps; induction ps as [|p ps IH]; intros d d' q H G; cbn [backPatch] in H.
  - injection H as <- <-. split; [reflexivity|]. split; [reflexivity|]. split; intros; contradiction.
  - inversion G as [|? ? G0 GS]; subst.
    destruct (reduceExpression F w k a (ap_offset p) (ap_expr p)) as [[[z|] e]| |] eqn:R; try discriminate; cbn [bind] in H.
    + destruct (patch_bytes (ap_type p) z) as [bs| |] eqn:B; try discriminate; cbn [bind] in H.
      destruct (ap_offset p + zlen bs >? zlen d) eqn:E; [discriminate|].
      destruct (patch_bytes_ok _ _ _ B) as (W & RP & FB).
      assert (K : Z.of_nat (Z.to_nat (ap_offset p)) + zlen bs <= zlen d) by lia.
      destruct (IH _ _ _ H GS) as (I1 & I2 & I3 & I4). rewrite poke_len in I1, I3 by exact K.
      assert (PB : forall i, 0 <= i -> (touches p i -> byte (poke (Z.to_nat (ap_offset p)) bs d) i = byte bs (i - ap_offset p)) /\
                   (~ touches p i -> byte (poke (Z.to_nat (ap_offset p)) bs d) i = byte d i)).
      { intros i I. rewrite poke_byte by assumption. unfold touches. rewrite <- W, Z2Nat.id by lia.
        destruct ((ap_offset p <=? i) && (i <? ap_offset p + zlen bs)) eqn:X; split; intros Y; try reflexivity; exfalso; lia. }
      split; [exact I1|]. split; [|split].
      * intros i I N. rewrite I2 by (try assumption; intros; apply N; right; assumption).
        apply PB; [assumption|]. apply N. left; reflexivity.
      * intros A p' z' e' [<-|X] R'.
        -- rewrite R in R'. injection R' as -> ->. split; [lia|]. split; [exact RP|]. apply FB. intros x X.
           inversion A as [|? ? AH AT]; subst. rewrite Forall_forall in AH.
           assert (TP : touches p (ap_offset p + x)) by (unfold touches; lia).
           rewrite I2 by (try lia; intros p'' X'' T; exact (AH _ X'' _ TP T)).
           destruct (PB (ap_offset p + x) ltac:(lia)) as [PB1 _]. rewrite (PB1 TP). f_equal. lia.
        -- inversion A; subst. eapply I3; eassumption.
      * intros p' e' [<-|X] R'; [congruence|]. eapply I4; eassumption.
    + destruct (backPatch F w k a ps d) as [[d1 q1]| |] eqn:BP; try discriminate. cbn [bind] in H. injection H as <- <-.
      destruct (IH _ _ _ BP GS) as (I1 & I2 & I3 & I4). split; [exact I1|]. split; [|split].
      * intros i I N. apply I2; [assumption|]. intros p' X. apply N. right; exact X.
      * intros A p' z' e' [<-|X] R'; [congruence|]. inversion A; subst. eapply I3; eassumption.
      * intros p' e' [<-|X] R'; [|right; eapply I4; eassumption]. left. congruence.
Qed.

Lemma set_data_same : forall d ps m, let m' := set_data d ps m in
  m_used m' = m_used m /\ m_alloc m' = m_alloc m /\ m_position m' = m_position m /\ m_sect m' = m_sect m /\
  m_data m' = d /\ m_patches m' = ps.
Proof.
  intros d ps m. unfold set_data, set_content, m_used, m_position, m_sect, m_data, m_patches, m_pc. cbn.
  destruct m as [[a ? ? ? ? ? ? ? ? ?] ?]. destruct a. cbn. auto 7.
Qed.
Lemma BackPatch_nth : forall F w l k l', patch_BackPatch F w k l = Ok l' ->
  Forall2 (fun m m' => exists d ps, m' = set_data d ps m) l l' /\
  forall i m m', nth_error l i = Some m -> nth_error l' i = Some m' ->
    backPatch F w (k + i) (m_sect m) (m_patches m) (m_data m) = Ok (m_data m', m_patches m').
Proof.
  intros F w l; induction l as [|m l IH]; intros k l' H; cbn [patch_BackPatch] in H.
  - injection H as <-. split; [constructor|]. intros [|i] ? ? X; discriminate X.
  - destruct (backPatch F w k (m_sect m) (m_patches m) (m_data m)) as [[d ps]| |] eqn:B; try discriminate. cbn [bind] in H.
    destruct (patch_BackPatch F w (S k) l) as [r'| |] eqn:R; try discriminate. cbn [bind] in H. injection H as <-.
    destruct (IH _ _ R) as [I1 I2]. split; [constructor; eauto|].
    intros [|i] x x' X X'; cbn [nth_error] in X, X'.
    + injection X as <-. injection X' as <-. rewrite Nat.add_0_r. rewrite B.
      destruct (set_data_same d ps m) as (_ & _ & _ & _ & -> & ->). reflexivity.
    + replace (k + S i)%nat with (S k + i)%nat by lia. eapply I2; eassumption.
Qed.
