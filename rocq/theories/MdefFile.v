(** Proofs about the directives of a machine definition file. *)
From Coq Require Import ZArith List Bool String Ascii Lia ZifyBool ZifyNat.
From Verif Require Import Base BaseFacts Arith ExprSpec LinkExprModel LinkExprProofs AssignModel ImageModel MdefModel MdefSpec MdefProofs.
Import ListNotations.
Open Scope Z_scope.

Lemma first_ok : forall i e v ts, starts_sign e = false -> mvalue i e = Some v -> not_next [43; 45; 42; 47] (mshow e ++ ts).
Proof.
  intros i e. induction e as [ds|ds|ds| |a IH|a IH|a IH|o a IHa b IHb]; intros v ts S M; cbn [mshow app starts_sign] in *;
    try discriminate S; try (intros c Hc E; injection E as <-; cbn in Hc; lia).
  - cbn [mvalue] in M. apply literal_inv in M as (z & N & _). unfold number in N. destruct ds as [|d ds]; [discriminate|].
    pose proof (digits_word dec_digit 10 (d :: ds) 0 z dec_ok N d (or_introl eq_refl)) as (k & D).
    intros c Hc E. injection E as -> _. cbn in Hc. destruct Hc as [<-|[<-|[<-|[<-|[]]]]]; discriminate D.
  - cbn [mvalue] in M. destruct (mvalue i a) as [x|] eqn:A; [|discriminate]. rewrite <- app_assoc. apply (IHa x); auto.
Qed.

Section File.
Variable F : fmath.

Lemma expr_ok : forall i x e v p ts, agree i x -> no_binary e -> mexp_ok e -> mvalue i e = Some v ->
  not_next [43; 45; 42; 47] ts -> at_ p (mshow e ++ ts) ->
  exists p', parseExpression F x p = Ok (Some (u32 v), p') /\ at_ p' ts.
Proof.
  intros i x e v p ts A NB (G & D) M N S.
  destruct (parseExpression1_ok i x e v (start p) ts [] A NB G M N) as (s' & P & S').
  { split; [exact S|reflexivity]. }
  unfold parseExpression. rewrite P. cbn [bind]. cbv iota. destruct S' as (S1 & S2). rewrite S2. cbn [app].
  unfold calculateExpressionValue. rewrite <- (app_nil_r (code i e)).
  rewrite (calc_code i F noContext e v [] [] M); [|rewrite zlen_nil; lia].
  cbn [calc popInt bind]. eauto.
Qed.
Lemma expect_ok : forall i x e v p ts, agree i x -> no_binary e -> mexp_ok e -> mvalue i e = Some v ->
  not_next [43; 45; 42; 47] ts -> at_ p (mshow e ++ ts) ->
  exists p', expectExpression F x p = Ok (u32 v, p') /\ at_ p' ts.
Proof.
  intros i x e v p ts A NB O M N S. destruct (expr_ok i x e v p ts A NB O M N S) as (p' & P & S').
  exists p'. split; [|exact S']. unfold expectExpression. rewrite P. reflexivity.
Qed.
(** Nothing there: the end of the line or a colon. *)
Lemma expr_none : forall x p ts, x_symbol x = false -> ts = [] \/ (exists r, ts = [58] :: r) -> at_ p ts ->
  exists p', parseExpression F x p = Ok (None, p') /\ at_ p' ts.
Proof.
  intros x p ts X T S. exists p. split; [|exact S]. unfold parseExpression, parseExpression_1.
  assert (S0 : st_at (start p) ts []) by (split; [exact S|reflexivity]).
  assert (P4 : parseExpression_4 x (start p) = Ok (false, start p)).
  { unfold parseExpression_4. rewrite X. destruct T as [-> |(r & ->)].
    - rewrite (ch_end _ _ _ S0), andb_false_r. unfold parseInteger. destruct S0 as ((S0 & _) & _). unfold tk. cbn in *. rewrite S0. reflexivity.
    - rewrite (ch_at _ _ _ _ _ S0). change (beq [64] [58]) with false. rewrite andb_false_r. unfold parseInteger.
      rewrite (tok_at _ _ _ _ S0). cbv iota. rewrite (ch_at _ _ _ _ _ S0). change (beq [36] [58]) with false.
      unfold tokenIs. rewrite (tok_at _ _ _ _ S0). change (beq [37; 37] [58]) with false. cbv iota. rewrite (tok_at _ _ _ _ S0). reflexivity. }
  assert (C : forall c, In c [43; 45; 40] -> ch c (start p) = false).
  { intros c Hc. destruct T as [-> |(r & ->)]; [apply ch_end with [], S0|]. rewrite (ch_at _ _ _ _ _ S0). cbn in Hc.
    destruct Hc as [<-|[<-|[<-|[]]]]; reflexivity. }
  set (n := (8 * (List.length (tk (start p)) + List.length (rest (start p))) + 8)%nat).
  assert (L : exists k, n = Datatypes.S (Datatypes.S (Datatypes.S k))) by (exists (n - 3)%nat; lia). destruct L as (k & ->).
  cbn [parse1 parse2 parse3]. rewrite !C by (cbn; auto). rewrite P4. reflexivity.
Qed.

Lemma u32_m1 : UINT32_MAX = u32 (-1).
Proof. reflexivity. Qed.

Lemma parsePool_ok : forall i index gs d q p, (forall z, i = Some z -> z = index) -> pdef_ok d -> pdef_no_binary d ->
  pool_of i d = Some q -> at_ p (pdef_show d) ->
  exists p', parsePool F index gs p = Ok (q, p') /\ at_ p' [].
Proof.
  intros i index gs d q p HI (Oa & Ob & Os & Sb & Ss & Oi & Oo) (Na & Nb & Ns & Ni & No) Q S.
  unfold pool_of in Q. destruct (mvalue i (d_address d)) as [a|] eqn:Ma; [|discriminate].
  destruct (mvalue i (d_bank d)) as [b|] eqn:Mb; [|discriminate]. destruct (mvalue i (d_size d)) as [s|] eqn:Ms; [|discriminate]. cbn [obind] in Q.
  set (x := PCtx true index false gs).
  assert (A : agree i x) by (destruct i as [z|]; [split; [reflexivity|symmetry; apply HI; reflexivity]|exact I]).
  unfold pdef_show in S. set (tail := match d_overlay d with Some e => [58] :: mshow e | None => [] end) in *.
  set (tail2 := match d_image d with Some e => mshow e | None => [] end ++ tail) in *.
  assert (Nt : not_next [43; 45; 42; 47] tail).
  { unfold tail. destruct (d_overlay d); [|exact I]. intros c Hc E. injection E as <-. cbn in Hc. lia. }
  assert (Nt2 : not_next [43; 45; 42; 47] tail2).
  { unfold tail2. destruct (d_image d) as [e|] eqn:E; [|exact Nt].
    destruct (mvalue i e) as [v|] eqn:Me; [|discriminate]. apply (first_ok i e v); [apply (Oi e eq_refl)|exact Me]. }
  unfold parsePool. fold x.
  destruct (expect_ok i x _ a p _ A Na Oa Ma (first_ok i (d_bank d) b _ Sb Mb) S) as (p1 & -> & S1). cbn [bind].
  destruct (expect_ok i x _ b p1 _ A Nb Ob Mb (first_ok i (d_size d) s _ Ss Ms) S1) as (p2 & -> & S2). cbn [bind].
  destruct (expect_ok i x _ s p2 _ A Ns Os Ms Nt2 S2) as (p3 & -> & S3). cbn [bind].
  assert (IM : exists im p4, parseExpression F x p3 = Ok (im, p4) /\ at_ p4 tail /\
    match d_image d with Some e => mvalue i e | None => Some (-1) end = Some (s32 (match im with Some v => v | None => UINT32_MAX end))).
  { unfold tail2 in S3. destruct (d_image d) as [e|] eqn:E.
    - destruct (mvalue i e) as [v|] eqn:Me; [|discriminate].
      destruct (expr_ok i x e v p3 tail A (Ni e eq_refl) (proj1 (Oi e eq_refl)) Me Nt S3) as (p4 & P & S4).
      exists (Some (u32 v)), p4. split; [exact P|]. split; [exact S4|]. rewrite s32_u32, s32_id; [reflexivity|]. eapply mvalue_s32, Me.
    - destruct (expr_none x p3 tail eq_refl) as (p4 & P & S4).
      { unfold tail. destruct (d_overlay d); [right; eauto|left; reflexivity]. }
      { exact S3. }
      exists None, p4. split; [exact P|]. split; [exact S4|reflexivity]. }
  destruct IM as (im & p4 & -> & S4 & IMv). cbn [bind]. rewrite IMv in Q. cbn [obind] in Q.
  assert (B32 : s32 (u32 b) = b) by (rewrite s32_u32; apply s32_id; eapply mvalue_s32, Mb).
  unfold tail in S4. destruct (d_overlay d) as [e|] eqn:E.
  - destruct (mvalue i e) as [ov|] eqn:Mo; [|discriminate]. cbn [obind] in Q. injection Q as <-.
    unfold is. rewrite (proj1 S4). change (beq [58] [58]) with true. cbv iota.
    assert (S5 : at_ (MdefModel.step p4) (mshow e ++ [])) by (rewrite app_nil_r; eapply step_at, S4).
    destruct (expect_ok i x e ov _ [] A (No e eq_refl) (Oo e eq_refl) Mo I S5) as (p5 & -> & S6). cbn [bind].
    exists p5. rewrite B32. split; [reflexivity|exact S6].
  - cbn [obind] in Q. injection Q as <-. unfold is. rewrite (proj1 S4). change (beq [58] []) with false. cbv iota.
    exists p4. rewrite B32. split; [reflexivity|exact S4].
Qed.

(** ** The state *)
Definition sym_ok (bs : list Z) (v : symval) : Prop :=
  match v with
  | SNumber z => forall c, calculateExpressionValue F c bs = Ok (Some (Entry None z))
  | SStart k => forall c z, c_property c (s32 k) 0 = Ok z -> calculateExpressionValue F c bs = Ok (Some (Entry None z))
  | SSize k => forall c z, c_property c (s32 k) 1 = Ok z -> calculateExpressionValue F c bs = Ok (Some (Entry None z))
  end.
Definition rel (m : mdef) (l : layout) : Prop :=
  m_pools m = l_pools l /\ m_names m = l_names l /\ m_groups m = l_groups l /\
  Forall2 (fun a b => fst a = fst b /\ sym_ok (snd a) (snd b)) (m_symbols m) (l_symbols l) /\
  m_formats m = l_formats l /\ m_cbm m = l_cbm l.

Lemma lookup_named : forall n l, lookup n l = named n l.
Proof.
  intros n l. unfold named. induction l as [|(k, v) l IH]; [reflexivity|]. cbn [lookup find fst]. destruct (beq k n); [reflexivity|exact IH].
Qed.
Lemma define_ok : forall n ps m l l', rel m l -> add_pools n ps l = Some l' -> exists m', define n ps m = Ok m' /\ rel m' l'.
Proof.
  intros n ps m l l' (R1 & R2 & R3 & R4 & R5 & R6) H. unfold add_pools in H. unfold define. rewrite lookup_named, R2.
  destruct (named n (l_names l)); [discriminate|]. injection H as <-. eexists. split; [reflexivity|].
  unfold rel. cbn. rewrite R1. repeat split; auto; congruence.
Qed.

Lemma pools_ok : forall gs d, pdef_ok d -> pdef_no_binary d -> forall is_ ps text p, is_ <> [] -> pools_of is_ d = Some ps ->
  spelled (pdef_show d) text -> exists p', parsePools F gs text is_ p = Ok (ps, p') /\ at_ p' [].
Proof.
  intros gs d O NB. induction is_ as [|z is_ IH]; intros ps text p NE H S; [contradiction|]. cbn [pools_of parsePools] in *.
  destruct (pool_of (Some z) d) as [q|] eqn:Q; [|discriminate]. destruct (pools_of is_ d) as [qs|] eqn:QS; [|discriminate]. cbn [obind] in H. injection H as <-.
  destruct (parsePool_ok (Some z) z gs d q (nextToken text)) as (p1 & P & S1); auto.
  { intros y E. congruence. }
  { apply next_at, S. }
  rewrite P. cbn [bind]. destruct is_ as [|z' r].
  - cbn [pools_of] in QS. injection QS as <-. cbn [parsePools bind]. eauto.
  - destruct (IH qs text p1 ltac:(discriminate) eq_refl S) as (p2 & P2' & S2). rewrite P2'. cbn [bind]. eauto.
Qed.

Lemma groupPools_ok : forall ns ps ks p n, Forall is_word ps -> members ns ps = Some ks -> at_ p ps -> (List.length ps < n)%nat ->
  groupPools n ns p = Ok ks.
Proof.
  intros ns. induction ps as [|w ps IH]; intros ks p n W H S L; (destruct n as [|n]; [cbn in L; lia|]); cbn [members groupPools] in *.
  - injection H as <-. rewrite (proj1 S). reflexivity.
  - inversion W as [|? ? (Ww & _) W']; subst. destruct (named w ns) as [kw|] eqn:N; [|discriminate].
    destruct (members ns ps) as [l|]; [|discriminate]. cbn [obind] in H. injection H as <-.
    rewrite (proj1 S). destruct w as [|c w]; [contradiction|]. rewrite lookup_named, N.
    rewrite (IH l (MdefModel.step p) n W' eq_refl); [reflexivity| |cbn in L; lia]. eapply step_at, S.
Qed.

Definition word_nonempty (w : list Z) : is_word w -> exists c r, w = c :: r.
Proof. intros (N & _). destruct w; [contradiction|eauto]. Qed.

Lemma groupFind_number : forall n gs k, groupFind gs k n = group_number gs k n.
Proof. intros n. induction gs as [|g gs IH]; intros k; [reflexivity|]. cbn [groupFind group_number]. destruct (beq (g_name g) n); auto. Qed.

Lemma is_beq : forall p w r v, at_ p (w :: r) -> is v p = beq v w.
Proof. intros p w r v (H & _). unfold is. rewrite H. reflexivity. Qed.

Definition format_ok (f : fmt) : Prop := match f with FName n => In n documented_formats | FCbm e => mexp_ok e end.
Definition format_nb (f : fmt) : Prop := match f with FName _ => True | FCbm e => no_binary e end.
Lemma formats_documented : formatNames = documented_formats.
Proof. reflexivity. Qed.
Lemma formats_ok : forall fs m l l' p n, rel m l -> Forall format_ok fs -> Forall format_nb fs -> cbm_last fs -> add_formats fs l = Some l' ->
  at_ p (flat_map fmt_show fs) -> (List.length (flat_map fmt_show fs) < n)%nat ->
  exists m' p', parseFormats F n m p = Ok (m', p') /\ at_ p' [] /\ rel m' l'.
Proof.
  induction fs as [|f fs IH]; intros m l l' p n R O NB CL H S L; (destruct n as [|n]; [cbn in L; lia|]); cbn [cbm_last parseFormats add_formats flat_map] in *.
  - injection H as <-. rewrite (proj1 S). exists m, p. auto.
  - inversion O as [|? ? Of O']; subst. inversion NB as [|? ? Nf NB']; subst. destruct f as [nm|e]; cbn [fmt_show app] in *.
    + assert (NE : exists c r, nm = c :: r) by (cbn in Of; unfold documented_formats in Of; cbn [map In] in Of;
        repeat (destruct Of as [<-|Of]; [eexists _, _; reflexivity|]); destruct Of).
      destruct NE as (c0 & r0 & NE).
      assert (X : forall T (a b : T), match fst p with [] => a | _ => b end = b) by (intros; rewrite (proj1 S), NE; reflexivity).
      rewrite X.
      unfold parseFormat. rewrite (is_beq _ _ _ _ S).
      assert (NC : beq (chars "CBM_PRG") nm = false) by (cbn in Of; unfold documented_formats in Of; cbn [map In] in Of;
        repeat (destruct Of as [<-|Of]; [reflexivity|]); destruct Of).
      rewrite NC, (proj1 S).
      assert (EX : existsb (beq nm) formatNames = true).
      { apply existsb_exists. exists nm. split; [exact Of|apply beq_refl]. }
      rewrite EX. cbn [bind].
      apply (IH (addFormat nm m) _ l' (MdefModel.step p) n) with (2 := O') (3 := NB') (4 := CL) (5 := H); [|eapply step_at, S|cbn in L; lia].
      destruct R as (R1 & R2 & R3 & R4 & R5 & R6). unfold rel, addFormat. cbn. repeat split; auto. congruence.
    + destruct (mvalue None e) as [v|] eqn:M; [|discriminate]. cbn [obind] in H.
      assert (X : forall T (a b : T), match fst p with [] => a | _ => b end = b) by (intros; rewrite (proj1 S); reflexivity).
      rewrite X.
      unfold parseFormat. rewrite (is_beq _ _ _ _ S). change (beq (chars "CBM_PRG") (text "CBM_PRG")) with true. cbv iota.
      pose proof (step_at _ _ _ S) as S1. rewrite (is_beq _ _ _ _ S1). change (beq [91] [91]) with true. cbn [negb].
      pose proof (step_at _ _ _ S1) as S2. rewrite <- app_assoc in S2. cbn [app] in S2.
      destruct (expect_ok None (PCtx false (m_index m) false (m_groups m)) e v (MdefModel.step (MdefModel.step p)) ([93] :: flat_map fmt_show fs) I Nf Of M) as (p2 & -> & S3).
      { intros c Hc E. injection E as <-. cbn in Hc. lia. }
      { exact S2. }
      cbn [bind]. rewrite (is_beq _ _ _ _ S3). change (beq [93] [93]) with true. cbn [negb bind].
      pose proof (step_at _ _ _ S3) as S4. set (p3 := MdefModel.step p2) in *. subst fs. cbn [flat_map add_formats] in *.
      injection H as <-. pose proof (step_end _ S4) as S5. eexists _, _.
      destruct n as [|n]; [rewrite app_nil_r in L; cbn in L; rewrite app_length in L; cbn in L; lia|].
      cbn [parseFormats]. rewrite (proj1 S5). split; [reflexivity|]. split; [exact S5|].
      destruct R as (R1 & R2 & R3 & R4 & R5 & R6). unfold rel, addFormat. cbn. repeat split; auto. congruence.
Qed.

Lemma not_bracket : forall c ts, In c [58; 93; 41] -> not_next [43; 45; 42; 47] ([c] :: ts).
Proof. intros c ts H c' Hc E. injection E as <-. cbn in *. lia. Qed.

Lemma line_correct : forall ln m l l' t, rel m l -> line_ok ln -> line_no_binary ln -> line_cbm_last ln ->
  defines ln l = Some l' -> spelled (lshow ln) t ->
  exists m', parseLine F m t = Ok m' /\ rel m' l'.
Proof.
  intros ln m l l' t R O NB CL H S. pose proof R as (R1 & R2 & R3 & R4 & R5 & R6).
  pose proof (next_at _ _ S) as A0. unfold parseLine. set (p := nextToken t) in *. clearbody p.
  destruct ln as [|n d|n a b d|n k ps|n e|n g sb|fs]; cbn [lshow defines line_ok line_no_binary line_cbm_last] in *.
  - injection H as <-. rewrite (proj1 A0). eauto.
  - rewrite (proj1 A0). cbn [text map list_ascii_of_string]. rewrite !(is_beq _ _ _ _ A0).
    change (beq (chars "POOL") (text "POOL")) with true. cbv iota.
    destruct O as (W & O). destruct (pool_of None d) as [q|] eqn:Q; [|discriminate]. cbn [obind] in H.
    pose proof (step_at _ _ _ A0) as A1. pose proof (step_at _ _ _ A1) as A2.
    destruct (parsePool_ok None (m_index m) (m_groups m) d q _ ltac:(discriminate) O NB Q A2) as (p1 & P & S1).
    destruct (define_ok n [q] m l l' R H) as (m' & D & R').
    unfold parsePoolDirective. rewrite (proj1 A1). destruct (word_nonempty n W) as (c & r & En). rewrite En. rewrite <- En.
    rewrite P. cbn [bind]. rewrite D. cbn [bind]. rewrite (proj1 S1). eauto.
  - rewrite (proj1 A0). cbn [text map list_ascii_of_string]. rewrite !(is_beq _ _ _ _ A0).
    change (beq (chars "POOL") (text "POOLS")) with false. change (beq (chars "POOLS") (text "POOLS")) with true. cbv iota.
    destruct O as (W & Oa & Ob & O). destruct NB as (Na & Nb & NB).
    destruct (mvalue None a) as [x|] eqn:Ma; [|discriminate]. destruct (mvalue None b) as [y|] eqn:Mb; [|discriminate]. cbn [obind] in H.
    destruct ((u32 x <=? u32 y) && (u32 y - u32 x + 1 <? 2 ^ 31) && (u32 y <? 2 ^ 32 - 1)) eqn:G; [|discriminate].
    destruct (pools_of (zseq (u32 x) (Z.to_nat (u32 y - u32 x + 1))) d) as [qs|] eqn:Q; [|discriminate]. cbn [obind] in H.
    pose proof (step_at _ _ _ A0) as A1. pose proof (step_at _ _ _ A1) as A2. pose proof (step_at _ _ _ A2) as A3.
    unfold parsePoolsDirective. rewrite (proj1 A1). destruct (word_nonempty n W) as (c & r & En). rewrite En. rewrite <- En.
    rewrite (is_beq _ _ _ _ A2). change (beq [91] [91]) with true. cbn [negb].
    set (xx := PCtx false (m_index m) false (m_groups m)).
    destruct (expect_ok None xx a x _ _ I Na Oa Ma (not_bracket 58 _ ltac:(cbn; auto)) A3) as (p2 & -> & S2). cbn [bind].
    rewrite (is_beq _ _ _ _ S2). change (beq [58] [58]) with true. cbn [negb].
    pose proof (step_at _ _ _ S2) as S2'.
    destruct (expect_ok None xx b y _ _ I Nb Ob Mb (not_bracket 93 _ ltac:(cbn; auto)) S2') as (p3 & -> & S3). cbn [bind].
    rewrite (is_beq _ _ _ _ S3). change (beq [93] [93]) with true. cbn [negb].
    pose proof (u32_range x) as Ux. pose proof (u32_range y) as Uy. unfold is_u32 in *.
    rewrite (s32_id (u32 y - u32 x + 1)) by (unfold is_s32; lia).
    assert (E1 : (u32 y - u32 x + 1 <? 0) || (u32 y =? UINT32_MAX) = false) by (unfold UINT32_MAX; lia). rewrite E1.
    assert (E2 : (u32 x <=? u32 y) = true) by lia. rewrite E2.
    assert (NE : zseq (u32 x) (Z.to_nat (u32 y - u32 x + 1)) <> []).
    { destruct (Z.to_nat (u32 y - u32 x + 1)) eqn:Ez; [lia|discriminate]. }
    destruct (pools_ok (m_groups m) d O NB _ qs (snd p3) p3 NE Q (proj2 S3)) as (p4 & -> & S4). cbn [bind].
    destruct (define_ok n qs m l l' R H) as (m' & -> & R'). cbn [bind]. rewrite (proj1 S4).
    eexists. split; [reflexivity|]. exact R'.
  - rewrite (proj1 A0). cbn [text map list_ascii_of_string]. rewrite !(is_beq _ _ _ _ A0).
    change (beq (chars "POOL") (text "GROUP")) with false. change (beq (chars "POOLS") (text "GROUP")) with false.
    change (beq (chars "GROUP") (text "GROUP")) with true. cbv iota.
    destruct O as (W & LN & Wk & PN & Wp). destruct (members (l_names l) ps) as [ks|] eqn:M; [|discriminate]. cbn [obind] in H. injection H as <-.
    pose proof (step_at _ _ _ A0) as A1. pose proof (step_at _ _ _ A1) as A2.
    unfold parseGroupDirective. rewrite (proj1 A1). destruct (word_nonempty n W) as (c & r & En). rewrite En. rewrite <- En.
    destruct (zlen n >=? 255) eqn:ZL; [lia|].
    assert (A3 : at_ (if is [58] (MdefModel.step (MdefModel.step p)) then MdefModel.step (MdefModel.step (MdefModel.step (MdefModel.step p)))
                      else MdefModel.step (MdefModel.step p)) ps).
    { destruct k as [k|]; cbn [app] in A2.
      - rewrite (is_beq _ _ _ _ A2). change (beq [58] [58]) with true. cbv iota. eapply step_at, step_at, A2.
      - destruct ps as [|w ps]; [contradiction|]. rewrite (is_beq _ _ _ _ A2). inversion Wp as [|? ? (_ & Ww) _]; subst.
        assert (E : beq [58] w = false).
        { apply beq_neq. intros <-. inversion Ww as [|? ? (_ & Np & _) _]; subst. apply Np. unfold punct. cbn. auto 20. }
        rewrite E. exact A2. }
    set (p2 := if is [58] (MdefModel.step (MdefModel.step p)) then _ else _) in *. clearbody p2.
    destruct ps as [|w ps]; [contradiction|]. inversion Wp as [|? ? Ww Wps]; subst.
    assert (X : forall T (a b : T), match fst p2 with [] => a | _ => b end = b).
    { intros. rewrite (proj1 A3). destruct (word_nonempty w Ww) as (c1 & r1 & ->). reflexivity. }
    rewrite X. rewrite R2.
    rewrite (groupPools_ok (l_names l) (w :: ps) ks p2 _ Wp M A3).
    2:{ destruct A3 as (_ & A3). apply spelled_length in A3. cbn [List.length]. lia. }
    cbn [bind fst]. eexists. split; [reflexivity|]. unfold rel. cbn. rewrite R3. repeat split; auto.
  - rewrite (proj1 A0). cbn [text map list_ascii_of_string]. rewrite !(is_beq _ _ _ _ A0).
    change (beq (chars "POOL") (text "SYMBOL")) with false. change (beq (chars "POOLS") (text "SYMBOL")) with false.
    change (beq (chars "GROUP") (text "SYMBOL")) with false. change (beq (chars "SYMBOL") (text "SYMBOL")) with true. cbv iota.
    destruct O as (W & LN & Oe). destruct (mvalue None e) as [v|] eqn:M; [|discriminate]. cbn [obind] in H. injection H as <-.
    pose proof (step_at _ _ _ A0) as A1. pose proof (step_at _ _ _ A1) as A2.
    unfold parseSymbolDirective. rewrite (proj1 A1). destruct (word_nonempty n W) as (c & r & En). rewrite En. rewrite <- En.
    unfold maxSymbolName. destruct (zlen n >=? 256) eqn:ZL; [lia|].
    destruct (parseExpression1_ok None (PCtx false (m_index m) true (m_groups m)) e v (start (MdefModel.step (MdefModel.step p))) [] [] I NB (proj1 Oe) M I) as (s' & P & S').
    { split; [rewrite app_nil_r; exact A2|reflexivity]. }
    rewrite P. cbn [bind]. destruct S' as (S1 & S2). rewrite (proj1 S1).
    eexists. split; [reflexivity|]. unfold rel. cbn. repeat split; auto.
    apply Forall2_app; [exact R4|]. constructor; [|constructor]. cbn [fst snd]. split; [reflexivity|].
    intros cx. rewrite S2. cbn [app]. unfold calculateExpressionValue. rewrite <- (app_nil_r (code None e)).
    rewrite (calc_code None F cx e v [] [] M); [|rewrite zlen_nil; apply Oe]. reflexivity.
  - rewrite (proj1 A0). cbn [text map list_ascii_of_string]. rewrite !(is_beq _ _ _ _ A0).
    change (beq (chars "POOL") (text "SYMBOL")) with false. change (beq (chars "POOLS") (text "SYMBOL")) with false.
    change (beq (chars "GROUP") (text "SYMBOL")) with false. change (beq (chars "SYMBOL") (text "SYMBOL")) with true. cbv iota.
    destruct O as (W & LN & Wg & ND). destruct (group_number (l_groups l) 0 g) as [k|] eqn:M; [|discriminate]. cbn [obind] in H. injection H as <-.
    pose proof (step_at _ _ _ A0) as A1. pose proof (step_at _ _ _ A1) as A2.
    unfold parseSymbolDirective. rewrite (proj1 A1). destruct (word_nonempty n W) as (c & r & En). rewrite En. rewrite <- En.
    unfold maxSymbolName. destruct (zlen n >=? 256) eqn:ZL; [lia|].
    set (x := PCtx false (m_index m) true (m_groups m)). set (s0 := start (MdefModel.step (MdefModel.step p))).
    assert (S0 : st_at s0 (g :: [46] :: [if sb then text "start" else text "size"]) []) by (split; [exact A2|reflexivity]).
    assert (NP : forall c, punct c -> beq [c] g = false).
    { intros c0 Hc. apply beq_neq. intros <-. destruct Wg as (_ & Wg). inversion Wg as [|? ? (_ & Np & _) _]; subst. contradiction. }
    assert (C : forall c, punct c -> ch c s0 = false) by (intros c0 Hc; rewrite (ch_at _ _ _ _ c0 S0); auto).
    assert (P4 : exists s', parseExpression_4 x s0 = Ok (false, s') /\ st_at s' [] (constant k ++ constant (if sb then 0 else 1) ++ [35])).
    { unfold parseExpression_4. cbn [x_pool x andb]. unfold parseInteger. rewrite (tok_at _ _ _ _ S0).
      destruct (word_nonempty g Wg) as (c1 & r1 & Eg). rewrite Eg. cbv iota.
      rewrite C by (unfold punct; cbn; auto 20).
      assert (T : tokenIs [37; 37] s0 = false).
      { unfold tokenIs. rewrite (tok_at _ _ _ _ S0). apply beq_neq. intros E. destruct Wg as (_ & Wg). rewrite <- E in Wg.
        inversion Wg as [|? ? (_ & Np & _) _]; subst. apply Np. unfold punct. cbn. auto 20. }
      rewrite T, (tok_at _ _ _ _ S0).
      assert (DN : digitsValue 10 0 g = None) by (unfold number in ND; rewrite Eg in ND; rewrite <- Eg in ND; apply (dec_none g 0 0), ND).
      rewrite DN. cbn [x_symbol x andb]. rewrite (tok_at _ _ _ _ S0).
      assert (GN : beq g [] = false) by (rewrite Eg; reflexivity). rewrite GN. cbn [negb]. cbn [x_groups x].
      rewrite groupFind_number, R3, M.
      pose proof (st_emit _ _ _ (constant k) S0) as S1. pose proof (st_next _ _ _ _ S1) as S2. cbn [app] in S2.
      rewrite (ch_at _ _ _ _ _ S2). change (beq [46] [46]) with true. cbv iota.
      pose proof (st_next _ _ _ _ S2) as S3. unfold tokenIs. rewrite (tok_at _ _ _ _ S3).
      destruct sb.
      - change (beq (chars "start") (text "start")) with true. cbv iota. eexists. split; [reflexivity|].
        eapply st_next. apply st_emit. exact S3.
      - change (beq (chars "start") (text "size")) with false. change (beq (chars "size") (text "size")) with true. cbv iota. eexists. split; [reflexivity|].
        eapply st_next. apply st_emit. exact S3. }
    destruct P4 as (s' & P4 & (S1 & S2)).
    assert (P : parseExpression_1 x s0 = Ok (false, s')).
    { unfold parseExpression_1. set (q := (8 * (List.length (tk s0) + List.length (rest s0)) + 8)%nat).
      assert (L : exists k, q = Datatypes.S (Datatypes.S (Datatypes.S k))) by (exists (q - 3)%nat; lia). destruct L as (k' & ->).
      cbn [parse1 parse2 parse3]. rewrite !C by (unfold punct; cbn; auto 20). rewrite P4. reflexivity. }
    rewrite P. cbn [bind]. rewrite (proj1 S1). eexists. split; [reflexivity|]. unfold rel. cbn. repeat split; auto.
    apply Forall2_app; [exact R4|]. constructor; [|constructor]. cbn [fst snd]. split; [reflexivity|].
    assert (EV : forall cx z, c_property cx (s32 k) (if sb then 0 else 1) = Ok z -> calculateExpressionValue F cx (out s') = Ok (Some (Entry None z))).
    { intros cx z HZ. rewrite S2. unfold calculateExpressionValue. rewrite <- (constant_s32 k).
      rewrite calc_const; [|apply s32_range|rewrite zlen_nil; lia].
      rewrite calc_const; [|destruct sb; unfold is_s32; lia|rewrite zlen_cons, zlen_nil; lia].
      cbn [calc]. change (35 =? 30) with false. change (35 =? 31) with false. change (35 =? 33) with false. cbv iota.
      unfold LinkExprModel.step, group_property, popIntPair, popInt. cbn [bind en_value]. rewrite HZ. cbn [bind]. reflexivity. }
    destruct sb; exact EV.
  - rewrite (proj1 A0). cbn [text map list_ascii_of_string]. rewrite !(is_beq _ _ _ _ A0).
    change (beq (chars "POOL") (text "FORMATS")) with false. change (beq (chars "POOLS") (text "FORMATS")) with false.
    change (beq (chars "GROUP") (text "FORMATS")) with false. change (beq (chars "SYMBOL") (text "FORMATS")) with false.
    change (beq (chars "FORMATS") (text "FORMATS")) with true. cbv iota.
    destruct O as (NE & O). pose proof (step_at _ _ _ A0) as A1.
    destruct (formats_ok fs m l l' _ (Datatypes.S (Datatypes.S (List.length (snd (MdefModel.step p))))) R O NB CL H A1) as (m' & p' & P & S1 & R').
    { destruct (flat_map fmt_show fs) as [|w r]; [cbn; lia|]. destruct A1 as (_ & A1). apply spelled_length in A1. cbn [List.length]. lia. }
    unfold parseFormatsDirective.
    assert (X : forall T (a b : T), match fst (MdefModel.step p) with [] => a | _ => b end = b).
    { intros. destruct fs as [|f fs]; [contradiction|]. inversion O as [|? ? Of _]; subst. destruct f as [nm|e]; cbn [flat_map fmt_show app] in A1; rewrite (proj1 A1).
      - cbn in Of. unfold documented_formats in Of. cbn [map In] in Of. repeat (destruct Of as [<-|Of]; [reflexivity|]). destruct Of.
      - reflexivity. }
    rewrite X, P. cbn [bind]. rewrite (proj1 S1). eauto.
Qed.

Lemma lines_correct : forall ls ts m l l', Forall line_ok ls -> Forall line_no_binary ls -> Forall line_cbm_last ls ->
  Forall2 (fun ln t => spelled (lshow ln) t) ls ts -> rel m l -> file_defines ls l = Some l' ->
  exists m', parseLines F m ts = Ok m' /\ rel m' l'.
Proof.
  induction ls as [|ln ls IH]; intros ts m l l' O NB CL S R H; inversion S; subst; cbn [file_defines parseLines] in *.
  - injection H as <-. eauto.
  - inversion O; inversion NB; inversion CL; subst. destruct (defines ln l) as [l1|] eqn:D; [|discriminate]. cbn [obind] in H.
    edestruct (line_correct ln m l l1) as (m1 & P & R1); eauto. rewrite P. cbn [bind]. eauto.
Qed.
End File.
