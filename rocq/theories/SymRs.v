(** Proofs about RS directives. *)
From Coq Require Import ZArith List Bool Lia.
From Verif Require Import Base BaseFacts Arith ExprModel ObjWriteModel SymModel SymSpec SymProofs.
Import ListNotations.
Open Scope Z_scope.

Lemma counter_fine : forall st r v, symbols_fine st -> counter_is st r v ->
  exists c, z_rs st = Some r /\ at_ st r c /\ s_name c = rs_name /\ s_scope c = None /\ s_value c = v /\
    s_type c = SymSet /\ flags_fit c.
Proof.
  intros st r v F (R & c & A & N & S & V). exists c. repeat (split; [assumption|]). split; [|eapply F; exact A].
  destruct F as (_ & _ & F). destruct (F r R) as [_ T]. apply T, A.
Qed.
Lemma rs_not_local : isLocalName rs_name = false.
Proof. reflexivity. Qed.

Lemma set_value_fine : forall st r c v, symbols_fine st -> at_ st r c -> settled (s_type c) = false ->
  symbols_fine (put_sym r (set_value v c) st).
Proof.
  intros st r c v F A U. eapply evo_put; [exact F|exact A|apply evolves_value; exact U|]. apply fit_value. eapply F; exact A.
Qed.

Lemma integer_ok : forall t n v st, symbols_fine st -> t <> SymGroup ->
  (forall q x, seen st n q x -> s_type x = SymUndefined \/ s_type x = SymSet /\ t = SymSet) ->
  exists r s st', meaning st n r s /\ createInteger t n v st = Ok (Some r, st') /\ symbols_fine st' /\
    z_errors st' = z_errors st /\ z_rs st' = z_rs st /\
    z_scope st' = (if isLocalName n then z_scope st else Some r) /\
    (exists x, at_ st' r x /\ s_name x = n /\ s_scope x = assumedScopeOf n st /\ s_type x = t /\ s_value x = v) /\
    (forall q x, q <> r -> at_ st' q x <-> at_ st q x).
Proof.
  intros t n v st F NG H. destruct (findOrCreateSymbol n st) as [r st1] eqn:Q.
  destruct (meaning_foc _ _ _ _ F Q) as (s & M & A & N & SN & FF & F1 & RS & SC & SE & ER & FR & _).
  assert (MT : s_modifiable s && canBeType s t = true).
  { assert (T : s_type s = SymUndefined \/ s_type s = SymSet /\ t = SymSet).
    { destruct M as [M|(_ & _ & M)]; [apply (H r s M)|left; apply M]. }
    destruct FF as [FM _]. rewrite FM. unfold canBeType. destruct T as [->|[-> ->]]; cbn; [|reflexivity].
    destruct t; reflexivity. }
  assert (E : createInteger t n v st = Ok (Some r, begin_scope n r (put_sym r (set_type t v (s_section s) (s_text s) s) st1))).
  { unfold createInteger, createSymbolOfType. rewrite Q, (proj2 (the_sym_ok r st1 s) A). cbn [bind]. rewrite MT. reflexivity. }
  exists r, s, (begin_scope n r (put_sym r (set_type t v (s_section s) (s_text s) s) st1)).
  split; [exact M|]. split; [exact E|]. split; [exact (proj1 (proj1 (integer_evo _ _ _ _ _ _ NG F E)))|].
  split; [rewrite scope_errors; exact ER|]. split; [rewrite (proj2 (scope_syms _ _ _)); exact RS|].
  split; [rewrite scope_scope; destruct (isLocalName n); [exact SC|reflexivity]|].
  split.
  - exists (set_type t v (s_section s) (s_text s) s). split; [apply scope_at; eapply put_at; exact A|].
    repeat split; assumption.
  - intros q x X. rewrite scope_at, put_at_other by exact X. apply FR, X.
Qed.
Lemma available_seen : forall st n, available st (assumedScopeOf n st) n ->
  forall q x, seen st n q x -> s_type x = SymUndefined \/ s_type x = SymSet.
Proof.
  intros st n A q x (S1 & S2 & S3 & S4). apply (A q x S1 S2). symmetry. apply scope_spec. auto.
Qed.

Lemma setrs_ok : forall v st, symbols_fine st -> counter_ready st ->
  exists st' r, parse_SetRs v st = Ok st' /\ symbols_fine st' /\ z_errors st' = z_errors st /\ counter_is st' r v /\
    (forall q x, q <> r -> at_ st' q x <-> at_ st q x).
Proof.
  intros v st F [[R A]|(r & w & C)].
  - destruct (integer_ok SymSet rs_name 0 st F) as (r & s & st1 & M & H1 & F1 & E1 & R1 & S1 & (x & X1 & X2 & X3 & X4 & X5) & FR);
      [discriminate|intros q x X; pose proof (available_seen _ _ A q x X); tauto|].
    exists (put_sym r (set_value v x) (with_rs (Some r) st1)), r.
    assert (F2 : symbols_fine (with_rs (Some r) st1)).
    { destruct F1 as (U & V & W). split; [exact U|]. split; [exact V|]. cbn. intros k K. inversion K; subst k.
      split; [apply (nth_error_Some_lt _ _ _ _ X1)|]. intros y Y. change (at_ st1 r y) in Y. unfold at_ in *. congruence. }
    split.
    { unfold parse_SetRs, getRsCounter. rewrite R. unfold sym_CreateSet. rewrite H1. cbn [bind].
      rewrite (proj2 (the_sym_ok r (with_rs (Some r) st1) x) X1). reflexivity. }
    split; [apply set_value_fine; [exact F2|exact X1|rewrite X4; reflexivity]|].
    split; [exact E1|]. split.
    + split; [reflexivity|]. exists (set_value v x). split; [eapply put_at; exact X1|]. auto.
    + intros q y Y. rewrite put_at_other by exact Y. apply FR, Y.
  - destruct (counter_fine _ _ _ F C) as (c & R & A & N & S1 & V & T & FF).
    exists (put_sym r (set_value v c) st), r. split.
    { unfold parse_SetRs, getRsCounter. rewrite R. cbn [bind]. rewrite (proj2 (the_sym_ok r st c) A). reflexivity. }
    split; [apply set_value_fine; [exact F|exact A|rewrite T; reflexivity]|]. split; [reflexivity|]. split.
    + split; [exact R|]. exists (set_value v c). split; [eapply put_at; exact A|]. auto.
    + intros q y Y. apply put_at_other, Y.
Qed.

(** One member outside a structure. *)
Lemma member_step : forall m st r v, symbols_fine st -> counter_is st r v -> ~ is_local (m_name m) -> m_name m <> rs_name ->
  available st None (m_name m) -> is_s32 (m_size m) -> is_s32 (v + m_size m) ->
  exists st' q, sstep (member_op m) st = Ok st' /\ symbols_fine st' /\ z_errors st' = z_errors st /\
    counter_is st' r (v + m_size m) /\ q <> r /\
    (exists x, at_ st' q x /\ s_name x = m_name m /\ s_scope x = None /\ s_type x = SymSet /\ s_value x = v) /\
    (forall y, at_ st q y -> s_name y = m_name m) /\
    (forall p y, p <> r -> p <> q -> at_ st' p y <-> at_ st p y).
Proof.
  intros [[n k] j] st r v F C NL NR AV S1 S2. unfold m_name, m_size in *. cbn [fst snd] in *. cbn [member_op fst snd].
  destruct (counter_fine _ _ _ F C) as (c & R & A & N & SC & V & T & FF).
  assert (LB : isLocalName n = false) by (destruct (isLocalName n) eqn:E; [exfalso; apply NL, local_spec; exact E|reflexivity]).
  assert (DB : isDotLocalName n = false).
  { destruct (isDotLocalName n) eqn:E; [|reflexivity]. apply dot_local in E. congruence. }
  set (st1 := put_sym r (set_value (v + k * j) c) st).
  assert (F1 : symbols_fine st1) by (apply set_value_fine; [exact F|exact A|rewrite T; reflexivity]).
  assert (A1 : at_ st1 r (set_value (v + k * j) c)) by (eapply put_at; exact A).
  destruct (integer_ok SymSet n v st1 F1) as (q & s & st' & M & H1 & F2 & E1 & R1 & S3 & (x & X1 & X2 & X3 & X4 & X5) & FR); [discriminate| |].
  { intros p y (P1 & P2 & _ & P4). destruct (Nat.eq_dec p r) as [->|PN].
    - exfalso. assert (y = set_value (v + k * j) c) by (unfold at_ in *; congruence). subst y. apply NR. rewrite <- P2. exact N.
    - apply put_at_other in P1; [|exact PN]. destruct (AV p y P1 P2 (P4 NL)) as [?|?]; auto. }
  assert (QR : q <> r).
  { intro E. subst q. symmetry in H1. refine (meaning_other _ _ _ _ r _ F1 M A1 _ eq_refl). left. intro E. apply NR. rewrite <- E. exact N. }
  exists st', q. split.
  { match goal with |- ?a = _ => change a with (createRsSymbol n k j st) end. unfold createRsSymbol, c_mul. rewrite (chk_ok _ S1). cbn [bind]. rewrite DB.
    rewrite (inc_ok st r c (k * j) R A) by (rewrite V; exact S2). cbn [bind]. rewrite V. fold st1. unfold sym_CreateSet. rewrite H1. reflexivity. }
  split; [exact F2|]. split; [exact E1|]. split.
  { split; [rewrite R1; exact R|]. exists (set_value (v + k * j) c). split; [apply FR; [congruence|exact A1]|]. auto. }
  split; [exact QR|]. split.
  { exists x. split; [exact X1|]. split; [exact X2|]. split; [rewrite X3; unfold assumedScopeOf; rewrite LB; reflexivity|]. auto. }
  split.
  { intros y Y. destruct M as [(M1 & M2 & _)|(_ & M1 & _)].
    - apply put_at_other in M1; [|exact QR]. unfold at_ in *. congruence.
    - exfalso. apply nth_error_Some_lt in Y. unfold st1, put_sym in M1. cbn in M1. rewrite put_length in M1. lia. }
  intros p y P1 P2. rewrite FR by exact P2. apply put_at_other, P1.
Qed.

Lemma members_run : forall l st r v, symbols_fine st -> counter_is st r v ->
  (forall m, In m l -> ~ is_local (m_name m) /\ m_name m <> rs_name /\ available st None (m_name m)) ->
  NoDup (map m_name l) -> sizes_fit v l ->
  exists st', srun (map member_op l) st = Ok st' /\ symbols_fine st' /\ z_errors st' = z_errors st /\
    counter_is st' r (v + total l) /\
    Forall2 (fun m w => has_value st' None (m_name m) w) l (offsets v l) /\
    (forall p y, p <> r -> at_ st p y -> ~ In (s_name y) (map m_name l) -> at_ st' p y).
Proof.
  intro l; induction l as [|m l IH]; intros st r v F C H ND SF.
  - exists st. cbn. rewrite Z.add_0_r. split; [reflexivity|]. split; [exact F|]. split; [reflexivity|]. split; [exact C|]. split; [constructor|auto].
  - destruct SF as (S1 & S2 & SF). destruct (H m (or_introl eq_refl)) as (NL & NR & AV).
    destruct (member_step m st r v F C NL NR AV S1 S2) as (st1 & q & H1 & F1 & E1 & C1 & QR & (x & X1 & X2 & X3 & X4 & X5) & QN & FR).
    cbn [map] in ND. apply NoDup_cons_iff in ND as [NI ND'].
    destruct (IH st1 r (v + m_size m) F1 C1) as (st' & H2 & F2 & E2 & C2 & V2 & K2); auto.
    { intros m' M'. destruct (H m' (or_intror M')) as (NL' & NR' & AV'). split; [exact NL'|]. split; [exact NR'|].
      intros p y P1 P2 P3. destruct (Nat.eq_dec p r) as [->|PR].
      - exfalso. destruct C1 as (_ & c & CA & CN & _). assert (y = c) by (unfold at_ in *; congruence). subst y. congruence.
      - destruct (Nat.eq_dec p q) as [->|PQ].
        + assert (y = x) by (unfold at_ in *; congruence). subst y. auto.
        + apply FR in P1; [|exact PR|exact PQ]. exact (AV' p y P1 P2 P3). }
    exists st'. split; [cbn [map srun]; rewrite H1; cbn [bind]; exact H2|]. split; [exact F2|]. split; [congruence|].
    split; [replace (v + total (m :: l)) with (v + m_size m + total l) by (cbn [total fold_right]; unfold total; lia); exact C2|].
    split.
    + cbn [offsets]. constructor; [|exact V2]. exists q, x. split; [|auto]. apply K2; [exact QR|exact X1|]. rewrite X2. exact NI.
    + intros p y P1 P2 P3. cbn [map In] in P3. apply K2; [exact P1| |tauto].
      apply FR; [exact P1| |exact P2]. intro E. subst p. apply P3. left. symmetry. apply QN, P2.
Qed.

(** One member of a structure. *)
Lemma field_step : forall m st r v b s0, symbols_fine st -> counter_is st r v -> dotted (m_name m) ->
  z_scope st = Some b -> at_ st b s0 -> s_type s0 = SymStructure -> s_scope s0 = None ->
  available st (Some b) (m_name m) -> is_s32 (m_size m) -> is_s32 (v + m_size m) -> is_s32 (s_value s0 + m_size m) ->
  exists st' q, sstep (member_op m) st = Ok st' /\ symbols_fine st' /\ z_errors st' = z_errors st /\ z_scope st' = Some b /\
    counter_is st' r (v + m_size m) /\ at_ st' b (set_value (s_value s0 + m_size m) s0) /\
    q <> r /\ q <> b /\
    (exists x, at_ st' q x /\ s_name x = m_name m /\ s_scope x = Some b /\ s_type x = SymSet /\ s_value x = v) /\
    (forall y, at_ st q y -> s_name y = m_name m) /\
    (forall p y, p <> r -> p <> b -> p <> q -> at_ st' p y <-> at_ st p y).
Proof.
  intros [[n k] j] st r v b s0 F C DT SB AB TB SCB AV S1 S2 S4. unfold m_name, m_size in *. cbn [fst snd] in *. cbn [member_op fst snd].
  destruct (counter_fine _ _ _ F C) as (c & R & A & N & SC & V & T & FF).
  assert (DB : isDotLocalName n = true) by (destruct DT as [n' ->]; reflexivity).
  assert (LB : isLocalName n = true) by (apply dot_local; exact DB).
  assert (BR : b <> r) by (intro E; subst b; assert (s0 = c) by (unfold at_ in *; congruence); subst s0; congruence).
  set (st1 := put_sym r (set_value (v + k * j) c) st).
  assert (F1 : symbols_fine st1) by (apply set_value_fine; [exact F|exact A|rewrite T; reflexivity]).
  assert (A1 : at_ st1 r (set_value (v + k * j) c)) by (eapply put_at; exact A).
  assert (B1 : at_ st1 b s0) by (apply put_at_other; assumption).
  assert (AS : assumedScopeOf n st1 = Some b) by (unfold assumedScopeOf; rewrite LB; exact SB).
  destruct (integer_ok SymSet n v st1 F1) as (q & s & st2 & M & H1 & F2 & E1 & R1 & S3 & (x & X1 & X2 & X3 & X4 & X5) & FR); [discriminate| |].
  { intros p y (P1 & P2 & P3 & _). assert (PS : s_scope y = Some b).
    { rewrite P3; [exact SB|]. apply local_spec, LB. }
    destruct (Nat.eq_dec p r) as [->|PN].
    - exfalso. assert (y = set_value (v + k * j) c) by (unfold at_ in *; congruence). subst y.
      change (s_scope (set_value (v + k * j) c)) with (s_scope c) in PS. congruence.
    - apply put_at_other in P1; [|exact PN]. destruct (AV p y P1 P2 PS) as [?|?]; auto. }
  pose proof (meaning_name _ _ _ _ M) as [MN MS]. rewrite AS in MS.
  assert (QR : q <> r).
  { intro E. refine (meaning_other _ _ _ _ r _ F1 M A1 _ (eq_sym E)). right. rewrite MS.
    change (s_scope (set_value (v + k * j) c)) with (s_scope c). congruence. }
  assert (QB : q <> b).
  { intro E. refine (meaning_other _ _ _ _ b _ F1 M B1 _ (eq_sym E)). right. congruence. }
  assert (B2 : at_ st2 b s0) by (apply FR; [congruence|exact B1]).
  assert (SB2 : z_scope st2 = Some b) by (rewrite S3, LB; exact SB).
  exists (put_sym b (set_value (s_value s0 + k * j) s0) st2), q. split.
  { match goal with |- ?a = _ => change a with (createRsSymbol n k j st) end. unfold createRsSymbol, c_mul. rewrite (chk_ok _ S1). cbn [bind]. rewrite DB, SB.
    rewrite (proj2 (the_sym_ok b st s0) AB). cbn [bind]. rewrite TB. cbn [symtype_eqb].
    rewrite (inc_ok st r c (k * j) R A) by (rewrite V; exact S2). cbn [bind]. rewrite V. fold st1. unfold sym_CreateSet. rewrite H1. cbn [bind].
    rewrite SB2, (proj2 (the_sym_ok b st2 s0) B2). cbn [bind]. unfold c_add. rewrite (chk_ok _ S4). reflexivity. }
  split; [apply set_value_fine; [exact F2|exact B2|rewrite TB; reflexivity]|]. split; [exact E1|]. split; [exact SB2|]. split.
  { split; [cbn; rewrite R1; exact R|]. exists (set_value (v + k * j) c). split; [|auto].
    apply put_at_other; [congruence|]. apply FR; [congruence|exact A1]. }
  split; [eapply put_at; exact B2|].
  split; [exact QR|]. split; [exact QB|]. split.
  { exists x. split; [apply put_at_other; assumption|]. split; [exact X2|]. split; [congruence|]. auto. }
  split.
  { intros y Y. destruct M as [(M1 & M2 & _)|(_ & M1 & _)].
    - apply put_at_other in M1; [|exact QR]. unfold at_ in *. congruence.
    - exfalso. apply nth_error_Some_lt in Y. unfold st1, put_sym in M1. cbn in M1. rewrite put_length in M1. lia. }
  intros p y P1 P2 P3. rewrite put_at_other by exact P2. rewrite FR by exact P3. apply put_at_other, P1.
Qed.

Lemma fields_run : forall l st r v b s0, symbols_fine st -> counter_is st r v ->
  z_scope st = Some b -> at_ st b s0 -> s_type s0 = SymStructure -> s_scope s0 = None -> s_value s0 = v ->
  (forall m, In m l -> dotted (m_name m) /\ available st (Some b) (m_name m)) ->
  NoDup (map m_name l) -> sizes_fit v l ->
  exists st' s', srun (map member_op l) st = Ok st' /\ symbols_fine st' /\ z_errors st' = z_errors st /\ z_scope st' = Some b /\
    counter_is st' r (v + total l) /\
    at_ st' b s' /\ s_type s' = SymStructure /\ s_name s' = s_name s0 /\ s_scope s' = None /\ s_value s' = v + total l /\
    Forall2 (fun m w => has_value st' (Some b) (m_name m) w) l (offsets v l) /\
    (forall p y, p <> r -> p <> b -> at_ st p y -> ~ In (s_name y) (map m_name l) -> at_ st' p y).
Proof.
  intro l; induction l as [|m l IH]; intros st r v b s0 F C SB AB TB SCB VB H ND SF.
  - exists st, s0. cbn. rewrite Z.add_0_r. repeat (split; [first [reflexivity|assumption]|]). split; [constructor|auto].
  - destruct SF as (S1 & S2 & SF). destruct (H m (or_introl eq_refl)) as (DT & AV).
    destruct (field_step m st r v b s0 F C DT SB AB TB SCB AV S1 S2) as (st1 & q & H1 & F1 & E1 & SB1 & C1 & B1 & QR & QB & (x & X1 & X2 & X3 & X4 & X5) & QN & FR).
    { rewrite VB. exact S2. }
    cbn [map] in ND. apply NoDup_cons_iff in ND as [NI ND'].
    destruct (IH st1 r (v + m_size m) b (set_value (s_value s0 + m_size m) s0) F1 C1 SB1 B1 TB SCB ltac:(cbn; rewrite VB; reflexivity))
      as (st' & s' & H2 & F2 & E2 & SB2 & C2 & B2 & T2 & N2 & SC2 & V2 & O2 & K2); auto.
    { intros m' M'. destruct (H m' (or_intror M')) as (DT' & AV'). split; [exact DT'|].
      intros p y P1 P2 P3. destruct (Nat.eq_dec p r) as [->|PR].
      - exfalso. destruct C1 as (_ & c & CA & CN & CS & _). assert (y = c) by (unfold at_ in *; congruence). subst y. congruence.
      - destruct (Nat.eq_dec p b) as [->|PB].
        + exfalso. assert (y = set_value (s_value s0 + m_size m) s0) by (unfold at_ in *; congruence). subst y.
          change (s_scope s0 = Some b) in P3. congruence.
        + destruct (Nat.eq_dec p q) as [->|PQ].
          * assert (y = x) by (unfold at_ in *; congruence). subst y. auto.
          * apply FR in P1; [|exact PR|exact PB|exact PQ]. exact (AV' p y P1 P2 P3). }
    exists st', s'. split; [cbn [map srun]; rewrite H1; cbn [bind]; exact H2|]. split; [exact F2|]. split; [congruence|]. split; [exact SB2|].
    assert (TE : v + total (m :: l) = v + m_size m + total l) by (cbn [total fold_right]; unfold total; lia).
    rewrite TE. split; [exact C2|]. split; [exact B2|]. split; [exact T2|]. split; [exact N2|]. split; [exact SC2|]. split; [exact V2|].
    split.
    + cbn [offsets]. constructor; [|exact O2]. exists q, x. split; [|auto]. apply K2; [exact QR|exact QB|exact X1|]. rewrite X2. exact NI.
    + intros p y P1 P2 P3 P4. cbn [map In] in P4. apply K2; [exact P1|exact P2| |tauto].
      apply FR; [exact P1|exact P2| |exact P3]. intro E. subst p. apply P4. left. symmetry. apply QN, P3.
Qed.

Lemma srun_app : forall a b st, srun (a ++ b) st = let! st1 := srun a st in srun b st1.
Proof.
  intro a; induction a as [|o a IH]; intros b st; [reflexivity|]. cbn [app srun].
  destruct (sstep o st) as [x| |]; cbn [bind]; auto.
Qed.
