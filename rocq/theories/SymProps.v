(** Property theorems for symbols: C34, C35 and C41. *)
From Coq Require Import ZArith List Bool Lia.
From Verif Require Import Base BaseFacts Arith ExprModel ObjWriteModel SymModel SymSpec SymProofs SymRs.
Import ListNotations.
Open Scope Z_scope.

(** ** C34: definitions *)

(** Whatever a source does, there is at most one symbol of a name in a scope. *)
Theorem C34_one_symbol : forall l st r1 r2 s1 s2, srun l sinitial = Ok st ->
  at_ st r1 s1 -> at_ st r2 s2 -> s_name s1 = s_name s2 -> s_scope s1 = s_scope s2 -> r1 = r2.
Proof. intros l st r1 r2 s1 s2 H. apply (run_fine l sinitial st initial_fine H). Qed.
Print Assumptions C34_one_symbol.

(** The bookkeeping the other theorems ask for holds after any source. *)
Theorem C34_reachable : forall l st, srun l sinitial = Ok st -> symbols_fine st.
Proof. intros l st H. exact (run_fine l sinitial st initial_fine H). Qed.
Print Assumptions C34_reachable.

(** A label, EQU, string, macro, import or group keeps its value through any source
    that does not purge it. *)
Theorem C34_stable : forall l st st' r s, symbols_fine st -> at_ st r s -> settled (s_type s) = true ->
  (forall n, In (OPurge n) l -> n <> s_name s) -> srun l st = Ok st' ->
  exists s', at_ st' r s' /\ s_name s' = s_name s /\ s_scope s' = s_scope s /\ s_type s' = s_type s /\
    s_value s' = s_value s /\ s_section s' = s_section s /\ s_text s' = s_text s /\
    ay_groupType (s_asym s') = ay_groupType (s_asym s) /\ (s_export s = true -> s_export s' = true).
Proof.
  intros l st st' r s F A T N H. destruct (run_evolves l st st' r s F A N H) as (s' & A' & (E1&E2&E3&E4&E5&E6)).
  destruct (E6 T) as (K1&K2&K3&K4&K5). exists s'. auto 12.
Qed.
Print Assumptions C34_stable.

(** What each directive does: either it is carried out, without an error and on the
    one symbol its name means, or it reports exactly one error and leaves all symbols
    as they are.  The exception is a label outside any section, which still makes
    a GLOBAL symbol exported. *)
Theorem C34_rules : forall o n st, symbols_fine st -> op_name o = Some n ->
  exists r s, meaning st n r s /\
    (accepted o st s = true -> exists st' s', sstep o st = Ok st' /\ z_errors st' = z_errors st /\
       at_ st' r s' /\ becomes o (z_section st) s s' /\
       (forall q x, q <> r -> at_ st' q x <-> at_ st q x) /\
       (begins_scope o = true -> ~ is_local n -> z_scope st' = Some r) /\
       (begins_scope o = false \/ is_local n -> z_scope st' = z_scope st)) /\
    (accepted o st s = false -> s_file s <> None \/ (exists st', sstep o st = Ok st') ->
       exists st' s' e, sstep o st = Ok st' /\ z_errors st' = z_errors st ++ [e] /\ at_ st' r s' /\
       (s' = s \/ is_label o = true /\ s_type s = SymGlobal /\ s_type s' = SymGlobal /\ evolves s s') /\
       (forall q x, q <> r -> at_ st' q x <-> at_ st q x) /\ z_scope st' = z_scope st).
Proof.
  intros o n st F O. destruct (define_shape o n st F O) as (r & s & M & A & R). exists r, s. split; [exact M|]. split; [|exact R].
  intro AC. destruct (A AC) as (st' & s' & H & E & AT & B & FR & SC & _). exists st', s'.
  split; [exact H|]. split; [exact E|]. split; [exact AT|]. split; [exact B|]. split; [exact FR|]. rewrite SC. split.
  - intros -> NL. destruct (isLocalName n) eqn:L; [exfalso; apply NL, local_spec, L|reflexivity].
  - intros [->|L]; [reflexivity|]. apply local_spec in L. rewrite L, andb_false_r. reflexivity.
Qed.
Print Assumptions C34_rules.

(** A group is defined once; the same definition again is accepted. *)
Theorem C34_group : forall n g st, symbols_fine st ->
  (forall r s, at_ st r s -> s_name s = n -> s_scope s = None ->
     exists st', sstep (OGroup n g) st = Ok st' /\ z_syms st' = z_syms st /\ z_scope st' = z_scope st /\
       (s_type s = SymGroup /\ ay_groupType (s_asym s) = g -> z_errors st' = z_errors st) /\
       (~ (s_type s = SymGroup /\ ay_groupType (s_asym s) = g) -> z_errors st' = z_errors st ++ [ERROR_GROUP_REDEFINED])) /\
  ((forall r s, at_ st r s -> s_name s = n -> s_scope s = None -> False) ->
     exists st' s, sstep (OGroup n g) st = Ok st' /\ z_errors st' = z_errors st /\ z_scope st' = z_scope st /\
       at_ st' (length (z_syms st)) s /\ s_name s = n /\ s_scope s = None /\ s_type s = SymGroup /\ ay_groupType (s_asym s) = g /\
       forall q x, at_ st q x -> at_ st' q x).
Proof.
  intros n g st F. split.
  - intros r s A N C. cbn [sstep]. unfold sym_CreateGroup. destruct (getSymbol n None st) as [q|] eqn:G.
    + unfold getSymbol in G. apply find_sound in G as (j & x & E & X & XN & XC). cbn in E. subst j.
      assert (q = r) by (eapply F; [exact X|exact A|congruence|congruence]). subst q.
      assert (x = s) by (unfold at_ in *; congruence). subst x.
      rewrite (proj2 (the_sym_ok r st s) A). cbn [bind].
      destruct (symtype_eqb (s_type s) SymGroup && (ay_groupType (s_asym s) =? g)) eqn:B.
      * apply andb_true_iff in B as [B1 B2]. apply type_eqb in B1. apply Z.eqb_eq in B2.
        exists st. split; [reflexivity|]. split; [reflexivity|]. split; [reflexivity|]. split; [auto|]. tauto.
      * exists (sym_Error ERROR_GROUP_REDEFINED st). split; [reflexivity|]. split; [reflexivity|]. split; [reflexivity|]. split; [|auto].
        intros [T1 T2]. rewrite T1, T2, Z.eqb_refl in B. discriminate.
    + exfalso. unfold getSymbol in G. eapply find_complete; [exact G|exact A|exact N|exact C].
  - intros H. cbn [sstep]. unfold sym_CreateGroup. destruct (getSymbol n None st) as [q|] eqn:G.
    + exfalso. unfold getSymbol in G. apply find_sound in G as (j & x & E & X & XN & XC). eapply H; [exact X|exact XN|exact XC].
    + unfold createSymbol.
      set (st1 := with_syms (z_syms st ++ [Some (new_symbol n None st)]) st).
      assert (A1 : at_ st1 (length (z_syms st)) (new_symbol n None st)).
      { unfold at_, st1. cbn. rewrite nth_error_app2, Nat.sub_diag by lia. reflexivity. }
      exists (put_sym (length (z_syms st)) (set_group g (new_symbol n None st)) st1), (set_group g (new_symbol n None st)).
      split; [reflexivity|]. split; [reflexivity|]. split; [reflexivity|]. split; [eapply put_at; exact A1|].
      repeat (split; [reflexivity|]). intros q x A. apply put_at_other.
      * apply nth_error_Some_lt in A. lia.
      * unfold at_, st1. cbn. rewrite nth_error_app1 by (apply nth_error_Some_lt in A; exact A). exact A.
Qed.
Print Assumptions C34_group.

(** GLOBAL exports a name that is defined here, whether it comes before or after the
    definition, and the symbol is the same either way. *)
Lemma carried_seen : forall o n st r s st' s', symbols_fine st -> meaning st n r s -> at_ st' r s' ->
  s_name s' = s_name s -> s_scope s' = s_scope s ->
  z_scope st' = (if begins_scope o && negb (isLocalName n) then Some r else z_scope st) -> seen st' n r s'.
Proof.
  intros o n st r s st' s' F M A N C Z1. destruct (meaning_name _ _ _ _ M) as [MN MS].
  split; [exact A|]. split; [congruence|]. rewrite C, MS. unfold assumedScopeOf.
  destruct (isLocalName n) eqn:L.
  - split; intro H; [|exfalso; apply H, local_spec, L]. rewrite Z1, andb_false_r. reflexivity.
  - split; intro H; [|reflexivity]. apply local_spec in H. congruence.
Qed.
Lemma define_seen : forall o n st r s, symbols_fine st -> op_name o = Some n -> seen st n r s ->
  accepted o st s = true -> carried o n st r s.
Proof.
  intros o n st r s F O SN AC. destruct (define_shape o n st F O) as (r' & s' & M & A & _).
  destruct M as [M|(M & _)]; [|exfalso; eapply M; exact SN].
  destruct (seen_unique _ _ _ _ _ _ F SN M) as [-> ->]. apply A, AC.
Qed.
Theorem C34_global : forall d n st, symbols_fine st ->
  (d = OLabel n /\ z_section st <> None \/ exists v, d = OEqu n v) ->
  (forall r s, seen st n r s -> s_type s = SymUndefined) ->
  exists st1 st2 r x1 x2, srun [OGlobal n; d] st = Ok st1 /\ srun [d; OGlobal n] st = Ok st2 /\
    z_errors st1 = z_errors st /\ z_errors st2 = z_errors st /\
    at_ st1 r x1 /\ at_ st2 r x2 /\ s_name x1 = n /\ s_name x2 = n /\
    s_export x1 = true /\ s_export x2 = true /\ settled (s_type x1) = true /\
    s_type x1 = s_type x2 /\ s_value x1 = s_value x2 /\ z_scope st1 = z_scope st2.
Proof.
  intros d n st F D U.
  assert (DN : op_name d = Some n) by (destruct D as [[-> _]|[v ->]]; reflexivity).
  assert (DA : forall s st0, z_section st0 = z_section st -> s_type s = SymUndefined \/ s_type s = SymGlobal -> accepted d st0 s = true).
  { intros s st0 ZS [T|T]; unfold accepted; rewrite T, ZS; destruct D as [[-> Z0]|[v ->]]; cbn; auto; destruct (z_section st); congruence || reflexivity. }
  destruct (define_shape (OGlobal n) n st F eq_refl) as (r & s & M & A & _).
  assert (T : s_type s = SymUndefined) by (destruct M as [M|(_ & _ & M)]; [apply (U r s M)|apply M]).
  destruct A as (sa & a & HA & EA & AA & BA & FA & SA & RA & ZA); [unfold accepted; rewrite T; reflexivity|].
  destruct BA as (BA1 & BA2 & BA3). rewrite T in BA3. destruct BA3 as (BA3 & BA4).
  pose proof (carried_seen (OGlobal n) n st r s sa a F M AA BA1 BA2 SA) as SNA.
  pose proof (step_total_fine _ _ _ F HA) as FA'.
  destruct (define_seen d n sa r a FA' DN SNA) as (sb & b & HB & EB & AB & BB & FB & SB & RB & ZB); [apply DA; auto|].
  destruct (define_shape d n st F DN) as (r2 & s2 & M2 & A2 & _).
  assert (R2 : r2 = r /\ s_type s2 = SymUndefined).
  { destruct M as [M|(M & R & MF)], M2 as [M2|(M2 & R2 & MF2)].
    - destruct (seen_unique _ _ _ _ _ _ F M M2) as [<- <-]. auto.
    - exfalso; eapply M2; exact M.
    - exfalso; eapply M; exact M2.
    - split; [congruence|]. apply MF2. }
  destruct R2 as [-> T2].
  destruct A2 as (sc & c & HC & EC & AC & BC & FC & SC & RC & ZC); [apply DA; auto|].
  pose proof (step_total_fine _ _ _ F HC) as FC'.
  pose proof BC as (BC1 & BC2 & _).
  pose proof (carried_seen d n st r s2 sc c F M2 AC BC1 BC2 SC) as SNC.
  assert (TC : s_type c = SymLabel \/ s_type c = SymEqu).
  { destruct BC as (_ & _ & BC). destruct D as [[-> Z0]|[v ->]].
    - cbn in BC. destruct (z_section st) as [[k a0]|]; [|congruence]. destruct BC as [BC _].
      destruct (fixed_address a0); destruct BC; auto.
    - cbn in BC. destruct BC; auto. }
  destruct (define_seen (OGlobal n) n sc r c FC' eq_refl SNC) as (sd & e & HD & ED & AD & BD & FD & SD & RD & ZD).
  { unfold accepted. destruct TC as [-> | ->]; reflexivity. }
  destruct BD as (BD1 & BD2 & BD3).
  assert (BD' : s_type e = s_type c /\ s_value e = s_value c /\ s_section e = s_section c /\ s_export e = true).
  { destruct TC as [TC|TC]; cbn in BD3; rewrite TC in BD3 |- *; exact BD3. }
  destruct BD' as (E1 & E2 & E3 & E4).
  exists sb, sd, r, b, e.
  split; [cbn [srun]; rewrite HA; cbn [bind]; rewrite HB; reflexivity|].
  split; [cbn [srun]; rewrite HC; cbn [bind]; rewrite HD; reflexivity|].
  split; [congruence|]. split; [congruence|]. split; [exact AB|]. split; [exact AD|].
  destruct SNA as (_ & NA & _). destruct SNC as (_ & NC & _). destruct BB as (BB1 & BB2 & BB).
  split; [congruence|]. split; [congruence|].
  destruct BC as (_ & _ & BC).
  assert (SS : z_scope sb = z_scope sd).
  { rewrite SB, SD, SC, SA. cbn. destruct D as [[-> _]|[v ->]]; destruct (isLocalName n); reflexivity. }
  destruct D as [[-> Z0]|[v ->]].
  - cbn in BB, BC. rewrite ZA in BB. destruct (z_section st) as [[k a0]|]; [|congruence].
    destruct BB as [BB BE], BC as [BC _]. destruct (fixed_address a0).
    + destruct BB as (B1 & B2), BC as (C1 & C2).
      split; [apply BE; auto|]. split; [exact E4|]. split; [rewrite B1; reflexivity|]. split; [congruence|]. split; [congruence|exact SS].
    + destruct BB as (B1 & B2 & B3), BC as (C1 & C2 & C3).
      split; [apply BE; auto|]. split; [exact E4|]. split; [rewrite B1; reflexivity|]. split; [congruence|]. split; [congruence|exact SS].
  - cbn in BB, BC. destruct BB as (B1 & B2 & BE), BC as (C1 & C2 & _).
    split; [apply BE; auto|]. split; [exact E4|]. split; [rewrite B1; reflexivity|]. split; [congruence|]. split; [congruence|exact SS].
Qed.
Print Assumptions C34_global.

(** A source that meets all of these hypotheses: [a], a section, [a: .x: b EQU 7] and
    then a second definition of each. *)
Definition nm_a : list Z := [97].
Definition nm_b : list Z := [98].
Definition nm_x : list Z := [46; 120].
Definition code_sect : asect := ASect false false false false true false 0 4 0 0.
Definition source : list sop :=
  [OPosition (Some 1) 1; OSection (Some (0%nat, code_sect)); OGlobal nm_a; OLabel nm_a; OLabel nm_x; OEqu nm_b 7; OSet [99] 1].
Definition state_of (l : list sop) : sstate := match srun l sinitial with Ok s => s | _ => sinitial end.
Definition show (r : option (option ssym)) : option (list Z * option nat * symtype * Z * bool) :=
  match r with Some (Some s) => Some (s_name s, s_scope s, s_type s, s_value s, s_export s) | _ => None end.
Example C34_case :
  srun source sinitial = Ok (state_of source) /\ z_errors (state_of source) = [] /\
  map (fun r => show (nth_error (z_syms (state_of source)) r)) [0; 1; 2; 3]%nat =
    [Some (nm_a, None, SymLabel, 4, true); Some (nm_x, Some 0%nat, SymLabel, 4, false);
     Some (nm_b, None, SymEqu, 7, false); Some ([99], None, SymSet, 1, false)] /\
  map (fun o => match sstep o (state_of source) with Ok s => z_errors s | _ => [0] end)
    [OEqu nm_b 8; OSet [99] 2; OLabel nm_a; OMacro nm_a []; OExport nm_b] =
    [[ERROR_MODIFY_SYMBOL]; []; [ERROR_MODIFY_SYMBOL]; [ERROR_MODIFY_SYMBOL]; []].
Proof. vm_compute. auto. Qed.

(** EXPORT before a SET exports the symbol although a SET symbol cannot be exported:
    the same two lines the other way round are an error. *)
Theorem C34_export_set_refuted : exists a b st1 st2,
  srun [OPosition (Some 1) 1; a; b] sinitial = Ok st1 /\ srun [OPosition (Some 1) 1; b; a] sinitial = Ok st2 /\
  z_errors st1 = [] /\ z_errors st2 = [ERROR_SYMBOL_EXPORT].
Proof.
  exists (OExport nm_a), (OSet nm_a 5).
  exists (state_of [OPosition (Some 1) 1; OExport nm_a; OSet nm_a 5]), (state_of [OPosition (Some 1) 1; OSet nm_a 5; OExport nm_a]).
  vm_compute. auto.
Qed.
Print Assumptions C34_export_set_refuted.

(** Defining, exporting or making GLOBAL a predefined symbol follows a null pointer:
    predefined symbols have no source file. *)
Theorem C34_internal_refuted : forall n v, n = nm_a \/ n = nm_b ->
  srun [OEqu n v; OPosition (Some 1) 1; OEqu n v] sinitial = UB.
Proof. intros n v [->| ->]; reflexivity. Qed.
Print Assumptions C34_internal_refuted.

(** ** C35: scopes *)

(** A reference finds the symbol of that name, in the current scope if it is local. *)
Theorem C35_reference : forall n st, symbols_fine st ->
  exists s, seen (snd (findOrCreateSymbol n st)) n (fst (findOrCreateSymbol n st)) s /\
    (forall r x, seen st n r x -> r = fst (findOrCreateSymbol n st) /\ x = s /\ snd (findOrCreateSymbol n st) = st).
Proof.
  intros n st F. destruct (findOrCreateSymbol n st) as [r st1] eqn:Q. cbn.
  destruct (foc _ _ _ _ F Q) as (_ & _ & _ & _ & _ & s & S1 & [[S2 ->]|(S2 & _)]); exists s; (split; [exact S1|]).
  - intros q x X. destruct (seen_unique _ _ _ _ _ _ F X S1) as [-> ->]. auto.
  - intros q x X. exfalso. eapply S2; exact X.
Qed.
Print Assumptions C35_reference.

(** Local names do not reach outside the current scope. *)
Theorem C35_private : forall l st st', symbols_fine st -> Forall only_local l -> srun l st = Ok st' ->
  z_scope st' = z_scope st /\
  (forall q x, at_ st q x -> s_scope x <> z_scope st -> at_ st' q x) /\
  (forall q x, at_ st' q x -> at_ st q x \/ s_scope x = z_scope st).
Proof.
  intro l; induction l as [|o l IH]; intros st st' F L H; cbn [srun] in H.
  - inversion H; subst. auto.
  - inversion L as [|? ? (n & LN & O) L']; subst. destruct (sstep o st) as [st1| |] eqn:S1; try discriminate. cbn [bind] in H.
    assert (K : z_scope st1 = z_scope st /\ (forall q x, at_ st q x -> s_scope x <> z_scope st -> at_ st1 q x) /\
                (forall q x, at_ st1 q x -> at_ st q x \/ s_scope x = z_scope st)).
    { destruct O as [O| ->].
      - destruct (C34_rules o n st F O) as (r & s & M & A & R). destruct (meaning_name _ _ _ _ M) as [MN MS].
        assert (SS : s_scope s = z_scope st).
        { rewrite MS. unfold assumedScopeOf. rewrite (proj2 (local_spec n) LN). reflexivity. }
        assert (X : exists s', at_ st1 r s' /\ s_scope s' = s_scope s /\
          (forall q x, q <> r -> at_ st1 q x <-> at_ st q x) /\ z_scope st1 = z_scope st).
        { destruct (accepted o st s) eqn:AC.
          - destruct (A eq_refl) as (st2 & s' & H1 & _ & H3 & (_ & H4 & _) & H5 & _ & H6).
            assert (st2 = st1) by congruence. subst st2. exists s'.
            split; [exact H3|]. split; [exact H4|]. split; [exact H5|]. apply H6. right; exact LN.
          - destruct (R eq_refl) as (st2 & s' & e & H1 & _ & H3 & H4 & H5 & H6); [right; exists st1; exact S1|].
            assert (st2 = st1) by congruence. subst st2. exists s'. split; [exact H3|]. split; [|auto].
            destruct H4 as [->|(_ & _ & _ & H4)]; [reflexivity|apply H4]. }
        destruct X as (s' & X1 & X2 & X3 & X4). split; [exact X4|]. split.
        + intros q x Q1 Q2. apply X3; [|exact Q1]. refine (meaning_other _ _ _ _ q x F M Q1 _). right. congruence.
        + intros q x Q1. destruct (Nat.eq_dec q r) as [->|N].
          * right. assert (x = s') by (unfold at_ in *; congruence). subst x. congruence.
          * left. apply X3; assumption.
      - cbn [sstep] in S1. inversion S1; subst. destruct (findOrCreateSymbol n st) as [r st1] eqn:Q. cbn [snd] in *.
        destruct (meaning_foc _ _ _ _ F Q) as (s & M & A & N & SN & FF & F1 & RS & SC & SE & ER & FR & A1 & A2).
        assert (SS : s_scope s = z_scope st).
        { rewrite SN. unfold assumedScopeOf. rewrite (proj2 (local_spec n) LN). reflexivity. }
        split; [exact SC|]. split.
        + intros q x Q1 Q2. apply FR; [|exact Q1]. refine (meaning_other _ _ _ _ q x F M Q1 _). right. congruence.
        + intros q x Q1. destruct (Nat.eq_dec q r) as [->|NE].
          * right. assert (x = s) by (unfold at_ in *; congruence). subst x. exact SS.
          * left. apply FR; assumption. }
    destruct K as (K1 & K2 & K3). destruct (IH st1 st' (step_total_fine _ _ _ F S1) L' H) as (I1 & I2 & I3).
    rewrite K1 in *. split; [exact I1|]. split; [auto|]. intros q x X. destruct (I3 q x X) as [Y|Y]; auto.
Qed.
Print Assumptions C35_private.

(** A global label begins a scope: there every local name not used in that scope yet can
    be defined, whatever the same name means in other scopes, and the symbols of the
    other scopes stay. *)
Theorem C35_reuse : forall a n d st, symbols_fine st -> ~ is_local a -> is_local n -> z_section st <> None ->
  d = OLabel n \/ (exists v, d = OEqu n v) \/ (exists v, d = OSet n v) ->
  (forall r s, seen st a r s -> s_type s = SymUndefined /\
     forall q x, at_ st q x -> s_scope x = Some r -> s_type x = SymUndefined) ->
  (forall q x, at_ st q x -> s_scope x <> Some (length (z_syms st))) ->
  exists st' r q sa x, srun [OLabel a; d] st = Ok st' /\ z_errors st' = z_errors st /\
    at_ st' r sa /\ s_name sa = a /\ z_scope st' = Some r /\
    seen st' n q x /\ s_scope x = Some r /\ s_type x <> SymUndefined /\
    (forall p y, p <> r -> p <> q -> at_ st' p y <-> at_ st p y) /\
    (forall y, at_ st q y -> s_scope y = Some r).
Proof.
  intros a n d st F NA LN ZS D H1 H2.
  destruct (define_shape (OLabel a) a st F eq_refl) as (r & s & M & A & _). destruct (meaning_name _ _ _ _ M) as [MN MS].
  assert (T : s_type s = SymUndefined) by (destruct M as [M|(_ & _ & M)]; [apply (H1 r s M)|apply M]).
  destruct A as (s1 & sa & HA & EA & AA & BA & FA & SA & RA & ZA).
  { unfold accepted. rewrite T. cbn. destruct (z_section st); congruence || reflexivity. }
  assert (LA : isLocalName a = false) by (destruct (isLocalName a) eqn:E; [exfalso; apply NA, local_spec, E|reflexivity]).
  rewrite LA in SA. cbn in SA. pose proof (step_total_fine _ _ _ F HA) as F1.
  assert (DN : op_name d = Some n) by (destruct D as [->|[[v ->]|[v ->]]]; reflexivity).
  destruct (define_shape d n s1 F1 DN) as (q & x0 & M2 & A2 & _). destruct (meaning_name _ _ _ _ M2) as [MN2 MS2].
  assert (LB : isLocalName n = true) by (apply local_spec; exact LN).
  unfold assumedScopeOf in MS2. rewrite LB, SA in MS2.
  destruct BA as (BA1 & BA2 & BA3). unfold assumedScopeOf in MS. rewrite LA in MS.
  assert (QR : q <> r).
  { intro E. refine (meaning_other _ _ _ _ r sa F1 M2 AA _ (eq_sym E)). right. congruence. }
  assert (NS : forall y, at_ st q y -> s_scope y = Some r).
  { intros y Y. apply FA in Y; [|exact QR]. destruct M2 as [(M2 & _)|(_ & M2 & _)].
    - assert (y = x0) by (unfold at_ in *; congruence). subst y. exact MS2.
    - apply nth_error_Some_lt in Y. lia. }
  assert (T2 : s_type x0 = SymUndefined).
  { destruct M2 as [M2|(_ & _ & M2)]; [|apply M2]. destruct M2 as (M2 & _). apply FA in M2; [|exact QR].
    destruct M as [M|(_ & M & _)]; [apply (proj2 (H1 r s M) q x0 M2 MS2)|]. exfalso. subst r. apply (H2 q x0 M2 MS2). }
  destruct A2 as (st' & x & HB & EB & AB & BB & FB & SB & RB & ZB).
  { unfold accepted. rewrite T2, ZA. destruct D as [->|[[v ->]|[v ->]]]; cbn; try reflexivity. destruct (z_section st); congruence || reflexivity. }
  destruct BB as (BB1 & BB2 & BB3).
  exists st', r, q, sa, x. split; [cbn [srun]; rewrite HA; cbn [bind]; rewrite HB; reflexivity|].
  split; [congruence|]. split; [apply FB; [congruence|exact AA]|]. split; [congruence|].
  assert (SC : z_scope st' = Some r) by (rewrite SB, LB, andb_false_r; exact SA).
  split; [exact SC|]. split.
  { split; [exact AB|]. split; [congruence|]. split; [congruence|tauto]. }
  split; [congruence|]. split.
  { destruct D as [->|[[v ->]|[v ->]]]; cbn in BB3.
    - rewrite ZA in BB3. destruct (z_section st) as [[k b]|]; [|tauto]. destruct BB3 as [BB3 _]. destruct (fixed_address b); destruct BB3 as [-> _]; discriminate.
    - destruct BB3 as [-> _]. discriminate.
    - destruct BB3 as [-> _]. discriminate. }
  split; [|exact NS]. intros p y P1 P2. rewrite FB by exact P2. apply FA, P1.
Qed.
Print Assumptions C35_reuse.

Example C35_case :
  let st := state_of (source ++ [OLabel [100]; OLabel nm_x; OSet nm_x 0]) in
  z_errors st = [ERROR_MODIFY_SYMBOL] /\
  map (fun r => show (nth_error (z_syms st) r)) [1; 4; 5]%nat =
    [Some (nm_x, Some 0%nat, SymLabel, 4, false); Some ([100], None, SymLabel, 4, false); Some (nm_x, Some 4%nat, SymLabel, 4, false)].
Proof. vm_compute. auto. Qed.

(** The manual says that a scope ends at the next global label; an EQU ends it too. *)
Theorem C35_equ_scope_refuted : exists st,
  srun ([OPosition (Some 1) 1; OSection (Some (0%nat, code_sect)); OLabel nm_a; OLabel nm_x; OEqu nm_b 7]) sinitial = Ok st /\
  z_errors st = [] /\ (exists r s, at_ st r s /\ s_name s = nm_x /\ s_type s = SymLabel) /\
  forall r s, ~ seen st nm_x r s.
Proof.
  exists (state_of [OPosition (Some 1) 1; OSection (Some (0%nat, code_sect)); OLabel nm_a; OLabel nm_x; OEqu nm_b 7]).
  split; [vm_compute; reflexivity|]. split; [vm_compute; reflexivity|]. split.
  - exists 1%nat. eexists. split; [vm_compute; reflexivity|]. split; reflexivity.
  - intros r s (A & N & C & _).
    assert (L : is_local nm_x) by (apply local_spec; reflexivity). specialize (C L).
    unfold at_ in A. destruct r as [|[|[|r]]]; [vm_compute in A; inversion A; subst; vm_compute in N; discriminate| |vm_compute in A; inversion A; subst; vm_compute in N; discriminate|destruct r; vm_compute in A; discriminate].
    vm_compute in A. inversion A; subst. vm_compute in C. discriminate.
Qed.
Print Assumptions C35_equ_scope_refuted.

(** The first RS directive of a source ends the scope as well. *)
Theorem C35_rs_scope_refuted : exists st,
  srun ([OPosition (Some 1) 1; OSection (Some (0%nat, code_sect)); OLabel nm_a; ORsSkip 1 1]) sinitial = Ok st /\
  z_errors st = [] /\ z_scope st <> Some 0%nat /\ exists s, at_ st 0 s /\ s_name s = nm_a.
Proof.
  exists (state_of [OPosition (Some 1) 1; OSection (Some (0%nat, code_sect)); OLabel nm_a; ORsSkip 1 1]).
  split; [vm_compute; reflexivity|]. split; [vm_compute; reflexivity|]. split; [vm_compute; discriminate|].
  eexists. split; [vm_compute; reflexivity|reflexivity].
Qed.
Print Assumptions C35_rs_scope_refuted.

(** ** C41: RS *)

(** RSSET v and a list of members: each member is the initial value plus the sizes of
    the members before it, and the counter ends as the total. *)
Theorem C41_offsets : forall v l st, symbols_fine st -> counter_ready st -> sizes_fit v l ->
  NoDup (map m_name l) ->
  (forall m, In m l -> ~ is_local (m_name m) /\ m_name m <> rs_name /\ available st None (m_name m)) ->
  exists st', srun (ORsSet v :: map member_op l) st = Ok st' /\ z_errors st' = z_errors st /\
    Forall2 (fun m w => has_value st' None (m_name m) w) l (offsets v l) /\
    has_value st' None rs_name (v + total l).
Proof.
  intros v l st F C SF ND H. destruct (setrs_ok v st F C) as (st1 & r & H1 & F1 & E1 & C1 & K1).
  destruct (members_run l st1 r v F1 C1) as (st' & H2 & F2 & E2 & C2 & V2 & _); auto.
  { intros m M. destruct (H m M) as (A1 & A2 & A3). split; [exact A1|]. split; [exact A2|].
    intros q x X1 X2 X3. destruct (Nat.eq_dec q r) as [->|N].
    - exfalso. destruct C1 as (_ & c & CA & CN & _). assert (x = c) by (unfold at_ in *; congruence). subst x. congruence.
    - apply K1 in X1; [|exact N]. exact (A3 q x X1 X2 X3). }
  exists st'. split; [cbn [srun sstep]; rewrite H1; exact H2|]. split; [congruence|]. split; [exact V2|].
  destruct (counter_fine _ _ _ F2 C2) as (c & _ & A & N & S1 & V & T & _). exists r, c. auto.
Qed.
Print Assumptions C41_offsets.

(** The same as a structure: the members are local to the structure's name, and that
    name ends as the value after the last member. *)
Theorem C41_structure : forall s v l st, symbols_fine st -> counter_ready st -> sizes_fit v l ->
  ~ is_local s -> s <> rs_name ->
  (forall q x, at_ st q x -> s_name x = s -> s_scope x = None -> s_type x = SymUndefined /\
     forall p y, at_ st p y -> s_scope y = Some q -> s_type y = SymUndefined) ->
  (forall q x c, at_ st q x -> s_scope x = Some c -> (c < length (z_syms st))%nat) ->
  NoDup (map m_name l) -> (forall m, In m l -> dotted (m_name m)) ->
  exists st' b x, srun (ORsLabel s v :: map member_op l ++ [ORsEnd]) st = Ok st' /\ z_errors st' = z_errors st /\
    at_ st' b x /\ s_name x = s /\ s_scope x = None /\ s_value x = v + total l /\ s_type x = SymStructure /\
    Forall2 (fun m w => has_value st' (Some b) (m_name m) w) l (offsets v l).
Proof.
  intros s v l st F C SF NL NR HS HC ND HD. destruct (setrs_ok v st F C) as (st1 & r & H1 & F1 & E1 & C1 & K1).
  assert (LB : isLocalName s = false) by (destruct (isLocalName s) eqn:E; [exfalso; apply NL, local_spec, E|reflexivity]).
  assert (DB : isDotLocalName s = false).
  { destruct (isDotLocalName s) eqn:E; [|reflexivity]. apply dot_local in E. congruence. }
  assert (CR : forall x, at_ st1 r x -> s_name x = rs_name).
  { intros x X. destruct C1 as (_ & c & CA & CN & _). assert (x = c) by (unfold at_ in *; congruence). subst x. exact CN. }
  destruct (integer_ok SymStructure s v st1 F1) as (b & sb & st2 & M & H2 & F2 & E2 & R2 & S2 & (x & X1 & X2 & X3 & X4 & X5) & FR); [discriminate| |].
  { intros q x (Q1 & Q2 & _ & Q4). left. destruct (Nat.eq_dec q r) as [->|N]; [exfalso; apply NR; rewrite <- Q2; apply CR, Q1|].
    apply K1 in Q1; [|exact N]. exact (proj1 (HS q x Q1 Q2 (Q4 NL))). }
  rewrite LB in S2. unfold assumedScopeOf in X3. rewrite LB in X3.
  assert (BR : b <> r).
  { intro E. subst b. destruct C1 as (_ & c & CA & CN & CS & _). refine (meaning_other _ _ _ _ r c F1 M CA _ eq_refl). left. congruence. }
  assert (C2 : counter_is st2 r v).
  { destruct C1 as (CR1 & c & CA & CN & CS & CV). split; [congruence|]. exists c. split; [apply FR; [congruence|exact CA]|auto]. }
  assert (AV : forall m, In m l -> dotted (m_name m) /\ available st2 (Some b) (m_name m)).
  { intros m IM. split; [apply HD, IM|]. intros q y Q1 Q2 Q3. left.
    assert (QB : q <> b) by (intro E; subst q; assert (y = x) by (unfold at_ in *; congruence); congruence).
    apply FR in Q1; [|exact QB].
    assert (QR : q <> r).
    { intro E. subst q. destruct C1 as (_ & c & CA & CN & CS & _). assert (y = c) by (unfold at_ in *; congruence). congruence. }
    apply K1 in Q1; [|exact QR].
    destruct M as [M|(_ & M & _)].
    - destruct M as (M1 & M2 & _ & M4). apply K1 in M1; [|exact BR]. exact (proj2 (HS b sb M1 M2 (M4 NL)) q y Q1 Q3).
    - exfalso. pose proof (HC q y b Q1 Q3) as L.
      assert (E : (length (z_syms st) <= length (z_syms st1))%nat).
      { assert (EV : evo st st1) by (eapply setrs_fine; eassumption). apply EV. }
      lia. }
  destruct (fields_run l st2 r v b x F2 C2 S2 X1 X4 X3 X5 AV ND SF)
    as (st3 & x' & H3 & F3 & E3 & S3 & C3 & B3 & T3 & N3 & SC3 & V3 & O3 & _).
  destruct (counter_fine _ _ _ F3 C3) as (c & CR3 & CA & CN & CS & CV & CT & _).
  exists (with_zscope None (put_sym b (set_value (v + total l) x') st3)), b, (set_value (v + total l) x').
  split.
  { cbn [srun sstep]. unfold createRsSetSymbol. rewrite H1. cbn [bind]. rewrite DB. unfold sym_CreateStructure. rewrite H2. cbn [bind].
    rewrite srun_app, H3. cbn [bind srun sstep]. unfold sym_EndStructure. rewrite S3, (proj2 (the_sym_ok b st3 x') B3). cbn [bind].
    rewrite T3. cbn [symtype_eqb]. rewrite CR3, (proj2 (the_sym_ok r st3 c) CA). cbn [bind]. rewrite CV. reflexivity. }
  split; [cbn; congruence|]. split; [apply (put_at st3 b x' _ B3)|]. split; [rewrite <- X2; exact N3|]. split; [exact SC3|]. split; [reflexivity|].
  split; [exact T3|].
  clear - O3 B3 T3. generalize (v + total l). intro tl. induction O3 as [|m w l' o' (q & y & Y1 & Y2 & Y3 & Y4 & Y5) _ IH]; [constructor|]. constructor; [|exact IH].
  clear IH. exists q, y. split; [|auto].
  change (at_ (put_sym b (set_value tl x') st3) q y). apply put_at_other; [|exact Y1].
  intro E. subst q. assert (y = x') by (unfold at_ in *; congruence). congruence.
Qed.
Print Assumptions C41_structure.

Definition fields : list member := [([46; 112], 4, 1); ([46; 119], 2, 3); ([46; 98], 1, 249)].
Definition items : list member := [([112], 4, 1); ([119], 2, 3); ([98; 98], 1, 249)].
Example C41_case :
  (let st := state_of (source ++ ORsSet 0 :: map member_op items) in
   z_errors st = [] /\ offsets 0 items = [0; 4; 10] /\ total items = 259 /\
   map (fun r => show (nth_error (z_syms st) r)) [4; 5; 6; 7]%nat =
     [Some (rs_name, None, SymSet, 259, false); Some ([112], None, SymSet, 0, false); Some ([119], None, SymSet, 4, false);
      Some ([98; 98], None, SymSet, 10, false)]) /\
  (let st := state_of (source ++ ORsLabel [115] 16 :: map member_op fields ++ [ORsEnd]) in
   z_errors st = [] /\ map (fun r => show (nth_error (z_syms st) r)) [5; 6; 7; 8]%nat =
     [Some ([115], None, SymStructure, 275, false); Some ([46; 112], Some 5%nat, SymSet, 16, false);
      Some ([46; 119], Some 5%nat, SymSet, 20, false); Some ([46; 98], Some 5%nat, SymSet, 26, false)]).
Proof. vm_compute. auto 10. Qed.
Lemma C41_case_hypotheses : symbols_fine (state_of source) /\ counter_ready (state_of source) /\
  sizes_fit 0 items /\ NoDup (map m_name items).
Proof.
  split; [apply (C34_reachable source); vm_compute; reflexivity|]. split.
  - left. split; [vm_compute; reflexivity|]. intros q x A N _. exfalso. unfold at_ in A.
    destruct q as [|[|[|[|q]]]]; [| | | |destruct q; vm_compute in A; discriminate]; vm_compute in A; inversion A; subst; vm_compute in N; discriminate.
  - split; [unfold items, sizes_fit, m_size, is_s32; cbn [fst snd]; lia|].
    unfold items, m_name. cbn [map fst]. repeat (constructor; [cbn; intuition discriminate|]). constructor.
Qed.

(** The manual says that a structure has a member .SIZEOF.  It is never defined. *)
Theorem C41_sizeof_refuted : exists st, srun (source ++ ORsLabel [115] 0 :: map member_op fields ++ [ORsEnd]) sinitial = Ok st /\
  z_errors st = [] /\ forall q x, at_ st q x -> s_name x <> [46; 83; 73; 90; 69; 79; 70].
Proof.
  exists (state_of (source ++ ORsLabel [115] 0 :: map member_op fields ++ [ORsEnd])).
  split; [vm_compute; reflexivity|]. split; [vm_compute; reflexivity|].
  intros q x A N. unfold at_ in A.
  do 9 (destruct q as [|q]; [vm_compute in A; inversion A; subst; vm_compute in N; discriminate|]).
  destruct q; vm_compute in A; discriminate.
Qed.
Print Assumptions C41_sizeof_refuted.

(** Purging the counter and using it again reads a symbol that was freed; giving its
    name to an EQU first makes the first RS directive follow a null pointer. *)
Theorem C41_purge_refuted : forall v,
  srun [OPosition (Some 1) 1; ORsSet 0; OPurge rs_name; ORsSet v] sinitial = UB /\
  srun [OPosition (Some 1) 1; OEqu rs_name v; ORsSet 0] sinitial = UB.
Proof. intro v. split; reflexivity. Qed.
Print Assumptions C41_purge_refuted.

(** Offsets that leave 32 bits are undefined behaviour, not an error. *)
Theorem C41_overflow_refuted : srun [OPosition (Some 1) 1; ORsSet (2 ^ 31 - 1); ORs [112] 1 1] sinitial = UB.
Proof. vm_compute. reflexivity. Qed.
Print Assumptions C41_overflow_refuted.
