(** Proofs about the linker's reader of ELF objects: reading and resolving the sections. *)
From Coq Require Import String ZArith List Bool Lia ZifyBool ZifyNat Sorted.
From Verif Require Import Base BaseFacts Arith AssignModel LinkExprModel LinkModel LinkSpec ResolveProofs ObjModel
  MdefModel ElfModel ElfSpec ElfProofs ElfProofs2 ElfReadModel ElfReadSpec ElfReadProofs.
Import ListNotations.
Open Scope string_scope.
Open Scope list_scope.
Open Scope Z_scope.

Record told (big : bool) (f : list Z) (o : eobject) (hs : list shdr) (names : Z) (hn : shdr) (symtab : Z) (hsym hstr : shdr) (idx : list Z) : Prop := {
  td_elf : elf32 big 4 f hs names;
  td_names : nth_error hs (Z.to_nat names) = Some hn /\ 0 < names < 0xff00 /\ sh_type hn = 3 /\ inside f hn;
  td_idx : length idx = length (eo_sections o) /\ StronglySorted Z.lt idx /\ Forall (fun i => 0 < i < 0xff00) idx;
  td_sections : forall k t i, nth_error (eo_sections o) k = Some t -> nth_error idx k = Some i ->
       exists h, nth_error hs (Z.to_nat i) = Some h /\ section_says f (contents f hn) h t;
  td_alloc : forall i h, nth_error hs i = Some h -> sh_type h = 1 \/ sh_type h = 8 -> Z.testbit (sh_flags h) 1 = true -> In (Z.of_nat i) idx;
  td_symtab : nth_error hs (Z.to_nat symtab) = Some hsym /\ 0 < symtab < 0xff00 /\ sh_type hsym = 2 /\ inside f hsym /\ sh_entsize hsym = 16 /\
     sh_size hsym = 16 * (1 + zlen (eo_symbols o));
  td_strtab : nth_error hs (Z.to_nat (sh_link hsym)) = Some hstr /\ 0 < sh_link hsym < 0xff00 /\ sh_type hstr = 3 /\ inside f hstr /\
     string_at (contents f hstr) 0 [];
  td_null : slice f (sh_offset hsym) 16 = repeat 0 16;
  td_syms : forall j y, nth_error (eo_symbols o) j = Some y -> symbol_at big f (contents f hstr) idx (sh_offset hsym + 16 * (1 + Z.of_nat j)) y;
  td_info : 1 <= sh_info hsym <= 1 + zlen (eo_symbols o) /\
     (forall j y, nth_error (eo_symbols o) j = Some y -> ey_global y = (sh_info hsym <=? 1 + Z.of_nat j));
  td_one : forall i h, nth_error hs i = Some h -> sh_type h = 2 -> Z.of_nat i = symtab;
  td_rela : forall i h, nth_error hs i = Some h -> sh_type h = 4 ->
       exists k t, nth_error idx k = Some (sh_info h) /\ nth_error (eo_sections o) k = Some t /\
         sh_link h = symtab /\ inside f h /\ sh_entsize h = 12 /\ sh_size h = 12 * zlen (et_relocs t) /\
         forall j r, nth_error (et_relocs t) j = Some r -> reloc_at big f (sh_offset h + 12 * Z.of_nat j) r;
  td_relone : forall i i' h h', nth_error hs i = Some h -> nth_error hs i' = Some h' -> sh_type h = 4 -> sh_type h' = 4 ->
       sh_info h = sh_info h' -> i = i';
  td_relall : forall k t, nth_error (eo_sections o) k = Some t -> et_relocs t <> [] ->
       exists i h, nth_error hs i = Some h /\ sh_type h = 4 /\ nth_error idx k = Some (sh_info h);
  td_norel : forall i h, nth_error hs i = Some h -> sh_type h <> 9;
  td_named : forall i h, nth_error hs i = Some h -> exists n, string_at (contents f hn) (sh_name h) n;
  td_strings : forall i h, nth_error hs i = Some h -> sh_type h = 3 -> inside f h;
  td_other : forall i h, nth_error hs i = Some h -> sh_type h = 1 -> Z.testbit (sh_flags h) 1 = false -> sh_flags h = 0 \/ Z.testbit (sh_flags h) 5 = true;
  td_nobits : forall i h, nth_error hs i = Some h -> sh_type h = 8 -> Z.testbit (sh_flags h) 1 = true }.
Lemma says_told : forall big f o, elf_says big 4 f o -> exists hs names hn symtab hsym hstr idx, told big f o hs names hn symtab hsym hstr idx.
Proof.
  intros big f o [(hs & names & hn & symtab & hsym & hstr & idx & E & N & I & S0 & A & (Y1 & Y2 & Y3 & Y4 & Y5 & Y6 & Y7 & Y8 & Y9 & Y10 & Y11 & Y12 & Y13 & Y14 & Y15)
    & O & R & R1 & R2 & NR & NM & ST & OT & NB)].
  exists hs, names, hn, symtab, hsym, hstr, idx. split; auto; tauto.
Qed.

Definition final_symbol (idx : list Z) (y : esymbol) (x : rsym) : Prop :=
  rs_name x = ey_name y /\ rs_nameindex x <> 0 /\ rs_value x = u32 (ey_value y) /\ rs_type x <> STT_SECTION /\
  match ey_where y with
  | Undefined => rs_shndx x = 0 /\ rs_section x = None
  | Absolute => rs_shndx x = 0xfff1 /\ rs_section x = None
  | Within k => exists i, nth_error idx k = Some i /\ rs_shndx x = i /\ rs_section x = Some (Z.to_nat i)
  end.

Section Told.
Variable big : bool.
Variable f : list Z.
Variable o : eobject.
Variable hs : list shdr.
Variable names : Z.
Variable hn : shdr.
Variable symtab : Z.
Variable hsym hstr : shdr.
Variable idx : list Z.
Hypothesis T : told big f o hs names hn symtab hsym hstr idx.
Hypothesis LF : zlen f < 2 ^ 32.

(** ** Reading *)
Definition read_data (h : shdr) (d : edata) : Prop :=
  (sh_type h = 1 \/ sh_type h = 8 -> exists b, d = DBits b /\ (sh_type h = 1 -> Z.testbit (sh_flags h) 1 = true -> b = contents f h)) /\
  (sh_type h = 2 -> exists ys, d = DSymbols ys /\ length ys = S (length (eo_symbols o)) /\ nth_error ys 0 = Some (RSym [] None 0 0 0 0) /\
     forall j x y, nth_error ys (S j) = Some x -> nth_error (eo_symbols o) j = Some y -> raw_symbol (contents f hstr) idx y x) /\
  (sh_type h = 4 -> exists k t rs, nth_error idx k = Some (sh_info h) /\ nth_error (eo_sections o) k = Some t /\
     sh_link h = symtab /\ d = DRela None 0 rs /\ Forall2 raw_reloc (et_relocs t) rs) /\
  (sh_type h = 3 -> d = DStrings (contents f h)) /\
  (sh_type h <> 1 -> sh_type h <> 8 -> sh_type h <> 2 -> sh_type h <> 4 -> sh_type h <> 3 -> d = DNone).
Lemma testbit_land : forall v, (Z.land v 2 =? 0) = negb (Z.testbit v 1).
Proof.
  intro v. destruct (Z.testbit v 1) eqn:B; cbn [negb].
  - destruct (Z.land v 2 =? 0) eqn:E; [|reflexivity]. apply Z.eqb_eq in E. assert (Q : Z.testbit (Z.land v 2) 1 = false) by (rewrite E; reflexivity).
    rewrite Z.land_spec, B in Q. discriminate.
  - apply Z.eqb_eq. apply Z.bits_inj'. intros n N. rewrite Z.land_spec, Z.bits_0. destruct (Z.eq_dec n 1) as [->|D]; [rewrite B; reflexivity|].
    assert (Q : Z.testbit 2 n = false) by (apply (Z.pow2_bits_false 1); lia). rewrite Q. apply andb_false_r.
Qed.
Lemma readSection_ok : forall i h, nth_error hs i = Some h -> exists d, readSection f big h = Ok d /\ read_data h d.
Proof.
  intros i h I. destruct T as [EL NM [IL [IS IR]] SE AL [ST1 [ST2 [ST3 [ST4 [ST5 ST6]]]]] [SR1 [SR2 [SR3 [SR4 SR5]]]] NU SY [IN1 IN2] ON RA RO RL NR ND SG OT NB].
  unfold readSection, SHT_PROGBITS, SHT_NOBITS, SHT_STRTAB, SHT_SYMTAB, SHT_RELA, SHT_REL, SHF_ALLOC. rewrite testbit_land, negb_involutive.
  destruct (sh_type h =? 1) eqn:E1.
  { destruct (Z.testbit (sh_flags h) 1) eqn:B.
    - assert (INS : inside f h).
      { pose proof (AL _ _ I ltac:(lia) B) as K. apply In_nth_error in K. destruct K as [k K].
        destruct (nth_error (eo_sections o) k) as [t|] eqn:KT.
        - destruct (SE _ _ _ KT K) as [h' [H' SS]]. rewrite Nat2Z.id in H'. assert (h' = h) by congruence. subst h'.
          destruct SS as [_ [KO [_ [_ [_ D]]]]]. destruct (et_kind t); [apply D|apply D|]. destruct KO as [_ [Q _]]. lia.
        - apply nth_error_None in KT. assert (k < length idx)%nat by (apply nth_error_Some; congruence). lia. }
      rewrite (fread_ok _ _ INS). cbn [bind]. eexists. split; [reflexivity|]. unfold read_data.
      split; [intros _; eexists; split; [reflexivity|auto]|]. repeat split; intros; lia.
    - eexists. split; [reflexivity|]. unfold read_data. split; [intros _; eexists; split; [reflexivity|intros; congruence]|]. repeat split; intros; lia. }
  destruct (sh_type h =? 8) eqn:E8.
  { eexists. split; [reflexivity|]. unfold read_data. split; [intros _; eexists; split; [reflexivity|intros; lia]|]. repeat split; intros; lia. }
  destruct (sh_type h =? 3) eqn:E3.
  { rewrite (fread_ok _ _ (SG _ _ I ltac:(lia))). cbn [bind]. eexists. split; [reflexivity|]. unfold read_data.
    split; [intros; lia|]. split; [intros; lia|]. split; [intros; lia|]. split; [reflexivity|]. intros; lia. }
  destruct (sh_type h =? 2) eqn:E2.
  { pose proof (ON _ _ I ltac:(lia)) as Q. assert (h = hsym) by (rewrite <- Q, Nat2Z.id in ST1; congruence). subst h.
    rewrite ST5. change (16 =? 0) with false. cbn match. rewrite <- ST5.
    destruct ST4 as [O0 [Z0 OL]].
    destruct (entries_ok _ (readSymbol f big) hsym (S (length (eo_symbols o)))
      (fun i x => match i with O => x = RSym [] None 0 0 0 0 | S j => forall y, nth_error (eo_symbols o) j = Some y -> raw_symbol (contents f hstr) idx y x end) 16) as [l [L1 [L2 L3]]].
    - lia. - exact ST5. - rewrite ST6. unfold zlen. lia. - exact O0. - lia.
    - intros [|j] J.
      + rewrite Z.mul_0_r, Z.add_0_r. rewrite (null_symbol _ _ _ NU O0). eauto.
      + destruct (nth_error (eo_symbols o) j) as [y|] eqn:Y; [|apply nth_error_None in Y; lia].
        destruct (readSymbol_ok _ _ _ _ _ _ (SY _ _ Y)) as [x [X1 X2]]. replace (Z.of_nat (S j)) with (1 + Z.of_nat j) by lia. exists x. split; [exact X1|].
        intros y' Y'. injection Y' as <-. exact X2.
    - rewrite L1. cbn [bind]. eexists. split; [reflexivity|]. unfold read_data. split; [intros; lia|]. split; [|repeat split; intros; lia].
      intros _. exists l. split; [reflexivity|]. split; [exact L2|]. split.
      + destruct l as [|x l]; [discriminate|]. cbn [nth_error]. f_equal. apply (L3 0%nat x eq_refl).
      + intros j x y X Y. apply (L3 _ _ X). exact Y. }
  destruct (sh_type h =? 4) eqn:E4.
  { destruct (RA _ _ I ltac:(lia)) as [k [t [K [KT [LK [[O0 [Z0 OL]] [ES [SZ RR]]]]]]]]. rewrite ES. change (12 =? 0) with false. cbn match. rewrite <- ES.
    destruct (entries_ok _ (readRelA f big) h (length (et_relocs t)) (fun i x => forall r, nth_error (et_relocs t) i = Some r -> raw_reloc r x) 12) as [l [L1 [L2 L3]]].
    - lia. - exact ES. - exact SZ. - exact O0. - lia.
    - intros j J. destruct (nth_error (et_relocs t) j) as [r|] eqn:Y; [|apply nth_error_None in Y; lia].
      destruct (readRelA_ok _ _ _ _ (RR _ _ Y)) as [x [X1 X2]]. exists x. split; [exact X1|]. intros r' R'. injection R' as <-. exact X2.
    - rewrite L1. cbn [bind]. eexists. split; [reflexivity|]. unfold read_data. split; [intros; lia|]. split; [intros; lia|]. split; [|split; intros; lia].
      intros _. exists k, t, l. repeat (split; [first [assumption|reflexivity]|]). apply nth_Forall2; [exact L2|]. intros j r x R X. apply (L3 _ _ X _ R). }
  destruct (sh_type h =? 9) eqn:E9; [exfalso; apply (NR _ _ I); lia|].
  eexists. split; [reflexivity|]. unfold read_data. repeat split; intros; lia.
Qed.

(** ** Resolving *)
Definition final_data (h : shdr) (d : edata) : Prop :=
  (sh_type h = 1 \/ sh_type h = 8 -> exists b, d = DBits b /\ (sh_type h = 1 -> Z.testbit (sh_flags h) 1 = true -> b = contents f h)) /\
  (sh_type h = 2 -> exists ys, d = DSymbols ys /\ length ys = S (length (eo_symbols o)) /\
     forall j x y, nth_error ys (S j) = Some x -> nth_error (eo_symbols o) j = Some y -> final_symbol idx y x) /\
  (sh_type h = 4 -> exists k t rs, nth_error idx k = Some (sh_info h) /\ nth_error (eo_sections o) k = Some t /\
     d = DRela (Some (Z.to_nat (sh_info h))) (Z.to_nat symtab) rs /\ Forall2 raw_reloc (et_relocs t) rs) /\
  (sh_type h <> 1 -> sh_type h <> 8 -> sh_type h <> 2 -> sh_type h <> 4 -> match d with DNone | DStrings _ => True | _ => False end).
Definition final_header (h : shdr) (r : rhdr) : Prop :=
  rh_header r = h /\ string_at (contents f hn) (sh_name h) (rh_name r) /\ final_data h (rh_data r).

(** The symbols that relocations are to are there. *)
Hypothesis RS : forall t r, In t (eo_sections o) -> In r (et_relocs t) -> (er_symbol r < length (eo_symbols o))%nat.

Lemma zlen_nth : forall A (l : list A) k a, nth_error l k = Some a -> Z.of_nat k < zlen l.
Proof. intros A l k a H. unfold zlen. assert (k < length l)%nat by (apply nth_error_Some; congruence). lia. Qed.
Lemma idx_bound : forall k i, nth_error idx k = Some i -> 0 < i < 0xff00 /\ i < zlen hs.
Proof.
  intros k i K. destruct T as [_ _ [IL [_ IR]] SE _ _ _ _ _ _ _ _ _ _ _ _ _ _ _]. rewrite Forall_forall in IR. pose proof (IR _ (nth_error_In _ _ K)) as B. split; [exact B|].
  destruct (nth_error (eo_sections o) k) as [t|] eqn:KT.
  - destruct (SE _ _ _ KT K) as [h [H _]]. apply zlen_nth in H. lia.
  - apply nth_error_None in KT. assert (k < length idx)%nat by (apply nth_error_Some; congruence). lia.
Qed.
Lemma getHeader_idx : forall k i (l : list rhdr), nth_error idx k = Some i -> length l = length hs -> getSectionHeader l i = Ok (Some (Z.to_nat i)).
Proof.
  intros k i l K L. destruct (idx_bound _ _ K) as [B1 B2]. unfold getSectionHeader, SHN_ABS. destruct (i =? 65521) eqn:E; [lia|].
  destruct (zlen l <=? i) eqn:Q; [unfold zlen in *; lia|]. destruct (i =? 0) eqn:Z0; [lia|reflexivity].
Qed.
Lemma hs_nonempty : 0 < zlen hs.
Proof. pose proof (el_null _ _ _ _ _ (td_elf _ _ _ _ _ _ _ _ _ _ T)) as N. apply zlen_nth in N. lia. Qed.
Lemma resolveSymbol_ok : forall (l : list rhdr) y x, length l = length hs -> raw_symbol (contents f hstr) idx y x ->
  exists x', resolveSymbol l (contents f hstr) x = Ok x' /\ final_symbol idx y x'.
Proof.
  intros l y x L [N [S0 [NI [NS [V [TY W]]]]]]. unfold resolveSymbol.
  assert (G : exists k, getSectionHeader l (rs_shndx x) = Ok k /\
    match ey_where y with Undefined => k = None | Absolute => k = None | Within _ => k = Some (Z.to_nat (rs_shndx x)) end).
  { pose proof hs_nonempty as HN. destruct (ey_where y) as [| |k].
    - rewrite W. exists None. split; [|reflexivity]. unfold getSectionHeader. change (0 =? SHN_ABS) with false. cbn match.
      destruct (zlen l <=? 0) eqn:Q; [unfold zlen in *; lia|reflexivity].
    - rewrite W. exists None. split; reflexivity.
    - exists (Some (Z.to_nat (rs_shndx x))). split; [apply (getHeader_idx _ _ _ W L)|reflexivity]. }
  destruct G as [k [-> KW]]. cbn [bind]. destruct (rs_type x =? STT_SECTION) eqn:E; [lia|]. cbn [andb].
  rewrite (getString_ok _ _ _ NS). cbn [bind]. eexists. split; [reflexivity|]. unfold final_symbol. cbn [rs_name rs_nameindex rs_value rs_type rs_shndx rs_section].
  repeat (split; [first [reflexivity|assumption]|]). destruct (ey_where y) as [| |k']; [auto|auto|]. exists (rs_shndx x). auto.
Qed.
Lemma resolved_ok : exists R, (let! rs := mapr (fun h => let! d := readSection f big h in Ok (RHdr h [] d)) hs in resolveNamesAndIndices big rs names) = Ok R /\
  length R = length hs /\ forall i h r, nth_error hs i = Some h -> nth_error R i = Some r -> final_header h r.
Proof.
  destruct (mapr_choice _ _ (fun h => let! d := readSection f big h in Ok (RHdr h [] d)) (fun _ h r => rh_header r = h /\ rh_name r = [] /\ read_data h (rh_data r)) hs) as [R0 [E0 [L0 F0]]].
  { intros i h I. destruct (readSection_ok _ _ I) as [d [-> D]]. cbn [bind]. eexists. split; [reflexivity|]. auto. }
  rewrite E0. cbn [bind]. unfold resolveNamesAndIndices, resolveSectionNames.
  pose proof T as TT. destruct TT as [EL [NM1 [NMB [NM2 NM3]]] [IL [IS IR]] SE AL [ST1 [ST2 [ST3 [ST4 [ST5 ST6]]]]] [SR1 [SR2 [SR3 [SR4 SR5]]]] NU SY [IN1 IN2] ON RA RO RL NR ND SG OT NB].
  assert (GS : forall (l : list rhdr) k h, nth_error hs (Z.to_nat k) = Some h -> sh_type h = 3 -> 0 < k < 0xff00 ->
     length l = length hs -> (forall i h r, nth_error hs i = Some h -> nth_error l i = Some r -> rh_header r = h /\ read_data h (rh_data r)) ->
     getStringTable l k = Ok (contents f h)).
  { intros l k h K K3 KB L FL.
    unfold getStringTable, getSectionHeader, SHN_ABS. destruct (k =? 65521) eqn:E; [lia|].
    apply zlen_nth in K as KL. destruct (zlen l <=? k) eqn:Q; [unfold zlen in *; lia|]. destruct (k =? 0) eqn:Z0; [lia|]. cbn [bind].
    destruct (nth_error l (Z.to_nat k)) as [r|] eqn:R1; [|apply nth_error_None in R1; unfold zlen in *; lia].
    destruct (FL _ _ _ K R1) as [_ [_ [_ [_ [D _]]]]]. rewrite (D K3). reflexivity. }
  rewrite (GS R0 names hn NM1 NM2 NMB L0) by (intros i h r I R; destruct (F0 _ _ _ I R) as [A [_ B]]; auto). cbn [bind].
  destruct (mapr_choice _ _ (fun h => let! n := getString (contents f hn) (sh_name (rh_header h)) in Ok (RHdr (rh_header h) n (rh_data h)))
    (fun _ r r' => rh_header r' = rh_header r /\ rh_data r' = rh_data r /\ string_at (contents f hn) (sh_name (rh_header r)) (rh_name r')) R0) as [R1 [E1 [L1 F1]]].
  { intros i r R. assert (IH : exists h, nth_error hs i = Some h).
    { destruct (nth_error hs i) as [h|] eqn:E; [eauto|]. apply nth_error_None in E. assert (i < length R0)%nat by (apply nth_error_Some; congruence). lia. }
    destruct IH as [h I]. destruct (F0 _ _ _ I R) as [A _]. destruct (ND _ _ I) as [n N]. rewrite A, (getString_ok _ _ _ N). cbn [bind].
    eexists. split; [reflexivity|]. cbn [rh_header rh_data rh_name]. auto. }
  rewrite E1. cbn [bind].
  assert (LR : length R1 = length hs) by congruence.
  assert (F2 : forall i h r, nth_error hs i = Some h -> nth_error R1 i = Some r -> rh_header r = h /\ string_at (contents f hn) (sh_name h) (rh_name r) /\ read_data h (rh_data r)).
  { intros i h r I R. assert (exists r0, nth_error R0 i = Some r0) as [r0 I0].
    { destruct (nth_error R0 i) as [h'|] eqn:E; [eauto|]. apply nth_error_None in E. assert (i < length hs)%nat by (apply nth_error_Some; congruence). lia. }
    destruct (F0 _ _ _ I I0) as [A [_ B]]. destruct (F1 _ _ _ I0 R) as [C [D N]]. rewrite A in *. rewrite D. auto. }
  clear E0 E1 F0 F1 L0 L1 R0.
  assert (GY : forall k h, nth_error hs (Z.to_nat k) = Some h -> sh_type h = 2 -> 0 < k < 0xff00 ->
     exists ys, getSymbolTable R1 k = Ok (Z.to_nat k, ys) /\ length ys = S (length (eo_symbols o))).
  { intros k h K K2 KB. unfold getSymbolTable, getSectionHeader, SHN_ABS. destruct (k =? 65521) eqn:E; [lia|].
    apply zlen_nth in K as KL. destruct (zlen R1 <=? k) eqn:Q; [unfold zlen in *; lia|]. destruct (k =? 0) eqn:Z0; [lia|]. cbn [bind].
    destruct (nth_error R1 (Z.to_nat k)) as [r|] eqn:R2; [|apply nth_error_None in R2; unfold zlen in *; lia].
    destruct (F2 _ _ _ K R2) as [_ [_ [_ [D _]]]]. destruct (D K2) as [ys [-> [LY _]]]. exists ys. auto. }
  assert (SR : forall i r, nth_error R1 i = Some r -> exists h, nth_error hs i = Some h).
  { intros i r R. destruct (nth_error hs i) as [h|] eqn:E; [eauto|]. apply nth_error_None in E. assert (i < length R1)%nat by (apply nth_error_Some; congruence). lia. }
  destruct (mapr_choice _ _ (resolveHeader big R1) (fun i r r' => forall h, nth_error hs i = Some h -> final_header h r') R1) as [R [E [L F]]].
  { intros i r R. destruct (SR _ _ R) as [h I]. destruct (F2 _ _ _ I R) as [RH [RN [D1 [D2 [D4 [D3 D0]]]]]]. unfold resolveHeader.
    assert (G : exists d, (match rh_data r with
      | DSymbols l => let! s := getStringTable R1 (sh_link (rh_header r)) in let! l' := mapr (resolveSymbol R1 s) l in Ok (DSymbols l')
      | DRela _ _ l => resolveRelA R1 (rh_header r) l | DRel l => resolveRel big R1 (rh_header r) l | d => Ok d end) = Ok d /\ final_data h d).
    { destruct (Z.eq_dec (sh_type h) 1) as [T1|T1]; [destruct D1 as [b [-> B]]; [auto|]; eexists; split; [reflexivity|]; unfold final_data; split; [eauto|]; repeat split; intros; lia|].
      destruct (Z.eq_dec (sh_type h) 8) as [T8|T8]; [destruct D1 as [b [-> B]]; [auto|]; eexists; split; [reflexivity|]; unfold final_data; split; [eauto|]; repeat split; intros; lia|].
      destruct (Z.eq_dec (sh_type h) 3) as [T3|T3]; [rewrite (D3 T3); eexists; split; [reflexivity|]; unfold final_data; split; [intros; lia|]; split; [intros; lia|]; split; [intros; lia|]; auto|].
      destruct (Z.eq_dec (sh_type h) 2) as [T2|T2].
      { destruct (D2 T2) as [ys [-> [LY [Y0 YS]]]]. pose proof (ON _ _ I T2) as Q. assert (h = hsym) by (rewrite <- Q, Nat2Z.id in ST1; congruence). rewrite RH. clear RH. subst h.
        rewrite (GS R1 _ _ SR1 SR3 SR2 LR) by (intros i' h' r' I' R'; destruct (F2 _ _ _ I' R') as [A [_ B]]; auto). cbn [bind].
        destruct (mapr_choice _ _ (resolveSymbol R1 (contents f hstr)) (fun j x x' => match j with O => True | S j' => forall y, nth_error (eo_symbols o) j' = Some y -> final_symbol idx y x' end) ys) as [ys' [EY [LY' FY]]].
        - intros [|j] x X.
          + rewrite Y0 in X. injection X as <-. unfold resolveSymbol. cbn [rs_shndx rs_type rs_nameindex]. unfold getSectionHeader.
            pose proof hs_nonempty as HN. change (0 =? SHN_ABS) with false. cbn match. destruct (zlen R1 <=? 0) eqn:Q0; [unfold zlen in *; lia|]. cbn [bind].
            change (0 =? STT_SECTION) with false. cbn [andb]. change (0 =? 0) with true. cbn match.
            rewrite (getString_ok _ _ _ SR5). cbn [bind]. eexists. split; [reflexivity|exact Logic.I].
          + destruct (nth_error (eo_symbols o) j) as [y|] eqn:Y.
            * destruct (resolveSymbol_ok R1 _ _ LR (YS _ _ _ X Y)) as [x' [X1 X2]]. exists x'. split; [exact X1|]. intros y' Y'. injection Y' as <-. exact X2.
            * apply nth_error_None in Y. assert (S j < length ys)%nat by (apply nth_error_Some; congruence). lia.
        - rewrite EY. cbn [bind]. eexists. split; [reflexivity|]. unfold final_data. split; [intros; lia|]. split; [|split; intros; lia].
          intros _. exists ys'. split; [reflexivity|]. split; [congruence|]. intros j x y X Y.
          destruct (nth_error ys (S j)) as [x0|] eqn:X0; [apply (FY _ _ _ X0 X _ Y)|]. apply nth_error_None in X0. assert (S j < length ys')%nat by (apply nth_error_Some; congruence). lia. }
      destruct (Z.eq_dec (sh_type h) 4) as [T4|T4].
      { destruct (D4 T4) as [k [t [rs [K [KT [LK [-> FR]]]]]]]. rewrite RH. unfold resolveRelA. rewrite (getHeader_idx _ _ _ K LR). cbn [bind].
        rewrite LK. destruct (GY _ _ ST1 ST3 ST2) as [ys [-> LY]]. cbn [bind].
        assert (EX : existsb (fun r0 => zlen ys <=? rr_symbol r0) rs = false).
        { apply not_true_is_false. intro EX. apply existsb_exists in EX. destruct EX as [x [X Q]]. apply In_nth_error in X. destruct X as [j X].
          destruct (Forall2_nth' _ _ _ _ _ FR _ _ X) as [r0 [R2 RR]]. unfold raw_reloc in RR. subst x. cbn [rr_symbol] in Q.
          pose proof (RS _ _ (nth_error_In _ _ KT) (nth_error_In _ _ R2)). unfold zlen in Q. lia. }
        rewrite EX. eexists. split; [reflexivity|]. unfold final_data. split; [intros; lia|]. split; [intros; lia|]. split; [|intros; lia].
        intros _. exists k, t, rs. auto. }
      rewrite (D0 T1 T8 T2 T4 T3). eexists. split; [reflexivity|]. unfold final_data. repeat split; intros; try lia. }
    destruct G as [d [-> FD]]. cbn [bind]. eexists. split; [reflexivity|]. intros h' I'. assert (h' = h) by congruence. subst h'.
    unfold final_header. cbn [rh_header rh_name rh_data]. auto. }
  exists R. split; [exact E|]. split; [congruence|]. intros i h r I RI. destruct (nth_error R1 i) as [r1|] eqn:X; [apply (F _ _ _ X RI _ I)|].
  apply nth_error_None in X. assert (i < length hs)%nat by (apply nth_error_Some; congruence). lia.
Qed.
End Told.
