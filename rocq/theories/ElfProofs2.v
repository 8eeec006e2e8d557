(** Proofs about the assembler's ELF writer, continued: what the whole file says. *)
From Coq Require Import String ZArith List Bool Lia ZifyBool ZifyNat Permutation Sorted.
From Verif Require Import Base BaseFacts Arith AssignModel LinkModel LinkSpec ResolveProofs ExprSpec ExprTree ExprModel ObjWriteModel FileModel FileProofs
  MdefModel ReportSpec ElfModel ElfSpec ElfProofs.
Import ListNotations.
Open Scope string_scope.
Open Scope list_scope.
Open Scope Z_scope.

(** ** Lists *)
Lemma Forall2_nth : forall A B (R : A -> B -> Prop) l m, Forall2 R l m -> forall k a, nth_error l k = Some a -> exists b, nth_error m k = Some b /\ R a b.
Proof.
  intros A B R l m H. induction H as [|a b l m R0 H IH]; intros [|k] x E; cbn [nth_error] in *; try discriminate.
  - injection E as <-. eauto.
  - apply IH. exact E.
Qed.
Lemma Forall2_nth' : forall A B (R : A -> B -> Prop) l m, Forall2 R l m -> forall k b, nth_error m k = Some b -> exists a, nth_error l k = Some a /\ R a b.
Proof.
  intros A B R l m H. induction H as [|a b l m R0 H IH]; intros [|k] x E; cbn [nth_error] in *; try discriminate.
  - injection E as <-. eauto.
  - apply IH. exact E.
Qed.
Lemma Forall2_len : forall A B (R : A -> B -> Prop) l m, Forall2 R l m -> length l = length m.
Proof. intros A B R l m H. induction H; cbn; auto. Qed.
Lemma nth_choice : forall A B (R : nat -> A -> B -> Prop) (l : list A), (forall k a, nth_error l k = Some a -> exists b, R k a b) ->
  exists m, length m = length l /\ forall k a b, nth_error l k = Some a -> nth_error m k = Some b -> R k a b.
Proof.
  intros A B R l. revert R. induction l as [|a l IH]; intros R H.
  - exists []. split; [reflexivity|]. intros [|k] x b E; discriminate.
  - destruct (H 0%nat a eq_refl) as [b0 R0]. destruct (IH (fun k => R (S k)) (fun k a' E => H (S k) a' E)) as [m [L M]].
    exists (b0 :: m). split; [cbn; lia|]. intros [|k] x b E1 E2; cbn [nth_error] in *; [congruence|]. eapply M; eauto.
Qed.
Lemma nth_Forall2 : forall A B (R : A -> B -> Prop) l m, length m = length l ->
  (forall k a b, nth_error l k = Some a -> nth_error m k = Some b -> R a b) -> Forall2 R l m.
Proof.
  intros A B R. induction l as [|a l IH]; intros [|b m] L H; try discriminate; constructor.
  - apply (H 0%nat); reflexivity.
  - apply IH; [cbn in L; lia|]. intros k x y E1 E2. apply (H (S k)); assumption.
Qed.
Lemma Forall2_split : forall A B C (P : A -> C -> Prop) (Q : C -> B -> Prop) l m, Forall2 (fun a b => exists c, P a c /\ Q c b) l m ->
  exists cs, Forall2 P l cs /\ Forall2 Q cs m.
Proof.
  intros A B C P Q l m H. induction H as [|a b l m [c [P0 Q0]] H [cs [IP IQ]]]; [exists []; split; constructor|].
  exists (c :: cs). split; constructor; assumption.
Qed.
Lemma nth_combine : forall A B (l : list A) (m : list B) k a b, nth_error l k = Some a -> nth_error m k = Some b -> nth_error (combine l m) k = Some (a, b).
Proof.
  intros A B. induction l as [|x l IH]; intros [|y m] [|k] a b E1 E2; cbn in *; try discriminate; [congruence|]. apply IH; assumption.
Qed.
Lemma nth_map_seq : forall k n (g : nat -> Z), (k < n)%nat -> nth_error (map g (seq 0 n)) k = Some (g k).
Proof. intros k n g H. rewrite nth_error_map, nth_error_nth' with (d := 0%nat) by (rewrite seq_length; exact H). rewrite seq_nth by exact H. reflexivity. Qed.
Lemma map_seq_nth : forall k n (g : nat -> Z) i, nth_error (map g (seq 0 n)) k = Some i -> (k < n)%nat /\ i = g k.
Proof.
  intros k n g i H. assert (K : (k < n)%nat). { rewrite <- (seq_length n 0), <- (map_length g). apply nth_error_Some. congruence. }
  split; [exact K|]. rewrite nth_map_seq in H by exact K. congruence.
Qed.

(** ** Relocations *)
Lemma collect_ok : forall A sids ps relocs, collectRelocs A sids ps = Ok relocs ->
  Forall2 (fun x p => ra_offset x = ap_offset p /\ exists s, expr_GetSymbolOffset A (ap_expr p) = Some (ra_addend x, s) /\ ra_info x = u32 (sids s * 256 + 1)) relocs ps.
Proof.
  intros A sids. induction ps as [|p ps IH]; intros relocs H; cbn [collectRelocs] in H; [injection H as <-; constructor|].
  destruct (expr_GetSymbolOffset A (ap_expr p)) as [[off s]|] eqn:E; [|discriminate].
  destruct (collectRelocs A sids ps) as [rs| |] eqn:R; cbn [bind] in H; try discriminate. injection H as <-. constructor; [|apply IH; reflexivity].
  cbn [ra_offset ra_addend ra_info]. split; [reflexivity|]. exists s. auto.
Qed.
Definition same (x : rela) (r : ereloc) : Prop :=
  ra_offset x = er_offset r /\ is_u32 (er_offset r) /\
  ra_info x = (1 + Z.of_nat (er_symbol r)) * 256 + (if er_relative r then 4 else 1) /\ is_u32 (ra_info x) /\ ra_addend x = er_addend r.
Lemma s32_small : forall v, - 2 ^ 31 <= v < 2 ^ 31 -> s32 v = v.
Proof. intros v V. apply s32_id. unfold is_s32. lia. Qed.

Section Said.
Variable F : fmath.
Variable big : bool.
Variable arch : Z.
Variable alignment : Z.
Variable used : nat -> bool.
Variable sorter : forall A : Type, (A -> A -> Z) -> list A -> list A.
Variable A : astate.
Hypothesis SORT : sorts sorter.

Lemma relocs_said : forall sids tb ps relocs,
  collectRelocs A sids ps = Ok relocs ->
  Forall (fun p => 0 <= ap_offset p < 2 ^ 31 /\ ap_type p = PATCH_BE_32 /\ opf (ap_expr p) /\ adds_only (ap_expr p) /\
      forall s, mentions s (ap_expr p) -> used s = true) ps ->
  (forall s, In s tb <-> exists y, nth_error (as_symbols A) s = Some y /\ wanted used s y) ->
  (forall j s, nth_error tb j = Some s -> sids s = 1 + Z.of_nat j) -> zlen tb < 2 ^ 24 - 1 ->
  exists rs ps', Forall2 same (sorter rela compare_rela relocs) rs /\ Permutation ps' ps /\ Forall2 (stands_for F tb) ps' rs /\
    StronglySorted (fun a b => er_offset a <= er_offset b) rs.
Proof.
  intros sids tb ps relocs C FP IN ID LT. pose proof (collect_ok _ _ _ _ C) as CO.
  assert (G : Forall2 (fun x p => exists r, same x r /\ stands_for F tb p r) relocs ps).
  { clear C. revert FP. induction CO as [|x p relocs ps [O [s [E I]]] H IH]; intro FP; [constructor|].
    inversion FP as [|? ? P FP']; subst. constructor; [|apply IH; exact FP']. destruct P as [PO [PT [OP [AD US]]]].
    destruct (symbol_symbolic _ _ _ _ E) as [SY UA]. destruct (symbol_means F A _ OP AD _ _ E) as [M D].
    assert (W : In s tb).
    { apply IN. unfold isSymbolic, isImport, symbolOf in SY. destruct (nth_error (as_symbols A) s) as [y|]; [|discriminate]. exists y. split; [reflexivity|].
      specialize (US _ M). unfold wanted, imported. split; [|auto]. destruct (y_type (ay_sym y)); try discriminate; auto. }
    apply In_nth_error in W. destruct W as [j J]. exists (EReloc (ap_offset p) j false (ra_addend x)).
    assert (LJ : Z.of_nat j < zlen tb). { unfold zlen. apply inj_lt. apply nth_error_Some. congruence. }
    assert (UI : u32 (sids s * 256 + 1) = (1 + Z.of_nat j) * 256 + 1).
    { rewrite (ID _ _ J). apply u32_small. unfold is_u32. clear - LJ LT. lia. }
    split.
    - unfold same. cbn [er_offset er_symbol er_relative er_addend]. split; [exact O|]. split; [unfold is_u32; clear - PO; lia|]. rewrite I, UI.
      split; [reflexivity|]. split; [unfold is_u32; clear - LJ LT; lia|reflexivity].
    - unfold stands_for. cbn [er_offset er_symbol er_relative er_addend]. repeat (split; [auto|]). exists s. split; [exact J|]. split; [exact M|exact D]. }
  assert (AO : an_order compare_rela relocs).
  { assert (CM : forall a b, In a relocs -> In b relocs -> compare_rela a b = ra_offset a - ra_offset b).
    { assert (RG : forall a, In a relocs -> 0 <= ra_offset a < 2 ^ 31).
      { intros a IA. apply In_nth_error in IA. destruct IA as [k K]. destruct (Forall2_nth _ _ _ _ _ CO _ _ K) as [p [P [O _]]].
        rewrite O. apply nth_error_In in P. rewrite Forall_forall in FP. apply FP in P. tauto. }
      intros a b IA IB. unfold compare_rela. apply s32_small. pose proof (RG _ IA). pose proof (RG _ IB). lia. }
    split.
    - intros a b IA IB. rewrite !CM by assumption. lia.
    - intros x y z IX IY IZ. rewrite !CM by assumption. lia. }
  destruct (SORT rela compare_rela relocs AO) as [PE SO]. set (xs := sorter rela compare_rela relocs) in *.
  destruct (Permutation_Forall2 (Permutation_sym PE) G) as [ps' [PP G']].
  assert (G2 : exists rs, Forall2 same xs rs /\ Forall2 (stands_for F tb) ps' rs).
  { destruct (Forall2_split _ _ _ same (fun r p => stands_for F tb p r) _ _ G') as [rs [S1 S2]]. exists rs. split; [exact S1|].
    clear - S2. induction S2; constructor; auto. }
  destruct G2 as [rs [S1 S2]]. exists rs, ps'. split; [exact S1|]. split; [apply Permutation_sym; exact PP|]. split; [exact S2|].
  assert (RG : forall a, In a xs -> 0 <= ra_offset a < 2 ^ 31).
  { intros a IA. apply (Permutation_in _ PE) in IA. apply In_nth_error in IA. destruct IA as [k K]. destruct (Forall2_nth _ _ _ _ _ CO _ _ K) as [p [P [O _]]].
    rewrite O. apply nth_error_In in P. rewrite Forall_forall in FP. apply FP in P. tauto. }
  clear - S1 SO RG. induction S1 as [|x r xs rs S0 S1 IH]; [constructor|]. inversion SO as [|? ? SO' FO]; subst. constructor.
  - apply IH; [exact SO'|]. intros a IA. apply RG. right. exact IA.
  - apply Forall_forall. intros q Q. apply In_nth_error in Q. destruct Q as [k K]. destruct (Forall2_nth' _ _ _ _ _ S1 _ _ K) as [z [Z0 SZ]].
    rewrite Forall_forall in FO. pose proof (nth_error_In _ _ Z0) as IZ. specialize (FO _ IZ). unfold compare_rela in FO.
    pose proof (RG x (or_introl eq_refl)). pose proof (RG z (or_intror IZ)). rewrite s32_small in FO by lia.
    destruct S0 as [<- _]. destruct SZ as [<- _]. lia.
Qed.

Lemma same_at : forall f q x r, same x r -> has f q (rela_bytes big x) -> reloc_at big f q r.
Proof.
  intros f q x r [O [UO [I [UI AD]]]] H. unfold reloc_at. rewrite <- I. unfold words_at. intros i v E.
  assert (W : rela_bytes big x = words big [ra_offset x; ra_info x; ra_addend x]) by (unfold rela_bytes; cbn [words]; rewrite app_nil_r; reflexivity).
  destruct i as [|[|[|i]]]; cbn [nth_error] in E; try (destruct i; discriminate); injection E as <-.
  - rewrite Z.mul_0_r, Z.add_0_r, <- O. apply has_word; [apply (has_first _ _ _ _ H)|]. rewrite O. exact UO.
  - replace (q + 4 * Z.of_nat 1) with (q + zlen (fput_word big (ra_offset x))) by (rewrite fput_word_len; lia).
    apply has_word; [|exact UI]. unfold rela_bytes in H. apply (has_sub _ _ _ _ _ H).
  - rewrite <- AD. unfold rela_bytes in H. apply has_rest in H. apply has_rest in H. rewrite !fput_word_len in H.
    replace (q + 4 * Z.of_nat 2) with (q + 4 + 4) by lia. apply has_word_u. exact H.
Qed.

(** ** A section *)
Lemma section_said : forall f st sids tb w id h rh,
  (forall k l, 52 <= k -> has (ew_out st) k l -> has f k l) -> zlen f < 2 ^ 32 -> zlen (ew_strings st) < 2 ^ 32 ->
  section_ok alignment A w h st -> rel_ok big sorter A sids w id rh st ->
  (no_zero (ws_name w) /\ is_u32 (ws_imagePosition w) /\ is_u32 (ws_align w) /\ is_u32 (ws_usedSpace w) /\
    (forall g, nth_error (as_symbols A) (ws_group w) = Some g -> ay_groupType g = GROUP_TEXT -> zlen (ws_data w) = ws_usedSpace w) /\
    Forall (fun p => 0 <= ap_offset p < 2 ^ 31 /\ ap_type p = PATCH_BE_32 /\ opf (ap_expr p) /\ adds_only (ap_expr p) /\
      forall s, mentions s (ap_expr p) -> used s = true) (ws_patches w)) ->
  (forall s, In s tb <-> exists y, nth_error (as_symbols A) s = Some y /\ wanted used s y) ->
  (forall j s, nth_error tb j = Some s -> sids s = 1 + Z.of_nat j) -> zlen tb < 2 ^ 24 - 1 ->
  exists t, section_says f (ew_strings st) h t /\ says_section F A alignment tb w t /\
    inside f rh /\ sh_size rh = 12 * zlen (et_relocs t) /\
    (forall j r, nth_error (et_relocs t) j = Some r -> reloc_at big f (sh_offset rh + 12 * Z.of_nat j) r).
Proof.
  intros f st sids tb w id h rh KEEP LF LS [[g [G [HT [HF [HD HB]]]]] [n [HN [N0 NH]]] HA HS HL HAL] [RC RN [relocs [o [CR [RO [R5 [RH RS]]]]]]]
    [NZ [UP [UA [UU [DL FP]]]]] IN ID LT.
  destruct (relocs_said _ _ _ _ CR FP IN ID LT) as [rs [ps' [SM [PE [SF SS]]]]].
  set (xs := sorter rela compare_rela relocs) in *.
  assert (LR : zlen rs = zlen xs) by (unfold zlen; rewrite (Forall2_len _ _ _ _ _ SM); reflexivity).
  pose proof (KEEP _ _ R5 RH) as RHF. pose proof (has_len _ _ _ RHF) as [O0 OL]. rewrite (concat_len _ _ 12) in OL by apply rela_len.
  pose proof (zlen_nonneg _ xs) as XN.
  assert (UO : u32 o = o) by (apply u32_small; unfold is_u32; lia).
  assert (US : u32 (12 * zlen xs) = 12 * zlen xs) by (apply u32_small; unfold is_u32; lia).
  assert (REST : inside f rh /\ sh_size rh = 12 * zlen rs /\ (forall j r, nth_error rs j = Some r -> reloc_at big f (sh_offset rh + 12 * Z.of_nat j) r)).
  { rewrite RS, US, LR. split; [unfold inside; rewrite RO, RS, US, UO; lia|]. split; [reflexivity|]. intros j r J.
    destruct (Forall2_nth' _ _ _ _ _ SM _ _ J) as [x [X S0]]. rewrite RO, UO. apply (same_at _ _ x); [exact S0|].
    apply (has_concat _ _ 12 xs); [lia|apply rela_len|exact RHF|exact X]. }
  assert (UN : u32 n = n).
  { apply u32_small. apply has_len in NH. destruct NH as [_ NH]. rewrite zlen_app in NH. pose proof (zlen_nonneg _ (ws_name w)). change (zlen [0]) with 1 in NH. unfold is_u32. lia. }
  assert (NM : string_at (ew_strings st) (sh_name h) (ws_name w)) by (rewrite HN, UN; apply has_string; assumption).
  destruct (ay_groupType g =? 0) eqn:T.
  - assert (T0 : ay_groupType g = 0) by lia. destruct (HD T0) as [d [od [CP [OO [O5 DH]]]]].
    pose proof (KEEP _ _ O5 DH) as DHF. pose proof (has_len _ _ _ DHF) as [OD0 ODL].
    assert (UD : u32 od = od) by (apply u32_small; unfold is_u32; pose proof (zlen_nonneg _ d); lia).
    destruct (clearPatches_ok _ _ _ CP) as [DLen [DB _]]. { eapply Forall_impl; [|exact FP]. cbn. intros p P. lia. }
    specialize (DL _ G T0).
    exists (ESection (ws_name w) (if ay_data g then EData else ECode) (sh_addr h) (sh_addralign h) (sh_size h) d rs).
    split; [|split; [|exact REST]].
    + unfold section_says. cbn [et_name et_kind et_addr et_align et_size et_data]. split; [exact NM|]. split.
      { unfold kind_of. rewrite HF, HT. destruct (ay_data g); auto. }
      repeat (split; [reflexivity|]).
      assert (IC : inside f h /\ contents f h = d); [|destruct (ay_data g); exact IC].
      unfold inside, contents. rewrite OO, UD, HS. split; [rewrite <- DL, <- DLen; pose proof (zlen_nonneg _ d); lia|].
      apply (slice_has _ _ _ DHF). lia.
    + unfold says_section. cbn [et_name et_kind et_addr et_align et_size et_data et_relocs]. split; [reflexivity|]. split.
      { exists g. split; [exact G|]. unfold GROUP_TEXT. rewrite T. reflexivity. }
      split; [exact HA|]. split; [exact HAL|]. split; [exact HS|]. split; [intros _; split; [exact DLen|exact DB]|]. split; [exact SS|].
      exists ps'. auto.
  - exists (ESection (ws_name w) EBss (sh_addr h) (sh_addralign h) (sh_size h) [] rs).
    split; [|split; [|exact REST]].
    + unfold section_says. cbn [et_name et_kind et_addr et_align et_size et_data]. split; [exact NM|]. split; [|auto].
      unfold kind_of. rewrite HF, HT. auto.
    + unfold says_section. cbn [et_name et_kind et_addr et_align et_size et_data et_relocs]. split; [reflexivity|]. split.
      { exists g. split; [exact G|]. unfold GROUP_TEXT. rewrite T. reflexivity. }
      split; [exact HA|]. split; [exact HAL|]. split; [exact HS|]. split; [intro Q; exfalso; apply Q; reflexivity|]. split; [exact SS|].
      exists ps'. auto.
Qed.

(** ** A symbol *)
Lemma symbol_said : forall f st ids q y,
  (forall k l, 52 <= k -> has (ew_out st) k l -> has f k l) -> zlen (ew_strings st) < 2 ^ 32 -> 52 <= q -> no_zero (ay_name y) ->
  (forall k i, nth_error ids k = Some i -> 0 <= i < 0xff00) ->
  entry_ok big (placeOf ids) (if ay_export y || imported y then 16 else 0) st q y ->
  exists e, symbol_at big f (ew_strings st) ids q e /\ says_symbol y e.
Proof.
  intros f st ids q y KEEP LS Q5 NZ IDS [n [k [K [N1 [NH O]]]]]. apply KEEP in O; [|exact Q5].
  assert (UN : is_u32 n).
  { apply has_len in NH. destruct NH as [_ NH]. rewrite zlen_app in NH. pose proof (zlen_nonneg _ (ay_name y)). change (zlen [0]) with 1 in NH. unfold is_u32. lia. }
  rewrite (u32_small _ UN) in O. unfold writeSymbolRaw in O.
  exists (ESymbol (ay_name y) (y_value (ay_sym y)) (ay_export y || imported y)
    (if y_constant (ay_sym y) then Absolute else if imported y then Undefined else match y_section (ay_sym y) with Some k => Within k | None => Undefined end)).
  split; [|unfold says_symbol; cbn; auto].
  unfold symbol_at. cbn [ey_name ey_value ey_global ey_where].
  pose proof (has_first _ _ _ _ O) as O0. apply has_rest in O. rewrite fput_word_len in O.
  pose proof (has_first _ _ _ _ O) as O4. apply has_rest in O. rewrite fput_word_len in O.
  apply has_rest in O. rewrite fput_word_len in O. pose proof (has_first _ _ _ _ O) as O12. apply has_rest in O.
  change (zlen [if ay_export y || imported y then 16 else 0; 0]) with 2 in O.
  split; [exists n; split; [apply has_word; auto|]; split; [lia|apply has_string; auto]|].
  split; [apply has_word_u; exact O4|]. split.
  { exists 0. split; [lia|]. rewrite Z.add_0_r. replace (q + 12) with (q + 4 + 4 + 4) by lia.
    apply (slice_has _ _ [if ay_export y || imported y then 16 else 0]); [|reflexivity]. apply (has_first _ _ _ [0]). exact O12. }
  replace (q + 14) with (q + 4 + 4 + 4 + 2) by lia. unfold placeOf in K. rewrite imported_eq in K.
  assert (RES : forall v, k = v -> 0 <= v < 2 ^ 16 -> half_at big f (q + 4 + 4 + 4 + 2) v) by (intros v <- V; apply has_half; auto).
  destruct (y_constant (ay_sym y)); [injection K as <-; exists SHN_ABS; split; [apply RES; [reflexivity|unfold SHN_ABS; lia]|reflexivity]|].
  destruct (imported y); [injection K as <-; exists SHN_UNDEF; split; [apply RES; [reflexivity|unfold SHN_UNDEF; lia]|reflexivity]|].
  unfold sectionIdOf in K. destruct (y_section (ay_sym y)) as [j|]; [|discriminate]. destruct (nth_error ids j) as [i|] eqn:J; [|discriminate]. injection K as <-.
  exists i. split; [|first [exact J|reflexivity]]. apply RES; [reflexivity|]. apply IDS in J. lia.
Qed.

(** ** The whole file *)
Lemma header_said : forall f q h, has f q (shdr_bytes big h) ->
  Forall is_u32 [sh_name h; sh_type h; sh_flags h; sh_addr h; sh_offset h; sh_size h; sh_link h; sh_info h; sh_addralign h; sh_entsize h] -> header_at big f q h.
Proof.
  intros f q h H U. unfold header_at. apply has_words; [|exact U].
  assert (E : shdr_bytes big h = words big [sh_name h; sh_type h; sh_flags h; sh_addr h; sh_offset h; sh_size h; sh_link h; sh_info h; sh_addralign h; sh_entsize h])
    by (unfold shdr_bytes; cbn [words]; rewrite app_nil_r; reflexivity).
  rewrite <- E. exact H.
Qed.
Lemma u32_if : forall b x y, is_u32 x -> is_u32 y -> is_u32 (if b : bool then x else y).
Proof. intros [|]; auto. Qed.

Theorem elf_Write_says : forall f, writable A alignment used -> 0 <= arch < 2 ^ 16 ->
  elf_Write big arch alignment used sorter A = Ok (f, false) -> zlen f < 2 ^ 32 ->
  exists o, elf_says big arch f o /\ says_program F A alignment used o.
Proof.
  intros f [WN WS WA [WC WY]] AR H LF. unfold elf_Write, addString, addSectionHeader in H. cbn [ew_out ew_strings ew_headers] in H.
  set (st4 := EWriter (writeElfHeader big arch) _ _) in H.
  change (zlen [Shdr 0 0 0 0 0 0 0 0 0 0]) with 1 in H.
  match type of H with context [writeSymbolSection _ _ _ _ ?z _ _] => change z with 2 in H end.
  destruct (writeSectionContents alignment A (as_sections A) st4) as [[[ids errors] st5]| |] eqn:W5; cbn [bind] in H; try discriminate.
  destruct (writeSymbolSection big used A 1 2 ids st5) as [[sids st6]| |] eqn:W6; cbn [bind] in H; try discriminate.
  destruct (writeRelocs big sorter A 1 sids (as_sections A) ids st6) as [st7| |] eqn:W7; cbn [bind] in H; try discriminate.
  change (zlen ([Shdr 0 0 0 0 0 0 0 0 0 0] ++ [Shdr (u32 (zlen [0])) SHT_SYMTAB 0 0 0 0 0 0 0 16])) with 2 in H.
  destruct (writeStrings big 2 st7) as [st8| |] eqn:W8; cbn [bind] in H; try discriminate.
  destruct (writeSectionHeaders big st8) as [st9| |] eqn:W9; cbn [bind] in H; try discriminate. injection H as <- ->.
  assert (L4 : zlen (ew_out st4) = 52) by (unfold st4; cbn [ew_out]; destruct big; reflexivity).
  assert (S4 : 1 <= zlen (ew_strings st4)) by (unfold st4; cbn; unfold zlen; cbn; lia).
  assert (H4 : exists b c, ew_headers st4 = [Shdr 0 0 0 0 0 0 0 0 0 0; b; c] /\ sh_type b = 2 /\ sh_type c = 3 /\ sh_entsize b = 16 /\
     (has (ew_strings st4) (sh_name b) (chars ".symtab" ++ [0]) /\ has (ew_strings st4) (sh_name c) (chars ".strtab" ++ [0]) /\ has (ew_strings st4) 0 [0]) /\
     Forall is_u32 [sh_name b; sh_flags b; sh_addr b; sh_addralign b; sh_entsize b] /\
     Forall is_u32 [sh_name c; sh_type c; sh_flags c; sh_addr c; sh_link c; sh_info c; sh_addralign c; sh_entsize c]).
  { do 2 eexists. split; [reflexivity|]. cbn [sh_type sh_entsize sh_name sh_flags sh_addr sh_addralign sh_link sh_info]. unfold SHT_SYMTAB, SHT_STRTAB.
    repeat (split; [reflexivity|]). split; [split; [|split];
      [exists [0], (chars ".strtab" ++ [0])|exists (0 :: chars ".symtab" ++ [0]), []|exists [], (chars ".symtab" ++ [0] ++ chars ".strtab" ++ [0])];
      split; reflexivity|].
    split; repeat (constructor; [first [apply u32_is|unfold is_u32; lia]|]); constructor. }
  assert (E4 : ew_out st4 = writeElfHeader big arch) by reflexivity.
  destruct H4 as [b [c [H4 [TB [TC [EB [[NB [NC N0S]] [UB_ UC]]]]]]]]. clearbody st4.
  destruct (writeSectionContents_ok alignment used A _ _ _ _ W5 ltac:(lia)) as [X5 [IDS [sech [H5 FS]]]]. pose proof (ext_len _ _ X5) as [LO5 LS5].
  rewrite H4 in H5. change ([Shdr 0 0 0 0 0 0 0 0 0 0; b; c] ++ sech) with (Shdr 0 0 0 0 0 0 0 0 0 0 :: b :: c :: sech) in H5.
  destruct (writeSymbolSection_ok big used A _ _ _ _ _ _ _ W6 H5 ltac:(lia) ltac:(lia)) as [tb [nl [loc [X6 [LOC [NLR [H6 [NUL [LEN6 [ND [IN [ID EN]]]]]]]]]]]].
  pose proof (ext_len _ _ X6) as [LO6 LS6].
  assert (IDL : length ids = length (as_sections A)) by (rewrite IDS, map_length, seq_length; reflexivity).
  assert (IDK : forall k i, nth_error ids k = Some i -> (k < length (as_sections A))%nat /\ i = 3 + Z.of_nat k).
  { intros k i K. rewrite IDS in K. apply map_seq_nth in K. rewrite H4 in K. exact K. }
  assert (IDI : forall k, (k < length (as_sections A))%nat -> nth_error ids k = Some (3 + Z.of_nat k)).
  { intros k K. rewrite IDS. rewrite nth_map_seq by exact K. rewrite H4. reflexivity. }
  assert (IDR : forall k i, nth_error ids k = Some i -> 0 < i < 0xff00).
  { intros k i K. apply IDK in K. unfold zlen in WC. lia. }
  assert (IDF : Forall (fun id => id <> UINT32_MAX) ids).
  { apply Forall_forall. intros i I. apply In_nth_error in I. destruct I as [k K]. apply IDR in K. unfold UINT32_MAX. lia. }
  destruct (writeRelocs_ok big sorter A _ _ _ _ _ W7 IDL IDF ltac:(lia)) as [X7 [relh [H7 FR]]]. pose proof (ext_len _ _ X7) as [LO7 LS7].
  set (b' := Shdr _ _ _ _ (u32 loc) _ _ _ _ _) in H6. rewrite H6 in H7.
  change ((Shdr 0 0 0 0 0 0 0 0 0 0 :: b' :: c :: sech) ++ relh) with (Shdr 0 0 0 0 0 0 0 0 0 0 :: b' :: c :: (sech ++ relh)) in H7.
  destruct (elf_end big _ _ _ _ _ _ _ W8 W9 H7 ltac:(lia)) as [sloc [hloc E]]. cbn zeta in E.
  set (f := ew_out st9) in *. set (c' := Shdr _ _ _ _ (u32 sloc) _ _ _ _ _) in E.
  destruct E as [KEEP [KEEP1 [KEEP2 [SL5 [SH [HH [F32 [F48 F50]]]]]]]].
  set (hs := Shdr 0 0 0 0 0 0 0 0 0 0 :: b' :: c' :: (sech ++ relh)) in *.
  pose proof (has_len _ _ _ SH) as [SL0 SLL]. pose proof (has_len _ _ _ HH) as [HL0 HLL]. rewrite (concat_len _ _ 40) in HLL by apply shdr_len.
  pose proof (zlen_nonneg _ (ew_strings st7)) as SN. pose proof (zlen_nonneg _ hs) as HN.
  assert (LSTR : zlen (ew_strings st7) < 2 ^ 32) by lia.
  (* the header *)
  assert (HX : has (ew_out st7) 0 (writeElfHeader big arch)).
  { assert (X : ext st4 st7) by (eapply ext_trans; [exact X5|eapply ext_trans; [exact X6|exact X7]]).
    apply (ext_has _ _ _ _ X). rewrite E4. exists [], []. rewrite app_nil_r. auto. }
  assert (PIECE : forall k bs, (exists x z, writeElfHeader big arch = x ++ bs ++ z /\ zlen x = k) -> has (ew_out st7) k bs).
  { intros k bs [x [z [E <-]]]. rewrite E in HX. apply (has_sub _ 0 _ _ _ HX). }
  assert (P0 : has (ew_out st7) 0 [127; 69; 76; 70; 1; if big then 2 else 1; 1]) by (apply PIECE; exists []; eexists; split; [reflexivity|reflexivity]).
  assert (P16 : has (ew_out st7) 16 (fput_half big 1)).
  { apply PIECE. exists (firstn 16 (writeElfHeader big arch)), (skipn 18 (writeElfHeader big arch)). destruct big; split; reflexivity. }
  assert (P18 : has (ew_out st7) 18 (fput_half big arch)).
  { apply PIECE. exists (firstn 18 (writeElfHeader big arch)), (skipn 20 (writeElfHeader big arch)). destruct big; split; reflexivity. }
  assert (P20 : has (ew_out st7) 20 (fput_word big 1)).
  { apply PIECE. exists (firstn 20 (writeElfHeader big arch)), (skipn 24 (writeElfHeader big arch)). destruct big; split; reflexivity. }
  assert (P40 : has (ew_out st7) 40 (fput_half big 52)).
  { apply PIECE. exists (firstn 40 (writeElfHeader big arch)), (skipn 42 (writeElfHeader big arch)). destruct big; split; reflexivity. }
  assert (P46 : has (ew_out st7) 46 (fput_half big 40)).
  { apply PIECE. exists (firstn 46 (writeElfHeader big arch)), (skipn 48 (writeElfHeader big arch)). destruct big; split; reflexivity. }
  assert (LSEC : length sech = length (as_sections A)) by (symmetry; apply (Forall2_len _ _ _ _ _ FS)).
  assert (LREL : length relh = length (as_sections A)).
  { rewrite <- (Forall2_len _ _ _ _ _ FR), combine_length, IDL. apply Nat.min_id. }
  assert (LHS : zlen hs = 3 + 2 * zlen (as_sections A)).
  { unfold hs, zlen. cbn [List.length]. rewrite app_length. lia. }
  assert (SYMS : zlen tb <= zlen (as_symbols A)).
  { unfold zlen. apply inj_le. rewrite <- (seq_length (length (as_symbols A)) 0). apply NoDup_incl_length; [exact ND|].
    intros s S0. apply IN in S0. destruct S0 as [y [Y _]]. apply in_seq. split; [lia|]. apply nth_error_Some. congruence. }
  assert (TBN : zlen tb < 2 ^ 24 - 1) by lia. pose proof (zlen_nonneg _ tb) as TB0.
  assert (LOC_IN : loc + 16 * (1 + zlen tb) <= zlen f).
  { assert (Q : has (ew_out st6) 0 (ew_out st6)) by (exists [], []; rewrite app_nil_r; auto).
    assert (L67 : has (ew_out st7) loc (skipn (Z.to_nat loc) (ew_out st6))).
    { apply (ext_has _ _ _ _ X7). exists (firstn (Z.to_nat loc) (ew_out st6)), []. rewrite app_nil_r, firstn_skipn. split; [reflexivity|].
      unfold zlen in *. rewrite firstn_length. lia. }
    apply KEEP in L67; [|exact LOC]. apply has_len in L67. destruct L67 as [_ L67]. unfold zlen in L67 at 1. rewrite skipn_length in L67. unfold zlen in *. lia. }
  assert (UL : u32 loc = loc) by (apply u32_small; unfold is_u32; lia).
  assert (UZ : u32 (16 * (1 + zlen tb)) = 16 * (1 + zlen tb)) by (apply u32_small; unfold is_u32; lia).
  assert (US : u32 sloc = sloc) by (apply u32_small; unfold is_u32; lia).
  assert (UT : u32 (zlen (ew_strings st7)) = zlen (ew_strings st7)) by (apply u32_small; unfold is_u32; lia).
  (* symbols and sections *)
  destruct (nth_choice _ _ (fun j s e => symbol_at big f (ew_strings st7) ids (loc + 16 * (1 + Z.of_nat j)) e /\
      exists y, nth_error (as_symbols A) s = Some y /\ says_symbol y e /\ ey_global e = (nl <=? Z.of_nat j)) tb) as [syms [LY SY]].
  { intros j s J. destruct (EN _ _ J) as [y [Y [GY EY]]].
    destruct (symbol_said f st7 ids (loc + 16 * (1 + Z.of_nat j)) y KEEP LSTR ltac:(lia)) as [e [E1 E2]].
    - rewrite Forall_forall in WN. apply WN. apply nth_error_In in Y. exact Y.
    - intros k i K. apply IDR in K. lia.
    - apply (entry_ext _ _ _ _ _ _ _ X7 EY).
    - exists e. split; [exact E1|]. exists y. split; [exact Y|]. split; [exact E2|]. destruct E2 as [_ [_ [-> _]]]. exact GY. }
  destruct (nth_choice _ _ (fun k w t => exists h rh, nth_error sech k = Some h /\ nth_error relh k = Some rh /\
      section_says f (ew_strings st7) h t /\ says_section F A alignment tb w t /\
      inside f rh /\ sh_size rh = 12 * zlen (et_relocs t) /\
      (forall j r, nth_error (et_relocs t) j = Some r -> reloc_at big f (sh_offset rh + 12 * Z.of_nat j) r)) (as_sections A)) as [ts [LTS TS]].
  { intros k w K. destruct (Forall2_nth _ _ _ _ _ FS _ _ K) as [h [HK SO]].
    assert (KL : (k < length (as_sections A))%nat) by (apply nth_error_Some; congruence).
    destruct (Forall2_nth _ _ _ _ _ FR _ _ (nth_combine _ _ _ _ _ _ _ K (IDI _ KL))) as [rh [RK RO]]. cbn [fst snd] in RO.
    rewrite Forall_forall in WS. pose proof (WS _ (nth_error_In _ _ K)) as WK.
    assert (X57 : ext st5 st7) by (eapply ext_trans; [exact X6|exact X7]).
    destruct (section_said f st7 sids tb w _ h rh KEEP LF LSTR (section_ok_ext _ _ _ _ _ _ X57 SO) RO WK IN ID TBN) as [t T].
    exists t, h, rh. tauto. }
  assert (ZL : zlen syms = zlen tb) by (unfold zlen; rewrite LY; reflexivity).
  exists (EObject ts syms). split; [split|].
  - (* what the file says *)
    exists hs, 2, c', 1, b', c', ids. cbn [eo_sections eo_symbols].
    assert (TYPES : forall i h, nth_error hs i = Some h ->
      (i = 0%nat /\ h = Shdr 0 0 0 0 0 0 0 0 0 0) \/ (i = 1%nat /\ h = b') \/ (i = 2%nat /\ h = c') \/
      (exists k, i = (3 + k)%nat /\ (k < length (as_sections A))%nat /\ nth_error sech k = Some h) \/
      (exists k, i = (3 + length (as_sections A) + k)%nat /\ (k < length (as_sections A))%nat /\ nth_error relh k = Some h)).
    { intros [|[|[|i]]] h I; cbn [nth_error hs] in I; [left|right; left|right; right; left|right; right; right]; try (injection I as <-; auto).
      destruct (Nat.lt_ge_cases i (length sech)) as [LT|GE].
      - rewrite nth_error_app1 in I by exact LT. left. exists i. split; [reflexivity|]. split; [lia|exact I].
      - rewrite nth_error_app2 in I by exact GE. right. exists (i - length sech)%nat. split; [lia|]. split; [|exact I].
        rewrite <- LREL. apply nth_error_Some. congruence. }
    assert (SECT : forall k h, nth_error sech k = Some h -> exists w, nth_error (as_sections A) k = Some w /\ section_ok alignment A w h st5).
    { intros k h K. apply (Forall2_nth' _ _ _ _ _ FS _ _ K). }
    assert (STYPE : forall k h, nth_error sech k = Some h -> sh_type h = 1 \/ sh_type h = 8).
    { intros k h K. destruct (SECT _ _ K) as [w [_ [[g [_ [T _]]] _ _ _ _ _]]]. destruct (ay_groupType g =? 0); auto. }
    assert (RELT : forall k h, nth_error relh k = Some h -> exists w, nth_error (as_sections A) k = Some w /\ rel_ok big sorter A sids w (3 + Z.of_nat k) h st7).
    { intros k h K. destruct (Forall2_nth' _ _ _ _ _ FR _ _ K) as [[w i] [C RO]]. cbn [fst snd] in RO.
      assert (KL : (k < length (as_sections A))%nat) by (rewrite <- LREL; apply nth_error_Some; congruence).
      destruct (nth_error (as_sections A) k) as [w'|] eqn:KW; [|apply nth_error_None in KW; lia].
      rewrite (nth_combine _ _ _ _ _ _ _ KW (IDI _ KL)) in C. injection C as -> <-. exists w. auto. }
    assert (HSEC : forall k, (k < length (as_sections A))%nat -> nth_error hs (Z.to_nat (3 + Z.of_nat k)) = nth_error sech k).
    { intros k K. replace (Z.to_nat (3 + Z.of_nat k)) with (3 + k)%nat by lia. cbn [Nat.add nth_error hs]. apply nth_error_app1. lia. }
    assert (HREL : forall k, (k < length (as_sections A))%nat -> nth_error hs (3 + length (as_sections A) + k) = nth_error relh k).
    { intros k K. cbn [Nat.add nth_error hs]. rewrite nth_error_app2 by lia. f_equal. lia. }
    assert (CSTR : contents f c' = ew_strings st7).
    { unfold contents, c'. cbn [sh_offset sh_size]. rewrite US, UT. apply has_slice. exact SH. }
    assert (ICS : inside f c') by (unfold inside, c'; cbn [sh_offset sh_size]; rewrite US, UT; lia).
    split.
    { split.
      - apply KEEP1 in P0; [|unfold zlen; cbn [List.length]; lia]. apply (slice_has _ _ _ P0). reflexivity.
      - apply has_half; [|lia]. apply KEEP1; [rewrite fput_half_len; lia|exact P16].
      - apply has_half; [|lia]. apply KEEP1; [rewrite fput_half_len; lia|exact P18].
      - apply has_word; [|unfold is_u32; lia]. apply KEEP1; [rewrite fput_word_len; lia|exact P20].
      - apply has_half; [|lia]. apply KEEP2; [lia|rewrite fput_half_len; lia|exact P40].
      - apply has_half; [|lia]. apply KEEP2; [lia|rewrite fput_half_len; lia|exact P46].
      - apply has_half; [exact F48|]. rewrite LHS in *. pose proof (zlen_nonneg _ (as_sections A)). lia.
      - apply has_half; [exact F50|lia].
      - exists hloc. split; [apply has_word; [exact F32|unfold is_u32; lia]|]. intros k h K. apply header_said.
        { apply (has_concat _ _ 40 hs); [lia|apply shdr_len|exact HH|exact K]. }
        assert (ID3 : forall k, (k < length (as_sections A))%nat -> is_u32 (3 + Z.of_nat k)).
        { intros k0 K0. unfold is_u32. unfold zlen in WC. lia. }
        destruct (TYPES _ _ K) as [[_ ->]|[[_ ->]|[[_ ->]|[[k' [_ [K1 K2]]]|[k' [_ [K1 K2]]]]]]].
        + repeat (constructor; [cbn; unfold is_u32; lia|]). constructor.
        + unfold b'. cbn [sh_name sh_type sh_flags sh_addr sh_offset sh_size sh_link sh_info sh_addralign sh_entsize]. rewrite TB.
          repeat match goal with U : Forall is_u32 (_ :: _) |- _ => inversion U; clear U; subst end.
          repeat (constructor; [first [assumption|apply u32_is|unfold is_u32; lia]|]). constructor.
        + unfold c'. cbn [sh_name sh_type sh_flags sh_addr sh_offset sh_size sh_link sh_info sh_addralign sh_entsize].
          repeat match goal with U : Forall is_u32 (_ :: _) |- _ => inversion U; clear U; subst end.
          repeat (constructor; [first [assumption|apply u32_is|unfold is_u32; lia]|]). constructor.
        + destruct (SECT _ _ K2) as [w [KW [[g [G [T [FL [D D']]]]] [n [N _]] AD SZ [LK [INF ES]] AL]]].
          rewrite Forall_forall in WS. destruct (WS _ (nth_error_In _ _ KW)) as [_ [UP [UA [UU _]]]].
          assert (OO : is_u32 (sh_offset h)).
          { destruct (Z.eq_dec (ay_groupType g) 0) as [Q|Q]; [destruct (D Q) as [d [o [_ [-> _]]]]; apply u32_is|rewrite (D' Q); unfold is_u32; lia]. }
          rewrite N, T, FL, AD, SZ, LK, INF, ES, AL.
          repeat (constructor; [first [assumption|apply u32_is|repeat apply u32_if; first [assumption|unfold is_u32; lia]|unfold is_u32; lia]|]). constructor.
        + destruct (RELT _ _ K2) as [w [KW [[T [FL [AD [LK [INF [AL ES]]]]]] [rn [RN _]] [relocs [o [_ [RO [_ [_ RS]]]]]]]]].
          rewrite RN, T, FL, AD, LK, INF, AL, ES, RO, RS. pose proof (ID3 _ K1).
          repeat (constructor; [first [assumption|apply u32_is|unfold is_u32; lia]|]). constructor.
      - reflexivity. }
    split; [split; [reflexivity|]; split; [lia|]; split; [exact TC|exact ICS]|].
    split.
    { split; [lia|]. split.
      - rewrite IDS. clear. generalize (zlen (ew_headers st4)). intro z. generalize 0%nat. induction (length (as_sections A)) as [|n IH]; intro m; [constructor|].
        cbn [seq map]. constructor; [apply IH|]. apply Forall_forall. intros x X. apply in_map_iff in X. destruct X as [q [<- Q]]. apply in_seq in Q. lia.
      - apply Forall_forall. intros i I. apply In_nth_error in I. destruct I as [k K]. apply (IDR _ _ K). }
    split.
    { intros k t i T I. destruct (IDK _ _ I) as [KL ->]. destruct (nth_error (as_sections A) k) as [w|] eqn:KW; [|apply nth_error_None in KW; lia].
      destruct (TS _ _ _ KW T) as [h [rh [HK [_ [SS _]]]]]. exists h. rewrite (HSEC _ KL), CSTR. auto. }
    split.
    { intros i h I TY AL. destruct (TYPES _ _ I) as [[_ ->]|[[_ ->]|[[_ ->]|[[k [-> [K1 K2]]]|[k [_ [K1 K2]]]]]]].
      - cbn in TY. lia.
      - unfold b' in TY. cbn [sh_type] in TY. lia.
      - unfold c' in TY. cbn [sh_type] in TY. lia.
      - apply nth_error_In with k. rewrite (IDI _ K1). f_equal. lia.
      - destruct (RELT _ _ K2) as [w [_ [[T _] _ _]]]. lia. }
    split.
    { split; [reflexivity|]. split; [lia|]. split; [exact TB|]. unfold inside, b'. cbn [sh_offset sh_size sh_entsize sh_link sh_info]. rewrite UL, UZ, ZL.
      split; [lia|]. split; [exact EB|]. split; [reflexivity|]. split; [reflexivity|]. split; [lia|]. split; [exact TC|]. split; [exact ICS|].
      split.
      { rewrite CSTR. apply has_string; [|constructor]. assert (X47 : ext st4 st7) by (eapply ext_trans; [exact X5|eapply ext_trans; [exact X6|exact X7]]). apply (ext_str _ _ _ _ X47 N0S). }
      split; [apply (slice_has _ _ _ (KEEP _ _ LOC (ext_has _ _ _ _ X7 NUL))); reflexivity|]. rewrite CSTR.
      assert (TJ : forall j y, nth_error syms j = Some y -> exists s, nth_error tb j = Some s).
      { intros j y J. destruct (nth_error tb j) as [s|] eqn:E; [eauto|]. apply nth_error_None in E. assert (j < length syms)%nat by (apply nth_error_Some; congruence). lia. }
      split; [|split; [lia|]].
      - intros j y J. destruct (TJ _ _ J) as [s S0]. apply (SY _ _ _ S0 J).
      - intros j y J. destruct (TJ _ _ J) as [s S0]. destruct (SY _ _ _ S0 J) as [_ [y0 [_ [_ ->]]]]. lia. }
    split.
    { intros i h I TY. destruct (TYPES _ _ I) as [[_ ->]|[[-> _]|[[_ ->]|[[k [_ [K1 K2]]]|[k [_ [K1 K2]]]]]]].
      - discriminate.
      - reflexivity.
      - unfold c' in TY. cbn [sh_type] in TY. lia.
      - apply STYPE in K2. lia.
      - destruct (RELT _ _ K2) as [w [_ [[T _] _ _]]]. lia. }
    assert (RELS : forall i h, nth_error hs i = Some h -> sh_type h = 4 -> exists k, i = (3 + length (as_sections A) + k)%nat /\ (k < length (as_sections A))%nat /\ nth_error relh k = Some h).
    { intros i h I TY. destruct (TYPES _ _ I) as [[_ ->]|[[_ ->]|[[_ ->]|[[k [_ [K1 K2]]]|R]]]].
      - discriminate.
      - unfold b' in TY. cbn [sh_type] in TY. lia.
      - unfold c' in TY. cbn [sh_type] in TY. lia.
      - apply STYPE in K2. lia.
      - exact R. }
    split.
    { intros i h I TY. destruct (RELS _ _ I TY) as [k [_ [K1 K2]]]. destruct (RELT _ _ K2) as [w [KW [[T [FL [AD [LK [INF [AL ES]]]]]] _ _]]].
      destruct (nth_error ts k) as [t|] eqn:KT; [|apply nth_error_None in KT; lia].
      destruct (TS _ _ _ KW KT) as [h' [rh [HK [RK [_ [_ [INS [SZ RA]]]]]]]]. assert (rh = h) by congruence. subst rh.
      exists k, t. rewrite INF. split; [apply IDI; exact K1|]. repeat (split; [assumption|]). exact RA. }
    split.
    { intros i i' h h' I I' TY TY' E. destruct (RELS _ _ I TY) as [k [-> [K1 K2]]]. destruct (RELS _ _ I' TY') as [k' [-> [K1' K2']]].
      destruct (RELT _ _ K2) as [w [_ [[_ [_ [_ [_ [INF _]]]]] _ _]]]. destruct (RELT _ _ K2') as [w' [_ [[_ [_ [_ [_ [INF' _]]]]] _ _]]]. lia. }
    split.
    { intros k t KT _. assert (KL : (k < length (as_sections A))%nat) by (rewrite <- LTS; apply nth_error_Some; congruence).
      destruct (nth_error relh k) as [h|] eqn:KH; [|apply nth_error_None in KH; lia]. destruct (RELT _ _ KH) as [w [_ [[T [_ [_ [_ [INF _]]]]] _ _]]].
      exists (3 + length (as_sections A) + k)%nat, h. rewrite (HREL _ KL). split; [exact KH|]. split; [exact T|]. rewrite INF. apply IDI. exact KL. }
    split; [|split; [|split; [|split]]]; cycle 1.
    { intros i h I. rewrite CSTR.
      assert (X47 : ext st4 st7) by (eapply ext_trans; [exact X5|eapply ext_trans; [exact X6|exact X7]]).
      assert (SMALL : forall n s, has (ew_strings st7) n (s ++ [0]) -> u32 n = n).
      { intros n s N. apply has_len in N. rewrite zlen_app in N. pose proof (zlen_nonneg _ s). apply u32_small. change (zlen [0]) with 1 in N. unfold is_u32. lia. }
      assert (X57 : ext st5 st7) by (eapply ext_trans; [exact X6|exact X7]).
      destruct (TYPES _ _ I) as [[_ ->]|[[_ ->]|[[_ ->]|[[k [_ [K1 K2]]]|[k [_ [K1 K2]]]]]]].
      - exists []. apply has_string; [apply (ext_str _ _ _ _ X47 N0S)|constructor].
      - exists (chars ".symtab"). apply has_string; [apply (ext_str _ _ _ _ X47 NB)|]. repeat (constructor; [cbn; lia|]). constructor.
      - exists (chars ".strtab"). apply has_string; [apply (ext_str _ _ _ _ X47 NC)|]. repeat (constructor; [cbn; lia|]). constructor.
      - destruct (SECT _ _ K2) as [w [KW [_ [n [N [_ NH]]] _ _ _ _]]]. rewrite Forall_forall in WS. destruct (WS _ (nth_error_In _ _ KW)) as [WZ _].
        apply (ext_str _ _ _ _ X57) in NH. exists (ws_name w). rewrite N, (SMALL _ _ NH). apply has_string; [exact NH|exact WZ].
      - destruct (RELT _ _ K2) as [w [KW [_ [n [N [_ NH]]] _]]]. rewrite Forall_forall in WS. destruct (WS _ (nth_error_In _ _ KW)) as [WZ _].
        exists (ws_name w ++ chars ".reloc"). rewrite N, (SMALL _ _ NH). apply has_string; [exact NH|].
        apply Forall_app. split; [exact WZ|]. repeat (constructor; [cbn; lia|]). constructor. }
    { intros i h I TY. destruct (TYPES _ _ I) as [[_ ->]|[[_ ->]|[[_ ->]|[[k [_ [K1 K2]]]|[k [_ [K1 K2]]]]]]].
      - discriminate.
      - unfold b' in TY. cbn [sh_type] in TY. lia.
      - exact ICS.
      - apply STYPE in K2. lia.
      - destruct (RELT _ _ K2) as [w [_ [[T _] _ _]]]. lia. }
    { intros i h I TY AL. destruct (TYPES _ _ I) as [[_ ->]|[[_ ->]|[[_ ->]|[[k [_ [K1 K2]]]|[k [_ [K1 K2]]]]]]].
      - left. reflexivity.
      - unfold b' in TY. cbn [sh_type] in TY. lia.
      - unfold c' in TY. cbn [sh_type] in TY. lia.
      - destruct (SECT _ _ K2) as [w [_ [[g [_ [_ [FL _]]]] _ _ _ _ _]]]. rewrite FL in AL. destruct (ay_groupType g =? 0), (ay_data g); discriminate.
      - destruct (RELT _ _ K2) as [w [_ [[T _] _ _]]]. lia. }
    { intros i h I TY. destruct (TYPES _ _ I) as [[_ ->]|[[_ ->]|[[_ ->]|[[k [_ [K1 K2]]]|[k [_ [K1 K2]]]]]]].
      - discriminate.
      - unfold b' in TY. cbn [sh_type] in TY. lia.
      - unfold c' in TY. cbn [sh_type] in TY. lia.
      - destruct (SECT _ _ K2) as [w [_ [[g [_ [_ [FL _]]]] _ _ _ _ _]]]. rewrite FL. destruct (ay_groupType g =? 0), (ay_data g); reflexivity.
      - destruct (RELT _ _ K2) as [w [_ [[T _] _ _]]]. lia. }
    intros i h I TY. destruct (TYPES _ _ I) as [[_ ->]|[[_ ->]|[[_ ->]|[[k [_ [K1 K2]]]|[k [_ [K1 K2]]]]]]].
    + discriminate.
    + unfold b' in TY. cbn [sh_type] in TY. lia.
    + unfold c' in TY. cbn [sh_type] in TY. lia.
    + apply STYPE in K2. lia.
    + destruct (RELT _ _ K2) as [w [_ [[T _] _ _]]]. lia.
  - (* the program *)
    exists tb. split; [exact ND|]. split; [exact IN|]. cbn [eo_symbols eo_sections]. split.
    + apply nth_Forall2; [exact LY|]. intros j s e S0 E0. destruct (SY _ _ _ S0 E0) as [_ [y [Y [SYM _]]]]. eauto.
    + apply nth_Forall2; [exact LTS|]. intros k w t W T. destruct (TS _ _ _ W T) as [h [rh Q]]. tauto.
Qed.
End Said.
