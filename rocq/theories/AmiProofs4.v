(** Proofs about the assembler's Amiga output: sections and executables. *)
From Coq Require Import ZArith List Bool Lia Permutation ZifyBool ZifyNat.
From Verif Require Import Base BaseFacts Arith ExprSpec ExprTree ExprModel ExprLayout ObjWriteModel FileModel FileProofs AssignModel LinkModel HunkModel HunkSpec HunkProofs ElfModel ElfSpec ElfProofs AmiModel AmiSpec AmiProofs AmiProofs2 AmiProofs3.
Import ListNotations.
Open Scope Z_scope.

Section Sections.
Variable F : fmath.
Variable A : astate.
Let n_sections := length (as_sections A).

Definition section_ok (w : wsect) : Prop :=
  0 <= ws_usedSpace w < 2 ^ 31 /\
  (forall g, nth_error (as_symbols A) (ws_group w) = Some g -> ay_groupType g = 0 -> zlen (ws_data w) = ws_usedSpace w) /\
  zlen (ws_patches w) < 2 ^ 32 /\
  Forall (fun p => 0 <= ap_offset p /\ ap_offset p + 4 <= zlen (ws_data w) /\ opf (ap_expr p)) (ws_patches w) /\
  ForallOrdPairs (fun p q => 4 <= Z.abs (ap_offset p - ap_offset q)) (ws_patches w).

Definition type_of (g : asym) : Z := if ay_data g then HUNK_DATA else HUNK_CODE.
Definition body_of (w : wsect) (per : list (list apatch)) (blocks : list block) : list Z :=
  puts (map (import_put A) (concat (map snd blocks))) (puts (reloc_puts A 0 per) (writeBuffer (ws_data w))).
Record placed (link : bool) (w : wsect) (per : list (list apatch)) (blocks : list block) : Prop := {
  pl_length : length per = n_sections;
  pl_all : Permutation (concat per ++ concat (map snd blocks)) (ws_patches w);
  pl_relative : forall i ps, nth_error per i = Some ps -> Forall (relative A i) ps;
  pl_blocks : Forall (block_ok A) blocks;
  pl_none : link = false -> blocks = [] }.

Lemma buffer_zlen : forall (d : list Z), zlen d <= zlen (writeBuffer d).
Proof. intro d. unfold writeBuffer. rewrite zlen_app. pose proof (zlen_nonneg _ (padding (zlen d))). lia. Qed.
Lemma inside_buffer : forall w ps, section_ok w -> incl ps (ws_patches w) -> Forall (fun p => inside (writeBuffer (ws_data w)) (ap_offset p)) ps.
Proof.
  intros w ps (_ & _ & _ & FI & _) I. rewrite Forall_forall in *. intros p P. destruct (FI p (I p P)) as (P1 & P2 & _).
  pose proof (buffer_zlen (ws_data w)). split; lia.
Qed.
Lemma text_section : forall d k w g dbg link f', nth_error (as_symbols A) (ws_group w) = Some g -> ay_groupType g = 0 -> section_ok w ->
  writeSection true A (ended d) k w dbg link = Ok f' ->
  exists per blocks, placed link w per blocks /\
    f' = ended (d ++ long (type_of g) ++ long (longSize (ws_usedSpace w)) ++ body_of w per blocks ++ reloc_block per ++
                (if link then ext_block A k blocks else []) ++ (if dbg then symbol_block A k else []) ++ long HUNK_END).
Proof.
  intros d k w g dbg link f' G GT SO H. unfold writeSection in H. rewrite G in H. change GROUP_TEXT with 0 in H. rewrite GT, Z.eqb_refl in H. cbn [andb] in H.
  rewrite !put_end, putbuf_end in H. fold (type_of g) in H.
  destruct (sortPatches A link (ws_patches w) (repeat [] (length (as_sections A))) []) as [[per imps] rest] eqn:SP.
  destruct rest as [|q rest]; [|discriminate].
  destruct (sorted A _ _ _ _ _ _ SP) as (L & R & P & I & FT).
  { apply repeat_length. }
  { intros i qs N. apply nth_error_In, repeat_spec in N. subst. constructor. }
  assert (concat (repeat (@nil apatch) (length (as_sections A))) = []) as CR by (clear; induction (length (as_sections A)) as [|n IH]; [reflexivity|exact IH]).
  rewrite CR in P. cbn [app] in P.
  set (pre := (d ++ long (type_of g)) ++ long (longSize (ws_usedSpace w))) in *.
  assert (INP : incl (concat per) (ws_patches w)) by (intros q Q; rewrite <- P; apply in_or_app; auto).
  assert (INI : incl imps (ws_patches w)) by (intros q Q; rewrite <- P; apply in_or_app; auto).
  assert (FP : Forall (Forall (fun p => inside (writeBuffer (ws_data w)) (ap_offset p))) per).
  { apply Forall_forall. intros ps PS. apply (inside_buffer w); [exact SO|]. intros q Q. apply INP, in_concat. eauto. }
  change (ftell (ended pre)) with (zlen pre) in H.
  pose proof (reloc32_put A per pre (writeBuffer (ws_data w)) []) as RP. rewrite app_nil_r in RP. rewrite RP in H by (auto; lia). cbn [bind] in H. clear RP.
  set (b1 := puts (reloc_puts A 0 per) (writeBuffer (ws_data w))) in *.
  assert (ZB : zlen b1 = zlen (writeBuffer (ws_data w))).
  { apply puts_length. rewrite Forall_forall. intros x X. apply (in_map fst) in X. rewrite reloc_puts_fst in X. apply in_map_iff in X as (p & <- & X).
    pose proof (inside_buffer w (concat per) SO INP) as Q. rewrite Forall_forall in Q. apply (Q p X). }
  destruct link.
  - destruct (ext_hunk A (ended (pre ++ b1 ++ [] ++ reloc_block per)) k imps pre b1 ([] ++ reloc_block per)) as (blocks & f1 & W & SE & PB & BO).
    { apply settled_end. }
    { unfold inside. rewrite ZB. apply (inside_buffer w imps SO INI). }
    { apply Forall_forall. intros q Q. destruct (I q Q) as [[]|(_ & [v s] & X)]. pose proof X as X'. apply import_symbolic in X as [X _].
      destruct (symbol_there A s X) as (y & Y & _). exists v, s, y. auto. }
    rewrite W in H. cbn [bind] in H. exists per, blocks. split.
    + split; auto; [rewrite PB; exact P|discriminate].
    + assert (S2 : settled (if dbg then writeSymbolHunk A f1 k else f1)
        ((pre ++ puts (map (import_put A) (concat (map snd blocks))) b1 ++ ([] ++ reloc_block per) ++ ext_block A k blocks) ++ if dbg then symbol_block A k else [])).
      { destruct dbg; [apply symbol_hunk; exact SE|rewrite app_nil_r; exact SE]. }
      rewrite (settled_put _ _ _ S2) in H. injection H as <-. unfold pre, body_of. fold b1. cbn [app]. rewrite <- !app_assoc. reflexivity.
  - assert (imps = []) as -> by (destruct imps as [|q imps]; [reflexivity|]; destruct (I q (or_introl eq_refl)) as [[]|(X & _)]; discriminate).
    cbn [bind] in H. exists per, []. split.
    + split; auto; rewrite app_nil_r in *; exact P.
    + assert (S2 : settled (if dbg then writeSymbolHunk A (ended (pre ++ b1 ++ [] ++ reloc_block per)) k else ended (pre ++ b1 ++ [] ++ reloc_block per))
        ((pre ++ b1 ++ [] ++ reloc_block per) ++ if dbg then symbol_block A k else [])).
      { destruct dbg; [apply symbol_hunk, settled_end|rewrite app_nil_r; apply settled_end]. }
      rewrite (settled_put _ _ _ S2) in H. injection H as <-. unfold pre, body_of. fold b1. cbn [map concat puts fold_left app]. rewrite <- !app_assoc. reflexivity.
Qed.
Lemma bss_section : forall d k w g dbg link f', nth_error (as_symbols A) (ws_group w) = Some g -> ay_groupType g <> 0 ->
  writeSection true A (ended d) k w dbg link = Ok f' ->
  f' = ended (d ++ long HUNK_BSS ++ long (longSize (ws_usedSpace w)) ++
              (if link then ext_block A k [] else []) ++ (if dbg then symbol_block A k else []) ++ long HUNK_END).
Proof.
  intros d k w g dbg link f' G GT H. unfold writeSection in H. rewrite G in H. change GROUP_TEXT with 0 in H.
  assert (ay_groupType g =? 0 = false) as E by lia. rewrite E in H. rewrite !put_end in H.
  set (d1 := (d ++ long HUNK_BSS) ++ long (longSize (ws_usedSpace w))) in *.
  assert (X : exists f1, (if link then writeExtHunk A (ended d1) k [] 0 else Ok (ended d1)) = Ok f1 /\ settled f1 (d1 ++ if link then ext_block A k [] else [])).
  { destruct link; [|exists (ended d1); split; [reflexivity|rewrite app_nil_r; apply settled_end]].
    destruct (ext_hunk A (ended d1) k [] [] d1 []) as (blocks & f1 & W & SE & PB & BO); [rewrite app_nil_r; apply settled_end|constructor|constructor|].
    apply Permutation_sym, Permutation_nil in PB. assert (blocks = []) as ->.
    { destruct blocks as [|b bs]; [reflexivity|]. inversion BO as [|? ? (s & y & _ & _ & NE & _) _]; subst. cbn in PB. apply app_eq_nil in PB as [PB _]. contradiction. }
    exists f1. split; [exact W|exact SE]. }
  destruct X as (f1 & X & S1). rewrite X in H. cbn [bind] in H.
  assert (S2 : settled (if dbg then writeSymbolHunk A f1 k else f1) ((d1 ++ if link then ext_block A k [] else []) ++ if dbg then symbol_block A k else [])).
  { destruct dbg; [apply symbol_hunk; exact S1|rewrite app_nil_r; exact S1]. }
  rewrite (settled_put _ _ _ S2) in H. injection H as <-. unfold d1. rewrite <- !app_assoc. reflexivity.
Qed.

(** ** Contents *)
Lemma body_length : forall link w per blocks, section_ok w -> placed link w per blocks -> zlen (body_of w per blocks) = zlen (writeBuffer (ws_data w)).
Proof.
  intros link w per blocks SO PL. destruct PL as [_ P _ _ _].
  assert (INP : incl (concat per) (ws_patches w)) by (intros q Q; rewrite <- P; apply in_or_app; auto).
  assert (INI : incl (concat (map snd blocks)) (ws_patches w)) by (intros q Q; rewrite <- P; apply in_or_app; auto).
  assert (ZB : zlen (puts (reloc_puts A 0 per) (writeBuffer (ws_data w))) = zlen (writeBuffer (ws_data w))).
  { apply puts_length. rewrite Forall_forall. intros x X. apply (in_map fst) in X. rewrite reloc_puts_fst in X. apply in_map_iff in X as (p & <- & X).
    pose proof (inside_buffer w (concat per) SO INP) as Q. rewrite Forall_forall in Q. apply (Q p X). }
  unfold body_of. rewrite puts_length, ZB; [reflexivity|]. unfold inside. rewrite ZB. apply Forall_map. cbn [import_put fst].
  apply (inside_buffer w _ SO INI).
Qed.
Lemma nth_buffer : forall (d : list Z) i, 0 <= i -> nth (Z.to_nat i) (writeBuffer d) 0 = nth (Z.to_nat i) d 0.
Proof.
  intros d i I. unfold writeBuffer, padding. change (nth (Z.to_nat i) (d ++ repeat 0 (Z.to_nat (- zlen d mod 4))) 0) with (byte (d ++ repeat 0 (Z.to_nat (- zlen d mod 4))) i).
  change (nth (Z.to_nat i) d 0) with (byte d i). rewrite byte_app by lia. destruct (i <? zlen d) eqn:E; [reflexivity|].
  rewrite byte_repeat0, byte_over by lia. reflexivity.
Qed.
Lemma per_offsets : forall link w per blocks, section_ok w -> placed link w per blocks -> ws_usedSpace w = zlen (ws_data w) ->
  Forall (Forall is_u32) (map (map ap_offset) per) /\ Forall (fun l => zlen l < 2 ^ 32) (map (map ap_offset) per).
Proof.
  intros link w per blocks (S1 & _ & S3 & S4 & _) PL UD. pose proof (pl_all _ _ _ _ PL) as P.
  assert (IN : forall ps, In ps per -> incl ps (ws_patches w)) by (intros ps PS q Q; rewrite <- P; apply in_or_app; left; apply in_concat; eauto).
  assert (LEN : forall ps, In ps per -> zlen ps <= zlen (ws_patches w)).
  { intros ps PS. apply Permutation_length in P. rewrite app_length in P. unfold zlen. assert (length ps <= length (concat per))%nat; [|lia].
    clear - PS. induction per as [|q per IH]; [destruct PS|]. cbn [concat]. rewrite app_length. destruct PS as [->|PS]; [lia|]. specialize (IH PS). lia. }
  split; apply Forall_map; apply Forall_forall; intros ps PS.
  - apply Forall_map, Forall_forall. intros p Q. apply (IN ps PS) in Q. rewrite Forall_forall in S4. destruct (S4 p Q) as (X1 & X2 & _). unfold is_u32. lia.
  - specialize (LEN ps PS). unfold zlen in *. rewrite map_length. lia.
Qed.
Lemma none_flat : forall per k, existsb (fun ps : list apatch => zlen ps >? 0) per = false -> flat k (map (map ap_offset) per) = [].
Proof.
  induction per as [|ps per IH]; intros k H; [reflexivity|]. cbn [existsb] in H. apply orb_false_elim in H as [H1 H2]. cbn [map flat].
  destruct ps; [|rewrite zlen_cons in H1; pose proof (zlen_nonneg _ ps); lia]. apply IH, H2.
Qed.

(** ** Executables *)
Lemma end_read : forall link w per blocks rest, section_ok w -> placed link w per blocks -> ws_usedSpace w = zlen (ws_data w) -> zlen (as_sections A) < 2 ^ 32 ->
  get_end (reloc_block per ++ long HUNK_END ++ rest) = Some (flat 0 (map (map ap_offset) per), rest).
Proof.
  intros link w per blocks rest SO PL UD CT. destruct (per_offsets _ _ _ _ SO PL UD) as [U1 U2]. unfold reloc_block, get_end. destruct (existsb _ per) eqn:E.
  - rewrite <- !app_assoc. rewrite get_long_id by (unfold is_u32, HUNK_RELOC32; lia). cbn [obind]. change (HUNK_RELOC32 =? 1010) with false. change (HUNK_RELOC32 =? 1004) with true. cbn match.
    rewrite get_relocs_written; [|exact U1|exact U2|lia| |].
    + cbn [obind]. rewrite get_long_id by (unfold is_u32, HUNK_END; lia). reflexivity.
    + pose proof (pl_length _ _ _ _ PL) as L. unfold zlen in *. rewrite map_length. unfold n_sections in L. lia.
    + rewrite !app_length, !length_long. lia.
  - cbn [app]. rewrite get_long_id by (unfold is_u32, HUNK_END; lia). cbn [obind]. rewrite none_flat by exact E. reflexivity.
Qed.
Lemma size_entry : forall w g, section_ok w -> nth_error (as_symbols A) (ws_group w) = Some g ->
  exists z, sizeEntry true A w = Ok z /\ is_u32 z /\ z mod 2 ^ 30 = longSize (ws_usedSpace w) /\ Z.testbit z 30 = ay_shared g.
Proof.
  intros w g SO G. destruct SO as (S1 & _). destruct (long_size _ S1) as [_ L]. unfold sizeEntry. rewrite G. set (n := longSize (ws_usedSpace w)) in *. clearbody n.
  eexists. split; [reflexivity|]. destruct (ay_shared g).
  - assert (Z.lor n HUNKF_CHIP = n + 2 ^ 30) as ->.
    { rewrite <- Z.lxor_lor, <- Z.add_nocarry_lxor; try reflexivity; apply Z.bits_inj'; intros k K; rewrite Z.land_spec, Z.bits_0;
        (destruct (Z.eqb_spec k 30) as [->|]; [|unfold HUNKF_CHIP; rewrite Z.pow2_bits_false by lia; apply andb_false_r]);
        (destruct (Z.eqb_spec n 0) as [->|]; [reflexivity|]); (rewrite (Z.bits_above_log2 n) by (try lia; apply Z.log2_lt_pow2; lia)); reflexivity. }
    split; [unfold is_u32; lia|]. split; [Z.div_mod_to_equations; lia|].
    apply Z.testbit_true; [lia|]. Z.div_mod_to_equations. lia.
  - split; [unfold is_u32; lia|]. split; [Z.div_mod_to_equations; lia|]. apply Z.testbit_false; [lia|]. Z.div_mod_to_equations. lia.
Qed.
Lemma long_kind : forall g, ay_groupType g = 0 -> HunkSpec.kind_of (type_of g) = Some (section_kind g) /\ section_kind g <> Bss /\ is_u32 (type_of g).
Proof.
  intros g G. unfold type_of, section_kind, is_u32, HUNK_DATA, HUNK_CODE. rewrite G. cbn [Z.eqb]. destruct (ay_data g); split; try reflexivity; (split; [discriminate|lia]).
Qed.
Lemma executable_section : forall d k w f' z, section_ok w -> zlen (as_sections A) < 2 ^ 32 -> sizeEntry true A w = Ok z ->
  writeSection true A (ended d) k w false false = Ok f' ->
  exists bs h, f' = ended (d ++ bs) /\ loads F A w h /\ is_u32 z /\ forall rest, get_hunk z (bs ++ rest) = Some (h, rest).
Proof.
  intros d k w f' z SO CT SE H. destruct (nth_error (as_symbols A) (ws_group w)) as [g|] eqn:G; [|unfold writeSection in H; rewrite G in H; discriminate].
  destruct (size_entry w g SO G) as (z' & SE' & U & M & T). rewrite SE in SE'. injection SE' as <-.
  pose proof SO as (S1 & S2 & _). destruct (long_size _ S1) as [L1 L2].
  destruct (Z.eq_dec (ay_groupType g) 0) as [GT|GT].
  - destruct (text_section _ _ _ _ _ _ _ G GT SO H) as (per & blocks & PL & ->). assert (blocks = []) as -> by (apply (pl_none _ _ _ _ PL); reflexivity).
    specialize (S2 g G GT). destruct (long_kind g GT) as (K1 & K2 & K3).
    assert (BL : zlen (body_of w per []) = 4 * longSize (ws_usedSpace w)).
    { rewrite (body_length _ _ _ _ SO PL), buffer_length by lia. now rewrite S2. }
    eexists. exists (Hunk (section_kind g) (ay_shared g) (longSize (ws_usedSpace w)) (body_of w per []) (flat 0 (map (map ap_offset) per))).
    split; [reflexivity|]. split; [|split; [exact U|]].
    + exists g. cbn [h_kind h_chip h_longs h_data h_relocs]. split; [exact G|]. split; [reflexivity|]. split; [reflexivity|]. split; [exact L1|].
      split; [intro X; contradiction|]. intros _ base E EN.
      match goal with |- context [relocate ?s ?h] => assert (mE : relocate s h = adds (reloc_adds base 0 per) (body_of w per [])) by apply (reloc_adds_relocate base per 0) end.
      pose proof (memory_ok F A w per [] (writeBuffer (ws_data w)) base E (fun _ => 0) (pl_all _ _ _ _ PL) (pl_relative _ _ _ _ PL) (pl_blocks _ _ _ _ PL)) as MO.
      destruct MO as [M1 M2]; auto.
      * pose proof SO as (_ & _ & _ & S4 & _). pose proof (inside_buffer w (ws_patches w) SO (incl_refl _)) as IB. rewrite Forall_forall in *. intros p Q. split; [apply (IB p Q)|apply (S4 p Q)].
      * contradiction.
      * apply SO.
      * intros i I. apply nth_buffer. lia.
      * contradiction.
      * cbn [import_adds refs_of map concat adds fold_left] in M1, M2. rewrite mE. split; [|exact M2].
        change (body_of w per []) with (puts [] (puts (reloc_puts A 0 per) (writeBuffer (ws_data w)))). rewrite M1, buffer_length by lia. now rewrite S2.
    + intro rest. unfold get_hunk. rewrite <- !app_assoc. rewrite get_long_id by exact K3. cbn [obind]. rewrite K1. cbn [obind].
      rewrite get_long_id by (unfold is_u32; lia). cbn [obind]. rewrite M, Z.eqb_refl, T.
      assert (Z.to_nat (4 * longSize (ws_usedSpace w)) = length (body_of w per [])) as -> by (unfold zlen in BL; lia).
      rewrite get_bytes_app. cbn [app]. destruct (section_kind g); [| |contradiction]; cbn [obind]; rewrite (end_read false w per [] rest SO PL) by (auto; lia); reflexivity.
  - rewrite (bss_section _ _ _ _ _ _ _ G GT H). eexists. exists (Hunk Bss (ay_shared g) (longSize (ws_usedSpace w)) [] []).
    assert (KB : section_kind g = Bss) by (unfold section_kind; destruct (Z.eqb_spec (ay_groupType g) 0); [contradiction|reflexivity]).
    split; [reflexivity|]. split; [|split; [exact U|]].
    + exists g. cbn [h_kind h_chip h_longs h_data h_relocs]. rewrite KB. split; [exact G|]. split; [reflexivity|]. split; [reflexivity|]. split; [exact L1|]. split; [auto|]. intro X. contradiction.
    + intro rest. unfold get_hunk. rewrite <- !app_assoc. rewrite get_long_id by (unfold is_u32, HUNK_BSS; lia). cbn [obind]. change (HunkSpec.kind_of HUNK_BSS) with (Some Bss). cbn [obind].
      rewrite get_long_id by (unfold is_u32; lia). cbn [obind]. rewrite M, Z.eqb_refl, T. cbn [obind app].
      unfold get_end. rewrite get_long_id by (unfold is_u32, HUNK_END; lia). reflexivity.
Qed.
Lemma executable_sections : forall ws k d f3, as_debug A = false -> zlen (as_sections A) < 2 ^ 32 -> Forall section_ok ws -> executableSections true A k ws (ended d) = Ok f3 ->
  forall zs, Forall2 (fun w z => sizeEntry true A w = Ok z) ws zs ->
  exists bs hs, f3 = ended (d ++ bs) /\ Forall2 (loads F A) ws hs /\ Forall is_u32 zs /\ forall rest, get_hunks zs (bs ++ rest) = Some (hs, rest).
Proof.
  induction ws as [|w ws IH]; intros k d f3 DB CT FO H zs FZ; inversion FZ as [|? z ? zs' Z1 Z2]; subst.
  - injection H as <-. exists [], []. rewrite app_nil_r. auto.
  - cbn [executableSections] in H. rewrite DB in H. destruct (writeSection true A (ended d) k w false false) as [f1| |] eqn:W; try discriminate. cbn [bind] in H.
    inversion FO as [|? ? O1 O2]; subst. destruct (executable_section _ _ _ _ _ O1 CT Z1 W) as (b1 & h & -> & LD & U & R1).
    destruct (IH _ _ _ DB CT O2 H zs' Z2) as (b2 & hs & -> & LS & US & R2). exists (b1 ++ b2), (h :: hs). split; [now rewrite app_assoc|]. split; [constructor; assumption|].
    split; [constructor; assumption|]. intro rest. cbn [get_hunks]. rewrite <- app_assoc, R1. cbn [obind]. rewrite R2. reflexivity.
Qed.
Lemma size_entries : forall ws d f', sizeEntries true A ws (ended d) = Ok f' ->
  exists zs, Forall2 (fun w z => sizeEntry true A w = Ok z) ws zs /\ f' = ended (d ++ concat (map long zs)).
Proof.
  induction ws as [|w ws IH]; intros d f' H; cbn [sizeEntries] in H.
  - injection H as <-. exists []. rewrite app_nil_r. auto.
  - destruct (sizeEntry true A w) as [z| |] eqn:E; try discriminate. cbn [bind] in H. rewrite put_end in H. apply IH in H as (zs & F2 & ->).
    exists (z :: zs). split; [constructor; assumption|]. cbn [map concat]. now rewrite app_assoc.
Qed.
Lemma executable_ok : forall f, hunkable A -> as_debug A = false -> ami_WriteExecutable true A = Ok f ->
  exists hs, hunk_load f = Some hs /\ Forall2 (loads F A) (as_sections A) hs.
Proof.
  intros f [CT SC] DB H. unfold ami_WriteExecutable, writeSectionNames in H. rewrite DB in H. change emptyFile with (ended []) in H. rewrite !put_end in H.
  destruct (sizeEntries _ _ _ _) as [f3| |] eqn:SE; try discriminate. cbn [bind] in H. apply size_entries in SE as (zs & FZ & ->).
  destruct (executableSections _ _ _ _ _) as [f4| |] eqn:ES; try discriminate. cbn [bind] in H. injection H as <-.
  destruct (executable_sections _ _ _ _ DB CT SC ES zs FZ) as (bs & hs & -> & LD & US & R). exists hs. split; [|exact LD]. cbn [ended f_data].
  pose proof (zlen_nonneg _ (as_sections A)) as T0.
  unfold hunk_load. rewrite <- !app_assoc. cbn [app]. rewrite get_long_id by (unfold is_u32, HUNK_HEADER; lia). cbn [obind]. rewrite get_long_id by (unfold is_u32; lia). cbn [obind].
  rewrite get_long_id by (unfold is_u32; lia). cbn [obind]. rewrite get_long_id by (unfold is_u32; lia). cbn [obind]. rewrite get_long_long. cbn [obind].
  change (HUNK_HEADER =? 1011) with true. change (0 =? 0) with true. unfold u32. rewrite Z.eqb_refl. cbn [andb].
  assert (Z.to_nat (zlen (as_sections A)) = length zs) as -> by (unfold zlen; rewrite Nat2Z.id; clear - FZ; induction FZ; cbn; auto).
  rewrite get_longs_concat by exact US. cbn [obind]. rewrite <- (app_nil_r bs). rewrite R. reflexivity.
Qed.
End Sections.
