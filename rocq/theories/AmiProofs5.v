(** Proofs about the assembler's Amiga output: objects, and programs that can be written. *)
From Coq Require Import ZArith List Bool Lia Permutation ZifyBool ZifyNat.
From Verif Require Import Base BaseFacts Arith ExprSpec ExprTree ExprModel ExprLayout ObjWriteModel FileModel FileProofs AssignModel LinkModel HunkModel HunkSpec HunkProofs ElfModel ElfSpec ElfProofs AmiModel AmiSpec AmiProofs AmiProofs2 AmiProofs3 AmiProofs4.
Import ListNotations.
Open Scope Z_scope.

(** ** Names *)
Lemma before_zero_app : forall s n, no_zero s -> before_zero (s ++ repeat 0 n) = s.
Proof.
  induction s as [|c s IH]; intros n NZ; cbn [app before_zero]; [destruct n; reflexivity|]. inversion NZ; subst.
  destruct (Z.eqb_spec c 0); [contradiction|]. rewrite IH by assumption. reflexivity.
Qed.
Lemma text_read : forall s r, no_zero s -> zlen s < 2 ^ 31 -> get_text (longSize (zlen s)) (writeBuffer s ++ r) = Some (s, r).
Proof.
  intros s r NZ L. unfold get_text. pose proof (buffer_length s L) as BL.
  assert (Z.to_nat (4 * longSize (zlen s)) = length (writeBuffer s)) as -> by (unfold zlen in BL at 1; lia).
  rewrite get_bytes_app. cbn [obind]. unfold writeBuffer, padding. rewrite before_zero_app by exact NZ. reflexivity.
Qed.
Lemma lor_type : forall a t, 0 <= a < 2 ^ 24 -> Z.lor a (t * 2 ^ 24) = a + t * 2 ^ 24.
Proof.
  intros a t B. assert (Z.land a (t * 2 ^ 24) = 0) as LD.
  { apply Z.bits_inj'. intros k K. rewrite Z.land_spec, Z.bits_0. destruct (Z.ltb_spec k 24) as [X|X].
    - rewrite Z.mul_pow2_bits_low by lia. apply andb_false_r.
    - destruct (Z.eqb_spec a 0) as [->|]; [now rewrite Z.bits_0|]. rewrite (Z.bits_above_log2 a) by (try lia; assert (Z.log2 a < 24) by (apply Z.log2_lt_pow2; lia); lia). reflexivity. }
  rewrite <- Z.lxor_lor, <- Z.add_nocarry_lxor; auto.
Qed.
Lemma size_bound : forall s, good_name s -> 0 < longSize (zlen s) < 2 ^ 24 /\ zlen s < 2 ^ 31 /\ u32 (zlen s) = zlen s.
Proof.
  intros s [_ B]. destruct (long_size (zlen s) ltac:(lia)) as [L1 L2]. split; [lia|]. split; [lia|]. apply u32_id. unfold is_u32. lia.
Qed.
Lemma header_word : forall s t, good_name s -> 0 <= t < 256 -> let w := Z.lor (longSize (u32 (zlen s))) (t * 2 ^ 24) in
  is_u32 w /\ w mod 2 ^ 24 = longSize (zlen s) /\ w / 2 ^ 24 = t /\ w <> 0.
Proof.
  intros s t G T w. destruct (size_bound s G) as (B1 & B2 & B3). unfold w. rewrite B3, lor_type by lia. set (n := longSize (zlen s)) in *. clearbody n w.
  split; [unfold is_u32; lia|]. split; [Z.div_mod_to_equations; lia|]. split; [Z.div_mod_to_equations; lia|lia].
Qed.
Lemma name_read : forall s r, no_zero s -> zlen s < 2 ^ 31 -> get_name (str_bytes s 0 ++ r) = Some (s, r).
Proof.
  intros s r NZ L. pose proof (zlen_nonneg _ s). destruct (long_size (zlen s) ltac:(lia)) as [_ L2]. unfold get_name, str_bytes. rewrite <- app_assoc, Z.lor_0_r.
  rewrite (u32_id (zlen s)) by (unfold is_u32; lia). rewrite get_long_id by (unfold is_u32; lia). cbn [obind]. apply text_read; assumption.
Qed.

Section Objects.
Variable F : fmath.
Variable A : astate.

(** ** Symbols *)
Definition names_ok (ys : list asym) : Prop := Forall (fun y => good_name (ay_name y)) ys.
Lemma symbols_read : forall ys fuel r, names_ok ys -> (length ys < fuel)%nat ->
  get_symbols fuel (concat (map (sym_bytes 0) ys) ++ long 0 ++ r) = Some (map entry_of ys, r).
Proof.
  induction ys as [|y ys IH]; intros fuel r NM LF; destruct fuel as [|fuel]; try (cbn in LF; lia); cbn [map concat get_symbols].
  - cbn [app]. rewrite get_long_id by (unfold is_u32; lia). reflexivity.
  - inversion NM as [|? ? N1 N2]; subst. unfold sym_bytes at 1, str_bytes. rewrite <- !app_assoc.
    destruct (header_word (ay_name y) 0 N1 ltac:(lia)) as (H1 & H2 & H3 & H4). cbn [Z.mul] in H1, H2, H3, H4.
    set (w := Z.lor (longSize (u32 (zlen (ay_name y)))) 0) in *. rewrite get_long_id by exact H1. cbn [obind].
    destruct (Z.eqb_spec w 0); [contradiction|]. rewrite H3, Z.eqb_refl.
    assert (WE : w = longSize (zlen (ay_name y))) by (unfold w; rewrite Z.lor_0_r; destruct (size_bound _ N1) as (_ & _ & ->); reflexivity).
    rewrite WE. rewrite text_read; [|apply N1|apply (size_bound _ N1)]. cbn [obind]. rewrite get_long_long. cbn [obind].
    rewrite IH by (try exact N2; cbn in LF; lia). reflexivity.
Qed.
Lemma defs_read : forall ys fuel r, names_ok ys -> (length ys < fuel)%nat ->
  get_ext fuel (concat (map (sym_bytes EXT_DEF) ys) ++ long 0 ++ r) = Some (([], map entry_of ys), r).
Proof.
  induction ys as [|y ys IH]; intros fuel r NM LF; destruct fuel as [|fuel]; try (cbn in LF; lia); cbn [map concat get_ext].
  - cbn [app]. rewrite get_long_id by (unfold is_u32; lia). reflexivity.
  - inversion NM as [|? ? N1 N2]; subst. unfold sym_bytes at 1, str_bytes. rewrite <- !app_assoc.
    destruct (header_word (ay_name y) 1 N1 ltac:(lia)) as (H1 & H2 & H3 & H4). change (1 * 2 ^ 24) with EXT_DEF in *.
    rewrite get_long_id by exact H1. cbn [obind]. destruct (Z.eqb_spec (Z.lor (longSize (u32 (zlen (ay_name y)))) EXT_DEF) 0); [contradiction|]. rewrite H2, H3, Z.eqb_refl.
    rewrite text_read; [|apply N1|apply (size_bound _ N1)]. cbn [obind]. rewrite get_long_long. cbn [obind].
    rewrite IH by (try exact N2; cbn in LF; lia). reflexivity.
Qed.
Definition block_fits (b : block) : Prop := good_name (fst b) /\ zlen (snd b) < 2 ^ 32 /\ Forall (fun p => is_u32 (ap_offset p)) (snd b).
Lemma ext_read : forall blocks ys fuel r, Forall block_fits blocks -> names_ok ys -> (length blocks + length ys < fuel)%nat ->
  get_ext fuel (concat (map block_bytes blocks) ++ concat (map (sym_bytes EXT_DEF) ys) ++ long 0 ++ r) = Some ((refs_of blocks, map entry_of ys), r).
Proof.
  induction blocks as [|b blocks IH]; intros ys fuel r BF NM LF.
  - cbn [map concat app]. apply defs_read; [exact NM|cbn in LF; lia].
  - destruct fuel as [|fuel]; [cbn in LF; lia|]. inversion BF as [|? ? (N1 & N2 & N3) BF']; subst. cbn [map concat get_ext]. unfold block_bytes at 1, str_bytes. rewrite <- !app_assoc.
    destruct (header_word (fst b) 129 N1 ltac:(lia)) as (H1 & H2 & H3 & H4). change (129 * 2 ^ 24) with EXT_REF32 in *.
    rewrite get_long_id by exact H1. cbn [obind]. destruct (Z.eqb_spec (Z.lor (longSize (u32 (zlen (fst b)))) EXT_REF32) 0); [contradiction|]. rewrite H2, H3.
    rewrite text_read; [|apply N1|apply (size_bound _ N1)]. cbn [obind]. change (129 =? 1) with false. change (129 =? 129) with true. cbn match.
    pose proof (zlen_nonneg _ (snd b)). rewrite get_long_id by (unfold is_u32; lia). cbn [obind].
    assert (Z.to_nat (zlen (snd b)) = length (map ap_offset (snd b))) as -> by (unfold zlen; rewrite map_length; lia).
    rewrite get_longs_concat by (apply Forall_map; exact N3). cbn [obind]. rewrite IH by (auto; cbn in LF; lia). reflexivity.
Qed.

(** ** Blocks *)
Definition with_symbols (u : ounit) (l : list (list Z * Z)) : ounit := OUnit (ou_name u) (ou_hunk u) (ou_refs u) (ou_defs u) (ou_symbols u ++ l).
Definition with_ext (u : ounit) (a b : list (list Z * Z)) : ounit := OUnit (ou_name u) (ou_hunk u) (ou_refs u ++ a) (ou_defs u ++ b) (ou_symbols u).
Lemma unit_same : forall u, with_symbols u [] = u /\ with_ext u [] [] = u.
Proof. intros [n h a b c]. unfold with_symbols, with_ext. cbn [ou_name ou_hunk ou_refs ou_defs ou_symbols]. rewrite !app_nil_r. auto. Qed.
Lemma relocs_same : forall u, more_relocs [] u = u.
Proof. intros [n [k c l d r] a b e]. unfold more_relocs. cbn [ou_name ou_hunk ou_refs ou_defs ou_symbols h_kind h_chip h_longs h_data h_relocs]. now rewrite app_nil_r. Qed.
Lemma concat_longer : forall {T} (f : T -> list Z) l, (forall x, (1 <= length (f x))%nat) -> (length l <= length (concat (map f l)))%nat.
Proof. intros T f l H. induction l as [|x l IH]; [cbn; lia|]. cbn [map concat length]. rewrite app_length. specialize (H x). lia. Qed.
Lemma sym_bytes_long : forall flags y, (1 <= length (sym_bytes flags y))%nat.
Proof. intros. unfold sym_bytes, str_bytes. rewrite !app_length, !length_long. lia. Qed.
Lemma block_bytes_long : forall b, (1 <= length (block_bytes b))%nat.
Proof. intros. unfold block_bytes, str_bytes. rewrite !app_length, !length_long. lia. Qed.
Lemma symbol_block_read : forall fuel k u r, names_ok (as_symbols A) -> (2 <= fuel)%nat ->
  get_blocks fuel u (symbol_block A k ++ long HUNK_END ++ r) = Some (with_symbols u (map entry_of (filter (isLabelIn k) (as_symbols A))), r).
Proof.
  intros fuel k u r NM LF. assert (END : forall n u, get_blocks (S n) u (long HUNK_END ++ r) = Some (u, r)).
  { intros n u'. cbn [get_blocks]. rewrite get_long_id by (unfold is_u32, HUNK_END; lia). reflexivity. }
  assert (NF : names_ok (filter (isLabelIn k) (as_symbols A))).
  { unfold names_ok in *. rewrite Forall_forall in *. intros y Y. apply filter_In in Y as [Y _]. auto. }
  unfold symbol_block. destruct (filter (isLabelIn k) (as_symbols A)) as [|y ys].
  - cbn [map app]. rewrite (proj1 (unit_same u)). destruct fuel; [lia|]. apply END.
  - destruct fuel as [|[|fuel]]; [lia|lia|]. rewrite <- !app_assoc.
    change (get_blocks (S (S fuel)) u ?s) with (let? (w, s1) := get_long s in
      if w =? 1010 then Some (u, s1) else if w =? 1004 then let? (rs, s2) := get_relocs (length s1) s1 in get_blocks (S fuel) (more_relocs rs u) s2
      else if w =? 1007 then let? (x, s2) := get_ext (length s1) s1 in get_blocks (S fuel) (with_ext u (fst x) (snd x)) s2
      else if w =? 1008 then let? (x, s2) := get_symbols (length s1) s1 in get_blocks (S fuel) (with_symbols u x) s2 else None).
    rewrite get_long_id by (unfold is_u32, HUNK_SYMBOL; lia). cbn [obind]. change (HUNK_SYMBOL =? 1010) with false. change (HUNK_SYMBOL =? 1004) with false.
    change (HUNK_SYMBOL =? 1007) with false. change (HUNK_SYMBOL =? 1008) with true. cbn match.
    rewrite symbols_read; [cbn [obind]; apply END|exact NF|]. rewrite !app_length, !length_long. pose proof (concat_longer (sym_bytes 0) (y :: ys) (sym_bytes_long 0)). lia.
Qed.
Lemma ext_block_read : forall fuel k blocks u r, names_ok (as_symbols A) -> Forall block_fits blocks -> (3 <= fuel)%nat ->
  get_blocks fuel u (ext_block A k blocks ++ symbol_block A k ++ long HUNK_END ++ r) =
  Some (with_symbols (with_ext u (refs_of blocks) (map entry_of (filter (isExportIn k) (as_symbols A)))) (map entry_of (filter (isLabelIn k) (as_symbols A))), r).
Proof.
  intros fuel k blocks u r NM BF LF.
  assert (NF : names_ok (filter (isExportIn k) (as_symbols A))).
  { unfold names_ok in *. rewrite Forall_forall in *. intros y Y. apply filter_In in Y as [Y _]. auto. }
  set (ys := filter (isExportIn k) (as_symbols A)) in *.
  assert (CASE : ext_block A k blocks = [] /\ blocks = [] /\ ys = [] \/
    ext_block A k blocks = long HUNK_EXT ++ concat (map block_bytes blocks) ++ concat (map (sym_bytes EXT_DEF) ys) ++ long 0).
  { unfold ext_block. fold ys. destruct blocks; destruct ys; auto. }
  destruct CASE as [(-> & -> & ->)| ->].
  - cbn [app map refs_of concat]. unfold refs_of. cbn [map concat]. rewrite (proj2 (unit_same u)). apply symbol_block_read; [exact NM|lia].
  - destruct fuel as [|fuel]; [lia|]. rewrite <- !app_assoc.
    change (get_blocks (S fuel) u ?s) with (let? (w, s1) := get_long s in
      if w =? 1010 then Some (u, s1) else if w =? 1004 then let? (rs, s2) := get_relocs (length s1) s1 in get_blocks fuel (more_relocs rs u) s2
      else if w =? 1007 then let? (x, s2) := get_ext (length s1) s1 in get_blocks fuel (with_ext u (fst x) (snd x)) s2
      else if w =? 1008 then let? (x, s2) := get_symbols (length s1) s1 in get_blocks fuel (with_symbols u x) s2 else None).
    rewrite get_long_id by (unfold is_u32, HUNK_EXT; lia). cbn [obind]. change (HUNK_EXT =? 1010) with false. change (HUNK_EXT =? 1004) with false.
    change (HUNK_EXT =? 1007) with true. cbn match. rewrite ext_read; [|exact BF|exact NF|].
    + cbn [obind fst snd]. apply symbol_block_read; [exact NM|lia].
    + rewrite !app_length, !length_long. pose proof (concat_longer (sym_bytes EXT_DEF) ys (sym_bytes_long EXT_DEF)). pose proof (concat_longer block_bytes blocks block_bytes_long). lia.
Qed.
Lemma blocks_read : forall fuel k w per blocks u r, names_ok (as_symbols A) -> Forall block_fits blocks -> (4 <= fuel)%nat ->
  section_ok A w -> placed A true w per blocks -> ws_usedSpace w = zlen (ws_data w) -> zlen (as_sections A) < 2 ^ 32 ->
  get_blocks fuel u (reloc_block per ++ ext_block A k blocks ++ symbol_block A k ++ long HUNK_END ++ r) =
  Some (with_symbols (with_ext (more_relocs (flat 0 (map (map ap_offset) per)) u) (refs_of blocks) (map entry_of (filter (isExportIn k) (as_symbols A))))
         (map entry_of (filter (isLabelIn k) (as_symbols A))), r).
Proof.
  intros fuel k w per blocks u r NM BF LF SO PL UD CT. destruct (per_offsets A _ _ _ _ SO PL UD) as [U1 U2].
  unfold reloc_block. destruct (existsb _ per) eqn:E.
  - destruct fuel as [|fuel]; [lia|]. rewrite <- !app_assoc.
    change (get_blocks (S fuel) u ?s) with (let? (w, s1) := get_long s in
      if w =? 1010 then Some (u, s1) else if w =? 1004 then let? (rs, s2) := get_relocs (length s1) s1 in get_blocks fuel (more_relocs rs u) s2
      else if w =? 1007 then let? (x, s2) := get_ext (length s1) s1 in get_blocks fuel (with_ext u (fst x) (snd x)) s2
      else if w =? 1008 then let? (x, s2) := get_symbols (length s1) s1 in get_blocks fuel (with_symbols u x) s2 else None).
    rewrite get_long_id by (unfold is_u32, HUNK_RELOC32; lia). cbn [obind]. change (HUNK_RELOC32 =? 1010) with false. change (HUNK_RELOC32 =? 1004) with true. cbn match.
    rewrite get_relocs_written; [|exact U1|exact U2|lia| |].
    + cbn [obind]. apply ext_block_read; [exact NM|exact BF|lia].
    + pose proof (pl_length _ _ _ _ _ PL) as L. unfold zlen in *. rewrite map_length. lia.
    + rewrite !app_length, !length_long. lia.
  - cbn [app]. rewrite (none_flat A) by exact E. rewrite relocs_same. apply ext_block_read; [exact NM|exact BF|lia].
Qed.

(** ** Units *)
Lemma label_filter : forall k, filter (isLabelIn k) (as_symbols A) = labels A k.
Proof.
  intro k. unfold labels. apply filter_ext. intro y. unfold isLabelIn, in_section, osect_eqb. destruct (y_section (ay_sym y)); reflexivity.
Qed.
Lemma export_filter : forall k, filter (isExportIn k) (as_symbols A) = filter ay_export (labels A k).
Proof.
  intro k. rewrite <- label_filter. induction (as_symbols A) as [|y ys IH]; [reflexivity|]. cbn [filter]. unfold isExportIn at 1, isLabelIn at 1.
  destruct (y_reloc (ay_sym y)); cbn [andb]; [|exact IH]. destruct (in_section y k); [|rewrite andb_false_r; exact IH]. rewrite andb_true_r. cbn [filter].
  destruct (ay_export y); rewrite IH; reflexivity.
Qed.
Lemma blocks_fit : forall w per blocks, linkable A -> section_ok A w -> placed A true w per blocks -> ws_usedSpace w = zlen (ws_data w) -> Forall block_fits blocks.
Proof.
  intros w per blocks LK (S1 & _ & S3 & S4 & _) PL UD. pose proof (pl_all _ _ _ _ _ PL) as P. pose proof (pl_blocks _ _ _ _ _ PL) as BO. rewrite Forall_forall in *.
  intros b B. destruct (BO b B) as (s & y & Y & NM & _). split; [|split].
  - rewrite NM. pose proof (lk_names A LK) as LN. rewrite Forall_forall in LN. apply (LN y), (nth_error_In _ _ Y).
  - apply Permutation_length in P. rewrite app_length in P. unfold zlen in *. assert (length (snd b) <= length (concat (map snd blocks)))%nat; [|lia].
    clear - B. induction blocks as [|q per IH]; [destruct B|]. cbn [map concat]. rewrite app_length. destruct B as [->|B]; [lia|]. specialize (IH B). lia.
  - apply Forall_forall. intros p Q. assert (I : In p (ws_patches w)) by (rewrite <- P; apply in_or_app; right; apply in_concat; exists (snd b); split; [apply in_map, B|exact Q]).
    destruct (S4 p I) as (X1 & X2 & _). unfold is_u32. lia.
Qed.
Lemma kind_mod : forall g, ay_groupType g = 0 -> type_of g mod 2 ^ 30 = type_of g /\ Z.testbit (type_of g) 30 = false.
Proof. intros g G. unfold type_of, HUNK_DATA, HUNK_CODE. destruct (ay_data g); split; reflexivity. Qed.
Lemma object_section : forall d k w f', linkable A -> section_ok A w -> In w (as_sections A) -> zlen (as_sections A) < 2 ^ 32 ->
  writeSection true A (fputstr (fputbl (ended d) HUNK_NAME) (ws_name w) 0) k w true true = Ok f' ->
  exists bs u, f' = ended (d ++ bs) /\ links F A k w u /\ bs <> [] /\ forall rest, get_unit (bs ++ rest) = Some (u, rest).
Proof.
  intros d k w f' LK SO IW CT H. rewrite put_end, putstr_end in H.
  destruct (nth_error (as_symbols A) (ws_group w)) as [g|] eqn:G; [|unfold writeSection in H; rewrite G in H; discriminate].
  pose proof SO as (S1 & S2 & _). destruct (long_size _ S1) as [L1 L2]. pose proof (lk_names A LK) as NM. fold (names_ok (as_symbols A)) in NM.
  pose proof (lk_sections A LK) as LS. rewrite Forall_forall in LS. destruct (LS w IW) as (Z1 & Z2 & AO).
  assert (NAME : forall r, get_unit (long HUNK_NAME ++ str_bytes (ws_name w) 0 ++ r) =
    let? (t, s3) := get_long r in
    let? k := HunkSpec.kind_of (t mod 2 ^ 30) in
    let? (n, s4) := get_long s3 in
    let? (d, s5) := match k with Bss => Some ([], s4) | _ => get_bytes (Z.to_nat (4 * n)) s4 end in
    get_blocks (length s5) (OUnit (ws_name w) (Hunk k (Z.testbit t 30) n d []) [] [] []) s5).
  { intro r. unfold get_unit. rewrite get_long_id by (unfold is_u32, HUNK_NAME; lia). cbn [obind]. change (HUNK_NAME =? 1000) with true. cbn match.
    rewrite name_read by assumption. reflexivity. }
  destruct (Z.eq_dec (ay_groupType g) 0) as [GT|GT].
  - destruct (text_section A _ _ _ _ _ _ _ G GT SO H) as (per & blocks & PL & ->).
    specialize (S2 g G GT). destruct (long_kind A g GT) as (K1 & K2 & K3). destruct (kind_mod g GT) as [K4 K5].
    assert (BL : zlen (body_of A w per blocks) = 4 * longSize (ws_usedSpace w)).
    { rewrite (body_length A _ _ _ _ SO PL), buffer_length by lia. now rewrite S2. }
    exists (long HUNK_NAME ++ str_bytes (ws_name w) 0 ++ long (type_of g) ++ long (longSize (ws_usedSpace w)) ++ body_of A w per blocks ++ reloc_block per ++ ext_block A k blocks ++ symbol_block A k ++ long HUNK_END).
    exists (OUnit (ws_name w) (Hunk (section_kind g) false (longSize (ws_usedSpace w)) (body_of A w per blocks) (flat 0 (map (map ap_offset) per)))
      (refs_of blocks) (map entry_of (filter (isExportIn k) (as_symbols A))) (map entry_of (filter (isLabelIn k) (as_symbols A)))).
    split; [rewrite <- !app_assoc; reflexivity|]. split; [|split].
    + exists g. cbn [ou_name ou_hunk ou_refs ou_defs ou_symbols h_kind h_longs h_data h_relocs]. split; [exact G|]. split; [reflexivity|]. split; [reflexivity|]. split; [exact L1|].
      split; [now rewrite export_filter|]. split; [now rewrite label_filter|]. split; [intro X; contradiction|].
      intros _ base E value EN VAL.
      match goal with |- context [linked ?s value ?u] => assert (mE : linked s value u = adds (import_adds value blocks) (adds (reloc_adds base 0 per) (body_of A w per blocks))) end.
      { unfold linked. cbn [ou_refs ou_hunk]. rewrite import_adds_linked. unfold import_adds. f_equal. apply (reloc_adds_relocate base per 0). }
      rewrite mE. pose proof (memory_ok F A w per blocks (writeBuffer (ws_data w)) base E value (pl_all _ _ _ _ _ PL) (pl_relative _ _ _ _ _ PL) (pl_blocks _ _ _ _ _ PL)) as MO.
      destruct MO as [M1 M2]; auto.
      * pose proof SO as (_ & _ & _ & S4 & _). pose proof (inside_buffer A w (ws_patches w) SO (incl_refl _)) as IB. rewrite Forall_forall in *. intros p Q. split; [apply (IB p Q)|apply (S4 p Q)].
      * apply SO.
      * intros i I. apply (nth_buffer A); lia.
      * split; [|exact M2]. unfold body_of. rewrite M1, buffer_length by lia. now rewrite S2.
    + intro X. apply (f_equal (@length Z)) in X. rewrite app_length, length_long in X. cbn in X. lia.
    + intro rest. rewrite <- !app_assoc. rewrite NAME. rewrite get_long_id by exact K3. cbn [obind]. rewrite K4, K1, K5. cbn [obind].
      rewrite get_long_id by (unfold is_u32; lia). cbn [obind].
      assert (Z.to_nat (4 * longSize (ws_usedSpace w)) = length (body_of A w per blocks)) as -> by (unfold zlen in BL; lia).
      rewrite get_bytes_app.
      destruct (section_kind g); [| |contradiction]; cbn [obind]; rewrite (blocks_read _ k w per blocks) by
        (try assumption; try lia; try (rewrite !app_length, !length_long; lia); apply (blocks_fit w per blocks LK SO PL); lia); reflexivity.
  - rewrite (bss_section A _ _ _ _ _ _ _ G GT H).
    assert (KB : section_kind g = Bss) by (unfold section_kind; destruct (Z.eqb_spec (ay_groupType g) 0); [contradiction|reflexivity]).
    exists (long HUNK_NAME ++ str_bytes (ws_name w) 0 ++ long HUNK_BSS ++ long (longSize (ws_usedSpace w)) ++ ext_block A k [] ++ symbol_block A k ++ long HUNK_END).
    exists (OUnit (ws_name w) (Hunk Bss false (longSize (ws_usedSpace w)) [] []) [] (map entry_of (filter (isExportIn k) (as_symbols A))) (map entry_of (filter (isLabelIn k) (as_symbols A)))).
    split; [rewrite <- !app_assoc; reflexivity|]. split; [|split].
    + exists g. cbn [ou_name ou_hunk ou_refs ou_defs ou_symbols h_kind h_longs h_data h_relocs]. rewrite KB. split; [exact G|]. split; [reflexivity|]. split; [reflexivity|]. split; [exact L1|].
      split; [now rewrite export_filter|]. split; [now rewrite label_filter|]. split; [auto|]. intro X. contradiction.
    + intro X. apply (f_equal (@length Z)) in X. rewrite app_length, length_long in X. cbn in X. lia.
    + intro rest. rewrite <- !app_assoc. rewrite NAME. rewrite get_long_id by (unfold is_u32, HUNK_BSS; lia). cbn [obind].
      change (HUNK_BSS mod 2 ^ 30) with HUNK_BSS. change (HunkSpec.kind_of HUNK_BSS) with (Some Bss). change (Z.testbit HUNK_BSS 30) with false. cbn [obind].
      rewrite get_long_id by (unfold is_u32; lia). cbn [obind]. rewrite ext_block_read; [reflexivity|exact NM|constructor|]. rewrite !app_length, !length_long. lia.
Qed.
Lemma object_sections : forall ws k d f', linkable A -> Forall (section_ok A) ws -> incl ws (as_sections A) -> zlen (as_sections A) < 2 ^ 32 ->
  objectSections true A k ws (ended d) = Ok f' ->
  exists bs us, f' = ended (d ++ bs) /\ length us = length ws /\ (length ws <= length bs)%nat /\
    (forall i w u, nth_error ws i = Some w -> nth_error us i = Some u -> links F A (k + i) w u) /\
    forall fuel, (length ws <= fuel)%nat -> get_units fuel bs = Some us.
Proof.
  induction ws as [|w ws IH]; intros k d f' LK FO IN CT H; cbn [objectSections] in H.
  - injection H as <-. exists [], []. rewrite app_nil_r. split; [reflexivity|]. split; [reflexivity|]. split; [cbn; lia|]. split; [intros [|i]; discriminate|]. intros [|fuel] _; reflexivity.
  - destruct (writeSection _ _ _ _ _ _ _) as [f1| |] eqn:W; try discriminate. cbn [bind] in H. inversion FO as [|? ? O1 O2]; subst.
    destruct (object_section _ _ _ _ LK O1 (IN w (or_introl eq_refl)) CT W) as (b1 & u & -> & LD & NE & R1).
    destruct (IH _ _ _ LK O2 (fun x X => IN x (or_intror X)) CT H) as (b2 & us & -> & LU & LB & LS & R2). exists (b1 ++ b2), (u :: us).
    split; [now rewrite app_assoc|]. split; [cbn; lia|]. split; [rewrite app_length; destruct b1; [contradiction|cbn; lia]|]. split.
    + intros [|i] w' u' N1 N2; cbn [nth_error] in N1, N2.
      * injection N1 as <-. injection N2 as <-. rewrite Nat.add_0_r. exact LD.
      * rewrite Nat.add_succ_r. apply (LS i); assumption.
    + intros fuel LF. destruct fuel as [|fuel]; [cbn in LF; lia|]. destruct b1 as [|c b1]; [contradiction|]. cbn [app get_units].
      change (c :: b1 ++ b2) with ((c :: b1) ++ b2). rewrite R1. cbn [obind]. rewrite R2 by (cbn in LF; lia). reflexivity.
Qed.
Lemma object_ok : forall source f, hunkable A -> linkable A -> no_zero source -> zlen source < 2 ^ 31 -> ami_WriteObject true A source = Ok f ->
  exists us, object_load f = Some (source, us) /\ length us = length (as_sections A) /\
    forall k w u, nth_error (as_sections A) k = Some w -> nth_error us k = Some u -> links F A k w u.
Proof.
  intros source f [CT SC] LK NZ SL H. unfold ami_WriteObject in H. change emptyFile with (ended []) in H. rewrite put_end, putstr_end in H.
  destruct (objectSections _ _ _ _ _) as [f1| |] eqn:OS; try discriminate. cbn [bind] in H. injection H as <-.
  destruct (object_sections _ _ _ _ LK SC (incl_refl _) CT OS) as (bs & us & -> & LU & LB & LS & R). exists us. cbn [ended f_data]. split; [|split; [exact LU|]].
  - unfold object_load. rewrite <- !app_assoc. cbn [app]. rewrite get_long_id by (unfold is_u32, HUNK_UNIT; lia). cbn [obind]. change (HUNK_UNIT =? 999) with true. cbn match.
    rewrite name_read by assumption. cbn [obind]. rewrite R by exact LB. reflexivity.
  - intros k w u N1 N2. apply (LS k w u N1 N2).
Qed.

(** ** Programs that can be written *)
Lemma movable_offset : forall e, movable A e -> exists k a v, nth_error (w_sections (worldOf A)) k = Some a /\ expr_GetSectionOffset (worldOf A) e k a = Some v.
Proof.
  intros e M. induction M as [c o v s l r y k w Y RL SK W FZ|c v s l r M IH C|c v s l r M IH C|c v s l r C M IH].
  - assert (NA : nth_error (w_sections (worldOf A)) k = Some (ws_sect w)) by (cbn [worldOf w_sections]; rewrite nth_error_map, W; reflexivity).
    exists k, (ws_sect w). cbn [expr_GetSectionOffset]. unfold getSymbolSectionOffset.
    assert (SY : w_symbol (worldOf A) s = ay_sym y) by (cbn [worldOf w_symbol]; unfold symbolOf; now rewrite Y). rewrite SY, RL, SK, FZ.
    assert (a_loadfixed (ws_sect w) = false) as -> by (unfold flags_zero in FZ; destruct (a_loadfixed (ws_sect w)); [discriminate|reflexivity]).
    rewrite !andb_false_r. cbn [osect_eqb]. rewrite Nat.eqb_refl. cbn [andb]. eexists. split; [exact NA|reflexivity].
  - destruct IH as (k & a & x & NA & G). exists k, a. cbn [expr_GetSectionOffset]. rewrite G, C. eauto.
  - destruct IH as (k & a & x & NA & G). exists k, a. cbn [expr_GetSectionOffset]. rewrite G, C. eauto.
  - destruct IH as (k & a & x & NA & G). exists k, a. cbn [expr_GetSectionOffset]. rewrite G, C.
    destruct (match expr_GetSectionOffset (worldOf A) l k a with Some off => if expr_IsConstant r then Some (u32 (off + e_v r)) else None | None => None end); eauto.
Qed.
Lemma offset_found : forall ss e k i a v, nth_error ss i = Some a -> expr_GetSectionOffset (worldOf A) e (k + i) a = Some v ->
  exists x, sectionAndOffset (worldOf A) e k ss = Some x.
Proof.
  induction ss as [|b ss IH]; intros e k i a v N G; [destruct i; discriminate|]. cbn [sectionAndOffset]. destruct (expr_GetSectionOffset (worldOf A) e k b) eqn:Q; [eauto|].
  destruct i as [|i]; [injection N as <-; rewrite Nat.add_0_r in G; congruence|]. apply (IH e (S k) i a v N). rewrite Nat.add_succ_r in G. exact G.
Qed.
Lemma movable_found : forall e, movable A e -> exists x, expr_GetSectionAndOffset (worldOf A) e = Some x.
Proof. intros e M. destruct (movable_offset e M) as (k & a & v & NA & G). apply (offset_found _ e 0 k a v NA G). Qed.
Lemma import_found : forall e, imported_sum A e -> exists x, expr_GetImportOffset A e = Some x.
Proof.
  intros e M. induction M as [c o v s l r y Y IM|c v s l r M IH C|c v s l r M IH C|c v s l r C M IH]; cbn [expr_GetImportOffset].
  - unfold isImport, symbolOf. rewrite Y. unfold imported in IM. destruct (y_type (ay_sym y)); try discriminate; cbn; eauto.
  - destruct IH as [[off t] G]. cbn [offsetOfSum]. rewrite G, C. eauto.
  - destruct IH as [[off t] G]. cbn [offsetOfSum]. rewrite G, C. eauto.
  - destruct IH as [[off t] G]. cbn [offsetOfSum]. rewrite G, C. destruct (expr_GetImportOffset A l) as [[o1 s1]|]; [|eauto]. destruct (expr_IsConstant r); eauto.
Qed.
Definition placeable (link : bool) (p : apatch) : Prop := ap_type p = PATCH_BE_32 /\ (movable A (ap_expr p) \/ link = true /\ imported_sum A (ap_expr p)).
Lemma sort_all : forall link ps per imps, Forall (placeable link) ps -> exists per' imps', sortPatches A link ps per imps = (per', imps', []).
Proof.
  intros link. induction ps as [|p ps IH]; intros per imps FP; cbn [sortPatches]; [eauto|]. inversion FP as [|? ? (T & M) FP']; subst. rewrite T, Z.eqb_refl.
  destruct (expr_GetSectionAndOffset (worldOf A) (ap_expr p)) as [[k off]|] eqn:G; [apply IH, FP'|].
  destruct M as [M|[-> M]]; [apply movable_found in M as [x M]; congruence|]. destruct (import_found _ M) as [x ->]. apply IH, FP'.
Qed.
Lemma writes_section : forall d k w dbg link, section_ok A w -> nth_error (as_symbols A) (ws_group w) <> None -> Forall (placeable link) (ws_patches w) ->
  exists bs, writeSection true A (ended d) k w dbg link = Ok (ended (d ++ bs)).
Proof.
  intros d k w dbg link SO GN FP. destruct (nth_error (as_symbols A) (ws_group w)) as [g|] eqn:G; [|contradiction].
  assert (X : exists f', writeSection true A (ended d) k w dbg link = Ok f').
  { unfold writeSection. rewrite G. change GROUP_TEXT with 0. destruct (Z.eqb_spec (ay_groupType g) 0) as [GT|GT].
    - rewrite !put_end, putbuf_end. destruct (sort_all link (ws_patches w) (repeat [] (length (as_sections A))) [] FP) as (per & imps & SP). rewrite SP.
      destruct (sorted A _ _ _ _ _ _ SP) as (L & R & P & I & FT).
      { apply repeat_length. }
      { intros i qs N. apply nth_error_In, repeat_spec in N. subst. constructor. }
      assert (concat (repeat (@nil apatch) (length (as_sections A))) = []) as CR by (clear; induction (length (as_sections A)) as [|n IH]; [reflexivity|exact IH]).
      rewrite CR in P. cbn [app] in P.
      assert (INP : incl (concat per) (ws_patches w)) by (intros q Q; rewrite <- P; apply in_or_app; auto).
      assert (INI : incl imps (ws_patches w)) by (intros q Q; rewrite <- P; apply in_or_app; auto).
      match goal with |- context [ended (?p ++ writeBuffer (ws_data w))] => set (pre := p) end.
      change (ftell (ended pre)) with (zlen pre).
      pose proof (reloc32_put A per pre (writeBuffer (ws_data w)) []) as RP. rewrite app_nil_r in RP. rewrite RP; clear RP; [|lia| |exact R].
      2: { apply Forall_forall. intros ps PS. apply (inside_buffer A w); [exact SO|]. intros q Q. apply INP, in_concat. eauto. }
      cbn [bind]. destruct link; [|eexists; reflexivity].
      set (b1 := puts (reloc_puts A 0 per) (writeBuffer (ws_data w))).
      assert (ZB : zlen b1 = zlen (writeBuffer (ws_data w))).
      { apply puts_length. rewrite Forall_forall. intros x X. apply (in_map fst) in X. rewrite reloc_puts_fst in X. apply in_map_iff in X as (p & <- & X).
        pose proof (inside_buffer A w (concat per) SO INP) as Q. rewrite Forall_forall in Q. apply (Q p X). }
      destruct (ext_hunk A (ended (pre ++ b1 ++ [] ++ reloc_block per)) k imps pre b1 ([] ++ reloc_block per)) as (blocks & f1 & W & _).
      { apply settled_end. }
      { unfold inside. rewrite ZB. apply (inside_buffer A w imps SO INI). }
      { apply Forall_forall. intros q Q. destruct (I q Q) as [[]|(_ & [v s] & X)]. pose proof X as X'. apply import_symbolic in X as [X _].
        destruct (symbol_there A s X) as (y & Y & _). exists v, s, y. auto. }
      rewrite W. cbn [bind]. eexists; reflexivity.
    - rewrite !put_end. destruct link; [|eexists; reflexivity].
      match goal with |- context [writeExtHunk A (ended ?p)] => destruct (ext_hunk A (ended p) k [] [] p []) as (blocks & f1 & W & _); [rewrite app_nil_r; apply settled_end|constructor|constructor|] end.
      change (zlen (@nil Z)) with 0 in W. rewrite W. cbn [bind]. eexists; reflexivity. }
  destruct X as [f' X]. rewrite X. destruct (Z.eq_dec (ay_groupType g) 0) as [GT|GT].
  - destruct (text_section A _ _ _ _ _ _ _ G GT SO X) as (per & blocks & _ & ->). eauto.
  - rewrite (bss_section A _ _ _ _ _ _ _ G GT X). eauto.
Qed.
Lemma executable_total : hunkable A -> has_groups A ->
  Forall (fun w => Forall (fun p => ap_type p = PATCH_BE_32 /\ movable A (ap_expr p)) (ws_patches w)) (as_sections A) -> exists f, ami_WriteExecutable true A = Ok f.
Proof.
  intros [CT SC] HG FP. unfold ami_WriteExecutable, writeSectionNames. change emptyFile with (ended []). rewrite put_end.
  assert (N : exists d, fputbl (if as_debug A then fold_left (fun f w => fputstr f (ws_name w) 0) (as_sections A) (ended ([] ++ long HUNK_HEADER)) else ended ([] ++ long HUNK_HEADER)) 0 = ended d).
  { destruct (as_debug A); [|rewrite put_end; eauto]. clear. generalize ([] ++ long HUNK_HEADER). induction (as_sections A) as [|w ws IH]; intro d; cbn [fold_left]; [rewrite put_end; eauto|].
    rewrite putstr_end. apply IH. }
  destruct N as [d ->]. rewrite !put_end.
  assert (SE : forall ws d, Forall (fun w => nth_error (as_symbols A) (ws_group w) <> None) ws -> exists d', sizeEntries true A ws (ended d) = Ok (ended d')).
  { induction ws as [|w ws IH]; intros d0 FG; cbn [sizeEntries]; [eauto|]. inversion FG as [|? ? G1 G2]; subst. unfold sizeEntry.
    destruct (nth_error (as_symbols A) (ws_group w)) as [g|]; [|contradiction]. cbn [bind]. rewrite put_end. apply IH, G2. }
  match goal with |- context [sizeEntries true A _ (ended ?x)] => destruct (SE (as_sections A) x HG) as [d2 ->] end. cbn [bind].
  assert (ES : forall ws k d, Forall (section_ok A) ws -> Forall (fun w => nth_error (as_symbols A) (ws_group w) <> None) ws ->
    Forall (fun w => Forall (fun p => ap_type p = PATCH_BE_32 /\ movable A (ap_expr p)) (ws_patches w)) ws -> exists f, executableSections true A k ws (ended d) = Ok f).
  { induction ws as [|w ws IH]; intros k d0 FO FG FM; cbn [executableSections]; [eauto|]. inversion FO as [|? ? O1 O2]; subst. inversion FG as [|? ? G1 G2]; subst. inversion FM as [|? ? M1 M2]; subst.
    destruct (writes_section d0 k w (as_debug A) false O1 G1) as [bs ->].
    { eapply Forall_impl; [|exact M1]. intros p [T M]. split; [exact T|left; exact M]. }
    cbn [bind]. apply IH; assumption. }
  destruct (ES (as_sections A) 0%nat d2 SC HG FP) as [f ->]. cbn [bind]. eauto.
Qed.
Lemma object_total : forall source, hunkable A -> has_groups A ->
  Forall (fun w => Forall (fun p => ap_type p = PATCH_BE_32 /\ (movable A (ap_expr p) \/ imported_sum A (ap_expr p))) (ws_patches w)) (as_sections A) ->
  exists f, ami_WriteObject true A source = Ok f.
Proof.
  intros source [CT SC] HG FP. unfold ami_WriteObject. change emptyFile with (ended []). rewrite put_end, putstr_end.
  assert (ES : forall ws k d, Forall (section_ok A) ws -> Forall (fun w => nth_error (as_symbols A) (ws_group w) <> None) ws ->
    Forall (fun w => Forall (fun p => ap_type p = PATCH_BE_32 /\ (movable A (ap_expr p) \/ imported_sum A (ap_expr p))) (ws_patches w)) ws -> exists f, objectSections true A k ws (ended d) = Ok f).
  { induction ws as [|w ws IH]; intros k d0 FO FG FM; cbn [objectSections]; [eauto|]. inversion FO as [|? ? O1 O2]; subst. inversion FG as [|? ? G1 G2]; subst. inversion FM as [|? ? M1 M2]; subst.
    rewrite put_end, putstr_end. match goal with |- context [writeSection true A (ended ?x)] => destruct (writes_section x k w true true O1 G1) as [bs ->] end.
    { eapply Forall_impl; [|exact M1]. intros p [T [M|M]]; (split; [exact T|auto]). }
    cbn [bind]. apply IH; assumption. }
  match goal with |- context [objectSections true A 0 _ (ended ?x)] => destruct (ES (as_sections A) 0%nat x SC HG FP) as [f ->] end. cbn [bind]. eauto.
Qed.
End Objects.
