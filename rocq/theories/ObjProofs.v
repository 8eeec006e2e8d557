From Coq Require Import ZArith List Bool Lia ZifyBool ZifyNat.
From Verif Require Import Base BaseFacts XlibModel AssignModel LinkModel ObjModel ObjSpec.
Import ListNotations.
Open Scope Z_scope.

(** [f] reads [x] from [bs], whatever follows. *)
Definition reads {A : Type} (f : rd A) (bs : list Z) (x : A) : Prop :=
  forall r, f (bs ++ r) = Ok (x, r).

Lemma reads_byte : forall b, reads r_byte [b] b.
Proof. intros b r. reflexivity. Qed.
Lemma reads_int : forall z, reads r_word (int z) (u32 z).
Proof. intros z r. unfold r_word, int. now rewrite get32_le32 by apply u32_range. Qed.
Lemma reads_u32 : forall z, is_u32 z -> reads r_word (int z) z.
Proof. intros z H. rewrite <- (u32_id z H) at 2. apply reads_int. Qed.
Lemma reads_s32 : forall z, is_s32 z -> reads r_int (int z) z.
Proof.
  intros z H r. unfold r_int. rewrite reads_int. cbn [bind].
  now rewrite s32_u32, s32_id.
Qed.
Lemma reads_flag : forall b : bool, reads r_flag [if b then 1 else 0] b.
Proof. intros [|] r; reflexivity. Qed.
Lemma reads_string : forall s, cstr s -> reads r_string (asciiz s) s.
Proof.
  intros s H r. unfold r_string, asciiz. rewrite <- app_assoc. cbn [app]. now rewrite getsz_app.
Qed.
Lemma reads_name : forall s, name_ok s -> reads r_name (asciiz s) s.
Proof.
  intros s [H L] r. unfold r_name, asciiz. rewrite <- app_assoc. cbn [app]. rewrite getsz_app by auto.
  unfold MAX_SYMBOL_NAME_LENGTH. destruct (256 <=? zlen s) eqn:E; [lia|reflexivity].
Qed.
Lemma reads_bytes : forall d n, zlen d = n -> reads (r_bytes n) d d.
Proof. intros d n <- r. unfold r_bytes. rewrite take_app' by (unfold zlen; lia). reflexivity. Qed.
Lemma reads_times : forall A B (f : rd B) (enc : A -> list Z) (dec : A -> B) l,
  Forall (fun x => reads f (enc x) (dec x)) l ->
  reads (r_times (length l) f) (concat (map enc l)) (map dec l).
Proof.
  intros A B f enc dec l H. induction H as [|x l Hx Hl IH]; intro r; [reflexivity|].
  cbn [length r_times map concat]. rewrite <- app_assoc, Hx. cbn [bind]. rewrite IH. reflexivity.
Qed.
Lemma reads_list : forall A B (f : rd B) (enc : A -> list Z) (dec : A -> B) l,
  is_u32 (zlen l) -> Forall (fun x => reads f (enc x) (dec x)) l ->
  reads (fun s => let! (n, s1) := r_word s in r_times (Z.to_nat n) f s1) (list_of enc l) (map dec l).
Proof.
  intros A B f enc dec l U H r. unfold list_of. rewrite <- app_assoc, reads_u32 by auto.
  cbn [bind]. unfold zlen. rewrite Nat2Z.id. now apply reads_times.
Qed.
Lemma reads_since : forall A (f : rd A) version v d bs x,
  (version >=? v = true -> reads f bs x) ->
  reads (since version v d f) (from version v bs) (default version v d x).
Proof.
  intros A f version v d bs x H r. unfold since, from, default.
  destruct (version >=? v); [now apply H|reflexivity].
Qed.

(** ** Groups *)
Lemma low_high_disjoint : forall t k, 0 <= t < 2 ^ 29 -> Z.land t (k * 2 ^ 29) = 0.
Proof.
  intros t k Ht. rewrite <- Z.shiftl_mul_pow2 by lia.
  apply Z.bits_inj'. intros n Hn. rewrite Z.land_spec, Z.bits_0.
  destruct (Z.ltb_spec n 29).
  - rewrite Z.shiftl_spec_low by lia. apply andb_false_r.
  - replace (Z.testbit t n) with false; [reflexivity|]. symmetry.
    rewrite <- (Z.mod_small t (2 ^ 29)) by lia. now rewrite Z.mod_pow2_bits_high by lia.
Qed.
Lemma split_flags : forall t k, 0 <= t < 2 ^ 29 -> 0 <= k < 4 ->
  Z.land (t + k * 2 ^ 29) (Z.lor FLAG_DATA FLAG_SHARED) = k * 2 ^ 29 /\
  Z.ldiff (t + k * 2 ^ 29) (k * 2 ^ 29) = t.
Proof.
  intros t k Ht Hk.
  pose proof (low_high_disjoint t k Ht) as N.
  assert (E : t + k * 2 ^ 29 = Z.lor t (k * 2 ^ 29)).
  { rewrite <- Z.lxor_lor by exact N. now rewrite Z.add_nocarry_lxor by exact N. }
  assert (k = 0 \/ k = 1 \/ k = 2 \/ k = 3) as K by lia.
  split.
  - rewrite E, Z.land_lor_distr_l.
    change (Z.lor FLAG_DATA FLAG_SHARED) with (3 * 2 ^ 29) at 1.
    rewrite low_high_disjoint by auto. rewrite Z.lor_0_l.
    destruct K as [->|[->|[->| ->]]]; reflexivity.
  - rewrite E. apply Z.bits_inj'. intros n Hn. rewrite Z.ldiff_spec, Z.lor_spec.
    assert (B : Z.testbit (Z.land t (k * 2 ^ 29)) n = false) by (rewrite N; apply Z.bits_0).
    rewrite Z.land_spec in B.
    destruct (Z.testbit t n), (Z.testbit (k * 2 ^ 29) n); cbn in *; congruence.
Qed.
Lemma reads_group : forall g, group_ok g -> reads readGroup (group_bytes g) g.
Proof.
  intros [name t fl] (Hn & Ht & Hf) r. cbn [og_name og_type og_flags] in *.
  unfold readGroup, group_bytes. cbn [og_name og_type og_flags].
  rewrite <- app_assoc, reads_name by auto. cbn [bind].
  assert (exists k, 0 <= k < 4 /\ fl = k * 2 ^ 29) as (k & Hk & ->).
  { unfold FLAG_SHARED, FLAG_DATA in Hf.
    destruct Hf as [->|[->|[->| ->]]]; [exists 0|exists 1|exists 2|exists 3]; lia. }
  rewrite reads_u32 by (unfold is_u32; lia). cbn [bind].
  destruct (split_flags t k Ht Hk) as [A B]. now rewrite A, B.
Qed.

(** ** Symbols, patches, lines *)
Lemma reads_symbol : forall v base files count y,
  sym_ok_v v files y -> 0 <= base -> (5 <= v -> base + files = count) -> count < 2 ^ 32 - 1 ->
  reads (readSymbol v base count) (sym_bytes v y) (read_sym v base y).
Proof.
  intros v base files count [name t val file line] (Hn & Ht & Hv & Hd) Hb Hc Hm r.
  cbn [oy_name oy_type oy_value oy_file oy_line] in *.
  unfold readSymbol, sym_bytes, read_sym. cbn [oy_name oy_type oy_value oy_file oy_line].
  rewrite <- !app_assoc, reads_name by auto. cbn [bind].
  rewrite reads_u32 by auto. cbn [bind].
  replace (negb (t =? SYM_IMPORT) && negb (t =? SYM_LOCALIMPORT)) with (negb (is_import t))
    by (unfold is_import; now rewrite negb_orb).
  match goal with |- context [bind ?e _] =>
    replace e with (Ok (if is_import t then 0 else val,
      from v 5 (int match file with Some k => k | None => -1 end ++ int line) ++ r)) end.
  2:{ destruct (is_import t); cbn [negb app]; [reflexivity|].
      rewrite reads_int. cbn [bind]. now rewrite s32_u32, s32_id. }
  cbn [bind]. unfold from, default. destruct (v >=? 5) eqn:V; [|reflexivity].
  destruct (Hd ltac:(lia)) as [Hl Hf]. specialize (Hc ltac:(lia)).
  rewrite <- app_assoc, reads_int. cbn [bind]. rewrite reads_u32 by auto. cbn [bind].
  destruct file as [k|].
  - rewrite u32_id by (unfold is_u32; lia).
    destruct (k =? 4294967295) eqn:K; [lia|].
    rewrite u32_id by (unfold is_u32; lia).
    destruct (k + base <? count) eqn:L; [|lia]. now rewrite (Z.add_comm k base).
  - reflexivity.
Qed.
Lemma reads_patch : forall q, patch_ok q -> reads readPatch (patch_bytes q) (read_patch q).
Proof.
  intros [o t e] (Ho & Ht & He) r. cbn [op_offset op_type op_expr] in *.
  unfold readPatch, patch_bytes, read_patch. cbn [op_offset op_type op_expr].
  rewrite <- !app_assoc. rewrite reads_u32 by auto. cbn [bind].
  rewrite reads_u32 by auto. cbn [bind]. rewrite reads_u32 by auto. cbn [bind].
  now rewrite reads_bytes.
Qed.
Lemma reads_patches : forall l, Forall patch_ok l -> zlen l < 2 ^ 31 ->
  reads readPatches (list_of patch_bytes l) (map read_patch l).
Proof.
  intros l F L r. unfold readPatches, list_of. rewrite <- app_assoc.
  pose proof (zlen_nonneg _ l).
  rewrite reads_u32 by (unfold is_u32; lia). cbn [bind].
  rewrite s32_id by (unfold is_s32; lia). unfold zlen. rewrite Nat2Z.id.
  apply reads_times. eapply Forall_impl; [|exact F]. apply reads_patch.
Qed.
Lemma reads_linemap : forall base files count l,
  line_ok files l -> 0 <= base -> base + files = count -> count < 2 ^ 32 - 1 ->
  reads (readLineMapping base count) (line_bytes l) (read_line base l).
Proof.
  intros base files count [f l o] (Hf & Hl & Ho) Hb Hc Hm r. cbn [ol_file ol_line ol_offset] in *.
  unfold readLineMapping, line_bytes, read_line. cbn [ol_file ol_line ol_offset].
  rewrite <- !app_assoc. rewrite reads_u32 by (unfold is_u32; lia). cbn [bind].
  rewrite u32_id by (unfold is_u32; lia).
  destruct (f + base <? count) eqn:E; [|lia].
  rewrite reads_u32 by auto. cbn [bind]. rewrite reads_u32 by auto. cbn [bind].
  now rewrite (Z.add_comm f base).
Qed.

(** ** Sections *)
Lemma groups_GetGroup_spec : forall m s, zlen (om_groups m) < 2 ^ 32 - 1 ->
  match os_group s with Some k => (k < length (om_groups m))%nat | None => True end ->
  groups_GetGroup (om_groups m) (u32 (match os_group s with Some k => Z.of_nat k | None => -1 end))
  = os_ogroup m s.
Proof.
  intros m s L H. unfold groups_GetGroup, os_ogroup. destruct (os_group s) as [k|]; [|reflexivity].
  unfold zlen in *. rewrite u32_id by (unfold is_u32; lia).
  destruct (Z.of_nat k =? 4294967295) eqn:E; [lia|].
  destruct (Z.of_nat k <? Z.of_nat (length (om_groups m))) eqn:E2; [|lia].
  cbn [negb andb]. now rewrite Nat2Z.id.
Qed.
Ltac rstep L := rewrite <- ?app_assoc; rewrite L; cbn [bind].
Lemma reads_section : forall v m s base count fileId id,
  sect_ok_v v m s -> zlen (om_groups m) < 2 ^ 32 - 1 -> 0 <= base ->
  (2 <= v -> base + zlen (om_files m) = count) -> count < 2 ^ 32 - 1 ->
  reads (readSection (om_groups m) (default v 1 1 (om_wordSize m)) v base count fileId id)
    (sect_bytes v m s) (read_sect v m base fileId id s).
Proof.
  intros v m s base count fileId id (Hg & Hn & Hb & Hp & Hc & Ha & Hpg & Hy & Hyl & Hl & Hsz & Ht) HG H0 HC HM r.
  unfold readSection, sect_bytes, read_sect.
  rewrite <- !app_assoc. rewrite reads_int. cbn [bind].
  rewrite groups_GetGroup_spec by auto.
  rewrite reads_name by auto. cbn [bind].
  rewrite reads_s32 by auto. cbn [bind].
  rewrite reads_s32 by auto. cbn [bind].
  rewrite (reads_since _ r_int v 1 _ _ _ (fun _ => reads_s32 _ Hc)). cbn [bind].
  rewrite (reads_since _ r_int v 3 _ _ _ (fun _ => reads_s32 _ Ha)). cbn [bind].
  rewrite (reads_since _ r_flag v 4 _ _ _ (fun _ => reads_flag _)). cbn [bind].
  rewrite (reads_since _ r_int v 6 _ _ _ (fun _ => reads_s32 _ Hpg)). cbn [bind].
  unfold readSymbols.
  rewrite (reads_list _ _ (readSymbol v base count) (sym_bytes v) (read_sym v base) (os_symbols s) Hyl).
  2:{ eapply Forall_impl; [|exact Hy]. intros y Y. eapply reads_symbol; eauto. intros. apply HC. lia. }
  cbn [bind].
  rewrite (reads_since _ (readLineMappings base count) v 2 [] (list_of line_bytes (os_lines s))
             (map (read_line base) (os_lines s))).
  2:{ intro V. destruct (Hl ltac:(lia)) as [Hl1 Hl2]. apply reads_list; auto.
      eapply Forall_impl; [|exact Hl1]. intros l L. eapply reads_linemap; eauto. apply HC. lia. }
  cbn [bind]. rewrite reads_u32 by auto. cbn [bind].
  unfold group_isText. unfold is_text, read_bank in *. unfold is_text.
  destruct (os_ogroup m s) as [g|] eqn:OG.
  - destruct (og_type g =? GROUP_TEXT) eqn:T; cbn [andb].
    + destruct (Ht eq_refl) as (D1 & D2 & D3).
      rewrite <- app_assoc. rewrite reads_bytes by auto. cbn [bind].
      rewrite reads_patches by auto. reflexivity.
    + reflexivity.
  - reflexivity.
Qed.
Lemma reads_sections : forall v m base count fileId ss id,
  Forall (sect_ok_v v m) ss -> zlen (om_groups m) < 2 ^ 32 - 1 -> 0 <= base ->
  (2 <= v -> base + zlen (om_files m) = count) -> count < 2 ^ 32 - 1 ->
  reads (readSectionsFrom (length ss) (om_groups m) (default v 1 1 (om_wordSize m)) v base count fileId id)
    (concat (map (sect_bytes v m) ss)) (number (read_sect v m base fileId) id ss).
Proof.
  intros v m base count fileId ss id F HG H0 HC HM. revert id.
  induction F as [|s ss Hs F IH]; intros id r; [reflexivity|].
  cbn [length readSectionsFrom map concat number].
  rewrite <- app_assoc, reads_section by auto. cbn [bind]. now rewrite IH.
Qed.

(** ** Modules and libraries *)
Lemma module_bytes_magic : forall v, 0 <= v <= 6 -> [88; 79; 66; v] = int (magicXOB v).
Proof.
  intros v H. assert (v = 0 \/ v = 1 \/ v = 2 \/ v = 3 \/ v = 4 \/ v = 5 \/ v = 6) as K by lia.
  destruct K as [->|[->|[->|[->|[->|[->| ->]]]]]]; reflexivity.
Qed.
(** Before version 2 no debug information is there, so its absence of a file base
    does not matter. *)
Lemma read_sect_base : forall v m base base' fileId id s, v < 2 ->
  read_sect v m base fileId id s = read_sect v m base' fileId id s.
Proof.
  intros v m base base' fileId id s H. unfold read_sect, default.
  destruct (v >=? 2) eqn:E; [lia|]. f_equal.
  apply map_ext. intro y. unfold read_sym, default. destruct (v >=? 5) eqn:E5; [lia|reflexivity].
Qed.
Lemma number_ext : forall A B (f g : Z -> A -> B) l k, (forall k x, f k x = g k x) -> number f k l = number g k l.
Proof. intros A B f g l. induction l as [|x l IH]; intros k H; cbn; [reflexivity|]. now rewrite H, (IH _ H). Qed.

Lemma reads_module : forall v m st, module_ok v m -> room v m st -> 
  reads (readXOB v st) (from v 1 [om_wordSize m] ++ from v 2 (list_of file_bytes (om_files m)) ++
     list_of group_bytes (om_groups m) ++ list_of (sect_bytes v m) (om_sections m)) (after_module v m st).
Proof.
  intros v m st (Hv & Hw & Hf & Hg & Hgl & Hs & Hsl) R r.
  pose proof (zlen_nonneg _ (l_files st)) as Z0. pose proof (zlen_nonneg _ (om_files m)) as Z1.
  unfold room in R. unfold readXOB. rewrite <- !app_assoc.
  rewrite (reads_since _ r_byte v 1 _ _ _ (fun _ => reads_byte _)). cbn [bind].
  rewrite (reads_since _ readFileInfo v 2 [] (list_of file_bytes (om_files m)) (om_files m)).
  2:{ intro V. rewrite <- (map_id (om_files m)) at 2. apply reads_list; [unfold is_u32; lia|].
      eapply Forall_impl; [|apply Hf; lia]. intros [n c] [C U] r'. cbn [fst snd] in *.
      unfold readFile, file_bytes. cbn [fst snd]. rewrite <- app_assoc, reads_string by auto.
      cbn [bind]. now rewrite reads_u32. }
  cbn [bind]. unfold readGroups.
  rewrite (reads_list _ _ readGroup group_bytes (fun g => g) (om_groups m)).
  2:{ pose proof (zlen_nonneg _ (om_groups m)). unfold is_u32; lia. }
  2:{ eapply Forall_impl; [|exact Hg]. apply reads_group. }
  cbn [bind]. rewrite map_id. unfold readSections, list_of. rewrite <- app_assoc.
  rewrite reads_u32 by auto. cbn [bind]. unfold zlen at 1. rewrite Nat2Z.id.
  rewrite reads_sections; auto.
  - cbn [bind]. unfold after_module. do 3 f_equal.
    f_equal. apply number_ext. intros k x. destruct (v >=? 2) eqn:V; [reflexivity|].
    apply read_sect_base. lia.
  - destruct (v >=? 2); lia.
  - intro V. rewrite zlen_app. unfold default. destruct (v >=? 2) eqn:E; lia.
  - rewrite zlen_app. unfold default. destruct (v >=? 2); [lia|rewrite zlen_nil; lia].
Qed.
Lemma reads_chunk : forall v m st fuel, module_ok v m -> room v m st ->
  reads (readChunk fuel st) (module_bytes v m) (after_module v m st).
Proof.
  intros v m st fuel M R r. pose proof M as (Hv & _). unfold module_bytes.
  rewrite module_bytes_magic by auto. rewrite <- app_assoc.
  destruct fuel; cbn [readChunk];
  (rewrite reads_u32 by (unfold is_u32, magicXOB; lia); cbn [bind];
   replace ((magicXOB 0 <=? magicXOB v) && (magicXOB v <=? magicXOB 6)) with true by (unfold magicXOB; lia);
   replace (magicXOB v mod 16777216 =? magicXOB 0) with true
     by (unfold magicXOB; rewrite Z.mod_add by lia; reflexivity);
   replace (magicXOB v / 16777216) with v
     by (unfold magicXOB; rewrite Z.div_add by lia; reflexivity);
   cbn [andb]; now apply reads_module).
Qed.

Lemma module_bytes_cons : forall v m, exists b r, module_bytes v m = b :: r.
Proof. intros. unfold module_bytes. cbn [app]. eauto. Qed.
Lemma read_file : forall v m st depth, module_ok v m -> room v m st ->
  obj_Read depth st (Some (module_bytes v m)) = Ok (after_module v m st).
Proof.
  intros v m st depth M R. unfold obj_Read.
  destruct (module_bytes_cons v m) as (b & r & E). rewrite E. cbn [length readChunks]. rewrite <- E.
  pose proof (reads_chunk v m st depth M R []) as C. rewrite app_nil_r in C. rewrite C. cbn [bind].
  destruct (length r); reflexivity.
Qed.

(** The state after several modules. *)
Lemma reads_modules : forall depth ns ms st,
  length ns = length ms -> Forall cstr ns ->
  Forall (fun vm => module_ok (fst vm) (snd vm)) ms -> rooms ms st ->
  reads (readModulesX (readChunk depth) (length ms) st)
    (concat (map writeModule (map (fun nm => Module (fst nm) (module_bytes (fst (snd nm)) (snd (snd nm))))
       (combine ns ms)))) (after_modules ms st).
Proof.
  intros depth ns ms. revert ns. induction ms as [|[v m] ms IH]; intros [|n ns] st L C F R r; try discriminate;
    [reflexivity|].
  inversion C as [|? ? Cn Cns]; subst. inversion F as [|? ? Fm Fms]; subst. destruct R as [R1 R2].
  cbn [length combine map concat readModulesX fst snd] in *.
  unfold writeModule at 1. cbn [m_name m_data]. rewrite <- !app_assoc.
  rewrite (app_assoc n [0]). rewrite (reads_string n Cn). cbn [bind].
  assert (exists k, is_u32 k /\ le32 (zlen (module_bytes v m)) = le32 k) as (k & Hk & ->).
  { exists (u32 (zlen (module_bytes v m))). split; [apply u32_range|].
    unfold le32, u32. change (2 ^ 32) with 4294967296. f_equal; [|f_equal; [|f_equal; [|f_equal]]];
    Z.div_mod_to_equations; lia. }
  unfold r_word at 1. rewrite get32_le32 by auto. cbn [bind].
  rewrite reads_chunk by auto. cbn [bind].
  rewrite (IH ns) by (auto; lia). reflexivity.
Qed.
Lemma read_library : forall depth ns ms st,
  length ns = length ms -> Forall cstr ns -> zlen ms < 2 ^ 32 ->
  Forall (fun vm => module_ok (fst vm) (snd vm)) ms -> rooms ms st ->
  obj_Read (S depth) st (Some (lib_Write (map (fun nm => Module (fst nm) (module_bytes (fst (snd nm)) (snd (snd nm))))
       (combine ns ms)))) = Ok (after_modules ms st).
Proof.
  intros depth ns ms st L C U F R. unfold obj_Read, lib_Write. 
  assert (zlen (map (fun nm => Module (fst nm) (module_bytes (fst (snd nm)) (snd (snd nm)))) (combine ns ms)) = zlen ms) as ->.
  { unfold zlen. rewrite map_length, combine_length. lia. }
  change magic with (int magicXLB). pose proof (zlen_nonneg _ ms).
  pose proof (reads_modules depth ns ms st L C F R []) as RM. rewrite app_nil_r in RM.
  set (body := concat _) in *. clearbody body.
  assert (exists b r, int magicXLB ++ le32 (u32 (zlen ms)) ++ body = b :: r) as (b & r & E) by (cbn; eauto).
  rewrite E. cbn [length readChunks]. rewrite <- E. clear E b.
  cbn [readChunk]. rewrite reads_u32 by (unfold is_u32, magicXLB; lia). cbn [bind].
  change ((magicXOB 0 <=? magicXLB) && (magicXLB <=? magicXOB 6) && (magicXLB mod 16777216 =? magicXOB 0)) with false.
  change (magicXLB =? magicXLB) with true. cbn [bind].
  unfold r_word. rewrite get32_le32 by apply u32_range. cbn [bind].
  rewrite u32_id by (unfold is_u32; lia). unfold zlen at 1. rewrite Nat2Z.id, RM. cbn [bind].
  destruct (length r); reflexivity.
Qed.
Lemma read_files_modules : forall depth ms st,
  Forall (fun vm => module_ok (fst vm) (snd vm)) ms -> rooms ms st ->
  read_files depth st (map (fun vm => module_bytes (fst vm) (snd vm)) ms) = Ok (after_modules ms st).
Proof.
  intros depth. induction ms as [|[v m] ms IH]; intros st F R; [reflexivity|].
  inversion F as [|? ? Fm Fms]; subst. destruct R as [R1 R2]. cbn [map read_files fst snd] in *.
  rewrite read_file by auto. cbn [bind]. now rewrite IH.
Qed.
Lemma number_map : forall A B C (f : Z -> B -> C) (g : A -> B) l k, number f k (map g l) = number (fun k x => f k (g x)) k l.
Proof. intros A B C f g. induction l as [|x l IH]; intro k; cbn; [reflexivity|]. now rewrite IH. Qed.
Lemma after_module_defaults : forall v m st, 0 <= v <= 6 ->
  after_module v m st = after_module 6 (with_defaults v m) st.
Proof.
  intros v m st V. unfold after_module. change (default 6 2 [] (om_files (with_defaults v m))) with (default v 2 [] (om_files m)).
  f_equal. f_equal. cbn [with_defaults om_sections]. rewrite number_map. apply number_ext. intros id s.
  unfold read_sect.
  change (os_ogroup (with_defaults v m) (sect_with_defaults v s)) with (os_ogroup m s).
  change (is_text (with_defaults v m) (sect_with_defaults v s)) with (is_text m s).
  change (read_bank (with_defaults v m) (sect_with_defaults v s)) with (read_bank m s).
  cbn [sect_with_defaults with_defaults om_wordSize os_position os_basePC os_align os_page os_size os_root os_name
       os_symbols os_lines os_data os_patches].
  change (default 6 1 1 ?x) with x. change (default 6 2 [] ?x) with x.
  unfold default at 6 7 8 9 10. cbn [Z.geb Z.compare].
  f_equal.
  - rewrite map_map. apply map_ext. intro y. unfold read_sym, sym_with_defaults.
    cbn [oy_name oy_type oy_value oy_file oy_line]. unfold default. cbn [Z.geb Z.compare].
    destruct (v >=? 5); reflexivity.
  - unfold default. destruct (v >=? 2); reflexivity.
Qed.
