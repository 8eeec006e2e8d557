From Coq Require Import ZArith List Bool Lia Permutation ZifyBool ZifyNat.
From Verif Require Import Base BaseFacts AssignModel LinkModel LinkSpec ImageModel FileModel FileProofs FormatModel HunkModel HunkSpec.
Import ListNotations.
Open Scope Z_scope.

Lemma get_long_long : forall v r, get_long (long v ++ r) = Some (u32 v, r).
Proof.
  intros v r. unfold long, be32. cbn [app get_long]. do 2 f_equal. unfold u32. change (2 ^ 32) with 4294967296. Z.div_mod_to_equations. lia.
Qed.
Lemma get_long_id : forall v r, is_u32 v -> get_long (long v ++ r) = Some (v, r).
Proof. intros v r V. rewrite get_long_long. now rewrite u32_id. Qed.
Lemma get_longs_concat : forall l r, Forall is_u32 l -> get_longs (length l) (concat (map long l) ++ r) = Some (l, r).
Proof.
  induction l as [|v l IH]; intros r F; [reflexivity|]. inversion F; subst. cbn [length get_longs map concat]. rewrite <- app_assoc, get_long_id by auto.
  cbn [obind]. rewrite IH by auto. reflexivity.
Qed.
Lemma get_bytes_app : forall d r, get_bytes (length d) (d ++ r) = Some (d, r).
Proof.
  intros d r. unfold get_bytes. rewrite app_length. assert (Nat.leb (length d) (length d + length r) = true) as -> by (apply Nat.leb_le; lia).
  rewrite firstn_app, Nat.sub_diag, firstn_all, firstn_O, app_nil_r, skipn_app, Nat.sub_diag, skipn_all. reflexivity.
Qed.
Lemma length_long : forall v, length (long v) = 4%nat. Proof. reflexivity. Qed.
Global Opaque long.

(** ** Relocations *)
Fixpoint flat (id : Z) (offsets : list (list Z)) : list (Z * Z) :=
  match offsets with [] => [] | l :: r => map (fun o => (id, o)) l ++ flat (id + 1) r end.
Lemma flat_empty : forall n id, flat id (repeat [] n) = [].
Proof. induction n as [|n IH]; intro id; cbn [repeat flat map app]; auto. Qed.
Lemma flat_add : forall offsets id i o, (i < length offsets)%nat ->
  Permutation (flat id (set_nth offsets i (nth i offsets [] ++ [o]))) (flat id offsets ++ [(id + Z.of_nat i, o)]).
Proof.
  induction offsets as [|l r IH]; intros id i o I; [cbn in I; lia|]. destruct i as [|i]; cbn [set_nth nth flat].
  - rewrite map_app, <- !app_assoc. cbn [map]. replace (id + Z.of_nat 0) with id by lia.
    apply Permutation_app_head. apply Permutation_app_comm.
  - cbn [length] in I. rewrite <- app_assoc. apply Permutation_app_head. rewrite IH by lia.
    replace (id + 1 + Z.of_nat i) with (id + Z.of_nat (S i)) by lia. auto.
Qed.
Lemma set_nth_length : forall {A} (l : list A) i x, length (set_nth l i x) = length l.
Proof. induction l as [|a l IH]; intros [|i] x; cbn [set_nth length]; auto. Qed.

Definition relocs_of (qs : list lpatch) : list (Z * Z) :=
  concat (map (fun q => match pt_section q with Some k => if pt_type q =? 6 then [(k, pt_offset q)] else [] | None => [] end) qs).
Lemma relocs_cons : forall q qs, relocs_of (q :: qs) = (match relocated q with Some k => [(k, pt_offset q)] | None => [] end) ++ relocs_of qs.
Proof.
  intros q qs. unfold relocs_of. cbn [map concat]. unfold relocated, PATCH_RELOC. destruct (pt_section q); destruct (pt_type q =? 6); reflexivity.
Qed.
Lemma has_reloc : forall qs, hasReloc qs = match relocs_of qs with [] => false | _ => true end.
Proof.
  induction qs as [|q qs IH]; [reflexivity|]. rewrite relocs_cons. unfold hasReloc in *. cbn [existsb]. rewrite IH. destruct (relocated q); reflexivity.
Qed.
Lemma relocs_short : forall qs, zlen (relocs_of qs) <= zlen qs.
Proof.
  induction qs as [|q qs IH]; [cbn; lia|]. rewrite relocs_cons, zlen_app, zlen_cons. destruct (relocated q); [rewrite zlen_cons|]; cbn [zlen length]; unfold zlen in *; cbn [length] in *; lia.
Qed.

Lemma patch_offsets : forall p qs offsets (num : Z -> Z),
  (forall k o, In (k, o) (relocs_of qs) -> sectionId k 0 p = Some (num k) /\ 0 <= num k < zlen offsets) ->
  exists offsets', patchOffsets p offsets qs = Ok offsets' /\ length offsets' = length offsets /\
    Permutation (flat 0 offsets') (flat 0 offsets ++ map (fun a => (num (fst a), snd a)) (relocs_of qs)).
Proof.
  intros p. induction qs as [|q qs IH]; intros offsets num N.
  - exists offsets. split; auto. split; auto. cbn. now rewrite app_nil_r.
  - cbn [patchOffsets]. rewrite relocs_cons in *. destruct (relocated q) as [k|] eqn:R.
    + destruct (N k (pt_offset q)) as [-> B]; [left; auto|]. assert (num k <? zlen offsets = true) as -> by lia.
      set (offs1 := set_nth offsets (Z.to_nat (num k)) (nth (Z.to_nat (num k)) offsets [] ++ [pt_offset q])).
      assert (L1 : length offs1 = length offsets) by apply set_nth_length.
      destruct (IH offs1 num) as (offs & E & L & P).
      { intros k' o' I. destruct (N k' o') as [X Y]; [apply in_or_app; auto|]. split; auto. unfold zlen. rewrite L1. exact Y. }
      exists offs. split; auto. split; [lia|]. rewrite P. unfold offs1. rewrite flat_add by (unfold zlen in B; lia).
      rewrite map_app, <- app_assoc. apply Permutation_app_head. replace (0 + Z.of_nat (Z.to_nat (num k))) with (num k) by lia. reflexivity.
    + destruct (IH offsets num) as (offs & E & L & P); [intros k o I; apply (N k o); exact I|]. exists offs. auto.
Qed.

Lemma flat_u32 : forall offsets id, Forall (fun r => is_u32 (snd r)) (flat id offsets) -> Forall (Forall is_u32) offsets.
Proof.
  induction offsets as [|l r IH]; intros id F; constructor; cbn [flat] in F; apply Forall_app in F as [F1 F2]; [|eauto].
  apply Forall_forall. intros o I. rewrite Forall_forall in F1. apply (F1 (id, o)). apply in_map_iff. eauto.
Qed.
Lemma flat_length : forall offsets id, Forall (fun l => zlen l <= zlen (flat id offsets)) offsets.
Proof.
  induction offsets as [|l r IH]; intro id; constructor.
  - cbn [flat]. rewrite zlen_app. unfold zlen. rewrite map_length. lia.
  - specialize (IH (id + 1)). revert IH. apply Forall_impl. intros a A. cbn [flat]. rewrite zlen_app. unfold zlen in *. lia.
Qed.
Lemma get_relocs_written : forall offsets id fuel rest, Forall (Forall is_u32) offsets -> Forall (fun l => zlen l < 2 ^ 32) offsets ->
  0 <= id -> id + zlen offsets <= 2 ^ 32 -> (length (writeOffsets id offsets) < fuel)%nat ->
  get_relocs fuel (writeOffsets id offsets ++ long 0 ++ rest) = Some (flat id offsets, rest).
Proof.
  induction offsets as [|l r IH]; intros id fuel rest FU FL I0 I1 FF.
  - destruct fuel as [|fuel]; [cbn in FF; lia|]. cbn [writeOffsets app get_relocs flat]. rewrite get_long_id by (unfold is_u32; lia). reflexivity.
  - inversion FU as [|? ? U1 U2]; subst. inversion FL as [|? ? L1 L2]; subst. rewrite zlen_cons in I1. pose proof (zlen_nonneg _ r).
    cbn [writeOffsets flat]. destruct l as [|o l].
    + cbn [zlen length Z.of_nat Z.gtb Z.compare app map]. apply IH; auto; lia.
    + assert (zlen (o :: l) >? 0 = true) as E by (rewrite zlen_cons; pose proof (zlen_nonneg _ l); lia).
      cbn [writeOffsets] in FF. rewrite E in *. rewrite !app_length in FF. rewrite length_long in FF. destruct fuel as [|fuel]; [lia|]. rewrite <- !app_assoc. cbn [get_relocs].
      rewrite get_long_id by (unfold is_u32; pose proof (zlen_nonneg _ (o :: l)); lia). cbn [obind]. assert (zlen (o :: l) =? 0 = false) as -> by lia.
      rewrite get_long_id by (unfold is_u32; lia). cbn [obind]. unfold zlen at 1. rewrite Nat2Z.id. rewrite get_longs_concat by auto. cbn [obind].
      rewrite IH by (auto; lia). reflexivity.
Qed.

(** ** Hunk numbers *)
Lemma filter_length_le : forall {A} (f : A -> bool) l, (length (filter f l) <= length l)%nat.
Proof. intros A f. induction l as [|a l IH]; [auto|]. cbn [filter length]. destruct (f a); cbn [length]; lia. Qed.
Lemma in_hunk : forall s, inHunk s = s_used (sc_place s) && match s_group (sc_place s) with Some _ => true | None => false end.
Proof. intro s. unfold inHunk, sc_used, sc_isEqu, isEqu. destruct (s_group (sc_place s)); reflexivity. Qed.
Lemma hunks_filter : forall p, filter inHunk p = hunks_of p.
Proof. intro p. unfold hunks_of. apply filter_ext. apply in_hunk. Qed.
Lemma hunks_cons : forall s p, hunks_of (s :: p) = if inHunk s then s :: hunks_of p else hunks_of p.
Proof. intros s p. rewrite in_hunk. reflexivity. Qed.
Lemma in_hunks : forall p s, In s (hunks_of p) <-> In s p /\ inHunk s = true.
Proof. intros p s. rewrite <- hunks_filter. apply filter_In. Qed.

Lemma section_id : forall p k t n, NoDup (map (fun s => s_id (sc_place s)) p) -> hunk_number p k t -> sectionId k n p = Some (n + t).
Proof.
  induction p as [|s p IH]; intros k t n ND (T & x & E & K).
  - cbn in E. destruct (Z.to_nat t); discriminate.
  - cbn [map] in ND. inversion ND as [|? ? N1 N2]; subst. rewrite hunks_cons in E. cbn [sectionId]. unfold sc_id. destruct (inHunk s) eqn:IH_.
    + destruct (Z.to_nat t) as [|m] eqn:TN; cbn [nth_error] in E.
      * injection E as ->. rewrite Z.eqb_refl. f_equal. lia.
      * destruct (s_id (sc_place s) =? s_id (sc_place x)) eqn:EQ.
        { exfalso. apply N1. apply nth_error_In in E. apply in_hunks in E as [E _]. apply in_map_iff. exists x. split; [lia|auto]. }
        rewrite (IH (s_id (sc_place x)) (t - 1) (n + 1)); auto; [f_equal; lia|]. split; [lia|]. exists x. replace (Z.to_nat (t - 1)) with m by lia. auto.
    + destruct (s_id (sc_place s) =? s_id (sc_place x)) eqn:EQ.
      { exfalso. apply N1. apply nth_error_In in E. apply in_hunks in E as [E _]. apply in_map_iff. exists x. split; [lia|auto]. }
      apply IH; auto. split; auto. exists x. auto.
Qed.
Lemma number_bound : forall p k t, hunk_number p k t -> 0 <= t < totalSections p.
Proof.
  intros p k t (T & x & E & _). unfold totalSections. rewrite hunks_filter. assert (Z.to_nat t < length (hunks_of p))%nat by (apply nth_error_Some; congruence).
  unfold zlen. lia.
Qed.

(** The chosen hunk number of a section. *)
Definition number (p : program) (k : Z) : Z := match sectionId k 0 p with Some t => t | None => 0 end.

Lemma reloc32_written : forall p s, hunk_program p -> In s p ->
  exists bs rs, writeReloc32 p (sc_patches s) = Ok bs /\ Permutation (map (fun a => (number p (fst a), snd a)) (relocations s)) rs /\
    forall rest, get_end (bs ++ long HUNK_END ++ rest) = Some (rs, rest).
Proof.
  intros p s HP I. destruct (patch_offsets p (sc_patches s) (repeat [] (Z.to_nat (totalSections p))) (number p)) as (offs & E & L & P).
  { intros k o IK. destruct (hp_relocs p HP s k o I IK) as (_ & t & T). pose proof (section_id p k t 0 (hp_ids p HP) T) as SI. pose proof (number_bound _ _ _ T) as B.
    unfold number. rewrite SI. split; auto. unfold zlen. rewrite repeat_length. lia. }
  rewrite repeat_length in L. rewrite flat_empty in P. cbn [app] in P. unfold writeReloc32. rewrite E. cbn [bind].
  pose proof (hp_count p HP) as CT. assert (TB : 0 <= totalSections p <= zlen p).
  { unfold totalSections, zlen. pose proof (filter_length_le inHunk p). lia. }
  rewrite has_reloc. exists (if match relocs_of (sc_patches s) with [] => false | _ :: _ => true end then long HUNK_RELOC32 ++ writeOffsets 0 offs ++ long 0 else []), (flat 0 offs).
  split; auto. split; [symmetry; exact P|]. intro rest. unfold get_end.
  destruct (relocs_of (sc_patches s)) as [|a l] eqn:R.
  - cbn [app]. rewrite get_long_id by (unfold is_u32, HUNK_END; lia). cbn [obind]. change (HUNK_END =? 1010) with true. cbn iota. cbn [map] in P. apply Permutation_sym, Permutation_nil in P. now rewrite P.
  - rewrite <- !app_assoc. rewrite get_long_id by (unfold is_u32, HUNK_RELOC32; lia). cbn [obind]. change (HUNK_RELOC32 =? 1010) with false. change (HUNK_RELOC32 =? 1004) with true. cbn iota.
    assert (FU : Forall (fun r => is_u32 (snd r)) (flat 0 offs)).
    { apply Forall_forall. intros r IR. apply (Permutation_in _ P) in IR. apply in_map_iff in IR as ((k, o) & <- & IK). cbn [snd]. rewrite <- R in IK.
      apply (hp_relocs p HP s k o I IK). }
    rewrite get_relocs_written.
    + cbn [obind]. rewrite get_long_id by (unfold is_u32, HUNK_END; lia). reflexivity.
    + now apply flat_u32 in FU.
    + pose proof (flat_length offs 0) as FL. revert FL. apply Forall_impl. intros x X.
      assert (zlen (flat 0 offs) = zlen (relocs_of (sc_patches s))) as LE.
      { unfold zlen. rewrite (Permutation_length P), map_length, R. reflexivity. }
      pose proof (relocs_short (sc_patches s)). pose proof (hp_patches p HP) as HQ. rewrite Forall_forall in HQ. specialize (HQ s I). cbn in HQ. lia.
    + lia.
    + unfold zlen. rewrite L. lia.
    + rewrite !app_length, !length_long. lia.
Qed.

(** ** Hunks *)
Lemma long_size : forall n, 0 <= n < 2 ^ 31 -> 4 * longSize n - 4 < n <= 4 * longSize n /\ 0 <= longSize n <= 2 ^ 29.
Proof. intros n N. unfold longSize. rewrite u32_id by (unfold is_u32; lia). change (2 ^ 31) with 2147483648 in N. change (2 ^ 29) with 536870912. Z.div_mod_to_equations. lia. Qed.
Lemma buffer_length : forall d, zlen d < 2 ^ 31 -> zlen (writeBuffer d) = 4 * longSize (zlen d).
Proof.
  intros d N. pose proof (zlen_nonneg _ d). unfold writeBuffer, padding. rewrite zlen_app, zlen_repeat. rewrite Z2Nat.id by (apply Z.mod_pos_bound; lia).
  unfold longSize. rewrite u32_id by (unfold is_u32; lia). Z.div_mod_to_equations. lia.
Qed.
Lemma flag_bit : forall f k, 0 <= f -> 0 <= k -> negb (Z.land f (2 ^ k) =? 0) = Z.testbit f k.
Proof.
  intros f k F K. destruct (Z.testbit f k) eqn:B.
  - destruct (Z.eqb_spec (Z.land f (2 ^ k)) 0) as [E|]; [|reflexivity]. exfalso. assert (Z.testbit (Z.land f (2 ^ k)) k = false) by (rewrite E; apply Z.bits_0).
    rewrite Z.land_spec, B, Z.pow2_bits_true in H by lia. discriminate.
  - assert (Z.land f (2 ^ k) = 0) as ->; [|reflexivity]. apply Z.bits_inj'. intros n N. rewrite Z.land_spec, Z.bits_0. destruct (Z.eq_dec n k) as [->|D]; [rewrite B; reflexivity|].
    rewrite Z.pow2_bits_false by lia. apply andb_false_r.
Qed.
Lemma section_size : forall s g, 0 <= s_size (sc_place s) < 2 ^ 31 -> 0 <= og_flags g ->
  is_u32 (sectionSize s g) /\ sectionSize s g mod 2 ^ 30 = longSize (s_size (sc_place s)) /\ Z.testbit (sectionSize s g) 30 = Z.testbit (og_flags g) 29.
Proof.
  intros s g B F. destruct (long_size _ B) as [_ L]. unfold sectionSize. set (n := longSize (s_size (sc_place s))) in *. clearbody n.
  unfold hasFlag. change FLAG_SHARED with (2 ^ 29). rewrite flag_bit by lia. destruct (Z.testbit (og_flags g) 29).
  - assert (Z.lor n HUNKF_CHIP = n + 2 ^ 30) as ->.
    { rewrite <- Z.lxor_lor, <- Z.add_nocarry_lxor; auto.
      all: apply Z.bits_inj'; intros k K; rewrite Z.land_spec, Z.bits_0; unfold HUNKF_CHIP; destruct (Z.eq_dec k 30) as [->|D]; [|rewrite Z.pow2_bits_false by lia; apply andb_false_r].
      all: rewrite (Z.testbit_eqb n 30) by lia; rewrite Z.div_small by lia; reflexivity. }
    split; [unfold is_u32; lia|]. split.
    + replace (n + 2 ^ 30) with (n + 1 * 2 ^ 30) by lia. rewrite Z.mod_add by lia. apply Z.mod_small. lia.
    + rewrite Z.testbit_eqb by lia. change (2 ^ 30) with 1073741824. change (2 ^ 29) with 536870912 in L. Z.div_mod_to_equations. lia.
  - split; [unfold is_u32; lia|]. split; [apply Z.mod_small; lia|]. rewrite Z.testbit_eqb by lia. rewrite Z.div_small by lia. reflexivity.
Qed.
Lemma kind_type : forall g, 0 <= og_flags g -> kind_of (hunkType g) = Some (kind_for g).
Proof.
  intros g F. unfold hunkType, kind_for, hasFlag. change FLAG_DATA with (2 ^ 30). rewrite flag_bit by lia. unfold GROUP_TEXT.
  destruct (og_type g =? 0); [|reflexivity]. destruct (Z.testbit (og_flags g) 30); reflexivity.
Qed.
Lemma type_u32 : forall g, is_u32 (hunkType g).
Proof. intro g. unfold hunkType. destruct (og_type g =? GROUP_TEXT); [destruct (hasFlag g FLAG_DATA)|]; unfold is_u32, HUNK_DATA, HUNK_CODE, HUNK_BSS; lia. Qed.

Lemma numbers_ok : forall p s, hunk_program p -> In s p ->
  Forall2 (fun a r => snd a = snd r /\ hunk_number p (fst a) (fst r)) (relocations s) (map (fun a => (number p (fst a), snd a)) (relocations s)).
Proof.
  intros p s HP I. assert (F : Forall (fun a => hunk_number p (fst a) (number p (fst a))) (relocations s)).
  { apply Forall_forall. intros (k, o) IK. destruct (hp_relocs p HP s k o I IK) as (_ & t & T). cbn [fst]. unfold number. now rewrite (section_id p k t 0 (hp_ids p HP) T). }
  induction F as [|a l A F IH]; cbn [map]; constructor; auto.
Qed.

Lemma section_written : forall p s, hunk_program p -> In s p -> inHunk s = true ->
  exists g bs h, s_group (sc_place s) = Some g /\ writeSection p false s = Ok bs /\ hunk_for p s h /\
    forall rest, get_hunk (sectionSize s g) (bs ++ rest) = Some (h, rest).
Proof.
  intros p s HP I IH. rewrite in_hunk in IH. apply andb_prop in IH as [_ IH]. destruct (s_group (sc_place s)) as [g|] eqn:G; [|discriminate].
  pose proof (hp_size p HP) as HS. pose proof (hp_text p HP) as HT. rewrite Forall_forall in HS, HT. destruct (HS s I) as [SB SD]. destruct (HT s I g G) as [GF GT].
  destruct (section_size s g SB GF) as (U1 & U2 & U3). destruct (long_size _ SB) as [L1 L2].
  unfold writeSection. rewrite G. cbn [app]. destruct (og_type g =? GROUP_TEXT) eqn:TY.
  - destruct (sc_data s) as [d|] eqn:D; [|exfalso; apply GT; [unfold GROUP_TEXT in TY; lia|auto]].
    specialize (SD d eq_refl). assert (zlen d <? s_size (sc_place s) = false) as -> by lia.
    destruct (reloc32_written p s HP I) as (bs & rs & -> & P & GE). cbn [bind].
    assert (firstn (Z.to_nat (s_size (sc_place s))) d = d) as -> by (apply firstn_all2; unfold zlen in SD; lia).
    exists g, (long (hunkType g) ++ long (longSize (s_size (sc_place s))) ++ (writeBuffer d ++ bs) ++ long HUNK_END),
      (Hunk (kind_for g) (Z.testbit (og_flags g) 29) (longSize (s_size (sc_place s))) (writeBuffer d) rs).
    assert (KB : kind_for g <> Bss) by (unfold kind_for; unfold GROUP_TEXT in TY; rewrite TY; destruct (Z.testbit (og_flags g) 30); discriminate).
    split; auto. split; auto. split.
    + split; cbn [h_kind h_chip h_longs h_data h_relocs]; auto.
      * exists g. auto.
      * intros _. exists d, (Z.to_nat ((- zlen d) mod 4)). split; auto. split; [reflexivity|]. rewrite buffer_length by lia. rewrite SD. reflexivity.
      * contradiction.
      * intros _. eexists. split; [exact P|]. now apply numbers_ok.
    + intro rest. unfold get_hunk. rewrite <- !app_assoc. rewrite get_long_id by apply type_u32. cbn [obind]. rewrite kind_type by auto. cbn [obind].
      rewrite get_long_id by (unfold is_u32; lia). cbn [obind]. rewrite U2, Z.eqb_refl, U3.
      assert (Z.to_nat (4 * longSize (s_size (sc_place s))) = length (writeBuffer d)) as ->.
      { pose proof (buffer_length d) as BL. rewrite SD in BL. unfold zlen in BL at 1. lia. }
      rewrite get_bytes_app. destruct (kind_for g); [| |contradiction]; cbn [obind]; rewrite GE; reflexivity.
  - cbn [bind app]. exists g, (long (hunkType g) ++ long (longSize (s_size (sc_place s))) ++ long HUNK_END),
      (Hunk (kind_for g) (Z.testbit (og_flags g) 29) (longSize (s_size (sc_place s))) [] []).
    assert (KB : kind_for g = Bss) by (unfold kind_for; unfold GROUP_TEXT in TY; now rewrite TY).
    split; auto. split; auto. split.
    + split; cbn [h_kind h_chip h_longs h_data h_relocs]; auto; try (intro; contradiction). exists g. auto.
    + intro rest. unfold get_hunk. rewrite <- !app_assoc. rewrite get_long_id by apply type_u32. cbn [obind]. rewrite kind_type by auto. cbn [obind].
      rewrite get_long_id by (unfold is_u32; lia). cbn [obind]. rewrite U2, Z.eqb_refl, U3, KB. cbn [obind].
      unfold get_end. rewrite get_long_id by (unfold is_u32, HUNK_END; lia). reflexivity.
Qed.

Definition sizes (p : program) : list Z := map (fun s => match s_group (sc_place s) with Some g => sectionSize s g | None => 0 end) (hunks_of p).
Lemma sizes_written : forall p, writeSectionSizes p = concat (map long (sizes p)).
Proof.
  induction p as [|s p IH]; [reflexivity|]. cbn [writeSectionSizes]. unfold sizes. rewrite hunks_cons. destruct (s_group (sc_place s)) as [g|] eqn:G.
  - destruct (inHunk s); [|exact IH]. cbn [map concat]. rewrite G, IH. reflexivity.
  - assert (inHunk s = false) as -> by (rewrite in_hunk, G; apply andb_false_r). exact IH.
Qed.
Lemma sections_written : forall p, hunk_program p -> forall ss, incl ss p ->
  exists bs hs, writeSections p false ss = Ok bs /\ Forall2 (hunk_for p) (hunks_of ss) hs /\
    forall rest, get_hunks (sizes ss) (bs ++ rest) = Some (hs, rest).
Proof.
  intros p HP. induction ss as [|s ss IH]; intro IN.
  - exists [], []. split; auto. split; [constructor|]. reflexivity.
  - destruct IH as (bs & hs & E & F & G); [intros x X; apply IN; right; auto|]. cbn [writeSections]. unfold sizes. rewrite hunks_cons. destruct (inHunk s) eqn:IH_.
    + destruct (section_written p s HP) as (g & b1 & h & GR & E1 & H1 & G1); [apply IN; left; auto|auto|]. rewrite E1. cbn [bind]. rewrite E. cbn [bind].
      exists (b1 ++ bs), (h :: hs). split; auto. split; [constructor; auto|]. intro rest. cbn [map get_hunks]. rewrite GR, <- app_assoc, G1. cbn [obind].
      fold (sizes ss). rewrite G. reflexivity.
    + exists bs, hs. auto.
Qed.
Lemma executable_written : forall p, hunk_program p -> exists bs hs, amiga_WriteExecutable p None = Ok bs /\
  hunk_load bs = Some hs /\ Forall2 (hunk_for p) (hunks_of p) hs.
Proof.
  intros p HP. destruct (sections_written p HP p (incl_refl _)) as (bs & hs & E & F & G).
  unfold amiga_WriteExecutable. cbn [checkEntry bind]. rewrite E. cbn [bind]. eexists. exists hs. split; [reflexivity|]. split; auto.
  pose proof (hp_count p HP) as CT. assert (TB : totalSections p = zlen (hunks_of p)) by (unfold totalSections; now rewrite hunks_filter).
  assert (TC : zlen (hunks_of p) <= zlen p) by (rewrite <- hunks_filter; unfold zlen; pose proof (filter_length_le inHunk p); lia).
  pose proof (zlen_nonneg _ (hunks_of p)) as T0. rewrite TB.
  unfold hunk_load, writeHunkHeader. rewrite <- !app_assoc. rewrite get_long_id by (unfold is_u32, HUNK_HEADER; lia). cbn [obind]. rewrite get_long_id by (unfold is_u32; lia). cbn [obind].
  rewrite get_long_id by (unfold is_u32; lia). cbn [obind]. rewrite get_long_id by (unfold is_u32; lia). cbn [obind]. rewrite get_long_long. cbn [obind].
  change (HUNK_HEADER =? 1011) with true. change (0 =? 0) with true. unfold u32. rewrite Z.eqb_refl. cbn [andb]. rewrite sizes_written.
  assert (Z.to_nat (zlen (hunks_of p)) = length (sizes p)) as -> by (unfold sizes, zlen; rewrite map_length; lia).
  rewrite get_longs_concat.
  - cbn [obind]. rewrite <- (app_nil_r bs). rewrite G. reflexivity.
  - unfold sizes. apply Forall_forall. intros z I. apply in_map_iff in I as (s & <- & I). apply in_hunks in I as [I IH].
    pose proof (hp_size p HP) as HS. pose proof (hp_text p HP) as HT. rewrite Forall_forall in HS, HT. destruct (HS s I) as [SB _].
    destruct (s_group (sc_place s)) as [g|] eqn:GR; [|unfold is_u32; lia]. apply section_size; auto. apply (HT s I g GR).
Qed.

(** ** Relocation *)
Lemma nth_put_long : forall d o v k, 0 <= o -> o + 4 <= zlen d -> 0 <= k ->
  nth (Z.to_nat k) (put_long d o v) 0 = if (o <=? k) && (k <? o + 4) then nth (Z.to_nat (k - o)) (be32 (v mod 2 ^ 32)) 0 else nth (Z.to_nat k) d 0.
Proof.
  intros d o v k O0 O1 K. unfold put_long. unfold zlen in O1.
  assert (LF : length (firstn (Z.to_nat o) d) = Z.to_nat o) by (rewrite firstn_length; lia).
  assert (LB : length (be32 (v mod 2 ^ 32)) = 4%nat) by reflexivity.
  destruct (Z.ltb_spec k o) as [A|A].
  - assert (o <=? k = false) as -> by lia. cbn [andb]. rewrite app_nth1 by (rewrite LF; lia).
    rewrite <- (firstn_skipn (Z.to_nat o) d) at 2. rewrite app_nth1 by (rewrite LF; lia). reflexivity.
  - assert (o <=? k = true) as -> by lia. rewrite app_nth2 by (rewrite LF; lia). rewrite LF. destruct (Z.ltb_spec k (o + 4)) as [B|B]; cbn [andb].
    + rewrite app_nth1 by (rewrite LB; lia). f_equal. lia.
    + rewrite app_nth2 by (rewrite LB; lia). rewrite LB. rewrite <- (firstn_skipn (Z.to_nat (o + 4)) d) at 2.
      assert (LG : length (firstn (Z.to_nat (o + 4)) d) = Z.to_nat (o + 4)) by (rewrite firstn_length; lia).
      rewrite app_nth2 by (rewrite LG; lia). rewrite LG. f_equal. lia.
Qed.
Lemma put_long_length : forall d o v, 0 <= o -> o + 4 <= zlen d -> zlen (put_long d o v) = zlen d.
Proof.
  intros d o v O0 O1. unfold put_long, zlen in *. rewrite !app_length, firstn_length, skipn_length. change (length (be32 (v mod 2 ^ 32))) with 4%nat. lia.
Qed.
Lemma long_at_put : forall d o v, 0 <= o -> o + 4 <= zlen d -> long_at (put_long d o v) o = v mod 2 ^ 32.
Proof.
  intros d o v O0 O1. unfold long_at. rewrite !nth_put_long by lia.
  repeat match goal with |- context [(o <=? ?k) && (?k <? o + 4)] => assert ((o <=? k) && (k <? o + 4) = true) as -> by lia end.
  replace (o + 0 - o) with 0 by lia. replace (o + 1 - o) with 1 by lia. replace (o + 2 - o) with 2 by lia. replace (o + 3 - o) with 3 by lia.
  pose proof (Z.mod_pos_bound v (2 ^ 32) ltac:(lia)) as B. set (w := v mod 2 ^ 32) in *. clearbody w. change (Z.to_nat 0) with 0%nat. change (Z.to_nat 1) with 1%nat. change (Z.to_nat 2) with 2%nat. change (Z.to_nat 3) with 3%nat. unfold be32. cbn [nth]. change (2 ^ 32) with 4294967296 in B. Z.div_mod_to_equations. lia.
Qed.
Lemma long_at_other : forall d o v x, 0 <= o -> o + 4 <= zlen d -> 0 <= x -> 4 <= Z.abs (o - x) -> long_at (put_long d o v) x = long_at d x.
Proof.
  intros d o v x O0 O1 X D. unfold long_at. rewrite !nth_put_long by lia.
  repeat match goal with |- context [(o <=? ?k) && (?k <? o + 4)] => assert ((o <=? k) && (k <? o + 4) = false) as -> by lia end. reflexivity.
Qed.

Definition apart (a b : Z * Z) : Prop := 4 <= Z.abs (snd a - snd b).
Definition relocs_on (start : Z -> Z) (rs : list (Z * Z)) (d : list Z) : list Z :=
  fold_left (fun d r => put_long d (snd r) (long_at d (snd r) + start (fst r))) rs d.
Lemma relocs_done : forall start rs d, Forall (fun r => 0 <= snd r /\ snd r + 4 <= zlen d) rs -> ForallOrdPairs apart rs ->
  zlen (relocs_on start rs d) = zlen d /\
  (forall t o, In (t, o) rs -> long_at (relocs_on start rs d) o = (long_at d o + start t) mod 2 ^ 32) /\
  (forall k, 0 <= k -> (forall t o, In (t, o) rs -> ~ (o <= k < o + 4)) -> nth (Z.to_nat k) (relocs_on start rs d) 0 = nth (Z.to_nat k) d 0) /\
  (forall x, 0 <= x -> (forall t o, In (t, o) rs -> 4 <= Z.abs (o - x)) -> long_at (relocs_on start rs d) x = long_at d x).
Proof.
  intros start. induction rs as [|[t o] rs IH]; intros d F FP.
  - split; [reflexivity|]. split; [intros ? ? []|]. split; reflexivity.
  - inversion F as [|? ? [F0 F1] F2]; subst. inversion FP as [|? ? P1 P2]; subst. cbn [snd] in *. unfold relocs_on. cbn [fold_left fst snd].
    set (d1 := put_long d o (long_at d o + start t)). fold (relocs_on start rs d1).
    assert (Z1 : zlen d1 = zlen d) by (apply put_long_length; auto).
    destruct (IH d1) as (A & B & C & E); [rewrite Z1; auto|auto|]. split; [lia|]. rewrite Forall_forall in P1, F2. split; [|split].
    + intros t' o' [X|X].
      * injection X as <- <-. rewrite E; [unfold d1; now apply long_at_put|auto|]. intros t2 o2 I. specialize (P1 _ I). unfold apart in P1. cbn [snd] in P1. lia.
      * rewrite (B _ _ X). f_equal. f_equal. unfold d1. destruct (F2 _ X) as [X0 X1]. cbn [snd] in *. apply long_at_other; auto. specialize (P1 _ X). unfold apart in P1. cbn [snd] in P1. lia.
    + intros k K N. rewrite C; auto; [|intros t' o' X; apply (N t' o'); right; auto]. unfold d1. rewrite nth_put_long by auto.
      specialize (N t o (or_introl eq_refl)). assert ((o <=? k) && (k <? o + 4) = false) as -> by lia. reflexivity.
    + intros x X N. rewrite E; auto; [|intros t' o' Y; apply (N t' o'); right; auto]. unfold d1. apply long_at_other; auto. apply (N t o). left; auto.
Qed.
Lemma FOP_perm : forall {A} (R : A -> A -> Prop), (forall a b, R a b -> R b a) -> forall l m, Permutation l m -> ForallOrdPairs R l -> ForallOrdPairs R m.
Proof.
  intros A R SY l m P. induction P; intro F; auto.
  - inversion F; subst. constructor; auto. rewrite <- P. auto.
  - inversion F as [|? ? F1 F2]; subst. inversion F2 as [|? ? F3 F4]; subst. inversion F1; subst. repeat constructor; auto.
Qed.
Lemma FOP_forall2 : forall {A B} (R : A -> A -> Prop) (R' : B -> B -> Prop) (M : A -> B -> Prop), (forall a b x y, M a x -> M b y -> R a b -> R' x y) ->
  forall l m, Forall2 M l m -> ForallOrdPairs R l -> ForallOrdPairs R' m.
Proof.
  intros A B R R' M HM l m F2. induction F2 as [|a x l m MA F2 IH]; intro F; constructor.
  - inversion F as [|? ? F1 _]; subst. clear - F1 F2 MA HM. induction F2 as [|b y l m MB F2 IH]; constructor; inversion F1; subst; eauto.
  - inversion F; subst; auto.
Qed.
Lemma number_unique : forall p k t t', NoDup (map (fun s => s_id (sc_place s)) p) -> hunk_number p k t -> hunk_number p k t' -> t = t'.
Proof. intros p k t t' ND A B. pose proof (section_id p k t 0 ND A). pose proof (section_id p k t' 0 ND B) as H'. rewrite H in H'. injection H' as H'. lia. Qed.

(** The contents of a loaded section. *)
Lemma hunk_relocated : forall p s h d start, hunk_program p -> hunk_for p s h -> h_kind h <> Bss -> sc_data s = Some d ->
  Forall (fun a => 0 <= snd a /\ snd a + 4 <= zlen d) (relocations s) -> ForallOrdPairs apart (relocations s) ->
  zlen (relocate start h) = 4 * h_longs h /\
  (forall k o t, In (k, o) (relocations s) -> hunk_number p k t -> long_at (relocate start h) o = (long_at d o + start t) mod 2 ^ 32) /\
  (forall i, 0 <= i -> (forall k o, In (k, o) (relocations s) -> ~ (o <= i < o + 4)) -> nth (Z.to_nat i) (relocate start h) 0 = nth (Z.to_nat i) d 0).
Proof.
  intros p s h d start HP HF NB D IN AP. destruct (hf_data p s h HF NB) as (d' & n & D' & HD & HL). rewrite D in D'. injection D' as <-.
  destruct (hf_relocs p s h HF NB) as (rs & P & F2).
  assert (NE : forall i, 0 <= i -> nth (Z.to_nat i) (h_data h) 0 = nth (Z.to_nat i) d 0).
  { intros i I. rewrite HD. destruct (Nat.ltb_spec (Z.to_nat i) (length d)); [now rewrite app_nth1|]. rewrite app_nth2 by lia. rewrite (nth_overflow d) by lia. apply nth_repeat. }
  assert (LE : forall o, 0 <= o -> long_at (h_data h) o = long_at d o).
  { intros o O. unfold long_at. rewrite !NE by lia. reflexivity. }
  assert (DL : zlen d <= zlen (h_data h)) by (rewrite HD, zlen_app; unfold zlen; lia).
  assert (RN : Forall (fun r => 0 <= snd r /\ snd r + 4 <= zlen (h_data h)) rs).
  { clear - F2 IN DL. induction F2 as [|a r l m [E _] F2 IH]; constructor; inversion IN; subst; auto. rewrite <- E. lia. }
  assert (AR : ForallOrdPairs apart rs).
  { eapply FOP_forall2; [|exact F2|exact AP]. intros a b x y [E1 _] [E2 _]. unfold apart. rewrite E1, E2. auto. }
  destruct (relocs_done start (h_relocs h) (h_data h)) as (A & B & C & _).
  { eapply Permutation_Forall; eauto. }
  { eapply FOP_perm; [|exact P|exact AR]. unfold apart. intros; lia. }
  unfold relocate. fold (relocs_on start (h_relocs h) (h_data h)). split; [lia|]. split.
  - intros k o t I T. assert (exists t', In (t', o) rs /\ hunk_number p k t') as (t' & I' & T').
    { clear - F2 I. induction F2 as [|a r l m [E N] F2 IH]; [destruct I|]. destruct I as [->|I].
      - exists (fst r). destruct r. cbn in *. subst. split; [left; auto|auto].
      - destruct (IH I) as (t' & X & Y). exists t'. split; [right; auto|auto]. }
    assert (t' = t) as -> by (eapply number_unique; eauto; apply HP). rewrite (B t o); [|eapply Permutation_in; eauto]. f_equal. f_equal. apply LE.
    rewrite Forall_forall in RN. apply (RN _ I').
  - intros i I N. rewrite C; auto. intros t o X. apply Permutation_sym in P. apply (Permutation_in _ P) in X.
    clear - F2 X N. induction F2 as [|a r l m [E H] F2 IH]; [destruct X|]. destruct X as [->|X].
    + destruct a. cbn in *. subst. apply (N z o). left; auto.
    + apply IH; auto. intros k o' Y. apply (N k o'). right; auto.
Qed.
