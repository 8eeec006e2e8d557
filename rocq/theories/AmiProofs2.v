(** Proofs about the assembler's Amiga output: the blocks of a section. *)
From Coq Require Import ZArith List Bool Lia Permutation ZifyBool ZifyNat.
From Verif Require Import Base BaseFacts Arith ExprModel ObjWriteModel FileModel FileProofs AssignModel LinkModel HunkModel HunkSpec HunkProofs ElfModel AmiModel AmiProofs.
Import ListNotations.
Open Scope Z_scope.

Lemma filter_split : forall {T} (f : T -> bool) l, Permutation (filter f l ++ filter (fun x => negb (f x)) l) l.
Proof.
  intros T f. induction l as [|x l IH]; [constructor|]. cbn [filter]. destruct (f x); cbn [negb app]; [constructor; exact IH|].
  symmetry. apply Permutation_cons_app. symmetry. exact IH.
Qed.
Lemma filter_rest : forall {T} (f : T -> bool) l x, f x = true -> (length (filter (fun y => negb (f y)) (x :: l)) <= length l)%nat.
Proof. intros T f l x X. cbn [filter]. rewrite X. cbn [negb]. apply filter_length_le. Qed.

Section Writer.
Variable amiga : bool.
Variable A : astate.

(** ** Imports *)
Definition block : Type := list Z * list apatch.
Definition block_bytes (b : block) : list Z :=
  str_bytes (fst b) EXT_REF32 ++ long (zlen (snd b)) ++ concat (map long (map ap_offset (snd b))).
Definition imports_known (p : apatch) : Prop := exists v s y, expr_GetImportOffset A (ap_expr p) = Some (v, s) /\ nth_error (as_symbols A) s = Some y.
Definition block_ok (b : block) : Prop := exists s y, nth_error (as_symbols A) s = Some y /\ fst b = ay_name y /\ snd b <> [] /\ Forall (fun p => refers A s p = true) (snd b).
Lemma imports_put : forall fuel ps pre body post written, (length ps <= fuel)%nat -> Forall (fun p => inside body (ap_offset p)) ps -> Forall imports_known ps ->
  exists blocks, putImports A fuel (zlen pre) ps written (ended (pre ++ body ++ post)) =
    Ok (written || match ps with [] => false | _ => true end,
        ended (pre ++ puts (map (import_put A) (concat (map snd blocks))) body ++ post ++ concat (map block_bytes blocks))) /\
    Permutation (concat (map snd blocks)) ps /\ Forall block_ok blocks.
Proof.
  induction fuel as [|fuel IH]; intros ps pre body post written LE FI FK.
  - destruct ps; [|cbn in LE; lia]. exists []. cbn. rewrite app_nil_r, orb_false_r. auto.
  - destruct ps as [|p ps]; [exists []; cbn; rewrite app_nil_r, orb_false_r; auto|].
    inversion FK as [|? ? (v & s & y & G & Y) FK']; subst. cbn [putImports]. rewrite G, Y. rewrite putstr_end, put_end.
    rewrite <- !app_assoc. rewrite references_put by exact FI.
    set (mine := filter (refers A s) (p :: ps)). set (other := filter (fun q => negb (refers A s q)) (p :: ps)).
    assert (RP : refers A s p = true) by (unfold refers; rewrite G; apply Nat.eqb_refl).
    assert (ML : mine = p :: filter (refers A s) ps) by (unfold mine; cbn [filter]; now rewrite RP).
    assert (MI : Forall (fun x => inside body (fst x)) (map (import_put A) mine)).
    { apply Forall_map. unfold mine. rewrite Forall_forall in *. intros q Q. apply filter_In in Q as [Q _]. apply (FI q Q). }
    set (body' := puts (map (import_put A) mine) body).
    assert (LB : zlen body' = zlen body) by (apply puts_length; exact MI).
    assert (STEP : fseek (fputbl (fseek (ended (pre ++ body' ++ (post ++ str_bytes (ay_name y) EXT_REF32 ++ long 0) ++ concat (map long (map ap_offset mine))))
        (ftell (ended (pre ++ body ++ post ++ str_bytes (ay_name y) EXT_REF32)))) (zlen mine))
        (ftell (ended (pre ++ body' ++ (post ++ str_bytes (ay_name y) EXT_REF32 ++ long 0) ++ concat (map long (map ap_offset mine)))))
      = ended (pre ++ body' ++ (post ++ block_bytes (ay_name y, mine)))).
    { unfold fputbl, fwrite, fseek, ftell, ended. cbn [f_data f_pos]. change (be32 (u32 (zlen mine))) with (long (zlen mine)).
      replace (pre ++ body' ++ (post ++ str_bytes (ay_name y) EXT_REF32 ++ long 0) ++ concat (map long (map ap_offset mine)))
        with ((pre ++ body' ++ post ++ str_bytes (ay_name y) EXT_REF32) ++ long 0 ++ concat (map long (map ap_offset mine))) by (rewrite <- !app_assoc; reflexivity).
      rewrite overwrite_middle; [|rewrite !zlen_app, LB; reflexivity|rewrite !zlen_long; reflexivity].
      unfold block_bytes. cbn [fst snd]. rewrite <- !app_assoc. f_equal. rewrite !zlen_app, !zlen_long. lia. }
    rewrite STEP.
    assert (OI : Forall (fun q => inside body' (ap_offset q)) other).
    { unfold other. rewrite Forall_forall in *. intros q Q. apply filter_In in Q as [Q _]. unfold inside. rewrite LB. apply (FI q Q). }
    assert (OK : Forall imports_known other).
    { unfold other. rewrite Forall_forall in *. intros q Q. apply filter_In in Q as [Q _]. apply (FK q Q). }
    destruct (IH other pre body' (post ++ block_bytes (ay_name y, mine)) (written || (0 <? zlen mine))) as (bs & W & P & BO); [|exact OI|exact OK|].
    { pose proof (filter_rest (refers A s) ps p RP). fold other in H. cbn [length] in LE. lia. }
    exists ((ay_name y, mine) :: bs). rewrite W. split; [|split].
    + f_equal. f_equal.
      * assert (0 <? zlen mine = true) as -> by (rewrite ML, zlen_cons; pose proof (zlen_nonneg _ (filter (refers A s) ps)); lia).
        rewrite orb_true_r. reflexivity.
      * cbn [map concat snd]. rewrite map_app, puts_app. fold body'. rewrite <- !app_assoc. reflexivity.
    + cbn [map concat snd]. rewrite P. apply filter_split.
    + constructor; [|exact BO]. exists s, y. split; [exact Y|]. split; [reflexivity|]. cbn [snd]. split; [rewrite ML; discriminate|].
      unfold mine. apply Forall_forall. intros q Q. apply filter_In in Q as [_ Q]. exact Q.
Qed.

Definition ext_block (k : nat) (blocks : list block) : list Z :=
  match blocks, filter (isExportIn k) (as_symbols A) with
  | [], [] => []
  | _, ys => long HUNK_EXT ++ concat (map block_bytes blocks) ++ concat (map (sym_bytes EXT_DEF) ys) ++ long 0
  end.
Lemma ext_hunk : forall f k ps pre body post, settled f (pre ++ body ++ post) -> Forall (fun p => inside body (ap_offset p)) ps -> Forall imports_known ps ->
  exists blocks f', writeExtHunk A f k ps (zlen pre) = Ok f' /\
    settled f' (pre ++ puts (map (import_put A) (concat (map snd blocks))) body ++ post ++ ext_block k blocks) /\
    Permutation (concat (map snd blocks)) ps /\ Forall block_ok blocks.
Proof.
  intros f k ps pre body post S FI FK. unfold writeExtHunk. rewrite (settled_put _ _ _ S). rewrite <- !app_assoc.
  destruct (imports_put (length ps) ps pre body (post ++ long HUNK_EXT) false (le_n _) FI FK) as (bs & W & P & BO). rewrite W. cbn [bind].
  rewrite symbols_put. exists bs. eexists. split; [reflexivity|]. split; [|split; assumption].
  assert (NB : match ps with [] => false | _ => true end = match bs with [] => false | _ => true end).
  { destruct bs as [|b bs].
    - cbn in P. apply Permutation_nil in P. now subst.
    - destruct ps; [|reflexivity]. apply Permutation_sym, Permutation_nil in P. inversion BO as [|? ? (s & y & _ & _ & NE & _) _]; subst. cbn in P.
      apply app_eq_nil in P as [P _]. contradiction. }
  rewrite NB. cbn [orb]. unfold ext_block. destruct bs as [|b bs].
  - cbn [orb]. destruct (filter (isExportIn k) (as_symbols A)) as [|y ys] eqn:E.
    + cbn [zlen length Z.of_nat Z.ltb Z.compare map concat puts fold_left]. rewrite (settled_tell _ _ S), !app_nil_r.
      exists (long HUNK_EXT). split; [|rewrite zlen_long; lia]. unfold fseek, ended. cbn [f_data]. rewrite <- !app_assoc. reflexivity.
    + assert (0 <? zlen (y :: ys) = true) as -> by (rewrite zlen_cons; pose proof (zlen_nonneg _ ys); lia). rewrite put_end. cbn [map concat app]. rewrite <- !app_assoc. cbn [app].
      apply settled_end.
  - cbn [orb]. rewrite put_end. rewrite <- !app_assoc. destruct (filter _ _); apply settled_end.
Qed.

(** ** Relocations *)
Definition reloc_value (k : nat) (p : apatch) : Z :=
  match nth_error (w_sections (worldOf A)) k with
  | Some a => match expr_GetSectionOffset (worldOf A) (ap_expr p) k a with Some v => v | None => 0 end
  | None => 0
  end.
Definition relative (k : nat) (p : apatch) : Prop :=
  exists a v, nth_error (w_sections (worldOf A)) k = Some a /\ expr_GetSectionOffset (worldOf A) (ap_expr p) k a = Some v.
Definition reloc_put (k : nat) (p : apatch) : Z * Z := (ap_offset p, reloc_value k p).
Fixpoint reloc_puts (k : nat) (per : list (list apatch)) : list (Z * Z) :=
  match per with [] => [] | ps :: r => map (reloc_put k) ps ++ reloc_puts (S k) r end.
Lemma relocations_put : forall pre k a ps body post, nth_error (w_sections (worldOf A)) k = Some a ->
  Forall (fun p => inside body (ap_offset p)) ps -> Forall (relative k) ps ->
  putRelocations A (zlen pre) k a ps (ended (pre ++ body ++ post)) =
    Ok (ended (pre ++ puts (map (reloc_put k) ps) body ++ post ++ concat (map long (map ap_offset ps)))).
Proof.
  intros pre k a. induction ps as [|p ps IH]; intros body post NA FI FR; cbn [putRelocations].
  - cbn. now rewrite app_nil_r.
  - inversion FI as [|? ? [P1 P2] FI']; subst. inversion FR as [|? ? (a' & v & NA' & G) FR']; subst. rewrite NA in NA'. injection NA' as <-. rewrite G.
    rewrite patch_end, put_end by lia. rewrite <- !app_assoc. rewrite IH; [|exact NA|unfold inside in *; rewrite put_long_length by lia; exact FI'|exact FR'].
    assert (RP : reloc_put k p = (ap_offset p, v)) by (unfold reloc_put, reloc_value; rewrite NA, G; reflexivity).
    cbn [map concat puts fold_left]. rewrite RP. cbn [fst snd]. rewrite <- !app_assoc. reflexivity.
Qed.
Lemma blocks_put : forall per k ss pre body post,
  (forall i a, nth_error ss i = Some a -> nth_error (w_sections (worldOf A)) (k + i) = Some a) -> (length per <= length ss)%nat ->
  Forall (Forall (fun p => inside body (ap_offset p))) per -> (forall i ps, nth_error per i = Some ps -> Forall (relative (k + i)) ps) ->
  putRelocationBlocks A (zlen pre) k ss per (ended (pre ++ body ++ post)) =
    Ok (ended (pre ++ puts (reloc_puts k per) body ++ post ++ writeOffsets (Z.of_nat k) (map (map ap_offset) per))).
Proof.
  induction per as [|ps per IH]; intros k ss pre body post NS LE FI FR; cbn [putRelocationBlocks].
  - cbn. now rewrite app_nil_r.
  - destruct ss as [|a ss]; [cbn in LE; lia|]. inversion FI as [|? ? FI1 FI2]; subst.
    pose proof (NS 0%nat a eq_refl) as NA. rewrite Nat.add_0_r in NA. pose proof (FR 0%nat ps eq_refl) as FR0. rewrite Nat.add_0_r in FR0.
    assert (NEXT : forall body post, zlen body = zlen body -> Forall (Forall (fun p => inside body (ap_offset p))) per ->
      putRelocationBlocks A (zlen pre) (S k) ss per (ended (pre ++ body ++ post)) =
      Ok (ended (pre ++ puts (reloc_puts (S k) per) body ++ post ++ writeOffsets (Z.of_nat k + 1) (map (map ap_offset) per)))).
    { intros b q _ Fb. rewrite IH; [replace (Z.of_nat (S k)) with (Z.of_nat k + 1) by lia; reflexivity| |cbn in LE; lia|exact Fb|].
      - intros i x X. specialize (NS (S i) x X). rewrite Nat.add_succ_r in NS. exact NS.
      - intros i x X. specialize (FR (S i) x X). rewrite Nat.add_succ_r in FR. exact FR. }
    cbn [map writeOffsets reloc_puts]. assert (ZL : zlen (map ap_offset ps) = zlen ps) by (unfold zlen; now rewrite map_length). rewrite ZL.
    destruct (zlen ps >? 0) eqn:Q.
    + rewrite !put_end, <- !app_assoc. rewrite (relocations_put _ _ _ _ _ _ NA FI1 FR0). cbn [bind].
      rewrite NEXT; [|reflexivity|]. 
      * rewrite puts_app. rewrite <- !app_assoc. reflexivity.
      * assert (zlen (puts (map (reloc_put k) ps) body) = zlen body) as L by (apply puts_length, Forall_map; exact FI1).
        unfold inside in *. rewrite L. exact FI2.
    + cbn [bind]. assert (ps = []) as -> by (destruct ps; [reflexivity|rewrite zlen_cons in Q; pose proof (zlen_nonneg _ ps); lia]).
      cbn [map app]. apply NEXT; [reflexivity|exact FI2].
Qed.
Definition reloc_block (per : list (list apatch)) : list Z :=
  if existsb (fun ps => zlen ps >? 0) per then long HUNK_RELOC32 ++ writeOffsets 0 (map (map ap_offset) per) ++ long 0 else [].
Lemma none_puts : forall per k, existsb (fun ps => zlen ps >? 0) per = false -> reloc_puts k per = [].
Proof.
  induction per as [|ps per IH]; intros k H; [reflexivity|]. cbn [existsb] in H. apply orb_false_elim in H as [H1 H2]. cbn [reloc_puts].
  destruct ps; [|rewrite zlen_cons in H1; pose proof (zlen_nonneg _ ps); lia]. apply IH, H2.
Qed.
Lemma reloc32_put : forall per pre body post, (length per <= length (as_sections A))%nat ->
  Forall (Forall (fun p => inside body (ap_offset p))) per -> (forall i ps, nth_error per i = Some ps -> Forall (relative i) ps) ->
  (if existsb (fun ps => zlen ps >? 0) per then writeReloc32 A (ended (pre ++ body ++ post)) per (zlen pre) else Ok (ended (pre ++ body ++ post))) =
  Ok (ended (pre ++ puts (reloc_puts 0 per) body ++ post ++ reloc_block per)).
Proof.
  intros per pre body post LE FI FR. unfold reloc_block. destruct (existsb _ per) eqn:E.
  - unfold writeReloc32. rewrite put_end, <- !app_assoc. rewrite blocks_put; [|auto| |exact FI|exact FR].
    + cbn [bind]. rewrite put_end, <- !app_assoc. reflexivity.
    + cbn [worldOf w_sections]. now rewrite map_length.
  - rewrite (none_puts _ _ E). cbn. now rewrite app_nil_r.
Qed.

(** ** Sorting *)
Lemma section_index : forall ss e k k' off, sectionAndOffset (worldOf A) e k ss = Some (k', off) ->
  exists i a, k' = (k + i)%nat /\ nth_error ss i = Some a /\ expr_GetSectionOffset (worldOf A) e k' a = Some off.
Proof.
  induction ss as [|a ss IH]; intros e k k' off H; [discriminate|]. cbn [sectionAndOffset] in H. destruct (expr_GetSectionOffset _ e k a) as [v|] eqn:G.
  - injection H as <- <-. exists 0%nat, a. rewrite Nat.add_0_r. auto.
  - apply IH in H as (i & a' & -> & N & G'). exists (S i), a'. rewrite Nat.add_succ_r. auto.
Qed.
Lemma section_relative : forall p k off, expr_GetSectionAndOffset (worldOf A) (ap_expr p) = Some (k, off) -> relative k p /\ (k < length (as_sections A))%nat.
Proof.
  intros p k off H. apply section_index in H as (i & a & -> & N & G). cbn [Nat.add] in *. split.
  - exists a, off. auto.
  - assert (i < length (w_sections (worldOf A)))%nat by (apply nth_error_Some; congruence). cbn [worldOf w_sections] in H. now rewrite map_length in H.
Qed.
Lemma concat_set : forall (per : list (list apatch)) k p, (k < length per)%nat -> Permutation (concat (set_nth per k (p :: nth k per []))) (p :: concat per).
Proof.
  induction per as [|ps per IH]; intros k p L; [cbn in L; lia|]. destruct k as [|k]; cbn [set_nth nth concat app]; [reflexivity|].
  rewrite IH by (cbn in L; lia). apply Permutation_sym, Permutation_middle.
Qed.
Lemma set_relative : forall per k p, relative k p -> (forall i ps, nth_error per i = Some ps -> Forall (relative i) ps) ->
  forall i ps, nth_error (set_nth per k (p :: nth k per [])) i = Some ps -> Forall (relative i) ps.
Proof.
  intros per k p R H. assert (G : forall (per : list (list apatch)) k off, relative (off + k) p -> (forall i ps, nth_error per i = Some ps -> Forall (relative (off + i)) ps) ->
    forall i ps, nth_error (set_nth per k (p :: nth k per [])) i = Some ps -> Forall (relative (off + i)) ps).
  { clear. induction per as [|qs per IH]; intros k off R H i ps N; [destruct i; discriminate|]. destruct k as [|k]; cbn [set_nth nth] in N.
    - destruct i as [|i]; [injection N as <-; constructor; [exact R|apply (H 0%nat qs eq_refl)]|apply (H (S i) ps N)].
    - destruct i as [|i]; [apply (H 0%nat ps N)|]. cbn [nth_error] in N. rewrite Nat.add_succ_r in *.
      apply (IH k (S off) R) with (i := i); [|exact N]. intros j x J. specialize (H (S j) x J). rewrite Nat.add_succ_r in H. exact H. }
  intros i ps. apply (G per k 0%nat R H).
Qed.
Lemma sorted : forall link ps per imps per' imps', sortPatches A link ps per imps = (per', imps', []) -> length per = length (as_sections A) ->
  (forall i qs, nth_error per i = Some qs -> Forall (relative i) qs) ->
  length per' = length (as_sections A) /\ (forall i qs, nth_error per' i = Some qs -> Forall (relative i) qs) /\
  Permutation (concat per' ++ imps') (concat per ++ imps ++ ps) /\
  (forall q, In q imps' -> In q imps \/ link = true /\ exists x, expr_GetImportOffset A (ap_expr q) = Some x) /\
  Forall (fun p => ap_type p = PATCH_BE_32) ps.
Proof.
  intros link. induction ps as [|p ps IH]; intros per imps per' imps' H L R; cbn [sortPatches] in H.
  - injection H as <- <-. rewrite app_nil_r. auto 10.
  - assert (NOKEEP : forall X : list (list apatch) * list apatch * list apatch, (let '(s, i, rest) := X in (s, i, p :: rest)) <> (per', imps', []))
      by (intros [[? ?] ?]; congruence).
    destruct (Z.eqb_spec (ap_type p) PATCH_BE_32) as [T|T]; [|apply NOKEEP in H; contradiction].
    destruct (expr_GetSectionAndOffset (worldOf A) (ap_expr p)) as [[k off]|] eqn:G.
    + apply section_relative in G as [RP KL]. apply IH in H as (L' & R' & P & I & FT); [|rewrite set_nth_length; exact L|apply set_relative; assumption].
      split; [exact L'|]. split; [exact R'|]. split; [|split; [exact I|constructor; assumption]]. rewrite P, concat_set by (rewrite L; exact KL). cbn [app].
      rewrite (app_assoc (concat per)), (app_assoc (concat per)). apply Permutation_middle.
    + destruct link; [|apply NOKEEP in H; contradiction]. destruct (expr_GetImportOffset A (ap_expr p)) as [x|] eqn:GI; [|apply NOKEEP in H; contradiction].
      apply IH in H as (L' & R' & P & I & FT); [|exact L|exact R]. split; [exact L'|]. split; [exact R'|]. split; [|split; [|constructor; assumption]].
      * rewrite P. apply Permutation_app_head. cbn [app]. apply Permutation_middle.
      * intros q Q. destruct (I q Q) as [[<-|Q']|Q']; eauto.
Qed.
End Writer.
