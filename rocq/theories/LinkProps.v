(** C10 applying patches, C18 symbol resolution, C19 missing symbols, C20 smart
    linking. *)
From Coq Require Import ZArith List Bool Lia ZifyBool ZifyNat Permutation.
From Verif Require Import Base BaseFacts AssignModel Arith LinkExprModel LinkModel LinkSpec ResolveProofs PatchProofs
  SmartProofs NeededProofs.
Import ListNotations.
Open Scope Z_scope.

(** ** C10 *)

(** A value in range is stored in the bytes of the patch; one out of range is an
    error.  The linker and the assembler do the same. *)
Theorem C10_patch_stores_value : forall data type off v,
  0 <= type <= 4 -> 0 <= off -> off + width type <= zlen data ->
  (fits type v -> storePatch data type off true v = Ok (replaced data off (encoding type v)) /\
                  asmPatch data type off v = Ok (replaced data off (encoding type v))) /\
  (~ fits type v -> storePatch data type off true v = Err /\ asmPatch data type off v = Err).
Proof.
  intros data type off v Ht H0 H1. rewrite storePatch_plain by assumption. split; intros HF.
  - rewrite asmPatch_ok by assumption. auto.
  - rewrite asmPatch_range by assumption. auto.
Qed.
Print Assumptions C10_patch_stores_value.
Example C10_patch_stores_value_example :
  storePatch [1; 2; 3; 4] 2 1 true 4660 = Ok [1; 18; 52; 4] /\ storePatch [1; 2; 3; 4] 1 1 true (-2) = Ok [1; 254; 255; 4] /\
  storePatch [1; 2; 3; 4] 0 1 true 256 = Err /\ storePatch [1; 2; 3; 4] 0 3 true 255 = Ok [1; 2; 3; 255].
Proof. repeat split. Qed.

(** A section: each patch that has a value holds it, in its range, and no byte
    outside the patches changes.  Values relative to a symbol only occur in
    formats with relocations, in 32 bits. *)
Theorem C10_section_patched : forall allowReloc sectionRelative eval data qs data' qs',
  Forall (inside data) qs -> ForallOrdPairs disjoint qs ->
  patchAll allowReloc sectionRelative eval data qs = Ok (data', qs') ->
  zlen data' = zlen data /\
  (forall q, In q qs -> eval q = Ok None \/
     exists e, eval q = Ok (Some e) /\ fits (pt_type q) (stored sectionRelative e) /\
       (en_symbol e <> None -> allowReloc = true /\ width (pt_type q) = 4) /\
       slice data' (pt_offset q) (width (pt_type q)) = encoding (pt_type q) (stored sectionRelative e)) /\
  (forall k, 0 <= k -> (forall q, In q qs -> covered q k -> eval q = Ok None) ->
     nth_error data' (Z.to_nat k) = nth_error data (Z.to_nat k)).
Proof.
  intros ar osr eval data qs data' qs' HI HD H. destruct (patchAll_ok ar osr eval qs data data' qs' HI HD H) as (A & B & C).
  split; [assumption|]. split; [|assumption]. intros q Hq. destruct (B q Hq) as [E|(e & E & Fe & Se & Sl)]; [auto|right].
  exists e. split; [assumption|]. split; [assumption|]. split; [|assumption]. intros HN.
  destruct (Se HN) as [-> [-> | ->]]; auto.
Qed.
Print Assumptions C10_section_patched.

(** Patching plain values fails exactly when one is out of range. *)
Theorem C10_section_error : forall allowReloc sectionRelative eval value data qs,
  Forall (inside data) qs -> ForallOrdPairs disjoint qs ->
  (forall q, In q qs -> eval q = Ok (Some (Entry None (value q)))) ->
  ((exists r, patchAll allowReloc sectionRelative eval data qs = Ok r) <->
   (forall q, In q qs -> fits (pt_type q) (value q))).
Proof.
  intros ar osr eval value data qs HI HD HE. split.
  - intros [[d qs'] H] q Hq. destruct (patchAll_ok ar osr eval qs data d qs' HI HD H) as (_ & B & _).
    destruct (B q Hq) as [E|(e & E & Fe & _)]; rewrite HE in E by assumption; [discriminate|].
    injection E as <-. exact Fe.
  - intros HF. destruct (patchAll_total ar osr eval qs data HI) as (d & qs' & ->); [|eauto].
    intros q Hq. exists (value q). split; auto.
Qed.
Print Assumptions C10_section_error.
Definition exQ1 : lpatch := LPatch 1 0 [30; 5; 1; 0; 0] None.
Definition exQ2 : lpatch := LPatch 0 3 [30; 9; 0; 0; 0] None.
Example C10_section_example :
  Forall (inside [0; 0; 7; 0]) [exQ1; exQ2] /\ ForallOrdPairs disjoint [exQ1; exQ2] /\
  patchAll false false (fun q => Ok (Some (Entry None (if pt_type q =? 0 then 9 else 261)))) [0; 0; 7; 0] [exQ1; exQ2] =
    Ok ([5; 1; 7; 9], [LPatch PATCH_NONE 0 [] None; LPatch PATCH_NONE 0 [] None]).
Proof.
  split; [|split; [|reflexivity]].
  - repeat constructor; cbn; unfold zlen; cbn; lia.
  - repeat constructor. unfold disjoint, covered. cbn. lia.
Qed.

(** ** C18 *)

(** Whatever symbols were asked for before, in whatever order, a symbol is seen
    with the address of its definition. *)
Theorem C18_symbol_has_exporters_address : forall lv p0 p i s y d x id allowImports,
  fresh p0 -> NoDup (map (fun s => s_id (sc_place s)) p0) -> resolving lv p0 p ->
  symbol_at p0 i (Z.to_nat id) s y -> defines p0 s y d x -> is_s32 (address d x) ->
  symbol_view lv p i allowImports id = Ok (seen y x d).
Proof.
  intros lv p0 p i s y d x id ai Hf Hid HR Hat HD HA.
  eapply symbol_view_ok; eauto. eapply resolving_ok; eauto.
Qed.
Print Assumptions C18_symbol_has_exporters_address.

(** The same for BANK(). *)
Theorem C18_symbol_has_exporters_bank : forall lv p0 p i s y d x id,
  fresh p0 -> NoDup (map (fun s => s_id (sc_place s)) p0) -> resolving lv p0 p ->
  symbol_at p0 i (Z.to_nat id) s y -> defines p0 s y d x -> is_s32 (address d x) -> s_cpuBank (sc_place d) <> -1 ->
  symbol_bank lv p i id = Ok (Some (s_cpuBank (sc_place d))).
Proof.
  intros lv p0 p i s y d x id Hf Hid HR Hat HD HA HB.
  erewrite symbol_bank_ok; eauto; [|eapply resolving_ok; eauto].
  rewrite (proj2 (Z.eqb_neq _ _) HB). reflexivity.
Qed.
Print Assumptions C18_symbol_has_exporters_bank.

(** Resolving all symbols: in sections in use each has its definition's address and
    section, or is an import that nothing exports.  Nothing else changes. *)
Theorem C18_all_resolved : forall lv p0 p i s y j,
  fresh p0 -> sect_ResolveUnresolved lv p0 = Ok p ->
  symbol_at p0 i j s y ->
  exists s' y', symbol_at p i j s' y' /\ s' = set_symbols s (sc_symbols s') /\
    ls_name y' = ls_name y /\ ls_type y' = ls_type y /\
    (y' = y \/
     exists d x, defines p0 s y d x /\ ls_resolved y' = true /\ ls_value y' = address d x /\
       ls_section y' = Some (s_id (sc_place d))) /\
    (s_used (sc_place s) = true -> y' = y -> ls_type y = SYM_IMPORT /\ forall d x, ~ defines p0 s y d x).
Proof.
  intros lv p0 p i s y j Hf H Hat. unfold sect_ResolveUnresolved in H.
  destruct (resolveSections_ok p0 Hf lv (length p0) p0 0 p (prog_ok_init p0) (resolving_none lv p0) H) as (HP & _ & _ & HD).
  destruct (get_sym_back p0 p i j s y HP Hat) as (s' & y' & G & HS & HY). exists s', y'.
  split. { unfold get_sym in G. split; destruct (nth_error p i) as [s1|]; try discriminate;
           destruct (nth_error (sc_symbols s1) j) as [y1|] eqn:M; try discriminate; injection G as -> ->; auto. }
  destruct (sym_ok_same p0 s y y' HY) as [T Nm]. split; [apply (proj1 HS)|]. split; [assumption|]. split; [assumption|]. split.
  - destruct HY as [->|(d & x & Hd & ->)]; [left; reflexivity|right]. exists d, x. auto.
  - intros Hu ->. destruct (in_symbol_at p0 _ _ _ _ Hat) as [I1 I2]. destruct (Hf s y I1 I2) as (R & _).
    destruct Hat as [N M].
    destruct (HD i s j) as (s2 & y2 & G2 & [R2|[T2 HN]]).
    + split; [lia|]. cbn. apply nth_error_Some. congruence.
    + assumption.
    + exact Hu.
    + apply nth_error_Some. congruence.
    + rewrite G in G2. injection G2 as <- <-. congruence.
    + rewrite G in G2. injection G2 as <- <-. split; [assumption|]. intros d x. apply HN.
Qed.
Print Assumptions C18_all_resolved.

(** What defines a symbol is determined. *)
Theorem C18_definition_unique : forall p s y d x d' x', defines p s y d x -> defines p s y d' x' -> d = d' /\ x = x'.
Proof. intros p s y d x d' x' H H0. exact (defines_unique p (fun _ _ => Err) s y d x d' x' H H0). Qed.
Print Assumptions C18_definition_unique.

(** *** An example: file 1 imports f from file 2 and k, a constant of file 2, and
    refers to g in another section of its own.  Another file also has a g. *)
Definition exGroup : option ogroup := Some (OGroup [67] GROUP_TEXT 0).
Definition exPlace (id : Z) (g : option ogroup) (loc bank : Z) (used : bool) : section :=
  Section_ id g (-1) bank loc (-1) (-1) 1 (-1) (-1) (match g with None => 0 | Some _ => 16 end) used true None.
Definition exSym (name : list Z) (type v : Z) : lsym := LSym name type v false 0 0 None [].
Definition nmF : list Z := [102].
Definition nmG : list Z := [103].
Definition nmK : list Z := [107].
Definition exS1 : lsect := LSect (exPlace 1 exGroup 256 0 true) 1 false [] 
  [exSym nmF SYM_IMPORT 0; exSym nmG SYM_LOCALIMPORT 0; exSym nmK SYM_IMPORT 0; exSym [109] SYM_LOCAL 6] []
  (Some [0; 0; 0; 0; 0; 0; 0]) 
  [LPatch 1 0 [31; 0; 0; 0; 0] None; LPatch 2 2 [31; 1; 0; 0; 0; 31; 3; 0; 0; 0; 0] None; LPatch 0 5 [31; 2; 0; 0; 0] None].
Definition exS2 : lsect := LSect (exPlace 2 exGroup 512 1 true) 2 false []
  [exSym nmG SYM_LOCALEXPORT 1; exSym nmF SYM_EXPORT 2] [] (Some [9; 9]) [].
Definition exS3 : lsect := LSect (exPlace 3 exGroup 768 1 true) 1 false []
  [exSym nmG SYM_LOCALEXPORT 4] [] (Some [8; 8]) [].
Definition exS4 : lsect := LSect (exPlace 4 None (-1) (-1) false) 2 false []
  [exSym nmK SYM_EXPORT 7] [] None [].
Definition exProg : program := [exS1; exS2; exS3; exS4].
Definition exLv (p : program) (bs : list Z) : res (Z * option Z) := Err.
Definition exGp (p : program) (a b : Z) : res Z := Err.
Definition exFm : fmath := FMath (fun _ _ => 0) (fun _ _ => 0) (fun _ _ => 0) (fun _ => 0) (fun _ => 0)
  (fun _ => 0) (fun _ => 0) (fun _ => 0) (fun _ => 0).

Ltac in_cases := repeat match goal with H : _ = _ \/ _ |- _ => destruct H as [<-|H] | H : False |- _ => destruct H | H : In _ _ |- _ => progress cbn in H end.
Lemma exProg_fresh : fresh exProg.
Proof. intros s y Hs Hy. unfold exProg in Hs. in_cases; (split; [reflexivity|]; split; [left; reflexivity|discriminate]). Qed.
Lemma exProg_ids : NoDup (map (fun s => s_id (sc_place s)) exProg).
Proof. cbn. repeat constructor; cbn; lia. Qed.
Lemma exProg_f : defines exProg exS1 (exSym nmF SYM_IMPORT 0) exS2 (exSym nmF SYM_EXPORT 2).
Proof.
  apply def_import; [reflexivity|]. exists [exS1], [exS3; exS4], [exSym nmG SYM_LOCALEXPORT 1], [].
  split; [reflexivity|]. split; [reflexivity|]. split; [left; reflexivity|]. split; [split; reflexivity|]. split.
  - intros x' Hx. in_cases. cbn. intros [? _]; discriminate.
  - intros d' x' Hd _ Hx. in_cases; cbn; intros [? _]; discriminate.
Qed.
Lemma exProg_g : defines exProg exS1 (exSym nmG SYM_LOCALIMPORT 0) exS3 (exSym nmG SYM_LOCALEXPORT 4).
Proof.
  apply def_localimport; [reflexivity|]. exists [exS1; exS2], [exS4], [], [].
  split; [reflexivity|]. split; [reflexivity|]. split; [split; reflexivity|]. split; [split; [left|]; reflexivity|]. split.
  - intros x' [].
  - intros d' x' Hd [_ Ho] Hx. in_cases; cbn; try (intros [[?|?] _]; discriminate); cbn in Ho; discriminate.
Qed.
(** Before and after resolving everything, f is 512 + 2 and g is 768 + 4. *)
Example C18_example : exists p, sect_ResolveUnresolved exLv exProg = Ok p /\
  symbol_view exLv exProg 0 false 0 = Ok (SymView 514 (Some 2%nat) true false) /\
  symbol_view exLv p 0 false 0 = Ok (SymView 514 (Some 2%nat) true false) /\
  symbol_view exLv p 0 false 1 = Ok (SymView 772 (Some 3%nat) true true) /\
  symbol_view exLv p 0 false 2 = Ok (SymView 7 (Some 4%nat) true false) /\
  symbol_bank exLv p 0 0 = Ok (Some 1).
Proof. eexists. split; [vm_compute; reflexivity|]. repeat split; vm_compute; reflexivity. Qed.

(** Two used sections that export the same name are accepted, and the order of the
    sections decides which one an import means. *)
Definition exDup (a b : Z) : program :=
  [LSect (exPlace a exGroup (a * 256) 0 true) 1 false [] [exSym nmF SYM_EXPORT 0] [] (Some []) [];
   LSect (exPlace b exGroup (b * 256) 0 true) 2 false [] [exSym nmF SYM_EXPORT 0] [] (Some []) [];
   LSect (exPlace 9 exGroup 4096 0 true) 3 false [] [exSym nmF SYM_IMPORT 0] [] (Some [0; 0])
     [LPatch 1 0 [31; 0; 0; 0; 0] None]].
Theorem C18_duplicate_export_refuted :
  exists p q, Permutation (map sc_place p) (map sc_place q) /\
  symbol_view exLv p 2 false 0 = Ok (SymView 256 (Some 1%nat) true false) /\
  symbol_view exLv q 2 false 0 = Ok (SymView 512 (Some 2%nat) true false).
Proof. exists (exDup 1 2), (exDup 2 1). split; [apply perm_swap|]. split; vm_compute; reflexivity. Qed.
Print Assumptions C18_duplicate_export_refuted.

(** ** C19 *)

(** Asking for an import without a definition ends the link, unless the format
    keeps imports; for a file-local import always. *)
Theorem C19_missing_export_is_error : forall lv p0 p i s y id allowImports,
  fresh p0 -> resolving lv p0 p -> symbol_at p0 i (Z.to_nat id) s y ->
  (ls_type y = SYM_IMPORT /\ allowImports = false \/ ls_type y = SYM_LOCALIMPORT) ->
  (forall d x, ~ defines p0 s y d x) ->
  symbol_view lv p i allowImports id = Err.
Proof. intros. eapply symbol_view_missing; eauto. eapply resolving_ok; eauto. Qed.
Print Assumptions C19_missing_export_is_error.

(** After a successful link for a format without imports, every symbol named by a
    patch of a section in use has a definition, unless evaluation of that patch
    ended early. *)
Theorem C19_successful_link_resolves_partial : forall F allowReloc osr lv gp p0 p p' i s q id,
  fresh p0 -> NoDup (map (fun s => s_id (sc_place s)) p0) ->
  resolving lv p0 p -> patch_Process F allowReloc osr lv gp false p = Ok p' ->
  nth_error p0 i = Some s -> s_used (sc_place s) = true -> In q (sc_patches s) -> mentions (pt_expr q) id ->
  (exists y d x, symbol_at p0 i (Z.to_nat id) s y /\ defines p0 s y d x) \/
  calculateExpressionValue F (patch_ctx lv gp p i false s (pt_offset q)) (pt_expr q) = Ok None.
Proof.
  intros F ar osr lv gp p0 p p' i s q id Hf Hid HR HP N HU Hq HM.
  pose proof (resolving_ok p0 Hf lv p HR) as HOK.
  destruct (Forall2_nth_l _ _ _ _ _ _ _ HOK N) as (s1 & N1 & HS).
  unfold patch_Process in HP. destruct (patchSections_at _ _ _ _ _ _ _ _ _ _ _ _ HP N1) as (s2 & N2 & HE).
  destruct (sect_ok_same p0 s s1 HS) as [Hpl Hfi]. unfold sc_used in HE. rewrite Hpl, HU in HE. cbn [plus] in HE.
  unfold patchSection in HE. destruct HS as [HS1 HS2].
  assert (HQ : sc_patches s1 = sc_patches s) by (rewrite HS1; reflexivity).
  assert (HC : forall off, patch_ctx lv gp p i false s1 off = patch_ctx lv gp p i false s off).
  { intros off. unfold patch_ctx, sc_id, sc_cpuLocation. rewrite Hpl. reflexivity. }
  destruct (sc_data s1) as [dat|]; [|rewrite HQ in HE; destruct (sc_patches s); [destruct Hq|discriminate]].
  destruct (patchAll _ _ _ _ _) as [[d' qs']| |] eqn:PA in HE; try discriminate.
  rewrite <- HQ in Hq. destruct (patchAll_evals _ _ _ _ _ _ PA q Hq) as [oe E]. rewrite HC in E.
  destruct oe as [e|]; [|right; exact E]. left.
  destruct (calc_mentions F _ _ id HM [] e E) as [[v Hv]|[b Hb]].
  - cbn [patch_ctx c_symbol] in Hv. destruct (symbol_view_inv p0 Hf lv Hid p i false id v HOK Hv) as (s0 & y0 & Hat & [(d & x & Hd & _)|[Q _]]); [|discriminate].
    assert (s0 = s) by (destruct Hat; congruence). subst s0. exists y0, d, x. auto.
  - cbn [patch_ctx c_bank] in Hb. destruct (symbol_bank_inv p0 Hf lv Hid p i id _ HOK Hb) as (s0 & y0 & d & x & Hat & Hd & _).
    assert (s0 = s) by (destruct Hat; congruence). subst s0. exists y0, d, x. auto.
Qed.
Print Assumptions C19_successful_link_resolves_partial.
(** The example links; each of its three patches is stored. *)
Example C19_example : exists p p', sect_ResolveUnresolved exLv exProg = Ok p /\
  patch_Process exFm false false exLv exGp false p = Ok p' /\
  map sc_data p' = [Some [2; 2; 1; 254; 0; 7; 0]; Some [9; 9]; Some [8; 8]; None] /\
  mentions [31; 1; 0; 0; 0; 31; 3; 0; 0; 0; 0] 3.
Proof.
  do 2 eexists. split; [vm_compute; reflexivity|]. split; [vm_compute; reflexivity|]. split; [vm_compute; reflexivity|].
  apply mentions_operand; [tauto|]. apply (mentions_here 31 3 0 0 0). tauto.
Qed.
(** Without file 2 it does not. *)
Example C19_example_missing : patch_Process exFm false false exLv exGp false [exS1; exS3; exS4] = Err.
Proof. vm_compute. reflexivity. Qed.

(** Evaluation does end early, without a message: the bank of a constant, or of a
    symbol in a section without bank.  The bytes of the patch stay as they were, so
    a successful link does not mean that all references were filled in. *)
Theorem C19_bank_of_constant_refuted : exists p p',
  fresh p /\ patch_Process exFm false false exLv exGp false p = Ok p' /\
  exists s s' q, nth_error p 0 = Some s /\ nth_error p' 0 = Some s' /\ s_used (sc_place s) = true /\ sc_patches s = [q] /\
    mentions (pt_expr q) 0 /\ sc_data s' = sc_data s /\ sc_patches s' = [q].
Proof.
  exists [LSect (exPlace 1 exGroup 256 0 true) 1 false [] [exSym nmK SYM_IMPORT 0] [] (Some [170])
            [LPatch 0 0 [33; 0; 0; 0; 0] None]; exS4].
  eexists. split; [intros s y Hs Hy; in_cases; (split; [reflexivity|]; split; [left; reflexivity|discriminate])|].
  split; [vm_compute; reflexivity|]. do 3 eexists. split; [reflexivity|]. split; [reflexivity|]. split; [reflexivity|].
  split; [reflexivity|]. split; [apply (mentions_here 33 0 0 0 0); tauto|]. split; reflexivity.
Qed.
Print Assumptions C19_bank_of_constant_refuted.

(** An import that no patch refers to may stay unresolved. *)
Theorem C19_unreferenced_import_refuted : exists p p1 p2,
  fresh p /\ sect_ResolveUnresolved exLv p = Ok p1 /\ patch_Process exFm false false exLv exGp false p1 = Ok p2 /\
  exists s y, symbol_at p2 0 0 s y /\ s_used (sc_place s) = true /\ ls_resolved y = false.
Proof.
  exists [LSect (exPlace 1 exGroup 256 0 true) 1 false [] [exSym nmK SYM_IMPORT 0] [] (Some [170]) []].
  do 2 eexists. split; [intros s y Hs Hy; in_cases; (split; [reflexivity|]; split; [left; reflexivity|discriminate])|].
  split; [vm_compute; reflexivity|]. split; [vm_compute; reflexivity|]. do 2 eexists. split; [split; reflexivity|]. split; reflexivity.
Qed.
Print Assumptions C19_unreferenced_import_refuted.

(** ** C20 *)

(** Smart linking with an entry symbol: it ends, it succeeds exactly when the entry
    is exported and nothing needed imports a missing name, and then the sections in
    use are exactly those needed; nothing else changes. *)
Theorem C20_smart_linking : forall p entry, fresh p -> NoDup (map sc_id p) -> (forall s, In s p -> s_used (sc_place s) = false) ->
  let r := smart_Process (S (length p)) p (Some entry) in
  r <> UB /\
  (r = Err <-> (forall e, ~ exporter p entry e) \/ exists k, needed p entry k /\ dangling p k) /\
  (forall p', r = Ok p' ->
     Forall2 (fun s s' => s' = s \/ s' = set_used s) p p' /\
     forall k, (exists s, nth_error p' k = Some s /\ s_used (sc_place s) = true) <-> needed p entry k).
Proof.
  intros p entry Hf Hi Hu r. pose proof (smart_ok p Hf Hi Hu entry) as H. fold r in H. destruct r as [p'| |].
  - destruct H as (A & B & (e & C) & D). split; [discriminate|]. split.
    + split; [discriminate|]. intros [H|(k & H1 & H2)]; exfalso; [eapply H|eapply D]; eauto.
    + intros q [= <-]. split; [exact A|]. intros k. rewrite <- B. reflexivity.
  - split; [discriminate|]. split; [tauto|]. discriminate.
  - destruct H.
Qed.
Print Assumptions C20_smart_linking.

(** Without an entry symbol every section is used. *)
Theorem C20_no_entry_uses_all : forall fuel p p', smart_Process fuel p None = Ok p' ->
  p' = map set_used p /\ forall s, In s p' -> s_used (sc_place s) = true.
Proof.
  intros fuel p p' H. cbn in H. injection H as <-. split; [reflexivity|]. intros s Hs. apply in_map_iff in Hs as (s0 & <- & _). reflexivity.
Qed.
Print Assumptions C20_no_entry_uses_all.

(** What smart linking keeps can be resolved: an import of a section in use has a
    definition in the sections kept. *)
Theorem C20_kept_imports_are_defined : forall p entry p' i s y,
  fresh p -> NoDup (map sc_id p) -> (forall s, In s p -> s_used (sc_place s) = false) ->
  smart_Process (S (length p)) p (Some entry) = Ok p' ->
  nth_error p' i = Some s -> s_used (sc_place s) = true -> In y (sc_symbols s) -> ls_type y = SYM_IMPORT ->
  exists d x, defines p' s y d x.
Proof.
  intros p entry p' i s y Hf Hi Hu H N Us Hy T. pose proof (smart_ok p Hf Hi Hu entry) as Q. rewrite H in Q.
  destruct Q as (A & B & _ & D). assert (HN : needed p entry i) by (apply B; exists s; auto).
  destruct (marked_nth p p' i s A N) as (s0 & N0 & Hs). destruct (sameu_static _ _ Hs) as (ES & _). rewrite ES in Hy.
  destruct (sect_FindSectionWithExportedSymbol p (ls_name y)) as [k|] eqn:FS.
  - apply exporter_iff in FS; [|assumption..]. pose proof FS as (m & d & x & F & Hn & HH).
    assert (HK : is_used p' k).
    { apply B. assert (R : refers p i k) by (exists s0, y; split; [assumption|]; split; [assumption|]; left; auto).
      destruct HN as [(e & He & Re)|(r & sr & Nr & Rr & Re)].
      - left. exists e. split; [assumption|]. eapply reach_next; eauto.
      - right. exists r, sr. split; [assumption|]. split; [assumption|]. eapply reach_next; eauto. }
    destruct (import_defined p p' Hf A s y m d x k Hn F HH HK T) as (d' & Hd & _). eauto.
  - exfalso. apply (D i HN). exists s0, y. split; [assumption|]. split; [assumption|]. split; [assumption|].
    intros k Hk. apply exporter_iff in Hk; [congruence|assumption..].
Qed.
Print Assumptions C20_kept_imports_are_defined.

(** *** Example: section 0 and 1 refer to each other, section 2 is not referred to,
    section 3 is a root and refers to section 4 through a file-local name. *)
Definition exSm (id fid : Z) (root : bool) (ys : list lsym) : lsect :=
  LSect (exPlace id exGroup (-1) (-1) false) fid root [] ys [] (Some []) [].
Definition exSmart : program :=
  [exSm 0 1 false [exSym nmF SYM_EXPORT 0; exSym nmK SYM_IMPORT 0];
   exSm 1 2 false [exSym nmF SYM_IMPORT 0; exSym nmK SYM_EXPORT 3];
   exSm 2 2 false [exSym nmF SYM_IMPORT 0; exSym nmG SYM_LOCALEXPORT 3];
   exSm 3 3 true [exSym nmG SYM_LOCALIMPORT 0];
   exSm 4 3 false [exSym nmG SYM_LOCALEXPORT 3]].
Example C20_example : fresh exSmart /\ NoDup (map sc_id exSmart) /\ (forall s, In s exSmart -> s_used (sc_place s) = false) /\
  exists p', smart_Process 6 exSmart (Some nmF) = Ok p' /\
  map sc_used p' = [true; true; false; true; true].
Proof.
  split; [intros s y Hs Hy; unfold exSmart in Hs; in_cases; (split; [reflexivity|]; split; [left; reflexivity|discriminate])|].
  split; [cbn; repeat (constructor; [cbn; lia|]); constructor|].
  split; [intros s Hs; unfold exSmart in Hs; in_cases; reflexivity|].
  eexists. split; [vm_compute; reflexivity|reflexivity].
Qed.

(** An exported constant that is no address of its file cannot be imported with
    smart linking, although the same program links without. *)
Definition exConst : program :=
  [exSm 0 1 false [exSym nmF SYM_EXPORT 0; exSym nmK SYM_IMPORT 0];
   LSect (exPlace 1 None (-1) (-1) false) 2 false [] [exSym nmK SYM_EXPORT 5000] [] None []].
Theorem C20_exported_constant_refuted : exists p entry,
  fresh p /\ NoDup (map sc_id p) /\ (forall s, In s p -> s_used (sc_place s) = false) /\
  (forall s y, In s p -> In y (sc_symbols s) -> ls_type y = SYM_IMPORT ->
     exists d x, In d p /\ In x (sc_symbols d) /\ ls_type x = SYM_EXPORT /\ ls_name x = ls_name y) /\
  smart_Process (S (length p)) p (Some entry) = Err.
Proof.
  exists exConst, nmF. split; [intros s y Hs Hy; unfold exConst in Hs; in_cases; (split; [reflexivity|]; split; [left; reflexivity|discriminate])|].
  split; [cbn; repeat (constructor; [cbn; lia|]); constructor|].
  split; [intros s Hs; unfold exConst in Hs; in_cases; reflexivity|]. split; [|vm_compute; reflexivity].
  intros s y Hs Hy T. unfold exConst in Hs. in_cases; try discriminate.
  do 2 eexists. split; [right; left; reflexivity|]. split; [left; reflexivity|]. split; reflexivity.
Qed.
Print Assumptions C20_exported_constant_refuted.

(** A small constant keeps the first floating section of its file, which nothing
    refers to: the section's unassigned address counts as -1. *)
Definition exSpurious : program :=
  [exSm 0 1 false [exSym nmF SYM_EXPORT 0; exSym nmK SYM_IMPORT 0];
   LSect (exPlace 1 None (-1) (-1) false) 2 false [] [exSym nmK SYM_EXPORT 5] [] None [];
   exSm 2 2 false [exSym nmG SYM_LOCAL 3]].
Theorem C20_spurious_section_refuted : exists p entry p' k s,
  fresh p /\ smart_Process (S (length p)) p (Some entry) = Ok p' /\ nth_error p' k = Some s /\ s_used (sc_place s) = true /\
  sc_root s = false /\ (forall y, In y (sc_symbols s) -> ls_type y = SYM_LOCAL).
Proof.
  exists exSpurious, nmF. eexists. exists 2%nat. eexists.
  split; [intros s y Hs Hy; unfold exSpurious in Hs; in_cases; (split; [reflexivity|]; split; [left; reflexivity|discriminate])|].
  split; [vm_compute; reflexivity|]. split; [reflexivity|]. split; [reflexivity|]. split; [reflexivity|].
  intros y Hy. in_cases. reflexivity.
Qed.
Print Assumptions C20_spurious_section_refuted.
