(** C66: what the linker reads from ELF objects. *)
From Coq Require Import String ZArith List Bool Lia ZifyBool ZifyNat Sorted.
From Verif Require Import Base BaseFacts Arith AssignModel LinkExprModel LinkModel LinkSpec LinkProps ResolveProofs ObjModel ExprSpec ExprModel ExprTree
  ObjWriteModel MdefModel ReportSpec ReportProps ElfModel ElfSpec ElfProofs ElfProofs2 ElfProps ElfReadModel ElfReadSpec ElfReadProofs ElfReadProofs2 ElfReadProofs5 ElfReadProofs6.
Import ListNotations.
Open Scope string_scope.
Open Scope list_scope.
Open Scope Z_scope.

(** The linker reads every ELF object for the 68000 whose contents it can hold, of either byte
    order, with headers and tables anywhere in the file, and then holds every section with its
    name, group, address, alignment, size and data, the symbols it defines, and a patch for each
    relocation, and nothing else.  Files read before are not affected. *)
Theorem C66_elf_read_partial : forall big f o junk filename st,
  elf_says big 4 f o -> zlen f < 2 ^ 32 -> linkable o ->
  exists st' secs, elf_Read junk filename f st = Ok st' /\
    l_fileId st' = l_fileId st + 1 /\ l_files st' = l_files st ++ [(filename, 0)] /\ l_prog st' = l_prog st ++ secs /\
    length secs = length (eo_sections o) /\
    forall k t, nth_error (eo_sections o) k = Some t ->
      exists s, nth_error secs k = Some s /\ holds_section o (zlen (l_prog st) + Z.of_nat k) (l_fileId st) k t s.
Proof.
  intros big f o junk filename st ES LF LK. destruct (elf_Sections_ok big f o (l_fileId st) (zlen (l_prog st)) junk ES LF LK) as [secs [E [L H]]].
  exists (LState (l_fileId st + 1) (l_files st ++ [(filename, 0)]) (l_prog st ++ secs)), secs. split; [unfold elf_Read; rewrite E; reflexivity|].
  split; [reflexivity|]. split; [reflexivity|]. split; [reflexivity|]. auto.
Qed.
Print Assumptions C66_elf_read_partial.

(** The program is then still one that nothing is resolved in and whose sections are numbered, so
    that what is proved about resolving, smart linking and patching (C10, C18, C19, C20) is true
    of it. *)
Theorem C66_ready_to_link : forall big f o junk filename st st',
  elf_says big 4 f o -> zlen f < 2 ^ 32 -> linkable o ->
  fresh (l_prog st) -> (forall k s, nth_error (l_prog st) k = Some s -> sc_id s = Z.of_nat k) ->
  elf_Read junk filename f st = Ok st' ->
  fresh (l_prog st') /\ (forall k s, nth_error (l_prog st') k = Some s -> sc_id s = Z.of_nat k) /\ NoDup (map sc_id (l_prog st')).
Proof.
  intros big f o junk filename st st' ES LF LK FR ID RD. destruct (elf_Sections_ok big f o (l_fileId st) (zlen (l_prog st)) junk ES LF LK) as [secs [E [L H]]].
  unfold elf_Read in RD. rewrite E in RD. cbn [bind] in RD. injection RD as <-. cbn [l_prog].
  pose proof (sections_attached _ _ _ _ _ E) as AT. rewrite Forall_forall in AT.
  assert (IDS : forall k s, nth_error (l_prog st ++ secs) k = Some s -> sc_id s = Z.of_nat k).
  { intros k s N. destruct (Nat.lt_ge_cases k (length (l_prog st))) as [Q|Q].
    - rewrite nth_error_app1 in N by exact Q. apply ID, N.
    - rewrite nth_error_app2 in N by exact Q. destruct (section_there _ _ _ _ L H _ _ N) as [t [_ HS]]. rewrite (hl_id _ _ _ _ _ _ HS). unfold zlen. lia. }
  split; [|split; [exact IDS|]].
  - intros s y IS IY. apply in_app_or in IS. destruct IS as [IS|IS]; [apply (FR _ _ IS IY)|]. pose proof (AT _ IS) as AS. rewrite Forall_forall in AS.
    apply In_nth_error in IS. destruct IS as [k N]. destruct (section_there _ _ _ _ L H _ _ N) as [t [KT HS]].
    assert (RT : ls_resolved y = false /\ ls_type y <> SYM_LINKER).
    { destruct (is_definition y) eqn:D.
      - destruct (definition_of _ _ _ _ H _ _ _ _ KT N IY D) as [y' [_ [_ [_ [-> ->]]]]]. split; [reflexivity|]. destruct (ey_global y'); discriminate.
      - destruct (hl_imports _ _ _ _ _ _ HS _ IY D) as [r [y' [_ [_ [_ [-> RW]]]]]]. split; [reflexivity|]. destruct (ey_where y') as [| |k'].
        + rewrite RW. discriminate.
        + destruct RW.
        + destruct (Nat.eqb k' k); [destruct RW as [_ [_ [_ ->]]]; destruct (ey_global y')|rewrite RW]; discriminate. }
    split; [apply RT|]. split; [|apply RT]. right. split; [apply (AS _ IY)|]. rewrite (hl_group _ _ _ _ _ _ HS). discriminate.
  - apply NoDup_nth_error. intros i j LI E'. rewrite map_length in LI. destruct (nth_error (l_prog st ++ secs) i) as [s|] eqn:NI.
    2:{ apply nth_error_None in NI. lia. }
    rewrite (map_nth_error sc_id _ _ NI) in E'. symmetry in E'. destruct (nth_error (l_prog st ++ secs) j) as [s'|] eqn:NJ.
    + rewrite (map_nth_error sc_id _ _ NJ) in E'. apply IDS in NI, NJ. injection E' as E'. lia.
    + apply nth_error_None in NJ. assert (Q : nth_error (map sc_id (l_prog st ++ secs)) j = None) by (apply nth_error_None; rewrite map_length; exact NJ). congruence.
Qed.
Print Assumptions C66_ready_to_link.

(** A relocation is carried out: wherever the sections are put, and whatever was resolved before,
    its patch evaluates to the address of what its symbol is in the linked program, plus the
    addend, less the address of the patch if it is relative.  For objects in which the symbols
    defined in sections have different names. *)
Theorem C66_relocation : forall F lv gp big f o junk fileId base secs p0 p pos k t n r y s d x allow,
  elf_says big 4 f o -> zlen f < 2 ^ 32 -> linkable o -> NoDup (map ey_name (filter in_section (eo_symbols o))) ->
  elf_Sections fileId base junk f = Ok secs -> linked_in fileId secs p0 pos ->
  fresh p0 -> NoDup (map sc_id p0) -> resolving lv p0 p ->
  nth_error (eo_sections o) k = Some t -> nth_error (et_relocs t) n = Some r -> nth_error (eo_symbols o) (er_symbol r) = Some y ->
  nth_error p0 (pos k) = Some s -> target p0 pos y d x ->
  (s_cpuLocation (sc_place d) <> -1 \/ s_group (sc_place d) = None) -> is_s32 (address d x) -> is_s32 (address d x + s32 (er_addend r)) ->
  exists q, nth_error (sc_patches s) n = Some q /\ pt_type q = PATCH_BE_32 /\ pt_offset q = er_offset r /\
    calculateExpressionValue F (patch_ctx lv gp p (pos k) allow s (pt_offset q)) (pt_expr q) =
    Ok (Some (Entry None (if er_relative r then s32 (address d x + s32 (er_addend r) - (s_cpuLocation (sc_place s) + er_offset r))
                          else address d x + s32 (er_addend r)))).
Proof.
  intros F lv gp big f o junk fileId base secs p0 p pos k t n r y s d x allow ES LF LK ND E LI FR ID RE KT NR NY PS TG PL A1 A2.
  destruct (elf_Sections_ok big f o fileId base junk ES LF LK) as [secs' [E' [L H]]]. assert (secs' = secs) by congruence. subst secs'.
  destruct (H _ _ KT) as [s0 [KS HS]]. destruct (li_there _ _ _ _ LI _ _ KS) as [s1 [PS1 [SY [SP SF]]]]. assert (s1 = s) by congruence. subst s1.
  destruct (Forall2_nth _ _ _ _ _ (hl_patches _ _ _ _ _ _ HS) _ _ NR) as [q [NQ [Q1 [Q2 [Q3 [j [x0 [y0 [NY0 [NX [RF [QV _]]]]]]]]]]]].
  assert (y0 = y) by congruence. subst y0. exists q. rewrite SP. split; [exact NQ|]. split; [exact Q1|]. split; [exact Q2|].
  assert (SA : LinkSpec.symbol_at p0 (pos k) (Z.to_nat (Z.of_nat j)) s x0) by (split; [exact PS|]; rewrite Nat2Z.id, SY; exact NX).
  assert (FI : sc_fileId s = fileId) by (rewrite SF; apply (hl_file _ _ _ _ _ _ HS)).
  assert (DF : exists d' x', defines p0 s x0 d' x' /\ address d' x' = address d x /\ d' = d).
  { destruct RF as [RN [_ RW]]. unfold target in TG. destruct (ey_where y) as [| |k'] eqn:W.
    - exists d, x. split; [|auto]. apply def_import; [exact RW|]. rewrite RN. exact TG.
    - destruct TG.
    - destruct TG as [PD [U [IX ST]]]. destruct (Nat.eqb k' k) eqn:K.
      + assert (k' = k) by lia. subst k'. assert (d = s) by congruence. subst d. exists s, x0. split; [|split; [|reflexivity]].
        * apply def_own. destruct RW as [_ [_ [_ ->]]]. destruct (ey_global y); auto.
        * unfold address. destruct RW as [_ [-> _]]. destruct ST as [_ [-> _]]. reflexivity.
      + exists d, x. split; [|auto]. apply def_localimport; [exact RW|]. rewrite FI, RN.
        destruct (nth_error secs k') as [s2|] eqn:K2.
        * assert (FD : sc_fileId d = fileId).
          { destruct (li_there _ _ _ _ LI _ _ K2) as [s3 [PS3 [_ [_ SF3]]]]. assert (s3 = d) by congruence. subst s3. rewrite SF3.
            destruct (section_there _ _ _ _ L H _ _ K2) as [t2 [_ HS2]]. apply (hl_file _ _ _ _ _ _ HS2). }
          apply (local_first o _ fileId secs p0 pos L H LI ND k' y d x W); auto. apply nth_error_In in NY. exact NY.
        * exfalso. destruct (says_told _ _ _ ES) as (hs & names & hn & symtab & hsym & hstr & idx & T).
          pose proof (td_syms _ _ _ _ _ _ _ _ _ _ T _ _ NY) as [_ [_ [_ [i [_ WI]]]]]. rewrite W in WI.
          destruct (td_idx _ _ _ _ _ _ _ _ _ _ T) as [IL _]. assert (k' < length idx)%nat by (apply nth_error_Some; congruence).
          apply nth_error_None in K2. lia. }
  destruct DF as [d' [x' [DF [DA ->]]]].
  assert (V : symbol_view lv p (pos k) allow (Z.of_nat j) = Ok (seen x0 x' d)).
  { apply (C18_symbol_has_exporters_address lv p0 p (pos k) s x0 d x' (Z.of_nat j) allow FR ID RE SA DF). rewrite DA. exact A1. }
  rewrite (QV F (patch_ctx lv gp p (pos k) allow s (pt_offset q)) (seen x0 x' d)).
  - unfold seen, patch_ctx. cbn [v_value c_cpuLocation c_offset]. rewrite DA, Q2. reflexivity.
  - exact V.
  - unfold seen. cbn [v_placed]. destruct PL as [PL|PL]; [|rewrite PL; apply orb_true_r]. destruct (s_cpuLocation (sc_place d) =? -1) eqn:Q; [lia|reflexivity].
  - unfold seen. cbn [v_value]. rewrite DA. exact A2.
Qed.
Print Assumptions C66_relocation.

Lemma NoDup_filter_map : forall A B (g : A -> B) (c : A -> bool) l, NoDup (map g l) -> NoDup (map g (filter c l)).
Proof.
  intros A B g c. induction l as [|a l IH]; intro N; [constructor|]. inversion N as [|? ? NI N1]; subst. cbn [filter]. destruct (c a); [|apply IH, N1]. cbn [map].
  constructor; [|apply IH, N1]. intro I. apply NI. apply in_map_iff in I. destruct I as [b [E I]]. apply filter_In in I. rewrite <- E. apply in_map, I.
Qed.
(** The assembler's own objects: what C65 says of the file is what the linker then holds. *)
Theorem C66_assembled_and_read_partial : forall F big alignment used sorter A f junk filename st,
  sorts sorter -> writable A alignment used -> relinkable A used ->
  elf_Write big 4 alignment used sorter A = Ok (f, false) -> zlen f < 2 ^ 32 ->
  exists o st' secs, elf_says big 4 f o /\ says_program F A alignment used o /\ linkable o /\
    (NoDup (map ay_name (as_symbols A)) -> NoDup (map ey_name (filter in_section (eo_symbols o)))) /\
    elf_Read junk filename f st = Ok st' /\ l_prog st' = l_prog st ++ secs /\
    length secs = length (eo_sections o) /\
    forall k t, nth_error (eo_sections o) k = Some t ->
      exists s, nth_error secs k = Some s /\ holds_section o (zlen (l_prog st) + Z.of_nat k) (l_fileId st) k t s.
Proof.
  intros F big alignment used sorter A f junk filename st SO W RK H L. destruct (C65_elf_object_partial F big 4 alignment used sorter A f SO W ltac:(lia) H L) as [o [ES SP]].
  assert (LK : linkable o).
  { destruct SP as [table [_ [TW [TS SS]]]]. split.
    - rewrite Forall_forall. intros e IE. apply In_nth_error in IE. destruct IE as [n NE]. destruct (Forall2_nth' _ _ _ _ _ TS _ _ NE) as [s [NS [y [NY [S1 [S2 [S3 S4]]]]]]].
      apply nth_error_In in NS. apply TW in NS. destruct NS as [y' [NY' WA]]. assert (y' = y) by congruence. subst y'.
      destruct (rk_symbols _ _ RK _ _ NY WA) as [R1 [R2 R3]]. rewrite S1, S3, S4. split; [exact R1|]. split.
      + intro G. apply orb_prop in G. rewrite (R2 G). destruct (imported y); [discriminate|]. destruct (y_section (ay_sym y)); discriminate.
      + intro G. apply orb_false_elim in G. destruct G as [_ G]. rewrite G. destruct (y_constant (ay_sym y)) eqn:C; [discriminate|].
        specialize (R3 G eq_refl). destruct (y_section (ay_sym y)); [discriminate|congruence].
    - rewrite Forall_forall. intros t IT. apply In_nth_error in IT. destruct IT as [n NT]. destruct (Forall2_nth' _ _ _ _ _ SS _ _ NT) as [w [NW [T1 [_ [_ [_ [_ [_ [_ [ps [PM FP]]]]]]]]]]].
      pose proof (rk_sections _ _ RK) as RS. rewrite Forall_forall in RS. apply nth_error_In in NW. destruct (RS _ NW) as [R1 R2]. rewrite T1. split; [exact R1|].
      rewrite Forall_forall. intros r IR. apply In_nth_error in IR. destruct IR as [m NR]. destruct (Forall2_nth' _ _ _ _ _ FP _ _ NR) as [q [NQ [_ [_ [_ [s [NS [ME _]]]]]]]].
      destruct (Forall2_nth _ _ _ _ _ TS _ _ NS) as [e [NE [y [NY [_ [_ [_ S4]]]]]]]. exists e. split; [exact NE|]. rewrite S4.
      apply nth_error_In in NQ. rewrite (R2 q s y (Permutation.Permutation_in _ PM NQ) ME NY). destruct (imported y); [discriminate|]. destruct (y_section (ay_sym y)); discriminate. }
  destruct (C66_elf_read_partial big f o junk filename st ES L LK) as [st' [secs [E [_ [_ [PR [LE HS]]]]]]].
  exists o, st', secs. split; [exact ES|]. split; [exact SP|]. split; [exact LK|]. split; [|auto 10].
  intro ND. destruct SP as [table [NT [_ [TS _]]]]. apply NoDup_filter_map.
  clear - ND NT TS. induction TS as [|s e table es [y [NY [S1 _]]] TS IH]; [constructor|]. inversion NT as [|? ? NI NT']; subst. cbn [map]. constructor; [|apply IH, NT'].
  intro I. apply in_map_iff in I. destruct I as [e' [E I]]. apply In_nth_error in I. destruct I as [n NE]. destruct (Forall2_nth' _ _ _ _ _ TS _ _ NE) as [s' [NS [y' [NY' [S1' _]]]]].
  apply NI. apply nth_error_In in NS. replace s with s'; [exact NS|]. rewrite NoDup_nth_error in ND. apply ND; [rewrite map_length; apply nth_error_Some; congruence|].
  rewrite (map_nth_error ay_name _ _ NY), (map_nth_error ay_name _ _ NY'). congruence.
Qed.
Print Assumptions C66_assembled_and_read_partial.

(** ** Cases *)
Definition rdSymbols : list asym := [exCode; exBss; exLabel; exImport; ASym (chars "K") (Symbol SymEqu true false true None 42) false true false (Some 0) 5 0 false false; exBuf].
Definition rdUsed (s : nat) : bool := Nat.leb 2 s.
Definition rdA : astate := AState 1 false false [] rdSymbols
  [WSect aAligned (chars "text") 0 0 8 0 [] 10 [1; 2; 3; 4; 5; 6; 7; 8; 9; 10] [APatch 6 PATCH_BE_32 (plus (sym 3) (num 6)); APatch 0 PATCH_BE_32 (sym 5)];
   WSect aPlain (chars "vars") 1 0 0 0 [] 16 [] []].
Lemma rdA_writable : writable rdA 4 rdUsed.
Proof.
  split.
  - unfold rdA, rdSymbols, as_symbols. repeat (constructor; [cbn; repeat (constructor; [lia|]); constructor|]). constructor.
  - unfold rdA. cbn [as_sections]. constructor; [|constructor; [|constructor]].
    + cbn [ws_name ws_imagePosition ws_align ws_usedSpace ws_data ws_patches ws_group]. unfold is_u32. split; [cbn; repeat (constructor; [lia|]); constructor|].
      split; [lia|]. split; [lia|]. split; [lia|]. split; [reflexivity|].
      constructor; [|constructor; [|constructor]]; cbn [ap_offset ap_type ap_expr]; (split; [lia|]); (split; [reflexivity|]); cbn; unfold is_s32;
        (split; [repeat split; lia|]); (split; [tauto|]); intros s M; intuition subst; reflexivity.
    + cbn [ws_name ws_imagePosition ws_align ws_usedSpace ws_data ws_patches ws_group]. unfold is_u32. split; [cbn; repeat (constructor; [lia|]); constructor|].
      repeat (split; [lia|]). split; [|constructor]. intros g G. injection G as <-. discriminate.
  - lia.
  - split; vm_compute; reflexivity.
Qed.
Lemma rdA_relinkable : relinkable rdA rdUsed.
Proof.
  split.
  - intros s y N W. do 6 (destruct s as [|s]; [injection N as <-; split; [vm_compute; reflexivity|]; split; [first [reflexivity|intros [Q|Q]; discriminate]|first [discriminate|intros _ _; discriminate|
      exfalso; destruct W as [[Q|[Q|Q]] _]; discriminate]]|]). destruct s; discriminate.
  - constructor; [|constructor; [|constructor]]; (split; [vm_compute; reflexivity|]); intros p s y I M N.
    + destruct I as [<-|[<-|[]]]; cbn in M; intuition subst; injection N as <-; reflexivity.
    + destruct I.
Qed.
Definition junk0 (k n : nat) : Z * Z := (7, 7).
Definition rdFile : list Z := match elf_Write true 4 4 rdUsed isort rdA with Ok (f, _) => f | _ => [] end.
(** The linker reads what the assembler wrote: the code with a symbol of its own, imports of the
    two names it uses, and two patches. *)
Example C66_case : elf_Write true 4 4 rdUsed isort rdA = Ok (rdFile, false) /\ zlen rdFile < 2 ^ 32 /\ writable rdA 4 rdUsed /\ relinkable rdA rdUsed /\
  exists s1 s2, elf_Sections 3 2 junk0 rdFile = Ok [s1; s2] /\
    map (fun y => (ls_name y, ls_type y, ls_value y)) (sc_symbols s1) =
      [(chars "loop", SYM_LOCALEXPORT, 2); (chars "buf", SYM_LOCALIMPORT, 8); (chars "ext", SYM_IMPORT, 0)] /\
    map pt_offset (sc_patches s1) = [0; 6] /\ sc_data s1 = Some [0; 0; 0; 0; 5; 6; 0; 0; 0; 0] /\
    map (fun y => (ls_name y, ls_type y, ls_value y)) (sc_symbols s2) = [(chars "buf", SYM_EXPORT, 8)] /\ sc_data s2 = None.
Proof.
  split; [vm_compute; reflexivity|]. split; [vm_compute; reflexivity|]. split; [apply rdA_writable|]. split; [apply rdA_relinkable|].
  do 2 eexists. split; [vm_compute; reflexivity|]. repeat split.
Qed.

(** The same two sections in a program with a third one that exports ext, put at 0x1000, 0x2000
    and 0x3000: the patches are the address of buf, and ext plus 6. *)
Definition putAt (a : Z) (s : lsect) : lsect :=
  let q := sc_place s in
  LSect (Section_ (s_id q) (s_group q) a (s_cpuBank q) a (s_imageLocation q) (s_overlay q) (s_minimumWordSize q) (s_byteAlign q) (s_page q) (s_size q) true true (s_pool q))
    (sc_fileId s) (sc_root s) (sc_name s) (sc_symbols s) (sc_lines s) (sc_data s) (sc_patches s).
Definition rdOther : lsect :=
  LSect (Section_ 0 (Some (OGroup (chars "CODE") GROUP_TEXT 0)) 0x3000 (-1) 0x3000 0x3000 0 1 (-1) (-1) 4 true true None) 1 false (chars "lib")
    [LSym (chars "ext") SYM_EXPORT 2 false 0 0 None []] [] (Some [0; 0; 0; 0]) [].
Definition rdSections : list lsect := match elf_Sections 3 1 junk0 rdFile with Ok l => l | _ => [] end.
Definition rdProgram : program := rdOther :: match rdSections with [s1; s2] => [putAt 0x1000 s1; putAt 0x2000 s2] | _ => [] end.
Definition rdEval (p : program) (i n : nat) : res (option entry) :=
  match nth_error p i with
  | Some s => match nth_error (sc_patches s) n with
              | Some q => calculateExpressionValue exFm (patch_ctx exLv exGp p i false s (pt_offset q)) (pt_expr q)
              | None => Err
              end
  | None => Err
  end.
Example C66_relocation_case :
  (exists o, elf_says true 4 rdFile o /\ linkable o /\ NoDup (map ey_name (filter in_section (eo_symbols o)))) /\
  elf_Sections 3 1 junk0 rdFile = Ok rdSections /\ linked_in 3 rdSections rdProgram S /\ fresh rdProgram /\ NoDup (map sc_id rdProgram) /\
  rdEval rdProgram 1 0 = Ok (Some (Entry None 0x2008)) /\ rdEval rdProgram 1 1 = Ok (Some (Entry None 0x3008)).
Proof.
  split; [|split; [vm_compute; reflexivity|split; [|split; [|split; [|split; vm_compute; reflexivity]]]]].
  - destruct (C66_assembled_and_read_partial exFm true 4 rdUsed isort rdA rdFile junk0 [] (LState 0 [] []) isort_sorts rdA_writable rdA_relinkable) as (o & _ & _ & ES & _ & LK & ND & _).
    + vm_compute. reflexivity.
    + vm_compute. reflexivity.
    + exists o. split; [exact ES|]. split; [exact LK|]. apply ND. cbn. repeat (constructor; [cbn; intuition discriminate|]). constructor.
  - split.
    + intros [|[|k]] s N; vm_compute in N; try (injection N as <-; eexists; split; [vm_compute; reflexivity|split; [|split]; vm_compute; reflexivity]). destruct k; discriminate.
    + intros [|[|[|i]]] s N FI; vm_compute in N; try (injection N as <-).
      * vm_compute in FI. discriminate.
      * exists 0%nat. eexists. split; vm_compute; reflexivity.
      * exists 1%nat. eexists. split; vm_compute; reflexivity.
      * destruct i; discriminate.
  - intros s y IS IY. vm_compute in IS. repeat (destruct IS as [<-|IS]); [| | |destruct IS]; vm_compute in IY;
      repeat (destruct IY as [<-|IY]); try destruct IY; (split; [reflexivity|]); (split; [first [left; reflexivity|right; split; [reflexivity|discriminate]]|discriminate]).
  - vm_compute. repeat (constructor; [cbn; intuition discriminate|]). constructor.
Qed.

(** The assembler's object for a program that exports a constant: the linker uses a null
    pointer. *)
Theorem C66_exported_constant_refuted : exists A f, writable A 4 exUsed /\ elf_Write true 4 4 exUsed isort A = Ok (f, false) /\
  (forall y, In y (as_symbols A) -> ay_export y = true -> y_type (ay_sym y) = SymEqu \/ y_type (ay_sym y) = SymLabel) /\
  forall fileId base junk, elf_Sections fileId base junk f = UB.
Proof.
  exists exA. eexists. split; [apply exA_writable|]. split; [vm_compute; reflexivity|]. split.
  - intros y I. repeat (destruct I as [<-|I]; [cbn; auto; discriminate|]). destruct I.
  - intros. reflexivity.
Qed.
Print Assumptions C66_exported_constant_refuted.

(** Local labels of different scopes can have the same name.  Other sections find the first:
    section three should refer to offset 4 of section two, at 0x2004, and gets 0x1000. *)
Definition dupSymbols : list asym :=
  [exCode; ASym (chars ".l") (Symbol SymLabel false true false (Some 0%nat) 0) false true false (Some 0) 3 0 false false;
   ASym (chars ".l") (Symbol SymLabel false true false (Some 1%nat) 4) false true false (Some 0) 4 0 false false].
Definition dupSection (name : string) (ps : list apatch) : wsect := WSect aPlain (chars name) 0 0 0 0 [] 8 [0; 0; 0; 0; 0; 0; 0; 0] ps.
Definition dupA : astate := AState 1 false false [] dupSymbols [dupSection "one" []; dupSection "two" []; dupSection "three" [APatch 0 PATCH_BE_32 (sym 2)]].
Theorem C66_same_name_refuted : exists f s1 s2 s3, elf_Write true 4 4 (fun _ => true) isort dupA = Ok (f, false) /\
  elf_Sections 1 0 junk0 f = Ok [s1; s2; s3] /\
  (forall q, In q (sc_patches s3) -> pt_offset q = 0) /\
  (exists y, nth_error dupSymbols 2 = Some y /\ y_section (ay_sym y) = Some 1%nat /\ y_value (ay_sym y) = 4) /\
  rdEval [putAt 0x1000 s1; putAt 0x2000 s2; putAt 0x3000 s3] 2 0 = Ok (Some (Entry None 0x1000)).
Proof.
  do 4 eexists. split; [vm_compute; reflexivity|]. split; [vm_compute; reflexivity|]. split; [intros q [<-|[]]; reflexivity|].
  split; [eexists; split; [reflexivity|]; split; reflexivity|]. vm_compute. reflexivity.
Qed.
Print Assumptions C66_same_name_refuted.
