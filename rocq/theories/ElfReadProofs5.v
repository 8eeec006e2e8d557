(** Proofs about the linker's reader of ELF objects: relocations, and the whole file. *)
From Coq Require Import String ZArith List Bool Lia ZifyBool ZifyNat Sorted.
From Verif Require Import Base BaseFacts Arith AssignModel LinkExprModel LinkModel LinkSpec ResolveProofs ObjModel
  MdefModel ElfModel ElfSpec ElfProofs ElfProofs2 ElfReadModel ElfReadSpec ElfReadProofs ElfReadProofs2 ElfReadProofs3 ElfReadProofs4.
Import ListNotations.
Open Scope string_scope.
Open Scope list_scope.
Open Scope Z_scope.

Lemma patch_for_more : forall o k s s' more r p, sc_symbols s' = sc_symbols s ++ more -> patch_for o k s r p -> patch_for o k s' r p.
Proof.
  intros o k s s' more r p E [P1 [P2 [P3 [j [x [y [Y [X Q]]]]]]]]. split; [exact P1|]. split; [exact P2|]. split; [exact P3|].
  exists j, x, y. split; [exact Y|]. split; [|exact Q]. rewrite E, nth_error_app1; [exact X|]. apply nth_error_Some. congruence.
Qed.
Lemma patches_more : forall o k s s' more rs ps, sc_symbols s' = sc_symbols s ++ more -> Forall2 (patch_for o k s) rs ps -> Forall2 (patch_for o k s') rs ps.
Proof. intros o k s s' more rs ps E F. induction F; constructor; auto. apply (patch_for_more _ _ _ _ _ _ _ E H). Qed.
Lemma is_s32_s32 : forall v, is_s32 (s32 v).
Proof. intro v. unfold is_s32, s32. Z.div_mod_to_equations. lia. Qed.
Lemma patch_made : forall o k s r rr y x j, raw_reloc r rr -> nth_error (eo_symbols o) (er_symbol r) = Some y -> nth_error (sc_symbols s) j = Some x ->
  refers_to k y x -> Z.of_nat j < 2 ^ 32 ->
  patch_for o k s r (LPatch PATCH_BE_32 (rr_offset rr) (relocExpr (rr_type rr =? R_68K_PC32) (Z.of_nat j) (rr_addend rr)) None).
Proof.
  intros o k s r rr y x j -> Y X RT B. split; [reflexivity|]. split; [reflexivity|]. split; [reflexivity|]. exists j, x, y.
  split; [exact Y|]. split; [exact X|]. split; [exact RT|]. cbn [pt_expr rr_type rr_addend].
  replace ((if er_relative r then 4 else 1) =? R_68K_PC32) with (er_relative r) by (destruct (er_relative r); reflexivity).
  split.
  - intros F c v C P S0. apply relocExpr_placed; [lia|apply is_s32_s32|exact C|exact P|exact S0].
  - intros F c v C P E. rewrite E. apply relocExpr_symbol; [lia|apply is_s32_s32|exact C|exact P].
Qed.
Lemma filter_nth : forall A (g : A -> bool) l j y, nth_error l j = Some y -> g y = true -> nth_error (filter g l) (length (filter g (firstn j l))) = Some y.
Proof.
  induction l as [|a l IH]; intros [|j] y N G; cbn [nth_error] in N; try discriminate.
  - injection N as ->. cbn [firstn filter length]. rewrite G. reflexivity.
  - change (firstn (S j) (a :: l)) with (a :: firstn j l). cbn [filter]. destruct (g a); cbn [length nth_error]; apply IH; assumption.
Qed.

Section Convert.
Variable big : bool.
Variable f : list Z.
Variable o : eobject.
Variable hs : list shdr.
Variable names : Z.
Variable hn : shdr.
Variable symtab : Z.
Variable hsym hstr : shdr.
Variable idx : list Z.
Hypothesis T : told big f o hs names hn symtab hsym hstr idx.
Hypothesis LF : zlen f < 2 ^ 32.
Hypothesis LK : linkable o.
Variable fileId base : Z.
Variable junk : nat -> nat -> Z * Z.
Variable R : list rhdr.
Hypothesis RL : length R = length hs.
Hypothesis RF : forall i h r, nth_error hs i = Some h -> nth_error R i = Some r -> final_header f o hn symtab idx h r.
Local Notation section_of := (section_of big f o hs names hn symtab hsym hstr idx T junk R RL RF).
Local Notation tab := (Z.to_nat symtab).

Definition rdone (k : nat) (t : esection) (rs : list ereloc) (s : lsect) : Prop :=
  shell (base + Z.of_nat k) fileId t s /\
  (exists own imps, sc_symbols s = own ++ imps /\ Forall2 stands_for_symbol (filter (defined_in k) (eo_symbols o)) own /\
     Forall (fun x => is_definition x = false /\ exists r y, In r rs /\ nth_error (eo_symbols o) (er_symbol r) = Some y /\ refers_to k y x) imps /\
     (length imps <= length rs)%nat) /\
  Forall2 (patch_for o k s) rs (sc_patches s).
Definition handles (st : xstate) : Prop :=
  forall j y k, nth_error (eo_symbols o) j = Some y -> ey_where y = Within k ->
    x_handle st tab (S j) = Some (k, length (filter (defined_in k) (firstn j (eo_symbols o)))).

Lemma idx_inj : forall k k' i, nth_error idx k = Some i -> nth_error idx k' = Some i -> k = k'.
Proof.
  intros k k' i K K'. destruct (td_idx _ _ _ _ _ _ _ _ _ _ T) as [_ [IS _]]. destruct (Nat.lt_trichotomy k k') as [L|[E|L]]; [|exact E|].
  - pose proof (sorted_lt _ IS _ _ _ _ L K K'). lia.
  - pose proof (sorted_lt _ IS _ _ _ _ L K' K). lia.
Qed.
Lemma idx_pos : forall k i, nth_error idx k = Some i -> 0 < i.
Proof. intros k i K. destruct (td_idx _ _ _ _ _ _ _ _ _ _ T) as [_ [_ IR]]. rewrite Forall_forall in IR. apply (IR _ (nth_error_In _ _ K)). Qed.
Lemma few_symbols : zlen (eo_symbols o) < 2 ^ 28.
Proof. destruct (td_symtab _ _ _ _ _ _ _ _ _ _ T) as [_ [_ [_ [[A [B C]] [_ D]]]]]. lia. Qed.
Lemma few_relocs : forall k t, nth_error (eo_sections o) k = Some t -> zlen (et_relocs t) < 2 ^ 29.
Proof.
  intros k t K. destruct (et_relocs t) as [|r rs] eqn:E; [cbn; lia|]. rewrite <- E. destruct (td_relall _ _ _ _ _ _ _ _ _ _ T _ _ K) as [i [h [H [TY I]]]]; [congruence|].
  destruct (td_rela _ _ _ _ _ _ _ _ _ _ T _ _ H TY) as [k' [t' [K' [KT' [_ [[A [B C]] [_ [D _]]]]]]]]. assert (k' = k) by (apply (idx_inj _ _ _ K' I)). subst k'.
  assert (t' = t) by congruence. subst t'. lia.
Qed.

(** The symbol of one relocation: where it is found, or the import that is added. *)
Definition between (k : nat) (st0 st : xstate) : Prop :=
  length (x_secs st) = length (x_secs st0) /\ (forall k', k' <> k -> nth_error (x_secs st) k' = nth_error (x_secs st0) k') /\ x_of st = x_of st0 /\ handles st.
Lemma import_added : forall k x type st s, nth_error (x_secs st) k = Some s -> zlen (rs_name x) < 255 ->
  addElfSymbol junk k x type false st =
  Ok (XState (set_nth (x_secs st) k (set_symbols s (sc_symbols s ++ [LSym (rs_name x) type (s32 (rs_value x)) false (fst (junk k (length (sc_symbols s)))) (snd (junk k (length (sc_symbols s)))) (Some (sc_id s)) []])))
        (x_of st) (x_handle st), (k, length (sc_symbols s))).
Proof. intros k x type st s S0 L. unfold addElfSymbol. rewrite S0. destruct (255 <=? zlen (rs_name x)) eqn:E; [lia|]. reflexivity. Qed.

Lemma reloc_ok : forall k i t n r rr ys st0 st, nth_error idx k = Some i -> nth_error (eo_sections o) k = Some t -> nth_error (et_relocs t) n = Some r ->
  raw_reloc r rr -> length ys = S (length (eo_symbols o)) ->
  (forall j x y, nth_error ys (S j) = Some x -> nth_error (eo_symbols o) j = Some y -> final_symbol idx y x) ->
  between k st0 st -> (exists s, nth_error (x_secs st) k = Some s /\ rdone k t (firstn n (et_relocs t)) s) ->
  exists st', relocToXlink junk (Z.to_nat i) tab k ys rr st = Ok st' /\ between k st0 st' /\
    exists s, nth_error (x_secs st') k = Some s /\ rdone k t (firstn (S n) (et_relocs t)) s.
Proof.
  intros k i t n r rr ys st0 st KI KT N RR LY YS [BL [BO [BX BH]]] [s [SK [SH [[own [imps [SY [OW [IM LI]]]]] SP]]]].
  pose proof (lk_sections _ LK) as LS. rewrite Forall_forall in LS. destruct (LS _ (nth_error_In _ _ KT)) as [_ LR]. rewrite Forall_forall in LR.
  destruct (LR _ (nth_error_In _ _ N)) as [y [Y NA]]. clear LS LR.
  pose proof (lk_symbols _ LK) as LS. rewrite Forall_forall in LS. destruct (LS _ (nth_error_In _ _ Y)) as [NL _]. clear LS.
  assert (NN : (n < length (et_relocs t))%nat) by (apply nth_error_Some; congruence).
  assert (LO : (length own <= length (eo_symbols o))%nat) by (rewrite <- (Forall2_len _ _ _ _ _ OW); apply filter_le).
  assert (CNT : zlen (sc_symbols s) < 2 ^ 30).
  { rewrite firstn_length in LI. pose proof few_symbols. pose proof (few_relocs _ _ KT). unfold zlen in *. rewrite SY, app_length. lia. }
  destruct (nth_error ys (S (er_symbol r))) as [x|] eqn:X.
  2:{ apply nth_error_None in X. assert (er_symbol r < length (eo_symbols o))%nat by (apply nth_error_Some; congruence). lia. }
  pose proof (YS _ _ _ X Y) as [XN [XI [XV [XT XW]]]].
  assert (MID : exists st1 hd s1 x1, (match x_handle st tab (S (er_symbol r)) with
        | None =>
            if rs_shndx x =? SHN_UNDEF then
              let! (st1, hd) := addElfSymbol junk k x SYM_IMPORT false st in Ok (set_handle tab (S (er_symbol r)) hd st1, snd hd)
            else if match rs_section x with Some i' => Nat.eqb i' (Z.to_nat i) | None => false end then
              let! (st1, hd) := addElfSymbol junk k x SYM_LOCALIMPORT false st in Ok (set_handle tab (S (er_symbol r)) hd st1, snd hd)
            else
              let! (st1, hd) := addElfSymbol junk k x (match rs_section x with None => SYM_IMPORT | Some _ => SYM_LOCALIMPORT end) false st in
              Ok (st1, snd hd)
        | Some hd =>
            if match rs_section x with Some i' => Nat.eqb i' (Z.to_nat i) | None => false end then Ok (st, snd hd)
            else
              let! (st1, hd) := addElfSymbol junk k x (match rs_section x with None => SYM_IMPORT | Some _ => SYM_LOCALIMPORT end) false st in
              Ok (st1, snd hd)
        end) = Ok (st1, hd) /\ between k st0 st1 /\ nth_error (x_secs st1) k = Some s1 /\ shell (base + Z.of_nat k) fileId t s1 /\
        sc_patches s1 = sc_patches s /\ nth_error (sc_symbols s1) hd = Some x1 /\ refers_to k y x1 /\
        (s1 = s \/ sc_symbols s1 = sc_symbols s ++ [x1] /\ is_definition x1 = false)).
  { assert (ADD : forall type h', is_definition (LSym [] type 0 false 0 0 None []) = false ->
        (forall v a b c, refers_to k y (LSym (rs_name x) type v false a b c [])) ->
        (forall j' y' k', nth_error (eo_symbols o) j' = Some y' -> ey_where y' = Within k' -> h' tab (S j') = x_handle st tab (S j')) ->
        exists st1 hd s1 x1, Ok (XState (set_nth (x_secs st) k (set_symbols s (sc_symbols s ++ [LSym (rs_name x) type (s32 (rs_value x)) false (fst (junk k (length (sc_symbols s)))) (snd (junk k (length (sc_symbols s)))) (Some (sc_id s)) []])))
            (x_of st) h', length (sc_symbols s)) = Ok (st1, hd) /\ between k st0 st1 /\ nth_error (x_secs st1) k = Some s1 /\ shell (base + Z.of_nat k) fileId t s1 /\
        sc_patches s1 = sc_patches s /\ nth_error (sc_symbols s1) hd = Some x1 /\ refers_to k y x1 /\
        (s1 = s \/ sc_symbols s1 = sc_symbols s ++ [x1] /\ is_definition x1 = false)).
    { intros type h' ND RT HH. eexists. eexists. eexists. eexists. split; [reflexivity|]. split.
      - split; [|split; [|split]]; cbn [x_secs x_of x_handle].
        + rewrite set_nth_length. exact BL.
        + intros k' D. rewrite nth_set_nth_other by auto. apply BO; exact D.
        + exact BX.
        + intros j' y' k' J W. cbn [x_handle]. rewrite (HH _ _ _ J W). apply (BH _ _ _ J W).
      - cbn [x_secs]. split; [apply (nth_set_nth _ _ _ _ _ SK)|]. split; [apply shell_symbols; exact SH|]. split; [reflexivity|].
        unfold set_symbols. cbn [sc_symbols]. split; [rewrite nth_error_app2, Nat.sub_diag by lia; reflexivity|]. split; [apply RT|]. right. split; [reflexivity|exact ND]. }
    destruct (ey_where y) as [| |k'] eqn:W; [|congruence|].
    - destruct XW as [XH XS]. rewrite XS, XH. change (0 =? SHN_UNDEF) with true. cbn match.
      assert (IMP : forall v a b c, refers_to k y (LSym (rs_name x) SYM_IMPORT v false a b c [])).
      { intros. unfold refers_to. rewrite W. cbn [ls_name ls_resolved ls_type]. auto. }
      assert (NLx : zlen (rs_name x) < 255) by (rewrite XN; exact NL).
      destruct (x_handle st tab (S (er_symbol r))) as [hd|] eqn:HD; rewrite (import_added _ _ _ _ _ SK NLx); cbn [bind set_handle x_secs x_of x_handle snd].
      + apply (ADD SYM_IMPORT); [reflexivity|exact IMP|reflexivity].
      + apply (ADD SYM_IMPORT); [reflexivity|exact IMP|]. intros j' y' k' J W'. unfold upd2. rewrite Nat.eqb_refl. cbn [andb].
        destruct (Nat.eqb (S j') (S (er_symbol r))) eqn:Q; [|reflexivity]. assert (j' = er_symbol r) by lia. subst j'. congruence.
    - destruct XW as [i' [KI' [XH XS]]]. rewrite XS. rewrite (BH _ _ _ Y W). destruct (Nat.eqb (Z.to_nat i') (Z.to_nat i)) eqn:Q.
      + assert (EI : i' = i) by (pose proof (idx_pos _ _ KI); pose proof (idx_pos _ _ KI'); lia). rewrite EI in KI'. assert (k' = k) by (apply (idx_inj _ _ _ KI' KI)). subst k'.
        assert (FN : nth_error (filter (defined_in k) (eo_symbols o)) (length (filter (defined_in k) (firstn (er_symbol r) (eo_symbols o)))) = Some y).
        { apply filter_nth; [exact Y|]. unfold defined_in. rewrite W. apply Nat.eqb_refl. }
        destruct (Forall2_nth _ _ _ _ _ OW _ _ FN) as [x1 [O1 ST]].
        exists st, (length (filter (defined_in k) (firstn (er_symbol r) (eo_symbols o)))), s, x1. split; [reflexivity|]. split; [split; auto|].
        split; [exact SK|]. split; [exact SH|]. split; [reflexivity|]. split.
        * rewrite SY, nth_error_app1; [exact O1|]. apply nth_error_Some. congruence.
        * split; [|auto]. unfold refers_to. rewrite W, Nat.eqb_refl. destruct ST as [Q1 [Q2 [Q3 Q4]]]. unfold stands_for_symbol. auto 10.
      + assert (k' <> k) by (intros ->; assert (i' = i) by congruence; lia).
        rewrite import_added with (s := s) by (try exact SK; rewrite XN; exact NL). cbn [bind set_handle x_secs x_of x_handle snd].
        apply (ADD SYM_LOCALIMPORT); [reflexivity| |reflexivity]. intros. unfold refers_to. rewrite W. cbn [ls_name ls_resolved ls_type].
        destruct (Nat.eqb k' k) eqn:E; [lia|]. auto. }
  destruct MID as [st1 [hd [s1 [x1 [ME [[B1 [B2 [B3 B4]]] [S1 [SH1 [SP1 [X1 [RT1 MORE]]]]]]]]]]].
  unfold relocToXlink. pose proof RR as RR0. unfold raw_reloc in RR0. subst rr. cbn [rr_type rr_symbol].
  replace (negb ((if er_relative r then 4 else 1) =? R_68K_32) && negb ((if er_relative r then 4 else 1) =? R_68K_PC32)) with false by (destruct (er_relative r); reflexivity).
  destruct (1 + Z.of_nat (er_symbol r) =? 0) eqn:Q0; [lia|]. replace (Z.to_nat (1 + Z.of_nat (er_symbol r))) with (S (er_symbol r)) by lia. rewrite X.
  cbv zeta. rewrite ME. cbn [bind]. rewrite S1.
  assert (HL : (hd < length (sc_symbols s1))%nat) by (apply nth_error_Some; congruence).
  assert (CNT1 : zlen (sc_symbols s1) <= 2 ^ 30) by (destruct MORE as [->|[E _]]; [lia|unfold zlen in *; rewrite E, app_length; cbn [length]; lia]).
  destruct (zlen (sc_symbols s1) <=? Z.of_nat hd) eqn:Q1; [unfold zlen in *; lia|]. eexists. split; [reflexivity|]. split.
  - split; [|split; [|split]]; cbn [x_secs x_of x_handle].
    + rewrite set_nth_length. exact B1.
    + intros k' D. rewrite nth_set_nth_other by auto. apply B2; exact D.
    + exact B3.
    + exact B4.
  - cbn [x_secs]. eexists. split; [apply (nth_set_nth _ _ _ _ _ S1)|]. rewrite (firstn_next _ _ _ _ N). split; [apply shell_patches; exact SH1|].
    assert (SYM : exists more, sc_symbols s1 = sc_symbols s ++ more) by (destruct MORE as [->|[E _]]; [exists []; rewrite app_nil_r; reflexivity|exists [x1]; exact E]).
    split.
    + unfold set_patches. cbn [sc_symbols]. 
      assert (IM' : Forall (fun x => is_definition x = false /\ exists r0 y, In r0 (firstn n (et_relocs t) ++ [r]) /\ nth_error (eo_symbols o) (er_symbol r0) = Some y /\ refers_to k y x) imps).
      { revert IM. apply Forall_impl. intros a [D [r0 [y0 [I Q]]]]. split; [exact D|]. exists r0, y0. split; [apply in_or_app; left; exact I|exact Q]. }
      destruct MORE as [->|[E D]].
      * exists own, imps. split; [exact SY|]. split; [exact OW|]. split; [exact IM'|]. rewrite app_length. lia.
      * exists own, (imps ++ [x1]). split; [rewrite E, SY, app_assoc; reflexivity|]. split; [exact OW|]. split.
        -- apply Forall_app. split; [exact IM'|]. constructor; [|constructor]. split; [exact D|]. exists r, y. split; [apply in_or_app; right; left; reflexivity|]. auto.
        -- rewrite !app_length. cbn [length]. lia.
    + unfold set_patches at 2. cbn [sc_patches]. rewrite SP1. destruct SYM as [more SYM]. apply Forall2_snoc.
      * apply (patches_more o k s _ more _ _); [unfold set_patches; cbn [sc_symbols]; exact SYM|exact SP].
      * apply patch_made with (y := y) (x := x1); [reflexivity|exact Y|unfold set_patches; cbn [sc_symbols]; exact X1|exact RT1|unfold zlen in *; lia].
Qed.

Lemma relocs_of : forall k i t rs st s, nth_error idx k = Some i -> nth_error (eo_sections o) k = Some t -> Forall2 raw_reloc (et_relocs t) rs ->
  nth_error (x_secs st) k = Some s -> rdone k t [] s -> handles st ->
  exists st', relocsToXlink junk R (Z.to_nat i) tab k rs st = Ok st' /\ between k st st' /\ exists s', nth_error (x_secs st') k = Some s' /\ rdone k t (et_relocs t) s'.
Proof.
  intros k i t rs st s KI KT RR SK [SH [SY SP]] HD. destruct (td_symtab _ _ _ _ _ _ _ _ _ _ T) as [ST1 [ST2 [ST3 _]]].
  destruct (nth_error R tab) as [th|] eqn:TH.
  2:{ apply nth_error_None in TH. assert (tab < length hs)%nat by (apply nth_error_Some; congruence). lia. }
  destruct (both _ _ _ _ _ hsym _ junk _ RL RF _ _ TH) as [HH [_ [_ [_ [FD2 _]]]]]. assert (TY : rh_header th = hsym) by congruence. rewrite TY in FD2.
  destruct (FD2 ST3) as [ys [DY [LY YS]]]. unfold relocsToXlink. rewrite SK, TH, DY.
  set (st1 := XState (set_nth (x_secs st) k (set_patches s [])) (x_of st) (x_handle st)).
  destruct (foldr_inv _ _ (relocToXlink junk (Z.to_nat i) tab k ys)
    (fun n st' => between k st st' /\ exists s', nth_error (x_secs st') k = Some s' /\ rdone k t (firstn n (et_relocs t)) s') rs st1) as [st' [E P]].
  - split.
    + split; [|split; [|split]]; cbn [st1 x_secs x_of x_handle]; auto.
      * apply set_nth_length.
      * intros k' D. apply nth_set_nth_other. auto.
    + exists (set_patches s []). split; [apply (nth_set_nth _ _ _ _ _ SK)|]. split; [apply shell_patches; exact SH|]. split; [exact SY|]. constructor.
  - intros n rr st' N [B S0]. destruct (Forall2_nth' _ _ _ _ _ RR _ _ N) as [r [NR RAW]].
    destruct (reloc_ok k i t n r rr ys st st' KI KT NR RAW LY YS B S0) as [st2 [E2 [B2 S2]]]. exists st2. auto.
  - exists st'. split; [exact E|]. rewrite <- (Forall2_len _ _ _ _ _ RR), firstn_all in P. exact P.
Qed.

Definition rels_done (m : nat) (st : xstate) : Prop :=
  length (x_secs st) = length (eo_sections o) /\
  (forall k i, nth_error idx k = Some i -> x_of st (Z.to_nat i) = Some k) /\ handles st /\
  forall k t, nth_error (eo_sections o) k = Some t -> exists s rs, nth_error (x_secs st) k = Some s /\ rdone k t rs s /\
    (rs = [] \/ rs = et_relocs t) /\
    (forall i h, (i < m)%nat -> nth_error hs i = Some h -> sh_type h = 4 -> nth_error idx k = Some (sh_info h) -> rs = et_relocs t) /\
    (rs <> [] -> exists i h, (i < m)%nat /\ nth_error hs i = Some h /\ sh_type h = 4 /\ nth_error idx k = Some (sh_info h)).

Lemma relas_ok : forall st, symbols_done o symtab idx fileId base (eo_symbols o) st ->
  exists st', foldr (relasToXlink junk R) R st = Ok st' /\ rels_done (length R) st'.
Proof.
  intros st [DS [DL [DO DH]]].
  destruct (foldr_inv _ _ (relasToXlink junk R) rels_done R st) as [st' [E P]].
  - split; [exact DL|]. split; [exact DO|]. split.
    + intros j y k J W. rewrite (DH _ _ _ J W). reflexivity.
    + intros k t KT. destruct (DS _ _ KT) as [s [SK [SH [SP SF]]]]. exists s, []. split; [exact SK|]. split.
      * split; [exact SH|]. split; [|rewrite SP; constructor]. exists (sc_symbols s), []. rewrite app_nil_r. split; [reflexivity|]. split; [exact SF|]. split; [constructor|]. cbn. lia.
      * split; [auto|]. split; [intros; lia|congruence].
  - intros m r st' N [RL' [RO [RH RS]]]. destruct (both _ _ _ _ _ hsym _ junk _ RL RF _ _ N) as [HH [_ [_ [FD1 [FD2 [FD4 FD0]]]]]].
    set (h := rh_header r) in *.
    destruct (Z.eq_dec (sh_type h) 4) as [T4|T4].
    + destruct (FD4 T4) as [k [t [rs [KI [KT [DR RAW]]]]]]. unfold relasToXlink. rewrite DR.
      destruct (bits_of _ _ _ _ _ _ _ _ _ _ T junk _ RL RF _ _ KI) as [p [b [PR [_ [PT PF]]]]]. rewrite PR.
      assert (AL : has_flags (rh_header p) SHF_ALLOC = true) by (rewrite flags_2; exact PF). rewrite AL.
      replace ((sh_type (rh_header p) =? SHT_PROGBITS) || (sh_type (rh_header p) =? SHT_NOBITS)) with true by (unfold SHT_PROGBITS, SHT_NOBITS; lia). cbn [andb].
      rewrite (RO _ _ KI). destruct (RS _ _ KT) as [s [rs0 [SK [RD [_ [_ R5]]]]]].
      assert (rs0 = []).
      { destruct rs0 as [|a l]; [reflexivity|]. destruct R5 as [i [h' [I [H' [T' I']]]]]; [discriminate|]. assert (SI : sh_info h' = sh_info h) by congruence.
        pose proof (td_relone _ _ _ _ _ _ _ _ _ _ T _ _ _ _ H' HH T' T4 SI). lia. }
      subst rs0. destruct (relocs_of _ _ _ _ _ _ KI KT RAW SK RD RH) as [st2 [E2 [[B1 [B2 [B3 B4]]] [s2 [S2 D2]]]]].
      exists st2. split; [exact E2|]. split; [rewrite B1; exact RL'|]. split; [rewrite B3; exact RO|]. split; [exact B4|].
      intros k' t' KT'. destruct (Nat.eq_dec k' k) as [->|D].
      * assert (t' = t) by congruence. subst t'. exists s2, (et_relocs t). split; [exact S2|]. split; [exact D2|]. split; [auto|]. split; [auto|].
        intros _. exists m, h. repeat (split; [assumption||lia|]). exact KI.
      * destruct (RS _ _ KT') as [s' [rs' [SK' [RD' [C1 [C2 C3]]]]]]. exists s', rs'. rewrite B2 by exact D. split; [exact SK'|]. split; [exact RD'|]. split; [exact C1|]. split.
        -- intros i h' I H' T' I'. destruct (Nat.eq_dec i m) as [->|IM]; [|apply (C2 i h'); auto; lia].
           assert (h' = h) by congruence. subst h'. exfalso. apply D. apply (idx_inj _ _ _ I' KI).
        -- intro NE. destruct (C3 NE) as [i [h' [I Q]]]. exists i, h'. split; [lia|exact Q].
    + exists st'. split.
      * unfold relasToXlink. destruct (Z.eq_dec (sh_type h) 1) as [E1|E1]; [destruct FD1 as [b [-> _]]; [auto|reflexivity]|].
        destruct (Z.eq_dec (sh_type h) 8) as [E8|E8]; [destruct FD1 as [b [-> _]]; [auto|reflexivity]|].
        destruct (Z.eq_dec (sh_type h) 2) as [E2|E2]; [destruct (FD2 E2) as [ys [-> _]]; reflexivity|].
        specialize (FD0 E1 E8 E2 T4). destruct (rh_data r); try reflexivity; contradiction.
      * split; [exact RL'|]. split; [exact RO|]. split; [exact RH|]. intros k t KT. destruct (RS _ _ KT) as [s [rs [SK [RD [C1 [C2 C3]]]]]].
        exists s, rs. split; [exact SK|]. split; [exact RD|]. split; [exact C1|]. split.
        -- intros i h' I H' T' I'. destruct (Nat.eq_dec i m) as [->|IM]; [congruence|]. apply (C2 i h'); auto; lia.
        -- intro NE. destruct (C3 NE) as [i [h' [I Q]]]. exists i, h'. split; [lia|exact Q].
  - exists st'. auto.
Qed.
Lemma filter_own : forall ys own, Forall2 stands_for_symbol ys own -> filter is_definition own = own.
Proof.
  intros ys own F. induction F as [|y x ys own ST F IH]; [reflexivity|]. cbn [filter]. destruct ST as [_ [_ [_ TY]]].
  replace (is_definition x) with true; [rewrite IH; reflexivity|]. unfold is_definition. rewrite TY. destruct (ey_global y); reflexivity.
Qed.
Lemma converted : exists st, elfToXlink fileId base junk R = Ok st /\ length (x_secs st) = length (eo_sections o) /\
  forall k t, nth_error (eo_sections o) k = Some t -> exists s, nth_error (x_secs st) k = Some s /\ holds_section o (base + Z.of_nat k) fileId k t s.
Proof.
  destruct (sections_ok _ _ _ _ _ _ _ _ _ _ T LK fileId base junk R RL RF) as [st1 [E1 M1]].
  destruct (symbols_ok _ _ _ _ _ _ _ _ _ _ T LK fileId base junk R RL RF st1 M1) as [st2 [E2 M2]].
  destruct (relas_ok st2 M2) as [st3 [E3 [L3 [_ [_ M3]]]]]. exists st3. unfold elfToXlink. rewrite E1. cbn [bind]. rewrite E2. cbn [bind]. split; [exact E3|]. split; [exact L3|].
  intros k t KT. destruct (M3 _ _ KT) as [s [rs [SK [[SH [[own [imps [SY [OW [IM LI]]]]] SP]] [C1 [C2 _]]]]]]. exists s. split; [exact SK|].
  assert (RE : rs = et_relocs t).
  { destruct C1 as [->|C1]; [|exact C1]. destruct (et_relocs t) as [|a l] eqn:E; [reflexivity|].
    destruct (td_relall _ _ _ _ _ _ _ _ _ _ T _ _ KT) as [i [h [H [TY I]]]]; [congruence|].
    apply (C2 i h); auto. rewrite RL. apply nth_error_Some. congruence. }
  subst rs. destruct SH as [H1 H2 H3 H4 H5 H6 H7 H8].
  assert (NI : forall x, In x imps -> is_definition x = false) by (intros x I; rewrite Forall_forall in IM; apply (IM _ I)).
  split; auto.
  - rewrite SY, filter_app, (filter_own _ _ OW). replace (filter is_definition imps) with (@nil lsym); [rewrite app_nil_r; exact OW|].
    clear - NI. induction imps as [|a l IH]; [reflexivity|]. cbn [filter]. rewrite (NI a) by (left; reflexivity). apply IH. intros x I. apply NI. right. exact I.
  - intros x I D. rewrite SY in I. apply in_app_or in I. destruct I as [I|I].
    + rewrite <- (filter_own _ _ OW) in I. apply filter_In in I. destruct I. congruence.
    + rewrite Forall_forall in IM. apply (IM _ I).
Qed.
End Convert.

Lemma elf_Sections_ok : forall big f o fileId base junk, elf_says big 4 f o -> zlen f < 2 ^ 32 -> linkable o ->
  exists secs, elf_Sections fileId base junk f = Ok secs /\ length secs = length (eo_sections o) /\
  forall k t, nth_error (eo_sections o) k = Some t -> exists s, nth_error secs k = Some s /\ holds_section o (base + Z.of_nat k) fileId k t s.
Proof.
  intros big f o fileId base junk ES LF LK. destruct (says_told _ _ _ ES) as (hs & names & hn & symtab & hsym & hstr & idx & T).
  assert (RS : forall t r, In t (eo_sections o) -> In r (et_relocs t) -> (er_symbol r < length (eo_symbols o))%nat).
  { intros t r IT IR. pose proof (lk_sections _ LK) as Q. rewrite Forall_forall in Q. destruct (Q _ IT) as [_ Q1]. rewrite Forall_forall in Q1.
    destruct (Q1 _ IR) as [y [Y _]]. apply nth_error_Some. congruence. }
  destruct (resolved_ok _ _ _ _ _ _ _ _ _ _ T LF RS) as [R [RE [RL RF]]].
  destruct (converted _ _ _ _ _ _ _ _ _ _ T LF LK fileId base junk R RL RF) as [st [CE [CL CS]]].
  pose proof (td_elf _ _ _ _ _ _ _ _ _ _ T) as EL.
  destruct (readHeader_ok _ _ _ _ EL) as [off [RH RHS]].
  exists (x_secs st). split; [|auto]. unfold elf_Sections. rewrite RH. cbn [bind].
  rewrite (readSectionHeaders_ok _ _ _ _ LF RHS). cbn [bind]. destruct (mapr _ hs) as [rs| |]; cbn [bind] in RE |- *; try discriminate.
  rewrite RE. cbn [bind]. rewrite CE. reflexivity.
Qed.
