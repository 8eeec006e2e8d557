(** Proofs about the assembler's ELF writer. *)
From Coq Require Import String ZArith List Bool Lia ZifyBool ZifyNat Permutation Sorted.
From Verif Require Import Base BaseFacts Arith AssignModel LinkModel LinkSpec ResolveProofs ExprSpec ExprTree ExprModel ObjWriteModel FileModel FileProofs
  MdefModel ReportSpec ElfModel ElfSpec.
Import ListNotations.
Open Scope string_scope.
Open Scope list_scope.
Open Scope Z_scope.

(** ** Pieces of files *)
Definition has (f : list Z) (k : Z) (l : list Z) : Prop := exists a b, f = a ++ l ++ b /\ zlen a = k.
Lemma has_app : forall f x k l, has f k l -> has (f ++ x) k l.
Proof. intros f x k l [a [b [-> E]]]. exists a, (b ++ x). rewrite <- !app_assoc. auto. Qed.
Lemma has_end : forall f l, has (f ++ l) (zlen f) l.
Proof. intros. exists f, []. rewrite app_nil_r. auto. Qed.
Lemma has_sub : forall f k a b c, has f k (a ++ b ++ c) -> has f (k + zlen a) b.
Proof. intros f k a b c [x [y [-> E]]]. exists (x ++ a), (c ++ y). rewrite <- !app_assoc. rewrite zlen_app. split; [reflexivity|lia]. Qed.
Lemma has_first : forall f k a b, has f k (a ++ b) -> has f k a.
Proof. intros f k a b [x [y [-> E]]]. exists x, (b ++ y). rewrite <- !app_assoc. auto. Qed.
Lemma has_rest : forall f k a b, has f k (a ++ b) -> has f (k + zlen a) b.
Proof. intros f k a b [x [y [-> E]]]. exists (x ++ a), y. rewrite <- !app_assoc, zlen_app. split; [reflexivity|lia]. Qed.
Lemma has_len : forall f k l, has f k l -> 0 <= k /\ k + zlen l <= zlen f.
Proof.
  intros f k l [a [b [-> <-]]]. rewrite !zlen_app. pose proof (zlen_nonneg _ a). pose proof (zlen_nonneg _ b). lia.
Qed.
Lemma has_slice : forall f k l, has f k l -> slice f k (zlen l) = l.
Proof.
  intros f k l [a [b [-> <-]]]. unfold slice, zlen. rewrite !Nat2Z.id, skipn_app, skipn_all, Nat.sub_diag. cbn [app skipn].
  rewrite firstn_app, Nat.sub_diag, firstn_all. cbn [firstn]. apply app_nil_r.
Qed.
Lemma has_over : forall f k l p bs, has f k l -> 0 <= p -> p + zlen bs <= k -> has (overwrite f p bs) k l.
Proof.
  intros f k l p bs [a [b [-> <-]]] P Q.
  set (a1 := firstn (Z.to_nat p) a). set (a2 := firstn (length bs) (skipn (Z.to_nat p) a)). set (a3 := skipn (length bs) (skipn (Z.to_nat p) a)).
  assert (E : a = a1 ++ a2 ++ a3) by (unfold a1, a2, a3; rewrite firstn_skipn, firstn_skipn; reflexivity).
  assert (L1 : zlen a1 = p) by (unfold a1, zlen in *; rewrite firstn_length; lia).
  assert (L2 : zlen bs = zlen a2) by (unfold a2, zlen in *; rewrite firstn_length, skipn_length; lia).
  rewrite E at 1. rewrite <- !app_assoc. rewrite overwrite_middle by auto.
  exists (a1 ++ bs ++ a3), b. rewrite <- !app_assoc. split; [reflexivity|].
  apply (f_equal (@zlen Z)) in E. rewrite !zlen_app in *. lia.
Qed.
Lemma slice_has : forall f k l, has f k l -> forall n, n = zlen l -> slice f k n = l.
Proof. intros f k l H n ->. apply has_slice; auto. Qed.

Lemma fput_word_len : forall big v, zlen (fput_word big v) = 4.
Proof. intros [|] v; reflexivity. Qed.
Lemma fput_half_len : forall big v, zlen (fput_half big v) = 2.
Proof. intros [|] v; reflexivity. Qed.
Lemma u32_small : forall v, is_u32 v -> u32 v = v.
Proof. intros v V. unfold u32. apply Z.mod_small. exact V. Qed.
Lemma u16_small : forall v, 0 <= v < 2 ^ 16 -> u16 v = v.
Proof. intros v V. unfold u16. apply Z.mod_small. exact V. Qed.
Lemma u32_is : forall v, is_u32 (u32 v).
Proof. intro v. unfold is_u32, u32. apply Z.mod_pos_bound. reflexivity. Qed.
Lemma has_word : forall big f k v, has f k (fput_word big v) -> is_u32 v -> word_at big f k v.
Proof.
  intros big f k v H V. split; [exact V|]. split; [apply (has_len _ _ _ H)|]. rewrite (slice_has _ _ _ H 4) by (symmetry; apply fput_word_len).
  unfold fput_word. rewrite (u32_small _ V). reflexivity.
Qed.
Lemma has_word_u : forall big f k v, has f k (fput_word big v) -> word_at big f k (u32 v).
Proof.
  intros big f k v H. split; [apply u32_is|]. split; [apply (has_len _ _ _ H)|]. rewrite (slice_has _ _ _ H 4) by (symmetry; apply fput_word_len).
  reflexivity.
Qed.
Lemma has_half : forall big f k v, has f k (fput_half big v) -> 0 <= v < 2 ^ 16 -> half_at big f k v.
Proof.
  intros big f k v H V. split; [exact V|]. split; [apply (has_len _ _ _ H)|]. rewrite (slice_has _ _ _ H 2) by (symmetry; apply fput_half_len).
  unfold fput_half. rewrite (u16_small _ V). reflexivity.
Qed.
Fixpoint words (big : bool) (vs : list Z) : list Z := match vs with [] => [] | v :: r => fput_word big v ++ words big r end.
Lemma has_words : forall big vs f k, has f k (words big vs) -> Forall is_u32 vs -> words_at big f k vs.
Proof.
  intros big vs. induction vs as [|v vs IH]; intros f k H V; intros [|i] w E; cbn [nth_error] in E; try discriminate; inversion V; subst.
  - injection E as <-. cbn [words] in H. rewrite Z.mul_0_r, Z.add_0_r. apply has_word; auto. apply (has_first _ _ _ _ H).
  - cbn [words] in H. apply has_rest in H. rewrite fput_word_len in H. specialize (IH _ _ H H3 _ _ E).
    replace (k + 4 * Z.of_nat (S i)) with (k + 4 + 4 * Z.of_nat i) by lia. exact IH.
Qed.
Lemma words_len : forall big vs, zlen (words big vs) = 4 * zlen vs.
Proof.
  intros big. induction vs as [|v vs IH]; [reflexivity|]. cbn [words]. rewrite zlen_app, fput_word_len, IH. unfold zlen. cbn [List.length]. lia.
Qed.
(** Equal pieces one after the other. *)
Lemma has_concat : forall A (g : A -> list Z) n xs f k, 0 <= n -> (forall x, zlen (g x) = n) -> has f k (concat (map g xs)) ->
  forall j x, nth_error xs j = Some x -> has f (k + n * Z.of_nat j) (g x).
Proof.
  intros A g n xs. induction xs as [|y xs IH]; intros f k N G H [|j] x E; cbn [nth_error] in E; try discriminate.
  - injection E as <-. cbn [map concat] in H. rewrite Z.mul_0_r, Z.add_0_r. apply (has_first _ _ _ _ H).
  - cbn [map concat] in H. apply has_rest in H. rewrite G in H. specialize (IH _ _ N G H _ _ E).
    replace (k + n * Z.of_nat (S j)) with (k + n + n * Z.of_nat j) by lia. exact IH.
Qed.
Lemma concat_len : forall A (g : A -> list Z) n xs, (forall x, zlen (g x) = n) -> zlen (concat (map g xs)) = n * zlen xs.
Proof.
  intros A g n xs G. induction xs as [|y xs IH]; [unfold zlen; cbn; lia|]. cbn [map concat]. rewrite zlen_app, G, IH.
  unfold zlen. cbn [List.length]. lia.
Qed.
Lemma has_string : forall t k s, has t k (s ++ [0]) -> no_zero s -> string_at t k s.
Proof.
  intros t k s H N. split; [apply (has_len _ _ _ H)|]. split; [exact N|]. apply (slice_has _ _ _ H). rewrite zlen_app. reflexivity.
Qed.

Lemma NoDup_app_intro : forall A (a b : list A), NoDup a -> NoDup b -> (forall x, In x a -> In x b -> False) -> NoDup (a ++ b).
Proof.
  intros A a b. induction a as [|x a IH]; intros NA NB D; [exact NB|]. inversion NA; subst. cbn [app]. constructor.
  - rewrite in_app_iff. intros [Q|Q]; [auto|]. apply (D x); [left; reflexivity|exact Q].
  - apply IH; auto. intros y Y. apply D. right. exact Y.
Qed.

(** ** The writer only appends *)
Record ext (st st' : ewriter) : Prop := {
  ext_out : exists x, ew_out st' = ew_out st ++ x;
  ext_strings : exists x, ew_strings st' = ew_strings st ++ x }.
Lemma ext_refl : forall st, ext st st.
Proof. intro st. split; exists []; rewrite app_nil_r; reflexivity. Qed.
Lemma ext_trans : forall a b c, ext a b -> ext b c -> ext a c.
Proof.
  intros a b c [[x X] [y Y]] [[x' X'] [y' Y']]. split; [exists (x ++ x')|exists (y ++ y')]; rewrite app_assoc; congruence.
Qed.
Lemma ext_has : forall a b k l, ext a b -> has (ew_out a) k l -> has (ew_out b) k l.
Proof. intros a b k l [[x X] _] H. rewrite X. apply has_app. exact H. Qed.
Lemma ext_str : forall a b k l, ext a b -> has (ew_strings a) k l -> has (ew_strings b) k l.
Proof. intros a b k l [_ [x X]] H. rewrite X. apply has_app. exact H. Qed.
Lemma ext_len : forall a b, ext a b -> zlen (ew_out a) <= zlen (ew_out b) /\ zlen (ew_strings a) <= zlen (ew_strings b).
Proof.
  intros a b [[x X] [y Y]]. rewrite X, Y, !zlen_app. pose proof (zlen_nonneg _ x). pose proof (zlen_nonneg _ y). lia.
Qed.
Lemma ext_emit : forall bs st, ext st (emit bs st).
Proof. intros. split; [exists bs; reflexivity|exists []; cbn; rewrite app_nil_r; reflexivity]. Qed.
Lemma align_inv : forall a st st', alignFile a st = Ok st' -> ext st st' /\ ew_headers st' = ew_headers st.
Proof.
  intros a st st' H. unfold alignFile in H. destruct (a =? 0); [discriminate|]. injection H as <-. split; [apply ext_emit|reflexivity].
Qed.

(** ** Sections *)
Lemma bytes_nth : forall d k, 0 <= k < zlen d -> nth_error d (Z.to_nat k) = Some (byte d k).
Proof.
  intros d k K. unfold byte. destruct (nth_error d (Z.to_nat k)) eqn:E.
  - f_equal. symmetry. apply nth_error_nth. exact E.
  - apply nth_error_None in E. unfold zlen in K. lia.
Qed.
Lemma clearPatches_ok : forall ps d d', clearPatches ps d = Ok d' -> Forall (fun p => 0 <= ap_offset p) ps ->
  zlen d' = zlen d /\
  (forall k, 0 <= k < zlen d -> (forall p, In p ps -> ~ covers_byte p k) -> nth_error d' (Z.to_nat k) = nth_error d (Z.to_nat k)) /\
  Forall (fun p => ap_offset p + 4 <= zlen d) ps.
Proof.
  induction ps as [|p ps IH]; intros d d' H O; cbn [clearPatches] in H.
  - injection H as <-. auto.
  - inversion O as [|? ? P O']; subst. destruct (ap_offset p + 4 <=? zlen d) eqn:E; [|discriminate].
    assert (L : zlen (overwrite d (ap_offset p) [0; 0; 0; 0]) = zlen d).
    { rewrite overwrite_zlen by lia. change (zlen [0; 0; 0; 0]) with 4. cbn [Z.eqb]. lia. }
    destruct (IH _ _ H O') as [L' [B F]]. rewrite L in L', F. split; [exact L'|]. split.
    + intros k K N. rewrite B by (first [lia|intros q Q; apply N; right; exact Q]).
      rewrite !bytes_nth by lia. f_equal. rewrite overwrite_byte by lia. change (zlen [0; 0; 0; 0]) with 4.
      assert (M : ~ covers_byte p k) by (apply N; left; reflexivity). unfold covers_byte in M.
      destruct ((ap_offset p <=? k) && (k <? ap_offset p + 4)) eqn:C; [lia|reflexivity].
    + constructor; [lia|exact F].
Qed.

Section Written.
Variable big : bool.
Variable arch : Z.
Variable alignment : Z.
Variable used : nat -> bool.
Variable sorter : forall A : Type, (A -> A -> Z) -> list A -> list A.
Variable A : astate.

Record section_ok (w : wsect) (h : shdr) (st : ewriter) : Prop := {
  so_group : exists g, nth_error (as_symbols A) (ws_group w) = Some g /\
    sh_type h = (if ay_groupType g =? 0 then 1 else 8) /\
    sh_flags h = (if ay_groupType g =? 0 then (if ay_data g then 3 else 6) else 3) /\
    (ay_groupType g = 0 -> exists d o, clearPatches (ws_patches w) (ws_data w) = Ok d /\ sh_offset h = u32 o /\ 52 <= o /\ has (ew_out st) o d) /\
    (ay_groupType g <> 0 -> sh_offset h = 0);
  so_name : exists n, sh_name h = u32 n /\ 0 <= n /\ has (ew_strings st) n (ws_name w ++ [0]);
  so_addr : sh_addr h = if a_loadfixed (ws_sect w) then ws_imagePosition w else 0;
  so_size : sh_size h = ws_usedSpace w;
  so_link : sh_link h = 0 /\ sh_info h = 0 /\ sh_entsize h = 0;
  so_align : sh_addralign h = if a_aligned (ws_sect w) then ws_align w else alignment }.
Lemma section_ok_ext : forall w h a b, ext a b -> section_ok w h a -> section_ok w h b.
Proof.
  intros w h a b X [[g [G [T [FL [D Z]]]]] [n [N [N0 NH]]] AD SZ LK AL]. split; auto.
  - exists g. repeat (split; [assumption|]). split; [|assumption]. intro Q. destruct (D Q) as [d [o [C [O [O5 H]]]]]. exists d, o.
    repeat (split; [assumption|]). apply (ext_has _ _ _ _ X H).
  - exists n. repeat (split; [assumption|]). apply (ext_str _ _ _ _ X NH).
Qed.
Lemma writeSection_ok : forall w st id st', writeSection alignment A w st = Ok (id, false, st') -> 52 <= zlen (ew_out st) ->
  ext st st' /\ id = zlen (ew_headers st) /\ exists h, ew_headers st' = ew_headers st ++ [h] /\ section_ok w h st'.
Proof.
  intros w st id st' H L. unfold writeSection in H. destruct (_ && _); [discriminate|].
  destruct (nth_error (as_symbols A) (ws_group w)) as [g|] eqn:G; [|discriminate].
  destruct (alignFile _ st) as [st1| |] eqn:AF; cbn [bind] in H; try discriminate.
  destruct (align_inv _ _ _ AF) as [X HD]. pose proof (ext_len _ _ X) as [LX _].
  unfold addString, addSectionHeader in H. cbn [ew_out ew_strings ew_headers] in H.
  destruct (ay_groupType g =? 0) eqn:T.
  - destruct (clearPatches (ws_patches w) (ws_data w)) as [d| |] eqn:C; cbn [bind] in H; try discriminate. injection H as <- <-.
    split; [|split; [rewrite HD; reflexivity|]].
    + apply ext_trans with (1 := X). unfold emit. split; cbn [ew_out ew_strings]; eexists; reflexivity.
    + unfold emit. cbn [ew_out ew_strings ew_headers]. rewrite HD. eexists. split; [reflexivity|]. split; cbn.
      * exists g. rewrite T. split; [exact G|]. split; [reflexivity|]. split; [reflexivity|]. split; [|lia]. intros _. exists d, (zlen (ew_out st1)). split; [exact C|]; split; [reflexivity|]; split; [lia|]. apply has_end.
      * exists (zlen (ew_strings st1)). split; [reflexivity|]. split; [apply zlen_nonneg|]. apply has_end.
      * reflexivity. * reflexivity. * auto. * reflexivity.
  - injection H as <- <-. split; [|split; [rewrite HD; reflexivity|]].
    + apply ext_trans with (1 := X). split; cbn [ew_out ew_strings]; [exists []; rewrite app_nil_r; reflexivity|eexists; reflexivity].
    + cbn [ew_out ew_strings ew_headers]. rewrite HD. eexists. split; [reflexivity|]. split; cbn.
      * exists g. rewrite T. split; [exact G|]. split; [reflexivity|]. split; [reflexivity|]. split; [lia|reflexivity].
      * exists (zlen (ew_strings st1)). split; [reflexivity|]. split; [apply zlen_nonneg|]. apply has_end.
      * reflexivity. * reflexivity. * auto. * reflexivity.
Qed.
Lemma writeSectionContents_ok : forall ws st ids st', writeSectionContents alignment A ws st = Ok (ids, false, st') -> 52 <= zlen (ew_out st) ->
  ext st st' /\ ids = map (fun k => zlen (ew_headers st) + Z.of_nat k) (seq 0 (length ws)) /\
  exists hs, ew_headers st' = ew_headers st ++ hs /\ Forall2 (fun w h => section_ok w h st') ws hs.
Proof.
  induction ws as [|w ws IH]; intros st ids st' H L; cbn [writeSectionContents] in H.
  - injection H as <- <-. split; [apply ext_refl|]. split; [reflexivity|]. exists []. rewrite app_nil_r. split; [reflexivity|constructor].
  - destruct (writeSection alignment A w st) as [[[id e] st1]| |] eqn:W; cbn [bind] in H; try discriminate.
    destruct (writeSectionContents alignment A ws st1) as [[[is e'] st2]| |] eqn:R; cbn [bind] in H; try discriminate.
    injection H as <- EE <-. destruct e; [discriminate|]. cbn [orb] in EE. subst e'.
    destruct (writeSection_ok _ _ _ _ W L) as [X [-> [h [HH OK]]]]. pose proof (ext_len _ _ X) as [LX _].
    destruct (IH _ _ _ R ltac:(lia)) as [X2 [-> [hs [HS F]]]]. split; [apply (ext_trans _ _ _ X X2)|]. split.
    + cbn [length seq map]. f_equal; [lia|]. rewrite <- seq_shift, map_map. apply map_ext. intro k. rewrite HH, zlen_app. change (zlen [h]) with 1. lia.
    + exists (h :: hs). rewrite HS, HH, <- app_assoc. split; [reflexivity|]. constructor; [|exact F]. apply (section_ok_ext _ _ _ _ X2 OK).
Qed.

(** ** Symbols *)
Fixpoint writeSyms (P : nat -> asym -> bool) (K : asym -> res Z) (info : Z) (ys : list asym) (i : nat) (index : Z) (sids : nat -> Z) (st : ewriter)
    : res (Z * (nat -> Z) * ewriter) :=
  match ys with
  | [] => Ok (index, sids, st)
  | y :: r =>
      if (sids i =? 0) && P i y then
        let! k := K y in
        writeSyms P K info r (S i) (index + 1) (upd sids i index) (writeSymbol big (ay_name y) (y_value (ay_sym y)) info k st)
      else writeSyms P K info r (S i) index sids st
  end.
Definition placeOf (ids : list Z) (y : asym) : res Z :=
  if y_constant (ay_sym y) then Ok SHN_ABS else if isImported y then Ok SHN_UNDEF else sectionIdOf ids y.
Lemma local_syms : forall ids ys i index sids st,
  writeLocalSymbols big used ids ys i index sids st =
  writeSyms (isLocalSymbol used) (placeOf ids) 0 ys i index sids st.
Proof.
  intro ids. induction ys as [|y ys IH]; intros i index sids st; [reflexivity|]. cbn [writeLocalSymbols writeSyms].
  destruct (sids i =? 0); [|apply IH]. cbn [andb]. destruct (isLocalSymbol used i y) eqn:E; [|apply IH].
  replace (placeOf ids y) with (if y_constant (ay_sym y) then Ok SHN_ABS else sectionIdOf ids y).
  - destruct (if y_constant (ay_sym y) then Ok SHN_ABS else sectionIdOf ids y); cbn [bind]; [apply IH|reflexivity|reflexivity].
  - unfold placeOf. assert (isImported y = false) as ->; [|reflexivity].
    unfold isLocalSymbol in E. unfold isImported. destruct (y_type (ay_sym y)); cbn in *; auto; discriminate.
Qed.
Lemma global_syms : forall ids ys i index sids st,
  writeGlobalSymbols big used ids ys i index sids st = writeSyms (isGlobalSymbol used) (placeOf ids) 16 ys i index sids st.
Proof.
  intro ids. induction ys as [|y ys IH]; intros i index sids st; [reflexivity|]. cbn [writeGlobalSymbols writeSyms]. unfold placeOf at 1.
  destruct ((sids i =? 0) && isGlobalSymbol used i y); [|apply IH].
  destruct (if y_constant (ay_sym y) then Ok SHN_ABS else if isImported y then Ok SHN_UNDEF else sectionIdOf ids y); cbn [bind];
    [apply IH|reflexivity|reflexivity].
Qed.
(** The entry of a symbol at a place in the file. *)
Definition entry_ok (K : asym -> res Z) (info : Z) (st : ewriter) (q : Z) (y : asym) : Prop :=
  exists n k, K y = Ok k /\ 1 <= n /\ has (ew_strings st) n (ay_name y ++ [0]) /\
    has (ew_out st) q (writeSymbolRaw big (u32 n) (y_value (ay_sym y)) info k).
Lemma entry_ext : forall K info a b q y, ext a b -> entry_ok K info a q y -> entry_ok K info b q y.
Proof.
  intros K info a b q y X [n [k [E [N [S O]]]]]. exists n, k. repeat (split; [assumption|]). split; [apply (ext_str _ _ _ _ X S)|apply (ext_has _ _ _ _ X O)].
Qed.
Lemma raw_len : forall n v i k, zlen (writeSymbolRaw big n v i k) = 16.
Proof. intros. unfold writeSymbolRaw. rewrite !zlen_app, !fput_word_len, fput_half_len. reflexivity. Qed.
Lemma writeSyms_ok : forall P K info ys pre i index sids st index' sids' st',
  as_symbols A = pre ++ ys -> i = length pre -> 0 < index ->
  writeSyms P K info ys i index sids st = Ok (index', sids', st') -> 1 <= zlen (ew_strings st) ->
  exists tb, index' = index + zlen tb /\ ext st st' /\ ew_headers st' = ew_headers st /\ NoDup tb /\
    zlen (ew_out st') = zlen (ew_out st) + 16 * zlen tb /\
    (forall s, In s tb -> (i <= s)%nat) /\
    (forall s, In s tb <-> exists y, nth_error (as_symbols A) s = Some y /\ (i <= s)%nat /\ sids s = 0 /\ P s y = true) /\
    (forall j s, nth_error tb j = Some s -> sids' s = index + Z.of_nat j) /\
    (forall s, ~ In s tb -> sids' s = sids s) /\
    (forall j s, nth_error tb j = Some s -> exists y, nth_error (as_symbols A) s = Some y /\
       entry_ok K info st' (zlen (ew_out st) + 16 * Z.of_nat j) y).
Proof.
  intros P K info. induction ys as [|y ys IH]; intros pre i index sids st index' sids' st' HA HI HX H SL; cbn [writeSyms] in H.
  - injection H as <- <- <-. exists []. split; [unfold zlen; cbn; lia|]. split; [apply ext_refl|]. split; [reflexivity|]. split; [constructor|].
    split; [unfold zlen; cbn; lia|]. split; [intros s []|]. split.
    { intro s. split; [intros []|]. intros [y [N [L _]]]. rewrite app_nil_r in HA. subst.
      assert (nth_error (as_symbols A) s = None); [|congruence]. apply nth_error_None. lia. }
    split; [intros [|j] s E; discriminate|]. split; [auto|]. intros [|j] s E; discriminate.
  - assert (HA' : as_symbols A = (pre ++ [y]) ++ ys) by (rewrite <- app_assoc; exact HA).
    assert (HI' : S i = length (pre ++ [y])) by (rewrite app_length; cbn; lia).
    assert (NI : nth_error (as_symbols A) i = Some y).
    { rewrite HA, HI, nth_error_app2, Nat.sub_diag by lia. reflexivity. }
    destruct ((sids i =? 0) && P i y) eqn:E.
    + destruct (K y) as [k| |] eqn:EK; cbn [bind] in H; try discriminate.
      unfold writeSymbol, addString in H. set (st1 := emit _ _) in H.
      assert (X1 : ext st st1) by (unfold st1, emit; split; cbn [ew_out ew_strings]; eexists; reflexivity).
      pose proof (ext_len _ _ X1) as [LO LS].
      assert (HX' : 0 < index + 1) by lia. assert (SL' : 1 <= zlen (ew_strings st1)) by lia.
      destruct (IH _ _ _ _ _ _ _ _ HA' HI' HX' H SL') as [tb [I1 [X2 [H2 [ND [LT [GE [IN [ID [OT EN]]]]]]]]]].
      exists (i :: tb). pose proof (ext_trans _ _ _ X1 X2) as X3.
      assert (L1 : zlen (ew_out st1) = zlen (ew_out st) + 16) by (unfold st1, emit; cbn [ew_out]; rewrite zlen_app, raw_len; lia).
      assert (NT : ~ In i tb) by (intro Q; apply GE in Q; lia).
      assert (LC : forall (l : list nat) x, zlen (x :: l) = 1 + zlen l) by (intros; unfold zlen; cbn [List.length]; lia).
      split; [rewrite LC; lia|]. split; [exact X3|]. split; [rewrite H2; reflexivity|]. split; [constructor; assumption|].
      split; [rewrite LT, L1, LC; lia|]. split; [intros s [->|Q]; [lia|apply GE in Q; lia]|]. split.
      { intro s. split.
        - apply andb_true_iff in E. destruct E as [E0 E1]. apply Z.eqb_eq in E0.
          intros [<-|Q]; [exists y; repeat (split; [first [assumption|apply le_n]|]); assumption|]. apply IN in Q. destruct Q as [z [N [G [SI PP]]]]. exists z.
          unfold upd in SI. destruct (Nat.eqb s i) eqn:Q; [lia|]. split; [exact N|]. split; [lia|]. auto.
        - intros [z [N [G [SI PP]]]]. destruct (Nat.eq_dec s i) as [->|NE]; [left; reflexivity|]. right. apply IN. exists z.
          split; [exact N|]. split; [lia|]. split; [|exact PP]. unfold upd. destruct (Nat.eqb s i) eqn:Q; [lia|exact SI]. }
      split.
      { intros [|j] s Q; cbn [nth_error] in Q.
        - injection Q as <-. rewrite OT by assumption. unfold upd. rewrite Nat.eqb_refl. lia.
        - rewrite (ID _ _ Q). lia. }
      split.
      { intros s Q. rewrite OT by (intro; apply Q; right; assumption). unfold upd. destruct (Nat.eqb s i) eqn:QQ; [|reflexivity].
        exfalso. apply Q. left. lia. }
      intros [|j] s Q; cbn [nth_error] in Q.
      * injection Q as <-. exists y. split; [exact NI|]. apply (entry_ext _ _ _ _ _ _ X2). exists (zlen (ew_strings st)), k.
        rewrite Z.mul_0_r, Z.add_0_r. split; [exact EK|]. split; [exact SL|]. unfold st1, emit. cbn [ew_out ew_strings].
        split; [apply has_end|]. apply has_end.
      * destruct (EN _ _ Q) as [z [N O]]. exists z. split; [exact N|]. rewrite L1 in O.
        replace (zlen (ew_out st) + 16 * Z.of_nat (S j)) with (zlen (ew_out st) + 16 + 16 * Z.of_nat j) by lia. exact O.
    + destruct (IH _ _ _ _ _ _ _ _ HA' HI' HX H SL) as [tb [I1 [X2 [H2 [ND [LT [GE [IN [ID [OT EN]]]]]]]]]].
      exists tb. repeat (split; [assumption|]). split; [intros s Q; apply GE in Q; lia|]. split; [|auto].
      intro s. rewrite IN. split; intros [z [N [G [SI PP]]]]; exists z; (split; [exact N|]); (split; [|auto]); [lia|].
      destruct (Nat.eq_dec s i) as [->|NE]; [|lia]. rewrite NI in N. injection N as <-. rewrite SI, PP in E. cbn in E. discriminate.
Qed.
Lemma imported_eq : forall y, isImported y = imported y.
Proof. intro y. unfold isImported, imported. destruct (y_type (ay_sym y)); reflexivity. Qed.
Lemma local_is : forall i y, isLocalSymbol used i y = true -> wanted used i y /\ (ay_export y || imported y) = false.
Proof.
  intros i y H. unfold isLocalSymbol in H. apply andb_true_iff in H. destruct H as [H NE]. apply andb_true_iff in H. destruct H as [T F].
  apply negb_true_iff in NE. rewrite NE. unfold wanted, imported. destruct (y_type (ay_sym y)); try discriminate; cbn [orb]; (split; [|reflexivity]); (split; [auto|]);
    (destruct (y_reloc (ay_sym y)); [auto|]); (destruct (used i); [auto|]); (destruct (ay_fileExport y); [auto 6|discriminate]).
Qed.
Lemma global_is : forall i y, isLocalSymbol used i y = false -> (isGlobalSymbol used i y = true <-> wanted used i y).
Proof.
  intros i y. unfold isLocalSymbol, isGlobalSymbol, wanted. rewrite imported_eq. unfold imported.
  destruct (y_type (ay_sym y)), (y_reloc (ay_sym y)), (used i), (ay_export y), (ay_fileExport y); cbn; intuition discriminate.
Qed.
Lemma global_flag : forall i y, isLocalSymbol used i y = false -> wanted used i y -> (ay_export y || imported y) = true.
Proof.
  intros i y. unfold isLocalSymbol, wanted, imported.
  destruct (y_type (ay_sym y)), (y_reloc (ay_sym y)), (used i), (ay_export y), (ay_fileExport y); cbn; intuition discriminate.
Qed.
Lemma wanted_dec : forall i y, wanted used i y -> isLocalSymbol used i y = true \/ isLocalSymbol used i y = false.
Proof. intros. destruct (isLocalSymbol used i y); auto. Qed.

Lemma writeSymbolSection_ok : forall ids st sids st' a b rest,
  writeSymbolSection big used A 1 2 ids st = Ok (sids, st') -> ew_headers st = a :: b :: rest ->
  1 <= zlen (ew_strings st) -> 52 <= zlen (ew_out st) ->
  exists tb n loc, ext st st' /\ 52 <= loc /\ 0 <= n <= zlen tb /\
    ew_headers st' = a :: Shdr (sh_name b) (sh_type b) (sh_flags b) (sh_addr b) (u32 loc) (u32 (16 * (1 + zlen tb))) 2 (1 + n) (sh_addralign b) (sh_entsize b) :: rest /\
    has (ew_out st') loc (repeat 0 16) /\ zlen (ew_out st') = loc + 16 * (1 + zlen tb) /\ NoDup tb /\
    (forall s, In s tb <-> exists y, nth_error (as_symbols A) s = Some y /\ wanted used s y) /\
    (forall j s, nth_error tb j = Some s -> sids s = 1 + Z.of_nat j) /\
    (forall j s, nth_error tb j = Some s -> exists y, nth_error (as_symbols A) s = Some y /\
       (ay_export y || imported y) = (n <=? Z.of_nat j) /\
       entry_ok (placeOf ids) (if ay_export y || imported y then 16 else 0) st' (loc + 16 * (1 + Z.of_nat j)) y).
Proof.
  intros ids st sids st' a b rest H HD SL OL. unfold writeSymbolSection in H.
  destruct (alignFile 4 st) as [st1| |] eqn:AF; cbn [bind] in H; try discriminate.
  destruct (align_inv _ _ _ AF) as [X1 H1]. pose proof (ext_len _ _ X1) as [LO1 LS1].
  set (st2 := emit (writeSymbolRaw big 0 0 0 SHN_UNDEF) st1) in H.
  assert (X2 : ext st1 st2) by apply ext_emit. pose proof (ext_len _ _ X2) as [LO2 LS2].
  destruct (writeLocalSymbols big used ids (as_symbols A) 0 1 (fun _ => 0) st2) as [[[tl sids1] st3]| |] eqn:WL; cbn [bind] in H; try discriminate.
  rewrite local_syms in WL.
  destruct (writeSyms_ok _ _ _ (as_symbols A) [] 0%nat 1 _ _ _ _ _ eq_refl eq_refl ltac:(lia) WL ltac:(lia)) as
    [tb1 [I1 [X3 [H3 [ND1 [LT1 [_ [IN1 [ID1 [OT1 EN1]]]]]]]]]]. pose proof (ext_len _ _ X3) as [LO3 LS3].
  destruct (writeGlobalSymbols big used ids (as_symbols A) 0 tl sids1 st3) as [[[tg sids2] st4]| |] eqn:WG; cbn [bind] in H; try discriminate.
  rewrite global_syms in WG. pose proof (zlen_nonneg _ tb1) as L1.
  destruct (writeSyms_ok _ _ _ (as_symbols A) [] 0%nat tl _ _ _ _ _ eq_refl eq_refl ltac:(lia) WG ltac:(lia)) as
    [tb2 [I2 [X4 [H4 [ND2 [LT2 [_ [IN2 [ID2 [OT2 EN2]]]]]]]]]]. pose proof (ext_len _ _ X4) as [LO4 LS4].
  unfold set_header in H. change (Z.to_nat 1) with 1%nat in H.
  assert (HD4 : ew_headers st4 = a :: b :: rest) by (rewrite H4, H3; unfold st2, emit; cbn [ew_headers]; rewrite H1; exact HD).
  rewrite HD4 in H. cbn [nth_error] in H. injection H as -> <-.
  assert (L2 : zlen (ew_out st2) = zlen (ew_out st1) + 16) by (unfold st2, emit; cbn [ew_out]; rewrite zlen_app, raw_len; lia).
  set (loc := zlen (ew_out st1)) in *.
  assert (NL : forall s y, nth_error (as_symbols A) s = Some y -> sids1 s = 0 -> isLocalSymbol used s y = false).
  { intros s y N SZ. destruct (isLocalSymbol used s y) eqn:E; [|reflexivity]. exfalso.
    assert (In s tb1) by (apply IN1; exists y; repeat split; auto; lia). apply In_nth_error in H. destruct H as [j J]. rewrite (ID1 _ _ J) in SZ. lia. }
  exists (tb1 ++ tb2), (zlen tb1), loc.
  assert (XX : ext st st4) by (eapply ext_trans; [eapply ext_trans; [eapply ext_trans|]|]; eassumption).
  split; [destruct XX as [XO XS]; split; assumption|]. split; [unfold loc; lia|]. rewrite zlen_app. split; [pose proof (zlen_nonneg _ tb2); lia|]. split.
  { cbn [ew_headers]. change (set_nth (a :: b :: rest) 1) with (fun v => a :: v :: rest). cbn beta. f_equal. f_equal. f_equal; try lia. f_equal. lia. }
  split.
  { cbn [ew_out]. apply (ext_has _ _ _ _ X4), (ext_has _ _ _ _ X3). unfold st2, emit. cbn [ew_out].
    assert (E : repeat 0 16 = writeSymbolRaw big 0 0 0 SHN_UNDEF) by (destruct big; reflexivity). rewrite E. apply has_end. }
  split; [cbn [ew_out]; lia|]. split.
  { apply NoDup_app_intro; auto. intros s S1 S2. apply IN2 in S2. destruct S2 as [y [_ [_ [Z0 _]]]].
    apply In_nth_error in S1. destruct S1 as [j J]. rewrite (ID1 _ _ J) in Z0. lia. }
  split.
  { intro s. rewrite in_app_iff, IN1, IN2. split.
    - intros [[y [N [_ [_ P]]]]|[y [N [_ [SZ P]]]]]; exists y; (split; [exact N|]).
      + apply local_is in P. tauto.
      + apply global_is; [apply NL; auto|exact P].
    - intros [y [N W]]. destruct (isLocalSymbol used s y) eqn:E.
      + left. exists y. repeat split; auto; lia.
      + right. exists y. split; [exact N|]. split; [lia|]. split; [|apply global_is; auto].
        rewrite OT1; [reflexivity|]. intro Q. apply IN1 in Q. destruct Q as [y' [N' [_ [_ P']]]]. congruence. }
  split.
  { intros j s J. destruct (Nat.lt_ge_cases j (length tb1)) as [LT|GE].
    - rewrite nth_error_app1 in J by exact LT. rewrite OT2; [apply ID1; exact J|].
      intro Q. apply IN2 in Q. destruct Q as [y [_ [_ [SZ _]]]]. rewrite (ID1 _ _ J) in SZ. lia.
    - rewrite nth_error_app2 in J by exact GE. rewrite (ID2 _ _ J). unfold zlen in I1. lia. }
  intros j s J. destruct (Nat.lt_ge_cases j (length tb1)) as [LT|GE].
  - rewrite nth_error_app1 in J by exact LT. destruct (EN1 _ _ J) as [y [N O]]. exists y. split; [exact N|].
    assert (P : isLocalSymbol used s y = true).
    { apply nth_error_In in J. apply IN1 in J. destruct J as [y' [N' [_ [_ P']]]]. congruence. }
    apply local_is in P. destruct P as [_ ->]. split; [unfold zlen; lia|].
    replace (loc + 16 * (1 + Z.of_nat j)) with (zlen (ew_out st2) + 16 * Z.of_nat j) by lia. apply (entry_ext _ _ _ _ _ _ X4 O).
  - rewrite nth_error_app2 in J by exact GE. destruct (EN2 _ _ J) as [y [N O]]. exists y. split; [exact N|].
    assert (P : isLocalSymbol used s y = false /\ isGlobalSymbol used s y = true).
    { apply nth_error_In in J. apply IN2 in J. destruct J as [y' [N' [_ [SZ P']]]]. rewrite N in N'. injection N' as <-. split; [apply NL; auto|exact P']. }
    destruct P as [P1 P2]. rewrite (global_flag s y P1) by (apply global_is; auto). split; [unfold zlen; lia|].
    replace (loc + 16 * (1 + Z.of_nat j)) with (zlen (ew_out st3) + 16 * Z.of_nat (j - length tb1)) by (unfold zlen in *; lia). exact O.
Qed.

(** ** Relocations *)
Record rel_ok (sids : nat -> Z) (w : wsect) (id : Z) (h : shdr) (st : ewriter) : Prop := {
  ro_const : sh_type h = 4 /\ sh_flags h = 0 /\ sh_addr h = 0 /\ sh_link h = 1 /\ sh_info h = id /\ sh_addralign h = 0 /\ sh_entsize h = 12;
  ro_name : exists n, sh_name h = u32 n /\ 0 <= n /\ has (ew_strings st) n ((ws_name w ++ chars ".reloc"%string) ++ [0]);
  ro_relocs : exists relocs o, collectRelocs A sids (ws_patches w) = Ok relocs /\ sh_offset h = u32 o /\ 52 <= o /\
    has (ew_out st) o (concat (map (rela_bytes big) (sorter rela compare_rela relocs))) /\
    sh_size h = u32 (12 * zlen (sorter rela compare_rela relocs)) }.
Lemma rel_ok_ext : forall sids w id h a b, ext a b -> rel_ok sids w id h a -> rel_ok sids w id h b.
Proof.
  intros sids w id h a b X [C [n [N [N0 NH]]] [relocs [o [E [O [O5 [H SZ]]]]]]]. split; auto.
  { exists n. repeat (split; [assumption|]). apply (ext_str _ _ _ _ X NH). }
  exists relocs, o. repeat (split; [assumption|]).
  split; [apply (ext_has _ _ _ _ X H)|assumption].
Qed.
Lemma rela_len : forall x, zlen (rela_bytes big x) = 12.
Proof. intro x. unfold rela_bytes. rewrite !zlen_app, !fput_word_len. reflexivity. Qed.
Lemma writeReloc_ok : forall sids w id st st', writeReloc big sorter A 1 sids w id st = Ok st' -> id <> UINT32_MAX -> 52 <= zlen (ew_out st) ->
  ext st st' /\ exists h, ew_headers st' = ew_headers st ++ [h] /\ rel_ok sids w id h st'.
Proof.
  intros sids w id st st' H NI L. unfold writeReloc in H. destruct (id =? UINT32_MAX) eqn:E; [lia|].
  destruct (alignFile 4 st) as [st1| |] eqn:AF; cbn [bind] in H; try discriminate.
  destruct (align_inv _ _ _ AF) as [X1 H1]. pose proof (ext_len _ _ X1) as [LO1 LS1].
  destruct (collectRelocs A sids (ws_patches w)) as [relocs| |] eqn:C; cbn [bind] in H; try discriminate.
  unfold addString, addSectionHeader in H. cbn [snd ew_out ew_strings ew_headers emit] in H. injection H as <-. split.
  - apply ext_trans with (1 := X1). split; cbn [ew_out ew_strings]; eexists; reflexivity.
  - cbn [ew_headers]. rewrite H1. eexists. split; [reflexivity|]. split; cbn [sh_type sh_flags sh_addr sh_link sh_info sh_addralign sh_entsize sh_name sh_offset sh_size].
    + repeat split; reflexivity.
    + exists (zlen (ew_strings st1)). split; [reflexivity|]. split; [apply zlen_nonneg|]. apply has_end.
    + exists relocs, (zlen (ew_out st1)). split; [exact C|]. split; [reflexivity|]. split; [lia|]. split; [apply has_end|].
      f_equal. rewrite zlen_app, (concat_len _ _ 12) by apply rela_len. lia.
Qed.
Lemma writeRelocs_ok : forall sids ws ids st st', writeRelocs big sorter A 1 sids ws ids st = Ok st' -> length ids = length ws ->
  Forall (fun id => id <> UINT32_MAX) ids -> 52 <= zlen (ew_out st) ->
  ext st st' /\ exists hs, ew_headers st' = ew_headers st ++ hs /\ Forall2 (fun wi h => rel_ok sids (fst wi) (snd wi) h st') (combine ws ids) hs.
Proof.
  intros sids. induction ws as [|w ws IH]; intros [|id ids] st st' H L F O; cbn [writeRelocs] in H; try discriminate.
  - injection H as <-. split; [apply ext_refl|]. exists []. rewrite app_nil_r. split; [reflexivity|constructor].
  - destruct (writeReloc big sorter A 1 sids w id st) as [st1| |] eqn:W; cbn [bind] in H; try discriminate.
    inversion F as [|? ? F1 F2]; subst. destruct (writeReloc_ok _ _ _ _ _ W F1 O) as [X [h [HH OK]]]. pose proof (ext_len _ _ X) as [LX _].
    destruct (IH _ _ _ H ltac:(cbn in L; lia) F2 ltac:(lia)) as [X2 [hs [HS FF]]]. split; [apply (ext_trans _ _ _ X X2)|].
    exists (h :: hs). rewrite HS, HH, <- app_assoc. split; [reflexivity|]. cbn [combine]. constructor; [|exact FF]. apply (rel_ok_ext _ _ _ _ _ _ X2 OK).
Qed.
End Written.

(** ** The end of the file *)
Lemma split_at : forall (l : list Z) p n, 0 <= p -> 0 <= n -> p + n <= zlen l -> exists a b c, l = a ++ b ++ c /\ zlen a = p /\ zlen b = n.
Proof.
  intros l p n P N L. exists (firstn (Z.to_nat p) l), (firstn (Z.to_nat n) (skipn (Z.to_nat p) l)), (skipn (Z.to_nat n) (skipn (Z.to_nat p) l)).
  rewrite !firstn_skipn. split; [reflexivity|]. unfold zlen in *. rewrite !firstn_length, skipn_length. lia.
Qed.
Lemma has_over_before : forall f k l p bs, has f k l -> k + zlen l <= p -> p + zlen bs <= zlen f -> has (overwrite f p bs) k l.
Proof.
  intros f k l p bs [a [b [-> <-]]] Q L. rewrite !zlen_app in L. pose proof (zlen_nonneg _ bs) as BN.
  destruct (split_at b (p - zlen a - zlen l) (zlen bs) ltac:(lia) BN ltac:(lia)) as [b1 [b2 [b3 [-> [L1 L2]]]]].
  replace (a ++ l ++ b1 ++ b2 ++ b3) with ((a ++ l ++ b1) ++ b2 ++ b3) by (rewrite <- !app_assoc; reflexivity).
  rewrite overwrite_middle by (rewrite ?zlen_app; lia). exists a, (b1 ++ bs ++ b3). rewrite <- !app_assoc. auto.
Qed.
Lemma has_over_at : forall f p bs, 0 <= p -> p + zlen bs <= zlen f -> has (overwrite f p bs) p bs.
Proof.
  intros f p bs P L. pose proof (zlen_nonneg _ bs) as BN. destruct (split_at f p (zlen bs) P BN L) as [b1 [b2 [b3 [-> [L1 L2]]]]].
  rewrite overwrite_middle by lia. exists b1, b3. auto.
Qed.
Lemma over_len : forall f p bs, 0 <= p -> p + zlen bs <= zlen f -> zlen (overwrite f p bs) = zlen f.
Proof. intros f p bs P L. rewrite overwrite_zlen by exact P. pose proof (zlen_nonneg _ bs). destruct (zlen bs =? 0); lia. Qed.
Lemma shdr_len : forall big h, zlen (shdr_bytes big h) = 40.
Proof. intros big h. unfold shdr_bytes. rewrite !zlen_app, !fput_word_len. reflexivity. Qed.

Lemma elf_end : forall big st7 st8 st9 a b c rest,
  writeStrings big 2 st7 = Ok st8 -> writeSectionHeaders big st8 = Ok st9 -> ew_headers st7 = a :: b :: c :: rest -> 52 <= zlen (ew_out st7) ->
  exists sloc hloc, let f := ew_out st9 in
    let c' := Shdr (sh_name c) (sh_type c) (sh_flags c) (sh_addr c) (u32 sloc) (u32 (zlen (ew_strings st7))) (sh_link c) (sh_info c) (sh_addralign c) (sh_entsize c) in
    (forall k l, 52 <= k -> has (ew_out st7) k l -> has f k l) /\
    (forall k l, k + zlen l <= 32 -> has (ew_out st7) k l -> has f k l) /\
    (forall k l, 36 <= k -> k + zlen l <= 48 -> has (ew_out st7) k l -> has f k l) /\
    52 <= sloc /\ has f sloc (ew_strings st7) /\
    has f hloc (concat (map (shdr_bytes big) (a :: b :: c' :: rest))) /\
    has f 32 (fput_word big hloc) /\ has f 48 (fput_half big (zlen (a :: b :: c' :: rest))) /\ has f 50 (fput_half big 2).
Proof.
  intros big st7 st8 st9 a b c rest H8 H9 HD L7. unfold writeStrings in H8.
  destruct (alignFile 4 st7) as [s1| |] eqn:A1; cbn [bind] in H8; try discriminate.
  destruct (align_inv _ _ _ A1) as [X1 H1]. pose proof (ext_len _ _ X1) as [LO1 _].
  assert (SE : ew_strings s1 = ew_strings st7).
  { unfold alignFile in A1. destruct (4 =? 0); [discriminate|]. injection A1 as <-. reflexivity. }
  unfold set_header in H8. change (Z.to_nat 2) with 2%nat in H8. cbn [emit ew_headers] in H8. rewrite H1, HD in H8. cbn [nth_error] in H8.
  cbn [emit ew_out ew_strings ew_headers] in H8. rewrite SE in H8. injection H8 as <-.
  set (sloc := zlen (ew_out s1)) in *. set (o1 := ew_out s1 ++ ew_strings st7) in *.
  assert (LO : zlen o1 = sloc + zlen (ew_strings st7)) by (unfold o1; rewrite zlen_app; reflexivity). pose proof (zlen_nonneg _ (ew_strings st7)) as SN.
  set (o2 := overwrite o1 50 (fput_half big 2)) in *.
  assert (LO2 : zlen o2 = zlen o1) by (apply over_len; rewrite ?fput_half_len; lia).
  unfold writeSectionHeaders in H9. match type of H9 with context [alignFile 4 (EWriter _ _ ?h)] => set (hs := h) in H9 end.
  destruct (alignFile 4 (EWriter o2 (ew_strings st7) hs)) as [s2| |] eqn:A2; cbn [bind] in H9; try discriminate.
  destruct (align_inv _ _ _ A2) as [X2 H2]. pose proof (ext_len _ _ X2) as [LX2 _]. cbn [ew_out ew_headers] in LX2, H2.
  injection H9 as <-. cbn [emit ew_out ew_headers]. rewrite H2. set (hloc := zlen (ew_out s2)) in *.
  set (o3 := ew_out s2 ++ concat (map (shdr_bytes big) hs)).
  assert (L3 : 52 <= zlen o3) by (unfold o3; rewrite zlen_app; pose proof (zlen_nonneg _ (concat (map (shdr_bytes big) hs))); lia).
  set (o4 := overwrite o3 32 (fput_word big hloc)).
  assert (L4 : zlen o4 = zlen o3) by (apply over_len; rewrite ?fput_word_len; lia).
  assert (K1 : forall k l, has (ew_out st7) k l -> has o1 k l) by (intros k l H; unfold o1; apply has_app; apply (ext_has _ _ _ _ X1 H)).
  assert (K2 : forall k l, has o2 k l -> has o3 k l) by (intros k l H; unfold o3; apply has_app; apply (ext_has _ _ _ _ X2 H)).
  assert (W2 : forall v, zlen (fput_half big v) = 2) by (intro; apply fput_half_len).
  assert (W4 : forall v, zlen (fput_word big v) = 4) by (intro; apply fput_word_len).
  assert (OV52 : forall k l, 52 <= k -> has o3 k l -> has (overwrite o4 48 (fput_half big (zlen hs))) k l).
  { intros k l K H. apply has_over; [|lia|rewrite W2; lia]. apply has_over; [exact H|lia|rewrite W4; lia]. }
  exists sloc, hloc. cbn zeta. split; [|split; [|split; [|split; [|split; [|split; [|split; [|split]]]]]]].
  - intros k l K H. apply OV52; [exact K|]. apply K2. apply has_over; [apply K1; exact H|lia|rewrite W2; lia].
  - intros k l K H. apply has_over_before; [|pose proof (zlen_nonneg _ l); lia|rewrite W2; lia]. apply has_over_before; [|lia|rewrite W4; lia].
    apply K2. apply has_over_before; [apply K1; exact H|lia|rewrite W2; lia].
  - intros k l K KK H. apply has_over_before; [|lia|rewrite W2; lia]. apply has_over; [|lia|rewrite W4; lia].
    apply K2. apply has_over_before; [apply K1; exact H|lia|rewrite W2; lia].
  - lia.
  - apply OV52; [lia|]. apply K2. apply has_over; [|lia|rewrite W2; lia]. unfold o1, sloc. apply has_end.
  - apply OV52; [lia|]. unfold o3, hloc. apply has_end.
  - apply has_over_before; [|rewrite W4; lia|rewrite W2; lia]. apply has_over_at; [lia|rewrite W4; lia].
  - apply has_over_at; [lia|rewrite W2; lia].
  - apply has_over; [|lia|rewrite W2; lia]. apply has_over; [|lia|rewrite W4; lia].
    apply K2. apply has_over_at; [lia|rewrite W2; lia].
Qed.

(** ** Expressions *)
Lemma op_sum : forall F a b x, op_meaning F OpAdd a b = Some x -> x = a + b.
Proof. intros F a b x H. cbn [op_meaning] in H. unfold inr in H. destruct (_ && _); congruence. Qed.
Lemma op_difference : forall F a b x, op_meaning F OpSub a b = Some x -> x = a - b.
Proof. intros F a b x H. cbn [op_meaning] in H. unfold inr in H. destruct (_ && _); congruence. Qed.
Lemma constant_den : forall F E e, opf e -> expr_IsConstant e = true -> den F E e = Some (e_v e).
Proof. intros F E [|t c o v s l r] O C; [destruct O|]. cbn in C. subst c. reflexivity. Qed.
Lemma import_constant : forall A e, opf e -> expr_IsConstant e = true -> expr_GetImportOffset A e = None.
Proof.
  intros A [|t c o v s l r] O C; [destruct O|]. cbn in C. subst c. destruct t; cbn [opf] in O; try reflexivity; destruct O as [O _]; discriminate.
Qed.
Lemma u32_congr : forall a b c, u32 a = u32 b -> u32 (a + c) = u32 (b + c).
Proof. intros a b c H. unfold u32 in *. rewrite (Zplus_mod a), (Zplus_mod b), H. reflexivity. Qed.
Lemma u32_u32 : forall a, u32 (u32 a) = u32 a.
Proof. intro a. apply u32_small, u32_is. Qed.
Lemma u32_add_r : forall a b, u32 (a + u32 b) = u32 (a + b).
Proof. intros. unfold u32. apply Zplus_mod_idemp_r. Qed.

Definition means (F : fmath) (A : astate) (x : option (Z * nat)) (e : expr) : Prop :=
  forall off s, x = Some (off, s) -> mentions s e /\ forall E v, den F E e = Some v -> u32 v = u32 (e_sym E s + off).
Lemma sum_means : forall F A c o v s l r, opf (ENode TOperation c o v s l r) -> adds_only (ENode TOperation c o v s l r) ->
  (opf l -> adds_only l -> means F A (expr_GetImportOffset A l) l) -> (opf r -> adds_only r -> means F A (expr_GetImportOffset A r) r) ->
  means F A (offsetOfSum (expr_GetImportOffset A) o l r) (ENode TOperation c o v s l r).
Proof.
  intros F A c o v s l r O AD IL IR off t H. unfold offsetOfSum in H.
  destruct o; try discriminate; cbn [opf un] in O; destruct O as [-> [OL OR]]; cbn [adds_only] in AD.
  - (* sub *)
    destruct AD as [AL CR]. destruct (expr_GetImportOffset A l) as [[off' t']|] eqn:EL.
    + rewrite CR in H. injection H as <- <-. destruct (IL OL AL _ _ eq_refl) as [M D]. split; [left; exact M|].
      intros E x DX. cbn [den un] in DX. rewrite (constant_den _ _ _ OR CR) in DX. destruct (den F E l) as [a|] eqn:DL; [|discriminate].
      apply op_difference in DX. subst x. rewrite u32_add_r. replace (a - e_v r) with (a + - e_v r) by lia.
      rewrite (u32_congr _ _ _ (D E a DL)). f_equal. lia.
    + rewrite (import_constant _ _ OR CR) in H. discriminate.
  - (* add *)
    destruct AD as [AL AR].
    assert (R : forall off' t', expr_GetImportOffset A r = Some (off', t') -> expr_IsConstant l = true -> Some (u32 (e_v l + off'), t') = Some (off, t) ->
      (mentions t l \/ mentions t r) /\
      forall E x, den F E (ENode TOperation false OpAdd v s l r) = Some x -> u32 x = u32 (e_sym E t + off)).
    { intros off' t' ER CL Q. injection Q as <- <-. destruct (IR OR AR _ _ ER) as [M D]. split; [right; exact M|].
      intros E x DX. cbn [den un] in DX. rewrite (constant_den _ _ _ OL CL) in DX. destruct (den F E r) as [b|] eqn:DR; [|discriminate].
      apply op_sum in DX. subst x. rewrite u32_add_r. replace (e_v l + b) with (b + e_v l) by lia.
      rewrite (u32_congr _ _ _ (D E b DR)). f_equal. lia. }
    assert (Q : match expr_GetImportOffset A r with Some (off0, s0) => if expr_IsConstant l then Some (u32 (e_v l + off0), s0) else None | None => None end = Some (off, t) ->
      (mentions t l \/ mentions t r) /\ forall E x, den F E (ENode TOperation false OpAdd v s l r) = Some x -> u32 x = u32 (e_sym E t + off)).
    { intro Q. destruct (expr_GetImportOffset A r) as [[off' t']|] eqn:ER; [|discriminate]. destruct (expr_IsConstant l) eqn:CL; [|discriminate]. apply (R _ _ eq_refl eq_refl Q). }
    destruct (expr_GetImportOffset A l) as [[off' t']|] eqn:EL; [|apply Q; exact H].
    destruct (expr_IsConstant r) eqn:CR; [|apply Q; exact H].
    injection H as <- <-. destruct (IL OL AL _ _ eq_refl) as [M D]. split; [left; exact M|].
    intros E x DX. cbn [den un] in DX. rewrite (constant_den _ _ _ OR CR) in DX. destruct (den F E l) as [a|] eqn:DL; [|discriminate].
    apply op_sum in DX. subst x. rewrite u32_add_r. rewrite (u32_congr _ _ _ (D E a DL)). f_equal. lia.
Qed.
Lemma import_means : forall F A e, opf e -> adds_only e -> means F A (expr_GetImportOffset A e) e.
Proof.
  intros F A. induction e as [|t c o v s l IHl r IHr]; intros O AD off s' H; [discriminate|].
  destruct t; cbn [expr_GetImportOffset] in H; try discriminate.
  - destruct (sum_means F A c o v s l r O AD IHl IHr _ _ H). split; assumption.
  - destruct (isImport A s); [|discriminate]. injection H as <- <-. split; [reflexivity|]. intros E x D. cbn [opf] in O. destruct O as [-> _].
    cbn [den] in D. injection D as <-. rewrite Z.add_0_r. reflexivity.
Qed.
Lemma symbol_means : forall F A e, opf e -> adds_only e -> means F A (expr_GetSymbolOffset A e) e.
Proof.
  intros F A [|t c o v s l r] O AD off s' H; [discriminate|].
  destruct t; cbn [expr_GetSymbolOffset] in H; try discriminate.
  - apply (sum_means F A c o v s l r O AD (import_means F A l) (import_means F A r) _ _ H).
  - destruct (isSymbolic A s); [|discriminate]. injection H as <- <-. split; [reflexivity|]. intros E x D. cbn [opf] in O. destruct O as [-> _].
    cbn [den] in D. injection D as <-. rewrite Z.add_0_r. reflexivity.
Qed.
Lemma sum_symbolic : forall A o l r off s, 
  (forall off s, expr_GetImportOffset A l = Some (off, s) -> isImport A s = true) -> (forall off s, expr_GetImportOffset A r = Some (off, s) -> isImport A s = true) ->
  offsetOfSum (expr_GetImportOffset A) o l r = Some (off, s) -> isImport A s = true /\ is_u32 off.
Proof.
  intros A o l r off s IL IR H. unfold offsetOfSum in H.
  destruct o; try discriminate; (destruct (expr_GetImportOffset A l) as [[o1 s1]|]; [destruct (expr_IsConstant r)|]);
    try (injection H as <- <-; split; [apply (IL _ _ eq_refl)|apply u32_is]);
    (destruct (expr_GetImportOffset A r) as [[o2 s2]|]; [|discriminate]); (destruct (expr_IsConstant l); [|discriminate]);
    injection H as <- <-; (split; [apply (IR _ _ eq_refl)|apply u32_is]).
Qed.
Lemma import_symbolic : forall A e off s, expr_GetImportOffset A e = Some (off, s) -> isImport A s = true /\ is_u32 off.
Proof.
  intros A. induction e as [|t c o v s l IHl r IHr]; intros off s' H; [discriminate|]. destruct t; cbn [expr_GetImportOffset] in H; try discriminate.
  - apply sum_symbolic in H; [exact H| |]; intros; [apply (IHl _ _ H0)|apply (IHr _ _ H0)].
  - destruct (isImport A s) eqn:E; [|discriminate]. injection H as <- <-. split; [exact E|]. unfold is_u32. lia.
Qed.
Lemma symbol_symbolic : forall A e off s, expr_GetSymbolOffset A e = Some (off, s) -> isSymbolic A s = true /\ is_u32 off.
Proof.
  intros A [|t c o v s l r] off s' H; [discriminate|]. unfold isSymbolic. destruct t; cbn [expr_GetSymbolOffset] in H; try discriminate.
  - apply sum_symbolic in H; [destruct H as [-> H]; split; [reflexivity|exact H]| |]; intros; eapply import_symbolic; eassumption.
  - unfold isSymbolic in H. destruct (isImport A s || _) eqn:E; [|discriminate]. injection H as <- <-. split; [exact E|]. unfold is_u32. lia.
Qed.
