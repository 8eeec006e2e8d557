(** Proofs about data directives and sections. *)
From Coq Require Import ZArith List Bool Lia Permutation.
From Verif Require Import Base BaseFacts Arith ExprModel ObjWriteModel OptModel SectModel SectSpec.
Import ListNotations.
Open Scope Z_scope.

Lemma nth_replace_same : forall A k (x y : A) l,
  nth_error l k = Some y -> nth_error (replace_nth k x l) k = Some x.
Proof.
  intros A k x y. induction k as [|k IH]; intros [|a l] H; try discriminate; [reflexivity|].
  cbn [replace_nth nth_error] in *. apply IH, H.
Qed.
Lemma nth_replace_other : forall A k j (x : A) l, j <> k -> nth_error (replace_nth k x l) j = nth_error l j.
Proof.
  intros A k; induction k as [|k IH]; intros j x [|a l] N; try reflexivity.
  - destruct j; [congruence|reflexivity].
  - destruct j; [reflexivity|]. cbn [replace_nth nth_error]. apply IH. congruence.
Qed.
Lemma replace_twice : forall A k (x y : A) l, replace_nth k x (replace_nth k y l) = replace_nth k x l.
Proof.
  intros A k x y; induction k as [|k IH]; intros [|a l]; try reflexivity.
  cbn [replace_nth]. f_equal. apply IH.
Qed.
Lemma replace_id : forall A k (x : A) l, nth_error l k = Some x -> replace_nth k x l = l.
Proof.
  intros A k x; induction k as [|k IH]; intros [|a l] H; try discriminate; cbn in *.
  - congruence.
  - f_equal. apply IH, H.
Qed.
Lemma length_replace : forall A k (x : A) l, length (replace_nth k x l) = length l.
Proof.
  intros A k x; induction k as [|k IH]; intros [|a l]; try reflexivity. cbn. f_equal. apply IH.
Qed.

Definition same_ident (m m' : msect) : Prop := same_identity m m'.
Lemma ident_refl : forall m, same_identity m m.
Proof. intro m. unfold same_identity. tauto. Qed.
Lemma ident_trans : forall a b c, same_identity a b -> same_identity b c -> same_identity a c.
Proof. unfold same_identity. intuition congruence. Qed.
Lemma ident_content : forall pc l u d p m, same_identity m (set_content pc l u d p m).
Proof. intros. unfold same_identity, set_content. cbn. unfold set_pc. cbn. tauto. Qed.
Lemma ident_alloc : forall a m, same_identity m (set_alloc a m).
Proof. intros. unfold same_identity, set_alloc. cbn. tauto. Qed.

(** From [st] to [st'] section [k] has been extended by [bs] and [ps], and
    nothing else has changed. *)
Definition grows (k : nat) (st st' : xstate) (bs : list Z) (ps : list apatch) : Prop :=
  exists m m', nth_error (x_sections st) k = Some m /\
    st' = with_sections (replace_nth k m' (x_sections st)) st /\
    m_data m' = m_data m ++ bs /\ Permutation (m_patches m') (m_patches m ++ ps) /\
    m_pc m' = u32 (m_pc m + zlen bs / x_wordSize st) /\
    section_fine GText m' /\ same_identity m m'.

Lemma grows_refl : forall k st m, nth_error (x_sections st) k = Some m -> section_fine GText m ->
  grows k st st [] [].
Proof.
  intros k st m N F. exists m, m. rewrite !app_nil_r. rewrite (replace_id _ _ _ _ N).
  repeat match goal with |- _ /\ _ => split end; try reflexivity; try assumption.
  - destruct st; reflexivity.
  - cbn [zlen length Z.of_nat]. rewrite Zdiv_0_l, Z.add_0_r. symmetry. apply u32_id. apply F.
  - apply ident_refl.
Qed.

Lemma grows_fields : forall k st st' bs ps, grows k st st' bs ps ->
  x_wordSize st' = x_wordSize st /\ x_groups st' = x_groups st /\ x_opts st' = x_opts st /\
  x_current st' = x_current st /\ x_errors st' = x_errors st /\ x_banks st' = x_banks st /\
  x_scope st' = x_scope st /\ x_stack st' = x_stack st /\
  (forall j, j <> k -> nth_error (x_sections st') j = nth_error (x_sections st) j).
Proof.
  intros k st st' bs ps (m & m' & N & E & _). subst st'. cbn.
  repeat match goal with |- _ /\ _ => split end; try reflexivity.
  intros j J. apply nth_replace_other, J.
Qed.

Lemma grows_current : forall k st st' bs ps m, grows k st st' bs ps -> nth_error (x_sections st) k = Some m ->
  exists m', nth_error (x_sections st') k = Some m' /\ m_data m' = m_data m ++ bs /\
    Permutation (m_patches m') (m_patches m ++ ps) /\
    m_pc m' = u32 (m_pc m + zlen bs / x_wordSize st) /\ section_fine GText m' /\ same_identity m m' /\
    m_used m' = m_used m' /\ m_used m' = zlen (m_data m) + zlen bs.
Proof.
  intros k st st' bs ps m (m0 & m' & N & E & D & P & C & F & I) N'.
  rewrite N in N'. inversion N'; subst m0. exists m'. subst st'. cbn.
  rewrite (nth_replace_same _ _ _ _ _ N).
  repeat match goal with |- _ /\ _ => split end; try assumption; try reflexivity.
  destruct F as (_ & _ & _ & U & _). rewrite U, D. apply zlen_app.
Qed.

Lemma grows_trans : forall k a b c bs1 ps1 bs2 ps2,
  grows k a b bs1 ps1 -> grows k b c bs2 ps2 -> 0 < x_wordSize a -> (x_wordSize a | zlen bs1) ->
  grows k a c (bs1 ++ bs2) (ps1 ++ ps2).
Proof.
  intros k a b c bs1 ps1 bs2 ps2 (m & m1 & N & E & D & P & C & F & I) G2 W V.
  destruct G2 as (m1' & m2 & N2 & E2 & D2 & P2 & C2 & F2 & I2).
  assert (m1' = m1).
  { subst b. cbn in N2. rewrite (nth_replace_same _ _ _ _ _ N) in N2. congruence. }
  subst m1'. exists m, m2.
  repeat match goal with |- _ /\ _ => split end; try assumption.
  - subst b c. cbn. rewrite replace_twice. reflexivity.
  - rewrite D2, D, <- app_assoc. reflexivity.
  - rewrite P2, P, <- app_assoc. reflexivity.
  - rewrite C2, C. subst b. cbn [x_wordSize with_sections].
    destruct V as [q V]. rewrite zlen_app, V.
    rewrite Z.div_mul by lia.
    replace (q * x_wordSize a + zlen bs2) with (zlen bs2 + q * x_wordSize a) by lia.
    rewrite Z.div_add by lia.
    unfold u32. rewrite Zplus_mod_idemp_l. f_equal. lia.
  - eapply ident_trans; eassumption.
Qed.

Lemma current_type : forall st k m t, current_section st k m t -> currentSectionType st = Ok t.
Proof.
  intros st k m t (A & B & C). unfold currentSectionType. rewrite A, B, C. reflexivity.
Qed.
Lemma current_the : forall st k m t, current_section st k m t -> the_current st = Ok (k, m).
Proof. intros st k m t (A & B & C). unfold the_current. rewrite A, B. reflexivity. Qed.

Lemma grows_section : forall k st st' bs ps m t, grows k st st' bs ps -> current_section st k m t ->
  exists m', current_section st' k m' t /\ section_fine GText m' /\
    m_used m' = zlen (m_data m) + zlen bs /\ m_data m' = m_data m ++ bs.
Proof.
  intros k st st' bs ps m t G (A & B & C).
  destruct (grows_current _ _ _ _ _ _ G B) as (m' & N & D & P & Cc & F & I & _ & U).
  destruct (grows_fields _ _ _ _ _ G) as (_ & Gr & _ & Cu & _).
  exists m'. repeat match goal with |- _ /\ _ => split end; try assumption.
  split; [congruence|]. split; [exact N|].
  destruct I as (_ & I & _). rewrite I, Gr. exact C.
Qed.

Lemma linemap_grows : forall st k m, current_section st k m GText -> section_fine GText m ->
  exists st', linemap_AddCurrent st = Ok st' /\ grows k st st' [] [].
Proof.
  intros st k m C F. unfold linemap_AddCurrent. rewrite (current_the _ _ _ _ C). cbn [bind].
  eexists. split; [reflexivity|].
  destruct C as (A & B & C).
  eexists m, _. rewrite !app_nil_r.
  repeat match goal with |- _ /\ _ => split end; [exact B|reflexivity|..].
  - reflexivity.
  - cbn. reflexivity.
  - cbn [zlen length Z.of_nat]. rewrite Zdiv_0_l, Z.add_0_r. symmetry. apply u32_id. apply F.
  - exact F.
  - apply ident_content.
Qed.

Lemma align_grow : forall t, is_u32 t -> exists a, alignToNext t SECTION_GROWTH_AMOUNT = Ok a /\
  0 <= a <= max_size /\ (t <= max_size -> t <= a).
Proof.
  intros t T. unfold alignToNext, SECTION_GROWTH_AMOUNT. cbn [Z.eqb].
  eexists. split; [reflexivity|]. unfold max_size, u32, is_u32 in *.
  assert (R : 0 <= (t + 16384 - 1) mod 2 ^ 32 < 2 ^ 32) by (apply Z.mod_pos_bound; lia).
  set (v := (t + 16384 - 1) mod 2 ^ 32) in *.
  assert (V : v = 16384 * (v / 16384) + v mod 16384) by (apply Z.div_mod; lia).
  assert (M : 0 <= v mod 16384 < 16384) by (apply Z.mod_pos_bound; lia).
  split.
  - assert (v / 16384 <= 262143) by (apply Z.lt_succ_r, Z.div_lt_upper_bound; lia). lia.
  - intro L. assert (E : v = t + 16384 - 1) by (unfold v; apply Z.mod_small; lia). lia.
Qed.

(** checkAvailableSpace in a section with data. *)
Lemma check_grows : forall st k m n st', current_section st k m GText -> section_fine GText m -> 0 <= n ->
  checkAvailableSpace n st = Ok (true, st') -> grows k st st' [] [].
Proof.
  intros st k m n st' C F P H. unfold checkAvailableSpace in H.
  destruct (n =? 0) eqn:Z0. { inversion H; subst. eapply grows_refl; [apply C|exact F]. }
  destruct (x_wordSize st >? n); [discriminate|].
  destruct (x_current st) eqn:X; [|discriminate].
  rewrite (current_type _ _ _ _ C) in H. cbn [bind] in H.
  unfold growCurrentSection in H. destruct (x_wordSize st >? n); [discriminate|].
  rewrite (current_the _ _ _ _ C) in H. cbn [bind] in H.
  destruct (u32 (n + m_used m) >? m_alloc m) eqn:G.
  - destruct (align_grow (u32 (n + m_used m)) (u32_range _)) as (a & A1 & A2 & A3).
    rewrite A1 in H. cbn [bind] in H. destruct (a <? m_used m) eqn:A4; [discriminate|].
    cbn [bind] in H. inversion H; subst st'.
    destruct C as (C1 & C2 & C3).
    exists m, (set_alloc a m). rewrite !app_nil_r.
    repeat match goal with |- _ /\ _ => split end; try reflexivity; try exact C2.
    + cbn [zlen length Z.of_nat]. rewrite Zdiv_0_l, Z.add_0_r. symmetry. apply u32_id. apply F.
    + destruct F as (F1 & F2 & F3 & F4 & F5).
      apply Z.ltb_ge in A4. unfold section_fine.
      split; [exact F1|]. split; [exact F2|]. split; [exact A2|]. split; [exact F4|exact A4].
    + apply ident_alloc.
  - inversion H; subst. eapply grows_refl; [apply C|exact F].
Qed.

Lemma check_ok : forall st k m n, current_section st k m GText -> section_fine GText m ->
  0 < x_wordSize st <= n -> m_used m + n <= max_size ->
  exists st' m', checkAvailableSpace n st = Ok (true, st') /\ current_section st' k m' GText /\
    m_used m' + n <= m_alloc m' /\ m_used m' = m_used m.
Proof.
  intros st k m n C F W B. unfold checkAvailableSpace.
  destruct (n =? 0) eqn:Z0. { lia. }
  replace (x_wordSize st >? n) with false by lia.
  rewrite (proj1 C). rewrite (current_type _ _ _ _ C). cbn [bind].
  unfold growCurrentSection. replace (x_wordSize st >? n) with false by lia.
  rewrite (current_the _ _ _ _ C). cbn [bind].
  destruct F as (F1 & F2 & F3 & F4 & F5). unfold is_u32 in F2.
  assert (U : u32 (n + m_used m) = n + m_used m).
  { apply u32_id. unfold is_u32, max_size in *. lia. }
  rewrite U. destruct (n + m_used m >? m_alloc m) eqn:G.
  - destruct (align_grow (n + m_used m)) as (a & A1 & A2 & A3).
    { unfold is_u32, max_size in *. lia. }
    rewrite A1. cbn [bind]. replace (a <? m_used m) with false by lia. cbn [bind].
    eexists _, (set_alloc a m). split; [reflexivity|].
    destruct C as (C1 & C2 & C3). assert (n + m_used m <= a) by (apply A3; lia).
    split; [|split; [change (m_used m + n <= a); lia|reflexivity]].
    repeat split; cbn; [exact C1| |exact C3]. apply (nth_replace_same _ _ _ _ _ C2).
  - cbn [bind]. exists st, m. split; [reflexivity|]. split; [exact C|]. split; [lia|reflexivity].
Qed.

Lemma store_grows : forall st k m bs patch st', current_section st k m GText -> section_fine GText m ->
  store bs patch st = Ok st' ->
  grows k st st' bs (match patch with None => [] | Some (t, e) => [APatch (m_used m) t e] end).
Proof.
  intros st k m bs patch st' C F H. unfold store in H.
  rewrite (current_the _ _ _ _ C) in H. cbn [bind] in H.
  destruct (m_used m + zlen bs >? m_alloc m) eqn:G; [discriminate|].
  inversion H; subst st'. clear H. destruct C as (C1 & C2 & C3).
  destruct F as (F1 & F2 & F3 & F4 & F5). pose proof (zlen_nonneg _ bs) as NN. unfold is_u32, max_size in *.
  assert (U : u32 (m_used m + zlen bs) = m_used m + zlen bs).
  { apply u32_id. unfold is_u32. lia. }
  eexists m, _. split; [exact C2|]. split; [reflexivity|].
  repeat match goal with |- _ /\ _ => split end; try reflexivity.
  - cbn. destruct patch as [[t e]|]; [|rewrite app_nil_r; reflexivity].
    unfold add_patch. change (ws_patches (m_w m)) with (m_patches m).
    destruct (m_patches m) as [|h r]; [reflexivity|].
    cbn [app]. apply perm_skip. apply Permutation_cons_append.
  - unfold section_fine. split; [apply u32_range|]. split; [apply u32_range|].
    split; [cbn; unfold max_size; lia|].
    unfold m_used, m_data in *. cbn [m_w ws_usedSpace ws_data set_content m_alloc].
    rewrite U, zlen_app. lia.
  - apply ident_content.
Qed.

(** sect_OutputConst and sect_OutputReloc in a section with data. *)
Lemma output_grows : forall st k m bs patch f st', current_section st k m GText -> section_fine GText m ->
  0 < x_wordSize st -> output bs patch f st = Ok st' ->
  grows k st st' bs (match patch with None => [] | Some (t, e) => [APatch (m_used m) t e] end).
Proof.
  intros st k m bs patch f st' C F W H. unfold output in H.
  destruct (x_wordSize st >? zlen bs); [discriminate|].
  destruct (checkAvailableSpace (zlen bs) st) as [[ok st1]| |] eqn:K; try discriminate.
  cbn [bind] in H.
  destruct ok.
  2:{ unfold checkAvailableSpace in K. destruct (zlen bs =? 0); [discriminate|].
      destruct (x_wordSize st >? zlen bs); [discriminate|]. rewrite (proj1 C) in K.
      rewrite (current_type _ _ _ _ C) in K. cbn [bind] in K.
      destruct (growCurrentSection (zlen bs) st); discriminate. }
  pose proof (check_grows _ _ _ _ _ C F (zlen_nonneg _ bs) K) as G1.
  destruct (grows_section _ _ _ _ _ _ _ G1 C) as (m1 & C1 & F1 & U1 & _).
  rewrite (current_type _ _ _ _ C1) in H. cbn [bind] in H.
  destruct (linemap_grows _ _ _ C1 F1) as (st2 & L & G2). rewrite L in H. cbn [bind] in H.
  destruct (grows_section _ _ _ _ _ _ _ G2 C1) as (m2 & C2 & F2 & U2 & D2).
  pose proof (store_grows _ _ _ _ _ _ C2 F2 H) as G3.
  pose proof (grows_trans _ _ _ _ _ _ _ _ G1 G2 W ltac:(apply Z.divide_0_r)) as G12.
  pose proof (grows_trans _ _ _ _ _ _ _ _ G12 G3 W ltac:(apply Z.divide_0_r)) as G.
  replace (m_used m) with (m_used m2); [exact G|].
  rewrite U2. destruct F as (_ & _ & _ & F & _). rewrite F.
  destruct (grows_current _ _ _ _ _ _ G1 (proj1 (proj2 C))) as (m1' & N1 & D1 & _).
  rewrite (proj1 (proj2 C1)) in N1. inversion N1; subst m1'. rewrite D1, app_nil_r.
  change (zlen (@nil Z)) with 0. lia.
Qed.

Lemma output_ok : forall st k m bs patch f, current_section st k m GText -> section_fine GText m ->
  0 < x_wordSize st <= zlen bs -> m_used m + zlen bs <= max_size ->
  exists st', output bs patch f st = Ok st'.
Proof.
  intros st k m bs patch f C F W B. unfold output. replace (x_wordSize st >? zlen bs) with false by lia.
  destruct (check_ok st k m (zlen bs) C F W B) as (st1 & m1 & K & C1 & R & U).
  rewrite K. cbn [bind]. rewrite (current_type _ _ _ _ C1). cbn [bind].
  pose proof (check_grows _ _ _ _ _ C F (zlen_nonneg _ bs) K) as G1.
  destruct (grows_section _ _ _ _ _ _ _ G1 C) as (m1' & C1' & F1 & U1 & _).
  assert (m1' = m1) by (destruct C1 as (_ & X & _), C1' as (_ & Y & _); congruence). subst m1'.
  destruct (linemap_grows _ _ _ C1 F1) as (st2 & L & G2). rewrite L. cbn [bind].
  unfold linemap_AddCurrent in L. rewrite (current_the _ _ _ _ C1) in L. cbn [bind] in L.
  inversion L; subst st2. unfold store, the_current. cbn. rewrite (proj1 C1).
  rewrite (nth_replace_same _ _ _ _ _ (proj1 (proj2 C1))). cbn [bind].
  change (m_used (set_content ?a ?b ?c ?d ?e ?f)) with c.
  change (m_alloc (set_content ?a ?b ?c ?d ?e ?f)) with (m_alloc f).
  replace (m_used m1 + zlen bs >? m_alloc m1) with false by lia. eexists; reflexivity.
Qed.

(** [f] appends [bs] and [ps] to the current section whenever it succeeds, and it
    succeeds if there is room. *)
Definition does (f : xstate -> res xstate) (k : nat) (st : xstate) (bs : list Z) (ps : list apatch) : Prop :=
  forall m, current_section st k m GText -> section_fine GText m -> 0 < x_wordSize st ->
  (forall st', f st = Ok st' -> grows k st st' bs ps) /\
  (m_used m + zlen bs <= max_size -> exists st', f st = Ok st').

Lemma does_ext : forall f g k st bs ps, f st = g st -> does f k st bs ps -> does g k st bs ps.
Proof. unfold does. intros f g k st bs ps E. rewrite E. tauto. Qed.

Lemma does_bind : forall f g k st bs1 ps1 bs2 ps2,
  does f k st bs1 ps1 -> (x_wordSize st | zlen bs1) ->
  (forall st1, grows k st st1 bs1 ps1 -> does g k st1 bs2 ps2) ->
  does (fun st => let! st1 := f st in g st1) k st (bs1 ++ bs2) (ps1 ++ ps2).
Proof.
  intros f g k st bs1 ps1 bs2 ps2 Hf V Hg m C F W.
  destruct (Hf m C F W) as [A B].
  assert (U : m_used m = zlen (m_data m)) by apply F.
  split.
  - intros st' H. destruct (f st) as [st1| |] eqn:X; try discriminate. cbn [bind] in H.
    pose proof (A st1 eq_refl) as G1. destruct (grows_section _ _ _ _ _ _ _ G1 C) as (m1 & C1 & F1 & _).
    assert (W1 : 0 < x_wordSize st1) by (rewrite (proj1 (grows_fields _ _ _ _ _ G1)); exact W).
    destruct (Hg st1 G1 m1 C1 F1 W1) as [A1 _]. pose proof (A1 st' H) as G2.
    exact (grows_trans _ _ _ _ _ _ _ _ G1 G2 W V).
  - rewrite zlen_app. intro L. pose proof (zlen_nonneg _ bs1). pose proof (zlen_nonneg _ bs2).
    destruct B as [st1 X]; [lia|]. rewrite X. cbn [bind].
    pose proof (A st1 X) as G1. destruct (grows_section _ _ _ _ _ _ _ G1 C) as (m1 & C1 & F1 & U1 & _).
    assert (W1 : 0 < x_wordSize st1) by (rewrite (proj1 (grows_fields _ _ _ _ _ G1)); exact W).
    destruct (Hg st1 G1 m1 C1 F1 W1) as [_ B1]. apply B1. lia.
Qed.

Lemma does_nil : forall k st, does Ok k st [] [].
Proof.
  intros k st m C F W. split.
  - intros st' H. inversion H; subst. eapply grows_refl; [apply C|exact F].
  - intros _. eexists; reflexivity.
Qed.

Lemma output_does : forall bs patch f k st, x_wordSize st <= zlen bs ->
  forall m, nth_error (x_sections st) k = Some m ->
  does (output bs patch f) k st bs (match patch with None => [] | Some (t, e) => [APatch (m_used m) t e] end).
Proof.
  intros bs patch f k st L m N m' C F W.
  assert (m' = m) by (destruct C as (_ & X & _); congruence). subst m'. split.
  - intros st' H. eapply output_grows; eassumption.
  - intro B. eapply output_ok; try eassumption. lia.
Qed.

Lemma output_does0 : forall bs f k st, x_wordSize st <= zlen bs -> does (output bs None f) k st bs [].
Proof.
  intros bs f k st L m C F W.
  exact (output_does bs None f k st L m (proj1 (proj2 C)) m C F W).
Qed.

Lemma const8_does : forall v k st, x_wordSize st <= 1 -> does (sect_OutputConst8 v) k st [v mod 256] [].
Proof. intros v k st W. apply (output_does0 [u8 v]). cbn. lia. Qed.

Lemma const16_does : forall v k st, x_wordSize st <= 2 ->
  does (sect_OutputConst16 v) k st (number (o_endianness (x_opts st)) 2 v) [].
Proof.
  intros v k st W.
  eapply does_ext; [|apply (output_does0 (number (o_endianness (x_opts st)) 2 v) Ok)].
  - unfold sect_OutputConst16. destruct (o_endianness (x_opts st)); reflexivity.
  - unfold number. destruct (o_endianness (x_opts st)); cbn; lia.
Qed.

Lemma div_div_256 : forall v a, 0 < a -> v / a / 256 = v / (a * 256).
Proof. intros. apply Z.div_div; lia. Qed.

Lemma const32_does : forall v k st, x_wordSize st <= 4 ->
  does (sect_OutputConst32 v) k st (number (o_endianness (x_opts st)) 4 v) [].
Proof.
  intros v k st W.
  eapply does_ext; [|apply (output_does0 (number (o_endianness (x_opts st)) 4 v) Ok)].
  - unfold sect_OutputConst32, number, u8. cbn [little rev app].
    rewrite (div_div_256 v 256), (div_div_256 v (256 * 256)) by lia.
    change (256 * 256) with 65536. change (65536 * 256) with 16777216.
    destruct (o_endianness (x_opts st)); reflexivity.
  - unfold number. destruct (o_endianness (x_opts st)); cbn; lia.
Qed.

Lemma grows_wordSize : forall k st st' bs ps, grows k st st' bs ps -> x_wordSize st' = x_wordSize st.
Proof. intros. eapply grows_fields. eassumption. Qed.
Lemma grows_opts : forall k st st' bs ps, grows k st st' bs ps -> x_opts st' = x_opts st.
Proof. intros. eapply grows_fields. eassumption. Qed.

Lemma repeat_does : forall n f k bs w o, (w | zlen bs) ->
  (forall st, x_wordSize st = w -> x_opts st = o -> does f k st bs []) ->
  forall st, x_wordSize st = w -> x_opts st = o -> does (repeatM n f) k st (concat (repeat bs n)) [].
Proof.
  intros n f k bs w o V H. induction n as [|n IH]; intros st W O.
  - apply does_nil.
  - cbn [repeat concat]. change (@nil apatch) with (@nil apatch ++ []).
    apply (does_bind f (repeatM n f)).
    + apply H; assumption.
    + rewrite W. exact V.
    + intros st1 G. apply IH.
      * rewrite (grows_wordSize _ _ _ _ _ G). exact W.
      * rewrite (grows_opts _ _ _ _ _ G). exact O.
Qed.

Lemma concat_repeat2 : forall (x : Z) n, concat (repeat [x; x] n) = repeat x (2 * n).
Proof.
  intros x n. induction n as [|n IH]; [reflexivity|].
  cbn [repeat concat]. rewrite IH. replace (2 * S n)%nat with (S (S (2 * n))) by lia. reflexivity.
Qed.
Lemma concat_repeat1 : forall (x : Z) n, concat (repeat [x] n) = repeat x n.
Proof. intros x n. induction n as [|n IH]; [reflexivity|]. cbn [repeat concat]. rewrite IH. reflexivity. Qed.
Lemma zlen_repeat : forall (x : Z) n, zlen (repeat x n) = Z.of_nat n.
Proof. intros. unfold zlen. rewrite repeat_length. reflexivity. Qed.

Lemma fill_number : forall e f, is_byte f -> number e 2 (f * 256 + f) = [f; f].
Proof.
  intros e f B. unfold is_byte in B. unfold number, little.
  replace ((f * 256 + f) mod 256) with f.
  2:{ rewrite Z.add_comm, Z_mod_plus_full, Z.mod_small; lia. }
  replace ((f * 256 + f) / 256) with f.
  2:{ rewrite Z.add_comm, Z_div_plus, Z.div_small; lia. }
  rewrite Z.mod_small by lia. destruct e; reflexivity.
Qed.

Lemma skip_does : forall count k st, 0 <= count < 2 ^ 32 -> x_wordSize st <= 2 -> (x_wordSize st | count) ->
  is_byte (o_fill (x_opts st)) ->
  does (sect_SkipBytes count) k st (repeat (o_fill (x_opts st)) (Z.to_nat count)) [].
Proof.
  intros count k st R W2 V B m C F W. unfold sect_SkipBytes.
  destruct (count =? 0) eqn:Z0.
  { apply Z.eqb_eq in Z0. subst count. split.
    - intros st' H. inversion H; subst. eapply grows_refl; [apply C|exact F].
    - intros _. eexists; reflexivity. }
  assert (WC : x_wordSize st <= count).
  { destruct V as [q V]. assert (q <> 0) by (intro; subst; lia). assert (0 < q) by nia. nia. }
  replace (x_wordSize st >? count) with false by lia.
  set (fill := o_fill (x_opts st)) in *.
  assert (Body : forall st2, grows k st st2 [] [] ->
    does (fun st2 => let! st3 := repeatM (Z.to_nat (count / 2)) (sect_OutputConst16 (fill * 256 + fill)) st2 in
          repeatM (Z.to_nat (count mod 2)) (sect_OutputConst8 fill) st3) k st2
         (repeat fill (Z.to_nat count)) []).
  { intros st2 G.
    assert (N : Z.to_nat count = (2 * Z.to_nat (count / 2) + Z.to_nat (count mod 2))%nat).
    { pose proof (Z.div_mod count 2 ltac:(lia)). pose proof (Z.mod_pos_bound count 2 ltac:(lia)).
      assert (0 <= count / 2) by (apply Z.div_pos; lia). lia. }
    rewrite N, repeat_app, <- concat_repeat2, <- concat_repeat1.
    change (@nil apatch) with (@nil apatch ++ []).
    assert (WS : x_wordSize st2 = x_wordSize st) by (eapply grows_wordSize; exact G).
    assert (OS : x_opts st2 = x_opts st) by (eapply grows_opts; exact G).
    assert (V2 : (x_wordSize st | 2)).
    { assert (X : x_wordSize st = 1 \/ x_wordSize st = 2) by lia.
      destruct X as [->| ->]; [exists 2|exists 1]; lia. }
    apply (does_bind (repeatM (Z.to_nat (count / 2)) (sect_OutputConst16 (fill * 256 + fill)))
                     (repeatM (Z.to_nat (count mod 2)) (sect_OutputConst8 fill))).
    - apply (repeat_does _ _ _ _ (x_wordSize st) (x_opts st)); try assumption.
      intros st3 W3 O3. rewrite <- (fill_number (o_endianness (x_opts st3)) fill B).
      apply const16_does. lia.
    - rewrite concat_repeat2, zlen_repeat. rewrite WS.
      replace (Z.of_nat (2 * Z.to_nat (count / 2))) with (2 * Z.of_nat (Z.to_nat (count / 2))) by lia.
      apply Z.divide_mul_l. exact V2.
    - intros st3 G3.
      assert (WS3 : x_wordSize st3 = x_wordSize st) by (rewrite (grows_wordSize _ _ _ _ _ G3); exact WS).
      assert (OS3 : x_opts st3 = x_opts st) by (rewrite (grows_opts _ _ _ _ _ G3); exact OS).
      destruct (Z.eq_dec (count mod 2) 0) as [E|E].
      + rewrite E. apply does_nil.
      + assert (x_wordSize st = 1).
        { assert (X : x_wordSize st = 1 \/ x_wordSize st = 2) by lia. destruct X as [X|X]; [exact X|].
          rewrite X in V. apply Z.mod_divide in V; lia. }
        apply (repeat_does _ _ _ _ (x_wordSize st) (x_opts st)); try assumption.
        * rewrite H. apply Z.divide_1_l.
        * intros st4 W4 O4. replace [fill] with [fill mod 256] by (f_equal; apply Z.mod_small; exact B).
          apply const8_does. lia. }
  split.
  - intros st' H. destruct (checkAvailableSpace count st) as [[ok st1]| |] eqn:K; try discriminate.
    cbn [bind] in H. destruct ok.
    2:{ unfold checkAvailableSpace in K. rewrite Z0 in K.
        destruct (x_wordSize st >? count); [discriminate|]. rewrite (proj1 C) in K.
        rewrite (current_type _ _ _ _ C) in K. cbn [bind] in K.
        destruct (growCurrentSection count st); discriminate. }
    pose proof (check_grows _ _ _ _ _ C F (proj1 R) K) as G1.
    destruct (grows_section _ _ _ _ _ _ _ G1 C) as (m1 & C1 & F1 & U1 & _).
    destruct (linemap_grows _ _ _ C1 F1) as (st2 & L & G2). rewrite L in H. cbn [bind] in H.
    destruct (grows_section _ _ _ _ _ _ _ G2 C1) as (m2 & C2 & F2 & U2 & D2).
    rewrite (current_type _ _ _ _ C2) in H. cbn [bind] in H.
    pose proof (grows_trans _ _ _ _ _ _ _ _ G1 G2 W ltac:(apply Z.divide_0_r)) as G12.
    assert (W2' : 0 < x_wordSize st2) by (rewrite (grows_wordSize _ _ _ _ _ G12); exact W).
    destruct (Body st2 G12 m2 C2 F2 W2') as [A _]. specialize (A st' H).
    exact (grows_trans _ _ _ _ _ _ _ _ G12 A W ltac:(apply Z.divide_0_r)).
  - rewrite zlen_repeat. intro L0.
    destruct (check_ok st k m count C F ltac:(lia) ltac:(lia)) as (st1 & m1 & K & _).
    rewrite K. cbn [bind].
    pose proof (check_grows _ _ _ _ _ C F (proj1 R) K) as G1. clear m1.
    destruct (grows_section _ _ _ _ _ _ _ G1 C) as (m1 & C1 & F1 & U1 & _).
    destruct (linemap_grows _ _ _ C1 F1) as (st2 & L & G2). rewrite L. cbn [bind].
    destruct (grows_section _ _ _ _ _ _ _ G2 C1) as (m2 & C2 & F2 & U2 & D2).
    rewrite (current_type _ _ _ _ C2). cbn [bind].
    pose proof (grows_trans _ _ _ _ _ _ _ _ G1 G2 W ltac:(apply Z.divide_0_r)) as G12.
    assert (W2' : 0 < x_wordSize st2) by (rewrite (grows_wordSize _ _ _ _ _ G12); exact W).
    destruct (Body st2 G12 m2 C2 F2 W2') as [_ A]. apply A. rewrite zlen_repeat.
    destruct (grows_section _ _ _ _ _ _ _ G12 C) as (m2' & C2' & _ & U2' & _).
    assert (m2' = m2) by (destruct C2 as (_ & X & _), C2' as (_ & Y & _); congruence). subst m2'.
    rewrite U2'. cbn [app]. change (zlen (@nil Z)) with 0.
    destruct F as (_ & _ & _ & F & _). lia.
Qed.

Lemma align_does : forall a k st m, nth_error (x_sections st) k = Some m ->
  1 <= a -> m_used m + a <= 2 ^ 32 -> x_wordSize st <= 2 -> (x_wordSize st | a) ->
  (x_wordSize st | m_used m) -> is_byte (o_fill (x_opts st)) ->
  does (sect_Align a) k st (repeat (o_fill (x_opts st)) (Z.to_nat (pad (m_used m) a))) [].
Proof.
  intros a k st m N A1 A2 W2 V VU B m' C F W.
  assert (m' = m) by (destruct C as (_ & X & _); congruence). subst m'.
  assert (WA : x_wordSize st <= a) by (apply Z.divide_pos_le; [lia|exact V]).
  unfold sect_Align. replace (x_wordSize st >? a) with false by lia.
  rewrite (current_the _ _ _ _ C). cbn [bind]. unfold alignToNext.
  replace (a =? 0) with false by lia.
  assert (U0 : 0 <= m_used m) by apply F.
  assert (P : 0 <= pad (m_used m) a < a) by (apply Z.mod_pos_bound; lia).
  assert (T : u32 (m_used m + a - 1) - u32 (m_used m + a - 1) mod a = m_used m + pad (m_used m) a).
  { rewrite u32_id by (unfold is_u32; lia).
    assert (exists q, m_used m + pad (m_used m) a = q * a) as [q Q].
    { exists (- (- m_used m / a)). unfold pad. pose proof (Z.div_mod (- m_used m) a ltac:(lia)). lia. }
    assert (R : (m_used m + a - 1) mod a = a - 1 - pad (m_used m) a).
    { symmetry. apply (Z.mod_unique_pos _ _ q); [lia|]. lia. }
    rewrite R. lia. }
  cbn [bind]. rewrite T. replace (m_used m + pad (m_used m) a - m_used m) with (pad (m_used m) a) by lia.
  rewrite u32_id by (unfold is_u32; lia).
  apply (skip_does (pad (m_used m) a) k st); try assumption; [lia|].
  unfold pad. apply Z.mod_divide; [lia|].
  apply Z.mod_divide in V; [|lia]. apply Z.mod_divide in VU; [|lia].
  destruct (proj1 (Z.mod_divide a (x_wordSize st) ltac:(lia)) V) as [q Q].
  rewrite (Z.mod_eq (- m_used m) a) by lia.
  assert (E : (- m_used m - a * (- m_used m / a)) mod x_wordSize st = 0).
  { rewrite Zminus_mod, Z.mul_mod by lia. rewrite V. rewrite Z.mul_0_l.
    replace ((- m_used m) mod x_wordSize st) with 0.
    - rewrite !Z.mod_0_l by lia. reflexivity.
    - symmetry. apply Z_mod_zero_opp_full. exact VU. }
  exact E.
Qed.

Lemma checkRange_cases : forall e low high, e <> ENull ->
  (expr_IsConstant e = true -> low <= e_v e <= high) ->
  exists e1, expr_CheckRange e low high = Ok e1 /\ isNull e1 = false /\
    expr_IsConstant e1 = expr_IsConstant e /\ e_v e1 = e_v e.
Proof.
  intros e low high N R. destruct e as [|t c o v s l r]; [congruence|].
  unfold expr_CheckRange, expr_LowLimit, expr_HighLimit. cbn [isNull orb expr_IsConstant expr_Const e_v].
  destruct c.
  - specialize (R eq_refl). cbn [e_v] in R.
    replace (v <? low) with false by lia. cbn [andb bind node2 isNull orb expr_IsConstant e_v].
    replace (v >? high) with false by lia.
    eexists. split; [reflexivity|]. repeat split.
  - cbn [andb bind node2 isNull orb expr_IsConstant e_v].
    eexists. split; [reflexivity|]. repeat split.
Qed.

Lemma little_mod : forall n v, little n (v mod 256 ^ Z.of_nat n) = little n v.
Proof.
  induction n as [|n IH]; intro v; [reflexivity|].
  cbn [little].
  assert (E : 256 ^ Z.of_nat (S n) = 256 * 256 ^ Z.of_nat n).
  { rewrite Nat2Z.inj_succ, Z.pow_succ_r; lia. }
  rewrite E. assert (0 < 256 ^ Z.of_nat n) by (apply Z.pow_pos_nonneg; lia).
  f_equal.
  - rewrite Z.rem_mul_r by lia. rewrite Z.mul_comm, Z_mod_plus_full. apply Z.mod_mod. lia.
  - rewrite Z.rem_mul_r by lia. rewrite (Z.add_comm (v mod 256)), (Z.mul_comm 256).
    rewrite Z.div_add_l by lia. rewrite (Z.div_small (v mod 256)) by (apply Z.mod_pos_bound; lia).
    rewrite Z.add_0_r. apply IH.
Qed.
Lemma number_mod : forall e n v, number e n (v mod 256 ^ Z.of_nat n) = number e n v.
Proof. intros [] n v; unfold number; rewrite little_mod; reflexivity. Qed.

Lemma reloc_does : forall bs t e f k st m, nth_error (x_sections st) k = Some m -> x_wordSize st <= zlen bs ->
  does (output bs (Some (t, e)) f) k st bs [APatch (m_used m) t e].
Proof. intros. exact (output_does bs (Some (t, e)) f k st H0 m H). Qed.

Lemma string_does : forall s k st, x_wordSize st = 1 -> bytes s -> does (outputString s) k st s [].
Proof.
  induction s as [|c s IH]; intros k st W B; [apply does_nil|].
  inversion B as [|? ? B1 B2]; subst.
  change (c :: s) with ([c] ++ s). change (@nil apatch) with (@nil apatch ++ []).
  apply (does_bind (sect_OutputConst8 c) (outputString s)).
  - replace [c] with [c mod 256] by (f_equal; apply Z.mod_small; exact B1). apply const8_does. lia.
  - rewrite W. apply Z.divide_1_l.
  - intros st1 G. apply IH; [|exact B2]. rewrite (grows_wordSize _ _ _ _ _ G). exact W.
Qed.

Definition handler (n : nat) : bool -> darg -> xstate -> res xstate :=
  match n with 1%nat => fun _ => handleDb | 2%nat => handleDw | _ => handleDl end.
Definition range (n : nat) : Z * Z :=
  match n with 1%nat => (-128, 255) | 2%nat => (-32768, 65535) | _ => (- 2 ^ 31, 2 ^ 31 - 1) end.
Definition size124 (n : nat) (w : Z) : Prop :=
  (n = 1%nat /\ w = 1) \/ (n = 2%nat /\ (w = 1 \/ w = 2)) \/ (n = 4%nat /\ (w = 1 \/ w = 2)).

Lemma arg_does : forall n last a k st m, nth_error (x_sections st) k = Some m ->
  size124 n (x_wordSize st) -> is_byte (o_fill (x_opts st)) ->
  arg_ok n (fst (range n)) (snd (range n)) last a ->
  does (handler n last a) k st (arg_bytes (x_opts st) n a) (arg_patches (x_opts st) n (m_used m) a).
Proof.
  intros n last a k st m N S B O.
  destruct S as [[-> W]|[[-> W]|[-> W]]]; cbn [handler range fst snd] in *.
  - destruct a as [e|s|]; cbn [arg_ok] in O.
    + destruct O as [O1 O2]. destruct (checkRange_cases e _ _ O1 O2) as (e1 & E1 & E2 & E3 & E4).
      cbn [arg_bytes arg_patches]. unfold does, handleDb, range_checked.
      replace (isNull e) with false by (destruct e; [congruence|reflexivity]).
      rewrite E1. cbn [bind]. fold (does (sect_OutputExpr8 e1)).
      unfold sect_OutputExpr8. replace (x_wordSize st >? 1) with false by lia. rewrite E2, E3.
      destruct (expr_IsConstant e).
      * replace (number (o_endianness (x_opts st)) 1 (e_v e)) with [u8 (e_v e1) mod 256].
        -- apply const8_does. lia.
        -- rewrite E4. unfold u8. rewrite Z.mod_mod by lia. destruct (o_endianness (x_opts st)); reflexivity.
      * apply (reloc_does [0]); [exact N|cbn; lia].
    + apply string_does; [exact W|apply O].
    + apply (skip_does 1 k st); try exact B; try lia. rewrite W. apply Z.divide_1_l.
  - destruct a as [e|s|]; cbn [arg_ok] in O.
    + destruct O as [O1 O2]. destruct (checkRange_cases e _ _ O1 O2) as (e1 & E1 & E2 & E3 & E4).
      cbn [arg_bytes arg_patches]. unfold does, handleDw, range_checked.
      replace (isNull e) with false by (destruct e; [congruence|reflexivity]).
      rewrite E1. cbn [bind]. fold (does (sect_OutputExpr16 e1)).
      unfold sect_OutputExpr16. replace (x_wordSize st >? 2) with false by lia. rewrite E2, E3.
      destruct (expr_IsConstant e).
      * rewrite <- number_mod. rewrite E4.
        apply (const16_does (e_v e mod 256 ^ Z.of_nat 2)). lia.
      * unfold sect_OutputReloc16. destruct (o_endianness (x_opts st));
          apply (reloc_does [0; 0]); try exact N; cbn; lia.
    + destruct O as [O _]. discriminate.
    + destruct O as [O|O]; [discriminate|]. subst last.
      apply (skip_does 2 k st); try exact B; try lia.
      destruct W as [-> | ->]; [exists 2|exists 1]; lia.
  - destruct a as [e|s|]; cbn [arg_ok] in O.
    + destruct O as [O1 O2].
      cbn [arg_bytes arg_patches]. unfold does, handleDl.
      unfold sect_OutputExpr32. replace (x_wordSize st >? 4) with false by lia.
      replace (isNull e) with false by (destruct e; [congruence|reflexivity]).
      destruct (expr_IsConstant e).
      * rewrite <- number_mod.
        apply (const32_does (e_v e mod 256 ^ Z.of_nat 4)). lia.
      * unfold sect_OutputRel32. destruct (o_endianness (x_opts st));
          apply (reloc_does [0; 0; 0; 0]); try exact N; cbn; lia.
    + destruct O as [O _]. discriminate.
    + destruct O as [O|O]; [discriminate|]. subst last.
      apply (skip_does 4 k st); try exact B; try lia.
      destruct W as [-> | ->]; [exists 4|exists 2]; lia.
Qed.

Lemma length_little : forall n v, length (little n v) = n.
Proof. induction n as [|n IH]; intro v; [reflexivity|]. cbn [little length]. rewrite IH. reflexivity. Qed.
Lemma zlen_number : forall e n v, zlen (number e n v) = Z.of_nat n.
Proof. intros [] n v; unfold zlen, number; rewrite ?rev_length, length_little; reflexivity. Qed.

Lemma arg_divide : forall n w last a o, size124 n w -> arg_ok n (fst (range n)) (snd (range n)) last a ->
  (w | zlen (arg_bytes o n a)).
Proof.
  intros n w last a o S O. destruct S as [[-> ->]|S]; [apply Z.divide_1_l|].
  assert (Z.of_nat n = 2 \/ Z.of_nat n = 4) by (destruct S as [[-> _]|[-> _]]; auto).
  assert (Wn : w = 1 \/ w = 2) by tauto.
  assert (V : (w | Z.of_nat n)).
  { destruct Wn as [-> | ->]; [apply Z.divide_1_l|]. destruct H as [-> | ->]; [exists 1|exists 2]; lia. }
  destruct a as [e|s|]; cbn [arg_bytes].
  - destruct (expr_IsConstant e); [rewrite zlen_number|rewrite zlen_repeat]; exact V.
  - destruct O as [O _]. destruct S as [[-> _]|[-> _]]; discriminate.
  - rewrite zlen_repeat. exact V.
Qed.

Lemma grows_used : forall k st st1 bs ps m, grows k st st1 bs ps -> nth_error (x_sections st) k = Some m ->
  m_used m = zlen (m_data m) ->
  exists m1, nth_error (x_sections st1) k = Some m1 /\ m_used m1 = m_used m + zlen bs.
Proof.
  intros k st st1 bs ps m G N U. destruct (grows_current _ _ _ _ _ _ G N) as (m1 & N1 & _ & _ & _ & _ & _ & _ & U1).
  exists m1. split; [exact N1|]. lia.
Qed.

Lemma args_does : forall n k l st m, nth_error (x_sections st) k = Some m ->
  size124 n (x_wordSize st) -> is_byte (o_fill (x_opts st)) ->
  args_ok n (fst (range n)) (snd (range n)) l ->
  does (handleArgs (handler n) l) k st (flat_map (arg_bytes (x_opts st) n) l) (args_patches (x_opts st) n (m_used m) l).
Proof.
  intros n k l. induction l as [|a l IH]; intros st m N S B O; [apply does_nil|].
  destruct O as [O1 O2]. cbn [flat_map args_patches].
  intros m' C F W.
  assert (m' = m) by (destruct C as (_ & X & _); congruence). subst m'.
  revert m C F W N.
  assert (G : forall m, nth_error (x_sections st) k = Some m -> m_used m = zlen (m_data m) ->
    does (handleArgs (handler n) (a :: l)) k st (arg_bytes (x_opts st) n a ++ flat_map (arg_bytes (x_opts st) n) l)
      (arg_patches (x_opts st) n (m_used m) a ++
       args_patches (x_opts st) n (m_used m + zlen (arg_bytes (x_opts st) n a)) l)).
  { intros m N U.
    apply (does_bind (handler n (match l with [] => true | _ => false end) a) (handleArgs (handler n) l)).
    - apply arg_does; assumption.
    - eapply arg_divide; eassumption.
    - intros st1 G. destruct (grows_used _ _ _ _ _ _ G N U) as (m1 & N1 & U1).
      rewrite <- U1, <- (grows_opts _ _ _ _ _ G). apply IH; try assumption.
      + rewrite (grows_wordSize _ _ _ _ _ G). exact S.
      + rewrite (grows_opts _ _ _ _ _ G). exact B. }
  intros m C F W N. apply (G m N); try assumption. apply F.
Qed.

Lemma incbin_does : forall bs k st, bytes bs -> (x_wordSize st | zlen bs) -> zlen bs < 2 ^ 32 ->
  does (sect_OutputBinaryFile (Some bs)) k st bs [].
Proof.
  intros bs k st B V L m C F W. unfold sect_OutputBinaryFile.
  pose proof (zlen_nonneg _ bs) as NN.
  rewrite u32_id by (unfold is_u32; lia).
  split.
  - intros st' H. destruct (checkAvailableSpace (zlen bs) st) as [[ok st1]| |] eqn:K; try discriminate.
    cbn [bind] in H. destruct ok.
    2:{ unfold checkAvailableSpace in K. destruct (zlen bs =? 0); [discriminate|].
        destruct (x_wordSize st >? zlen bs); [discriminate|]. rewrite (proj1 C) in K.
        rewrite (current_type _ _ _ _ C) in K. cbn [bind] in K.
        destruct (growCurrentSection (zlen bs) st); discriminate. }
    pose proof (check_grows _ _ _ _ _ C F NN K) as G1.
    destruct (grows_section _ _ _ _ _ _ _ G1 C) as (m1 & C1 & F1 & U1 & _).
    rewrite (current_type _ _ _ _ C1) in H. cbn [bind] in H.
    destruct (linemap_grows _ _ _ C1 F1) as (st2 & L2 & G2). rewrite L2 in H. cbn [bind] in H.
    destruct (grows_section _ _ _ _ _ _ _ G2 C1) as (m2 & C2 & F2 & U2 & D2).
    pose proof (store_grows _ _ _ _ _ _ C2 F2 H) as G3.
    pose proof (grows_trans _ _ _ _ _ _ _ _ G1 G2 W ltac:(apply Z.divide_0_r)) as G12.
    exact (grows_trans _ _ _ _ _ _ _ _ G12 G3 W ltac:(apply Z.divide_0_r)).
  - intro R. destruct (Z.eq_dec (zlen bs) 0) as [E|E].
    + unfold checkAvailableSpace. rewrite E. cbn [Z.eqb bind]. rewrite (current_type _ _ _ _ C). cbn [bind].
      unfold linemap_AddCurrent. rewrite (current_the _ _ _ _ C). cbn [bind].
      unfold store, the_current. cbn. rewrite (proj1 C).
      rewrite (nth_replace_same _ _ _ _ _ (proj1 (proj2 C))). cbn [bind].
      change (m_used (set_content ?a ?b ?c ?d ?e ?f)) with c.
      change (m_alloc (set_content ?a ?b ?c ?d ?e ?f)) with (m_alloc f).
      destruct F as (_ & _ & _ & _ & F). replace (m_used m + zlen bs >? m_alloc m) with false by lia.
      eexists; reflexivity.
    + assert (WB : x_wordSize st <= zlen bs) by (apply Z.divide_pos_le; [lia|exact V]).
      destruct (output_ok st k m bs None Ok C F ltac:(lia) R) as [st' H].
      unfold output in H. replace (x_wordSize st >? zlen bs) with false in H by lia.
      destruct (checkAvailableSpace (zlen bs) st) as [[ok st1]| |]; try discriminate.
      cbn [bind] in *. destruct ok; [|eexists; reflexivity].
      destruct (currentSectionType st1) as [t| |]; try discriminate. cbn [bind] in *.
      destruct t; [|eexists; reflexivity].
      exists st'. exact H.
Qed.

(** A data directive in a section with data. *)
Lemma step_does : forall d k st m w limit, nth_error (x_sections st) k = Some m ->
  x_wordSize st = w -> w = 1 \/ w = 2 -> is_byte (o_fill (x_opts st)) ->
  (w | m_used m) -> m_used m <= limit <= max_size -> data_ok w limit d ->
  match d with DOptions _ | DPosition _ _ => True | _ =>
    does (step d) k st (emitted (x_opts st) (m_used m) d) (new_patches (x_opts st) (m_used m) d) /\
    (w | zlen (emitted (x_opts st) (m_used m) d)) end.
Proof.
  intros d k st m w limit N Ew W B V L O.
  assert (AD : forall n l, size124 n w -> args_ok n (fst (range n)) (snd (range n)) l ->
    (w | zlen (flat_map (arg_bytes (x_opts st) n) l))).
  { intros n l S. induction l as [|a l IH]; intro A; [apply Z.divide_0_r|].
    destruct A as [A1 A2]. cbn [flat_map]. rewrite zlen_app. apply Z.divide_add_r; [|apply IH, A2].
    eapply arg_divide; eassumption. }
  unfold max_size in L.
  destruct d as [l|l|l|mu n| |n a|[bs|]| | | | | | | |]; cbn [data_ok] in O; try exact I; try contradiction.
  - destruct O as [Ow O]. split.
    + apply (args_does 1 k l st m N); try assumption. left. split; [reflexivity|congruence].
    + apply (AD 1%nat); [left; auto|exact O].
  - split.
    + apply (args_does 2 k l st m N); try assumption. right; left. split; [reflexivity|]. rewrite Ew; exact W.
    + apply (AD 2%nat); [right; left; auto|exact O].
  - split.
    + apply (args_does 4 k l st m N); try assumption. right; right. split; [reflexivity|]. rewrite Ew; exact W.
    + apply (AD 4%nat); [right; right; auto|exact O].
  - destruct O as (O1 & O2 & O3). cbn [emitted new_patches step]. rewrite zlen_repeat, Z2Nat.id by lia.
    split; [|exact O3].
    apply (does_ext (sect_SkipBytes (mu * n))).
    + cbn [step]. unfold defineSpace. replace (n >=? 0) with true by lia.
      assert (E : u32 (u32 n * mu) = mu * n).
      { unfold u32. rewrite Zmult_mod_idemp_l, Z.mul_comm, Z.mod_small; lia. }
      rewrite E. reflexivity.
    + apply skip_does; try assumption; try lia. rewrite Ew. exact O3.
  - cbn [emitted new_patches step]. unfold handleEven.
    assert (P : 0 <= pad (m_used m) 2 < 2) by (apply Z.mod_pos_bound; lia).
    split.
    + apply align_does; try assumption; try lia; rewrite Ew; [|exact V].
      destruct W as [-> | ->]; [exists 2|exists 1]; lia.
    + rewrite zlen_repeat, Z2Nat.id by lia. destruct W as [-> | ->]; [apply Z.divide_1_l|].
      unfold pad. apply Z.mod_divide in V; [|lia].
      rewrite Z_mod_zero_opp_full by exact V. apply Z.divide_0_r.
  - destruct O as (O1 & O2 & O3 & O4). cbn [emitted new_patches step].
    assert (P : 0 <= pad (m_used m) a < a) by (apply Z.mod_pos_bound; lia).
    assert (VP : (w | pad (m_used m) a)).
    { unfold pad. rewrite Z.mod_eq by lia. apply Z.divide_sub_r.
      - apply Z.divide_opp_r. exact V.
      - apply Z.divide_mul_l. exact O4. }
    split.
    + rewrite Z2Nat.inj_add by lia. rewrite repeat_app. change (@nil apatch) with (@nil apatch ++ []).
      apply (does_ext (fun st => let! st1 := sect_Align a st in sect_SkipBytes n st1)).
      { cbn [step]. unfold handleCnop. replace (n >=? 0) with true by lia. replace (a >=? 0) with true by lia. reflexivity. }
      apply (does_bind (sect_Align a) (sect_SkipBytes n)).
      * apply align_does; try assumption; try lia; rewrite Ew; assumption.
      * rewrite zlen_repeat, Z2Nat.id by lia. rewrite Ew. exact VP.
      * intros st1 G. rewrite <- (grows_opts _ _ _ _ _ G).
        apply skip_does; try lia; rewrite ?(grows_wordSize _ _ _ _ _ G), ?(grows_opts _ _ _ _ _ G);
          rewrite ?Ew; try assumption; lia.
    + rewrite zlen_repeat, Z2Nat.id by lia. apply Z.divide_add_r; assumption.
  - destruct O as (O1 & O2 & O3). cbn [emitted new_patches step].
    split; [|exact O2]. apply incbin_does; try assumption. rewrite Ew. exact O2.
Qed.
