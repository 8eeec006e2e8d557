(** Proofs about the line table: what any directive may do to it. *)
From Coq Require Import ZArith List Bool Lia Permutation.
From Verif Require Import Base BaseFacts Arith ExprModel ObjWriteModel OptModel SectModel SectSpec SectProofs SectTouch SectRun.
Import ListNotations.
Open Scope Z_scope.

Definition line_step (f l : Z) (m m' : msect) : Prop :=
  m_pc m <= m_pc m' /\ (m_lines m' = m_lines m /\ m_pc m' = m_pc m \/ m_lines m' = addEntry f l (m_pc m) (m_lines m)).
Definition fine2 (st : xstate) : Prop :=
  state_fine st /\ forall k m, nth_error (x_sections st) k = Some m -> x_groups st (ws_group (m_w m)) = Some GText -> m_pc m <= m_used m.
Definition note (st st' : xstate) : Prop :=
  x_wordSize st' = x_wordSize st /\ x_groups st' = x_groups st /\ x_current st' = x_current st /\
  x_file st' = x_file st /\ x_line st' = x_line st /\ length (x_sections st') = length (x_sections st) /\
  (forall j m, nth_error (x_sections st) j = Some m ->
     exists m', nth_error (x_sections st') j = Some m' /\ ws_group (m_w m') = ws_group (m_w m) /\
       (x_groups st (ws_group (m_w m)) = Some GText -> line_step (x_file st) (x_line st) m m')).
Definition notes (st : xstate) (r : res xstate) : Prop :=
  forall st', r = Ok st' -> 0 < x_wordSize st -> fine2 st -> note st st' /\ fine2 st'.

Lemma line_step_refl : forall f l m, line_step f l m m.
Proof. intros. split; [lia|]. left. auto. Qed.
Lemma addEntry_twice : forall f l p q L, addEntry f l q (addEntry f l p L) = addEntry f l p L.
Proof.
  assert (A : forall f l q L e, rev L = e :: tl (rev L) -> al_file e = f -> al_line e = l -> addEntry f l q L = L).
  { intros f l q L e R <- <-. unfold addEntry. rewrite R. rewrite !Z.eqb_refl. reflexivity. }
  intros f l p q L. unfold addEntry at 2 3. destruct (rev L) as [|e r] eqn:R.
  - unfold addEntry. cbn. rewrite !Z.eqb_refl. reflexivity.
  - destruct ((al_file e =? f) && (al_line e =? l)) eqn:B.
    + apply andb_true_iff in B as [B1 B2]. apply Z.eqb_eq in B1, B2. apply (A _ _ _ _ e); [rewrite R; reflexivity|auto..].
    + unfold addEntry. rewrite rev_app_distr. cbn. rewrite !Z.eqb_refl. reflexivity.
Qed.
Lemma line_step_trans : forall f l a b c, line_step f l a b -> line_step f l b c -> line_step f l a c.
Proof.
  intros f l a b c (P1 & Q1) (P2 & Q2). split; [lia|]. destruct Q1 as [(L1 & E1)|L1], Q2 as [(L2 & E2)|L2].
  - left. split; congruence.
  - right. rewrite L2, L1, E1. reflexivity.
  - right. rewrite L2. exact L1.
  - right. rewrite L2, L1. apply addEntry_twice.
Qed.
Lemma note_refl : forall st, note st st.
Proof.
  intro st. unfold note. repeat match goal with |- _ /\ _ => split end; try reflexivity.
  intros j m N. exists m. split; [exact N|]. split; [reflexivity|]. intros _. apply line_step_refl.
Qed.
Lemma note_trans : forall a b c, note a b -> note b c -> note a c.
Proof.
  intros a b c (A1 & A2 & A3 & A4 & A5 & A6 & A7) (B1 & B2 & B3 & B4 & B5 & B6 & B7).
  unfold note. repeat match goal with |- _ /\ _ => split end; try congruence.
  intros j m N. destruct (A7 j m N) as (m1 & N1 & E1 & S1). destruct (B7 j m1 N1) as (m2 & N2 & E2 & S2).
  exists m2. split; [exact N2|]. split; [congruence|].
  intro C. rewrite A4, A5, A2, E1 in S2. eapply line_step_trans; [apply S1, C|apply S2, C].
Qed.
Lemma notes_ok : forall st, notes st (Ok st).
Proof. intros st st' H _ F. inversion H; subst. split; [apply note_refl|exact F]. Qed.
Lemma notes_bad : forall st, notes st Err /\ notes st UB.
Proof. split; intros st' H; discriminate. Qed.
Lemma notes_bind : forall st f g, notes st f -> (forall st1, f = Ok st1 -> notes st1 (g st1)) ->
  notes st (let! st1 := f in g st1).
Proof.
  intros st f g A B st' H W F. destruct f as [st1| |]; try discriminate. cbn [bind] in H.
  destruct (A st1 eq_refl W F) as [T1 F1].
  assert (W1 : 0 < x_wordSize st1) by (rewrite (proj1 T1); exact W).
  destruct (B st1 eq_refl st' H W1 F1) as [T2 F2].
  split; [exact (note_trans _ _ _ T1 T2)|exact F2].
Qed.
Lemma notes_error : forall st n, notes st (Ok (err_Error n st)).
Proof. intros st n st' H W F. inversion H; subst. split; [exact (note_refl st)|exact F]. Qed.
Lemma notes_after_error : forall st n r, notes (err_Error n st) r -> notes st r.
Proof. intros st n r H st' E W F. exact (H st' E W F). Qed.

(** Replacing the current section. *)
Lemma notes_replace : forall st k m m' st', st' = with_sections (replace_nth k m' (x_sections st)) st ->
  nth_error (x_sections st) k = Some m -> ws_group (m_w m') = ws_group (m_w m) ->
  (x_groups st (ws_group (m_w m)) = Some GText -> m_pc m <= m_used m -> line_step (x_file st) (x_line st) m m' /\ m_pc m' <= m_used m') ->
  state_fine st' -> fine2 st -> note st st' /\ fine2 st'.
Proof.
  intros st k m m' st' -> N G L F' (F & P). split.
  - unfold note. cbn. repeat match goal with |- _ /\ _ => split end; try reflexivity; [apply length_replace|].
    intros j x J. destruct (Nat.eq_dec j k) as [->|D].
    + exists m'. rewrite (nth_replace_same _ _ _ _ _ N). split; [reflexivity|].
      rewrite N in J. inversion J; subst x. split; [exact G|]. intro T. apply L; [exact T|]. exact (P k m N T).
    + exists x. rewrite nth_replace_other by exact D. split; [exact J|]. split; [reflexivity|]. intros _. apply line_step_refl.
  - split; [exact F'|]. intros j x J T. cbn in J, T. destruct (Nat.eq_dec j k) as [->|D].
    + rewrite (nth_replace_same _ _ _ _ _ N) in J. inversion J; subst x. rewrite G in T. apply L; [exact T|]. exact (P k m N T).
    + rewrite nth_replace_other in J by exact D. exact (P j x J T).
Qed.

Lemma linemap_notes : forall st, notes st (linemap_AddCurrent st).
Proof.
  intros st st' H W F. destruct (linemap_touches st st' H W (proj1 F)) as (_ & F').
  unfold linemap_AddCurrent in H.
  destruct (the_current st) as [[k m]| |] eqn:C; try discriminate. cbn [bind] in H. injection H as H.
  apply the_current_inv in C as [C N]. eapply notes_replace; [symmetry; exact H|exact N|reflexivity| |exact F'|exact F].
  intros T P. split; [|exact P]. split; [cbn; unfold m_pc; cbn; lia|]. right. reflexivity.
Qed.
Lemma grow_notes : forall n st, notes st (growCurrentSection n st).
Proof.
  intros n st st' H W F. destruct (grow_touches n st st' H W (proj1 F)) as (_ & F').
  unfold growCurrentSection in H. destruct (x_wordSize st >? n); [discriminate|].
  destruct (the_current st) as [[k m]| |] eqn:C; try discriminate. cbn [bind] in H.
  destruct (u32 (n + m_used m) >? m_alloc m).
  - destruct (alignToNext _ _) as [a| |] eqn:A; try discriminate. cbn [bind] in H.
    destruct (a <? m_used m) eqn:L; [discriminate|]. injection H as H.
    apply the_current_inv in C as [C N]. eapply notes_replace; [symmetry; exact H|exact N|reflexivity| |exact F'|exact F].
    intros T P. split; [|exact P]. split; [unfold m_pc; cbn; lia|left; split; reflexivity].
  - inversion H; subst. split; [apply note_refl|exact F].
Qed.
Lemma check_notes : forall n st b st', checkAvailableSpace n st = Ok (b, st') -> notes st (Ok st').
Proof.
  intros n st b st' H. unfold checkAvailableSpace in H.
  destruct (n =? 0). { inversion H; subst. apply notes_ok. }
  destruct (x_wordSize st >? n); [discriminate|].
  destruct (x_current st). 2:{ inversion H; subst. apply notes_error. }
  destruct (currentSectionType st) as [t| |]; try discriminate. cbn [bind] in H.
  destruct t; [|inversion H; subst; apply notes_ok].
  destruct (growCurrentSection n st) as [st1| |] eqn:G; try discriminate. cbn [bind] in H.
  inversion H; subst. rewrite <- G. apply grow_notes.
Qed.
Lemma notes_check : forall n st (g : bool -> xstate -> res xstate),
  (forall b st1, notes st1 (g b st1)) ->
  notes st (let! (b, st1) := checkAvailableSpace n st in g b st1).
Proof.
  intros n st g G. destruct (checkAvailableSpace n st) as [[b st1]| |] eqn:K; try (intros ? ?; discriminate).
  cbn [bind]. intros st' H W F.
  destruct (check_notes _ _ _ _ K _ eq_refl W F) as [T1 F1].
  assert (W1 : 0 < x_wordSize st1) by (rewrite (proj1 T1); exact W).
  destruct (G b st1 st' H W1 F1) as [T2 F2]. split; [exact (note_trans _ _ _ T1 T2)|exact F2].
Qed.
(** The line is recorded before the bytes are stored. *)
Lemma write_notes : forall bs p st, currentSectionType st = Ok GText -> notes st (let! st2 := linemap_AddCurrent st in store bs p st2).
Proof.
  intros bs p st T0 st' H W F.
  assert (F' : state_fine st').
  { assert (K : touches st (let! st2 := linemap_AddCurrent st in store bs p st2)).
    { apply touches_bind; [apply linemap_touches|]. intros st2 L. apply store_touches. rewrite (linemap_type _ _ L). exact T0. }
    exact (proj2 (K st' H W (proj1 F))). }
  destruct (linemap_AddCurrent st) as [st2| |] eqn:L; try discriminate. cbn [bind] in H.
  unfold linemap_AddCurrent in L. destruct (the_current st) as [[k m]| |] eqn:C; try discriminate. cbn [bind] in L. injection L as L.
  apply the_current_inv in C as [C N].
  unfold store in H. destruct (the_current st2) as [[k2 m2]| |] eqn:C2; try discriminate. cbn [bind] in H.
  apply the_current_inv in C2 as [C2 N2].
  assert (k2 = k) by (rewrite <- L in C2; cbn in C2; congruence). subst k2.
  rewrite <- L in N2. cbn in N2. rewrite (nth_replace_same _ _ _ _ _ N) in N2. injection N2 as <-.
  match type of H with (if ?b then _ else _) = _ => destruct b eqn:G; [discriminate|] end. injection H as H.
  rewrite <- L in H. cbn [x_sections x_wordSize with_sections] in H. rewrite replace_twice in H.
  eapply notes_replace; [rewrite <- H; reflexivity|exact N|reflexivity| |exact F'|exact F].
  intros T P. destruct F as (F & _). destruct (F k m N) as (t & T1 & T2 & _). rewrite T in T1. injection T1 as <-.
  destruct T2 as (S1 & S2 & S3 & S4 & S5).
  unfold m_pc, m_used, m_lines in *. cbn [m_w ws_sect ws_usedSpace ws_lines set_content a_pc set_pc m_alloc] in *.
  rewrite Z.gtb_ltb in G. apply Z.ltb_ge in G. pose proof (zlen_nonneg _ bs) as NN.
  assert (D : 0 <= zlen bs / x_wordSize st <= zlen bs).
  { split; [apply Z.div_pos; lia|]. apply Z.div_le_upper_bound; nia. }
  unfold is_u32, max_size in *. rewrite !u32_id by (unfold is_u32; lia).
  split; [|lia]. split; [unfold m_pc; cbn; lia|]. right. reflexivity.
Qed.

Lemma output_notes : forall bs p f st, (forall st1, notes st1 (f st1)) -> notes st (output bs p f st).
Proof.
  intros bs p f st Hf. unfold output. destruct (x_wordSize st >? zlen bs); [apply notes_bad|].
  apply notes_check. intros b st1. destruct b; [|apply notes_ok].
  destruct (currentSectionType st1) as [t| |] eqn:T; try apply notes_bad. cbn [bind]. destruct t.
  - apply write_notes. exact T.
  - eapply notes_after_error. apply Hf.
Qed.
Lemma const8_notes : forall v st, notes st (sect_OutputConst8 v st).
Proof. intros. apply output_notes. apply notes_ok. Qed.
Lemma const16_notes : forall v st, notes st (sect_OutputConst16 v st).
Proof. intros. apply output_notes. apply notes_ok. Qed.
Lemma const32_notes : forall v st, notes st (sect_OutputConst32 v st).
Proof. intros. apply output_notes. apply notes_ok. Qed.
Lemma repeat_notes : forall n f st, (forall st1, notes st1 (f st1)) -> notes st (repeatM n f st).
Proof.
  induction n as [|n IH]; intros f st H; [apply notes_ok|]. cbn [repeatM].
  apply notes_bind; [apply H|]. intros. apply IH, H.
Qed.
Lemma skip_notes : forall n st, notes st (sect_SkipBytes n st).
Proof.
  intros n st. unfold sect_SkipBytes. destruct (n =? 0); [apply notes_ok|].
  destruct (x_wordSize st >? n); [apply notes_bad|].
  apply notes_check. intros b st1. destruct b; [|apply notes_ok].
  apply notes_bind; [apply linemap_notes|]. intros st2 _.
  destruct (currentSectionType st2) as [t| |] eqn:T; try apply notes_bad. cbn [bind]. destruct t.
  - apply notes_bind; [apply repeat_notes, const16_notes|]. intros. apply repeat_notes, const8_notes.
  - intros st' H W F. destruct (the_current st2) as [[k m]| |] eqn:C; try discriminate. cbn [bind] in H.
    injection H as H. apply the_current_inv in C as [C N].
    assert (TT : x_groups st2 (ws_group (m_w m)) = Some GBss).
    { unfold currentSectionType in T. rewrite C, N in T.
      destruct (x_groups st2 (ws_group (m_w m))); [inversion T; reflexivity|discriminate]. }
    eapply notes_replace; [symmetry; exact H|exact N|reflexivity|intro; congruence| |exact F].
    subst st'. refine (proj2 (touches_replace st2 k m _ C N _ _ W (proj1 F))).
    + split; [reflexivity|]. split; [reflexivity|]. exists [], []. rewrite !app_nil_r. split; reflexivity.
    + intros t T1 (S1 & S2 & S3 & S4) P. rewrite TT in T1. inversion T1; subst t.
      split.
      * unfold section_fine. split; [apply u32_range|]. split; [apply u32_range|]. split; [exact S3|exact S4].
      * intro W1. unfold m_pc, m_used in *. cbn. rewrite W1 in *. rewrite Z.div_1_r, P by reflexivity. reflexivity.
Qed.
Lemma align_notes : forall n st, notes st (sect_Align n st).
Proof.
  intros n st. unfold sect_Align. destruct (x_wordSize st >? n); [apply notes_bad|].
  destruct (the_current st) as [[k m]| |]; try apply notes_bad. cbn [bind].
  destruct (alignToNext _ _); try apply notes_bad. cbn [bind]. apply skip_notes.
Qed.
Lemma expr8_notes : forall e st, notes st (sect_OutputExpr8 e st).
Proof.
  intros. unfold sect_OutputExpr8. destruct (_ >? _); [apply notes_bad|].
  destruct (isNull e); [apply notes_error|]. destruct (expr_IsConstant e); [apply const8_notes|].
  apply output_notes. intro. apply skip_notes.
Qed.
Lemma expr16_notes : forall e st, notes st (sect_OutputExpr16 e st).
Proof.
  intros. unfold sect_OutputExpr16. destruct (_ >? _); [apply notes_bad|].
  destruct (isNull e); [apply notes_error|]. destruct (expr_IsConstant e); [apply const16_notes|].
  apply output_notes. intro. apply skip_notes.
Qed.
Lemma expr32_notes : forall e st, notes st (sect_OutputExpr32 e st).
Proof.
  intros. unfold sect_OutputExpr32. destruct (_ >? _); [apply notes_bad|].
  destruct (isNull e); [apply notes_error|]. destruct (expr_IsConstant e); [apply const32_notes|].
  apply output_notes. intro. apply skip_notes.
Qed.
Lemma string_notes : forall s st, notes st (outputString s st).
Proof.
  induction s as [|c s IH]; intro st; [apply notes_ok|]. cbn [outputString].
  apply notes_bind; [apply const8_notes|]. intros. apply IH.
Qed.
Lemma db_notes : forall a st, notes st (handleDb a st).
Proof.
  intros [e|s|] st; cbn [handleDb].
  - unfold range_checked. destruct (isNull e); [apply notes_bad|].
    destruct (expr_CheckRange e (-128) 255); cbn [bind]; [apply expr8_notes| |apply notes_bad].
    eapply notes_after_error. apply expr8_notes.
  - apply string_notes.
  - apply skip_notes.
Qed.
Lemma missing_notes : forall n b st, notes st (sect_SkipBytes n (missing b st)).
Proof.
  intros n b st. unfold missing. destruct b; [|apply skip_notes].
  eapply notes_after_error. apply skip_notes.
Qed.
Lemma dw_notes : forall b a st, notes st (handleDw b a st).
Proof.
  intros b [e|s|] st; cbn [handleDw]; try apply missing_notes.
  unfold range_checked. destruct (isNull e); [apply notes_bad|].
    destruct (expr_CheckRange e (-32768) 65535); cbn [bind]; [apply expr16_notes| |apply notes_bad].
    eapply notes_after_error. apply expr16_notes.
Qed.
Lemma dl_notes : forall b a st, notes st (handleDl b a st).
Proof. intros b [e|s|] st; cbn [handleDl]; try apply missing_notes. apply expr32_notes. Qed.
Lemma args_notes : forall h l st, (forall b a st1, notes st1 (h b a st1)) -> notes st (handleArgs h l st).
Proof.
  intros h l; induction l as [|a l IH]; intros st H; [apply notes_ok|]. cbn [handleArgs].
  apply notes_bind; [apply H|]. intros. apply IH, H.
Qed.
Lemma incbin_notes : forall f st, notes st (sect_OutputBinaryFile f st).
Proof.
  intros [bs|] st; cbn [sect_OutputBinaryFile]; [|apply notes_error].
  apply notes_check. intros b st1. destruct b; [|apply notes_ok].
  destruct (currentSectionType st1) as [t| |] eqn:T; try apply notes_bad. cbn [bind]. destruct t.
  - apply write_notes. exact T.
  - apply notes_error.
Qed.
Lemma org_notes : forall z st, notes st (sect_SetOriginAddress z st).
Proof.
  intros z st st' H W F. pose proof (proj2 (org_touches z st st' H W (proj1 F))) as F'.
  unfold sect_SetOriginAddress in H. destruct (x_current st). 2:{ eapply (notes_error st); eassumption. }
  destruct (the_current st) as [[k m]| |] eqn:C; try discriminate. cbn [bind] in H.
  injection H as H. apply the_current_inv in C as [C N].
  eapply notes_replace; [symmetry; exact H|exact N|reflexivity| |exact F'|exact F].
  intros T P. split; [|exact P]. split; [unfold m_pc; cbn; lia|left; split; reflexivity].
Qed.
Lemma writing_notes : forall d st, writing d = true -> notes st (step d st).
Proof.
  intros d st H. destruct d; try discriminate; cbn [step].
  - apply args_notes. intros. apply db_notes.
  - apply args_notes. intros. apply dw_notes.
  - apply args_notes. intros. apply dl_notes.
  - unfold defineSpace. destruct (n >=? 0); [apply skip_notes|apply notes_error].
  - apply align_notes.
  - unfold handleCnop. destruct (offset >=? 0); [|apply notes_error].
    destruct (align >=? 0); [|apply notes_error].
    apply notes_bind; [apply align_notes|]. intros. apply skip_notes.
  - apply incbin_notes.
  - apply org_notes.
Qed.

(** ** Any directive *)
Definition sections_kept (st st' : xstate) : Prop :=
  x_wordSize st' = x_wordSize st /\ x_groups st' = x_groups st /\
  (forall j m, nth_error (x_sections st) j = Some m -> nth_error (x_sections st') j = Some m) /\
  (forall j m, nth_error (x_sections st') j = Some m -> nth_error (x_sections st) j = Some m \/ (m_pc m = 0 /\ m_used m = 0 /\ m_lines m = [])).
Lemma kept_same : forall st st', x_sections st' = x_sections st -> x_wordSize st' = x_wordSize st -> x_groups st' = x_groups st ->
  sections_kept st st'.
Proof. intros st st' A B C. split; [exact B|]. split; [exact C|]. rewrite A. split; auto. Qed.
Lemma kept_create : forall (b : bool) n name g a i al pg st, a_pc a = 0 ->
  sections_kept st (createSection name g a i al pg (if b then err_Error n st else st)).
Proof.
  intros b n name g a i al pg st A.
  assert (K : x_sections (if b then err_Error n st else st) = x_sections st /\ x_wordSize (if b then err_Error n st else st) = x_wordSize st /\
    x_groups (if b then err_Error n st else st) = x_groups st) by (destruct b; repeat split).
  destruct K as (K1 & K2 & K3). unfold createSection, sections_kept. cbn. rewrite K1, K2, K3.
  split; [reflexivity|]. split; [reflexivity|]. split.
  - intros j m N. rewrite nth_error_app1 by (apply nth_error_Some; congruence). exact N.
  - intros j m N. destruct (Nat.lt_ge_cases j (length (x_sections st))) as [L|L].
    + rewrite nth_error_app1 in N by exact L. left. exact N.
    + rewrite nth_error_app2 in N by exact L. destruct (j - length (x_sections st))%nat as [|q]; [|destruct q; discriminate].
      inversion N; subst m. right. repeat split. exact A.
Qed.
Lemma switch_kept : forall d st st', step d st = Ok st' -> writing d = false -> sections_kept st st'.
Proof.
  intros d st st' H K. destruct d; try discriminate; cbn [step] in H.
  - unfold handleSection in H. destruct (x_groups st group) as [t|] eqn:G.
    2:{ inversion H; subst. apply kept_same; auto. }
    destruct (match (match k_load d with Some z => _ | None => None end) with Some z => _ | None => _ end)
      as [al| |]; try discriminate. cbn [bind] in H.
    match type of H with (if ?b then _ else _) = _ => destruct b end.
    + unfold sect_SwitchTo_KIND in H. cbn [k_bank k_load k_align k_page k_root] in H.
      match type of H with (if ?b then _ else _) = _ => destruct b; [discriminate|] end.
      destruct (findSection name (Some group) (x_sections st) 0) as [[k|] e].
      * destruct (nth_error (x_sections st) k) as [m|]; [|discriminate].
        match type of H with (if ?b then _ else _) = _ => destruct b end; inversion H; subst; apply kept_same; auto.
      * injection H as <-. apply kept_create; reflexivity.
    + inversion H; subst. unfold sect_SwitchTo.
      destruct (findSection name (Some group) (x_sections st) 0) as [[k|] e].
      * apply kept_same; auto.
      * apply kept_create; reflexivity.
  - inversion H; subst. unfold sect_SwitchTo_NAMEONLY.
    destruct (findSection name None (x_sections st) 0) as [[k|] e]; apply kept_same; auto.
  - inversion H; subst. apply kept_same; auto.
  - inversion H; subst. unfold handlePops, sect_Pop.
    destruct (x_stack st) as [|[c s] r]; apply kept_same; auto.
  - inversion H; subst. apply kept_same; auto.
  - inversion H; subst. apply kept_same; auto.
  - inversion H; subst. apply kept_same; auto.
Qed.

(** Entries lie at or before the program counter. *)
Definition marked (st : xstate) : Prop :=
  fine2 st /\ forall k m, nth_error (x_sections st) k = Some m -> x_groups st (ws_group (m_w m)) = Some GText ->
    Forall (fun e => al_offset e <= m_pc m) (m_lines m).
(** What happens to a section's table: entries are added at or after the counter. *)
Definition lines_after (m m' : msect) : Prop :=
  m_pc m <= m_pc m' /\ exists ls, m_lines m' = m_lines m ++ ls /\ Forall (fun e => m_pc m <= al_offset e) ls.
Lemma addEntry_form : forall f l p L, addEntry f l p L = L /\ (exists L1 o, L = L1 ++ [ALine f l o]) \/ addEntry f l p L = L ++ [ALine f l p].
Proof.
  intros f l p L. unfold addEntry. destruct (rev L) as [|e r] eqn:R.
  - right. apply (f_equal (@rev aline)) in R. rewrite rev_involutive in R. subst L. reflexivity.
  - destruct ((al_file e =? f) && (al_line e =? l)) eqn:B; [|right; reflexivity]. left. split; [reflexivity|].
    apply andb_true_iff in B as [B1 B2]. apply Z.eqb_eq in B1, B2. exists (rev r), (al_offset e).
    apply (f_equal (@rev aline)) in R. rewrite rev_involutive in R. subst L f l. destruct e. reflexivity.
Qed.
Lemma step_marks : forall d st st', step d st = Ok st' -> 0 < x_wordSize st -> marked st ->
  marked st' /\ x_wordSize st' = x_wordSize st /\ x_groups st' = x_groups st /\
  forall j m, nth_error (x_sections st) j = Some m -> exists m', nth_error (x_sections st') j = Some m' /\
    ws_group (m_w m') = ws_group (m_w m) /\
    (x_groups st (ws_group (m_w m)) = Some GText -> line_step (x_file st) (x_line st) m m').
Proof.
  intros d st st' H W (F & M). destruct (writing d) eqn:K.
  - destruct (writing_notes d st K st' H W F) as ((A1 & A2 & A3 & A4 & A5 & LL & A6) & F').
    split; [|split; [exact A1|split; [exact A2|exact A6]]].
    split; [exact F'|]. intros k m' N T.
    destruct (nth_error (x_sections st) k) as [m|] eqn:N0.
    + destruct (A6 k m N0) as (m1 & N1 & G1 & L1). rewrite N in N1. injection N1 as <-. rewrite A2, G1 in T.
      destruct (L1 T) as (P & Q). specialize (M k m N0 T).
      assert (M' : Forall (fun e => al_offset e <= m_pc m') (m_lines m)).
      { eapply Forall_impl; [|exact M]. cbn. intros. lia. }
      destruct Q as [(Q1 & Q2)|Q]; [rewrite Q1; exact M'|]. rewrite Q.
      destruct (addEntry_form (x_file st) (x_line st) (m_pc m) (m_lines m)) as [(E & _)|E]; rewrite E; [exact M'|].
      apply Forall_app. split; [exact M'|]. constructor; [exact P|constructor].
    + exfalso. apply nth_error_None in N0. assert (k < length (x_sections st'))%nat by (apply nth_error_Some; congruence). lia.
  - destruct (switch_kept d st st' H K) as (A1 & A2 & A3 & A4).
    destruct (step_safe d st st' H W (proj1 F)) as (_ & _ & F' & _).
    split; [|split; [exact A1|split; [exact A2|]]].
    + split; [split; [exact F'|]|]; intros k m N T; rewrite A2 in T; destruct (A4 k m N) as [O|(O1 & O2 & O3)].
      * exact (proj2 F k m O T).
      * lia.
      * exact (M k m O T).
      * rewrite O3. constructor.
    + intros j m N. exists m. split; [apply A3, N|]. split; [reflexivity|]. intros _. apply line_step_refl.
Qed.

Lemma step_lines_after : forall f l m m', line_step f l m m' -> lines_after m m'.
Proof.
  intros f l m m' (P & Q). split; [exact P|]. destruct Q as [(Q & _)|Q].
  - exists []. rewrite app_nil_r. auto.
  - destruct (addEntry_form f l (m_pc m) (m_lines m)) as [(E & _)|E]; rewrite E in Q.
    + exists []. rewrite app_nil_r. auto.
    + exists [ALine f l (m_pc m)]. split; [exact Q|]. constructor; [cbn; lia|constructor].
Qed.
Lemma lines_after_trans : forall a b c, lines_after a b -> lines_after b c -> lines_after a c.
Proof.
  intros a b c (P1 & l1 & E1 & F1) (P2 & l2 & E2 & F2). split; [lia|]. exists (l1 ++ l2).
  split; [rewrite E2, E1, app_assoc; reflexivity|]. apply Forall_app. split; [exact F1|].
  eapply Forall_impl; [|exact F2]. cbn. intros. lia.
Qed.
Lemma run_marks : forall ds st st', run ds st = Ok st' -> 0 < x_wordSize st -> marked st ->
  marked st' /\ x_wordSize st' = x_wordSize st /\ x_groups st' = x_groups st /\
  forall j m, nth_error (x_sections st) j = Some m -> exists m', nth_error (x_sections st') j = Some m' /\
    ws_group (m_w m') = ws_group (m_w m) /\ (x_groups st (ws_group (m_w m)) = Some GText -> lines_after m m').
Proof.
  induction ds as [|d ds IH]; intros st st' H W M.
  - inversion H; subst. repeat (split; [assumption || reflexivity|]). intros j m N. exists m. split; [exact N|]. split; [reflexivity|].
    intros _. split; [lia|]. exists []. rewrite app_nil_r. auto.
  - cbn [run] in H. destruct (step d st) as [st1| |] eqn:K; try discriminate. cbn [bind] in H.
    destruct (step_marks d st st1 K W M) as (M1 & W1 & G1 & L1).
    destruct (IH st1 st' H ltac:(lia) M1) as (M2 & W2 & G2 & L2).
    split; [exact M2|]. split; [congruence|]. split; [congruence|]. intros j m N.
    destruct (L1 j m N) as (m1 & N1 & E1 & S1). destruct (L2 j m1 N1) as (m2 & N2 & E2 & S2).
    exists m2. split; [exact N2|]. split; [congruence|]. intro T. eapply lines_after_trans.
    + eapply step_lines_after. apply S1, T.
    + apply S2. rewrite G1, E1. exact T.
Qed.
Lemma initial_marked : forall w banks groups o, marked (initial w banks groups o).
Proof. intros. split; [split|]; intros k m N; destruct k; discriminate. Qed.
