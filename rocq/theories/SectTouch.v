(** Proofs about what any directive may do to the sections. *)
From Coq Require Import ZArith List Bool Lia Permutation.
From Verif Require Import Base BaseFacts Arith ExprModel ObjWriteModel OptModel SectModel SectSpec SectProofs.
Import ListNotations.
Open Scope Z_scope.

Definition touch (st st' : xstate) : Prop :=
  x_wordSize st' = x_wordSize st /\ x_groups st' = x_groups st /\ x_opts st' = x_opts st /\
  x_current st' = x_current st /\ x_scope st' = x_scope st /\ x_stack st' = x_stack st /\
  (forall j m, nth_error (x_sections st) j = Some m ->
     exists m', nth_error (x_sections st') j = Some m' /\ extended m m' /\ (x_current st <> Some j -> m' = m)).
Definition touches (st : xstate) (r : res xstate) : Prop :=
  forall st', r = Ok st' -> 0 < x_wordSize st -> state_fine st -> touch st st' /\ state_fine st'.

Lemma extended_refl : forall m, extended m m.
Proof. intro m. split; [reflexivity|]. split; [reflexivity|]. exists [], []. rewrite !app_nil_r. split; reflexivity. Qed.
Lemma extended_trans : forall a b c, extended a b -> extended b c -> extended a c.
Proof.
  intros a b c (N1 & G1 & b1 & p1 & D1 & P1) (N2 & G2 & b2 & p2 & D2 & P2).
  split; [congruence|]. split; [congruence|]. exists (b1 ++ b2), (p1 ++ p2). split.
  - rewrite D2, D1, app_assoc. reflexivity.
  - rewrite P2, P1, app_assoc. reflexivity.
Qed.
Lemma touch_refl : forall st, touch st st.
Proof.
  intro st. unfold touch. repeat match goal with |- _ /\ _ => split end; try reflexivity.
  intros j m N. exists m. split; [exact N|]. split; [apply extended_refl|auto].
Qed.
Lemma touch_trans : forall a b c, touch a b -> touch b c -> touch a c.
Proof.
  intros a b c (A1 & A2 & A3 & A4 & A5 & A6 & A7) (B1 & B2 & B3 & B4 & B5 & B6 & B7).
  unfold touch. repeat match goal with |- _ /\ _ => split end; try congruence.
  intros j m N. destruct (A7 j m N) as (m1 & N1 & E1 & S1). destruct (B7 j m1 N1) as (m2 & N2 & E2 & S2).
  exists m2. split; [exact N2|]. split; [eapply extended_trans; eassumption|].
  intro C. rewrite S2 by congruence. apply S1, C.
Qed.
Lemma touches_ok : forall st, touches st (Ok st).
Proof. intros st st' H _ F. inversion H; subst. split; [apply touch_refl|exact F]. Qed.
Lemma touches_bad : forall st, touches st Err /\ touches st UB.
Proof. split; intros st' H; discriminate. Qed.
Lemma touches_bind : forall st f g, touches st f -> (forall st1, f = Ok st1 -> touches st1 (g st1)) ->
  touches st (let! st1 := f in g st1).
Proof.
  intros st f g A B st' H W F. destruct f as [st1| |]; try discriminate. cbn [bind] in H.
  destruct (A st1 eq_refl W F) as [T1 F1].
  assert (W1 : 0 < x_wordSize st1) by (rewrite (proj1 T1); exact W).
  destruct (B st1 eq_refl st' H W1 F1) as [T2 F2].
  split; [exact (touch_trans _ _ _ T1 T2)|exact F2].
Qed.
Lemma touches_error : forall st n, touches st (Ok (err_Error n st)).
Proof.
  intros st n st' H _ F. inversion H; subst. split; [|exact F].
  unfold touch. cbn. repeat match goal with |- _ /\ _ => split end; try reflexivity.
  intros j m N. exists m. split; [exact N|]. split; [apply extended_refl|auto].
Qed.
(** The state after an error has the same sections, so later operations touch the
    state before it. *)
Lemma touches_after_error : forall st n r, touches (err_Error n st) r -> touches st r.
Proof.
  intros st n r H st' E W F. destruct (touches_error st n _ eq_refl W F) as [T1 F1].
  destruct (H st' E W F1) as [T2 F2]. split; [exact (touch_trans _ _ _ T1 T2)|exact F2].
Qed.

(** Replacing the current section. *)
Lemma touches_replace : forall st k m m', x_current st = Some k -> nth_error (x_sections st) k = Some m ->
  extended m m' ->
  (forall t, x_groups st (ws_group (m_w m)) = Some t -> section_fine t m -> (x_wordSize st = 1 -> m_pc m = m_used m) ->
     section_fine t m' /\ (x_wordSize st = 1 -> m_pc m' = m_used m')) ->
  0 < x_wordSize st -> state_fine st ->
  touch st (with_sections (replace_nth k m' (x_sections st)) st) /\
  state_fine (with_sections (replace_nth k m' (x_sections st)) st).
Proof.
  intros st k m m' C N E I W F. split.
  - unfold touch. cbn. repeat match goal with |- _ /\ _ => split end; try reflexivity.
    intros j x J. destruct (Nat.eq_dec j k) as [->|D].
    + exists m'. rewrite (nth_replace_same _ _ _ _ _ N). split; [reflexivity|].
      rewrite N in J. inversion J; subst x. split; [exact E|]. congruence.
    + exists x. rewrite nth_replace_other by exact D. split; [exact J|]. split; [apply extended_refl|auto].
  - intros j x J. cbn in J. destruct (Nat.eq_dec j k) as [->|D].
    + rewrite (nth_replace_same _ _ _ _ _ N) in J. inversion J; subst x. cbn.
      destruct (F k m N) as (t & T1 & T2 & T3). exists t.
      destruct E as (_ & EG & _). rewrite EG. split; [exact T1|]. apply I; assumption.
    + rewrite nth_replace_other in J by exact D. exact (F j x J).
Qed.

Lemma the_current_inv : forall st k m, the_current st = Ok (k, m) ->
  x_current st = Some k /\ nth_error (x_sections st) k = Some m.
Proof.
  intros st k m H. unfold the_current in H. destruct (x_current st) as [j|]; [|discriminate].
  destruct (nth_error (x_sections st) j) as [x|] eqn:N; [|discriminate]. inversion H; subst. auto.
Qed.

Lemma linemap_touches : forall st, touches st (linemap_AddCurrent st).
Proof.
  intros st st' H W F. unfold linemap_AddCurrent in H.
  destruct (the_current st) as [[k m]| |] eqn:C; try discriminate. cbn [bind] in H. inversion H; subst.
  apply the_current_inv in C as [C N]. eapply touches_replace; try eassumption.
  - split; [reflexivity|]. split; [reflexivity|]. exists [], []. rewrite !app_nil_r. split; reflexivity.
  - intros t T S P. split; [exact S|exact P].
Qed.

Lemma align_value : forall t a r, alignToNext t a = Ok r -> a = SECTION_GROWTH_AMOUNT -> is_u32 t -> 0 <= r <= max_size.
Proof.
  intros t a r H E T. subst a. destruct (align_grow t T) as (b & B1 & B2 & _). congruence.
Qed.

Lemma grow_touches : forall n st, touches st (growCurrentSection n st).
Proof.
  intros n st st' H W F. unfold growCurrentSection in H. destruct (x_wordSize st >? n); [discriminate|].
  destruct (the_current st) as [[k m]| |] eqn:C; try discriminate. cbn [bind] in H.
  destruct (u32 (n + m_used m) >? m_alloc m).
  - destruct (alignToNext _ _) as [a| |] eqn:A; try discriminate. cbn [bind] in H.
    destruct (a <? m_used m) eqn:L; [discriminate|]. inversion H; subst.
    apply the_current_inv in C as [C N]. eapply touches_replace; try eassumption.
    + split; [reflexivity|]. split; [reflexivity|]. exists [], []. rewrite !app_nil_r. split; reflexivity.
    + intros t T (S1 & S2 & S3 & S4) P. split; [|exact P].
      pose proof (align_value _ _ _ A eq_refl (u32_range _)) as B.
      split; [exact S1|]. split; [exact S2|]. split; [exact B|].
      destruct t; [|exact S4]. destruct S4 as [S4 S5]. split; [exact S4|].
      apply Z.ltb_ge in L. exact L.
  - inversion H; subst. split; [apply touch_refl|exact F].
Qed.

Lemma check_touches : forall n st b st', checkAvailableSpace n st = Ok (b, st') -> touches st (Ok st').
Proof.
  intros n st b st' H. unfold checkAvailableSpace in H.
  destruct (n =? 0). { inversion H; subst. apply touches_ok. }
  destruct (x_wordSize st >? n); [discriminate|].
  destruct (x_current st). 2:{ inversion H; subst. apply touches_error. }
  destruct (currentSectionType st) as [t| |]; try discriminate. cbn [bind] in H.
  destruct t; [|inversion H; subst; apply touches_ok].
  destruct (growCurrentSection n st) as [st1| |] eqn:G; try discriminate. cbn [bind] in H.
  inversion H; subst. rewrite <- G. apply grow_touches.
Qed.
Lemma touches_check : forall n st (g : bool -> xstate -> res xstate),
  (forall b st1, touches st1 (g b st1)) ->
  touches st (let! (b, st1) := checkAvailableSpace n st in g b st1).
Proof.
  intros n st g G. destruct (checkAvailableSpace n st) as [[b st1]| |] eqn:K; try (intros ? ?; discriminate).
  cbn [bind]. intros st' H W F.
  destruct (check_touches _ _ _ _ K _ eq_refl W F) as [T1 F1].
  assert (W1 : 0 < x_wordSize st1) by (rewrite (proj1 T1); exact W).
  destruct (G b st1 st' H W1 F1) as [T2 F2]. split; [exact (touch_trans _ _ _ T1 T2)|exact F2].
Qed.

Lemma u32_add : forall a b, u32 (u32 a + b) = u32 (a + b).
Proof. intros. unfold u32. apply Zplus_mod_idemp_l. Qed.

Lemma store_touches : forall bs p st, currentSectionType st = Ok GText -> touches st (store bs p st).
Proof.
  intros bs p st T0 st' H W F. unfold store in H.
  destruct (the_current st) as [[k m]| |] eqn:C; try discriminate. cbn [bind] in H.
  destruct (m_used m + zlen bs >? m_alloc m) eqn:L; [discriminate|]. inversion H; subst.
  apply the_current_inv in C as [C N].
  assert (TT : x_groups st (ws_group (m_w m)) = Some GText).
  { unfold currentSectionType in T0. rewrite C, N in T0.
    destruct (x_groups st (ws_group (m_w m))); [inversion T0; reflexivity|discriminate]. }
  eapply touches_replace; try eassumption.
  - split; [reflexivity|]. split; [reflexivity|]. exists bs, (match p with None => [] | Some (t, e) => [APatch (m_used m) t e] end).
    split; [reflexivity|]. cbn. destruct p as [[t e]|]; [|rewrite app_nil_r; reflexivity].
    unfold add_patch. change (ws_patches (m_w m)) with (m_patches m).
    destruct (m_patches m) as [|h r]; [reflexivity|]. cbn [app]. apply perm_skip, Permutation_cons_append.
  - intros t T (S1 & S2 & S3 & S4) P. rewrite TT in T. inversion T; subst t. destruct S4 as [S4 S5].
    pose proof (zlen_nonneg _ bs) as NN. unfold is_u32, max_size in *.
    assert (U : u32 (m_used m + zlen bs) = m_used m + zlen bs) by (apply u32_id; unfold is_u32; lia).
    split.
    + unfold section_fine. split; [apply u32_range|]. split; [apply u32_range|].
      split; [cbn; unfold max_size; lia|].
      unfold m_used, m_data in *. cbn [m_w ws_usedSpace ws_data set_content m_alloc].
      rewrite U, zlen_app. lia.
    + intro W1. unfold m_pc, m_used in *. cbn. rewrite W1 in *. rewrite Z.div_1_r, P by reflexivity. reflexivity.
Qed.

Lemma linemap_type : forall st st', linemap_AddCurrent st = Ok st' -> currentSectionType st' = currentSectionType st.
Proof.
  intros st st' H. unfold linemap_AddCurrent in H.
  destruct (the_current st) as [[k m]| |] eqn:C; try discriminate. cbn [bind] in H. inversion H; subst.
  apply the_current_inv in C as [C N]. unfold currentSectionType. cbn. rewrite C, N.
  rewrite (nth_replace_same _ _ _ _ _ N). reflexivity.
Qed.

Lemma output_touches : forall bs p f st, (forall st1, touches st1 (f st1)) -> touches st (output bs p f st).
Proof.
  intros bs p f st Hf. unfold output. destruct (x_wordSize st >? zlen bs); [apply touches_bad|].
  apply touches_check. intros b st1. destruct b; [|apply touches_ok].
  destruct (currentSectionType st1) as [t| |] eqn:T; try apply touches_bad. cbn [bind]. destruct t.
  - apply touches_bind; [apply linemap_touches|]. intros st2 L. apply store_touches.
    rewrite (linemap_type _ _ L). exact T.
  - eapply touches_after_error. apply Hf.
Qed.
Lemma const8_touches : forall v st, touches st (sect_OutputConst8 v st).
Proof. intros. apply output_touches. apply touches_ok. Qed.
Lemma const16_touches : forall v st, touches st (sect_OutputConst16 v st).
Proof. intros. apply output_touches. apply touches_ok. Qed.
Lemma const32_touches : forall v st, touches st (sect_OutputConst32 v st).
Proof. intros. apply output_touches. apply touches_ok. Qed.
Lemma repeat_touches : forall n f st, (forall st1, touches st1 (f st1)) -> touches st (repeatM n f st).
Proof.
  induction n as [|n IH]; intros f st H; [apply touches_ok|]. cbn [repeatM].
  apply touches_bind; [apply H|]. intros. apply IH, H.
Qed.
Lemma skip_touches : forall n st, touches st (sect_SkipBytes n st).
Proof.
  intros n st. unfold sect_SkipBytes. destruct (n =? 0); [apply touches_ok|].
  destruct (x_wordSize st >? n); [apply touches_bad|].
  apply touches_check. intros b st1. destruct b; [|apply touches_ok].
  apply touches_bind; [apply linemap_touches|]. intros st2 _.
  destruct (currentSectionType st2) as [t| |] eqn:T; try apply touches_bad. cbn [bind]. destruct t.
  - apply touches_bind; [apply repeat_touches, const16_touches|]. intros. apply repeat_touches, const8_touches.
  - intros st' H W F. destruct (the_current st2) as [[k m]| |] eqn:C; try discriminate. cbn [bind] in H.
    inversion H; subst. apply the_current_inv in C as [C N].
    assert (TT : x_groups st2 (ws_group (m_w m)) = Some GBss).
    { unfold currentSectionType in T. rewrite C, N in T.
      destruct (x_groups st2 (ws_group (m_w m))); [inversion T; reflexivity|discriminate]. }
    eapply touches_replace; try eassumption.
    + split; [reflexivity|]. split; [reflexivity|]. exists [], []. rewrite !app_nil_r. split; reflexivity.
    + intros t T1 (S1 & S2 & S3 & S4) P. rewrite TT in T1. inversion T1; subst t.
      split.
      * unfold section_fine. split; [apply u32_range|]. split; [apply u32_range|]. split; [exact S3|exact S4].
      * intro W1. unfold m_pc, m_used in *. cbn. rewrite W1 in *. rewrite Z.div_1_r, P by reflexivity. reflexivity.
Qed.
Lemma align_touches : forall n st, touches st (sect_Align n st).
Proof.
  intros n st. unfold sect_Align. destruct (x_wordSize st >? n); [apply touches_bad|].
  destruct (the_current st) as [[k m]| |]; try apply touches_bad. cbn [bind].
  destruct (alignToNext _ _); try apply touches_bad. cbn [bind]. apply skip_touches.
Qed.
Lemma expr8_touches : forall e st, touches st (sect_OutputExpr8 e st).
Proof.
  intros. unfold sect_OutputExpr8. destruct (_ >? _); [apply touches_bad|].
  destruct (isNull e); [apply touches_error|]. destruct (expr_IsConstant e); [apply const8_touches|].
  apply output_touches. intro. apply skip_touches.
Qed.
Lemma expr16_touches : forall e st, touches st (sect_OutputExpr16 e st).
Proof.
  intros. unfold sect_OutputExpr16. destruct (_ >? _); [apply touches_bad|].
  destruct (isNull e); [apply touches_error|]. destruct (expr_IsConstant e); [apply const16_touches|].
  apply output_touches. intro. apply skip_touches.
Qed.
Lemma expr32_touches : forall e st, touches st (sect_OutputExpr32 e st).
Proof.
  intros. unfold sect_OutputExpr32. destruct (_ >? _); [apply touches_bad|].
  destruct (isNull e); [apply touches_error|]. destruct (expr_IsConstant e); [apply const32_touches|].
  apply output_touches. intro. apply skip_touches.
Qed.
Lemma string_touches : forall s st, touches st (outputString s st).
Proof.
  induction s as [|c s IH]; intro st; [apply touches_ok|]. cbn [outputString].
  apply touches_bind; [apply const8_touches|]. intros. apply IH.
Qed.
Lemma db_touches : forall a st, touches st (handleDb a st).
Proof.
  intros [e|s|] st; cbn [handleDb].
  - unfold range_checked. destruct (isNull e); [apply touches_bad|].
    destruct (expr_CheckRange e (-128) 255); cbn [bind]; [apply expr8_touches| |apply touches_bad].
    eapply touches_after_error. apply expr8_touches.
  - apply string_touches.
  - apply skip_touches.
Qed.
Lemma missing_touches : forall n b st, touches st (sect_SkipBytes n (missing b st)).
Proof.
  intros n b st. unfold missing. destruct b; [|apply skip_touches].
  eapply touches_after_error. apply skip_touches.
Qed.
Lemma dw_touches : forall b a st, touches st (handleDw b a st).
Proof.
  intros b [e|s|] st; cbn [handleDw]; try apply missing_touches.
  unfold range_checked. destruct (isNull e); [apply touches_bad|].
    destruct (expr_CheckRange e (-32768) 65535); cbn [bind]; [apply expr16_touches| |apply touches_bad].
    eapply touches_after_error. apply expr16_touches.
Qed.
Lemma dl_touches : forall b a st, touches st (handleDl b a st).
Proof. intros b [e|s|] st; cbn [handleDl]; try apply missing_touches. apply expr32_touches. Qed.
Lemma args_touches : forall h l st, (forall b a st1, touches st1 (h b a st1)) -> touches st (handleArgs h l st).
Proof.
  intros h l; induction l as [|a l IH]; intros st H; [apply touches_ok|]. cbn [handleArgs].
  apply touches_bind; [apply H|]. intros. apply IH, H.
Qed.
Lemma incbin_touches : forall f st, touches st (sect_OutputBinaryFile f st).
Proof.
  intros [bs|] st; cbn [sect_OutputBinaryFile]; [|apply touches_error].
  apply touches_check. intros b st1. destruct b; [|apply touches_ok].
  destruct (currentSectionType st1) as [t| |] eqn:T; try apply touches_bad. cbn [bind]. destruct t.
  - apply touches_bind; [apply linemap_touches|]. intros st2 L. apply store_touches.
    rewrite (linemap_type _ _ L). exact T.
  - apply touches_error.
Qed.
Lemma org_touches : forall z st, touches st (sect_SetOriginAddress z st).
Proof.
  intros z st. unfold sect_SetOriginAddress. destruct (x_current st); [|apply touches_error].
  intros st' H W F. destruct (the_current st) as [[k m]| |] eqn:C; try discriminate. cbn [bind] in H.
  inversion H; subst. apply the_current_inv in C as [C N]. eapply touches_replace; try eassumption.
  - split; [reflexivity|]. split; [reflexivity|]. exists [], []. rewrite !app_nil_r. split; reflexivity.
  - intros t T S P. split; [exact S|exact P].
Qed.

(** Directives that write to the current section. *)
Definition writing (d : directive) : bool :=
  match d with
  | DDb _ | DDw _ | DDl _ | DSpace _ _ | DEven | DCnop _ _ | DIncbin _ | DOrg _ => true
  | _ => false
  end.
Lemma writing_touches : forall d st, writing d = true -> touches st (step d st).
Proof.
  intros d st H. destruct d; try discriminate; cbn [step].
  - apply args_touches. intros. apply db_touches.
  - apply args_touches. intros. apply dw_touches.
  - apply args_touches. intros. apply dl_touches.
  - unfold defineSpace. destruct (n >=? 0); [apply skip_touches|apply touches_error].
  - apply align_touches.
  - unfold handleCnop. destruct (offset >=? 0); [|apply touches_error].
    destruct (align >=? 0); [|apply touches_error].
    apply touches_bind; [apply align_touches|]. intros. apply skip_touches.
  - apply incbin_touches.
  - apply org_touches.
Qed.
