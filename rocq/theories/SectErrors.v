(** Proofs that errors reported stay reported. *)
From Coq Require Import ZArith List Bool Lia.
From Verif Require Import Base BaseFacts Arith ExprModel ObjWriteModel OptModel SectModel SectSpec SectProofs.
Import ListNotations.
Open Scope Z_scope.

Definition more (st st' : xstate) : Prop := exists l, x_errors st' = x_errors st ++ l.
Definition errs_kept (st : xstate) (r : res xstate) : Prop := forall st', r = Ok st' -> more st st'.

Lemma more_refl : forall st, more st st.
Proof. intro st. exists []. symmetry. apply app_nil_r. Qed.
Lemma more_trans : forall a b c, more a b -> more b c -> more a c.
Proof. intros a b c [l L] [k K]. exists (l ++ k). rewrite K, L, app_assoc. reflexivity. Qed.
Lemma more_same : forall st st', x_errors st' = x_errors st -> more st st'.
Proof. intros st st' E. exists []. rewrite app_nil_r. exact E. Qed.
Lemma more_error : forall st n, more st (err_Error n st).
Proof. intros. exists [n]. reflexivity. Qed.
Lemma keeps_ok : forall st st', more st st' -> errs_kept st (Ok st').
Proof. intros st st' M x H. inversion H; subst. exact M. Qed.
Lemma keeps_bad : forall st, errs_kept st Err /\ errs_kept st UB.
Proof. split; intros x H; discriminate. Qed.
Lemma keeps_bind : forall st f g, errs_kept st f -> (forall st1, f = Ok st1 -> errs_kept st1 (g st1)) ->
  errs_kept st (let! st1 := f in g st1).
Proof.
  intros st f g A B st' H. destruct f as [st1| |]; try discriminate. cbn [bind] in H.
  exact (more_trans _ _ _ (A st1 eq_refl) (B st1 eq_refl st' H)).
Qed.
Lemma keeps_after : forall st st1 r, more st st1 -> errs_kept st1 r -> errs_kept st r.
Proof. intros st st1 r M K st' H. exact (more_trans _ _ _ M (K _ H)). Qed.

Lemma linemap_keeps : forall st, errs_kept st (linemap_AddCurrent st).
Proof.
  intro st. unfold linemap_AddCurrent. destruct (the_current st) as [[k m]| |]; cbn [bind]; try apply keeps_bad.
  apply keeps_ok, more_same. reflexivity.
Qed.
Lemma grow_keeps : forall n st, errs_kept st (growCurrentSection n st).
Proof.
  intros n st. unfold growCurrentSection. destruct (_ >? _); [apply keeps_bad|].
  destruct (the_current st) as [[k m]| |]; cbn [bind]; try apply keeps_bad.
  destruct (_ >? _); [|apply keeps_ok, more_refl].
  destruct (alignToNext _ _); cbn [bind]; try apply keeps_bad. destruct (_ <? _); [apply keeps_bad|].
  apply keeps_ok, more_same. reflexivity.
Qed.
Lemma check_keeps : forall n st b st', checkAvailableSpace n st = Ok (b, st') -> more st st'.
Proof.
  intros n st b st' H. unfold checkAvailableSpace in H. destruct (n =? 0).
  { inversion H; subst. apply more_refl. }
  destruct (_ >? _); [discriminate|]. destruct (x_current st).
  - destruct (currentSectionType st) as [[]| |]; cbn [bind] in H; try discriminate.
    + destruct (growCurrentSection n st) as [s| |] eqn:E; cbn [bind] in H; try discriminate.
      inversion H; subst. exact (grow_keeps _ _ _ E).
    + inversion H; subst. apply more_refl.
  - inversion H; subst. apply more_error.
Qed.
Lemma store_keeps : forall bs p st, errs_kept st (store bs p st).
Proof.
  intros bs p st. unfold store. destruct (the_current st) as [[k m]| |]; cbn [bind]; try apply keeps_bad.
  destruct (_ >? _); [apply keeps_bad|]. apply keeps_ok, more_same. reflexivity.
Qed.
Lemma output_keeps : forall bs p f st, (forall st1, errs_kept st1 (f st1)) -> errs_kept st (output bs p f st).
Proof.
  intros bs p f st F. unfold output. destruct (_ >? _); [apply keeps_bad|].
  destruct (checkAvailableSpace (zlen bs) st) as [[b st1]| |] eqn:E; cbn [bind]; try apply keeps_bad.
  apply check_keeps in E. destruct b; [|apply keeps_ok, E]. apply (keeps_after _ _ _ E).
  destruct (currentSectionType st1) as [[]| |]; cbn [bind]; try apply keeps_bad.
  - apply keeps_bind; [apply linemap_keeps|]. intros. apply store_keeps.
  - eapply keeps_after; [apply more_error|]; apply F.
Qed.
Lemma keeps_self : forall st, errs_kept st (Ok st).
Proof. intro. apply keeps_ok, more_refl. Qed.
Lemma const8_keeps : forall v st, errs_kept st (sect_OutputConst8 v st).
Proof. intros. apply output_keeps. apply keeps_self. Qed.
Lemma const16_keeps : forall v st, errs_kept st (sect_OutputConst16 v st).
Proof. intros. apply output_keeps. apply keeps_self. Qed.
Lemma const32_keeps : forall v st, errs_kept st (sect_OutputConst32 v st).
Proof. intros. apply output_keeps. apply keeps_self. Qed.
Lemma repeat_keeps : forall n f st, (forall st1, errs_kept st1 (f st1)) -> errs_kept st (repeatM n f st).
Proof.
  induction n as [|n IH]; intros f st F; [apply keeps_self|]. cbn [repeatM].
  apply keeps_bind; [apply F|]. intros. apply IH, F.
Qed.
Lemma skip_keeps : forall n st, errs_kept st (sect_SkipBytes n st).
Proof.
  intros n st. unfold sect_SkipBytes. destruct (n =? 0); [apply keeps_self|].
  destruct (_ >? _); [apply keeps_bad|].
  destruct (checkAvailableSpace n st) as [[b st1]| |] eqn:E; cbn [bind]; try apply keeps_bad.
  apply check_keeps in E. destruct b; [|apply keeps_ok, E]. apply (keeps_after _ _ _ E).
  apply keeps_bind; [apply linemap_keeps|]. intros st2 _.
  destruct (currentSectionType st2) as [[]| |]; cbn [bind]; try apply keeps_bad.
  - apply keeps_bind; [apply repeat_keeps; intro; apply const16_keeps|].
    intros. apply repeat_keeps. intro. apply const8_keeps.
  - destruct (the_current st2) as [[k m]| |]; cbn [bind]; try apply keeps_bad.
    apply keeps_ok, more_same. reflexivity.
Qed.
Lemma align_keeps : forall n st, errs_kept st (sect_Align n st).
Proof.
  intros n st. unfold sect_Align. destruct (_ >? _); [apply keeps_bad|].
  destruct (the_current st) as [[k m]| |]; cbn [bind]; try apply keeps_bad.
  destruct (alignToNext _ _); cbn [bind]; try apply keeps_bad. apply skip_keeps.
Qed.
Lemma expr8_keeps : forall e st, errs_kept st (sect_OutputExpr8 e st).
Proof.
  intros. unfold sect_OutputExpr8. destruct (_ >? _); [apply keeps_bad|].
  destruct (isNull e); [eapply keeps_ok; apply more_error|]. destruct (expr_IsConstant e); [apply const8_keeps|].
  apply output_keeps. intro. apply skip_keeps.
Qed.
Lemma expr16_keeps : forall e st, errs_kept st (sect_OutputExpr16 e st).
Proof.
  intros. unfold sect_OutputExpr16. destruct (_ >? _); [apply keeps_bad|].
  destruct (isNull e); [eapply keeps_ok; apply more_error|]. destruct (expr_IsConstant e); [apply const16_keeps|].
  apply output_keeps. intro. apply skip_keeps.
Qed.
Lemma expr32_keeps : forall e st, errs_kept st (sect_OutputExpr32 e st).
Proof.
  intros. unfold sect_OutputExpr32. destruct (_ >? _); [apply keeps_bad|].
  destruct (isNull e); [eapply keeps_ok; apply more_error|]. destruct (expr_IsConstant e); [apply const32_keeps|].
  apply output_keeps. intro. apply skip_keeps.
Qed.
Lemma string_keeps : forall s st, errs_kept st (outputString s st).
Proof.
  induction s as [|c s IH]; intro st; [apply keeps_self|]. cbn [outputString].
  apply keeps_bind; [apply const8_keeps|]. intros. apply IH.
Qed.
Lemma checked_keeps : forall e lo hi st e1 st1, range_checked e lo hi st = Ok (e1, st1) -> more st st1.
Proof.
  intros e lo hi st e1 st1 H. unfold range_checked in H. destruct (isNull e); [discriminate|].
  destruct (expr_CheckRange e lo hi); inversion H; subst; [apply more_refl|apply more_error].
Qed.
Lemma db_keeps : forall a st, errs_kept st (handleDb a st).
Proof.
  intros [e|s|] st; cbn [handleDb].
  - destruct (range_checked e (-128) 255 st) as [[e1 st1]| |] eqn:E; cbn [bind]; try apply keeps_bad.
    apply (keeps_after _ _ _ (checked_keeps _ _ _ _ _ _ E)), expr8_keeps.
  - apply string_keeps.
  - apply skip_keeps.
Qed.
Lemma missing_keeps : forall n b st, errs_kept st (sect_SkipBytes n (missing b st)).
Proof.
  intros n [] st; cbn [missing]; [|apply skip_keeps].
  eapply keeps_after; [apply more_error|]; apply skip_keeps.
Qed.
Lemma dw_keeps : forall b a st, errs_kept st (handleDw b a st).
Proof.
  intros b [e|s|] st; cbn [handleDw]; try apply missing_keeps.
  destruct (range_checked e (-32768) 65535 st) as [[e1 st1]| |] eqn:E; cbn [bind]; try apply keeps_bad.
  apply (keeps_after _ _ _ (checked_keeps _ _ _ _ _ _ E)), expr16_keeps.
Qed.
Lemma dl_keeps : forall b a st, errs_kept st (handleDl b a st).
Proof. intros b [e|s|] st; cbn [handleDl]; try apply missing_keeps. apply expr32_keeps. Qed.
Lemma args_keeps : forall h l st, (forall b a st1, errs_kept st1 (h b a st1)) -> errs_kept st (handleArgs h l st).
Proof.
  intros h l; induction l as [|a l IH]; intros st H; [apply keeps_self|]. cbn [handleArgs].
  apply keeps_bind; [apply H|]. intros. apply IH, H.
Qed.
Lemma incbin_keeps : forall f st, errs_kept st (sect_OutputBinaryFile f st).
Proof.
  intros [bs|] st; cbn [sect_OutputBinaryFile]; [|eapply keeps_ok; apply more_error].
  destruct (checkAvailableSpace _ st) as [[b st1]| |] eqn:E; cbn [bind]; try apply keeps_bad.
  apply check_keeps in E. destruct b; [|apply keeps_ok, E]. apply (keeps_after _ _ _ E).
  destruct (currentSectionType st1) as [[]| |]; cbn [bind]; try apply keeps_bad.
  - apply keeps_bind; [apply linemap_keeps|]. intros. apply store_keeps.
  - eapply keeps_ok; apply more_error.
Qed.
Lemma section_keeps : forall name g d st, errs_kept st (handleSection name g d st).
Proof.
  intros name g d st.
  assert (S1 : forall b, more st (if b : bool then err_Error ERROR_SECT_EXISTS st else st))
    by (intros []; [apply more_error|apply more_refl]).
  unfold handleSection. destruct (x_groups st g); [|eapply keeps_ok; apply more_error].
  match goal with |- errs_kept _ (let! a := ?x in _) => destruct x as [al| |] end; cbn [bind]; try apply keeps_bad.
  match goal with |- errs_kept _ (if ?c then _ else _) => destruct c end.
  - unfold sect_SwitchTo_KIND. destruct (_ && _); [apply keeps_bad|].
    destruct (findSection name (Some g) (x_sections st) 0) as [[k|] b].
    + destruct (nth_error _ _); [|apply keeps_bad]. destruct (same_kind _ _).
      * apply keeps_ok, more_same. reflexivity.
      * eapply keeps_ok. apply more_error.
    + apply keeps_ok. eapply more_trans; [apply (S1 b)|]. apply more_same. reflexivity.
  - apply keeps_ok. unfold sect_SwitchTo. destruct (findSection name (Some g) (x_sections st) 0) as [[k|] b].
    + apply more_same. reflexivity.
    + eapply more_trans; [apply (S1 b)|]. apply more_same. reflexivity.
Qed.
Lemma step_keeps : forall d st, errs_kept st (step d st).
Proof.
  intros d st. destruct d; cbn [step]; try (apply keeps_ok, more_same; reflexivity).
  - apply args_keeps. intros. apply db_keeps.
  - apply args_keeps. intros. apply dw_keeps.
  - apply args_keeps. intros. apply dl_keeps.
  - unfold defineSpace. destruct (_ >=? _); [apply skip_keeps|eapply keeps_ok; apply more_error].
  - apply align_keeps.
  - unfold handleCnop. destruct (_ >=? _); [|eapply keeps_ok; apply more_error].
    destruct (_ >=? _); [|eapply keeps_ok; apply more_error].
    apply keeps_bind; [apply align_keeps|]. intros. apply skip_keeps.
  - apply incbin_keeps.
  - apply section_keeps.
  - apply keeps_ok. unfold sect_SwitchTo_NAMEONLY. destruct (findSection _ _ _ _) as [[k|] b].
    + apply more_same. reflexivity.
    + exists [ERROR_NO_SECT]. reflexivity.
  - apply keeps_ok. unfold handlePops, sect_Pop. destruct (x_stack st) as [|[c s] r].
    + apply more_error.
    + apply more_same. reflexivity.
  - unfold sect_SetOriginAddress. destruct (x_current st); [|eapply keeps_ok; apply more_error].
    destruct (the_current st) as [[k m]| |]; cbn [bind]; try apply keeps_bad.
    apply keeps_ok, more_same. reflexivity.
Qed.
Lemma run_errors : forall l st, errs_kept st (run l st).
Proof.
  induction l as [|d l IH]; intro st; [apply keeps_self|]. cbn [run].
  apply keeps_bind; [apply step_keeps|]. intros. apply IH.
Qed.
