(** Proofs about section attributes. *)
From Coq Require Import ZArith List Bool Lia ZifyBool Permutation.
From Verif Require Import Base BaseFacts Arith ExprModel ObjWriteModel OptModel SectModel SectSpec SectProofs SectTouch SectErrors SectRun AttrSpec.
Import ListNotations.
Open Scope Z_scope.

(** Attributes as stored. *)
Definition kept_ident (m m' : msect) : Prop :=
  ws_name (m_w m') = ws_name (m_w m) /\ ws_group (m_w m') = ws_group (m_w m) /\
  ws_imagePosition (m_w m') = ws_imagePosition (m_w m) /\ ws_align (m_w m') = ws_align (m_w m) /\
  ws_page (m_w m') = ws_page (m_w m) /\
  a_loadfixed (ws_sect (m_w m')) = a_loadfixed (ws_sect (m_w m)) /\ a_bankfixed (ws_sect (m_w m')) = a_bankfixed (ws_sect (m_w m)) /\
  a_aligned (ws_sect (m_w m')) = a_aligned (ws_sect (m_w m)) /\ a_root (ws_sect (m_w m')) = a_root (ws_sect (m_w m)) /\
  a_paged (ws_sect (m_w m')) = a_paged (ws_sect (m_w m)) /\ a_cpuOrigin (ws_sect (m_w m')) = a_cpuOrigin (ws_sect (m_w m)) /\
  a_bank (ws_sect (m_w m')) = a_bank (ws_sect (m_w m)).
Lemma kept_refl : forall m, kept_ident m m.
Proof. intro m. unfold kept_ident. repeat split. Qed.
Lemma kept_trans : forall a b c, kept_ident a b -> kept_ident b c -> kept_ident a c.
Proof. unfold kept_ident. intros a b c A B. decompose [and] A. decompose [and] B. repeat split; congruence. Qed.
Definition whole (st : xstate) (r : res xstate) : Prop := forall st', r = Ok st' ->
  x_wordSize st' = x_wordSize st /\ x_current st' = x_current st /\ length (x_sections st') = length (x_sections st) /\
  forall j m, nth_error (x_sections st) j = Some m -> exists m', nth_error (x_sections st') j = Some m' /\ kept_ident m m'.
Lemma whole_ok : forall st, whole st (Ok st).
Proof. intros st st' H. inversion H; subst. repeat (split; [reflexivity|]). intros j m N. exists m. split; [exact N|apply kept_refl]. Qed.
Lemma whole_bad : forall st, whole st Err /\ whole st UB.
Proof. split; intros st' H; discriminate. Qed.
Lemma whole_bind : forall st f g, whole st f -> (forall st1, f = Ok st1 -> whole st1 (g st1)) -> whole st (let! st1 := f in g st1).
Proof.
  intros st f g A B st' H. destruct f as [st1| |]; try discriminate. cbn [bind] in H.
  destruct (A st1 eq_refl) as (W1 & C1 & L1 & K1). destruct (B st1 eq_refl st' H) as (W2 & C2 & L2 & K2).
  split; [congruence|]. split; [congruence|]. split; [congruence|]. intros j m N.
  destruct (K1 j m N) as (m1 & N1 & I1). destruct (K2 j m1 N1) as (m2 & N2 & I2). exists m2. split; [exact N2|]. eapply kept_trans; eassumption.
Qed.
Lemma whole_error : forall st n, whole st (Ok (err_Error n st)).
Proof. intros st n st' H. inversion H; subst. exact (whole_ok st st eq_refl). Qed.
Lemma whole_after_error : forall st n r, whole (err_Error n st) r -> whole st r.
Proof. intros st n r H. exact H. Qed.
Lemma whole_replace : forall st k m m', nth_error (x_sections st) k = Some m -> kept_ident m m' ->
  whole st (Ok (with_sections (replace_nth k m' (x_sections st)) st)).
Proof.
  intros st k m m' N I st' H. injection H as <-. split; [reflexivity|]. split; [reflexivity|]. split; [apply length_replace|]. cbn.
  intros j x J. destruct (Nat.eq_dec j k) as [->|D].
  - exists m'. rewrite (nth_replace_same _ _ _ _ _ N). split; [reflexivity|]. congruence.
  - exists x. rewrite nth_replace_other by exact D. split; [exact J|apply kept_refl].
Qed.
Ltac replaced := match goal with C : the_current _ = Ok (_, _) |- _ => apply the_current_inv in C as [? ?] end;
  eapply whole_replace; [eassumption|unfold kept_ident; repeat split].
Lemma linemap_whole : forall st, whole st (linemap_AddCurrent st).
Proof.
  intros st. unfold linemap_AddCurrent. destruct (the_current st) as [[k m]| |] eqn:C; try apply whole_bad. cbn [bind]. replaced.
Qed.
Lemma grow_whole : forall n st, whole st (growCurrentSection n st).
Proof.
  intros n st. unfold growCurrentSection. destruct (x_wordSize st >? n); [apply whole_bad|].
  destruct (the_current st) as [[k m]| |] eqn:C; try apply whole_bad. cbn [bind].
  destruct (u32 (n + m_used m) >? m_alloc m); [|apply whole_ok].
  destruct (alignToNext _ _) as [a| |]; try apply whole_bad. cbn [bind].
  destruct (a <? m_used m); [apply whole_bad|]. replaced.
Qed.
Lemma whole_check : forall n st (g : bool -> xstate -> res xstate),
  (forall b st1, whole st1 (g b st1)) -> whole st (let! (b, st1) := checkAvailableSpace n st in g b st1).
Proof.
  intros n st g G. unfold checkAvailableSpace.
  destruct (n =? 0); [apply G|]. destruct (x_wordSize st >? n); [apply whole_bad|].
  destruct (x_current st). 2:{ cbn [bind]. eapply whole_after_error. apply G. }
  destruct (currentSectionType st) as [t| |]; try apply whole_bad. cbn [bind].
  destruct t; [|apply G]. pose proof (grow_whole n st) as K.
  destruct (growCurrentSection n st) as [st1| |]; try apply whole_bad. cbn [bind].
  apply (whole_bind st (Ok st1) (g true)); [exact K|]. intros st2 E. injection E as <-. apply G.
Qed.
Lemma store_whole : forall bs p st, whole st (store bs p st).
Proof.
  intros bs p st. unfold store. destruct (the_current st) as [[k m]| |] eqn:C; try apply whole_bad. cbn [bind].
  destruct (_ >? _); [apply whole_bad|]. replaced.
Qed.
Lemma output_whole : forall bs p f st, (forall st1, whole st1 (f st1)) -> whole st (output bs p f st).
Proof.
  intros bs p f st Hf. unfold output. destruct (x_wordSize st >? zlen bs); [apply whole_bad|].
  apply whole_check. intros b st1. destruct b; [|apply whole_ok].
  destruct (currentSectionType st1) as [t| |] eqn:T; try apply whole_bad. cbn [bind]. destruct t.
  - apply whole_bind; [apply linemap_whole|]. intros. apply store_whole.
  - eapply whole_after_error. apply Hf.
Qed.
Lemma const8_whole : forall v st, whole st (sect_OutputConst8 v st).
Proof. intros. apply output_whole. apply whole_ok. Qed.
Lemma const16_whole : forall v st, whole st (sect_OutputConst16 v st).
Proof. intros. apply output_whole. apply whole_ok. Qed.
Lemma const32_whole : forall v st, whole st (sect_OutputConst32 v st).
Proof. intros. apply output_whole. apply whole_ok. Qed.
Lemma repeat_whole : forall n f st, (forall st1, whole st1 (f st1)) -> whole st (repeatM n f st).
Proof.
  induction n as [|n IH]; intros f st H; [apply whole_ok|]. cbn [repeatM].
  apply whole_bind; [apply H|]. intros. apply IH, H.
Qed.
Lemma skip_whole : forall n st, whole st (sect_SkipBytes n st).
Proof.
  intros n st. unfold sect_SkipBytes. destruct (n =? 0); [apply whole_ok|].
  destruct (x_wordSize st >? n); [apply whole_bad|].
  apply whole_check. intros b st1. destruct b; [|apply whole_ok].
  apply whole_bind; [apply linemap_whole|]. intros st2 _.
  destruct (currentSectionType st2) as [t| |] eqn:T; try apply whole_bad. cbn [bind]. destruct t.
  - apply whole_bind; [apply repeat_whole, const16_whole|]. intros. apply repeat_whole, const8_whole.
  - destruct (the_current st2) as [[k m]| |] eqn:C; try apply whole_bad. cbn [bind]. replaced.
Qed.
Lemma align_whole : forall n st, whole st (sect_Align n st).
Proof.
  intros n st. unfold sect_Align. destruct (x_wordSize st >? n); [apply whole_bad|].
  destruct (the_current st) as [[k m]| |]; try apply whole_bad. cbn [bind].
  destruct (alignToNext _ _); try apply whole_bad. cbn [bind]. apply skip_whole.
Qed.
Lemma expr8_whole : forall e st, whole st (sect_OutputExpr8 e st).
Proof.
  intros. unfold sect_OutputExpr8. destruct (_ >? _); [apply whole_bad|].
  destruct (isNull e); [apply whole_error|]. destruct (expr_IsConstant e); [apply const8_whole|].
  apply output_whole. intro. apply skip_whole.
Qed.
Lemma expr16_whole : forall e st, whole st (sect_OutputExpr16 e st).
Proof.
  intros. unfold sect_OutputExpr16. destruct (_ >? _); [apply whole_bad|].
  destruct (isNull e); [apply whole_error|]. destruct (expr_IsConstant e); [apply const16_whole|].
  apply output_whole. intro. apply skip_whole.
Qed.
Lemma expr32_whole : forall e st, whole st (sect_OutputExpr32 e st).
Proof.
  intros. unfold sect_OutputExpr32. destruct (_ >? _); [apply whole_bad|].
  destruct (isNull e); [apply whole_error|]. destruct (expr_IsConstant e); [apply const32_whole|].
  apply output_whole. intro. apply skip_whole.
Qed.
Lemma string_whole : forall s st, whole st (outputString s st).
Proof.
  induction s as [|c s IH]; intro st; [apply whole_ok|]. cbn [outputString].
  apply whole_bind; [apply const8_whole|]. intros. apply IH.
Qed.
Lemma db_whole : forall a st, whole st (handleDb a st).
Proof.
  intros [e|s|] st; cbn [handleDb].
  - unfold range_checked. destruct (isNull e); [apply whole_bad|].
    destruct (expr_CheckRange e (-128) 255); cbn [bind]; [apply expr8_whole| |apply whole_bad].
    eapply whole_after_error. apply expr8_whole.
  - apply string_whole.
  - apply skip_whole.
Qed.
Lemma missing_whole : forall n b st, whole st (sect_SkipBytes n (missing b st)).
Proof.
  intros n b st. unfold missing. destruct b; [|apply skip_whole].
  eapply whole_after_error. apply skip_whole.
Qed.
Lemma dw_whole : forall b a st, whole st (handleDw b a st).
Proof.
  intros b [e|s|] st; cbn [handleDw]; try apply missing_whole.
  unfold range_checked. destruct (isNull e); [apply whole_bad|].
    destruct (expr_CheckRange e (-32768) 65535); cbn [bind]; [apply expr16_whole| |apply whole_bad].
    eapply whole_after_error. apply expr16_whole.
Qed.
Lemma dl_whole : forall b a st, whole st (handleDl b a st).
Proof. intros b [e|s|] st; cbn [handleDl]; try apply missing_whole. apply expr32_whole. Qed.
Lemma args_whole : forall h l st, (forall b a st1, whole st1 (h b a st1)) -> whole st (handleArgs h l st).
Proof.
  intros h l; induction l as [|a l IH]; intros st H; [apply whole_ok|]. cbn [handleArgs].
  apply whole_bind; [apply H|]. intros. apply IH, H.
Qed.
Lemma incbin_whole : forall f st, whole st (sect_OutputBinaryFile f st).
Proof.
  intros [bs|] st; cbn [sect_OutputBinaryFile]; [|apply whole_error].
  apply whole_check. intros b st1. destruct b; [|apply whole_ok].
  destruct (currentSectionType st1) as [t| |] eqn:T; try apply whole_bad. cbn [bind]. destruct t.
  - apply whole_bind; [apply linemap_whole|]. intros. apply store_whole.
  - apply whole_error.
Qed.
Lemma org_whole : forall z st, whole st (sect_SetOriginAddress z st).
Proof.
  intros z st. unfold sect_SetOriginAddress. destruct (x_current st); [|apply whole_error].
  destruct (the_current st) as [[k m]| |] eqn:C; try apply whole_bad. cbn [bind]. replaced.
Qed.
Lemma writing_whole : forall d st, writing d = true -> whole st (step d st).
Proof.
  intros d st H. destruct d; try discriminate; cbn [step].
  - apply args_whole. intros. apply db_whole.
  - apply args_whole. intros. apply dw_whole.
  - apply args_whole. intros. apply dl_whole.
  - unfold defineSpace. destruct (n >=? 0); [apply skip_whole|apply whole_error].
  - apply align_whole.
  - unfold handleCnop. destruct (offset >=? 0); [|apply whole_error].
    destruct (align >=? 0); [|apply whole_error].
    apply whole_bind; [apply align_whole|]. intros. apply skip_whole.
  - apply incbin_whole.
  - apply org_whole.
Qed.

(** ** Opening a section *)
Lemma beq_true : forall a b, beq a b = true <-> a = b.
Proof.
  induction a as [|x a IH]; intros [|y b]; cbn; split; intro H; try discriminate; try reflexivity.
  - apply andb_true_iff in H as [H1 H2]. apply Z.eqb_eq in H1. apply IH in H2. congruence.
  - injection H as <- <-. rewrite Z.eqb_refl. apply IH. reflexivity.
Qed.
Lemma find_cases : forall name g l k0, 
  match findSection name (Some g) l k0 with
  | (Some k, e) => e = false /\ (k0 <= k)%nat /\ exists m, nth_error l (k - k0) = Some m /\ ws_name (m_w m) = name /\ ws_group (m_w m) = g
  | (None, false) => forall m, In m l -> ws_name (m_w m) <> name
  | (None, true) => exists m, In m l /\ ws_name (m_w m) = name
  end.
Proof.
  induction l as [|x l IH]; intro k0; cbn [findSection]; [intros m []|].
  destruct (beq (ws_name (m_w x)) name) eqn:B.
  - apply beq_true in B. destruct (Nat.eqb (ws_group (m_w x)) g) eqn:G.
    + apply Nat.eqb_eq in G. split; [reflexivity|]. split; [lia|]. exists x. rewrite Nat.sub_diag. auto.
    + exists x. split; [left; reflexivity|exact B].
  - assert (B' : ws_name (m_w x) <> name) by (intro E; apply beq_true in E; congruence).
    specialize (IH (S k0)). destruct (findSection name (Some g) l (S k0)) as [[k|] e].
    + destruct IH as (E & L & m & N & R). split; [exact E|]. split; [lia|]. exists m.
      replace (k - k0)%nat with (S (k - S k0)) by lia. split; [exact N|exact R].
    + destruct e.
      * destruct IH as (m & I & R). exists m. split; [right; exact I|exact R].
      * intros m [<-|I]; [exact B'|exact (IH m I)].
Qed.
Definition placed (w : Z) (m : msect) : Prop :=
  a_loadfixed (ws_sect (m_w m)) = true -> ws_imagePosition (m_w m) = (a_cpuOrigin (ws_sect (m_w m)) * w) mod 2 ^ 32.
(** The sections have different names, and fixed ones their place in the file. *)
Definition distinct (st : xstate) : Prop :=
  (forall i j m m', nth_error (x_sections st) i = Some m -> nth_error (x_sections st) j = Some m' ->
     ws_name (m_w m) = ws_name (m_w m') -> i = j) /\
  forall i m, nth_error (x_sections st) i = Some m -> placed (x_wordSize st) m.
Definition quiet_step (st st' : xstate) : Prop :=
  x_wordSize st' = x_wordSize st /\
  (forall j m, nth_error (x_sections st) j = Some m -> exists m', nth_error (x_sections st') j = Some m' /\ kept_ident m m').
Lemma distinct_whole : forall st st', distinct st -> x_wordSize st' = x_wordSize st -> length (x_sections st') = length (x_sections st) ->
  (forall j m, nth_error (x_sections st) j = Some m -> exists m', nth_error (x_sections st') j = Some m' /\ kept_ident m m') -> distinct st'.
Proof.
  intros st st' (D & P) W L K.
  assert (B : forall j m', nth_error (x_sections st') j = Some m' -> exists m, nth_error (x_sections st) j = Some m /\ kept_ident m m').
  { intros j m' N. destruct (nth_error (x_sections st) j) as [m|] eqn:N0.
    - destruct (K j m N0) as (x & N1 & I). exists m. split; [reflexivity|]. congruence.
    - apply nth_error_None in N0. assert (j < length (x_sections st'))%nat by (apply nth_error_Some; congruence). lia. }
  split.
  - intros i j m m' N1 N2 E. destruct (B i m N1) as (x & X1 & X2). destruct (B j m' N2) as (y & Y1 & Y2).
    destruct X2 as (X2 & _), Y2 as (Y2 & _). eapply D; [exact X1|exact Y1|congruence].
  - intros i m N. destruct (B i m N) as (x & X1 & X2). destruct X2 as (I1 & I2 & I3 & I4 & I5 & I6 & I7 & I8 & I9 & I10 & I11 & I12). unfold placed. rewrite W.
    specialize (P i x X1). unfold placed in P. intro Q. rewrite I3, I11. apply P. congruence.
Qed.
Lemma create_distinct : forall name g a i al pg st, distinct st -> (forall m, In m (x_sections st) -> ws_name (m_w m) <> name) ->
  placed (x_wordSize st) (MSect (WSect a name g i al pg [] 0 [] []) 0) -> distinct (createSection name g a i al pg st).
Proof.
  intros name g a i al pg st (D & P) F Q. unfold createSection, distinct. cbn.
  assert (B : forall j m, nth_error (x_sections st ++ [MSect (WSect a name g i al pg [] 0 [] []) 0]) j = Some m ->
    nth_error (x_sections st) j = Some m \/ (j = length (x_sections st) /\ m = MSect (WSect a name g i al pg [] 0 [] []) 0)).
  { intros j m N. destruct (Nat.lt_ge_cases j (length (x_sections st))) as [L|L].
    - rewrite nth_error_app1 in N by exact L. left. exact N.
    - rewrite nth_error_app2 in N by exact L. destruct (j - length (x_sections st))%nat as [|q] eqn:E; [|destruct q; discriminate].
      right. split; [lia|]. injection N as <-. reflexivity. }
  split.
  - intros p q m m' N1 N2 E. destruct (B _ _ N1) as [M1|(M1 & M2)], (B _ _ N2) as [M3|(M3 & M4)].
    + eapply D; eassumption.
    + exfalso. subst m'. cbn in E. apply nth_error_In in M1. exact (F m M1 E).
    + exfalso. subst m. cbn in E. apply nth_error_In in M3. apply (F m' M3). congruence.
    + congruence.
  - intros p m N. destruct (B _ _ N) as [M1|(M1 & M2)]; [exact (P p m M1)|]. subst m. exact Q.
Qed.
(** A directive that reports nothing. *)
Definition fresh (st st' : xstate) : Prop :=
  distinct st' /\ x_wordSize st' = x_wordSize st /\
  (forall j m, nth_error (x_sections st) j = Some m -> exists m', nth_error (x_sections st') j = Some m' /\ kept_ident m m').
Lemma fresh_same : forall st st', distinct st -> x_sections st' = x_sections st -> x_wordSize st' = x_wordSize st -> fresh st st'.
Proof.
  intros st st' D S0 W. split; [|split; [exact W|]].
  - unfold distinct. rewrite S0, W. exact D.
  - intros j m N. exists m. rewrite S0. split; [exact N|apply kept_refl].
Qed.
Lemma fresh_create : forall name g a i al pg st, distinct st -> (forall m, In m (x_sections st) -> ws_name (m_w m) <> name) ->
  placed (x_wordSize st) (MSect (WSect a name g i al pg [] 0 [] []) 0) -> fresh st (createSection name g a i al pg st).
Proof.
  intros name g a i al pg st D F Q. split; [apply create_distinct; assumption|]. split; [reflexivity|].
  intros j m N. exists m. split; [|apply kept_refl]. cbn. rewrite nth_error_app1 by (apply nth_error_Some; congruence). exact N.
Qed.
Lemma no_error : forall n st, x_errors (err_Error n st) = x_errors st -> False.
Proof. intros n st H. cbn in H. apply (f_equal (@length Z)) in H. rewrite app_length in H. cbn in H. lia. Qed.
Lemma error_kept : forall n st st' (P : Prop), st' = err_Error n st -> x_errors st' = x_errors st -> P.
Proof. intros n st st' P -> H. destruct (no_error _ _ H). Qed.
(** The section opened, when nothing is reported. *)
Lemma section_opened : forall name g d st st', handleSection name g d st = Ok st' -> x_errors st' = x_errors st -> distinct st ->
  fresh st st' /\ exists k m, x_current st' = Some k /\ nth_error (x_sections st') k = Some m /\
    ws_name (m_w m) = name /\ ws_group (m_w m) = g /\
    (has_attributes d \/ (forall x, In x (x_sections st) -> ws_name (m_w x) <> name) -> attributes (x_wordSize st) d m).
Proof.
  intros name g d st st' H Q D. unfold handleSection in H.
  destruct (x_groups st g) as [t|]. 2:{ injection H as <-. destruct (no_error _ _ Q). }
  change (match k_load d with Some z => if z =? UINT32_MAX then None else Some z | None => None end) with (wanted_address d) in H.
  destruct (match wanted_address d with Some z => _ | None => Ok (k_align d) end) as [al| |] eqn:AL; try discriminate. cbn [bind] in H.
  assert (AV : match k_align d, wanted_address d with
    | Some n, None => al = Some n | Some n, Some z => al = None /\ (n | z) | None, _ => al = None end).
  { destruct (wanted_address d) as [z|]; [|destruct (k_align d); congruence]. destruct (k_align d) as [n|]; [|congruence].
    destruct (n =? 0) eqn:N0; [discriminate|]. destruct (z mod n =? 0) eqn:M; [|discriminate]. injection AL as <-.
    split; [reflexivity|]. apply Z.mod_divide; lia. }
  clear AL. pose proof (find_cases name g (x_sections st) 0) as FC.
  destruct (SectModel.given (wanted_address d) || SectModel.given (k_bank d) || SectModel.given al || SectModel.given (k_page d) || k_root d) eqn:GV.
  - unfold sect_SwitchTo_KIND in H. cbn [k_bank k_load k_align k_page k_root] in H.
    destruct (SectModel.given (k_bank d) && negb (x_banks st)); [discriminate|].
    destruct (findSection name (Some g) (x_sections st) 0) as [[k|] e].
    + destruct FC as (-> & _ & m & N & E1 & E2). rewrite Nat.sub_0_r in N. rewrite N in H.
      match type of H with (if ?b then _ else _) = _ => destruct b eqn:SK end; injection H as <-; [|destruct (no_error _ _ Q)].
      split; [apply fresh_same; [exact D|reflexivity..]|]. exists k, m. split; [reflexivity|]. split; [exact N|]. split; [exact E1|]. split; [exact E2|].
      intros _. pose proof (proj2 D k m N) as PL. unfold placed in PL.
      unfold same_kind in SK. cbn [k_load k_bank k_align k_page k_root] in SK.
      rewrite !andb_true_iff in SK. destruct SK as (((((((((S1 & S2) & S3) & S4) & S5) & S6) & S7) & S8) & S9) & S10).
      apply eqb_prop in S1, S2, S3, S4, S5, S6. unfold attributes.
      split; [destruct (wanted_address d); [apply Z.eqb_eq in S8; cbn in S1; rewrite <- S8; auto|exact S1]|].
      split; [destruct (k_bank d); [apply Z.eqb_eq in S7; auto|exact S2]|].
      split; [destruct (k_page d); [apply Z.eqb_eq in S10; auto|exact S6]|].
      split; [|exact S5].
      destruct (k_align d) as [n|]; [|subst al; exact S4].
      destruct (wanted_address d) as [z|].
      * destruct AV as (-> & AV). split; [exact S4|exact AV].
      * subst al. apply Z.eqb_eq in S9. split; [exact S4|exact S9].
    + destruct e. { exfalso. injection H as <-. unfold createSection in Q. cbn in Q. exact (no_error ERROR_SECT_EXISTS st Q). }
      injection H as <-. split.
      * apply fresh_create; [exact D|exact FC|]. unfold placed. cbn. destruct (wanted_address d); [|discriminate]. intros _. reflexivity.
      * eexists _, _. split; [reflexivity|]. split; [cbn; rewrite nth_error_app2, Nat.sub_diag by lia; reflexivity|].
        split; [reflexivity|]. split; [reflexivity|]. intros _. unfold attributes. cbn.
        split; [destruct (wanted_address d); [auto|reflexivity]|].
        split; [destruct (k_bank d); [auto|reflexivity]|].
        split; [destruct (k_page d); [auto|reflexivity]|].
        split; [|reflexivity].
        destruct (k_align d) as [n|]; [|subst al; reflexivity].
        destruct (wanted_address d) as [z|]; [destruct AV as (-> & AV); split; [reflexivity|exact AV]|subst al; auto].
  - rewrite !orb_false_iff in GV. destruct GV as ((((G1 & G2) & G3) & G4) & G5).
    injection H as <-. unfold sect_SwitchTo in *.
    destruct (findSection name (Some g) (x_sections st) 0) as [[k|] e].
    + destruct FC as (-> & _ & m & N & E1 & E2). rewrite Nat.sub_0_r in N.
      split; [apply fresh_same; [exact D|reflexivity..]|]. exists k, m. split; [reflexivity|]. split; [exact N|]. split; [exact E1|]. split; [exact E2|].
      intros [A|A].
      * exfalso. unfold has_attributes in A. destruct (wanted_address d); [discriminate|]. destruct (k_bank d); [discriminate|].
        destruct (k_page d); [discriminate|]. destruct (k_align d); [subst al; discriminate|]. intuition congruence.
      * exfalso. apply (A m); [eapply nth_error_In; exact N|exact E1].
    + destruct e. { exfalso. unfold createSection in Q. cbn in Q. exact (no_error ERROR_SECT_EXISTS st Q). }
      split.
      * apply fresh_create; [exact D|exact FC|]. unfold placed. cbn. discriminate.
      * eexists _, _. split; [reflexivity|]. split; [cbn; rewrite nth_error_app2, Nat.sub_diag by lia; reflexivity|].
        split; [reflexivity|]. split; [reflexivity|]. intros _. unfold attributes. cbn.
        destruct (wanted_address d); [discriminate|]. destruct (k_bank d); [discriminate|].
        destruct (k_page d); [discriminate|]. destruct (k_align d); [subst al; discriminate|]. repeat split; congruence.
Qed.
Lemma step_fresh : forall d st st', step d st = Ok st' -> x_errors st' = x_errors st -> distinct st -> fresh st st'.
Proof.
  intros d st st' H Q D. destruct (writing d) eqn:K.
  - destruct (writing_whole d st K st' H) as (W & _ & L & X). split; [eapply distinct_whole; eassumption|]. split; assumption.
  - destruct d; try discriminate; cbn [step] in H.
    + eapply section_opened; eassumption.
    + injection H as <-. unfold sect_SwitchTo_NAMEONLY.
      destruct (findSection name None (x_sections st) 0) as [[k|] e]; apply fresh_same; auto.
    + injection H as <-. apply fresh_same; auto.
    + injection H as <-. unfold handlePops, sect_Pop. destruct (x_stack st) as [|[c s] r]; apply fresh_same; auto.
    + injection H as <-. apply fresh_same; auto.
    + injection H as <-. apply fresh_same; auto.
    + injection H as <-. apply fresh_same; auto.
Qed.
Lemma more_same_both : forall a b c, more a b -> more b c -> x_errors c = x_errors a -> x_errors b = x_errors a /\ x_errors c = x_errors b.
Proof.
  intros a b c (l1 & E1) (l2 & E2) E. rewrite E2, E1, <- app_assoc in E.
  assert (l1 ++ l2 = []) as Z0 by (apply (app_inv_head (x_errors a)); rewrite app_nil_r; exact E).
  apply app_eq_nil in Z0 as (-> & ->). rewrite E2, E1, !app_nil_r. auto.
Qed.
Lemma run_fresh : forall ds st st', run ds st = Ok st' -> x_errors st' = x_errors st -> distinct st -> fresh st st'.
Proof.
  induction ds as [|d ds IH]; intros st st' H Q D.
  - injection H as <-. apply fresh_same; auto.
  - cbn [run] in H. destruct (step d st) as [st1| |] eqn:K; try discriminate. cbn [bind] in H.
    destruct (more_same_both st st1 st' (step_keeps d st st1 K) (run_errors ds st1 st' H) Q) as (Q1 & Q2).
    destruct (step_fresh d st st1 K Q1 D) as (D1 & W1 & K1). destruct (IH st1 st' H Q2 D1) as (D2 & W2 & K2).
    split; [exact D2|]. split; [congruence|]. intros j m N. destruct (K1 j m N) as (m1 & N1 & I1).
    destruct (K2 j m1 N1) as (m2 & N2 & I2). exists m2. split; [exact N2|]. eapply kept_trans; eassumption.
Qed.
Lemma kept_attributes : forall w d m m', kept_ident m m' -> attributes w d m -> attributes w d m'.
Proof.
  intros w d m m' (I1 & I2 & I3 & I4 & I5 & I6 & I7 & I8 & I9 & I10 & I11 & I12) A. unfold attributes in *.
  rewrite I3, I4, I5, I6, I7, I8, I9, I10, I11, I12. exact A.
Qed.
(** Sections come only from SECTION directives. *)
Lemma names_opened : forall ds st st', run ds st = Ok st' -> forall m, In m (x_sections st') ->
  existsb (opens (ws_name (m_w m))) ds = true \/ exists x, In x (x_sections st) /\ ws_name (m_w x) = ws_name (m_w m).
Proof.
  assert (ST : forall d st st', step d st = Ok st' -> forall m, In m (x_sections st') ->
    opens (ws_name (m_w m)) d = true \/ exists x, In x (x_sections st) /\ ws_name (m_w x) = ws_name (m_w m)).
  { intros d st st' H m I. destruct (writing d) eqn:K.
    - right. destruct (writing_whole d st K st' H) as (_ & _ & L & X). apply In_nth_error in I as (j & N).
      destruct (nth_error (x_sections st) j) as [x|] eqn:N0.
      + destruct (X j x N0) as (y & N1 & (E & _)). exists x. split; [eapply nth_error_In; exact N0|]. congruence.
      + apply nth_error_None in N0. assert (j < length (x_sections st'))%nat by (apply nth_error_Some; congruence). lia.
    - destruct d; try discriminate; cbn [step] in H.
      + assert (C : forall (b : bool) a i al pg, In m (x_sections (createSection name group a i al pg (if b then err_Error ERROR_SECT_EXISTS st else st))) ->
          opens (ws_name (m_w m)) (DSection name group d) = true \/ exists x, In x (x_sections st) /\ ws_name (m_w x) = ws_name (m_w m)).
        { intros b a i al pg J. unfold createSection in J. cbn in J. apply in_app_iff in J as [J|[<-|[]]].
          - right. exists m. split; [destruct b; exact J|reflexivity].
          - left. cbn. apply beq_true. reflexivity. }
        assert (R : forall s, x_sections s = x_sections st -> In m (x_sections s) -> exists x, In x (x_sections st) /\ ws_name (m_w x) = ws_name (m_w m))
          by (intros s E J; rewrite E in J; eauto).
        unfold handleSection in H. destruct (x_groups st group) as [t|]; [|injection H as <-; right; eapply R; [|exact I]; reflexivity].
        destruct (match (match k_load d with Some z => _ | None => None end) with Some z => _ | None => _ end)
          as [al| |]; try discriminate. cbn [bind] in H.
        match type of H with (if ?b then _ else _) = _ => destruct b end.
        * unfold sect_SwitchTo_KIND in H. cbn [k_bank k_load k_align k_page k_root] in H.
          match type of H with (if ?b then _ else _) = _ => destruct b; [discriminate|] end.
          destruct (findSection name (Some group) (x_sections st) 0) as [[k|] e].
          -- destruct (nth_error (x_sections st) k) as [x|]; [|discriminate].
             match type of H with (if ?b then _ else _) = _ => destruct b end; injection H as <-; right; eapply R; try exact I; reflexivity.
          -- injection H as <-. eapply C. exact I.
        * injection H as <-. unfold sect_SwitchTo in I.
          destruct (findSection name (Some group) (x_sections st) 0) as [[k|] e]; [right; eapply R; [|exact I]; reflexivity|eapply C; exact I].
      + injection H as <-. right. unfold sect_SwitchTo_NAMEONLY in I.
        destruct (findSection name None (x_sections st) 0) as [[k|] e]; eauto.
      + injection H as <-. right. eauto.
      + injection H as <-. right. unfold handlePops, sect_Pop in I. destruct (x_stack st) as [|[c s] r]; eauto.
      + injection H as <-. right. eauto.
      + injection H as <-. right. eauto.
      + injection H as <-. right. eauto. }
  induction ds as [|d ds IH]; intros st st' H m I.
  - injection H as <-. right. eauto.
  - cbn [run] in H. destruct (step d st) as [st1| |] eqn:K; try discriminate. cbn [bind] in H. cbn [existsb].
    destruct (IH st1 st' H m I) as [E|(x & X1 & X2)]; [left; rewrite E; apply orb_true_r|].
    destruct (ST d st st1 K x X1) as [E|(y & Y1 & Y2)]; [left; rewrite <- X2, E; reflexivity|]. right. exists y. split; [exact Y1|congruence].
Qed.
Lemma initial_distinct : forall w banks groups o, distinct (initial w banks groups o).
Proof. intros. split; [intros i j m m' N|intros i m N]; destruct i; discriminate. Qed.
