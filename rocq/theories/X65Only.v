(** Proofs about the 6502 instruction parser: nothing but the manual is accepted. *)
From Coq Require Import ZArith List Bool Lia ZifyBool String.
From Verif Require Import Base BaseFacts Arith ArithProofs ExprSpec ExprModel ExprLayout ObjWriteModel OptModel
  SectModel SectSpec SectErrors InstrSpec InstrProofs X65Model X65Spec X65Proofs X65Parse X65Run.
Import ListNotations.
Open Scope string_scope.
Open Scope Z_scope.

(** ** Errors stay *)
Definition quiet (st st' : xstate) : Prop := x_errors st' = x_errors st.
Lemma more_quiet : forall a b c, more a b -> more b c -> quiet a c -> quiet a b /\ quiet b c.
Proof.
  intros a b c (l1 & H1) (l2 & H2) Q. unfold quiet in *. rewrite H2, H1 in Q. rewrite <- app_assoc in Q.
  rewrite <- (app_nil_r (x_errors a)) in Q at 2. apply app_inv_head in Q. apply app_eq_nil in Q. destruct Q as (-> & ->).
  rewrite app_nil_r in *. split; congruence.
Qed.
Lemma loud : forall a b n, more a b -> ~ quiet a (err_Error n b).
Proof.
  intros a b n (l & H) Q. unfold quiet in Q. cbn in Q. rewrite H, <- app_assoc in Q.
  rewrite <- (app_nil_r (x_errors a)) in Q at 2. apply app_inv_head, app_eq_nil in Q. destruct Q as (_ & Q). discriminate Q.
Qed.
Definition outcome_state (r : outcome) : xstate := match r with Found _ _ s | Missed s | Failed s => s end.

(** ** Operands *)
Definition expression (x : list token) : Prop := exists e, x = [TExpr e] \/ x = [TLp; TExpr e; TRp].
Lemma expression_of : forall ts e r, parse_Expression ts = Ok (Some (e, r)) -> exists x, expression x /\ ts = (x ++ r)%list.
Proof.
  intros ts e r H. unfold parse_Expression in H.
  destruct ts as [|[] ts]; try discriminate.
  - destruct ts as [|[] ts]; try discriminate. destruct ts as [|[] ts]; try discriminate.
    destruct (expr_Parens e0) as [p| |]; cbn [bind] in H; try discriminate. injection H as _ <-.
    exists [TLp; TExpr e0; TRp]. split; [exists e0; right; reflexivity|reflexivity].
  - injection H as <- <-. exists [TExpr e0]. split; [exists e0; left; reflexivity|reflexivity].
Qed.
Definition candidates {A : Type} (f : form A) : list Z :=
  match f with
  | FNone => [M_NONE; M_A] | FAcc => [M_A]
  | FImm _ | FLow _ | FHigh _ | FBank _ | FSwap _ => [M_IMM]
  | FAddr _ | FZp _ => [M_ZP; M_ABS] | FAddrX _ | FZpX _ => [M_ZP_X; M_ABS_X] | FAddrY _ | FZpY _ => [M_ZP_Y; M_ABS_Y]
  | FIndX _ => [M_IND_ZP_X; M_IND_ABS_X] | FIndY _ => [M_IND_ZP_Y] | FInd _ => [M_IND_ABS; M_IND_ZP]
  | FTwo _ _ => [M_BIT_ZP; M_ZP_ABS] | FThree _ _ _ => [M_BIT_ZP_ABS]
  end.
(** An operand of a bit instruction may have a prefix as well. *)
Definition several {A : Type} (f : form A) : bool := match f with FTwo _ _ | FThree _ _ _ => true | _ => false end.
Definition OTHER : list Z := [0; M_816_IND_DISP_S_Y; M_816_DISP_S].
Definition shaped (mode : Z) (ts r : list token) : Prop :=
  In mode OTHER \/ exists (f : form (list token)) (z : bool), Forall expression (operands f) /\
    ts = ((if z && several f then [TLess] else []) ++ tokens f ++ r)%list /\ In mode (candidates f).
Lemma shaped_plain : forall mode ts r f, Forall expression (operands f) -> ts = (tokens f ++ r)%list -> In mode (candidates f) -> shaped mode ts r.
Proof. intros mode ts r f H E I. right. exists f, false. split; [exact H|]. split; [exact E|exact I]. Qed.

Section Only.
Variable F : fmath.
Variable c : cpu.
Notation o := (x65_options (cpu_number c)).
Variable allowed : Z.
Hypothesis later : has allowed LATER = false.
Hypothesis one_index : In (Z.land allowed (M_IND_ZP_X + M_IND_ABS_X)) [0; M_IND_ZP_X; M_IND_ABS_X].
Hypothesis one_bit : In (Z.land allowed (M_BIT_ZP + M_ZP_ABS)) [0; M_BIT_ZP; M_ZP_ABS].
Variable size : immsize.

Definition sound (ts : list token) (st : xstate) (b : res outcome) : Prop :=
  forall r, b = Ok r -> more st (outcome_state r) /\
    match r with Found m rest _ => shaped (am_mode m) ts rest | _ => True end.
Lemma sound_missed : forall ts st st1, more st st1 -> sound ts st (Ok (Missed st1)).
Proof. intros ts st st1 M r H. injection H as <-. split; [exact M|exact I]. Qed.
Lemma sound_failed : forall ts st st1, more st st1 -> sound ts st (Ok (Failed st1)).
Proof. intros ts st st1 M r H. injection H as <-. split; [exact M|exact I]. Qed.
Lemma sound_found : forall ts st st1 m r, more st st1 -> shaped (am_mode m) ts r -> sound ts st (Ok (Found m r st1)).
Proof. intros ts st st1 m r M Sh x H. injection H as <-. split; assumption. Qed.
Lemma sound_bad : forall ts st, sound ts st Err /\ sound ts st UB.
Proof. intros ts st. split; intros r H; discriminate. Qed.
Lemma sound_else : forall ts st a b, sound ts st a -> (forall st1, more st st1 -> sound ts st1 (b st1)) -> sound ts st (or_else a b).
Proof.
  intros ts st a b Ha Hb r H. unfold or_else in H. destruct a as [x| |]; cbn [bind] in H; try discriminate.
  destruct (Ha x eq_refl) as (M & Sh). destruct x as [m rest st1|st1|st1].
  - injection H as <-. split; assumption.
  - destruct (Hb st1 M r H) as (M1 & Sh1). split; [exact (more_trans _ _ _ M M1)|exact Sh1].
  - injection H as <-. split; [exact M|exact I].
Qed.
Ltac missed := apply sound_missed, more_refl.
Ltac bad := first [apply (proj1 (sound_bad _ _)) | apply (proj2 (sound_bad _ _))].

Lemma register_sound : forall reg mode ts st, (mode = M_A /\ reg = T_6502_REG_A \/ mode = M_45GS02_Q) ->
  sound ts st (block_register allowed reg mode ts st).
Proof.
  intros reg mode ts st H. unfold block_register. destruct ts as [|t r]; [missed|].
  destruct (has allowed mode) eqn:Ha; cbn [andb]; [|missed]. destruct H as [[-> ->]| ->].
  - destruct (isReg T_6502_REG_A t) eqn:E; [|missed]. destruct t; try discriminate. apply Z.eqb_eq in E. subst id.
    apply sound_found; [apply more_refl|]. apply (shaped_plain _ _ _ FAcc); [constructor|reflexivity|left; reflexivity].
  - rewrite (hasnt_sub _ M_45GS02_Q LATER eq_refl later) in Ha. discriminate.
Qed.
Lemma imm_expression : forall b ts e r, parseImmExpression F b ts = Ok (Some (e, r)) ->
  exists f : form (list token), Forall expression (operands f) /\ THash :: ts = (tokens f ++ r)%list /\ In M_IMM (candidates f).
Proof.
  intros b ts e r H.
  assert (P : forall ts r (k : expr -> res expr), (let! (e0, r1) := prefixed ts in let! e2 := k e0 in Ok (Some (e2, r1))) = Ok (Some (e, r)) ->
              exists x, expression x /\ ts = (x ++ r)%list).
  { intros ts0 r0 k Hk. unfold prefixed in Hk. destruct (parse_Expression ts0) as [[[e0 r1]|]| |] eqn:E; cbn [bind] in Hk; try discriminate.
    destruct (k e0); cbn [bind] in Hk; try discriminate. injection Hk as _ <-. exact (expression_of _ _ _ E). }
  assert (D : forall ts0, parse_Expression ts0 = Ok (Some (e, r)) ->
     exists f : form (list token), Forall expression (operands f) /\ THash :: ts0 = (tokens f ++ r)%list /\ In M_IMM (candidates f)).
  { intros ts0 Hd. destruct (expression_of _ _ _ Hd) as (x & Hx & ->). exists (FImm x).
    split; [repeat constructor; exact Hx|]. split; [reflexivity|left; reflexivity]. }
  unfold parseImmExpression in H. destruct ts as [|t ts]; [apply D, H|].
  destruct t; try (apply D, H).
  - destruct ts as [|t ts1]; [discriminate|].
    assert (Lo : forall q, (let! (e0, r1) := prefixed q in let! e2 := maskExpression F e0 b in Ok (Some (e2, r1))) = Ok (Some (e, r)) ->
       exists f : form (list token), Forall expression (operands f) /\ THash :: TLess :: q = (tokens f ++ r)%list /\ In M_IMM (candidates f)).
    { intros q Hq. destruct (P q r (fun e0 => maskExpression F e0 b) Hq) as (x & Hx & ->). exists (FLow x).
      split; [repeat constructor; exact Hx|]. split; [reflexivity|left; reflexivity]. }
    destruct t; try (apply Lo, H). clear Lo.
    destruct (P ts1 r (fun e0 => let! high := expr_And F e0 (expr_Const 0xFF00) in
      let! l := expr_Asl F e0 (expr_Const 8) in
      let! h := expr_Asr F high (expr_Const 8) in
      let! e1 := expr_Or F l h in maskExpression F e1 b)) as (x & Hx & ->).
    { rewrite <- H. destruct (prefixed ts1) as [[e0 r1]| |]; cbn [bind]; [|reflexivity..].
      destruct (expr_And F e0 (expr_Const 0xFF00)) as [e1| |]; cbn [bind]; [|reflexivity..].
      destruct (expr_Asl F e0 (expr_Const 8)) as [e2| |]; cbn [bind]; [|reflexivity..].
      destruct (expr_Asr F e1 (expr_Const 8)) as [e3| |]; cbn [bind]; [|reflexivity..].
      destruct (expr_Or F e2 e3) as [e4| |]; cbn [bind]; reflexivity. }
    exists (FSwap x). split; [repeat constructor; exact Hx|]. split; [reflexivity|left; reflexivity].
  - destruct (P ts r (fun e0 => let! e1 := expr_Asr F e0 (expr_Const 8) in maskExpression F e1 b)) as (x & Hx & ->).
    { rewrite <- H. destruct (prefixed ts) as [[e0 r1]| |]; cbn [bind]; [|reflexivity..].
      destruct (expr_Asr F e0 (expr_Const 8)) as [e1| |]; cbn [bind]; reflexivity. }
    exists (FHigh x). split; [repeat constructor; exact Hx|]. split; [reflexivity|left; reflexivity].
  - destruct (P ts r (fun e0 => let! e1 := expr_Asr F e0 (expr_Const 16) in maskExpression F e1 b)) as (x & Hx & ->).
    { rewrite <- H. destruct (prefixed ts) as [[e0 r1]| |]; cbn [bind]; [|reflexivity..].
      destruct (expr_Asr F e0 (expr_Const 16)) as [e1| |]; cbn [bind]; reflexivity. }
    exists (FBank x). split; [repeat constructor; exact Hx|]. split; [reflexivity|left; reflexivity].
Qed.
Lemma imm_sound : forall ts st, sound ts st (block_imm F o allowed size ts st).
Proof.
  intros ts st. unfold block_imm. destruct ts as [|[] ts]; try missed.
  destruct (negb (has allowed (M_IMM + M_IMM_IMM))); [missed|].
  destruct (parseImmExpression F (imm_is_16 o size) ts) as [[[e r1]|]| |] eqn:E; cbn [bind]; try bad; [|apply sound_failed, more_refl].
  rewrite (hasnt_sub _ M_IMM_IMM LATER eq_refl later).
  assert (G : sound (THash :: ts) st (Ok (Found (simple M_IMM e) r1 st))).
  { apply sound_found; [apply more_refl|]. destruct (imm_expression _ _ _ _ E) as (f & H1 & H2 & H3). exact (shaped_plain _ _ _ f H1 H2 H3). }
  destruct r1 as [|[] r2]; exact G.
Qed.
Lemma after_S_sound : forall ts0 e ts st, sound ts0 st (after_S e ts st).
Proof.
  intros ts0 e ts st. unfold after_S. destruct ts as [|t r]; [missed|]. destruct (isReg T_65816_REG_S t); [|missed].
  destruct (expect isRp r st) as [[b r1] st1] eqn:E1.
  assert (M1 : more st st1).
  { unfold expect in E1. destruct r as [|x q]; [|destruct (isRp x)]; injection E1 as _ _ <-; [apply more_error|apply more_refl|apply more_error]. }
  destruct (negb b); [apply sound_missed, M1|].
  destruct (expect isComma r1 st1) as [[b2 r2] st2] eqn:E2.
  assert (M2 : more st st2).
  { apply (more_trans _ _ _ M1). unfold expect in E2. destruct r1 as [|x q]; [|destruct (isComma x)]; injection E2 as _ _ <-; [apply more_error|apply more_refl|apply more_error]. }
  destruct (negb b2); [apply sound_missed, M2|]. destruct r2 as [|y r3]; [apply sound_missed, M2|].
  destruct (isReg T_6502_REG_Y y); [|apply sound_missed, M2]. apply sound_found; [exact M2|]. left. cbn. tauto.
Qed.
Lemma sound_after : forall ts st st1 b, more st st1 -> sound ts st1 b -> sound ts st b.
Proof. intros ts st st1 b M H r E. destruct (H r E) as (M1 & Sh). split; [exact (more_trans _ _ _ M M1)|exact Sh]. Qed.
Lemma is_reg : forall n t, isReg n t = true -> t = TId n.
Proof. intros n t H. destruct t; try discriminate. apply Z.eqb_eq in H. congruence. Qed.
Lemma shaped_index : forall ts r, (exists x, expression x /\ ts = (tokens (FIndX x) ++ r)%list) ->
  shaped (Z.land allowed (M_IND_ZP_X + M_IND_ABS_X)) ts r.
Proof.
  intros ts r (x & Hx & ->). destruct one_index as [<-|H]; [left; left; reflexivity|]. apply (shaped_plain _ _ _ (FIndX x)); [repeat constructor; exact Hx|reflexivity|]. destruct H as [<-|[<-|[]]]; cbn [candidates In]; tauto.
Qed.
Lemma indexed_sound : forall ts st, sound ts st (block_indexed allowed ts st).
Proof.
  intros ts st. unfold block_indexed. destruct ts as [|[] ts]; try missed.
  match goal with |- context [negb (has allowed ?x)] => destruct (negb (has allowed x)) end; [missed|].
  destruct (parse_Expression ts) as [[[e r1]|]| |] eqn:E; cbn [bind]; try bad; [|missed].
  destruct (expression_of _ _ _ E) as (x & Hx & ->).
  destruct r1 as [|[] r1]; try missed.
  - destruct r1 as [|t r2]; [missed|]. destruct (isReg T_6502_REG_X t) eqn:Ex; [|apply after_S_sound].
    apply is_reg in Ex. subst t. unfold expect. destruct r2 as [|q r3].
    { apply (sound_after _ _ _ _ (more_error st ERROR_CHAR_EXPECTED)), after_S_sound. }
    destruct (isRp q) eqn:Eq.
    + destruct q; try discriminate. apply sound_found; [apply more_refl|]. apply shaped_index. exists x. split; [exact Hx|].
      cbn [tokens app]. rewrite <- app_assoc. reflexivity.
    + apply (sound_after _ _ _ _ (more_error st ERROR_CHAR_EXPECTED)), after_S_sound.
  - destruct r1 as [|[] r1]; try missed. destruct r1 as [|t r2]; [missed|].
    destruct (isReg T_6502_REG_Y t) eqn:Ey.
    + apply is_reg in Ey. subst t. apply sound_found; [apply more_refl|]. apply (shaped_plain _ _ _ (FIndY x)); [repeat constructor; exact Hx|cbn [tokens app]; rewrite <- app_assoc; reflexivity|left; reflexivity].
    + rewrite (hasnt_sub _ M_4510_IND_ZP_Z LATER eq_refl later). missed.
Qed.
Lemma long_sound : forall ts st, sound ts st (block_long o allowed ts st).
Proof.
  intros ts st. unfold block_long. destruct ts as [|[] ts]; try missed.
  match goal with |- context [negb (has allowed ?x)] => rewrite (hasnt_sub _ x LATER eq_refl later) end. missed.
Qed.
Lemma indirect_sound : forall ts st, sound ts st (block_indirect allowed ts st).
Proof.
  intros ts st. unfold block_indirect. destruct ts as [|[] ts]; try missed.
  match goal with |- context [negb (has allowed ?x)] => destruct (negb (has allowed x)) end; [missed|].
  destruct (parse_Expression ts) as [[[e r1]|]| |] eqn:E; cbn [bind]; try bad; [|missed].
  destruct (expression_of _ _ _ E) as (x & Hx & ->). destruct r1 as [|[] r1]; try missed.
  apply sound_found; [apply more_refl|]. apply (shaped_plain _ _ _ (FInd x)); [repeat constructor; exact Hx|cbn [tokens app]; rewrite <- app_assoc; reflexivity|left; reflexivity].
Qed.
Lemma addressed : forall (fz : bool) x r a, expression x -> In a [M_ZP; M_ABS] ->
  shaped a ((if fz then [TLess] else []) ++ x ++ r) r.
Proof.
  intros fz x r a Hx Ia. apply (shaped_plain _ _ _ (if fz then FZp x else FAddr x)); destruct fz; try exact Ia; try reflexivity;
    repeat constructor; exact Hx.
Qed.
Lemma addressed_x : forall (fz : bool) x r a, expression x -> In a [M_ZP_X; M_ABS_X] ->
  shaped a ((if fz then [TLess] else []) ++ x ++ TComma :: TId T_6502_REG_X :: r) r.
Proof.
  intros fz x r a Hx Ia. apply (shaped_plain _ _ _ (if fz then FZpX x else FAddrX x)); destruct fz; try exact Ia;
    try (repeat constructor; exact Hx); cbn [tokens app]; rewrite <- app_assoc; reflexivity.
Qed.
Lemma addressed_y : forall (fz : bool) x r a, expression x -> In a [M_ZP_Y; M_ABS_Y] ->
  shaped a ((if fz then [TLess] else []) ++ x ++ TComma :: TId T_6502_REG_Y :: r) r.
Proof.
  intros fz x r a Hx Ia. apply (shaped_plain _ _ _ (if fz then FZpY x else FAddrY x)); destruct fz; try exact Ia;
    try (repeat constructor; exact Hx); cbn [tokens app]; rewrite <- app_assoc; reflexivity.
Qed.
Lemma shaped_zero : forall ts r, shaped 0 ts r.
Proof. intros ts r. left. left. reflexivity. Qed.
Lemma address_start : forall ts, exists (fz : bool) r0,
  match ts with
  | TLess :: q => (true, false, false, q)
  | TOr :: q => if o_cpu o =? MOPT_CPU_65C816S then (false, true, false, q) else (false, false, false, ts)
  | TGreater :: q => if o_cpu o =? MOPT_CPU_65C816S then (false, false, true, q) else (false, false, false, ts)
  | _ => (false, false, false, ts)
  end = (fz, false, false, r0) /\ ts = ((if fz then [TLess] else []) ++ r0)%list.
Proof.
  intro ts. assert (C : (o_cpu o =? MOPT_CPU_65C816S) = false) by (destruct c; reflexivity). rewrite C.
  destruct ts as [|[] ts]; try (eexists false, _; split; reflexivity). exists true, ts. split; reflexivity.
Qed.
Lemma address_sound : forall ts st, sound ts st (block_address o allowed ts st).
Proof.
  intros ts st. unfold block_address.
  match goal with |- context [negb (has allowed ?x)] => destruct (negb (has allowed x)) end; [missed|].
  destruct (address_start ts) as (fz & r0 & -> & Ts). cbv iota.
  destruct (parse_Expression r0) as [[[e0 r1]|]| |] eqn:E; cbn [bind]; try bad; [|missed].
  destruct (expression_of _ _ _ E) as (x & Hx & ->). subst ts. destruct (e_isParens e0); [missed|].
  destruct (if fz then range_checked e0 0 0xFF st else Ok (e0, st)) as [[e st1]| |] eqn:Er; cbn [bind]; try bad.
  assert (M1 : more st st1).
  { destruct fz; [exact (checked_keeps _ _ _ _ _ _ Er)|]. injection Er as <- <-. apply more_refl. }
  rewrite (hasnt_sub _ M_816_LONG_ABS_X LATER eq_refl later), !andb_false_r.
  rewrite (index_x allowed later), (index_y allowed later).
  cbv zeta.
  assert (Addr : forall b1 b2, sound ((if fz then [TLess] else []) ++ x ++ r1) st
     (if e_isParens e then Ok (Missed st1) else
      if address_mode allowed b1 b2 =? 0 then Ok (Missed st1) else
      Ok (Found (AMode (address_mode allowed b1 b2) e ENull ENull (fz || false || false)) r1 st1))).
  { intros b1 b2. destruct (e_isParens e); [apply sound_missed, M1|]. destruct (address_mode allowed b1 b2 =? 0) eqn:N; [apply sound_missed, M1|].
    apply sound_found; [exact M1|]. cbn [am_mode]. apply addressed; [exact Hx|]. unfold address_mode in *.
    rewrite (hasnt_sub _ M_816_LONG_ABS LATER eq_refl later) in *. cbn [andb] in *.
    destruct (has allowed M_ZP && b1); [left; reflexivity|]. destruct (has allowed M_ABS); [right; left; reflexivity|discriminate]. }
  destruct r1 as [|t r2]; [apply Addr|]. destruct t; try apply Addr. clear Addr.
  destruct r2 as [|t r3]; [apply sound_missed, M1|].
  destruct (isReg T_6502_REG_X t) eqn:Ex.
  { apply is_reg in Ex. subst t. apply sound_found; [exact M1|]. cbn [am_mode].
    destruct ((in_base_page o e || fz) && has allowed M_ZP_X); [apply addressed_x; [exact Hx|left; reflexivity]|].
    destruct (has allowed M_ABS_X); [apply addressed_x; [exact Hx|right; left; reflexivity]|apply shaped_zero]. }
  destruct (isReg T_6502_REG_Y t) eqn:Ey.
  { apply is_reg in Ey. subst t. apply sound_found; [exact M1|]. cbn [am_mode].
    destruct ((in_base_page o e || fz) && has allowed M_ZP_Y); [apply addressed_y; [exact Hx|left; reflexivity]|].
    destruct (has allowed M_ABS_Y); [apply addressed_y; [exact Hx|right; left; reflexivity]|apply shaped_zero]. }
  destruct (isReg T_65816_REG_S t); [apply sound_found; [exact M1|left; cbn; tauto]|].
  destruct (parse_Expression (t :: r3)) as [[[e2 r4]|]| |] eqn:E2; cbn [bind]; try bad; [|apply sound_missed, M1].
  destruct (expression_of _ _ _ E2) as (y & Hy & Ey2). rewrite Ey2.
  assert (Two : sound ((if fz then [TLess] else []) ++ x ++ TComma :: y ++ r4) st
     (Ok (Found (AMode (Z.land allowed (M_BIT_ZP + M_ZP_ABS)) e e2 ENull (fz || false || false)) r4 st1))).
  { apply sound_found; [exact M1|]. cbn [am_mode]. destruct one_bit as [<-|H]; [apply shaped_zero|]. right. exists (FTwo x y), fz.
    split; [repeat constructor; assumption|]. split; [|destruct H as [<-|[<-|[]]]; cbn [candidates In]; tauto].
    cbn [several tokens]. rewrite andb_true_r. f_equal. rewrite <- app_assoc. reflexivity. }
  destruct r4 as [|u r4]; [exact Two|]. destruct u; try exact Two. clear Two.
  destruct (parse_Expression r4) as [[[e3 r5]|]| |] eqn:E3; cbn [bind]; try bad; [|apply sound_missed, M1].
  destruct (expression_of _ _ _ E3) as (z & Hz & ->).
  apply sound_found; [exact M1|]. cbn [am_mode]. right. exists (FThree x y z), fz.
  split; [repeat constructor; assumption|]. split; [|left; reflexivity].
  cbn [several tokens]. rewrite andb_true_r. f_equal. rewrite <- !app_assoc. cbn [app]. rewrite <- app_assoc. reflexivity.
Qed.
Lemma none_sound : forall ts st, sound ts st (block_none allowed ts st).
Proof.
  intros ts st. unfold block_none. destruct ((allowed =? 0) || has allowed M_NONE).
  - apply sound_found; [apply more_refl|]. apply (shaped_plain _ _ _ FNone); [constructor|reflexivity|left; reflexivity].
  - destruct (has allowed M_A); [|apply sound_failed, more_refl].
    apply sound_found; [apply more_refl|]. apply (shaped_plain _ _ _ FNone); [constructor|reflexivity|right; left; reflexivity].
Qed.
Lemma core_sound : forall ts st, sound ts st (x65_ParseAddressingModeCore F o allowed size ts st).
Proof.
  intros ts st. unfold x65_ParseAddressingModeCore.
  apply sound_else; [apply register_sound; left; split; reflexivity|intros st1 _].
  apply sound_else; [apply register_sound; right; reflexivity|intros st2 _].
  apply sound_else; [apply imm_sound|intros st3 _].
  apply sound_else; [apply indexed_sound|intros st4 _].
  apply sound_else; [apply long_sound|intros st5 _].
  apply sound_else; [apply indirect_sound|intros st6 _].
  apply sound_else; [apply address_sound|intros st7 _]. apply none_sound.
Qed.
Lemma page_shaped : forall mode mode1 ts r, shaped mode ts r -> page_mode allowed mode = Some mode1 -> shaped mode1 ts r.
Proof.
  intros mode mode1 ts r [H|(f & z & H1 & H2 & H3)] P.
  - unfold OTHER in H. each H; discriminate P.
  - right. exists f, z. split; [exact H1|]. split; [exact H2|].
    destruct f; cbn [candidates] in *; each H3; cbv -[has] in P; try discriminate P;
      try (match type of P with context [has ?a ?b] => destruct (has a b) end; try discriminate P); injection P as <-;
      first [left; reflexivity | right; left; reflexivity].
Qed.
Lemma parse_sound : forall ts st r st', x65_ParseAddressingMode F o allowed size ts st = Ok (r, st') ->
  more st st' /\ match r with Some (m, rest) => shaped (am_mode m) ts rest | None => True end.
Proof.
  intros ts st r st' H. unfold x65_ParseAddressingMode in H.
  destruct (x65_ParseAddressingModeCore F o allowed size ts st) as [x| |] eqn:C; cbn [bind] in H; try discriminate.
  destruct (core_sound ts st x C) as (M & Sh). destruct x as [m r1 st1|st1|st1]; cbn [outcome_state] in M.
  - destruct (am_forced m || negb (has (am_mode m) HANDLE_MODES) || negb (expr_IsConstant (am_expr m))).
    { destruct (am_mode m =? 0); injection H as <- <-; split; try assumption; exact I. }
    match type of H with (if negb ?b then _ else _) = _ => destruct (negb b) end.
    { injection H as <- <-. split; [|exact Sh]. destruct (has (am_mode m) ZP_MODES); [|exact M]. exact (more_trans _ _ _ M (more_error _ _)). }
    destruct (page_mode allowed (am_mode m)) as [mode1|] eqn:P.
    + match type of H with (if ?b then _ else _) = _ => destruct b end.
      * destruct (expr_And F (am_expr2 m) (expr_Const 0xFF)); cbn [bind] in H; try discriminate. injection H as <- <-.
        split; [exact M|]. exact (page_shaped _ _ _ _ Sh P).
      * destruct (expr_And F (am_expr m) (expr_Const 0xFF)); cbn [bind] in H; try discriminate. injection H as <- <-.
        split; [exact M|]. exact (page_shaped _ _ _ _ Sh P).
    + injection H as <- <-. split; assumption.
  - injection H as <- <-. split; [exact M|exact I].
  - injection H as <- <-. split; [exact M|exact I].
Qed.
End Only.

(** ** Handlers *)
Lemma done_keeps : forall st r b st', errs_kept st r -> done r = Ok (b, st') -> more st st'.
Proof. intros st r b st' K H. unfold done in H. destruct r as [x| |]; cbn [bind] in H; try discriminate. injection H as _ <-. apply K. reflexivity. Qed.
Lemma U8_keeps : forall e st, errs_kept st (x65_OutputU8Expression e st).
Proof.
  intros e st st' H. unfold x65_OutputU8Expression in H. destruct (range_checked e 0 255 st) as [[e1 st1]| |] eqn:E; cbn [bind] in H; try discriminate.
  exact (more_trans _ _ _ (checked_keeps _ _ _ _ _ _ E) (expr8_keeps _ _ _ H)).
Qed.
Lemma SU8_keeps : forall F e st, errs_kept st (x65_OutputSU8Expression F e st).
Proof.
  intros F e st st' H. unfold x65_OutputSU8Expression in H. destruct (range_checked e (-128) 255 st) as [[e1 st1]| |] eqn:E; cbn [bind] in H; try discriminate.
  destruct (expr_And F e1 (expr_Const 0xFF)); cbn [bind] in H; try discriminate.
  exact (more_trans _ _ _ (checked_keeps _ _ _ _ _ _ E) (expr8_keeps _ _ _ H)).
Qed.
Lemma U16_keeps : forall F e st, errs_kept st (x65_OutputU16Expression F e st).
Proof.
  intros F e st st' H. unfold x65_OutputU16Expression in H. destruct (range_checked e 0 65535 st) as [[e1 st1]| |] eqn:E; cbn [bind] in H; try discriminate.
  destruct (expr_And F e1 (expr_Const 0xFFFF)); cbn [bind] in H; try discriminate.
  exact (more_trans _ _ _ (checked_keeps _ _ _ _ _ _ E) (expr16_keeps _ _ _ H)).
Qed.
Lemma relative_keeps : forall F e st, errs_kept st (outputRelative F e st).
Proof.
  intros F e st st' H. unfold outputRelative in H. destruct (expr_PcRelative F (sect_Current st) e (-1)) as [e0| |]; cbn [bind] in H; try discriminate.
  destruct (range_checked e0 (-128) 127 st) as [[e1 st1]| |] eqn:E; cbn [bind] in H; try discriminate.
  exact (more_trans _ _ _ (checked_keeps _ _ _ _ _ _ E) (expr8_keeps _ _ _ H)).
Qed.
Lemma bit_keeps : forall F op e st, errs_kept st (bitOpcode F op e st).
Proof.
  intros F op e st st' H. unfold bitOpcode in H. destruct (range_checked e 0 7 st) as [[e1 st1]| |] eqn:E; cbn [bind] in H; try discriminate.
  destruct (expr_Asl F e1 (expr_Const 4)) as [e2| |]; cbn [bind] in H; try discriminate.
  destruct (expr_Or F (expr_Const op) e2); cbn [bind] in H; try discriminate.
  exact (more_trans _ _ _ (checked_keeps _ _ _ _ _ _ E) (expr8_keeps _ _ _ H)).
Qed.
Lemma run_keeps : forall F a m st b st', run_act F a m st = Ok (b, st') -> more st st'.
Proof.
  intros F a m st b st' H.
  assert (W : forall op out, (forall e st, errs_kept st (out e st)) -> op_with op out m st = Ok (b, st') -> more st st').
  { intros op out K Hw. unfold op_with in Hw. destruct (sect_OutputConst8 (u8 op) st) as [st1| |] eqn:E; cbn [bind] in Hw; try discriminate.
    exact (more_trans _ _ _ (const8_keeps _ _ _ E) (done_keeps _ _ _ _ (K _ _) Hw)). }
  destruct a as [op []]; cbn [run_act fst snd] in H.
  - exact (done_keeps _ _ _ _ (const8_keeps _ _) H).
  - apply (W _ _ (SU8_keeps F) H).
  - apply (W _ _ U8_keeps H).
  - apply (W _ _ (U16_keeps F) H).
  - apply (W _ _ (relative_keeps F) H).
  - unfold handleBITxBranch_C02 in H. destruct (sect_OutputConst8 (u8 op) st) as [st1| |] eqn:E; cbn [bind] in H; try discriminate.
    destruct (x65_OutputU8Expression (am_expr m) st1) as [st2| |] eqn:E2; cbn [bind] in H; try discriminate.
    exact (more_trans _ _ _ (const8_keeps _ _ _ E) (more_trans _ _ _ (U8_keeps _ _ _ E2) (done_keeps _ _ _ _ (relative_keeps _ _ _) H))).
  - unfold handleBIT_C02 in H. destruct (bitOpcode F op (am_expr m) st) as [st1| |] eqn:E; cbn [bind] in H; try discriminate.
    exact (more_trans _ _ _ (bit_keeps _ _ _ _ _ E) (done_keeps _ _ _ _ (U8_keeps _ _) H)).
  - unfold handleBITBranch_C02 in H. destruct (bitOpcode F op (am_expr m) st) as [st1| |] eqn:E; cbn [bind] in H; try discriminate.
    destruct (x65_OutputU8Expression (am_expr2 m) st1) as [st2| |] eqn:E2; cbn [bind] in H; try discriminate.
    exact (more_trans _ _ _ (bit_keeps _ _ _ _ _ E) (more_trans _ _ _ (U8_keeps _ _ _ E2) (done_keeps _ _ _ _ (relative_keeps _ _ _) H))).
Qed.

(** ** The tables *)
(** Mnemonics that are accepted although the processor does not have them. *)
Definition not_for (c : cpu) (s : string) : bool :=
  match c with C65C02 => String.eqb s "STP" || String.eqb s "WAI" | _ => false end.
Definition stored (c : cpu) (n : Z) (s : string) (f : form unit) (op : Z) (ot : out) : bool :=
  not_for c s ||
  existsb (fun kd => match opcode c n s kd with Some b => fits ot kd && ((u8 op =? b) || String.eqb s "RLA") | None => false end) (kinds true f).
Definition only (c : cpu) (n : Z) (s : string) : bool :=
  match lookup c n s with
  | None => true
  | Some h =>
      let allowed := allowed_by c h in
      negb (isCpu (x65_options (cpu_number c)) (p_cpu h)) ||
      negb (has allowed LATER) &&
      existsb (Z.eqb (Z.land allowed (M_IND_ZP_X + M_IND_ABS_X))) [0; M_IND_ZP_X; M_IND_ABS_X] &&
      existsb (Z.eqb (Z.land allowed (M_BIT_ZP + M_ZP_ABS))) [0; M_BIT_ZP; M_ZP_ABS] &&
      forallb (fun f => forallb (fun mode =>
        negb (has mode allowed) || match act (cpu_number c) (p_handler h) (p_base h) mode with
                                   | None => true
                                   | Some (op, ot) => stored c n s f op ot
                                   end) (candidates f)) shapes
  end.
Lemma all_only : forallb (fun p => forallb (fun w => only (fst p) (snd p) (fst w)) (words (snd p))) settings = true.
Proof. vm_compute. reflexivity. Qed.
Lemma assoc_in : forall s l id, assoc s l = TId id -> In (s, id) l.
Proof.
  intros s l id. induction l as [|[k v] l IH]; cbn [assoc]; [discriminate|].
  destruct (String.eqb_spec s k); [intro H; injection H as ->; subst; left; reflexivity|intro H; right; apply IH, H].
Qed.
Lemma assoc_kinds : forall s l, assoc s l = TOther \/ exists id, assoc s l = TId id.
Proof.
  intros s l. induction l as [|[k v] l IH]; cbn [assoc]; [left; reflexivity|].
  destruct (String.eqb s k); [right; exists v; reflexivity|exact IH].
Qed.
Lemma candidates_legacy : forall A (f : form A) mode, In mode (candidates f) -> In mode LEGACY.
Proof. intros A f mode H. destruct f; cbn [candidates] in H; each H; unfold LEGACY; cbn [In]; tauto. Qed.
Lemma other_not : forall mode allowed, In mode OTHER -> has allowed LATER = false -> has mode allowed = false.
Proof.
  intros mode allowed H La. unfold OTHER in H. unfold has. rewrite Z.land_comm. fold (has allowed mode). each H.
  - unfold has. rewrite Z.land_0_r. reflexivity.
  - apply (hasnt_sub _ M_816_IND_DISP_S_Y LATER eq_refl La).
  - apply (hasnt_sub _ M_816_DISP_S LATER eq_refl La).
Qed.

(** ** Source text *)
Definition written_expression (x : list piece) : Prop := exists e, x = [Operand e] \/ x = [Lp; Operand e; Rp].
Lemma registers : forall n, 0 <= n <= 3 ->
  forallb (fun w => (negb (snd w =? T_6502_REG_A) || String.eqb (fst w) "A") && (negb (snd w =? T_6502_REG_X) || String.eqb (fst w) "X") &&
                    (negb (snd w =? T_6502_REG_Y) || String.eqb (fst w) "Y")) (words n) = true.
Proof. intros n H. assert (C : n = 0 \/ n = 1 \/ n = 2 \/ n = 3) by lia. destruct C as [->|[->|[->| ->]]]; vm_compute; reflexivity. Qed.
Definition token_piece (t : token) : option piece :=
  match t with
  | TComma => Some Comma | TLp => Some Lp | TRp => Some Rp | THash => Some Hash | TLess => Some Less | TGreater => Some Greater
  | TXor => Some Caret | TExpr e => Some (Operand e)
  | TId id => if id =? T_6502_REG_A then Some (Word "A") else if id =? T_6502_REG_X then Some (Word "X") else
              if id =? T_6502_REG_Y then Some (Word "Y") else None
  | _ => None
  end.
Lemma lex1_back : forall n p t q, 0 <= n <= 3 -> lex1 n p = t -> token_piece t = Some q -> p = q.
Proof.
  intros n p t q N E T. destruct p; cbn [lex1] in E; subst t; cbn [token_piece] in T; try congruence.
  destruct (assoc_kinds s (words n)) as [A|(id & A)]; rewrite A in T; [discriminate|].
  apply assoc_in in A. pose proof (registers n N) as R. rewrite forallb_forall in R. specialize (R _ A). cbn [fst snd] in R.
  apply andb_prop in R. destruct R as (R & R3). apply andb_prop in R. destruct R as (R1 & R2). cbn [token_piece] in T.
  destruct (id =? T_6502_REG_A); [cbn [negb orb] in R1; apply String.eqb_eq in R1; congruence|].
  destruct (id =? T_6502_REG_X); [cbn [negb orb] in R2; apply String.eqb_eq in R2; congruence|].
  destruct (id =? T_6502_REG_Y); [cbn [negb orb] in R3; apply String.eqb_eq in R3; congruence|]. discriminate.
Qed.
Lemma lex_back : forall n ts ps l r, 0 <= n <= 3 -> lex n l = (ts ++ r)%list -> map token_piece ts = map Some ps ->
  exists rest, l = (ps ++ rest)%list /\ r = lex n rest.
Proof.
  intros n ts. induction ts as [|t ts IH]; intros ps l r N E M.
  - destruct ps; [|discriminate]. exists l. split; [reflexivity|symmetry; exact E].
  - destruct ps as [|p ps]; [discriminate|]. cbn [map] in M. injection M as M1 M2. destruct l as [|q l]; [discriminate|].
    cbn [lex map app] in E. injection E as E1 E2. destruct (IH ps l r N E2 M2) as (rest & -> & R).
    exists rest. split; [|exact R]. cbn [app]. f_equal. exact (lex1_back _ _ _ _ N E1 M1).
Qed.
Lemma expression_pieces : forall x, expression x -> exists p, map token_piece x = map Some p /\ written_expression p.
Proof.
  intros x (e & [-> | ->]); [exists [Operand e]|exists [Lp; Operand e; Rp]]; (split; [reflexivity|]); exists e; [left|right]; reflexivity.
Qed.
Lemma tokens_pieces : forall f : form (list token), Forall expression (operands f) ->
  exists g : form (list piece), map token_piece (tokens f) = map Some (text g) /\ Forall written_expression (operands g) /\ shape g = shape f.
Proof.
  intros f H.
  assert (P : forall a, In a (operands f) -> exists p, map token_piece a = map Some p /\ written_expression p).
  { intros a Ia. rewrite Forall_forall in H. apply expression_pieces, H, Ia. }
  Ltac one P a K := destruct (P a ltac:(cbn [operands In]; tauto)) as (p & M & W); exists (K p);
    (split; [cbn [tokens text map]; rewrite ?map_app; cbn [map]; rewrite M; reflexivity|split; [repeat constructor; exact W|reflexivity]]).
  destruct f as [| |a|a|a|a|a|a|a|a|a|a|a|a|a|a|a b|a b d];
    [exists FNone; repeat constructor|exists FAcc; repeat constructor|one P a (@FImm (list piece))|one P a (@FLow (list piece))|
     one P a (@FHigh (list piece))|one P a (@FBank (list piece))|one P a (@FSwap (list piece))|one P a (@FAddr (list piece))|
     one P a (@FAddrX (list piece))|one P a (@FAddrY (list piece))|one P a (@FZp (list piece))|one P a (@FZpX (list piece))|
     one P a (@FZpY (list piece))|one P a (@FIndX (list piece))|one P a (@FIndY (list piece))|one P a (@FInd (list piece))| |].
  - destruct (P a ltac:(cbn [operands In]; tauto)) as (p & M & W). destruct (P b ltac:(cbn [operands In]; tauto)) as (q & M1 & W1).
    exists (FTwo p q). split; [|split; [constructor; [exact W|constructor; [exact W1|constructor]]|reflexivity]].
    cbn [tokens text]. rewrite !map_app. cbn [map]. rewrite M, M1. reflexivity.
  - destruct (P a ltac:(cbn [operands In]; tauto)) as (p & M & W). destruct (P b ltac:(cbn [operands In]; tauto)) as (q & M1 & W1).
    destruct (P d ltac:(cbn [operands In]; tauto)) as (u & M2 & W2).
    exists (FThree p q u). split; [|split; [constructor; [exact W|constructor; [exact W1|constructor; [exact W2|constructor]]]|reflexivity]].
    cbn [tokens text]. rewrite !map_app. cbn [map]. rewrite !map_app. cbn [map]. rewrite M, M1, M2. reflexivity.
Qed.

Theorem only_manual : forall F c n s l st ts st', selectable c n ->
  x65_ParseIntegerInstruction F (x65_options (cpu_number c)) (lex n (Word s :: l)) st = Ok (true, ts, st') -> x_errors st' = x_errors st ->
  exists (f : form (list piece)) (z : bool) rest,
    Forall written_expression (operands f) /\ l = ((if z && several f then [Less] else []) ++ text f ++ rest)%list /\ ts = lex n rest /\
    (not_for c s = true \/ exists kd b, In kd (kinds true f) /\ opcode c n s kd = Some b).
Proof.
  intros F c n s l st ts st' Se H Q. fold (quiet st st') in Q.
  change (lex n (Word s :: l)) with (assoc s (words n) :: lex n l) in H.
  destruct (assoc_kinds s (words n)) as [A|(id & A)]; rewrite A in H; [discriminate|].
  unfold x65_ParseIntegerInstruction in H.
  destruct ((T_6502_ADC <=? id) && (id <=? T_65C02_SMB7)) eqn:Ir; [|discriminate].
  destruct (nth_error g_instructionHandlers (Z.to_nat (id - T_6502_ADC))) as [h|] eqn:Nh; [|discriminate].
  unfold x65_HandleToken in H. fold (allowed_by c h) in H. cbv zeta in H.
  destruct (isCpu (x65_options (cpu_number c)) (p_cpu h)) eqn:Cp.
  2: { injection H as _ <-. destruct (loud _ _ _ (more_refl st) Q). }
  pose proof all_only as O. rewrite forallb_forall in O. specialize (O _ (settings_in c n Se)). cbn [fst snd] in O.
  rewrite forallb_forall in O. specialize (O _ (assoc_in _ _ _ A)). cbn [fst] in O. unfold only, lookup in O. rewrite A, Ir, Nh in O.
  cbv zeta in O. rewrite Cp in O. cbn [negb orb] in O.
  apply andb_prop in O. destruct O as (O & Of). apply andb_prop in O. destruct O as (O & Ob). apply andb_prop in O. destruct O as (La & Oi).
  apply existsb_in in Ob. apply existsb_in in Oi. assert (La' : has (allowed_by c h) LATER = false) by (destruct (has (allowed_by c h) LATER); [discriminate|reflexivity]).
  destruct (x65_ParseAddressingMode F (x65_options (cpu_number c)) (allowed_by c h) (p_imm h) (lex n l) st) as [[r st1]| |] eqn:P; cbn [bind] in H; try discriminate.
  destruct (parse_sound F c (allowed_by c h) La' Oi Ob (p_imm h) _ _ _ _ P) as (M & Sh).
  destruct r as [[m r1]|]; [|injection H as _ <-; destruct (loud _ _ _ M Q)].
  destruct (has (am_mode m) (allowed_by c h)) eqn:Ha; [|injection H as _ <-; destruct (loud _ _ _ M Q)].
  destruct Sh as [Sh|(f & z & Fx & El & Ic)]; [rewrite (other_not _ _ Sh La') in Ha; discriminate|].
  destruct (apply_handler F (x65_options (cpu_number c)) (p_handler h) (p_base h) m st1) as [[b st2]| |] eqn:Hh; cbn [bind] in H; try discriminate.
  injection H as -> <- <-.
  destruct m as [mode e1 e2 e3 fo]. cbn [am_mode] in *.
  pose proof (act_ok F c (p_handler h) (p_base h) mode e1 e2 e3 fo st1 (candidates_legacy _ _ _ Ic)) as Ac. cbv zeta in Ac. rewrite Hh in Ac.
  rewrite forallb_forall in Of. specialize (Of _ (shape_in _ f)). rewrite forallb_forall in Of.
  assert (Ic' : In mode (candidates (shape f))) by (destruct f; exact Ic). specialize (Of _ Ic'). rewrite Ha in Of. cbn [negb orb] in Of.
  destruct (act (cpu_number c) (p_handler h) (p_base h) mode) as [[op ot]|].
  2: { destruct Ac as [(b & k & E)|(q & E)]; [injection E as _ ->; destruct (loud _ _ _ M Q)|discriminate]. }
  destruct (tokens_pieces f Fx) as (g & Tg & Wg & Sg).
  assert (Tz : map token_piece ((if z && several f then [TLess] else []) ++ tokens f) = map Some ((if z && several g then [Less] else []) ++ text g)).
  { rewrite !map_app, Tg. f_equal. replace (several g) with (several f) by (destruct f, g; try discriminate Sg; reflexivity).
    destruct (z && several f); reflexivity. }
  rewrite app_assoc in El.
  destruct Se as (N & _). destruct (lex_back _ _ _ _ _ N El Tz) as (rest & -> & R).
  exists g, z, rest. split; [exact Wg|]. split; [rewrite <- app_assoc; reflexivity|]. split; [exact R|].
  unfold stored in Of. apply orb_prop in Of. destruct Of as [Of|Of]; [left; exact Of|right].
  apply existsb_exists in Of. destruct Of as (kd & Ik & Ek). exists kd.
  destruct (opcode c n s kd) as [b|] eqn:Op; [|discriminate]. exists b. split; [|reflexivity].
  rewrite <- Sg in Ik. destruct g; exact Ik.
Qed.
