(** C07, C08, C09: expressions keep their value from source to image. *)
From Coq Require Import ZArith List Bool Lia ZifyBool.
From Verif Require Import Base BaseFacts Arith ExprSpec ExprModel LinkExprModel ExprLayout ExprTree LinkLayout
  ArithProofs ExprProofs ReduceProofs LinkExprProofs ExprTotal.
Import ListNotations.
Open Scope Z_scope.

(** ** C07: an expression entered in the assembler is reduced there or evaluated
    by the linker, to the value it has in the final layout. *)
Theorem C07_serialised_expression_keeps_value :
  forall F w base E cur garb g t v k a off id c,
  fmath_ok F -> env_ok w base E -> pc_known cur E -> at_place w base k a off E ->
  term_ok t -> defined w t -> divisors_known w t -> no_bit t -> tdepth t <= 256 ->
  meaning F E t = Some v -> linker_sees c id E t ->
  exists e ov e' bs,
    build F garb g w cur t = Ok e /\
    reduceExpression F w k a off (expr_Optimize w e) = Ok (ov, e') /\
    (forall x, ov = Some x -> x = v) /\
    writeExpression id e' = Ok bs /\
    calculateExpressionValue F c bs = Ok (Some (Entry None v)).
Proof.
  intros F w base E cur garb g t v k a off id c HF HE HP Hat Hok Hdef Hdk Hnb Hdep Hm (Hpc & Hsv & Hsb).
  destruct (build_total F w base E HF HE cur HP garb g t v Hok Hdef Hdk Hm) as [e He].
  destruct (build_ok F w base E HF HE cur HP garb g t e v Hok Hm He) as (Bf & D & P & S1 & K & _).
  destruct (optimize_ok F w base E HE garb e Bf) as (O & Do & Po & So & Ko).
  destruct (reduce_ok F w base E HF HE k a off Hat (expr_Optimize w e) v O) as (ov & e' & R & Hx & D' & Or & Pr & Sr & Kr).
  { intros s Hs. apply Hdef, S1, So, Hs. }
  { congruence. }
  assert (HB : has_bit e' = false).
  { eapply reduce_no_bit; [|exact R]. apply optimize_no_bit. eapply build_no_bit; eauto. }
  destruct (write_total id e' Or HB) as [bs W].
  exists e, ov, e', bs. split; [assumption|]. split; [assumption|]. split; [assumption|]. split; [assumption|].
  unfold calculateExpressionValue. rewrite <- (app_nil_r bs).
  rewrite (calc_write F E c id HF Hpc w base HE e' bs v Or W D').
  - reflexivity.
  - intros s Hs. apply Hsv, S1, So, Sr, Hs.
  - intros s Hs. apply Hsb, K, Ko, Kr, Hs.
  - change (zlen []) with 0. lia.
Qed.
Print Assumptions C07_serialised_expression_keeps_value.

(** A back-patch in the assembler or a link-time evaluation that gives a value
    gives this one, whatever the divisors. *)
Theorem C07_entered_expression_keeps_value :
  forall F w base E cur garb g t v k a off id c e,
  fmath_ok F -> env_ok w base E -> pc_known cur E -> at_place w base k a off E ->
  term_ok t -> defined w t -> tdepth t <= 256 ->
  meaning F E t = Some v -> linker_sees c id E t ->
  build F garb g w cur t = Ok e ->
  exists ov e',
    reduceExpression F w k a off (expr_Optimize w e) = Ok (ov, e') /\
    (forall x, ov = Some x -> x = v) /\
    (forall bs, writeExpression id e' = Ok bs ->
                calculateExpressionValue F c bs = Ok (Some (Entry None v))).
Proof.
  intros F w base E cur garb g t v k a off id c e HF HE HP Hat Hok Hdef Hdep Hm (Hpc & Hsv & Hsb) He.
  destruct (build_ok F w base E HF HE cur HP garb g t e v Hok Hm He) as (Bf & D & P & S1 & K & _).
  destruct (optimize_ok F w base E HE garb e Bf) as (O & Do & Po & So & Ko).
  destruct (reduce_ok F w base E HF HE k a off Hat (expr_Optimize w e) v O) as (ov & e' & R & Hx & D' & Or & Pr & Sr & Kr).
  { intros s Hs. apply Hdef, S1, So, Hs. }
  { congruence. }
  exists ov, e'. split; [assumption|]. split; [assumption|]. intros bs W.
  unfold calculateExpressionValue. rewrite <- (app_nil_r bs).
  rewrite (calc_write F E c id HF Hpc w base HE e' bs v Or W D').
  - reflexivity.
  - intros s Hs. apply Hsv, S1, So, Sr, Hs.
  - intros s Hs. apply Hsb, K, Ko, Kr, Hs.
  - change (zlen []) with 0. lia.
Qed.
Print Assumptions C07_entered_expression_keeps_value.

(** *** A concrete program for the examples: section 0 floats, section 1 is at
    $100.  Symbol 0 is imported, 1 and 2 are labels in section 0, 3 is a constant. *)
Definition exF : fmath := FMath (fun _ _ => 0) (fun _ _ => 0) (fun _ _ => 0) (fun _ => 0) (fun _ => 0)
  (fun _ => 0) (fun _ => 0) (fun _ => 0) (fun _ => 0).
Definition exSect0 : asect := ASect false false false false false false 0 10 0 (-1).
Definition exSect1 : asect := ASect true true false false false false 256 16 0 3.
Definition exWorld : world := World
  (fun s => match s with
            | 0%nat => Symbol SymImport false true true None 0
            | 1%nat => Symbol SymLabel false true true (Some 0%nat) 4
            | 2%nat => Symbol SymLabel false true true (Some 0%nat) 9
            | _ => Symbol SymEqu true false true None 7
            end) [exSect0; exSect1].
Definition exEnv : env := Env
  (fun s => match s with 0%nat => 5000 | 1%nat => 1004 | 2%nat => 1009 | _ => 7 end)
  (fun s => match s with 0%nat => 2 | 1%nat => 4 | 2%nat => 4 | _ => 0 end) 1006.
Definition exBase (k : nat) : Z := match k with 0%nat => 1000 | _ => 256 end.
(** ((imported + 3) * constant - bank(imported)) ^ (label2 - label1) *)
Definition exTerm : term :=
  Bin OpXor (Bin OpSub (Bin OpMul (Paren (Bin OpAdd (Sym 0) (Num 3))) (Sym 3)) (BankOf 0))
            (Paren (Bin OpSub (Sym 2) (Sym 1))).
Definition exId (s : nat) : Z := Z.of_nat s + 20.
Definition exView (v : Z) : symview := SymView v (Some 0%nat) true false.
Definition exCtx : linkctx := LinkCtx
  (fun i => match i with 20 => Ok (exView 5000) | 21 => Ok (exView 1004) | 22 => Ok (exView 1009)
                       | 23 => Ok (exView 7) | _ => Err end)
  (fun i => match i with 20 => Ok (Some 2) | _ => Err end) (fun _ _ => Err) 0 1000 6.
Lemma ex_fmath_ok : fmath_ok exF.
Proof. unfold fmath_ok, is_s32; cbn; repeat split; lia. Qed.
Lemma ex_env_ok : env_ok exWorld exBase exEnv.
Proof.
  unfold env_ok. split; [|split; [|split; [|split; [|split; [|split]]]]].
  - intros [|[|[|s]]]; cbn; unfold is_s32; lia.
  - intros [|[|[|s]]]; cbn; unfold is_s32; lia.
  - intros [|[|[|s]]]; cbn; congruence.
  - intros [|[|[|s]]]; cbn; congruence.
  - intros [|[|[|s]]]; cbn; try discriminate; eauto.
  - intros [|[|[|s]]] k; cbn; try discriminate; intros H; injection H as <-; exists exSect0; cbn; repeat split;
      (lia || discriminate).
  - intros [|[|k]] a; cbn; [| |destruct k; discriminate]; intros H; injection H as <-; cbn; [discriminate|reflexivity].
Qed.
Lemma ex_linker_sees : linker_sees exCtx exId exEnv exTerm.
Proof.
  unfold linker_sees. split; [reflexivity|]. split.
  - intros s H. repeat (destruct H as [<-|H]; [eexists; repeat split|]). destruct H.
  - intros s H. repeat (destruct H as [<-|H]; [reflexivity|]). destruct H.
Qed.
Lemma ex_defined : defined exWorld exTerm.
Proof. intros s H. repeat (destruct H as [<-|H]; [split; [reflexivity|discriminate]|]). destruct H. Qed.
Example C07_example_hypotheses :
  env_ok exWorld exBase exEnv /\ pc_known (Some exSect0) exEnv /\ at_place exWorld exBase 0 exSect0 6 exEnv /\
  term_ok exTerm /\ defined exWorld exTerm /\ divisors_known exWorld exTerm /\ no_bit exTerm /\
  tdepth exTerm <= 256 /\ meaning exF exEnv exTerm = Some 35022 /\ linker_sees exCtx exId exEnv exTerm.
Proof.
  split; [apply ex_env_ok|]. split; [cbn; intros [|]; discriminate|].
  split; [split; reflexivity|]. split; [cbn; unfold is_s32; lia|]. split; [apply ex_defined|].
  split; [cbn; tauto|]. split; [cbn; tauto|]. split; [cbn; lia|]. split; [reflexivity|apply ex_linker_sees].
Qed.

(** BIT of a value not known at assembly time can be entered but not written. *)
Theorem C07_bit_refuted :
  exists t v e, term_ok t /\ defined exWorld t /\ meaning exF exEnv t = Some v /\
    build exF (fun _ => 0) 0 exWorld None t = Ok e /\
    forall id, exists ov e', reduceExpression exF exWorld 0 exSect0 6 (expr_Optimize exWorld e) = Ok (ov, e') /\
               ov = None /\ writeExpression id e' = Err.
Proof.
  exists (Un OpBit (Bin OpAnd (Sym 0) (Num 8))), 3. eexists.
  split; [cbn; unfold is_s32; lia|]. split; [intros s [<-|[]]; split; [reflexivity|discriminate]|].
  split; [reflexivity|]. split; [reflexivity|].
  intros id. do 2 eexists. split; [reflexivity|]. split; reflexivity.
Qed.
(** When linking relocatably, subtracting two symbols of one section loses the
    constants added to them: (i + 4) - j with i and j imported, both in one
    section of another file, at offsets 10 and 2. *)
Definition exImports : world := World (fun _ => Symbol SymImport false true true None 0) [exSect0].
Definition exReloc : linkctx := LinkCtx
  (fun i => if i =? 1 then Ok (SymView 10 (Some 7%nat) false false) else Ok (SymView 2 (Some 7%nat) false false))
  (fun _ => Err) (fun _ _ => Err) 0 (-1) 0.
Theorem C07_relocatable_difference_refuted :
  exists t e ov e' bs,
    (forall b, 0 <= b < 2 ^ 20 ->
       meaning exF (Env (fun s => if Nat.eqb s 1 then b + 10 else b + 2) (fun _ => 0) 0) t = Some 12) /\
    build exF (fun _ => 0) 0 exImports None t = Ok e /\
    reduceExpression exF exImports 0 exSect0 0 (expr_Optimize exImports e) = Ok (ov, e') /\ ov = None /\
    writeExpression Z.of_nat e' = Ok bs /\
    calculateExpressionValue exF exReloc bs = Ok (Some (Entry None 8)).
Proof.
  exists (Bin OpSub (Bin OpAdd (Sym 1) (Num 4)) (Sym 2)). do 4 eexists.
  split.
  { intros b Hb. cbn [meaning e_sym op_meaning Nat.eqb]. unfold inr.
    replace (- 2 ^ 31 <=? b + 10 + 4) with true by lia. replace (b + 10 + 4 <? 2 ^ 31) with true by lia. cbn [andb].
    replace (b + 10 + 4 - (b + 2)) with 12 by lia. reflexivity. }
  split; [reflexivity|]. split; [reflexivity|]. split; [reflexivity|]. split; reflexivity.
Qed.

(** ** C08: folding when entered, reduction at the end of the file and evaluation
    by the linker agree on every expression of literals. *)
Lemma raw_ok : forall F E t v, literal t -> meaning F E t = Some v ->
  opf (raw t) /\ den F E (raw t) = Some v /\ svals (raw t) = [] /\ sbanks (raw t) = [] /\ depth (raw t) = tdepth t.
Proof.
  induction t; cbn [literal raw meaning]; intros v Hl Hm; try tauto.
  - injection Hm as <-. unfold expr_Const. cbn. auto.
  - apply IHt; assumption.
  - destruct (meaning F E t) as [a|] eqn:M; [|discriminate]. destruct (IHt a Hl eq_refl) as (O & D & SV & SB & DP).
    assert (U : un o = true) by (destruct o; try discriminate; reflexivity).
    assert (N : o <> OpBank /\ o <> OpNone) by (split; intros ->; discriminate). destruct N as [N1 N2].
    split; [|split; [|split; [|split]]].
    + cbn [opf]. split; [reflexivity|]. rewrite U. destruct o; try congruence; auto.
    + rewrite den_un by assumption. rewrite D. assumption.
    + cbn. assumption.
    + cbn. destruct o; try congruence; assumption.
    + cbn [depth tdepth]. rewrite U, DP. destruct o; try congruence; reflexivity.
  - destruct Hl as [L1 L2]. destruct (meaning F E t1) as [a|] eqn:M1; [|discriminate].
    destruct (meaning F E t2) as [b|] eqn:M2; [|discriminate].
    destruct (IHt1 a L1 eq_refl) as (O1 & D1 & SV1 & SB1 & DP1). destruct (IHt2 b L2 eq_refl) as (O2 & D2 & SV2 & SB2 & DP2).
    assert (U : un o = false) by (destruct o; try discriminate; reflexivity).
    assert (N : o <> OpBank /\ o <> OpNone) by (split; intros ->; discriminate). destruct N as [N1 N2].
    split; [|split; [|split; [|split]]].
    + cbn [opf]. split; [reflexivity|]. rewrite U. destruct o; try congruence; auto.
    + rewrite den_bin by assumption. rewrite D1, D2. assumption.
    + cbn. rewrite SV1, SV2. reflexivity.
    + cbn. rewrite SB1, SB2. destruct o; try congruence; reflexivity.
    + cbn [depth tdepth]. rewrite U, DP1, DP2. destruct o; try congruence; reflexivity.
Qed.
Lemma raw_write : forall F E id t v, literal t -> no_bit t -> meaning F E t = Some v ->
  writeExpression id (raw t) = Ok (postfix t).
Proof.
  induction t; cbn [literal no_bit raw postfix meaning]; intros v Hl Hb Hm; try tauto.
  - eapply IHt; eauto.
  - destruct (meaning F E t) as [a|] eqn:M; [|discriminate]. destruct Hb as [Nb Hb].
    cbn [writeExpression bind]. rewrite (IHt a Hl Hb eq_refl). cbn [bind app].
    destruct o; try discriminate; try congruence; reflexivity.
  - destruct Hl as [L1 L2]. destruct Hb as [B1 B2]. destruct (meaning F E t1) as [a|] eqn:M1; [|discriminate].
    destruct (meaning F E t2) as [b|] eqn:M2; [|discriminate].
    cbn [writeExpression]. rewrite (IHt1 a L1 B1 eq_refl), (IHt2 b L2 B2 eq_refl). cbn [bind].
    destruct o; try discriminate; reflexivity.
Qed.
Lemma raw_reduces : forall F E w k a off t v e', literal t -> meaning F E t = Some v ->
  reduceExpression F w k a off (raw t) = Ok (None, e') -> False.
Proof.
  induction t; cbn [literal raw meaning]; intros v e' Hl Hm H; try tauto.
  - discriminate.
  - eauto.
  - destruct (meaning F E t) as [x|] eqn:M; [|discriminate].
    cbn [reduceExpression] in H.
    destruct (reduceExpression F w k a off (raw t)) as [[[y|] r']| |] eqn:R;
      [|exfalso; eauto| |]; destruct o; try discriminate.
    cbn in H. destruct (isPowerOfTwo (u32 y)); discriminate.
  - destruct Hl as [L1 L2]. destruct (meaning F E t1) as [x|] eqn:M1; [|discriminate].
    destruct (meaning F E t2) as [y|] eqn:M2; [|discriminate]. cbn [reduceExpression] in H.
    destruct (reduceExpression F w k a off (raw t1)) as [[[p|] l']| |] eqn:R1; [|exfalso; eauto| |];
      (destruct (reduceExpression F w k a off (raw t2)) as [[[q|] r']| |] eqn:R2; [|exfalso; eauto| |]);
      destruct o; try discriminate Hm; cbn [bind is_unary] in H; try discriminate H;
      repeat match type of H with
             | (let! _ := ?x in _) = _ => destruct x as [?| |]; cbn [bind] in H; try discriminate H
             | match ?x with _ => _ end = _ => destruct x; try discriminate H
             | (if ?x then _ else _) = _ => destruct x; try discriminate H
             end; discriminate H.
Qed.

Theorem C08_three_evaluators_agree :
  forall F E w base cur garb g k a off c id t v,
  fmath_ok F -> env_ok w base E -> pc_known cur E -> at_place w base k a off E ->
  u32 (c_cpuLocation c + c_offset c) = u32 (e_pc E) ->
  literal t -> no_bit t -> tdepth t <= 256 -> meaning F E t = Some v ->
  (exists e, build F garb g w cur t = Ok e /\ expr_IsConstant e = true /\ e_v e = v) /\
  (exists e', reduceExpression F w k a off (raw t) = Ok (Some v, e')) /\
  writeExpression id (raw t) = Ok (postfix t) /\
  calculateExpressionValue F c (postfix t) = Ok (Some (Entry None v)).
Proof.
  intros F E w base cur garb g k a off c id t v HF HE HP Hat Hpc Hl Hb Hd Hm.
  assert (HK : term_ok t /\ defined w t /\ divisors_known w t /\ known w t).
  { clear - Hl. unfold defined. induction t; cbn in *; try tauto.
    - destruct Hl as [L1 L2]. destruct (IHt1 L1) as (A1 & B1 & C1 & D1). destruct (IHt2 L2) as (A2 & B2 & C2 & D2).
      split; [auto|]. split; [intros s Hs; apply in_app_or in Hs as [Hs|Hs]; auto|].
      split; [repeat split; auto; destruct o; auto|auto]. }
  destruct HK as (Hok & Hdef & Hdk & Hkn).
  destruct (raw_ok F E t v Hl Hm) as (O & D & SV & SB & DP).
  pose proof (raw_write F E id t v Hl Hb Hm) as W.
  split; [|split; [|split]].
  - destruct (build_total F w base E HF HE cur HP garb g t v Hok Hdef Hdk Hm) as [e He].
    exists e. pose proof (known_const F w cur garb g t e Hkn He) as C. split; [assumption|]. split; [assumption|].
    destruct (build_ok F w base E HF HE cur HP garb g t e v Hok Hm He) as (_ & De & _).
    rewrite (den_const F E e C) in De. congruence.
  - destruct (reduce_ok F w base E HF HE k a off Hat (raw t) v O) as (ov & e' & R & Hx & _).
    { rewrite SV. intros s []. }
    { assumption. }
    destruct ov as [x|]; [rewrite (Hx x eq_refl) in R; eauto|].
    exfalso. eapply raw_reduces; eauto.
  - assumption.
  - unfold calculateExpressionValue. rewrite <- (app_nil_r (postfix t)).
    rewrite (calc_write F E c id HF Hpc w base HE (raw t) (postfix t) v O W D).
    + reflexivity.
    + rewrite SV. intros s [].
    + rewrite SB. intros s [].
    + change (zlen []) with 0. lia.
Qed.
Print Assumptions C08_three_evaluators_agree.
Example C08_example :
  let t := Bin OpAsr (Bin OpMul (Num (-7)) (Paren (Bin OpXor (Num 100) (Num (-3))))) (Num 2) in
  literal t /\ no_bit t /\ meaning exF exEnv t = Some 180.
Proof. cbn. unfold is_s32. repeat split; lia. Qed.
(** Every operator, on two or one literal operands. *)
Corollary C08_operators_agree : forall F E w base cur garb g k a off c o x y v,
  fmath_ok F -> env_ok w base E -> pc_known cur E -> at_place w base k a off E ->
  u32 (c_cpuLocation c + c_offset c) = u32 (e_pc E) ->
  is_s32 x -> is_s32 y -> op_meaning F o x y = Some v ->
  exists b, op_code o = Some b /\
  (exists e, build F garb g w cur (Bin o (Num x) (Num y)) = Ok e /\ expr_IsConstant e = true /\ e_v e = v) /\
  (exists e', reduceExpression F w k a off
     (ENode TOperation false o 0 0 (expr_Const x) (expr_Const y)) = Ok (Some v, e')) /\
  calculateExpressionValue F c ((30 :: le32 (u32 x)) ++ (30 :: le32 (u32 y)) ++ [b]) = Ok (Some (Entry None v)).
Proof.
  intros F E w base cur garb g k a off c o x y v HF HE HP Hat Hpc Hx Hy Hm.
  destruct (C08_three_evaluators_agree F E w base cur garb g k a off c (fun _ => 0) (Bin o (Num x) (Num y)) v)
    as (A & B & _ & D); auto.
  - cbn. auto.
  - cbn. auto.
  - cbn. lia.
  - cbn [raw postfix] in B, D. destruct (op_code o) as [b|] eqn:OC; [exists b; auto|].
    destruct o; discriminate.
Qed.
Print Assumptions C08_operators_agree.
(** Division by zero is reported when the operands are known as the expression is
    entered, and is undefined behaviour later. *)
Theorem C08_zero_divide : forall F garb g w cur k a off c x o, o = OpDiv \/ o = OpMod -> is_s32 x ->
  build F garb g w cur (Bin o (Num x) (Num 0)) = Err /\
  (forall b, op_code o = Some b ->
     calculateExpressionValue F c ((30 :: le32 (u32 x)) ++ (30 :: le32 0) ++ [b]) = UB) /\
  reduceExpression F w k a off (ENode TOperation false o 0 0 (expr_Const x) (expr_Const 0)) = UB.
Proof.
  intros F garb g w cur k a off c x o Ho Hx. split; [|split].
  - destruct Ho as [-> | ->]; reflexivity.
  - intros b Hb. unfold calculateExpressionValue.
    destruct (word_le32 (u32 x) (u32_range x)) as (a0 & a1 & a2 & a3 & HW & HV). rewrite HW.
    destruct Ho as [-> | ->]; injection Hb as <-; reflexivity.
  - destruct Ho as [-> | ->]; reflexivity.
Qed.

(** ** C09: optimisation *)
Fixpoint no_parens (e : expr) : Prop :=
  match e with
  | ENull => True
  | ENode t _ _ _ _ l r => t <> TParens /\ no_parens l /\ no_parens r
  end.
Fixpoint folded (e : expr) : Prop :=
  match e with
  | ENull => True
  | ENode t c _ _ _ l r => (c = true -> t = TConst /\ l = ENull /\ r = ENull) /\ folded l /\ folded r
  end.
Lemma opf_shape : forall e, opf e -> no_parens e /\ folded e.
Proof.
  induction e as [|t c o v s l IHl r IHr]; [intros []|]. intros H. destruct t.
  - apply opf_split in H as [-> [(-> & -> & ->)|[(Hnb & Hnn & Hu & -> & Br)|(Hnb & Hnn & Hu & Bl & Br)]]]; cbn.
    + repeat split; congruence.
    + destruct (IHr Br). repeat split; auto; congruence.
    + destruct (IHr Br). destruct (IHl Bl). repeat split; auto; congruence.
  - cbn in H. destruct H as (-> & Hl & Hr). destruct (IHl Hl). destruct (IHr Hr). cbn. repeat split; auto; congruence.
  - cbn in H. destruct H as (-> & _ & -> & ->). cbn. repeat split; auto; congruence.
  - cbn in H. destruct H as (-> & -> & ->). cbn. repeat split; auto; congruence.
  - destruct H.
Qed.

Theorem C09_optimisation_preserves_value :
  forall F w base E cur garb g t v e,
  fmath_ok F -> env_ok w base E -> pc_known cur E -> term_ok t ->
  meaning F E t = Some v -> build F garb g w cur t = Ok e ->
  den F E e = Some v /\ den F E (expr_Optimize w e) = Some v /\
  no_parens (expr_Optimize w e) /\ folded (expr_Optimize w e) /\
  (expr_IsConstant e = true -> exists s, expr_Optimize w e = ENode TConst true OpNone v s ENull ENull).
Proof.
  intros F w base E cur garb g t v e HF HE HP Hok Hm He.
  destruct (build_ok F w base E HF HE cur HP garb g t e v Hok Hm He) as (Bf & D & _).
  destruct (optimize_ok F w base E HE garb e Bf) as (O & Do & _).
  destruct (opf_shape _ O) as [N1 N2].
  split; [assumption|]. split; [congruence|]. split; [assumption|]. split; [assumption|].
  intros C. destruct (opt_const w e Bf C) as [s Hs]. exists s. rewrite Hs.
  rewrite (den_const F E e C) in D. injection D as ->. reflexivity.
Qed.
Print Assumptions C09_optimisation_preserves_value.
(** Reduction at the end of the file keeps the value too. *)
Theorem C09_reduction_preserves_value :
  forall F w base E cur garb g t v e k a off,
  fmath_ok F -> env_ok w base E -> pc_known cur E -> at_place w base k a off E -> term_ok t -> defined w t ->
  meaning F E t = Some v -> build F garb g w cur t = Ok e ->
  exists ov e', reduceExpression F w k a off (expr_Optimize w e) = Ok (ov, e') /\
    (forall x, ov = Some x -> x = v) /\ den F E e' = Some v /\ no_parens e' /\ folded e'.
Proof.
  intros F w base E cur garb g t v e k a off HF HE HP Hat Hok Hdef Hm He.
  destruct (build_ok F w base E HF HE cur HP garb g t e v Hok Hm He) as (Bf & D & _ & S1 & _).
  destruct (optimize_ok F w base E HE garb e Bf) as (O & Do & _ & So & _).
  destruct (reduce_ok F w base E HF HE k a off Hat (expr_Optimize w e) v O) as (ov & e' & R & Hx & D' & Or & _).
  { intros s Hs. apply Hdef, S1, So, Hs. }
  { congruence. }
  destruct (opf_shape _ Or) as [N1 N2]. exists ov, e'. auto.
Qed.
Print Assumptions C09_reduction_preserves_value.
Example C09_example : exists e, build exF (fun _ => 99) 0 exWorld (Some exSect0) exTerm = Ok e /\
  expr_Optimize exWorld e <> e /\ meaning exF exEnv exTerm = Some 35022.
Proof. eexists. split; [reflexivity|]. split; [discriminate|reflexivity]. Qed.

(** A pc-relative parenthesised constant in a section at a fixed address loses
    the subtraction of the program counter when optimised as part of a larger
    expression: pcrel((100)) + imported, at address $110. *)
Theorem C09_pcrel_parens_refuted :
  exists t v e v', let E := Env (e_sym exEnv) (e_bank exEnv) 272 in
    env_ok exWorld exBase E /\ pc_known (Some exSect1) E /\
    meaning exF E t = Some v /\ build exF (fun _ => 0) 0 exWorld (Some exSect1) t = Ok e /\
    den exF E (expr_Optimize exWorld e) = Some v' /\ v <> v'.
Proof.
  exists (Bin OpAdd (PcRel 0 (Paren (Num 100))) (Sym 0)), 4828. eexists. exists 5100. cbv zeta.
  split; [exact ex_env_ok|]. split; [cbn; reflexivity|].
  split; [reflexivity|]. split; [reflexivity|]. split; [reflexivity|discriminate].
Qed.
(** Entering a division by a value not yet known may be refused as a division by
    zero: what is tested is the low half of a pointer. *)
Theorem C09_garbage_division_refuted :
  exists t v garb, term_ok t /\ defined exWorld t /\ meaning exF exEnv t = Some v /\
    build exF garb 0 exWorld None t = Err.
Proof.
  exists (Bin OpDiv (Num 100) (Bin OpAnd (Sym 0) (Num 15))), 12, (fun _ => 4096).
  split; [cbn; unfold is_s32; lia|]. split; [intros s [<-|[]]; split; [reflexivity|discriminate]|].
  split; reflexivity.
Qed.
(** Optimisation alone does not fold a sum with a symbol that became constant
    after the expression was entered; reduction does. *)
Theorem C09_later_constant_refuted :
  exists garb w w' t e, (forall s, s <> 0%nat -> w_symbol w s = w_symbol w' s) /\
    y_constant (w_symbol w' 0) = true /\ build exF garb 0 w None t = Ok e /\
    expr_IsConstant (expr_Optimize w' e) = false /\ symtype_eqb (y_type (w_symbol w' 0)) SymEqu = true /\
    t = Bin OpAdd (Sym 0) (Num 1).
Proof.
  exists (fun _ => 0), (World (fun _ => Symbol SymUndefined false false true None 0) []),
    (World (fun s => match s with 0%nat => Symbol SymEqu true false true None 5 | _ =>
       Symbol SymUndefined false false true None 0 end) []), (Bin OpAdd (Sym 0) (Num 1)).
  eexists. split; [intros [|s] Hs; [congruence|reflexivity]|]. split; [reflexivity|]. split; [reflexivity|].
  split; reflexivity || (split; reflexivity).
Qed.
