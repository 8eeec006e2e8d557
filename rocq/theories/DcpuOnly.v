(** Proofs about the DCPU-16 instruction parser: reports, and only what the specification
    describes is accepted. *)
From Coq Require Import ZArith List Bool Lia ZifyBool String.
From Verif Require Import Base BaseFacts Arith ArithProofs ExprSpec ExprModel ExprLayout ObjWriteModel OptModel
  SectModel SectSpec SectErrors InstrSpec InstrProofs.
From Verif Require X65Spec X65Only X65Range Z80Range.
From Verif Require Import DcpuModel DcpuSpec DcpuProofs.
Import ListNotations.
Open Scope string_scope.
Open Scope list_scope.
Open Scope Z_scope.
Notation quiet := X65Only.quiet.
Notation is_num := Z80Range.is_num.
Notation num_checked := Z80Range.num_checked.

(** ** Reports are kept *)
Lemma outputAddr_keeps : forall a st, errs_kept st (outputAddr a st).
Proof. intros [|e|] st; [apply keeps_self|apply expr16_keeps|apply keeps_bad]. Qed.
Lemma generic_keeps : forall m1 m2 d st, errs_kept st (genericInstr m1 m2 d st).
Proof.
  intros m1 m2 d st. unfold genericInstr. apply keeps_bind; [apply const16_keeps|]. intros st1 _.
  apply keeps_bind; [apply outputAddr_keeps|]. intros st2 _. apply outputAddr_keeps.
Qed.
Lemma run_keeps : forall o p m1 m2 d st, errs_kept st (run o p m1 m2 d st).
Proof.
  intros o p m1 m2 d st. destruct p; cbn [run]; unfold addSubInstr; try match goal with |- context [if ?b then _ else _] => destruct b end; try apply generic_keeps.
  unfold jsrInstr. apply keeps_bind; [apply const16_keeps|]. intros st1 _. apply outputAddr_keeps.
Qed.
Lemma add_keeps : forall F reg a ts st reg1 a1 ts1 st1 r, indirectAdd F reg a ts st = Ok (Some (reg1, a1, ts1, st1), r) -> more st st1.
Proof.
  intros F reg a ts st reg1 a1 ts1 st1 r H. unfold indirectAdd in H.
  destruct (indirectComponent ts) as [[[[n|e] r0]|]| |]; cbn [bind] in H; try discriminate H.
  - destruct reg; injection H as <- <- <- <- _; [apply more_error|apply more_refl].
  - destruct a as [a|]; [destruct (expr_Binary F OpAdd a e); cbn [bind] in H; try discriminate H|]; injection H as <- <- <- <- _; apply more_refl.
Qed.
Lemma sub_keeps : forall F w reg a ts st reg1 a1 ts1 st1 r, indirectSubtract F w reg a ts st = Ok (Some (reg1, a1, ts1, st1), r) -> more st st1.
Proof.
  intros F w reg a ts st reg1 a1 ts1 st1 r H. unfold indirectSubtract in H.
  destruct (indirectComponent (parse_GetToken ts)) as [[[[n|e] r0]|]| |]; cbn [bind] in H; try discriminate H.
  - injection H as <- <- <- <- _. apply more_error.
  - destruct a as [a|]; [|discriminate H]. destruct (expr_Sub F w a e); cbn [bind] in H; try discriminate H. injection H as <- <- <- <- _. apply more_refl.
Qed.
Definition loop_state (o : option partial) (st : xstate) : Prop := match o with Some (_, _, _, st2) => st2 = st | None => True end.
Lemma loop_keeps : forall F w fuel reg a ts st o r st1, indirectLoop F w fuel reg a ts st = Ok (o, r, st1) -> more st st1 /\ loop_state o st1.
Proof.
  intros F w fuel. induction fuel as [|fuel IH]; intros reg a ts st o r st1 H; [discriminate H|]. cbn [indirectLoop] in H.
  destruct ts as [|[] ts]; try (injection H as <- <- <-; split; [apply more_refl|reflexivity]).
  - destruct (indirectAdd F reg a ts st) as [[[[[[reg1 a1] ts1] st2]|] r1]| |] eqn:E; cbn [bind] in H; try discriminate H.
    + destruct (IH _ _ _ _ _ _ _ H) as (M & L). split; [exact (more_trans _ _ _ (add_keeps _ _ _ _ _ _ _ _ _ _ E) M)|exact L].
    + injection H as <- <- <-. split; [apply more_refl|exact I].
  - destruct (indirectSubtract F w reg a ts st) as [[[[[[reg1 a1] ts1] st2]|] r1]| |] eqn:E; cbn [bind] in H; try discriminate H.
    + destruct (IH _ _ _ _ _ _ _ H) as (M & L). split; [exact (more_trans _ _ _ (sub_keeps _ _ _ _ _ _ _ _ _ _ _ E) M)|exact L].
    + injection H as <- <- <-. split; [apply more_refl|exact I].
Qed.
Lemma su16_keeps : forall F e st e1 st1, expressionCheckSU16 F e st = Ok (e1, st1) -> more st st1.
Proof.
  intros F e st e1 st1 H. unfold expressionCheckSU16 in H. destruct (range_checked e (-32768) 65535 st) as [[e0 st0]| |] eqn:E; cbn [bind] in H; try discriminate H.
  destruct (expr_Binary F OpAnd e0 (expr_Const 65535)); cbn [bind] in H; try discriminate H. injection H as _ <-. exact (checked_keeps _ _ _ _ _ _ E).
Qed.
Lemma rb_keeps : forall ts st r st1, parse_ExpectRb ts st = (r, st1) -> more st st1.
Proof. intros [|[] ts] st r st1 H; injection H as <- <-; first [apply more_error | apply more_refl]. Qed.
Lemma indirect_keeps : forall F w al ts st o r st1, indirectAddressing F w al ts st = Ok (o, r, st1) -> more st st1.
Proof.
  intros F w al ts st o r st1 H. unfold indirectAddressing in H.
  destruct ts as [|[] ts]; try (injection H as <- <- <-; apply more_refl).
  destruct (indirectComponent ts) as [[[c r1]|]| |]; cbn [bind] in H; try discriminate H; [|injection H as <- <- <-; apply more_refl].
  destruct (match c with CReg n => (Some n, None) | CExpr e => (None, Some e) end) as [reg a].
  destruct (indirectLoop F w (S (List.length r1)) reg a r1 st) as [[[o2 r2] st2]| |] eqn:El; cbn [bind] in H; try discriminate H.
  destruct (loop_keeps _ _ _ _ _ _ _ _ _ _ El) as (M & L). destruct o2 as [[[[reg2 a2] ts2] st2']|]; [|injection H as <- <- <-; exact M].
  cbn [loop_state] in L. subst st2'. destruct (parse_ExpectRb ts2 st2) as [r3 st3] eqn:Er. pose proof (more_trans _ _ _ M (rb_keeps _ _ _ _ Er)) as M3.
  destruct reg2, a2 as [a2|]; try (match type of H with context [if ?b then _ else _] => destruct b end); try (injection H as <- <- <-; exact M3).
  - destruct (expressionCheckSU16 F a2 st3) as [[e st4]| |] eqn:E; cbn [bind] in H; try discriminate H. injection H as _ _ <-.
    exact (more_trans _ _ _ M3 (su16_keeps _ _ _ _ _ E)).
  - destruct (expressionCheckU16 a2 st3) as [[e st4]| |] eqn:E; cbn [bind] in H; try discriminate H. injection H as _ _ <-.
    exact (more_trans _ _ _ M3 (checked_keeps _ _ _ _ _ _ E)).
Qed.
Definition other_mode (F : fmath) (w : world) (optimize : bool) (allowed : Z) (ts : list token) (st : xstate) : res (option amode * list token * xstate) :=
  let! (o, r, st1) := indirectAddressing F w allowed ts st in
  match o with
  | Some m => Ok (Some m, r, st1)
  | None =>
      let! o := parse_Expression r in
      match o with
      | Some (e, r1) =>
          if negb (Z.land allowed ADDRF_LITERAL =? 0)
          then Ok (Some (optimizeAddressingMode optimize (AMode ADDR_LITERAL (Addr e))), r1, st1)
          else Ok (None, r1, st1)
      | None => Ok (None, r, st1)
      end
  end.
Lemma other_keeps : forall F w opt al ts st o r st1, other_mode F w opt al ts st = Ok (o, r, st1) -> more st st1.
Proof.
  intros F w opt al ts st o r st1 H. unfold other_mode in H.
  destruct (indirectAddressing F w al ts st) as [[[o1 r1] st2]| |] eqn:E; cbn [bind] in H; try discriminate H.
  pose proof (indirect_keeps _ _ _ _ _ _ _ _ E) as M. destruct o1; [injection H as _ _ <-; exact M|].
  destruct (parse_Expression r1) as [[[e r2]|]| |]; cbn [bind] in H; try discriminate H; [|injection H as _ _ <-; exact M].
  destruct (negb (Z.land al ADDRF_LITERAL =? 0)); injection H as _ _ <-; exact M.
Qed.
Lemma mode_keeps : forall F w opt al ts st o r st1, addressingMode F w opt al ts st = Ok (o, r, st1) -> more st st1.
Proof.
  intros F w opt al ts st o r st1 H. unfold addressingMode in H. fold (other_mode F w opt al ts st) in H.
  destruct ts as [|[t| | | | | |e0 t0|] ts]; try exact (other_keeps _ _ _ _ _ _ _ _ _ H).
  destruct ((T_REG_A <=? t) && (t <=? T_REG_J)); [injection H as _ _ <-; apply more_refl|].
  destruct ((T_REG_POP <=? t) && (t <=? T_REG_O)); [injection H as _ _ <-; apply more_refl|]. exact (other_keeps _ _ _ _ _ _ _ _ _ H).
Qed.

(** ** Numbers out of range *)
(** The numbers that are compared with limits. *)
Definition limits (f : form arg) : Prop := match f with Lit _ => True | _ => fits f end.
Lemma su16_limits : forall F e v st e1 st1, is_num e v -> expressionCheckSU16 F e st = Ok (e1, st1) -> quiet st st1 -> fits16 v.
Proof.
  intros F e v st e1 st1 N H Q. unfold expressionCheckSU16 in H. destruct (range_checked e (-32768) 65535 st) as [[e0 st0]| |] eqn:E; cbn [bind] in H; try discriminate H.
  destruct (expr_Binary F OpAnd e0 (expr_Const 65535)); cbn [bind] in H; try discriminate H. injection H as _ <-.
  destruct (num_checked _ _ _ _ _ _ _ N E Q) as (B & _). exact B.
Qed.
Lemma number_is : forall S n, setting_ok S None -> operand S None (g_term n) (g_expr n) (g_value n) -> known_now n = true -> is_num (g_expr n) (g_value n).
Proof. intros S n SO O K. split; [exact K|]. destruct (operand_facts _ _ _ _ _ SO O) as (_ & Co & _). exact (Co K). Qed.
Lemma sum_is : forall F a b x y e, is_num a x -> is_num b y -> expr_Binary F OpAdd a b = Ok e -> is_num e (x + y).
Proof.
  intros F a b x y e (Ca & Va) (Cb & Vb) H. unfold expr_Binary in H. destruct (isNull a || isNull b); [discriminate H|].
  rewrite Ca, Cb, Va, Vb in H. cbn [build_value] in H. unfold c_add, chk in H.
  destruct ((- 2 ^ 31 <=? x + y) && (x + y <? 2 ^ 31)); [|discriminate H]. injection H as <-. unfold node2. split; [cbn [expr_IsConstant]; rewrite Ca, Cb; reflexivity|reflexivity].
Qed.
Lemma mode_limits : forall S optimize f rest st o r st1, setting_ok S None -> numbers_known S f -> (forall n, In n (numbers f) -> known_now n = true) ->
  addressingMode (s_F S) (s_world S) optimize ADDRF_ALL (lex (text f) ++ rest) st = Ok (o, r, st1) -> quiet st st1 -> limits f.
Proof.
  intros S optimize f rest st o r st1 SO Kn Kw H Q.
  destruct f as [r0|r0|r0 n|n r0|n r0 n2|s|n|n]; cbn [text lex map app] in H; cbn [limits fits]; try exact I.
  - regtok r0. rewrite Et in H. destruct (Kn n (or_introl eq_refl)) as (O & So & De). pose proof (number_is S n SO O (Kw n (or_introl eq_refl))) as Nn.
    unfold addressingMode, indirectAddressing in H. rewrite comp_reg in H. cbn [bind List.length number_text lex1] in H.
    cbn [indirectLoop] in H. unfold indirectAdd in H. rewrite comp_expr in H by exact I. cbn [bind indirectLoop parse_ExpectRb] in H.
    rewrite all_allowed in H by (unfold ADDR_A_OFFSET_IND; lia).
    destruct (expressionCheckSU16 (s_F S) (g_expr n) st) as [[e1 st2]| |] eqn:E; cbn [bind] in H; try discriminate H. injection H as _ _ <-.
    exact (su16_limits _ _ _ _ _ _ Nn E Q).
  - regtok r0. rewrite Et in H. destruct (Kn n (or_introl eq_refl)) as (O & So & De). pose proof (number_is S n SO O (Kw n (or_introl eq_refl))) as Nn.
    unfold addressingMode, indirectAddressing in H. cbn [number_text lex1] in H. rewrite comp_expr in H by exact I. cbn [bind List.length] in H.
    cbn [indirectLoop] in H. unfold indirectAdd in H. rewrite comp_reg in H. cbn [bind indirectLoop parse_ExpectRb] in H.
    rewrite all_allowed in H by (unfold ADDR_A_OFFSET_IND; lia).
    destruct (expressionCheckSU16 (s_F S) (g_expr n) st) as [[e1 st2]| |] eqn:E; cbn [bind] in H; try discriminate H. injection H as _ _ <-.
    exact (su16_limits _ _ _ _ _ _ Nn E Q).
  - regtok r0. rewrite Et in H. destruct (Kn n (or_introl eq_refl)) as (O & So & De). destruct (Kn n2 (or_intror (or_introl eq_refl))) as (O2 & So2 & De2).
    pose proof (number_is S n SO O (Kw n (or_introl eq_refl))) as Nn. pose proof (number_is S n2 SO O2 (Kw n2 (or_intror (or_introl eq_refl)))) as Nn2.
    unfold addressingMode, indirectAddressing in H. cbn [number_text lex1] in H. rewrite comp_expr in H by exact I. cbn [bind List.length] in H.
    cbn [indirectLoop] in H. unfold indirectAdd at 1 in H. rewrite comp_reg in H. cbn [bind indirectLoop] in H. unfold indirectAdd in H. rewrite comp_expr in H by exact I.
    cbn [bind] in H. destruct (expr_Binary (s_F S) OpAdd (g_expr n) (g_expr n2)) as [e| |] eqn:Eb; cbn [bind indirectLoop parse_ExpectRb] in H; try discriminate H.
    rewrite all_allowed in H by (unfold ADDR_A_OFFSET_IND; lia).
    destruct (expressionCheckSU16 (s_F S) e st) as [[e1 st2]| |] eqn:E; cbn [bind] in H; try discriminate H. injection H as _ _ <-.
    exact (su16_limits _ _ _ _ _ _ (sum_is _ _ _ _ _ _ Nn Nn2 Eb) E Q).
  - destruct (Kn n (or_introl eq_refl)) as (O & So & De). pose proof (number_is S n SO O (Kw n (or_introl eq_refl))) as Nn.
    unfold addressingMode, indirectAddressing in H. cbn [number_text lex1] in H. rewrite comp_expr in H by exact I. cbn [bind List.length] in H.
    cbn [indirectLoop] in H. cbn [bind parse_ExpectRb] in H.
    rewrite all_allowed in H by (unfold ADDR_ADDRESS_IND; lia).
    destruct (expressionCheckU16 (g_expr n) st) as [[e1 st2]| |] eqn:E; cbn [bind] in H; try discriminate H. injection H as _ _ <-.
    destruct (num_checked _ _ _ _ _ _ _ Nn E Q) as (B & _). exact B.
Qed.
(** After an operand that is read. *)
Lemma mode_rest : forall S optimize f rest st o r st1, setting_ok S None -> numbers_known S f -> well_named f ->
  (forall n, In n (numbers f) -> known_now n = true) -> over rest ->
  addressingMode (s_F S) (s_world S) optimize ADDRF_ALL (lex (text f) ++ rest) st = Ok (o, r, st1) -> quiet st st1 -> r = rest /\ st1 = st.
Proof.
  intros S optimize f rest st o r st1 SO Kn Wn Kw Ov H Q. pose proof (mode_limits S optimize f rest st o r st1 SO Kn Kw H Q) as L.
  destruct f as [r0|r0|r0 n|n r0|n r0 n2|s|n|n].
  1-5,7: match type of H with context [text ?f] => destruct (addressed S optimize f rest st SO Kn L Wn) as (m & E & _);
    [intros ? D; discriminate D|exact Ov|rewrite E in H; injection H as _ <- <-; auto] end.
  - cbn [text lex map app] in H. cbn [well_named specials map fst In] in Wn.
    repeat (destruct Wn as [<-|Wn]); try destruct Wn; (vm_compute in H; injection H as _ <- <-; auto).
  - destruct (Kn n (or_introl eq_refl)) as (O & So & De).
    assert (Pe : parse_Expression (TExpr (g_expr n) (g_tail n) :: rest) = Ok (Some (g_expr n, rest))).
    { pose proof (over_minus _ Ov) as Nm. destruct rest as [|[] rest]; try reflexivity. destruct Nm. }
    cbn [text lex map app] in H. unfold addressingMode, indirectAddressing in H. cbn [number_text lex1 bind] in H. rewrite Pe in H. cbn [bind] in H.
    change (negb (Z.land ADDRF_ALL ADDRF_LITERAL =? 0)) with true in H. cbn [bind] in H. injection H as _ <- <-. auto.
Qed.
Definition reads (F : fmath) (w : world) (optimize : bool) := x10c_ParseInstruction F w optimize.
Lemma reported : forall S st optimize name op a b rest r v st',
  setting_ok S None -> numbers_known S a -> numbers_known S b -> In (name, op) basic -> well_named a -> well_named b ->
  (forall n, In n (numbers a ++ numbers b) -> known_now n = true) -> ends rest ->
  x10c_ParseInstruction (s_F S) (s_world S) optimize (lex (Word name :: text a ++ Comma :: text b) ++ rest) st = Ok (v, r, st') ->
  quiet st st' -> limits a /\ limits b.
Proof.
  intros S st optimize name op a b rest r v st' SO Ka Kb Ib Wa Wb Kw En H Q.
  destruct (basic_handler _ _ Ib) as (t & p & Et & Ra & Nt & _).
  assert (El : lex (Word name :: text a ++ Comma :: text b) ++ rest = TId t :: lex (text a) ++ TComma :: lex (text b) ++ rest).
  { unfold lex. cbn [map]. rewrite Et, map_app. cbn [map lex1 app]. rewrite <- app_assoc. reflexivity. }
  rewrite El in H. unfold x10c_ParseInstruction in H. rewrite Ra, Nt in H.
  destruct (addressingMode (s_F S) (s_world S) optimize ADDRF_ALL (lex (text a) ++ TComma :: lex (text b) ++ rest) st) as [[[o1 r1] st1]| |] eqn:E1; cbn [bind] in H; try discriminate H.
  pose proof (mode_keeps _ _ _ _ _ _ _ _ _ E1) as M1.
  assert (Ka' : forall n, In n (numbers a) -> known_now n = true) by (intros n I; apply Kw, in_or_app; left; exact I).
  assert (Kb' : forall n, In n (numbers b) -> known_now n = true) by (intros n I; apply Kw, in_or_app; right; exact I).
  destruct o1 as [m1|]; [|injection H as _ _ <-; destruct (X65Only.loud _ _ _ M1 Q)].
  change (negb (ADDRF_ALL =? 0)) with true in H.
  destruct (parse_ExpectComma r1 st1) as [[ok r2] st2] eqn:Ec.
  assert (M2 : more st1 st2 /\ (ok = false -> st2 = err_Error ERROR_CHAR_EXPECTED st1)).
  { destruct r1 as [|[] r1]; injection Ec as <- <- <-; (split; [first [apply more_refl|apply more_error]|]); intro X; try discriminate X; reflexivity. }
  destruct ok; [|injection H as _ _ <-; rewrite (proj2 M2 eq_refl) in Q; destruct (X65Only.loud _ _ _ M1 Q)].
  destruct (addressingMode (s_F S) (s_world S) optimize ADDRF_ALL r2 st2) as [[[o2 r3] st3]| |] eqn:E2; cbn [bind] in H; try discriminate H.
  pose proof (mode_keeps _ _ _ _ _ _ _ _ _ E2) as M3.
  assert (M4 : more st3 st').
  { destruct o2; [|injection H as _ _ <-; apply more_error]. destruct (run optimize p m1 a0 op st3) as [st4| |] eqn:Er; cbn [bind] in H; try discriminate H.
    injection H as _ _ <-. exact (run_keeps _ _ _ _ _ _ _ Er). }
  destruct (X65Only.more_quiet _ _ _ (more_trans _ _ _ (more_trans _ _ _ M1 (proj1 M2)) M3) M4 Q) as (Q3 & _).
  destruct (X65Only.more_quiet _ _ _ (more_trans _ _ _ M1 (proj1 M2)) M3 Q3) as (Q2 & Q32).
  destruct (X65Only.more_quiet _ _ _ M1 (proj1 M2) Q2) as (Q1 & _).
  destruct (mode_rest S optimize a (TComma :: lex (text b) ++ rest) st _ _ _ SO Ka Wa Ka' I E1 Q1) as (-> & ->). injection Ec as <- <-.
  split; [exact (mode_limits S optimize a _ st _ _ _ SO Ka Ka' E1 Q1)|exact (mode_limits S optimize b _ st _ _ _ SO Kb Kb' E2 Q32)].
Qed.
Lemma reported_jsr : forall S st optimize a rest r v st',
  setting_ok S None -> numbers_known S a -> (forall n, In n (numbers a) -> known_now n = true) ->
  x10c_ParseInstruction (s_F S) (s_world S) optimize (lex (Word "JSR" :: text a) ++ rest) st = Ok (v, r, st') -> quiet st st' -> limits a.
Proof.
  intros S st optimize a rest r v st' SO Ka Kw H Q.
  change (lex (Word "JSR" :: text a) ++ rest) with (TId 6008 :: lex (text a) ++ rest) in H.
  unfold x10c_ParseInstruction in H. change ((T_DCPU16_ADD <=? translateToken 6008) && (translateToken 6008 <=? T_DCPU16_XOR)) with true in H.
  change (nth_error g_instructionHandlers (Z.to_nat (translateToken 6008 - T_DCPU16_ADD))) with (Some (1, Jsr, ADDRF_ALL, 0)) in H.
  cbn iota beta in H.
  destruct (addressingMode (s_F S) (s_world S) optimize ADDRF_ALL (lex (text a) ++ rest) st) as [[[o1 r1] st1]| |] eqn:E1; cbn [bind] in H; try discriminate H.
  pose proof (mode_keeps _ _ _ _ _ _ _ _ _ E1) as M1.
  assert (M2 : more st1 st').
  { destruct o1 as [m1|]; [|injection H as _ _ <-; apply more_error]. change (negb (0 =? 0)) with false in H. cbn iota in H.
    destruct (run optimize Jsr m1 m1 1 st1) as [st4| |] eqn:Er; cbn [bind] in H; try discriminate H. injection H as _ _ <-. exact (run_keeps _ _ _ _ _ _ _ Er). }
  destruct (X65Only.more_quiet _ _ _ M1 M2 Q) as (Q1 & _). exact (mode_limits S optimize a _ st _ _ _ SO Ka Kw E1 Q1).
Qed.

(** ** Only these *)
Fixpoint tmerged (l : list token) : Prop :=
  match l with
  | [] => True
  | p :: r => tmerged r /\ match p, r with TExpr _ _, TPlus :: TExpr _ _ :: _ => False | _, _ => True end
  end.
Lemma word_token : forall s, (exists t, lex1 (Word s) = TId t) \/ lex1 (Word s) = TOther.
Proof.
  intro s. cbn [lex1]. generalize g_tokens. induction l as [|[k v] l IH]; cbn [assoc]; [right; reflexivity|].
  destruct (String.eqb s k); [left; eexists; reflexivity|exact IH].
Qed.
Lemma merged_tokens : forall l, merged l -> tmerged (lex l).
Proof.
  induction l as [|p l IH]; intros H; [exact I|]. destruct H as (H & Hp). cbn [lex map tmerged]. split; [exact (IH H)|].
  destruct p; try exact I.
  { destruct (word_token s) as [(t & ->)| ->]; exact I. }
  destruct l as [|[] l]; try exact I. { cbn [map]. destruct (word_token s) as [(t & ->)| ->]; exact I. }
  destruct l as [|[] l]; try exact I; [|destruct Hp]. cbn [map lex1]. destruct (word_token s) as [(t & E)|E]; cbn [lex1] in E; rewrite E; exact I.
Qed.
Lemma minus_tokens : forall l, In TMinus (lex l) -> In Minus l.
Proof.
  intros l H. apply in_map_iff in H. destruct H as (p & E & H). destruct p; try discriminate E; [|exact H].
  destruct (word_token s) as [(t & X)|X]; rewrite X in E; discriminate E.
Qed.
Definition some_arg (e : expr) (t : option expr) : arg := Arg (X65Spec.Arg (Num 0) e 0) t.
Lemma reg_of : forall t, (T_REG_A <=? t) && (t <=? T_REG_J) = true -> exists r, TId t = lex1 (Word (reg_name r)) /\ t - T_REG_A = reg_number r.
Proof.
  intros t H. assert (J : In (t - T_REG_A) [0; 1; 2; 3; 4; 5; 6; 7]) by (unfold T_REG_A, T_REG_J in *; cbn [In]; lia).
  cbn [In] in J. unfold T_REG_A in *. clear H.
  destruct J as [J|[J|[J|[J|[J|[J|[J|[J|[]]]]]]]]];
    [exists RA|exists RB|exists RC|exists RX|exists RY|exists RZ|exists RI|exists RJ]; (split; [replace t with (t - 6016 + 6016) by lia; rewrite <- J; vm_compute; reflexivity|rewrite <- J; reflexivity]).
Qed.
(** A component of an address. *)
Lemma component_of : forall ts c r, indirectComponent ts = Ok (Some (c, r)) ->
  (exists q, ts = lex1 (Word (reg_name q)) :: r /\ c = CReg (reg_number q)) \/ (exists e t, ts = TExpr e t :: r /\ c = CExpr e).
Proof.
  intros ts c r H. unfold indirectComponent in H.
  destruct ts as [|[t| | | | | |e t|] ts]; cbn [parse_Expression bind] in H; try discriminate H.
  - destruct ((T_REG_A <=? t) && (t <=? T_REG_J)) eqn:E; [|discriminate H]. injection H as <- <-. left.
    destruct (reg_of t E) as (q & E1 & E2). exists q. rewrite E1, E2. auto.
  - right. exists e, t. destruct ts as [|[] ts]; try discriminate H; injection H as <- <-; auto.
Qed.
Lemma component_not : forall ts, indirectComponent ts = Ok None -> parse_Expression ts = Ok None.
Proof.
  intros ts H. unfold indirectComponent in H.
  assert (G : (let! o := parse_Expression ts in Ok (match o with Some (e, r) => Some (CExpr e, r) | None => None end)) = Ok (@None (component * list token)) -> parse_Expression ts = Ok None).
  { destruct (parse_Expression ts) as [[[e r]|]| |]; cbn [bind]; intro X; try discriminate X. reflexivity. }
  destruct ts as [|[t| | | | | |e t|] ts]; try exact (G H). reflexivity.
Qed.
Lemma loop_failed : forall F w fuel reg a ts st r st1, indirectLoop F w fuel reg a ts st = Ok (None, r, st1) -> parse_Expression r = Ok None.
Proof.
  intros F w fuel. induction fuel as [|fuel IH]; intros reg a ts st r st1 H; [discriminate H|]. cbn [indirectLoop] in H.
  destruct ts as [|[] ts]; try discriminate H.
  - unfold indirectAdd in H. destruct (indirectComponent ts) as [[[[n|e] r0]|]| |] eqn:E; cbn [bind] in H; try discriminate H.
    + destruct reg; cbn [bind] in H; exact (IH _ _ _ _ _ _ H).
    + destruct a as [a|]; [destruct (expr_Binary F OpAdd a e); cbn [bind] in H; try discriminate H|]; exact (IH _ _ _ _ _ _ H).
    + injection H as <- <-. exact (component_not _ E).
  - unfold indirectSubtract in H. destruct (indirectComponent (parse_GetToken ts)) as [[[[n|e] r0]|]| |] eqn:E; cbn [bind] in H; try discriminate H.
    + exact (IH _ _ _ _ _ _ H).
    + destruct a as [a|]; [|discriminate H]. destruct (expr_Sub F w a e); cbn [bind] in H; try discriminate H. exact (IH _ _ _ _ _ _ H).
    + injection H as <- <-. exact (component_not _ E).
Qed.
(** A round of the loop. *)
Lemma loop_round : forall F w fuel reg a ts st reg2 a2 ts2 st2 r st1, indirectLoop F w fuel reg a ts st = Ok (Some (reg2, a2, ts2, st2), r, st1) ->
  quiet st st1 -> ~ In TMinus ts ->
  (reg2 = reg /\ a2 = a /\ ts2 = ts /\ st2 = st) \/
  (exists q ts3 fuel', reg = None /\ ts = TPlus :: lex1 (Word (reg_name q)) :: ts3 /\
     indirectLoop F w fuel' (Some (reg_number q)) a ts3 st = Ok (Some (reg2, a2, ts2, st2), r, st1)) \/
  (exists e t ts3 fuel' a', ts = TPlus :: TExpr e t :: ts3 /\
     indirectLoop F w fuel' reg (Some a') ts3 st = Ok (Some (reg2, a2, ts2, st2), r, st1)).
Proof.
  intros F w [|fuel] reg a ts st reg2 a2 ts2 st2 r st1 H Q Nm; [discriminate H|]. cbn [indirectLoop] in H.
  destruct ts as [|[] ts]; try (injection H as <- <- <- <- _ _; left; auto); [|exfalso; apply Nm; left; reflexivity].
  right. unfold indirectAdd in H. destruct (indirectComponent ts) as [[[c r0]|]| |] eqn:E; cbn [bind] in H; try discriminate H.
  destruct (component_of _ _ _ E) as [(q & -> & ->)|(e & t & -> & ->)]; cbn [bind] in H.
  - destruct reg as [n|]; cbn [bind] in H.
    + exfalso. destruct (loop_keeps _ _ _ _ _ _ _ _ _ _ H) as ((l & M) & _). unfold X65Only.quiet in Q. rewrite M in Q. cbn in Q.
      rewrite <- app_assoc in Q. apply (f_equal (@List.length Z)) in Q. rewrite !app_length in Q. cbn in Q. lia.
    + left. exists q, r0, fuel. auto.
  - right. destruct a as [a|]; [destruct (expr_Binary F OpAdd a e) as [s0| |]; cbn [bind] in H; try discriminate H|]; eexists e, t, r0, fuel, _; (split; [reflexivity|exact H]).
Qed.
Lemma expr_then : forall e t ts e2 t2 ts2, tmerged (TExpr e t :: ts) -> ts = TPlus :: TExpr e2 t2 :: ts2 -> False.
Proof. intros e t ts e2 t2 ts2 (_ & H) ->. exact H. Qed.
Lemma tmerged_tail : forall t ts, tmerged (t :: ts) -> tmerged ts.
Proof. intros t ts (H & _). exact H. Qed.
Definition taken (ts r : list token) : Prop := exists f, well_named f /\ ts = lex (text f) ++ r.
Lemma rb_taken : forall ts st r st1, parse_ExpectRb ts st = (r, st1) -> quiet st st1 -> ts = TRb :: r /\ st1 = st.
Proof.
  intros ts st r st1 H Q. destruct ts as [|[] ts]; injection H as <- <-; try (destruct (X65Only.loud _ _ _ (more_refl st) Q)). auto.
Qed.
Lemma indirect_sound : forall F w ts st m r st1, indirectAddressing F w ADDRF_ALL ts st = Ok (Some m, r, st1) -> quiet st st1 ->
  ~ In TMinus ts -> tmerged ts -> taken ts r.
Proof.
  intros F w ts st m r st1 H Q Nm Mg. unfold indirectAddressing in H. destruct ts as [|[] ts]; try discriminate H.
  assert (Nm1 : ~ In TMinus ts) by (intro X; apply Nm; right; exact X). apply tmerged_tail in Mg.
  destruct (indirectComponent ts) as [[[c r1]|]| |] eqn:Ec; cbn [bind] in H; try discriminate H.
  destruct (match c with CReg n => (Some n, None) | CExpr e => (None, Some e) end) as [reg a] eqn:Era.
  destruct (indirectLoop F w (S (List.length r1)) reg a r1 st) as [[[o2 r2] st2]| |] eqn:El; cbn [bind] in H; try discriminate H.
  destruct (loop_keeps _ _ _ _ _ _ _ _ _ _ El) as (M & L). destruct o2 as [[[[reg2 a2] ts2] st2']|]; [|discriminate H].
  cbn [loop_state] in L. subst st2'. destruct (parse_ExpectRb ts2 st2) as [r3 st3] eqn:Er. pose proof (rb_keeps _ _ _ _ Er) as M3.
  assert (M4 : more st3 st1 /\ r3 = r).
  { destruct reg2, a2 as [a2|]; try (match type of H with context [if ?b then _ else _] => destruct b end); try discriminate H; try (injection H as _ <- <-; split; [apply more_refl|reflexivity]).
    - destruct (expressionCheckSU16 F a2 st3) as [[e st4]| |] eqn:E; cbn [bind] in H; try discriminate H. injection H as _ <- <-. split; [exact (su16_keeps _ _ _ _ _ E)|reflexivity].
    - destruct (expressionCheckU16 a2 st3) as [[e st4]| |] eqn:E; cbn [bind] in H; try discriminate H. injection H as _ <- <-. split; [exact (checked_keeps _ _ _ _ _ _ E)|reflexivity]. }
  destruct M4 as (M4 & ->). destruct (X65Only.more_quiet _ _ _ (more_trans _ _ _ M M3) M4 Q) as (Q3 & _). destruct (X65Only.more_quiet _ _ _ M M3 Q3) as (Q2 & Q3').
  destruct (rb_taken _ _ _ _ Er Q3') as (-> & ->). clear H Er M3 M4 Q Q3 Q3'.
  destruct (component_of _ _ _ Ec) as [(q & -> & ->)|(e & t & -> & ->)]; injection Era as <- <-.
  - assert (Nm2 : ~ In TMinus r1) by (intro X; apply Nm1; right; exact X).
    destruct (loop_round _ _ _ _ _ _ _ _ _ _ _ _ _ El Q2 Nm2) as [(-> & -> & E & ->)|[(q2 & ts3 & fu & X & _)|(e & t & ts3 & fu & a' & -> & El2)]]; [| discriminate X |].
    + subst r1. exists (At q). split; [exact I|reflexivity].
    + assert (Nm3 : ~ In TMinus ts3) by (intro X; apply Nm2; right; right; exact X).
      destruct (loop_round _ _ _ _ _ _ _ _ _ _ _ _ _ El2 Q2 Nm3) as [(-> & -> & E & ->)|[(q2 & ts4 & fu2 & X & _)|(e2 & t2 & ts4 & fu2 & a2' & E2 & _)]]; [|discriminate X|].
      * subst ts3. exists (Index q (some_arg e t)). split; [exact I|reflexivity].
      * exfalso. apply tmerged_tail, tmerged_tail in Mg. exact (expr_then _ _ _ _ _ _ Mg E2).
  - assert (Nm2 : ~ In TMinus r1) by (intro X; apply Nm1; right; exact X).
    destruct (loop_round _ _ _ _ _ _ _ _ _ _ _ _ _ El Q2 Nm2) as [(-> & -> & E & ->)|[(q2 & ts3 & fu & _ & -> & El2)|(e2 & t2 & ts3 & fu & a' & E2 & _)]].
    + subst r1. exists (Mem (some_arg e t)). split; [exact I|reflexivity].
    + assert (Nm3 : ~ In TMinus ts3) by (intro X; apply Nm2; right; right; exact X).
      destruct (loop_round _ _ _ _ _ _ _ _ _ _ _ _ _ El2 Q2 Nm3) as [(-> & -> & E & ->)|[(q3 & ts4 & fu2 & X & _)|(e2 & t2 & ts4 & fu2 & a2' & -> & El3)]]; [|discriminate X|].
      * subst ts3. exists (IndexL (some_arg e t) q2). split; [exact I|reflexivity].
      * assert (Nm4 : ~ In TMinus ts4) by (intro X; apply Nm3; right; right; exact X).
        destruct (loop_round _ _ _ _ _ _ _ _ _ _ _ _ _ El3 Q2 Nm4) as [(-> & -> & E & ->)|[(q3 & ts5 & fu3 & X & _)|(e3 & t3 & ts5 & fu3 & a3' & E2 & _)]]; [|discriminate X|].
        -- subst ts4. exists (IndexLR (some_arg e t) q2 (some_arg e2 t2)). split; [exact I|reflexivity].
        -- exfalso. apply tmerged_tail, tmerged_tail, tmerged_tail, tmerged_tail in Mg. exact (expr_then _ _ _ _ _ _ Mg E2).
    + exfalso. exact (expr_then _ _ _ _ _ _ Mg E2).
Qed.
Definition loop_inv (reg : option Z) (a : option expr) : Prop := (reg = None -> a <> None) /\ (forall n, reg = Some n -> 0 <= n <= 7).
Lemma loop_kept : forall F w fuel reg a ts st reg2 a2 ts2 st2 r st1, indirectLoop F w fuel reg a ts st = Ok (Some (reg2, a2, ts2, st2), r, st1) ->
  loop_inv reg a -> loop_inv reg2 a2.
Proof.
  intros F w fuel. induction fuel as [|fuel IH]; intros reg a ts st reg2 a2 ts2 st2 r st1 H Iv; [discriminate H|]. cbn [indirectLoop] in H.
  destruct ts as [|[] ts]; try (injection H as <- <- _ _ _ _; exact Iv).
  - unfold indirectAdd in H. destruct (indirectComponent ts) as [[[c r0]|]| |] eqn:E; cbn [bind] in H; try discriminate H.
    destruct (component_of _ _ _ E) as [(q & -> & ->)|(e & t & -> & ->)]; cbn [bind] in H.
    + destruct reg as [n|]; cbn [bind] in H; apply (IH _ _ _ _ _ _ _ _ _ _ H); [exact Iv|]. split; [discriminate|]. intros n X. injection X as <-. destruct (reg_token q). lia.
    + assert (Iv2 : forall x, loop_inv reg (Some x)) by (intro x; split; [discriminate|exact (proj2 Iv)]).
      destruct a as [a|]; [destruct (expr_Binary F OpAdd a e) as [s0| |]; cbn [bind] in H; try discriminate H|]; exact (IH _ _ _ _ _ _ _ _ _ _ H (Iv2 _)).
  - unfold indirectSubtract in H. destruct (indirectComponent (parse_GetToken ts)) as [[[[n|e] r0]|]| |]; cbn [bind] in H; try discriminate H.
    + exact (IH _ _ _ _ _ _ _ _ _ _ H Iv).
    + destruct a as [a|]; [|discriminate H]. destruct (expr_Sub F w a e) as [s0| |]; cbn [bind] in H; try discriminate H.
      apply (IH _ _ _ _ _ _ _ _ _ _ H). split; [discriminate|exact (proj2 Iv)].
Qed.
Lemma bracket_failed : forall F w ts st r st1, indirectAddressing F w ADDRF_ALL (TLb :: ts) st = Ok (None, r, st1) -> parse_Expression r = Ok None.
Proof.
  intros F w ts st r st1 H. unfold indirectAddressing in H.
  destruct (indirectComponent ts) as [[[c r1]|]| |] eqn:Ec; cbn [bind] in H; try discriminate H; [|injection H as <- <-; exact (component_not _ Ec)].
  destruct (match c with CReg n => (Some n, None) | CExpr e => (None, Some e) end) as [reg a] eqn:Era.
  assert (Iv : loop_inv reg a).
  { destruct (component_of _ _ _ Ec) as [(q & _ & E)|(e & t & _ & E)]; rewrite E in Era; injection Era as <- <-; (split; [discriminate|]); intros n X; [|discriminate X].
    injection X as <-. destruct (reg_token q). lia. }
  destruct (indirectLoop F w (S (List.length r1)) reg a r1 st) as [[[o2 r2] st2]| |] eqn:El; cbn [bind] in H; try discriminate H.
  destruct o2 as [[[[reg2 a2] ts2] st2']|]; [|injection H as <- <-; exact (loop_failed _ _ _ _ _ _ _ _ _ El)].
  destruct (loop_kept _ _ _ _ _ _ _ _ _ _ _ _ _ El Iv) as (I1 & I2). exfalso.
  destruct (parse_ExpectRb ts2 st2') as [r3 st3]. destruct reg2 as [n|].
  - pose proof (I2 n eq_refl). rewrite !all_allowed in H by (unfold ADDR_A_IND, ADDR_A_OFFSET_IND; lia). destruct a2 as [a2|]; [|discriminate H].
    destruct (expressionCheckSU16 F a2 st3) as [[e st4]| |]; cbn [bind] in H; discriminate H.
  - destruct a2 as [a2|]; [|exact (I1 eq_refl eq_refl)]. rewrite all_allowed in H by (unfold ADDR_ADDRESS_IND; lia).
    destruct (expressionCheckU16 a2 st3) as [[e st4]| |]; cbn [bind] in H; discriminate H.
Qed.
Lemma special_of : forall t, (T_REG_POP <=? t) && (t <=? T_REG_O) = true -> exists s, In s (map fst specials) /\ TId t = lex1 (Word s).
Proof.
  intros t H. assert (J : In (t - T_REG_POP) [0; 1; 2; 3; 4; 5]) by (unfold T_REG_POP, T_REG_O in *; cbn [In]; lia).
  cbn [In] in J. unfold T_REG_POP in *. clear H. destruct J as [J|[J|[J|[J|[J|[J|[]]]]]]];
    [exists "POP"|exists "PEEK"|exists "PUSH"|exists "SP"|exists "PC"|exists "O"];
    (split; [cbn; tauto|replace t with (t - 6024 + 6024) by lia; rewrite <- J; vm_compute; reflexivity]).
Qed.
Lemma other_sound : forall F w opt ts st m r st1, other_mode F w opt ADDRF_ALL ts st = Ok (Some m, r, st1) -> quiet st st1 ->
  ~ In TMinus ts -> tmerged ts -> taken ts r.
Proof.
  intros F w opt ts st m r st1 H Q Nm Mg. unfold other_mode in H.
  destruct (indirectAddressing F w ADDRF_ALL ts st) as [[[o1 r1] st2]| |] eqn:E; cbn [bind] in H; try discriminate H.
  destruct o1 as [m1|]; [injection H as _ <- <-; exact (indirect_sound _ _ _ _ _ _ _ E Q Nm Mg)|].
  destruct (parse_Expression r1) as [[[e r2]|]| |] eqn:Pe; cbn [bind] in H; try discriminate H.
  destruct (negb (Z.land ADDRF_ALL ADDRF_LITERAL =? 0)); try discriminate H. injection H as _ <- <-.
  assert (Er : r1 = ts).
  { destruct ts as [|[] ts]; try (injection E as <- _; reflexivity). rewrite (bracket_failed _ _ _ _ _ _ E) in Pe. discriminate Pe. }
  subst r1. destruct ts as [|[| | | | | |e0 t0|] ts]; try discriminate Pe. cbn [parse_Expression] in Pe.
  exists (Lit (some_arg e0 t0)). split; [exact I|]. destruct ts as [|[] ts]; try discriminate Pe; injection Pe as <- <-; reflexivity.
Qed.
Lemma mode_sound : forall F w opt ts st m r st1, addressingMode F w opt ADDRF_ALL ts st = Ok (Some m, r, st1) -> quiet st st1 ->
  ~ In TMinus ts -> tmerged ts -> taken ts r.
Proof.
  intros F w opt ts st m r st1 H Q Nm Mg. unfold addressingMode in H. fold (other_mode F w opt ADDRF_ALL ts st) in H.
  destruct ts as [|[t| | | | | |e0 t0|] ts]; try exact (other_sound _ _ _ _ _ _ _ _ H Q Nm Mg).
  destruct ((T_REG_A <=? t) && (t <=? T_REG_J)) eqn:E1.
  { destruct (reg_of t E1) as (q & -> & _). injection H as _ <- <-. exists (Reg q). split; [exact I|reflexivity]. }
  destruct ((T_REG_POP <=? t) && (t <=? T_REG_O)) eqn:E2; [|exact (other_sound _ _ _ _ _ _ _ _ H Q Nm Mg)].
  destruct (special_of t E2) as (s & Is & ->). injection H as _ <- <-. exists (Special s). split; [exact Is|reflexivity].
Qed.
Definition spec_names : list (string * bool) := ("JSR", false) :: map (fun p => (fst p, true)) basic.
Lemma handler_name : forall name t, lex1 (Word name) = TId t -> (T_DCPU16_ADD <=? translateToken t) && (translateToken t <=? T_DCPU16_XOR) = true ->
  (exists op p, In (name, op) basic /\ nth_error g_instructionHandlers (Z.to_nat (translateToken t - T_DCPU16_ADD)) = Some (op, p, ADDRF_ALL, ADDRF_ALL)) \/
  (name = "JSR" /\ t = 6008).
Proof.
  intros name t H R. cbn [lex1] in H. unfold g_tokens in H. cbn [assoc] in H.
  repeat (match type of H with (if String.eqb name ?k then _ else _) = _ => destruct (String.eqb_spec name k) as [->|_];
    [injection H as <-; first [discriminate R | (right; split; reflexivity) | (left; eexists; eexists; split; [|reflexivity]; vm_compute; tauto)]|] end).
  discriminate H.
Qed.
Lemma only_these : forall F w opt name pieces st v ts st', x10c_ParseInstruction F w opt (lex (Word name :: pieces)) st = Ok (v, ts, st') ->
  quiet st st' -> ts <> lex (Word name :: pieces) -> merged pieces -> ~ In Minus pieces ->
  (exists op a b, In (name, op) basic /\ well_named a /\ well_named b /\ lex pieces = lex (text a ++ Comma :: text b) ++ ts) \/
  (name = "JSR" /\ exists a, well_named a /\ lex pieces = lex (text a) ++ ts).
Proof.
  intros F w opt name pieces st v ts st' H Q Nt Mg Nm.
  assert (Nm1 : ~ In TMinus (lex pieces)) by (intro X; exact (Nm (minus_tokens _ X))). apply merged_tokens in Mg.
  change (lex (Word name :: pieces)) with (lex1 (Word name) :: lex pieces) in *.
  destruct (word_token name) as [(t & Et)|Et]; rewrite Et in *; [|injection H as _ <- _; destruct (Nt eq_refl)].
  cbn [x10c_ParseInstruction] in H. destruct ((T_DCPU16_ADD <=? translateToken t) && (translateToken t <=? T_DCPU16_XOR)) eqn:R;
    [|injection H as _ <- _; destruct (Nt eq_refl)].
  destruct (handler_name name t Et R) as [(op & p & Ib & Nh)|(-> & ->)].
  - left. rewrite Nh in H. destruct (addressingMode F w opt ADDRF_ALL (lex pieces) st) as [[[o1 r1] st1]| |] eqn:E1; cbn [bind] in H; try discriminate H.
    pose proof (mode_keeps _ _ _ _ _ _ _ _ _ E1) as M1.
    destruct o1 as [m1|]; [|injection H as _ _ <-; destruct (X65Only.loud _ _ _ M1 Q)].
    change (negb (ADDRF_ALL =? 0)) with true in H. cbn iota in H.
    destruct (parse_ExpectComma r1 st1) as [[ok r2] st2] eqn:Ec.
    assert (M2 : (ok = false /\ st2 = err_Error ERROR_CHAR_EXPECTED st1) \/ (ok = true /\ r1 = TComma :: r2 /\ st2 = st1)).
    { destruct r1 as [|[] r1]; injection Ec as <- <- <-; auto. }
    destruct M2 as [(-> & ->)|(-> & -> & ->)]; [injection H as _ _ <-; destruct (X65Only.loud _ _ _ M1 Q)|].
    destruct (addressingMode F w opt ADDRF_ALL r2 st1) as [[[o2 r3] st3]| |] eqn:E2; cbn [bind] in H; try discriminate H.
    pose proof (mode_keeps _ _ _ _ _ _ _ _ _ E2) as M3.
    destruct o2 as [m2|]; [|injection H as _ _ <-; destruct (X65Only.loud _ _ _ (more_trans _ _ _ M1 M3) Q)].
    destruct (run opt p m1 m2 op st3) as [st4| |] eqn:Er; cbn [bind] in H; try discriminate H. injection H as _ <- <-.
    destruct (X65Only.more_quiet _ _ _ (more_trans _ _ _ M1 M3) (run_keeps _ _ _ _ _ _ _ Er) Q) as (Q3 & _).
    destruct (X65Only.more_quiet _ _ _ M1 M3 Q3) as (Q1 & Q2).
    destruct (mode_sound _ _ _ _ _ _ _ _ E1 Q1 Nm1 Mg) as (a & Wa & Ea).
    assert (G : forall l, tmerged (l ++ TComma :: r2) -> tmerged r2).
    { induction l as [|x l IH]; intros (X & _); [exact X|exact (IH X)]. }
    destruct (mode_sound _ _ _ _ _ _ _ _ E2 Q2) as (b & Wb & Eb).
    { intro X. apply Nm1. rewrite Ea. apply in_or_app. right. right. exact X. }
    { rewrite Ea in Mg. exact (G _ Mg). }
    exists op, a, b. split; [exact Ib|]. split; [exact Wa|]. split; [exact Wb|].
    rewrite Ea, Eb. unfold lex. rewrite map_app, <- app_assoc. reflexivity.
  - right. split; [reflexivity|]. change (nth_error g_instructionHandlers (Z.to_nat (translateToken 6008 - T_DCPU16_ADD))) with (Some (1, Jsr, ADDRF_ALL, 0)) in H.
    cbn iota in H. destruct (addressingMode F w opt ADDRF_ALL (lex pieces) st) as [[[o1 r1] st1]| |] eqn:E1; cbn [bind] in H; try discriminate H.
    pose proof (mode_keeps _ _ _ _ _ _ _ _ _ E1) as M1.
    destruct o1 as [m1|]; [|injection H as _ _ <-; destruct (X65Only.loud _ _ _ M1 Q)].
    change (negb (0 =? 0)) with false in H. cbn iota in H.
    destruct (run opt Jsr m1 m1 1 st1) as [st4| |] eqn:Er; cbn [bind] in H; try discriminate H. injection H as _ <- <-.
    destruct (X65Only.more_quiet _ _ _ M1 (run_keeps _ _ _ _ _ _ _ Er) Q) as (Q1 & _).
    destruct (mode_sound _ _ _ _ _ _ _ _ E1 Q1 Nm1 Mg) as (a & Wa & Ea). exists a. auto.
Qed.
