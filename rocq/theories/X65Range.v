(** Proofs about the 6502 instruction parser: known operands out of range are reported. *)
From Coq Require Import ZArith List Bool Lia ZifyBool String.
From Verif Require Import Base BaseFacts Arith ArithProofs ExprSpec ExprModel ExprLayout ObjWriteModel OptModel
  SectModel SectSpec SectErrors InstrSpec InstrProofs X65Model X65Spec X65Proofs X65Parse X65Run X65Only.
Import ListNotations.
Open Scope string_scope.
Open Scope Z_scope.

Lemma range_reported : forall e v lo hi st, expr_IsConstant e = true -> e_v e = v -> v < lo \/ hi < v ->
  range_checked e lo hi st = Ok (expr_Const 0, err_Error ERROR_OPERAND_RANGE st).
Proof.
  intros e v lo hi st C V B. destruct e as [|t cst sgn val l r sym]; [discriminate|]. cbn [expr_IsConstant] in C. subst cst.
  cbn [e_v] in V. subst val. unfold range_checked, expr_CheckRange, expr_LowLimit. cbn -[Z.ltb Z.gtb].
  destruct (v <? lo) eqn:L; [reflexivity|]. cbn [bind]. unfold expr_HighLimit. cbn -[Z.ltb Z.gtb].
  replace (v >? hi) with true by lia. reflexivity.
Qed.
Lemma not_quiet_after : forall a b n d, more a b -> more (err_Error n b) d -> ~ quiet a d.
Proof.
  intros a b n d M1 M2 Q. destruct (more_quiet a (err_Error n b) d) as (Q1 & _); [exact (more_trans _ _ _ M1 (more_error _ _))|exact M2|exact Q|].
  exact (loud _ _ _ M1 Q1).
Qed.
Lemma handler_keeps : forall F c h base m st st', In (am_mode m) LEGACY ->
  apply_handler F (x65_options (cpu_number c)) h base m st = Ok (true, st') -> more st st'.
Proof.
  intros F c h base [mode e1 e2 e3 fo] st st' L H. pose proof (act_ok F c h base mode e1 e2 e3 fo st L) as A. cbv zeta in A.
  cbn [am_mode] in L. destruct (act (cpu_number c) h base mode) as [a|].
  - rewrite H in A. exact (run_keeps _ _ _ _ _ _ (eq_sym A)).
  - rewrite H in A. destruct A as [(b & n & A)|(s & A)]; [injection A as _ ->; apply more_error|discriminate].
Qed.
Definition too_far (ot : out) (v : Z) : Prop :=
  match ot with OSigned => ~ -128 <= v <= 255 | OByte => ~ byte v | OWord => ~ word v | _ => False end.
Lemma U8_reports : forall e v st st', expr_IsConstant e = true -> e_v e = v -> ~ byte v -> x65_OutputU8Expression e st = Ok st' ->
  more (err_Error ERROR_OPERAND_RANGE st) st'.
Proof.
  intros e v st st' C V B H. unfold byte in B. unfold x65_OutputU8Expression in H.
  rewrite (range_reported e v 0 255 st C V ltac:(lia)) in H. cbn [bind] in H. exact (expr8_keeps _ _ _ H).
Qed.
Lemma SU8_reports : forall F e v st st', expr_IsConstant e = true -> e_v e = v -> ~ -128 <= v <= 255 ->
  x65_OutputSU8Expression F e st = Ok st' -> more (err_Error ERROR_OPERAND_RANGE st) st'.
Proof.
  intros F e v st st' C V B H. unfold x65_OutputSU8Expression in H.
  rewrite (range_reported e v (-128) 255 st C V ltac:(lia)) in H. cbn [bind] in H.
  destruct (expr_And F (expr_Const 0) (expr_Const 255)); cbn [bind] in H; try discriminate. exact (expr8_keeps _ _ _ H).
Qed.
Lemma U16_reports : forall F e v st st', expr_IsConstant e = true -> e_v e = v -> ~ word v ->
  x65_OutputU16Expression F e st = Ok st' -> more (err_Error ERROR_OPERAND_RANGE st) st'.
Proof.
  intros F e v st st' C V B H. unfold word in B. unfold x65_OutputU16Expression in H.
  rewrite (range_reported e v 0 65535 st C V ltac:(lia)) in H. cbn [bind] in H.
  destruct (expr_And F (expr_Const 0) (expr_Const 65535)); cbn [bind] in H; try discriminate. exact (expr16_keeps _ _ _ H).
Qed.
Lemma with_reports : forall op out m st st', (forall st1, out (am_expr m) st1 = Ok st' -> more (err_Error ERROR_OPERAND_RANGE st1) st') ->
  op_with op out m st = Ok (true, st') -> ~ quiet st st'.
Proof.
  intros op out m st st' R H. unfold op_with, done in H.
  destruct (sect_OutputConst8 (u8 op) st) as [st1| |] eqn:E; cbn [bind] in H; try discriminate.
  destruct (out (am_expr m) st1) as [st2| |] eqn:E2; cbn [bind] in H; try discriminate.
  assert (st2 = st') by congruence. subst st2.
  exact (not_quiet_after st st1 _ st' (const8_keeps _ _ _ E) (R _ E2)).
Qed.
Lemma run_reports : forall F op ot m v st st', expr_IsConstant (am_expr m) = true -> e_v (am_expr m) = v -> too_far ot v ->
  run_act F (op, ot) m st = Ok (true, st') -> ~ quiet st st'.
Proof.
  intros F op ot m v st st' C V T H.
  destruct ot; try contradiction; cbn [run_act fst snd too_far] in *; revert H; apply with_reports; intro st1.
  - apply (SU8_reports _ _ v); assumption.
  - apply (U8_reports _ v); assumption.
  - apply (U16_reports _ _ v); assumption.
Qed.
Lemma bit_reports : forall F op m v w st st', expr_IsConstant (am_expr m) = true -> e_v (am_expr m) = v ->
  expr_IsConstant (am_expr2 m) = true -> e_v (am_expr2 m) = w -> ~ (0 <= v <= 7 /\ byte w) ->
  run_act F (op, OBit) m st = Ok (true, st') -> ~ quiet st st'.
Proof.
  intros F op m v w st st' C V C2 V2 T H. unfold byte in T. cbn [run_act fst snd] in H. unfold handleBIT_C02 in H.
  destruct (bitOpcode F op (am_expr m) st) as [st1| |] eqn:E; cbn [bind] in H; try discriminate.
  pose proof (done_keeps _ _ _ _ (U8_keeps _ _) H) as M2.
  unfold done in H. destruct (x65_OutputU8Expression (am_expr2 m) st1) as [st2| |] eqn:E2; cbn [bind] in H; try discriminate.
  assert (st2 = st') by congruence. subst st2.
  assert (D : 0 <= v <= 7 \/ ~ 0 <= v <= 7) by lia. destruct D as [D|D].
  - apply (not_quiet_after st st1 ERROR_OPERAND_RANGE st' (bit_keeps _ _ _ _ _ E)). apply (U8_reports _ w _ _ C2 V2); [unfold byte; lia|exact E2].
  - assert (M1 : more (err_Error ERROR_OPERAND_RANGE st) st1).
    { unfold bitOpcode in E. rewrite (range_reported _ v 0 7 st C V ltac:(lia)) in E. cbn [bind] in E.
      destruct (expr_Asl F (expr_Const 0) (expr_Const 4)) as [e2| |]; cbn [bind] in E; try discriminate.
      destruct (expr_Or F (expr_Const op) e2) as [e3| |]; cbn [bind] in E; try discriminate. exact (expr8_keeps _ _ _ E). }
    exact (not_quiet_after st st ERROR_OPERAND_RANGE st' (more_refl st) (more_trans _ _ _ M1 M2)).
Qed.

(** Operands that are not in the zero page are reported while they are parsed. *)
Section Far.
Variable S : setting.
Variable c : cpu.
Variable cur : option asect.
Hypothesis SO : setting_ok S cur.
Variable allowed : Z.
Hypothesis later : has allowed LATER = false.
Variable size : immsize.
Variable rest : list token.
Hypothesis Re : ends rest.
Variable st : xstate.
Notation F := (s_F S).
Notation o := (x65_options (cpu_number c)).
Notation core := (x65_ParseAddressingModeCore F o allowed size).
Notation parse := (x65_ParseAddressingMode F o allowed size).
Notation ADDRESS := (M_ZP + M_ZP_X + M_ZP_Y + M_ABS + M_ABS_X + M_ABS_Y + M_ZP_ABS + M_BIT_ZP_ABS + M_BIT_ZP +
                        M_816_DISP_S + M_816_LONG_ABS_X + M_4510_ABS_X + M_4510_ABS_Y).
Lemma needs_zp : forall ts mode e v, core ts st = Ok (Found (simple mode e) rest st) -> In mode [M_IND_ZP_X; M_IND_ZP_Y] ->
  expr_IsConstant e = true -> e_v e = v -> ~ byte v -> parse ts st = Ok (Some (simple mode e, rest), err_Error MERROR_NEEDS_ZP st).
Proof.
  intros ts mode e v C M K V B. unfold byte in B. unfold x65_ParseAddressingMode. rewrite C. cbn [bind simple am_mode am_forced am_expr am_expr2 orb].
  assert (E : (0 <=? e_v e) && (e_v e <=? 0 + 255) = false) by lia.
  unfold In in M. each M; rewrite K;
    match goal with |- context[?a =? M_BIT_ZP] => change (a =? M_BIT_ZP) with false; change (a =? M_BIT_ZP_ABS) with false end;
    cbn [orb negb]; change (o_bp_base o) with 0; rewrite E; reflexivity.
Qed.
(** A form whose operand has to be in the zero page. *)
Definition zp_form (f : form arg) (kd : kind) : option arg :=
  match f with
  | FZp a | FZpX a | FZpY a | FIndY a => Some a
  | FIndX a => match kd with IndX => Some a | _ => None end
  | _ => None
  end.
Lemma far_parsed : forall f kd a, zp_form f kd = Some a -> In kd (kinds (is_near f) f) ->
  expr_IsConstant (g_expr a) = true -> carriesN 240 S cur (g_term a) (g_expr a) (g_value a) -> ~ byte (g_value a) ->
  let mode := mode_for allowed (is_near f) f in
  (mode =? 0) = false -> (match f with FIndX _ => mode = M_IND_ZP_X | _ => True end) ->
  exists m n, parse (tokens (fmap (fun a => [TExpr (g_expr a)]) f) ++ rest) st = Ok (Some (m, rest), err_Error n st) /\ am_mode m = mode.
Proof.
  intros f kd a Zf K Cst Ca B mode N Mx.
  pose proof (value_of S cur SO 0 _ _ _ Ca Cst) as V. pose proof (not_parens S cur SO 0 _ _ _ Ca) as Pa.
  assert (R : range_checked (g_expr a) 0 255 st = Ok (expr_Const 0, err_Error ERROR_OPERAND_RANGE st)).
  { apply (range_reported _ (g_value a)); [exact Cst|exact V|unfold byte in B; lia]. }
  destruct f; cbn [zp_form] in Zf; try discriminate; try (injection Zf as ->);
    cbn [fmap tokens app]; unfold mode in *; clear mode; cbn [mode_for] in *.
  - assert (A : has allowed ADDRESS = true).
    { destruct (has allowed M_ZP) eqn:H1; [apply (has_sub _ M_ZP ADDRESS eq_refl H1)|].
      destruct (has allowed M_ABS) eqn:H2; [apply (has_sub _ M_ABS ADDRESS eq_refl H2)|discriminate]. }
    pose proof (core_zp S c allowed later size rest Re st (g_expr a) (expr_Const 0) _ A Pa eq_refl R N) as C.
    eexists _, _. split; [apply (post_as_is S c allowed size rest st _ _ _ C); [exact N|reflexivity]|reflexivity].
  - assert (A : has allowed ADDRESS = true).
    { destruct (has allowed M_ZP_X) eqn:H1; [apply (has_sub _ M_ZP_X ADDRESS eq_refl H1)|].
      destruct (has allowed M_ABS_X) eqn:H2; [apply (has_sub _ M_ABS_X ADDRESS eq_refl H2)|discriminate]. }
    pose proof (core_zpx S c allowed later size rest st (g_expr a) _ _ A Pa R) as C.
    eexists _, _. split; [apply (post_as_is S c allowed size rest st _ _ _ C); [exact N|reflexivity]|reflexivity].
  - assert (A : has allowed ADDRESS = true).
    { destruct (has allowed M_ZP_Y) eqn:H1; [apply (has_sub _ M_ZP_Y ADDRESS eq_refl H1)|].
      destruct (has allowed M_ABS_Y) eqn:H2; [apply (has_sub _ M_ABS_Y ADDRESS eq_refl H2)|discriminate]. }
    pose proof (core_zpy S c allowed later size rest st (g_expr a) _ _ A Pa R) as C.
    eexists _, _. split; [apply (post_as_is S c allowed size rest st _ _ _ C); [exact N|reflexivity]|reflexivity].
  - destruct kd; try discriminate. injection Zf as ->. rewrite Mx.
    destruct (Z.land allowed (M_IND_ZP_X + M_IND_ABS_X) =? M_IND_ZP_X) eqn:E.
    2: { destruct (Z.land allowed (M_IND_ZP_X + M_IND_ABS_X) =? M_IND_ABS_X); discriminate Mx. }
    apply Z.eqb_eq in E. pose proof (core_indx S c allowed size rest st (g_expr a)) as C. rewrite E in C. specialize (C eq_refl).
    eexists _, _. split; [apply (needs_zp _ _ _ (g_value a) C); [left; reflexivity|exact Cst|exact V|exact B]|reflexivity].
  - destruct (has allowed M_IND_ZP_Y) eqn:H; [|discriminate].
    pose proof (core_indy S c allowed size rest st (g_expr a) H) as C.
    eexists _, _. split; [apply (needs_zp _ _ _ (g_value a) C); [right; left; reflexivity|exact Cst|exact V|exact B]|reflexivity].
Qed.
End Far.


Lemma zp_form_in : forall s kd (f : form arg) a nr pc, zp_form f kd = Some a -> In kd (kinds nr f) -> kd <> Rel -> byte (g_value a) ->
  in_range s kd f pc (map g_value (operands f)).
Proof.
  intros s kd f a nr pc Z0 K NR B. unfold byte in B.
  destruct f; cbn [zp_form] in Z0; try discriminate; try (injection Z0 as ->); cbn [operands map].
  1-3: cbn [kinds In] in K; repeat destruct K as [<-|K]; try contradiction; cbn [in_range]; unfold byte, word; lia.
  - destruct kd; try discriminate. injection Z0 as ->. exact B.
  - destruct K as [<-|[]]. exact B.
Qed.
Lemma zp_form_none : forall kd (f : form arg) nr mode, zp_form f kd = None -> In kd (kinds nr f) -> kd <> ZpRel -> kd <> BitRel ->
  mode_kind mode (shape f) kd = true -> ranged mode f.
Proof.
  intros kd f nr mode Z0 K N1 N2 Mk.
  destruct f; cbn [zp_form ranged shape fmap mode_kind] in *; try discriminate; try exact I.
  - intros ->. change (M_IND_ZP_X =? M_IND_ZP_X) with true in Mk. apply eqb_prop in Mk. symmetry in Mk. apply kind_eqb_eq in Mk. subst kd. discriminate.
  - intros ->. apply andb_prop in Mk. destruct Mk as (Mk & _). change (M_ZP_ABS =? M_ZP_ABS) with true in Mk. apply eqb_prop in Mk.
    symmetry in Mk. apply kind_eqb_eq in Mk. contradiction.
  - destruct K as [<-|[]]. contradiction.
Qed.
Lemma near_bytes : forall a, expr_IsConstant (g_expr a) = true -> if near a then byte (g_value a) else True.
Proof. intros a C. destruct (near a) eqn:N; [|exact I]. unfold near, byte in *. lia. Qed.
(** What is handed over, when it is not in range, is too far for what is stored. *)
Lemma handed_too_far : forall s kd (f : form arg) mode m ot pc, zp_form f kd = None -> In kd (kinds (is_near f) f) -> kd <> Rel -> kd <> ZpRel -> kd <> BitRel ->
  mode_kind mode (shape f) kd = true -> ~ in_range s kd f pc (map g_value (operands f)) -> ~ faulty s kd f ->
  fits ot kd = true -> (ot = OByte -> kd = Imm -> s = "BIT") -> (ot = OSigned -> s <> "BIT") ->
  (forall a, In a (operands f) -> expr_IsConstant (g_expr a) = true /\ e_v (g_expr a) = g_value a) ->
  am_mode m = mode -> kept f m ->
  (exists v, expr_IsConstant (am_expr m) = true /\ e_v (am_expr m) = v /\ too_far ot v) \/
  (ot = OBit /\ exists v w, expr_IsConstant (am_expr m) = true /\ e_v (am_expr m) = v /\
     expr_IsConstant (am_expr2 m) = true /\ e_v (am_expr2 m) = w /\ ~ (0 <= v <= 7 /\ byte w)).
Proof.
  intros s kd f mode m ot pc Z0 K N1 N2 N3 Mk NI Fa Fi B1 B2 Cs Am Ke.
  destruct f; cbn [zp_form] in Z0; try discriminate; cbn [operands map] in *; cbn [kept] in Ke.
  - destruct NI. destruct K as [<-|[<-|[]]]; exact I.
  - destruct NI. destruct K as [<-|[]]; exact I.
  - destruct K as [<-|[]]. destruct (Cs a (or_introl eq_refl)) as (C & V). left. exists (g_value a). rewrite Ke. split; [exact C|]. split; [exact V|].
    cbn [in_range part] in NI. destruct ot; try discriminate; cbn [too_far].
    + destruct (String.eqb_spec s "BIT"); [destruct (B2 eq_refl); assumption|exact NI].
    + rewrite (B1 eq_refl eq_refl) in NI. exact NI.
  - destruct NI. destruct K as [<-|[]]. cbn [in_range part]. destruct (String.eqb s "BIT"); Z.div_mod_to_equations; lia.
  - destruct NI. destruct K as [<-|[]]. cbn [in_range part]. destruct (String.eqb s "BIT"); Z.div_mod_to_equations; lia.
  - destruct NI. destruct K as [<-|[]]. cbn [in_range part]. destruct (String.eqb s "BIT"); Z.div_mod_to_equations; lia.
  - destruct NI. destruct K as [<-|[]]. cbn [in_range part]. destruct (String.eqb s "BIT"); Z.div_mod_to_equations; lia.
  - destruct (Cs a (or_introl eq_refl)) as (C & V). unfold is_near in K. cbn [operands] in K. cbn [kinds] in K.
    assert (Nb := near_bytes a C). destruct (near a).
    + destruct NI. destruct K as [<-|[<-|[<-|[]]]]; [exact Nb| |contradiction]. cbn [in_range]. unfold byte, word in *. lia.
    + destruct K as [<-|[<-|[]]]; [|contradiction]. left. exists (g_value a). rewrite (Ke eq_refl). split; [exact C|]. split; [exact V|].
      destruct ot; try discriminate. cbn [too_far]. cbn [in_range] in NI. tauto.
  - destruct (Cs a (or_introl eq_refl)) as (C & V). unfold is_near in K. cbn [operands] in K. cbn [kinds] in K.
    assert (Nb := near_bytes a C). destruct (near a).
    + destruct NI. destruct K as [<-|[<-|[]]]; [exact Nb|]. cbn [in_range]. unfold byte, word in *. lia.
    + destruct K as [<-|[]]. left. exists (g_value a). rewrite (Ke eq_refl). split; [exact C|]. split; [exact V|].
      destruct ot; try discriminate. cbn [too_far]. cbn [in_range] in NI. tauto.
  - destruct (Cs a (or_introl eq_refl)) as (C & V). unfold is_near in K. cbn [operands] in K. cbn [kinds] in K.
    assert (Nb := near_bytes a C). destruct (near a).
    + destruct NI. destruct K as [<-|[<-|[]]]; [exact Nb|]. cbn [in_range]. unfold byte, word in *. lia.
    + destruct K as [<-|[]]. left. exists (g_value a). rewrite (Ke eq_refl). split; [exact C|]. split; [exact V|].
      destruct ot; try discriminate. cbn [too_far]. cbn [in_range] in NI. tauto.
  - destruct (Cs a (or_introl eq_refl)) as (C & V). cbn [kinds] in K. destruct K as [<-|[<-|[]]]; [discriminate|].
    assert (Nb := near_bytes a C). destruct (near a).
    + destruct NI. cbn [in_range]. unfold byte, word in *. lia.
    + left. exists (g_value a). rewrite (Ke eq_refl). split; [exact C|]. split; [exact V|].
      destruct ot; try discriminate. cbn [too_far]. cbn [in_range] in NI. tauto.
  - destruct (Cs a (or_introl eq_refl)) as (C & V). unfold faulty, is_near in Fa. cbn [operands kinds] in *.
    assert (Nb := near_bytes a C). destruct (near a).
    + destruct NI. destruct K as [<-|[<-|[]]]; [exact Nb|]. cbn [in_range]. unfold byte, word in *. lia.
    + destruct K as [<-|[<-|[]]]; [destruct Fa; right; left; split; reflexivity|].
      left. exists (g_value a). rewrite (Ke eq_refl). split; [exact C|]. split; [exact V|].
      destruct ot; try discriminate. cbn [too_far]. cbn [in_range] in NI. tauto.
  - destruct K as [<-|[<-|[]]]; [contradiction|]. right. cbn [shape fmap mode_kind] in Mk. apply andb_prop in Mk. destruct Mk as (_ & Mk).
    apply eqb_prop in Mk. change (kind_eqb Bit Bit) with true in Mk. apply Z.eqb_eq in Mk. rewrite Mk in Am. destruct (Ke Am) as (-> & ->).
    destruct (Cs a (or_introl eq_refl)) as (C & V). destruct (Cs b (or_intror (or_introl eq_refl))) as (C2 & V2).
    split; [destruct ot; try discriminate; reflexivity|]. exists (g_value a), (g_value b). repeat (split; [assumption|]). exact NI.
  - destruct K as [<-|[]]. contradiction.
Qed.
Theorem reported : forall S c n s (f : form arg) kd b st cur rest ts st', selectable c n -> setting_ok S cur -> args_known S cur f ->
  (forall a, In a (operands f) -> expr_IsConstant (g_expr a) = true) ->
  select c n s (is_near f) f = Some (kd, b) -> kd <> Rel -> kd <> ZpRel -> kd <> BitRel ->
  ~ in_range s kd f (e_pc (s_env S)) (map g_value (operands f)) -> ~ faulty s kd f -> ends rest ->
  x65_ParseIntegerInstruction (s_F S) (x65_options (cpu_number c))
      (lex n (Word s :: text (fmap (fun a => [Operand (g_expr a)]) f)) ++ rest) st = Ok (true, ts, st') ->
  x_errors st' <> x_errors st.
Proof.
  intros S c n s f kd b st cur rest ts st' Se SO Ak Cs E N1 N2 N3 NI Fa Re H.
  destruct (listed c n s (is_near f) f kd b Se E) as (id & h & op & ot & As & Ir & Nh & Cp & La & Im & (M0 & Ma & ML & Mk & Ac) & Fi & U & Bo & Si & Sn).
  { intro Q. apply Fa. left. exact Q. } { intro Q. apply Fa. right. left. exact Q. }
  pose proof (select_kind _ _ _ _ _ _ _ _ E) as K.
  assert (Car : forall a, In a (operands f) -> carriesN 240 S cur (g_term a) (g_expr a) (g_value a)).
  { intros a Ha. destruct (Ak a Ha) as (O & So & Ph & D). apply carries_self; assumption. }
  revert H. unfold lex at 1. cbn [map lex1]. rewrite As. fold (lex n (text (fmap (fun a => [Operand (g_expr a)]) f))). rewrite lex_operands.
  cbn [app]. unfold x65_ParseIntegerInstruction. rewrite Ir, Nh. unfold x65_HandleToken. rewrite Cp. fold (allowed_by c h). cbv zeta.
  intro H. change (~ quiet st st').
  destruct (zp_form f kd) as [a|] eqn:Zf.
  - assert (Ia : operands f = [a]).
    { destruct f; cbn [zp_form] in Zf; try discriminate; try (injection Zf as ->); try reflexivity. destruct kd; try discriminate. injection Zf as ->. reflexivity. }
    assert (B : ~ byte (g_value a)).
    { intro B. apply NI. exact (zp_form_in _ _ _ _ _ _ Zf K N1 B). }
    assert (I1 : In a (operands f)) by (rewrite Ia; left; reflexivity).
    destruct (far_parsed S c cur SO (allowed_by c h) La (p_imm h) rest Re st f kd a Zf K (Cs a I1) (Car a I1) B M0) as (am & e & P & Am).
    { destruct f; try exact I. cbn [zp_form] in Zf. destruct kd; try discriminate. cbn [shape fmap mode_kind] in Mk. apply eqb_prop in Mk.
      change (kind_eqb IndX IndX) with true in Mk. apply Z.eqb_eq, Mk. }
    rewrite P in H. cbn [bind] in H. rewrite Am, Ma in H.
    destruct (apply_handler (s_F S) (x65_options (cpu_number c)) (p_handler h) (p_base h) am (err_Error e st)) as [[b1 st1]| |] eqn:Ap; cbn [bind] in H; try discriminate.
    assert (b1 = true) by congruence. assert (st1 = st') by congruence. subst b1 st1.
    apply handler_keeps in Ap; [|rewrite Am; exact ML]. exact (not_quiet_after st st e st' (more_refl st) Ap).
  - destruct (parsed S c cur SO (allowed_by c h) La (p_imm h) Im rest Re st f Car M0 (zp_form_none _ _ _ _ Zf K N2 N3 Mk)) as (am & P & Am & De & Ke).
    rewrite P in H. cbn [bind] in H. rewrite Am, Ma in H.
    assert (Hd := handed_too_far s kd f _ am ot (e_pc (s_env S)) Zf K N1 N2 N3 Mk NI Fa Fi Si Sn
      (fun a Ia => conj (Cs a Ia) (value_of S cur SO 0 _ _ _ (Car a Ia) (Cs a Ia))) Am Ke).
    destruct am as [mode e1 e2 e3 fo]. cbn [am_mode] in Am. subst mode.
    pose proof (act_ok (s_F S) c (p_handler h) (p_base h) _ e1 e2 e3 fo st ML) as A. cbv zeta in A. rewrite Ac in A. rewrite A in H.
    destruct (run_act (s_F S) (op, ot) _ st) as [[b1 st1]| |] eqn:Rn in H; cbn [bind] in H; try discriminate.
    assert (b1 = true) by congruence. assert (st1 = st') by congruence. subst b1 st1.
    destruct Hd as [(v & C & V & T)|(-> & v & w & C & V & C2 & V2 & T)].
    + exact (run_reports _ _ _ _ _ _ _ C V T Rn).
    + exact (bit_reports _ _ _ _ _ _ _ C V C2 V2 T Rn).
Qed.
