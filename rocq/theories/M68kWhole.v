(** Proofs about the 680x0 instruction parser: from text to words. *)
From Coq Require Import String ZArith List Bool Lia ZifyBool.
From Verif Require Import Base BaseFacts Arith ArithProofs ExprSpec ExprModel ExprLayout ExprTree ExprProofs ObjWriteModel OptModel
  SectModel SectSpec SectProofs InstrSpec InstrProofs.
From Verif Require X65Proofs X65Run Z80Run M6809Proofs.
From Verif Require Import X65Spec M68kModel M68kSpec M68kProofs M68kEa M68kFull M68kParse M68kModes M68kShapes M68kParen M68kOperand M68kHandlers M68kInstr M68kInstr2 M68kInstr3 M68kInstr4 M68kInstr5 M68kFront M68kRuns M68kAll.
Import ListNotations.
Open Scope string_scope.
Open Scope list_scope.
Open Scope Z_scope.

Lemma a_good_of : forall S cur a, setting_ok S cur -> arg_ok S cur a -> a_good S a.
Proof.
  intros S cur a SO A. split; [apply (argh_of S cur), A|]. destruct A as (O & _). destruct (operand_facts _ _ _ _ _ SO O) as (A & B & _). split; [exact A|exact B].
Qed.
Lemma fix_facts : forall o z md, direct_facts o md -> direct_facts o (fix_imm z md).
Proof. intros o z md H. unfold fix_imm. destruct (a_mode md =? AM_IMM); [|exact H]. destruct o; exact H. Qed.
Lemma fix_mode : forall z md, a_mode (fix_imm z md) = a_mode md.
Proof. intros z md. unfold fix_imm. destruct (a_mode md =? AM_IMM); reflexivity. Qed.
Lemma ends_follows : forall rest, ends rest -> follows rest.
Proof. intros [|[] r] H; solve [exact H|exact Logic.I|destruct H]. Qed.

Definition target_last (l : list cls) : bool := match l with CTarget :: _ :: _ => false | _ => true end.
Lemma first_target : forall f, In f forms -> target_last (f_classes f) = true.
Proof.
  assert (H : forallb (fun f => target_last (f_classes f)) forms = true) by (vm_compute; reflexivity).
  rewrite forallb_forall in H. exact H.
Qed.

Section Whole.
Variables (S0 : setting) (fl : bool) (k : nat) (st : xstate) (m0 : msect) (cpu : Z).
Hypothesis G : good fl S0 k st m0 24.
Hypothesis Hc : In cpu cpus.
Hypothesis Fl : floating (here m0) -> fl = true.
Hypothesis P0 : 0 <= e_pc (s_env S0) < 2 ^ 31 - 128.
Notation new := (is_new cpu).
Notation pc := (e_pc (s_env S0)).
(** An operand that is read. *)
Lemma read : forall f i s c o r, sizes_ok i f = true -> size_allowed f s -> in_class new (the_size f s) c o = true ->
  opnd_fits new (here m0) pc (the_size f s) o -> Forall (a_good S0) (opnd_args o) -> follows r ->
  exists md, m68k_GetAddressingMode cpu (lex (opnd_text o) ++ r) st = Ok (true, md, r, st) /\ In (a_mode md) (kinds o) /\ (new_kind (a_mode md) = true -> new = true) /\
    opd new (the_size f s) S0 fl o (fix_imm (handed f s) md) /\ second_ok new S0 fl (the_size f s) o md.
Proof.
  intros f i s c o r Hs Ha C Ft A Fo. pose proof (class_ok _ _ _ _ C) as Hok.
  destruct (operand_read cpu (the_size f s) S0 fl (here m0) o r st m0 Hc Hok Ft A Fl P0 (proj1 G) Fo) as (md & E & D & K & Nk & Gi).
  exists md. split; [exact E|]. split; [exact K|]. split; [exact Nk|].
  assert (Im : forall v, o = OImm v -> imm_fits (the_size f s) (g_value v)) by (intros v ->; exact Ft).
  assert (Ic : imm_code (the_size f s) (handed f s)).
  { pose proof (used_in i f s Hs Ha) as U. destruct (f_default f).
    - destruct U as (_ & _ & -> & _). destruct (the_size f s); cbn; tauto.
    - destruct U as (_ & _ & -> & _ & ->). cbn. tauto. }
  split; [|split].
  - split; [|apply Gi; intros _; exact Ic]. split; [exact Hok|]. split; [apply fix_facts, D|]. split; [rewrite fix_mode; exact K|]. split; [exact A|exact Im].
  - split; [exact Hok|]. split; [exact D|]. split; [exact K|]. split; [exact A|exact Im].
  - intro Ni. split; [split; [exact Hok|split; [exact D|split; [exact K|split; [exact A|exact Im]]]]|].
    pose proof (Gi (handed f s) ltac:(rewrite Ni; discriminate)) as X. unfold fix_imm in X.
    destruct (kind_tests _ _ K) as (_ & _ & Ki & _). rewrite Ki, Ni in X. exact X.
Qed.
Definition finished (f : form) (s : option size) (ops : list opnd) (rest : list token) (ans : answer) : Prop :=
  exists st' cells, ans = Ok (true, rest, st') /\ emits_seq S0 k st st' cells /\ stored_from (flat_map opnd_args ops) cells /\
    forall mc more, decode new mc pc (words cells ++ more) = Some (instr_action mc f s ops, more).
Lemma finish : forall f s ops rest X, done new S0 fl k st (flat_map opnd_args ops) X (fun mc => instr_action mc f s ops) -> finished f s ops rest (with_text rest X).
Proof.
  intros f s ops rest X (st1 & m1 & cells & -> & (Se & _) & So & D). exists st1, cells. split; [reflexivity|]. split; [exact Se|]. split; [exact So|exact D].
Qed.
Lemma finish_runs : forall f i s ops src dest rest, sizes_ok i f = true -> size_allowed f s -> f_classes f <> [CTarget] ->
  runs new S0 fl k st cpu f i (the_size f s) ops src dest ->
  finished f s ops rest (run_handler (s_F S0) (s_garbage S0) cpu (i_handler i) (handed f s) src dest (i_data i) rest st).
Proof.
  intros f i s ops src dest rest Hs Ha Nt R. pose proof (used_in i f s Hs Ha) as U.
  assert (E1 : sz_code f (the_size f s) = handed f s) by (unfold sz_code; destruct (f_default f); [destruct U as (_ & _ & -> & _)|destruct U as (_ & _ & -> & _)]; reflexivity).
  assert (E2 : sz_shown f (the_size f s) = used_size f s) by (unfold sz_shown; destruct (f_default f); [destruct U as (-> & _)|destruct U as (_ & -> & _)]; reflexivity).
  destruct (R rest) as (X & E & D). rewrite E1 in E. rewrite E. apply finish. apply (done_ext _ _ _ _ _ _ _ _ _ D). intro mc. unfold instr_action. rewrite E2.
  destruct (f_classes f) as [|[] [|]]; try reflexivity. congruence.
Qed.
Lemma whole_sz : forall f i s, sizes_ok i f = true -> size_allowed f s -> new || negb (existsb (size_eqb (the_size f s)) (f_new f)) = true -> sz_ok new f (the_size f s).
Proof.
  intros f i s Hs Ha N. pose proof (used_in i f s Hs Ha) as U. split.
  - destruct (f_default f); apply U.
  - intro I. destruct new; [reflexivity|]. cbn [orb] in N. apply negb_true_iff in N. rewrite <- N. apply existsb_exists. exists (the_size f s). split; [exact I|]. destruct (the_size f s); reflexivity.
Qed.
Lemma whole : forall f s ops rest, In f forms -> Z.land (sect_CurrentSize st) 1 = 0 ->
  instr_ok new f s ops = true -> instr_fits new (here m0) pc f s ops -> Forall (a_good S0) (flat_map opnd_args ops) -> ends rest ->
  finished f s ops rest (m68k_IntegerInstruction (s_F S0) (s_garbage S0) cpu (lex (instr_text f s ops) ++ rest) st).
Proof.
  intros f s ops rest Hf Ev Ok1 (Ft & Lk) A En.
  pose proof forms_ok as T. rewrite forallb_forall in T. specialize (T _ Hc). cbv beta in T. rewrite forallb_forall in T. specialize (T _ Hf). unfold form_ok in T.
  destruct (assoc (f_name f) regwords) eqn:E1; [discriminate T|]. destruct (assoc (f_name f) g_integerInstructions) as [i|] eqn:E2; [|discriminate T].
  rewrite !andb_true_iff in T. destruct T as ((Tc & Hs) & Tm).
  unfold instr_ok in Ok1. rewrite !andb_true_iff in Ok1. destruct Ok1 as (((Ha & Hn) & Hl) & Hcl).
  assert (Ha' : size_allowed f s) by (destruct s; [exact Ha|exact Logic.I]). clear Ha.
  pose proof (whole_sz f i s Hs Ha' Hn) as Sz. destruct (cpu_new cpu Hc) as (_ & _ & Hcpu).
  assert (Cp : (Z.land (i_cpu i) cpu =? 0) = false).
  { apply orb_true_iff in Tc. destruct Tc as [Tc|Tc]; [lia|]. apply andb_true_iff in Tc. destruct Tc as (Tn & Ta). exfalso.
    unfold all_new in Ta. pose proof (used_in i f s Hs Ha') as U. destruct (f_default f) as [d|] eqn:D; [|discriminate Ta]. destruct U as (_ & U & _).
    rewrite forallb_forall in Ta. specialize (Ta (the_size f s) (or_intror U)). cbv beta in Ta. rewrite Ta in Hn. cbn [negb] in Hn. rewrite orb_false_r in Hn. rewrite Hn in Tn. discriminate Tn. }
  assert (Tok : lex (instr_text f s ops) ++ rest = TIns i :: lex (size_text s) ++ lex (commas (map opnd_text ops)) ++ rest).
  { unfold instr_text. cbn [lex map]. fold (lex (size_text s ++ commas (map opnd_text ops))). rewrite lex_app. cbn [lex1]. rewrite E1, E2. cbn [app]. rewrite <- app_assoc. reflexivity. }
  rewrite Tok. unfold m68k_IntegerInstruction. rewrite Cp. clear Tok.
  pose proof (targets f i Hf E2) as Tg. pose proof (ends_follows _ En) as Fo.
  destruct (f_classes f) as [|c1 [|c2 [|c3 cl]]] eqn:Cl.
  - (* none *)
    inversion Ft as [E|]; subst. cbn [map commas lex app]. cbn [masks_ok] in Tm. apply andb_true_iff in Tm. destruct Tm as (T1 & T2). apply Z.eqb_eq in T1, T2.
    rewrite (front_none _ _ cpu i f s st Hs Ha' Ev rest); [|destruct rest as [|[] ?]; try destruct En; exact Logic.I|exact T1|exact T2].
    apply finish_runs; try assumption; [rewrite Cl; discriminate|]. apply (all_none new S0 fl k st m0 cpu G); assumption.
  - inversion Ft as [|? o1 ? ? F1 Ft2 E3 E4]; subst. inversion Ft2; subst. clear Ft Ft2. cbn [map commas].
    cbn [List.combine forallb fst snd] in Hcl. rewrite andb_true_r in Hcl. cbn [flat_map] in A. rewrite app_nil_r in A. pose proof (class_ok _ _ _ _ Hcl) as Hok.
    assert (Dt : c1 = CTarget \/ c1 <> CTarget) by (destruct c1; (left; reflexivity) || (right; discriminate)). destruct Dt as [-> | Nt].
    + (* a branch *)
      unfold target_ok in Tg. rewrite Cl in Tg. destruct Tg as (Hh & (Hd & Hop) & D & Fn & Np1 & Np2).
      cbn [masks_ok] in Tm. apply andb_true_iff in Tm. destruct Tm as (T1 & T2). apply Z.eqb_eq in T1, T2.
      destruct (class_target _ _ _ Hcl) as (a & ->). cbn [opnd_text disp_text size_text fst snd lex map app]. change (lex1 (Operand (g_expr a))) with (TExpr (g_expr a)).
      rewrite (front_none _ _ cpu i f s st Hs Ha' Ev (TExpr (g_expr a) :: rest) Logic.I T1 T2). rewrite Hh. cbn [run_handler].
      inversion A as [|? ? (A1 & A2) _]; subst. pose proof (used_in i f s Hs Ha') as U. rewrite D in U. destruct U as (U1 & U2 & U3 & _).
      unfold target_fits in F1. rewrite U1 in F1. rewrite U3.
      destruct (h_bcc new S0 fl k st m0 G P0 cpu (i_data i) (the_size f s) a rest (flat_map opnd_args [OAbs a None]) Hd) as (X & E & Dn); try assumption.
      * intro X. rewrite X in Sz. destruct Sz as (_ & Sn). rewrite Fn in Sn. rewrite (Sn (or_introl eq_refl)) in *. split; [exact Hcpu|reflexivity].
      * left. reflexivity.
      * rewrite E. apply finish. apply (done_ext _ _ _ _ _ _ _ _ _ Dn). intro mc. unfold instr_action. rewrite Cl, Hop. reflexivity.
    + (* one operand *)
      assert (Ft1 : opnd_fits new (here m0) pc (the_size f s) o1) by (destruct c1; try exact F1; congruence).
      destruct (read f i s c1 o1 rest Hs Ha' Hcl Ft1 A Fo) as (md & E & K & Nk & O1 & _).
      assert (Tm' : mask_ok cpu (i_src i) c1 = true /\ (i_dest i = 0 \/ (Z.land (enable020Modes cpu (i_dest i)) AM_EMPTY =? 0) = false)).
      { destruct c1; try congruence; cbn [masks_ok] in Tm; apply andb_true_iff in Tm; destruct Tm as (T1 & T2); (split; [exact T1|]); lia. }
      destruct Tm' as (T1 & T2).
      rewrite (front_one _ _ cpu i f s st Hs Ha' Ev new (the_size f s) c1 o1 _ rest md (text_start _ _ _ Hok) eq_refl T1 Hcl E K Nk).
      2: { destruct T2 as [T2|T2]; [left; exact T2|right; split; [exact T2|]]. destruct rest as [|[] ?]; try destruct En; exact Logic.I. }
      apply finish_runs; try assumption; [rewrite Cl; congruence|]. apply (all_one new S0 fl k st m0 cpu G Hcpu f i c1); assumption.
  - inversion Ft as [|? o1 ? ? F1 Ft2 E3 E4]; subst. inversion Ft2 as [|? o2 ? ? F2 Ft3 E3 E4]; subst. inversion Ft3; subst. clear Ft Ft2 Ft3. cbn [map commas].
    cbn [List.combine forallb fst snd] in Hcl. rewrite andb_true_r in Hcl. apply andb_true_iff in Hcl. destruct Hcl as (C1 & C2). cbn [flat_map] in A. rewrite app_nil_r in A. apply Forall_app in A. destruct A as (A1 & A2).
    pose proof (class_ok _ _ _ _ C1) as Hok1.
    assert (Tx : lex (opnd_text o1 ++ Comma :: opnd_text o2) ++ rest = lex (opnd_text o1) ++ TComma :: lex (opnd_text o2) ++ rest) by (rewrite lex_app, <- app_assoc; reflexivity).
    rewrite Tx. clear Tx.
    assert (Dt : c2 = CTarget \/ c2 <> CTarget) by (destruct c2; (left; reflexivity) || (right; discriminate)). destruct Dt as [-> | Nt].
    + (* DBcc *)
      unfold target_ok in Tg. rewrite Cl in Tg.
      assert (Tg' : c1 = CDn /\ i_handler i = HDBcc /\ code_of i (fun c => String.append "DB" (condition c)) (f_op f) /\ f_default f = None /\ f_op f <> "EXG" /\ f_op f <> "LINK") by (destruct c1; exact Tg).
      clear Tg. destruct Tg' as (-> & Hh & (Hd & Hop) & D & _). cbn [masks_ok] in Tm. apply andb_true_iff in Tm. destruct Tm as (T1 & T2). apply Z.eqb_eq in T2.
      destruct (class_target _ _ _ C2) as (a & ->). destruct (class_dn _ _ _ C1) as (n & ->).
      destruct (read f i s CDn (ODreg n) (TComma :: lex (opnd_text (OAbs a None)) ++ rest) Hs Ha' C1 F1 A1 Logic.I) as (md & E & K & Nk & O1 & _).
      rewrite (front_one _ _ cpu i f s st Hs Ha' Ev new (the_size f s) CDn (ODreg n) _ _ md (text_start _ _ _ Hok1) eq_refl T1 C1 E K Nk (or_introl T2)).
      rewrite Hh. cbn [run_handler]. cbn [opnd_text disp_text size_text fst snd lex map app]. change (lex1 (Operand (g_expr a))) with (TExpr (g_expr a)).
      inversion A2 as [|? ? (B1 & B2) _]; subst. pose proof (used_in i f s Hs Ha') as U. rewrite D in U. destruct U as (_ & U1 & U3 & _ & U4).
      unfold target_fits in F2. rewrite U1 in F2. destruct F2 as (V & R).
      destruct (h_dbcc new S0 fl k st m0 G P0 (i_data i) n (fix_imm (handed f s) md) (the_size f s) a rest (flat_map opnd_args [ODreg n; OAbs a None]) Hd O1 B1 B2 V R) as (X & E' & Dn); [left; reflexivity|].
      rewrite E'. apply finish. apply (done_ext _ _ _ _ _ _ _ _ _ Dn). intro mc. unfold instr_action. rewrite Cl, Hop, U1. reflexivity.
    + (* two operands *)
      assert (X1 : c1 <> CTarget) by (intros ->; pose proof (first_target f Hf) as X; rewrite Cl in X; discriminate X).
      assert (Ft1 : opnd_fits new (here m0) pc (the_size f s) o1) by (destruct c1; try exact F1; congruence).
      assert (Ft2 : opnd_fits new (here m0) pc (the_size f s) o2) by (destruct c2; try exact F2; congruence).
      destruct (read f i s c1 o1 (TComma :: lex (opnd_text o2) ++ rest) Hs Ha' C1 Ft1 A1 Logic.I) as (md & E & K & Nk & O1 & _).
      destruct (read f i s c2 o2 rest Hs Ha' C2 Ft2 A2 Fo) as (md2 & E' & K2 & Nk2 & _ & O2).
      assert (Tm' : mask_ok cpu (i_src i) c1 = true /\ mask_ok cpu (i_dest i) c2 = true).
      { destruct c1; try congruence; destruct c2; try congruence; cbn [masks_ok] in Tm; apply andb_true_iff in Tm; exact Tm. }
      destruct Tm' as (T1 & T2).
      rewrite (front_two _ _ cpu i f s st Hs Ha' Ev new (the_size f s) c1 c2 o1 o2 _ _ rest md md2 (text_start _ _ _ Hok1) eq_refl T1 C1 E K Nk T2 C2 E' K2 Nk2).
      apply finish_runs; try assumption; [rewrite Cl; discriminate|].
      apply (all_two new S0 fl k st m0 cpu G Hcpu f i c1 c2); try assumption; [|split; assumption].
      intros Nm a -> Es. rewrite Nm, Es in Lk. exact Lk.
  - exfalso. destruct c1, c2; discriminate Tm.
Qed.
End Whole.

Theorem encoded : forall cpu S k st m f s ops rest,
  In cpu cpus -> In f forms -> ready st k m 24 -> setting_ok S (here m) -> Z.even (m_used m) = true -> 0 <= e_pc (s_env S) < 2 ^ 31 - 128 ->
  instr_ok (is_new cpu) f s ops = true -> instr_fits (is_new cpu) (here m) (e_pc (s_env S)) f s ops ->
  Forall (arg_ok S (here m)) (flat_map opnd_args ops) -> ends rest ->
  exists st' cells, m68k_IntegerInstruction (s_F S) (s_garbage S) cpu (lex (instr_text f s ops) ++ rest) st = Ok (true, rest, st') /\
    emits_seq S k st st' cells /\ stored_from (flat_map opnd_args ops) cells /\
    forall mc more, decode (is_new cpu) mc (e_pc (s_env S)) (words cells ++ more) = Some (instr_action mc f s ops, more).
Proof.
  intros cpu S k st m f s ops rest Hc Hf R SO Ev P Ok1 Ft A En.
  assert (X : exists fl : bool, (fl = true -> floating (here m)) /\ (floating (here m) -> fl = true)).
  { unfold floating. destruct (here m) as [a|]; [|exists true; tauto]. destruct (a_loadfixed a), (a_orgfixed a); [exists false|exists false|exists false|exists true]; split; intro H; try discriminate H; try (destruct H; discriminate); tauto. }
  destruct X as (fl & X1 & X2).
  apply (whole S fl k st m cpu); try assumption.
  - split; [exact SO|]. split; [exact R|exact X1].
  - destruct R as ((C & N & _) & _). unfold sect_CurrentSize. rewrite C, N. rewrite (Z.land_ones _ 1) by lia. change (2 ^ 1) with 2. rewrite Zmod_odd, <- Z.negb_even, Ev. reflexivity.
  - rewrite Forall_forall in A |- *. intros a I. apply (a_good_of S (here m) a SO (A a I)).
Qed.

Lemma odd_place : forall cpu F g k st m f s ops rest,
  In cpu cpus -> In f forms -> ready st k m 24 -> Z.even (m_used m) = false -> instr_ok (is_new cpu) f s ops = true ->
  exists rest', m68k_IntegerInstruction F g cpu (lex (instr_text f s ops) ++ rest) st = Ok (true, rest', err_Error MERROR_WORD_ALIGN st).
Proof.
  intros cpu F g k st m f s ops rest Hc Hf R Ev Ok1.
  pose proof forms_ok as T. rewrite forallb_forall in T. specialize (T _ Hc). cbv beta in T. rewrite forallb_forall in T. specialize (T _ Hf). unfold form_ok in T.
  destruct (assoc (f_name f) regwords) eqn:E1; [discriminate T|]. destruct (assoc (f_name f) g_integerInstructions) as [i|] eqn:E2; [|discriminate T].
  rewrite !andb_true_iff in T. destruct T as ((Tc & Hs) & Tm).
  unfold instr_ok in Ok1. rewrite !andb_true_iff in Ok1. destruct Ok1 as (((Ha & Hn) & Hl) & Hcl).
  assert (Ha' : size_allowed f s) by (destruct s; [exact Ha|exact Logic.I]). clear Ha.
  assert (Cp : (Z.land (i_cpu i) cpu =? 0) = false).
  { apply orb_true_iff in Tc. destruct Tc as [Tc|Tc]; [lia|]. apply andb_true_iff in Tc. destruct Tc as (Tn & Ta). exfalso.
    unfold all_new in Ta. pose proof (used_in i f s Hs Ha') as U. destruct (f_default f) as [d|] eqn:D; [|discriminate Ta]. destruct U as (_ & U & _).
    rewrite forallb_forall in Ta. specialize (Ta (the_size f s) (or_intror U)). cbv beta in Ta. rewrite Ta in Hn. cbn [negb] in Hn. rewrite orb_false_r in Hn. rewrite Hn in Tn. discriminate Tn. }
  unfold instr_text. cbn [lex map app]. fold (lex (size_text s ++ commas (map opnd_text ops))). cbn [lex1]. rewrite E1, E2. unfold m68k_IntegerInstruction. rewrite Cp.
  unfold m68k_ParseCommonCpuFpu. destruct R as ((C & N & _) & _). unfold sect_CurrentSize. rewrite C, N. rewrite (Z.land_ones _ 1) by lia. change (2 ^ 1) with 2.
  rewrite Zmod_odd, <- Z.negb_even, Ev. eexists. reflexivity.
Qed.
