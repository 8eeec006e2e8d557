(** Proofs about the 680x0 instruction parser: from the text of an instruction to its
    handler. *)
From Coq Require Import String ZArith List Bool Lia ZifyBool.
From Verif Require Import Base BaseFacts Arith ArithProofs ExprSpec ExprModel ExprLayout ExprTree ExprProofs ObjWriteModel OptModel
  SectModel SectSpec SectProofs InstrSpec InstrProofs.
From Verif Require X65Proofs X65Run Z80Run M6809Proofs.
From Verif Require Import X65Spec M68kModel M68kSpec M68kProofs M68kEa M68kFull M68kParse M68kModes M68kShapes M68kParen M68kOperand M68kHandlers M68kInstr M68kInstr2 M68kInstr3 M68kInstr4 M68kInstr5.
Import ListNotations.
Open Scope string_scope.
Open Scope list_scope.
Open Scope Z_scope.

(** ** The table *)
(** The modes of the operands of a class. *)
Definition k_malt : list Z := [AM_AIND; AM_AINC; AM_ADEC; AM_ADISP; AM_AXDISP; AM_WORD; AM_LONG; AM_AXDISP020; AM_PREINDAXD020; AM_POSTINDAXD020].
Definition k_pc : list Z := [AM_PCDISP; AM_PCXDISP; AM_PCXDISP020; AM_PREINDPCXD020; AM_POSTINDPCXD020].
Definition class_modes (new : bool) (c : cls) : list Z :=
  match c with
  | CDn => [AM_DREG] | CAn => [AM_AREG] | CImm | CRange _ _ => [AM_IMM]
  | CAny => AM_DREG :: AM_AREG :: AM_IMM :: k_malt ++ k_pc
  | CData => AM_DREG :: AM_IMM :: k_malt ++ k_pc
  | CDataAlt => AM_DREG :: k_malt
  | CMemAlt => k_malt
  | CAlt => AM_DREG :: AM_AREG :: k_malt
  | CControl => [AM_AIND; AM_ADISP; AM_AXDISP; AM_WORD; AM_LONG; AM_AXDISP020; AM_PREINDAXD020; AM_POSTINDAXD020] ++ k_pc
  | CPreDec => [AM_ADEC] | CPostInc => [AM_AINC]
  | CTest => AM_DREG :: (if new then [AM_IMM] else []) ++ k_malt ++ (if new then k_pc else [])
  | CCmpi => AM_DREG :: k_malt ++ (if new then k_pc else [])
  | CSimple => [AM_DREG; AM_AIND; AM_AINC; AM_ADEC; AM_ADISP; AM_AXDISP; AM_WORD; AM_LONG]
  | CTarget => [AM_WORD; AM_LONG]
  end.
Lemma class_kinds : forall new s c o z, in_class new s c o = true -> In z (kinds o) -> In z (class_modes new c).
Proof.
  intros new s c o z H K.
  assert (X : forallb (fun z => existsb (Z.eqb z) (class_modes new c)) (kinds o) = true).
  { clear K. unfold in_class in H. apply andb_true_iff in H. destruct H as (H0 & H).
    destruct o; cbn [opnd_ok] in H0; cbn [kinds]; destruct c; try discriminate H; try (destruct new; try discriminate H0; try discriminate H; reflexivity);
      unfold data_alterable in H; cbn [through_pc] in H; destruct (is_pc b); rewrite ?andb_false_r in H; try discriminate H; 
      try (destruct new; try discriminate H0; try discriminate H; reflexivity);
      try (destruct (simple _); destruct new; try discriminate H0; try discriminate H; reflexivity). }
  rewrite forallb_forall in X. specialize (X _ K). apply existsb_exists in X. destruct X as (y & Y & E). apply Z.eqb_eq in E. rewrite E. exact Y.
Qed.
Definition mask_ok (cpu mask : Z) (c : cls) : bool :=
  negb (mask =? 0) && negb (mask =? AM_EMPTY) &&
  forallb (fun z => negb (Z.land (enable020Modes cpu mask) z =? 0) || negb (is_new cpu) && new_kind z) (class_modes (is_new cpu) c).
Definition all_new (f : form) : bool := match f_default f with Some x => forallb (fun y => existsb (size_eqb y) (f_new f)) (x :: f_sizes f) | None => false end.
Definition sizes_ok (i : instruction) (f : form) : bool :=
  match f_default f with
  | None => (i_sizes i =? 0) && match f_sizes f with [] => true | _ => false end
  | Some x => negb (i_sizes i =? 0) && (i_default i =? code x) && existsb (size_eqb x) (f_sizes f) && forallb (fun y => negb (Z.land (i_sizes i) (code y) =? 0)) (f_sizes f)
  end.
Definition masks_ok (cpu : Z) (i : instruction) (l : list cls) : bool :=
  match l with
  | [] | [CTarget] => (i_src i =? 0) && (i_dest i =? 0)
  | [c; CTarget] => mask_ok cpu (i_src i) c && (i_dest i =? 0)
  | [c] => mask_ok cpu (i_src i) c && ((i_dest i =? 0) || negb (Z.land (enable020Modes cpu (i_dest i)) AM_EMPTY =? 0))
  | [c1; c2] => mask_ok cpu (i_src i) c1 && mask_ok cpu (i_dest i) c2
  | _ => false
  end.
Definition form_ok (cpu : Z) (f : form) : bool :=
  match assoc (f_name f) regwords, assoc (f_name f) g_integerInstructions with
  | None, Some i => (negb (Z.land (i_cpu i) cpu =? 0) || negb (is_new cpu) && all_new f) && sizes_ok i f && masks_ok cpu i (f_classes f)
  | _, _ => false
  end.
Lemma forms_ok : forallb (fun cpu => forallb (form_ok cpu) forms) cpus = true.
Proof. vm_compute. reflexivity. Qed.

(** ** Sizes *)
Definition handed (f : form) (s : option size) : Z := match used_size f s with Some x => code x | None => 0 end.
Definition size_allowed (f : form) (s : option size) : Prop := match s with None => True | Some x => existsb (size_eqb x) (f_sizes f) = true end.
Definition no_size (ts : list token) : Prop := match ts with TSize _ :: _ => False | _ => True end.
Lemma size_eqb_eq : forall a b, size_eqb a b = true -> a = b.
Proof. intros [] [] H; try discriminate H; reflexivity. Qed.
Lemma in_sizes : forall x l, existsb (size_eqb x) l = true -> In x l.
Proof. intros x l H. apply existsb_exists in H. destruct H as (y & Y & E). rewrite (size_eqb_eq _ _ E). exact Y. Qed.
Lemma used_in : forall i f s, sizes_ok i f = true -> size_allowed f s ->
  match f_default f with
  | None => s = None /\ used_size f s = None /\ handed f s = 0 /\ i_sizes i = 0 /\ the_size f s = SW
  | Some _ => used_size f s = Some (the_size f s) /\ In (the_size f s) (f_sizes f) /\ handed f s = code (the_size f s) /\
      (i_sizes i =? 0) = false /\ (Z.land (i_sizes i) (handed f s) =? 0) = false
  end.
Proof.
  intros i f s H A. unfold sizes_ok in H. unfold handed, the_size, used_size, size_allowed in *. destruct (f_default f) as [d|] eqn:D.
  - rewrite !andb_true_iff in H. destruct H as (((H1 & H2) & H3) & H4). rewrite forallb_forall in H4.
    destruct s as [x|]; cbv iota in A |- *; (split; [reflexivity|]); (split; [apply in_sizes; assumption|]); (split; [reflexivity|]); (split; [lia|]).
    + specialize (H4 _ (in_sizes _ _ A)). cbv beta in H4. lia.
    + specialize (H4 _ (in_sizes _ _ H3)). cbv beta in H4. lia.
  - rewrite andb_true_iff in H. destruct H as (H1 & H2). destruct (f_sizes f); [|discriminate H2]. destruct s as [x|]; [discriminate A|]. repeat split. lia.
Qed.
Lemma lex_size : forall s, lex (size_text (Some s)) = [TSize (code s)].
Proof. intros []; reflexivity. Qed.
Section Front.
Variables (F : fmath) (g cpu : Z) (i : instruction) (f : form) (s : option size) (st : xstate).
Hypothesis Hs : sizes_ok i f = true.
Hypothesis Ha : size_allowed f s.
Hypothesis Ev : Z.land (sect_CurrentSize st) 1 = 0.
Definition refused (allowed : Z) (a : amode) : bool := (Z.land allowed (a_mode a) =? 0) && negb ((allowed =? 0) && (a_mode a =? AM_EMPTY)).
Definition reads (modes : Z) : bool := negb (modes =? 0) && negb (modes =? AM_EMPTY).
Lemma no_complaint : (Z.land (i_sizes i) (handed f s) =? 0) && negb (i_sizes i =? 0) && negb (i_default i =? 0) = false.
Proof.
  pose proof (used_in i f s Hs Ha) as U. destruct (f_default f).
  - destruct U as (_ & _ & _ & _ & ->). reflexivity.
  - destruct U as (_ & _ & _ & -> & _). rewrite andb_false_r. reflexivity.
Qed.
Lemma sized_text : forall t, no_size t ->
  (if i_sizes i =? SIZE_DEFAULT then let (z, u) := m68k_GetSizeSpecifier SIZE_DEFAULT (lex (size_text s) ++ t) in
     (SIZE_DEFAULT, if z =? SIZE_DEFAULT then u else match u with [] => [] | _ :: r => r end)
   else m68k_GetSizeSpecifier (i_default i) (lex (size_text s) ++ t)) = (handed f s, t).
Proof.
  intros t N. pose proof (used_in i f s Hs Ha) as U. unfold sizes_ok in Hs. change SIZE_DEFAULT with 0.
  assert (X : forall d, m68k_GetSizeSpecifier d t = (d, t)) by (intro d; destruct t as [|[] t]; try reflexivity; destruct N).
  destruct (f_default f) as [d|] eqn:D.
  - destruct U as (U1 & U2 & U3 & U4 & _). rewrite U4, U3. unfold the_size, used_size in *. destruct s as [x|].
    + rewrite lex_size. cbn [app m68k_GetSizeSpecifier]. reflexivity.
    + cbn [size_text lex map app]. rewrite X, D. rewrite !andb_true_iff in Hs. destruct Hs as (((_ & E) & _) & _). apply Z.eqb_eq in E. rewrite E. reflexivity.
  - destruct U as (-> & U2 & U3 & U4 & _). rewrite U4, U3. cbn [size_text lex map app Z.eqb]. rewrite X. reflexivity.
Qed.
(** No operand is read. *)
Lemma front_none : forall t, no_size t -> i_src i = 0 -> i_dest i = 0 ->
  m68k_ParseCommonCpuFpu F g cpu i (lex (size_text s) ++ t) st = run_handler F g cpu (i_handler i) (handed f s) no_mode no_mode (i_data i) t st.
Proof.
  intros t N E1 E2. unfold m68k_ParseCommonCpuFpu. rewrite Ev, (sized_text t N). cbv beta iota. rewrite no_complaint. unfold m68k_ParseOpCore. rewrite E1, E2.
  cbn [negb Z.eqb andb]. unfold enable020Modes. destruct (cpu >=? CPUF_68020); reflexivity.
Qed.
Lemma mask_not_refused : forall mask c new sz o md z, new = is_new cpu -> mask_ok cpu mask c = true -> in_class new sz c o = true -> In (a_mode md) (kinds o) -> (new_kind (a_mode md) = true -> new = true) ->
  reads mask = true /\ refused (enable020Modes cpu mask) (fix_imm z md) = false.
Proof.
  intros mask c new sz o md z -> H C K Nk. unfold mask_ok in H. apply andb_true_iff in H. destruct H as (H1 & H). split; [exact H1|]. rewrite forallb_forall in H.
  specialize (H _ (class_kinds _ _ _ _ _ C K)). cbv beta in H. unfold refused.
  replace (a_mode (fix_imm z md)) with (a_mode md) by (unfold fix_imm; destruct (a_mode md =? AM_IMM); reflexivity).
  apply orb_true_iff in H. destruct H as [H|H]; [apply negb_true_iff in H; rewrite H; reflexivity|].
  apply andb_true_iff in H. destruct H as (H2 & H3). rewrite (Nk H3) in H2. discriminate H2.
Qed.
(** One operand is read. *)
Lemma front_one : forall new sz c o t r md, no_size t -> new = is_new cpu -> mask_ok cpu (i_src i) c = true -> in_class new sz c o = true ->
  m68k_GetAddressingMode cpu t st = Ok (true, md, r, st) -> In (a_mode md) (kinds o) -> (new_kind (a_mode md) = true -> new = true) ->
  i_dest i = 0 \/ ((Z.land (enable020Modes cpu (i_dest i)) AM_EMPTY =? 0) = false /\ match r with TComma :: _ => False | _ => True end) ->
  m68k_ParseCommonCpuFpu F g cpu i (lex (size_text s) ++ t) st = run_handler F g cpu (i_handler i) (handed f s) (fix_imm (handed f s) md) no_mode (i_data i) r st.
Proof.
  intros new sz c o t r md N En M C E K Nk D. destruct (mask_not_refused _ _ _ _ _ _ (handed f s) En M C K Nk) as (R1 & R2).
  unfold m68k_ParseCommonCpuFpu. rewrite Ev, (sized_text t N). cbv beta iota zeta. rewrite no_complaint.
  change (negb (i_src i =? 0) && negb (i_src i =? AM_EMPTY)) with (reads (i_src i)). rewrite R1, E. cbn [bind]. cbn [negb Z.eqb].
  fold (fix_imm (handed f s) md). set (src := fix_imm (handed f s) md) in *.
  assert (X : m68k_ParseOpCore F g cpu i (handed f s) src no_mode r st = run_handler F g cpu (i_handler i) (handed f s) src no_mode (i_data i) r st).
  { unfold m68k_ParseOpCore. change ((Z.land (enable020Modes cpu (i_src i)) (a_mode src) =? 0) && negb ((enable020Modes cpu (i_src i) =? 0) && (a_mode src =? AM_EMPTY))) with (refused (enable020Modes cpu (i_src i)) src).
    rewrite R2. change (a_mode no_mode) with AM_EMPTY. destruct D as [D|(D & _)].
    - rewrite D. unfold enable020Modes. destruct (cpu >=? CPUF_68020); reflexivity.
    - rewrite D. reflexivity. }
  destruct D as [D|(_ & D)].
  - rewrite D. cbn [Z.eqb negb andb]. exact X.
  - destruct (negb (i_dest i =? 0) && negb (i_dest i =? AM_EMPTY)); [|exact X]. destruct r as [|[] r]; try exact X. destruct D.
Qed.
(** Two are. *)
Lemma front_two : forall new sz c1 c2 o1 o2 t r r2 md md2, no_size t -> new = is_new cpu -> mask_ok cpu (i_src i) c1 = true -> in_class new sz c1 o1 = true ->
  m68k_GetAddressingMode cpu t st = Ok (true, md, TComma :: r, st) -> In (a_mode md) (kinds o1) -> (new_kind (a_mode md) = true -> new = true) ->
  mask_ok cpu (i_dest i) c2 = true -> in_class new sz c2 o2 = true ->
  m68k_GetAddressingMode cpu r st = Ok (true, md2, r2, st) -> In (a_mode md2) (kinds o2) -> (new_kind (a_mode md2) = true -> new = true) ->
  m68k_ParseCommonCpuFpu F g cpu i (lex (size_text s) ++ t) st = run_handler F g cpu (i_handler i) (handed f s) (fix_imm (handed f s) md) md2 (i_data i) r2 st.
Proof.
  intros new sz c1 c2 o1 o2 t r r2 md md2 N En M C E K Nk M2 C2 E2 K2 Nk2. destruct (mask_not_refused _ _ _ _ _ _ (handed f s) En M C K Nk) as (R1 & R2).
  destruct (mask_not_refused _ _ _ _ _ _ (a_immsize md2) En M2 C2 K2 Nk2) as (R3 & R4).
  assert (X2 : fix_imm (a_immsize md2) md2 = md2) by (destruct md2; unfold fix_imm, set_immsize; cbn; destruct (_ =? _); reflexivity). rewrite X2 in R4.
  unfold m68k_ParseCommonCpuFpu. rewrite Ev, (sized_text t N). cbv beta iota zeta. rewrite no_complaint.
  change (negb (i_src i =? 0) && negb (i_src i =? AM_EMPTY)) with (reads (i_src i)). rewrite R1, E. cbn [bind]. cbn [negb Z.eqb].
  change (negb (i_dest i =? 0) && negb (i_dest i =? AM_EMPTY)) with (reads (i_dest i)). rewrite R3, E2. cbn [bind].
  fold (fix_imm (handed f s) md). set (src := fix_imm (handed f s) md) in *. unfold m68k_ParseOpCore.
  change ((Z.land (enable020Modes cpu (i_src i)) (a_mode src) =? 0) && negb ((enable020Modes cpu (i_src i) =? 0) && (a_mode src =? AM_EMPTY))) with (refused (enable020Modes cpu (i_src i)) src). rewrite R2.
  change ((Z.land (enable020Modes cpu (i_dest i)) (a_mode md2) =? 0) && negb ((enable020Modes cpu (i_dest i) =? 0) && (a_mode md2 =? AM_EMPTY))) with (refused (enable020Modes cpu (i_dest i)) md2). rewrite R4. reflexivity.
Qed.
End Front.
Lemma text_start : forall new o r, opnd_ok new o = true -> no_size (lex (opnd_text o) ++ r).
Proof.
  intros new o r H. destruct o; cbn [opnd_text lex map app opnd_ok] in *.
  - rewrite (lex_d _ H). exact Logic.I. - rewrite (lex_a _ H). exact Logic.I. - rewrite (lex_ind _ H). exact Logic.I.
  - rewrite (lex_inc _ H). exact Logic.I. - rewrite (lex_dec _ H). exact Logic.I. - exact Logic.I. - exact Logic.I. - exact Logic.I. - exact Logic.I.
  - destruct outside; [destruct d as [(a, z)|]|]; exact Logic.I.
  - exact Logic.I.
Qed.
