(** Proofs about the 6502 instruction parser: whole instructions. *)
From Coq Require Import ZArith List Bool Lia ZifyBool String.
From Verif Require Import Base BaseFacts Arith ArithProofs ExprSpec ExprModel ExprLayout ObjWriteModel OptModel
  SectModel SectSpec InstrSpec InstrProofs X65Model X65Spec X65Proofs X65Parse.
Import ListNotations.
Open Scope string_scope.
Open Scope Z_scope.

(** ** What a handler stores *)
Definition fits (o : out) (kd : kind) : bool :=
  match kd, o with
  | Imp, ONone | Acc, ONone | Imm, OSigned | Imm, OByte => true
  | (Zp | ZpX | ZpY | IndX | IndY | IndZp), OByte => true
  | (Abs | AbsX | AbsY | Ind | IndAbsX), OWord => true
  | Rel, ORel | ZpRel, OZpRel | Bit, OBit | BitRel, OBitRel => true
  | _, _ => false
  end.
Definition bit_op (op : Z) : Prop := In op [0x07; 0x0F; 0x87; 0x8F].

Lemma ready_less : forall st k m n n', ready st k m n -> n' <= n -> ready st k m n'.
Proof. intros st k m n n' (A & B & C & D) L. repeat (split; [assumption|]). lia. Qed.
Lemma op_step : forall S k st m b room, setting_ok S (here m) -> ready st k m (1 + room) -> 0 <= room ->
  exists st1 m1, sect_OutputConst8 b st = Ok st1 /\ emits S k st st1 [(1%nat, Num b, b)] /\
    ready st1 k m1 room /\ setting_ok (moved 1 S) (here m1).
Proof.
  intros S k st m b room SO R P.
  destruct (out_const8 S b (Num b) k st m) as (st1 & E & Em); [apply (ready_less _ _ _ _ _ R); lia|].
  destruct (next_place S k st st1 m 1 _ _ room SO R Em) as (m1 & R2 & S2). exists st1, m1. tauto.
Qed.
Lemma byte_step : forall S k st m t e v room, setting_ok S (here m) -> ready st k m (1 + room) -> 0 <= room ->
  carries S (here m) t e v -> byte v ->
  exists st1 m1, x65_OutputU8Expression e st = Ok st1 /\ emits S k st st1 [(1%nat, t, v)] /\
    ready st1 k m1 room /\ setting_ok (moved 1 S) (here m1).
Proof.
  intros S k st m t e v room SO R P C B.
  destruct (out_U8 S st k m SO t e v) as (st1 & E & Em); [apply (ready_less _ _ _ _ _ R); lia|exact C|exact B|].
  destruct (next_place S k st st1 m 1 _ _ room SO R Em) as (m1 & R2 & S2). exists st1, m1. tauto.
Qed.
Lemma bit_step : forall S k st m t e v op room, setting_ok S (here m) -> ready st k m (1 + room) -> 0 <= room ->
  carries S (here m) t e v -> 0 <= v <= 7 -> bit_op op ->
  exists st1 m1, bitOpcode (s_F S) op e st = Ok st1 /\ emits S k st st1 [(1%nat, t, op + 16 * v)] /\
    ready st1 k m1 room /\ setting_ok (moved 1 S) (here m1).
Proof.
  intros S k st m t e v op room SO R P C V B.
  destruct (carries_checked S _ t e v 0 7 st SO C) as (e1 & E1 & (T & O & D & W & K & So & Ph)); try (unfold is_s32; lia).
  destruct (operand_bin S (here m) OpAsl T (Num 4) e1 (expr_Const 4) v 4 (16 * v) SO O) as (e2 & E2 & O2).
  { apply operand_num. unfold is_s32. lia. }
  { assert (Hv : In v [0; 1; 2; 3; 4; 5; 6; 7]) by (cbn [In]; lia). each Hv; reflexivity. }
  { exact I. }
  assert (I32 : is_s32 op) by (unfold is_s32; each B; lia).
  destruct (operand_bin S (here m) OpOr (Num op) (Bin OpAsl T (Num 4)) (expr_Const op) e2 op (16 * v) (op + 16 * v) SO) as (e3 & E3 & O3).
  { apply operand_num. exact I32. } { exact O2. }
  { assert (Hv : In v [0; 1; 2; 3; 4; 5; 6; 7]) by (cbn [In]; lia). each B; each Hv; reflexivity. }
  { exact I. }
  destruct (out_expr S (here m) 1 (Bin OpOr (Num op) (Bin OpAsl T (Num 4))) t e3 (op + 16 * v) k st m (or_introl eq_refl) SO O3) as (st1 & E & Em).
  { cbn [tdepth]. lia. }
  { apply within_bin; [apply within_num|apply within_bin; [exact W|apply within_num]]. }
  { cbn [known]. tauto. }
  { apply (ready_less _ _ _ _ _ R). lia. }
  destruct (next_place S k st st1 m 1 _ _ room SO R Em) as (m1 & R2 & S2). exists st1, m1. split; [|tauto].
  unfold bitOpcode. rewrite E1. cbn [bind]. unfold expr_Asl, expr_Or.
  change (build2 (s_F S) (s_garbage S) (s_world S) OpAsl e1 (expr_Const 4)) with (expr_Binary (s_F S) OpAsl e1 (expr_Const 4)) in E2.
  change (build2 (s_F S) (s_garbage S) (s_world S) OpOr (expr_Const op) e2) with (expr_Binary (s_F S) OpOr (expr_Const op) e2) in E3.
  rewrite E2. cbn [bind]. rewrite E3. exact E.
Qed.
Lemma relative_step : forall S k st m t e v pc n, setting_ok S (here m) -> ready st k m 1 ->
  carries S (here m) t e v -> reachable pc n v -> e_pc (s_env S) = pc + n - 1 ->
  exists st1, outputRelative (s_F S) e st = Ok st1 /\ emits S k st st1 [(1%nat, PcRel (-1) t, v - (pc + n))].
Proof.
  intros S k st m t e v pc n SO R C (Wv & B) Pc.
  destruct (out_relative S st k m SO t e v R C) as (st1 & E & Em).
  { split; [exact Wv|]. lia. }
  exists st1. split; [exact E|]. replace (v - (pc + n)) with (v - (e_pc (s_env S) + 1)) by lia. exact Em.
Qed.

Lemma runs : forall S k st m s kd (f : form arg) am op ot b, setting_ok S (here m) -> ready st k m 3 ->
  fits ot kd = true -> u8 op = b -> (kd = Bit \/ kd = BitRel -> bit_op op) ->
  (ot = OByte -> kd = Imm -> s = "BIT") -> (kd <> Imm -> forall v, part f v = v) ->
  in_range s kd f (e_pc (s_env S)) (map g_value (operands f)) -> delivered S (here m) f am ->
  exists st', run_act (s_F S) (op, ot) am st = Ok (true, st') /\
    emits_seq S k st st' (cells b kd f (e_pc (s_env S)) (operands f)).
Proof.
  intros S k st m s kd f am op ot b SO R Fi U Bo Si Pa Ra De. set (pc := e_pc (s_env S)) in *.
  assert (Moved : forall n, e_pc (s_env (moved n S)) = pc + n) by reflexivity.
  unfold delivered in De. destruct (operands f) as [|x1 [|x2 [|x3 [|]]]] eqn:Of; cbn [map] in Ra.
  - (* nothing *)
    assert (On : ot = ONone) by (destruct kd, ot; try discriminate; destruct Ra; reflexivity). subst ot.
    destruct (op_step S k st m b 0 SO) as (st1 & m1 & E & Em & _); [apply (ready_less _ _ _ _ _ R); lia|lia|].
    exists st1. split; [unfold run_act, op_only; cbn [fst snd]; rewrite U, E; reflexivity|].
    destruct kd; cbn [cells]; try contradiction; exists st1; split; [exact Em|reflexivity|exact Em|reflexivity].
  - (* one *)
    destruct (op_step S k st m b 2 SO) as (st1 & m1 & E & Em & R1 & S1); [exact R|lia|].
    pose proof (carries_moved S (here m) (here m1) 1 _ _ _ De) as De1.
    assert (R1a : ready st1 k m1 1) by (apply (ready_less _ _ _ _ _ R1); lia).
    assert (Last : forall st2 c, emits (moved 1 S) k st1 st2 [c] -> emits_seq S k st st2 [(1%nat, Num b, b); c]).
    { intros st2 c Hc. exists st1. split; [exact Em|]. exists st2. split; [exact Hc|reflexivity]. }
    change (s_F S) with (s_F (moved 1 S)).
    assert (Pa1 : kd <> Imm -> part f (g_value x1) = g_value x1) by (intro H; apply Pa, H).
    destruct kd, ot; try discriminate Fi; cbn [in_range] in Ra; try contradiction; cbn [cells run_act fst snd]; unfold op_with; rewrite U, E; cbn [bind];
      try (destruct (out_U8 (moved 1 S) st1 k m1 S1 _ _ _ R1a De1) as (st2 & E2 & Em2);
           [rewrite Pa1 by discriminate; exact Ra|]; unfold done; rewrite E2; cbn [bind]; exists st2; split; [reflexivity|];
           apply Last; rewrite Pa1 in Em2 by discriminate; exact Em2).
    all: idtac.
    all: try (destruct Ra as (Ra1 & Ra2); destruct (out_U16 (moved 1 S) st1 k m1 S1 _ _ _ R1 De1) as (st2 & E2 & Em2);
           [rewrite Pa1 by discriminate; exact Ra1|]; unfold done; rewrite E2; cbn [bind]; exists st2; split; [reflexivity|];
           apply Last; rewrite Pa1 in Em2 by discriminate; exact Em2).
    + (* immediate *)
      destruct (out_SU8 (moved 1 S) st1 k m1 S1 _ _ _ R1a De1) as (st2 & E2 & Em2);
           [destruct (String.eqb s "BIT"); lia|]. unfold done. rewrite E2. exists st2. split; [reflexivity|]. apply Last, Em2.
    + rewrite (Si eq_refl eq_refl) in Ra. change ("BIT" =? "BIT")%string with true in Ra. cbv iota in Ra.
      destruct (out_U8 (moved 1 S) st1 k m1 S1 _ _ _ R1a De1 Ra) as (st2 & E2 & Em2).
      unfold done. rewrite E2. exists st2. split; [reflexivity|]. apply Last. rewrite Z.mod_small by lia. exact Em2.
    + destruct Ra as (Ra1 & Ra2).
      destruct (relative_step (moved 1 S) k st1 m1 _ _ _ pc 2 S1 R1a De1) as (st2 & E2 & Em2).
      { rewrite Pa1 by discriminate; exact Ra1. } { rewrite Moved. lia. }
      unfold done. rewrite E2. exists st2. split; [reflexivity|]. apply Last. rewrite Pa1 in Em2 by discriminate; exact Em2.
  - (* two *)
    destruct De as (D1 & D2).
    destruct kd; try contradiction; destruct ot; try discriminate Fi; cbn [cells run_act fst snd].
    + destruct Ra as (Ra1 & Ra2).
      destruct (op_step S k st m b 2 SO) as (st1 & m1 & E & Em & R1 & S1); [exact R|lia|].
      destruct (byte_step (moved 1 S) k st1 m1 _ _ _ 1 S1 R1 ltac:(lia) (carries_moved S _ _ 1 _ _ _ D1) Ra1) as (st2 & m2 & E2 & Em2 & R2 & S2).
      pose proof (carries_moved _ _ (here m2) 1 _ _ _ (carries_moved S _ (here m1) 1 _ _ _ D2)) as D3.
      destruct (relative_step _ k st2 m2 _ _ _ pc 3 S2 R2 D3 Ra2) as (st3 & E3 & Em3).
      { cbn. fold pc. lia. }
      exists st3. split.
      * unfold handleBITxBranch_C02. rewrite U, E. cbn [bind]. rewrite E2. cbn [bind].
        change (s_F S) with (s_F (moved 1 (moved 1 S))). unfold done. rewrite E3. reflexivity.
      * exists st1. split; [exact Em|]. exists st2. split; [exact Em2|]. exists st3. split; [exact Em3|reflexivity].
    + destruct Ra as (Ra1 & Ra2).
      destruct (bit_step S k st m _ _ _ op 1 SO (ready_less _ _ _ _ (1 + 1) R ltac:(lia)) ltac:(lia) D1 Ra1 (Bo (or_introl eq_refl))) as (st1 & m1 & E & Em & R1 & S1).
      destruct (byte_step (moved 1 S) k st1 m1 _ _ _ 0 S1 R1 ltac:(lia) (carries_moved S _ _ 1 _ _ _ D2) Ra2) as (st2 & m2 & E2 & Em2 & R2 & S2).
      assert (b = op) as -> by (rewrite <- U; specialize (Bo (or_introl eq_refl)); unfold bit_op in Bo; each Bo; reflexivity).
      exists st2. split.
      * unfold handleBIT_C02. rewrite E. cbn [bind]. unfold done. rewrite E2. reflexivity.
      * exists st1. split; [exact Em|]. exists st2. split; [exact Em2|reflexivity].
  - (* three *)
    destruct De as (D1 & D2 & D3).
    destruct kd; try contradiction; destruct ot; try discriminate Fi; cbn [cells run_act fst snd].
    destruct Ra as (Ra1 & Ra2 & Ra3).
    destruct (bit_step S k st m _ _ _ op 2 SO R ltac:(lia) D1 Ra1 (Bo (or_intror eq_refl))) as (st1 & m1 & E & Em & R1 & S1).
    destruct (byte_step (moved 1 S) k st1 m1 _ _ _ 1 S1 R1 ltac:(lia) (carries_moved S _ _ 1 _ _ _ D2) Ra2) as (st2 & m2 & E2 & Em2 & R2 & S2).
    assert (b = op) as -> by (rewrite <- U; specialize (Bo (or_intror eq_refl)); unfold bit_op in Bo; each Bo; reflexivity).
    pose proof (carries_moved _ _ (here m2) 1 _ _ _ (carries_moved S _ (here m1) 1 _ _ _ D3)) as D4.
    destruct (relative_step _ k st2 m2 _ _ _ pc 3 S2 R2 D4 Ra3) as (st3 & E3 & Em3).
    { cbn. fold pc. lia. }
    exists st3. split.
    + unfold handleBITBranch_C02. rewrite E. cbn [bind]. rewrite E2. cbn [bind].
      change (s_F S) with (s_F (moved 1 (moved 1 S))). unfold done. rewrite E3. reflexivity.
    + exists st1. split; [exact Em|]. exists st2. split; [exact Em2|]. exists st3. split; [exact Em3|reflexivity].
  - destruct f; discriminate Of.
Qed.

(** ** The tables agree *)
Definition shapes : list (form unit) :=
  [FNone; FAcc; FImm tt; FLow tt; FHigh tt; FBank tt; FSwap tt; FAddr tt; FAddrX tt; FAddrY tt; FZp tt; FZpX tt; FZpY tt;
   FIndX tt; FIndY tt; FInd tt; FTwo tt tt; FThree tt tt tt].
Definition shape {A : Type} (f : form A) : form unit := fmap (fun _ => tt) f.
Lemma shape_in : forall A (f : form A), In (shape f) shapes.
Proof. intros A []; cbn; tauto. Qed.
Definition lookup (c : cpu) (n : Z) (s : string) : option sparser :=
  match assoc s (words n) with
  | TId id => if (T_6502_ADC <=? id) && (id <=? T_65C02_SMB7) then nth_error g_instructionHandlers (Z.to_nat (id - T_6502_ADC)) else None
  | _ => None
  end.
Definition allowed_by (c : cpu) (h : sparser) : Z := Z.land (p_modes h) (o_allowedModes (x65_options (cpu_number c))).
Definition is_imm16 (i : immsize) : bool := match i with IMM_16_BIT => true | _ => false end.
Definition mode_kind (mode : Z) (f : form unit) (kd : kind) : bool :=
  match f with
  | FIndX _ => Bool.eqb (mode =? M_IND_ZP_X) (kind_eqb kd IndX)
  | FTwo _ _ => Bool.eqb (mode =? M_ZP_ABS) (kind_eqb kd ZpRel) && Bool.eqb (mode =? M_BIT_ZP) (kind_eqb kd Bit)
  | FThree _ _ _ => kind_eqb kd BitRel
  | FIndY _ => kind_eqb kd IndY
  | _ => true
  end.
Definition agrees (c : cpu) (n : Z) (s : string) (nr : bool) (f : form unit) : bool :=
  match select c n s nr f with
  | None => true
  | Some (kd, b) =>
      String.eqb s "RLA" || (kind_eqb kd IndZp && negb nr) ||
      match lookup c n s with
      | None => false
      | Some h =>
          let allowed := allowed_by c h in
          let mode := mode_for allowed nr f in
          isCpu (x65_options (cpu_number c)) (p_cpu h) && negb (has allowed LATER) && negb (is_imm16 (p_imm h)) && negb (mode =? 0) &&
          has mode allowed && existsb (Z.eqb mode) LEGACY && mode_kind mode f kd &&
          match act (cpu_number c) (p_handler h) (p_base h) mode with
          | None => false
          | Some (op, ot) =>
              fits ot kd && (u8 op =? b) && (negb (kind_eqb kd Bit || kind_eqb kd BitRel) || existsb (Z.eqb op) [0x07; 0x0F; 0x87; 0x8F]) &&
              (negb match ot with OByte => kind_eqb kd Imm | _ => false end || String.eqb s "BIT") &&
              (negb match ot with OSigned => true | _ => false end || negb (String.eqb s "BIT"))
          end
      end
  end.
Definition table_agrees (c : cpu) (n : Z) : bool :=
  forallb (fun s => forallb (fun f => agrees c n s true f && agrees c n s false f) shapes) (map fst (table c n)).
Definition settings : list (cpu * Z) := [(C6502, 0); (C6502, 1); (C6502, 2); (C6502, 3); (C65C02, 0); (C65C02S, 0)].
Lemma tables_agree : forallb (fun p => table_agrees (fst p) (snd p)) settings = true.
Proof. vm_compute. reflexivity. Qed.
Lemma settings_in : forall c n, selectable c n -> In (c, n) settings.
Proof.
  intros c n (H & C). assert (N : n = 0 \/ n = 1 \/ n = 2 \/ n = 3) by lia.
  destruct c; [|specialize (C ltac:(discriminate)); subst n; cbn; tauto..].
  destruct N as [->|[->|[->| ->]]]; cbn; tauto.
Qed.
Lemma select_named : forall A c n s nr (f : form A) p, select c n s nr f = Some p -> In s (map fst (table c n)).
Proof.
  intros A c n s nr f p. unfold select. induction (kinds nr f) as [|kd r IH]; cbn [first_of]; [discriminate|].
  destruct (opcode c n s kd) eqn:E; [intros _|exact IH].
  unfold opcode in E. clear IH. induction (table c n) as [|x l IHl]; [discriminate|]. cbn [flat_map] in E. cbn [map In].
  destruct (String.eqb_spec s (fst x)); [left; congruence|]. right. apply IHl, E.
Qed.
Lemma select_kind : forall A c n s nr (f : form A) kd b, select c n s nr f = Some (kd, b) -> In kd (kinds nr f).
Proof.
  intros A c n s nr f kd b. unfold select. induction (kinds nr f) as [|k r IH]; cbn [first_of]; [discriminate|].
  destruct (opcode c n s k); [intro H; injection H as <- _; left; reflexivity|intro H; right; apply IH, H].
Qed.
Lemma select_shape : forall A c n s nr (f : form A), select c n s nr (shape f) = select c n s nr f.
Proof. intros A c n s nr []; reflexivity. Qed.
Lemma mode_shape : forall A al nr (f : form A), mode_for al nr (shape f) = mode_for al nr f.
Proof. intros A al nr []; reflexivity. Qed.
Lemma agreed : forall c n s nr (f : form unit), selectable c n -> In s (map fst (table c n)) -> In f shapes -> agrees c n s nr f = true.
Proof.
  intros c n s nr f Se Is If. pose proof tables_agree as T. rewrite forallb_forall in T. specialize (T _ (settings_in c n Se)).
  cbn [fst snd] in T. unfold table_agrees in T. rewrite forallb_forall in T. specialize (T _ Is). rewrite forallb_forall in T.
  specialize (T _ If). apply andb_prop in T. destruct nr; apply T.
Qed.
Lemma kind_eqb_eq : forall a b, kind_eqb a b = true -> a = b.
Proof. intros [] []; (reflexivity || discriminate). Qed.
Lemma existsb_in : forall x l, existsb (Z.eqb x) l = true -> In x l.
Proof. intros x l H. apply existsb_exists in H. destruct H as (y & I & E). apply Z.eqb_eq in E. subst. exact I. Qed.
Ltac ands H := repeat match type of H with _ && _ = true => let H' := fresh in apply andb_prop in H; destruct H as (H & H'); try ands H' end.

(** What the tables say of an instruction that the manual has. *)
Lemma listed : forall c n s nr (f : form arg) kd b, selectable c n -> select c n s nr f = Some (kd, b) ->
  s <> "RLA" -> ~ (kd = IndZp /\ nr = false) ->
  exists id h op ot, assoc s (words n) = TId id /\ (T_6502_ADC <=? id) && (id <=? T_65C02_SMB7) = true /\
    nth_error g_instructionHandlers (Z.to_nat (id - T_6502_ADC)) = Some h /\
    isCpu (x65_options (cpu_number c)) (p_cpu h) = true /\ has (allowed_by c h) LATER = false /\ p_imm h <> IMM_16_BIT /\
    (let mode := mode_for (allowed_by c h) nr f in
     (mode =? 0) = false /\ has mode (allowed_by c h) = true /\ In mode LEGACY /\ mode_kind mode (shape f) kd = true /\
     act (cpu_number c) (p_handler h) (p_base h) mode = Some (op, ot)) /\
    fits ot kd = true /\ u8 op = b /\ (kd = Bit \/ kd = BitRel -> bit_op op) /\ (ot = OByte -> kd = Imm -> s = "BIT") /\
    (ot = OSigned -> s <> "BIT").
Proof.
  intros c n s nr f kd b Se E N1 N2.
  pose proof (agreed c n s nr (shape f) Se (select_named _ _ _ _ _ _ _ E) (shape_in _ f)) as A.
  unfold agrees in A. rewrite select_shape, E in A.
  destruct (String.eqb_spec s "RLA") as [?|_]; [contradiction|]. cbn [orb] in A.
  destruct (kind_eqb kd IndZp && negb nr) eqn:K.
  { destruct N2. apply andb_prop in K. destruct K as (K1 & K2). split; [apply kind_eqb_eq, K1|destruct nr; [discriminate|reflexivity]]. }
  cbn [orb] in A. unfold lookup in A. destruct (assoc s (words n)) as [id| | | | | | | | | | | |] eqn:As; try discriminate.
  destruct ((T_6502_ADC <=? id) && (id <=? T_65C02_SMB7)) eqn:Ir; [|discriminate].
  destruct (nth_error g_instructionHandlers (Z.to_nat (id - T_6502_ADC))) as [h|] eqn:Nh; [|discriminate].
  cbv zeta in A. rewrite mode_shape in A. ands A.
  destruct (act (cpu_number c) (p_handler h) (p_base h) (mode_for (allowed_by c h) nr f)) as [[op ot]|] eqn:Ac; [|discriminate].
  match goal with H : fits _ _ && _ && _ && _ && _ = true |- _ => ands H; rename H into Hf end.
  exists id, h, op, ot. split; [reflexivity|]. split; [exact Ir|]. split; [exact Nh|]. split; [exact A|].
  split; [destruct (has (allowed_by c h) LATER); [discriminate|reflexivity]|].
  split; [intro Q; rewrite Q in *; discriminate|]. split.
  { cbv zeta. split; [destruct (mode_for (allowed_by c h) nr f =? 0); [discriminate|reflexivity]|].
    split; [assumption|]. split; [apply existsb_in; assumption|]. split; [assumption|exact Ac]. }
  split; [exact Hf|]. split; [lia|]. split.
  - intro Q. apply existsb_in. destruct Q as [-> | ->]; assumption.
  - split; [intros -> ->; apply String.eqb_eq; assumption|]. intros -> ->. discriminate.
Qed.

(** ** Whole instructions *)
Lemma lex_operands : forall n (f : form arg),
  lex n (text (fmap (fun a => [Operand (g_expr a)]) f)) = tokens (fmap (fun a => [TExpr (g_expr a)]) f).
Proof. intros n f. rewrite lex_text. destruct f; reflexivity. Qed.
Lemma in_range_ranged : forall s kd (f : form arg) pc mode nr, In kd (kinds nr f) -> ~ faulty s kd f -> mode_kind mode (shape f) kd = true ->
  in_range s kd f pc (map g_value (operands f)) -> ranged mode f.
Proof.
  intros s kd f pc mode nr K Fa Mk Ra.
  destruct f; cbn [ranged operands map shape fmap mode_kind] in *; try exact I.
  - cbn [kinds In] in K. destruct K as [<-|[<-|[<-|[]]]]; cbn [in_range] in Ra; tauto.
  - cbn [kinds In] in K. destruct K as [<-|[<-|[]]]; cbn [in_range] in Ra; tauto.
  - cbn [kinds In] in K. destruct K as [<-|[<-|[]]]; cbn [in_range] in Ra; tauto.
  - intros ->. change (M_IND_ZP_X =? M_IND_ZP_X) with true in Mk. apply eqb_prop in Mk. symmetry in Mk. apply kind_eqb_eq in Mk. subst kd. exact Ra.
  - apply kind_eqb_eq in Mk. subst kd. exact Ra.
  - intros ->. apply andb_prop in Mk. destruct Mk as (Mk & _). change (M_ZP_ABS =? M_ZP_ABS) with true in Mk. apply eqb_prop in Mk.
    symmetry in Mk. apply kind_eqb_eq in Mk. subst kd. apply Ra.
  - apply kind_eqb_eq in Mk. subst kd. split; [apply Ra|]. intro H. destruct (expr_IsConstant (g_expr b)) eqn:Q; [reflexivity|].
    destruct Fa. right. right. split; assumption.
Qed.
Lemma part_plain : forall A (f : form A) nr kd, In kd (kinds nr f) -> kd <> Imm -> forall v, part f v = v.
Proof.
  intros A f nr kd K N v. destruct f; try reflexivity; cbn [kinds In] in K; destruct K as [K|[]]; congruence.
Qed.
Theorem encoded : forall S c n s (f : form arg) kd b st k m rest, selectable c n ->
  ready st k m 3 -> setting_ok S (here m) -> args_known S (here m) f ->
  select c n s (is_near f) f = Some (kd, b) -> in_range s kd f (e_pc (s_env S)) (map g_value (operands f)) ->
  ~ faulty s kd f -> ends rest ->
  exists st', x65_ParseIntegerInstruction (s_F S) (x65_options (cpu_number c))
      (lex n (Word s :: text (fmap (fun a => [Operand (g_expr a)]) f)) ++ rest) st = Ok (true, rest, st') /\
    emits_seq S k st st' (cells b kd f (e_pc (s_env S)) (operands f)).
Proof.
  intros S c n s f kd b st k m rest Se R SO Ak E Ra Fa Re.
  destruct (listed c n s (is_near f) f kd b Se E) as (id & h & op & ot & As & Ir & Nh & Cp & La & Im & (M0 & Ma & ML & Mk & Ac) & Fi & U & Bo & Si & _).
  { intro H. apply Fa. left. exact H. } { intro H. apply Fa. right. left. exact H. }
  pose proof (select_kind _ _ _ _ _ _ _ _ E) as K.
  destruct (parsed S c (here m) SO (allowed_by c h) La (p_imm h) Im rest Re st f) as (am & P & Am & De & _).
  { intros a Ha. destruct (Ak a Ha) as (O & So & Ph & D). apply carries_self; assumption. }
  { exact M0. } { exact (in_range_ranged _ _ _ _ _ _ K Fa Mk Ra). }
  destruct (runs S k st m s kd f am op ot b SO R Fi U Bo Si (part_plain _ _ _ _ K) Ra De) as (st' & Run & Em).
  exists st'. split; [|exact Em].
  unfold lex at 1. cbn [map lex1]. rewrite As. fold (lex n (text (fmap (fun a => [Operand (g_expr a)]) f))). rewrite lex_operands.
  cbn [app]. unfold x65_ParseIntegerInstruction. rewrite Ir, Nh. unfold x65_HandleToken. rewrite Cp. fold (allowed_by c h). cbv zeta.
  rewrite P. cbn [bind]. rewrite Am, Ma.
  destruct am as [mode e1 e2 e3 fo]. cbn [am_mode] in Am. subst mode.
  pose proof (act_ok (s_F S) c (p_handler h) (p_base h) _ e1 e2 e3 fo st ML) as A. cbv zeta in A. rewrite Ac in A.
  rewrite A, Run. reflexivity.
Qed.
