(** Proofs about the 6502 instruction parser: operands and what is stored for them. *)
From Coq Require Import ZArith List Bool Lia ZifyBool String.
From Verif Require Import Base BaseFacts Arith ArithProofs ExprSpec ExprModel ExprLayout ExprTree ExprProofs ObjWriteModel OptModel
  SectModel SectSpec SectProofs InstrSpec InstrProofs X65Model X65Spec.
Import ListNotations.
Open Scope string_scope.
Open Scope Z_scope.

(** ** Places *)
Lemma meaning_moved : forall F E d t, source_term t ->
  meaning F (Env (e_sym E) (e_bank E) (e_pc E + d)) t = meaning F E t.
Proof.
  intros F E d. induction t; cbn [source_term meaning]; intro H; try reflexivity; try contradiction.
  - apply IHt, H.
  - rewrite IHt by exact H. reflexivity.
  - rewrite IHt1, IHt2 by tauto. reflexivity.
Qed.
Lemma build_anywhere : forall F garb g w cur cur' t, source_term t -> build F garb g w cur t = build F garb g w cur' t.
Proof.
  intros F garb g w cur cur'. induction t; cbn [source_term build]; intro H; try reflexivity; try contradiction.
  - rewrite IHt by exact H. reflexivity.
  - rewrite IHt by exact H. reflexivity.
  - rewrite IHt1, IHt2 by tauto. reflexivity.
Qed.
Lemma operand_moved : forall S cur cur' d t e v, source_term t -> operand S cur t e v -> operand (moved d S) cur' t e v.
Proof.
  intros S cur cur' d t e v T (B & O & D & K & N & M). split; [rewrite <- B; apply build_anywhere, T|].
  split; [exact O|]. split; [exact D|]. split; [exact K|]. split; [exact N|].
  rewrite <- M. apply meaning_moved, T.
Qed.
(** After [n] bytes. *)
Lemma next_place : forall S k st st1 m n t v room, setting_ok S (here m) -> ready st k m (Z.of_nat n + room) ->
  emits S k st st1 [(n, t, v)] ->
  exists m1, ready st1 k m1 room /\ setting_ok (moved (Z.of_nat n) S) (here m1).
Proof.
  intros S k st st1 m n t v room (HF & HE & HP) R Em.
  pose proof R as ((C1 & C2 & C3) & Fi & W & Ro).
  pose proof Em as (m0 & m1 & bs & ps & N & N1 & Wr & D & P & U & C & F & I & O & E).
  rewrite C2 in N. injection N as <-.
  pose proof (written_width _ _ _ _ _ _ Wr) as Wi. unfold width in Wi. cbn [map sum fst] in Wi. rewrite Z.add_0_r in Wi.
  exists m1. split.
  - split; [split; [rewrite E; exact C1|split; [exact N1|]]|].
    + destruct I as (_ & -> & _). rewrite E. exact C3.
    + split; [exact F|]. split; [rewrite E; exact W|]. rewrite U. lia.
  - split; [exact HF|]. split; [exact HE|]. cbn [pc_known here moved s_env e_pc]. cbn [pc_known here] in HP.
    unfold m_pc in C. rewrite W, Z.div_1_r, Wi in C.
    destruct I as (_ & _ & _ & _ & _ & I). unfold set_pc in I.
    destruct (ws_sect (m_w m)) as [lf bf of al ro pg co pc ca bk], (ws_sect (m_w m1)) as [lf' bf' of' al' ro' pg' co' pc' ca' bk'].
    cbn in *. injection I as -> -> -> -> -> -> -> -> ->. intro H. specialize (HP H). subst pc'. unfold u32 in *.
    rewrite <- Zplus_mod_idemp_l, HP, Zplus_mod_idemp_l.
    rewrite <- (Z.add_assoc ((pc + Z.of_nat n) mod 2 ^ 32)), Zplus_mod_idemp_l. f_equal. lia.
Qed.

(** ** Operands on their way *)
Definition carriesN (N : Z) (S : setting) (cur : option asect) (t : term) (e : expr) (v : Z) : Prop :=
  exists T, operand S cur T e v /\ tdepth T <= N /\ symbols_within T t /\ (known (s_world S) t -> known (s_world S) T) /\
    source_term T /\ ~ paren_head T.
Notation carries := (carriesN 245).
Lemma carries_more : forall M N S cur t e v, carriesN M S cur t e v -> M <= N -> carriesN N S cur t e v.
Proof. intros M N S cur t e v (T & O & D & R) L. exists T. split; [exact O|]. split; [lia|exact R]. Qed.
Lemma carries_self : forall S cur t e v, operand S cur t e v -> source_term t -> ~ paren_head t -> tdepth t <= 240 ->
  carriesN 240 S cur t e v.
Proof. intros S cur t e v O T P D. exists t. repeat (split; [first [exact O|lia|apply within_refl|tauto]|]). exact P. Qed.
Lemma carries_moved : forall S cur cur' d t e v, carries S cur t e v -> carries (moved d S) cur' t e v.
Proof.
  intros S cur cur' d t e v (T & O & D & W & K & So & P). exists T.
  split; [eapply operand_moved; eassumption|]. tauto.
Qed.
Definition plain_op (o : op) : Prop := o = OpAnd \/ o = OpOr \/ o = OpAsl \/ o = OpAsr.
Lemma plain_build : forall F g w o l r, plain_op o -> build2 F g w o l r = expr_Binary F o l r.
Proof. intros F g w o l r [->|[->|[->| ->]]]; reflexivity. Qed.
Lemma carriesN_bin : forall N S cur o t e v c w, 2 <= N -> setting_ok S cur -> carriesN N S cur t e v -> plain_op o -> is_s32 c ->
  op_meaning (s_F S) o v c = Some w -> exists e1, expr_Binary (s_F S) o e (expr_Const c) = Ok e1 /\ carriesN N S cur t e1 w.
Proof.
  intros N S cur o t e v c w HN SO (T & O & D & W & K & So & P) Po C M.
  destruct (operand_bin S cur o T (Num c) e (expr_Const c) v c w SO O (operand_num _ _ _ C) M) as (e1 & B & O1).
  { destruct Po as [->|[->|[->| ->]]]; exact I. }
  rewrite plain_build in B by exact Po. exists e1. split; [exact B|]. exists (Bin o T (Num c)).
  split; [exact O1|]. split; [cbn [tdepth]; lia|]. split; [apply within_bin; [exact W|apply within_num]|].
  split; [cbn [known]; tauto|]. split; [cbn [source_term]; tauto|].
  destruct Po as [->|[->|[->| ->]]]; cbn; tauto.
Qed.
Lemma carries_bin : forall S cur o t e v c w, setting_ok S cur -> carries S cur t e v -> plain_op o -> is_s32 c ->
  op_meaning (s_F S) o v c = Some w -> exists e1, expr_Binary (s_F S) o e (expr_Const c) = Ok e1 /\ carries S cur t e1 w.
Proof. intros S cur o t e v c w. apply carriesN_bin. lia. Qed.
Lemma carries_or : forall N S cur t e1 e2 v w, setting_ok S cur -> carriesN N S cur t e1 v -> carriesN N S cur t e2 w ->
  exists e, expr_Or (s_F S) e1 e2 = Ok e /\ carriesN (N + 1) S cur t e (Z.lor v w).
Proof.
  intros N S cur t e1 e2 v w SO (T1 & O1 & D1 & W1 & K1 & So1 & P1) (T2 & O2 & D2 & W2 & K2 & So2 & P2).
  destruct (operand_bin S cur OpOr T1 T2 e1 e2 v w (Z.lor v w) SO O1 O2 eq_refl I) as (e & B & O).
  exists e. split; [exact B|]. exists (Bin OpOr T1 T2). split; [exact O|]. split; [cbn [tdepth]; lia|].
  split; [apply within_bin; assumption|]. cbn. tauto.
Qed.
Lemma carries_checked : forall S cur t e v lo hi st, setting_ok S cur -> carries S cur t e v -> is_s32 lo -> is_s32 hi ->
  lo <= v <= hi -> exists e1, range_checked e lo hi st = Ok (e1, st) /\ carries S cur t e1 v.
Proof.
  intros S cur t e v lo hi st SO (T & O & D & W & K & So & P) L H R.
  destruct (operand_checked S cur T e v lo hi st SO O L H R) as (e1 & C & O1). exists e1. split; [exact C|].
  exists (limited T lo hi). split; [exact O1|]. unfold limited. split; [cbn [tdepth]; lia|].
  split; [apply within_limited, W|]. cbn. tauto.
Qed.
Lemma carries_facts : forall S cur t e v, setting_ok S cur -> carries S cur t e v ->
  isNull e = false /\ (expr_IsConstant e = true -> e_v e = v) /\ e_isParens e = false /\ is_s32 v.
Proof.
  intros S cur t e v SO (T & O & D & W & K & So & P).
  destruct (operand_facts _ _ _ _ _ SO O) as (N & C & _). split; [exact N|]. split; [exact C|].
  split; [|exact (operand_s32 _ _ _ _ _ SO O)].
  destruct SO as (HF & HE & HP), O as (B & Ok & Df & Dk & Nb & M).
  destruct (build_ok _ _ _ _ HF HE _ HP _ _ T e v Ok M B) as (_ & _ & _ & _ & _ & Pa).
  destruct e as [|[] ]; try reflexivity. destruct P. apply Pa. exact I.
Qed.

(** ** Output *)
Section Out.
Variable S : setting.
Variable st : xstate.
Variable k : nat.
Variable m : msect.
Hypothesis SO : setting_ok S (here m).
Ltac num := unfold is_s32; lia.
Lemma out_carried : forall n t e v, sizes n -> ready st k m (Z.of_nat n) -> carries S (here m) t e v ->
  exists st', sect_OutputExpr n e st = Ok st' /\ emits S k st st' [(n, t, v)].
Proof.
  intros n t e v Si R (T & O & D & W & K & So & P).
  apply (out_expr S (here m) n T t e v k st m Si SO O); try assumption. lia.
Qed.
Lemma out_U8 : forall t e v, ready st k m 1 -> carries S (here m) t e v -> byte v ->
  exists st', x65_OutputU8Expression e st = Ok st' /\ emits S k st st' [(1%nat, t, v)].
Proof.
  intros t e v R C B. unfold byte in B. destruct (carries_checked S _ t e v 0 255 st SO C) as (e1 & E & C1); try num.
  unfold x65_OutputU8Expression. rewrite E. cbn [bind]. apply (out_carried 1); [left; reflexivity|exact R|exact C1].
Qed.
Lemma out_SU8 : forall t e v, ready st k m 1 -> carries S (here m) t e v -> -128 <= v <= 255 ->
  exists st', x65_OutputSU8Expression (s_F S) e st = Ok st' /\ emits S k st st' [(1%nat, t, v mod 256)].
Proof.
  intros t e v R C B. destruct (carries_checked S _ t e v (-128) 255 st SO C) as (e1 & E & C1); try num.
  unfold x65_OutputSU8Expression. rewrite E. cbn [bind].
  destruct (carries_bin S _ OpAnd t e1 v 0xFF (v mod 256) SO C1) as (e2 & A & C2).
  { left. reflexivity. } { num. } { cbn. f_equal. apply (Z.land_ones v 8). lia. }
  unfold expr_And. rewrite A. cbn [bind]. apply (out_carried 1); [left; reflexivity|exact R|exact C2].
Qed.
Lemma out_U16 : forall t e v, ready st k m 2 -> carries S (here m) t e v -> word v ->
  exists st', x65_OutputU16Expression (s_F S) e st = Ok st' /\ emits S k st st' [(2%nat, t, v)].
Proof.
  intros t e v R C B. unfold word in B. destruct (carries_checked S _ t e v 0 65535 st SO C) as (e1 & E & C1); try num.
  unfold x65_OutputU16Expression. rewrite E. cbn [bind].
  destruct (carries_bin S _ OpAnd t e1 v 0xFFFF v SO C1) as (e2 & A & C2).
  { left. reflexivity. } { num. } { cbn [op_meaning]. f_equal. change 0xFFFF with (Z.ones 16). rewrite Z.land_ones by lia. apply Z.mod_small. lia. }
  unfold expr_And. rewrite A. cbn [bind]. apply (out_carried 2); [right; left; reflexivity|exact R|exact C2].
Qed.
Lemma current_here : forall n, ready st k m n -> sect_Current st = here m.
Proof. intros n ((C & N & _) & _). unfold sect_Current, here. rewrite C, N. reflexivity. Qed.
Lemma out_relative : forall t e v, ready st k m 1 -> carries S (here m) t e v -> reachable (e_pc (s_env S)) 1 v ->
  exists st', outputRelative (s_F S) e st = Ok st' /\ emits S k st st' [(1%nat, PcRel (-1) t, v - (e_pc (s_env S) + 1))].
Proof.
  intros t e v R (T & O & D & W & K & So & P) (Wv & Re). unfold word in Wv. set (pc := e_pc (s_env S)) in *.
  unfold outputRelative. rewrite (current_here _ R).
  destruct (operand_pcrel S (here m) (-1) T e v (v - (pc + 1)) SO O) as (e1 & A & O1).
  { num. } { exact P. }
  { unfold pcrel_meaning, inr. fold pc.
    replace ((- 2 ^ 31 <=? v + -1) && (v + -1 <? 2 ^ 31)) with true by lia.
    replace ((- 2 ^ 31 <=? -1 - pc) && (-1 - pc <? 2 ^ 31)) with true by lia.
    replace ((- 2 ^ 31 <=? v + -1 - pc) && (v + -1 - pc <? 2 ^ 31)) with true by lia. f_equal. lia. }
  rewrite A. cbn [bind].
  destruct (operand_checked S (here m) _ e1 _ (-128) 127 st SO O1) as (e2 & C & O2); try num.
  rewrite C. cbn [bind].
  apply (out_expr S (here m) 1 _ _ e2 _ k st m (or_introl eq_refl) SO O2); [|apply within_limited; exact W| |exact R].
  - unfold limited. cbn [tdepth]. lia.
  - intro Kn. destruct Kn.
Qed.
End Out.

(** ** Handlers *)
Definition LEGACY : list Z :=
  [M_NONE; M_IMM; M_ZP; M_ZP_X; M_ZP_Y; M_ABS; M_ABS_X; M_ABS_Y; M_IND_ZP_X; M_IND_ZP_Y; M_A; M_IND_ABS; M_ZP_ABS; M_BIT_ZP;
   M_BIT_ZP_ABS; M_IND_ZP; M_IND_ABS_X].
Inductive out : Type := ONone | OSigned | OByte | OWord | ORel | OZpRel | OBit | OBitRel.
(** What a handler stores: the opcode and the kind of operand. *)
Definition pick (l : list (Z * (Z * out))) (mode : Z) : option (Z * out) :=
  option_map snd (find (fun p => fst p =? mode) l).
Definition all_modes (base : Z) : list (Z * (Z * out)) :=
  let op c := Z.lor base c in
  [(M_IND_ZP_X, (op 0x00, OByte)); (M_ZP, (op 0x04, OByte)); (M_IMM, (op 0x08, OSigned)); (M_ABS, (op 0x0C, OWord));
   (M_IND_ZP_Y, (op 0x10, OByte)); (M_IND_ZP, (Z.lor (base + 1) 0x10, OByte)); (M_ZP_X, (op 0x14, OByte));
   (M_ZP_Y, (op 0x14, OByte)); (M_ABS_Y, (op 0x18, OWord)); (M_ABS_X, (op 0x1C, OWord))].
Definition act (cpu : Z) (h : handler) (base mode : Z) : option (Z * out) :=
  let op c := Z.lor base (Z.shiftl c 2) in
  match h with
  | HStandardAll => pick (all_modes base) mode
  | HStandardAbsY7 =>
      pick [(M_IND_ZP_X, (op 0, OByte)); (M_IMM, (op 2, OSigned)); (M_IND_ZP_Y, (op 4, OByte)); (M_ABS_Y, (op 7, OWord));
            (M_ZP, (op 1, OByte)); (M_ABS, (op 3, OWord)); (M_ZP_X, (op 5, OByte)); (M_ZP_Y, (op 5, OByte))] mode
  | HStandardImm0 =>
      pick [(M_IMM, (op 0, OSigned)); (M_ZP, (op 1, OByte)); (M_ABS, (op 3, OWord)); (M_ZP_X, (op 5, OByte));
            (M_ZP_Y, (op 5, OByte)); (M_ABS_X, (op 7, OWord)); (M_ABS_Y, (op 7, OWord))] mode
  | HStandardRotate =>
      pick [(M_A, (op 2, ONone)); (M_ZP, (op 1, OByte)); (M_ABS, (op 3, OWord)); (M_ZP_X, (op 5, OByte));
            (M_ABS_X, (op 7, OWord))] mode
  | HBranch => Some (base, ORel)
  | HBIT =>
      if (cpu =? 1) && ((mode =? M_IMM) || (mode =? M_ZP_X) || (mode =? M_ABS_X)) then None else
      if mode =? M_IMM then Some (0x89, OByte) else pick (all_modes base) mode
  | HINCDEC =>
      if (cpu =? 1) && (mode =? M_A) then None else
      if mode =? M_A then Some (Z.lxor (Z.land base 0x3F) 0x38, ONone) else pick (all_modes base) mode
  | HImplied => Some (base, ONone)
  | HJMP =>
      if mode =? M_IND_ABS_X then (if cpu =? 1 then None else Some (base + 0x30, OWord)) else
      if mode =? M_IND_ABS then Some (base + 0x20, OWord) else Some (base, OWord)
  | HJSR => if (mode =? M_IND_ABS_X) || (mode =? M_IND_ABS) then None else Some (base, OWord)
  | HBRK => if mode =? M_IMM then Some (base, OSigned) else Some (base, ONone)
  | HDOP => pick [(M_IMM, (0x80, OSigned)); (M_ZP, (0x04, OByte)); (M_ZP_X, (0x14, OByte))] mode
  | HRTS => pick [(M_NONE, (base, ONone))] mode
  | HSTZ => pick [(M_ZP, (0x64, OByte)); (M_ZP_X, (0x74, OByte)); (M_ABS, (0x9C, OWord)); (M_ABS_X, (0x9E, OWord))] mode
  | HBITBranch_C02 => Some (base, OBitRel)
  | HBITxBranch_C02 => Some (base, OZpRel)
  | HBIT_C02 => Some (base, OBit)
  | HBITx_C02 => Some (base, OByte)
  end.
Definition run_act (F : fmath) (a : Z * out) (m : amode) (st : xstate) : handled :=
  let op := fst a in
  match snd a with
  | ONone => op_only op st
  | OSigned => op_with op (x65_OutputSU8Expression F) m st
  | OByte => op_with op x65_OutputU8Expression m st
  | OWord => op_with op (x65_OutputU16Expression F) m st
  | ORel => op_with op (outputRelative F) m st
  | OZpRel => handleBITxBranch_C02 F op m st
  | OBit => handleBIT_C02 F op m st
  | OBitRel => handleBITBranch_C02 F op m st
  end.
Ltac each H := repeat (destruct H as [<-|H]); [..|destruct H].
Lemma act_ok : forall F c h base mode e1 e2 e3 fo st, In mode LEGACY ->
  let r := apply_handler F (x65_options (cpu_number c)) h base (AMode mode e1 e2 e3 fo) st in
  match act (cpu_number c) h base mode with
  | Some a => r = run_act F a (AMode mode e1 e2 e3 fo) st
  | None => (exists b n, r = Ok (b, err_Error n st)) \/ exists st1, r = Ok (false, st1)
  end.
Proof.
  intros F c h base mode e1 e2 e3 fo st L. unfold LEGACY in L. cbv zeta.
  destruct c, h; each L; first [reflexivity | left; eexists _, _; reflexivity | right; eexists; reflexivity].
Qed.
