(** Proofs about the 6809 instruction parser: instructions of the manual. *)
From Coq Require Import ZArith List Bool Lia ZifyBool String.
From Verif Require Import Base BaseFacts Arith ArithProofs ExprSpec ExprModel ExprLayout ExprTree ExprProofs ObjWriteModel OptModel
  SectModel SectSpec SectProofs InstrSpec InstrProofs.
From Verif Require X65Spec X65Proofs X65Run Z80Run.
From Verif Require Import M6809Model M6809Spec.
Import ListNotations.
Open Scope string_scope.
Open Scope list_scope.
Open Scope Z_scope.
Notation moved := X65Spec.moved.
Notation emits_seq := X65Spec.emits_seq.
Notation held := Z80Run.held.
Ltac num := unfold is_s32; lia.

(** ** What is stored *)
Lemma current_now : forall st k m n, ready st k m n -> sect_Current st = here m.
Proof. intros st k m n ((C & N & _) & _). unfold sect_Current, here. rewrite C, N. reflexivity. Qed.
(** A cell has been stored, and there is room for more. *)
Definition stepped (S : setting) (k : nat) (st st1 : xstate) (c : nat * term * Z) (room : Z) : Prop :=
  emits S k st st1 [c] /\ exists m1, ready st1 k m1 room /\ setting_ok (moved (Z.of_nat (fst (fst c))) S) (here m1).
Lemma out_checked : forall lo hi n S k st m b t e v room, sizes n -> is_s32 lo -> is_s32 hi -> setting_ok S (here m) ->
  ready st k m (Z.of_nat n + room) -> 0 <= room -> held 245 b S (here m) t e v -> lo <= v <= hi ->
  exists st1, (let! (e1, s1) := range_checked e lo hi st in sect_OutputExpr n e1 s1) = Ok st1 /\ stepped S k st st1 (n, t, v) room.
Proof.
  intros lo hi n S k st m b t e v room Si L H SO R Ro He Ra.
  destruct (Z80Run.held_checked 245 b S (here m) t e v lo hi st SO He) as (e1 & E & H1); try assumption; try lia.
  rewrite E. cbn [bind]. destruct (Z80Run.out_held _ _ S k st m n t e1 v room Si SO R Ro H1) as (st1 & m1 & E2 & Em & R1 & S1); [lia|].
  exists st1. split; [exact E2|]. split; [exact Em|]. exists m1. tauto.
Qed.
Lemma out8 : forall S k st m b t e v room, setting_ok S (here m) -> ready st k m (1 + room) -> 0 <= room ->
  held 245 b S (here m) t e v -> fits8 v ->
  exists st1, outputExpr8 e st = Ok st1 /\ stepped S k st st1 (1%nat, t, v) room.
Proof.
  intros S k st m b t e v room SO R Ro He Fi.
  exact (out_checked (-128) 255 1 S k st m b t e v room (or_introl eq_refl) ltac:(num) ltac:(num) SO R Ro He Fi).
Qed.
Lemma out16 : forall S k st m b t e v room, setting_ok S (here m) -> ready st k m (2 + room) -> 0 <= room ->
  held 245 b S (here m) t e v -> fits16 v ->
  exists st1, outputExpr16 e st = Ok st1 /\ stepped S k st st1 (2%nat, t, v) room.
Proof.
  intros S k st m b t e v room SO R Ro He Fi.
  exact (out_checked (-32768) 65535 2 S k st m b t e v room (or_intror (or_introl eq_refl)) ltac:(num) ltac:(num) SO R Ro He Fi).
Qed.
Lemma out_pc : forall (w : nat) lo hi S k st m t e v room, (w = 1 \/ w = 2)%nat -> is_s32 lo -> is_s32 hi ->
  setting_ok S (here m) -> ready st k m (Z.of_nat w + room) -> 0 <= room -> held 240 true S (here m) t e v -> address v ->
  let d := v - (e_pc (s_env S) + Z.of_nat w) in lo <= d <= hi -> -65536 <= d <= 65535 ->
  exists st1, (let! e1 := expr_PcRelative (s_F S) (sect_Current st) e (- Z.of_nat w) in
               let! (e2, s1) := range_checked e1 lo hi st in sect_OutputExpr w e2 s1) = Ok st1 /\
    stepped S k st st1 (w, PcRel (- Z.of_nat w) t, d) room.
Proof.
  intros w lo hi S k st m t e v room Hw L H SO R Ro (T & O & D & W & K & So & P) Av d Ra Rd. unfold address in Av. specialize (P eq_refl).
  rewrite (current_now _ _ _ _ R). set (pc := e_pc (s_env S)) in *.
  assert (Hw' : 1 <= Z.of_nat w <= 2) by (destruct Hw as [-> | ->]; lia).
  destruct (operand_pcrel S (here m) (- Z.of_nat w) T e v d SO O) as (e1 & E1 & O1).
  { num. } { exact P. }
  { unfold pcrel_meaning, inr. fold pc.
    replace ((- 2 ^ 31 <=? v + - Z.of_nat w) && (v + - Z.of_nat w <? 2 ^ 31)) with true by lia.
    replace ((- 2 ^ 31 <=? - Z.of_nat w - pc) && (- Z.of_nat w - pc <? 2 ^ 31)) with true by lia.
    replace ((- 2 ^ 31 <=? v + - Z.of_nat w - pc) && (v + - Z.of_nat w - pc <? 2 ^ 31)) with true by lia. f_equal. lia. }
  rewrite E1. cbn [bind].
  destruct (operand_checked S (here m) _ e1 _ lo hi st SO O1) as (e2 & E2 & O2); try assumption; try lia.
  rewrite E2. cbn [bind].
  assert (Si : sizes w) by (destruct Hw as [-> | ->]; [left|right; left]; reflexivity).
  destruct (out_expr S (here m) w _ (PcRel (- Z.of_nat w) t) e2 _ k st m Si SO O2) as (st1 & E & Em).
  { unfold limited. cbn [tdepth]. lia. }
  { apply within_limited. exact W. }
  { intro Kn. destruct Kn. }
  { apply (X65Run.ready_less _ _ _ _ _ R). lia. }
  destruct (X65Proofs.next_place S k st st1 m w _ _ room SO R Em) as (m1 & R2 & S2). exists st1. split; [exact E|].
  split; [exact Em|]. exists m1. tauto.
Qed.
Lemma out_pc8 : forall S k st m t e v room, setting_ok S (here m) -> ready st k m (1 + room) -> 0 <= room ->
  held 240 true S (here m) t e v -> address v -> near (v - (e_pc (s_env S) + 1)) ->
  exists st1, outputPc8 (s_F S) e st = Ok st1 /\ stepped S k st st1 (1%nat, PcRel (-1) t, v - (e_pc (s_env S) + 1)) room.
Proof.
  intros S k st m t e v room SO R Ro He Av Ne. unfold near, address in *.
  exact (out_pc 1 (-128) 255 S k st m t e v room (or_introl eq_refl) ltac:(num) ltac:(num) SO R Ro He Av ltac:(lia) ltac:(lia)).
Qed.
Lemma out_pc16 : forall S k st m t e v room, setting_ok S (here m) -> ready st k m (2 + room) -> 0 <= room ->
  held 240 true S (here m) t e v -> address v -> fits16 (v - (e_pc (s_env S) + 2)) ->
  exists st1, outputPc16 (s_F S) e st = Ok st1 /\ stepped S k st st1 (2%nat, PcRel (-2) t, v - (e_pc (s_env S) + 2)) room.
Proof.
  intros S k st m t e v room SO R Ro He Av Ne. unfold fits16, address in *.
  exact (out_pc 2 (-32768) 65535 S k st m t e v room (or_intror eq_refl) ltac:(num) ltac:(num) SO R Ro He Av ltac:(lia) ltac:(lia)).
Qed.
Lemma out_byte : forall S k st m b room, setting_ok S (here m) -> ready st k m (1 + room) -> 0 <= room ->
  exists st1, sect_OutputConst8 b st = Ok st1 /\ stepped S k st st1 (byte_cell b) room.
Proof.
  intros S k st m b room SO R Ro. destruct (X65Run.op_step S k st m b room SO R Ro) as (st1 & m1 & E & Em & R1 & S1).
  exists st1. split; [exact E|]. split; [exact Em|]. exists m1. tauto.
Qed.
Lemma held_arg : forall S cur a b, operand S cur (g_term a) (g_expr a) (g_value a) -> X65Spec.source_term (g_term a) ->
  tdepth (g_term a) <= 240 -> (b = true -> ~ paren_head (g_term a)) -> held 240 b S cur (g_term a) (g_expr a) (g_value a).
Proof.
  intros S cur a b O So D P. exists (g_term a). split; [exact O|]. split; [exact D|]. split; [apply within_refl|]. split; [tauto|]. tauto.
Qed.

(** Bytes one after the other. *)
Fixpoint outbytes (l : list Z) (st : xstate) : res xstate :=
  match l with [] => Ok st | b :: r => let! st1 := sect_OutputConst8 b st in outbytes r st1 end.
Lemma moved_moved : forall a b S, moved a (moved b S) = moved (b + a) S.
Proof. intros a b [F w ba [] ga gb]. unfold X65Spec.moved. cbn. f_equal. f_equal. lia. Qed.
Lemma moved_0 : forall S, moved 0 S = S.
Proof. intros [F w ba [] ga gb]. unfold X65Spec.moved. cbn. rewrite Z.add_0_r. reflexivity. Qed.
Lemma out_bytes : forall l S k st m room rest, setting_ok S (here m) -> ready st k m (zlen l + room) -> 0 <= room ->
  exists st1 m1, outbytes l st = Ok st1 /\ ready st1 k m1 room /\ setting_ok (moved (zlen l) S) (here m1) /\
    (forall st2, emits_seq (moved (zlen l) S) k st1 st2 rest -> emits_seq S k st st2 (map byte_cell l ++ rest)).
Proof.
  induction l as [|b l IH]; intros S k st m room rest SO R Ro.
  - exists st, m. change (zlen (@nil Z)) with 0 in *. rewrite moved_0. cbn [outbytes map app]. tauto.
  - assert (Hz : zlen (b :: l) = 1 + zlen l) by (unfold zlen; cbn [List.length]; lia).
    assert (0 <= zlen l) by (unfold zlen; lia).
    destruct (out_byte S k st m b (zlen l + room) SO) as (st1 & E & Em & m1 & R1 & S1); [rewrite Hz in R; rewrite Z.add_assoc; exact R|lia|].
    change (moved (Z.of_nat (fst (fst (byte_cell b)))) S) with (moved 1 S) in S1.
    destruct (IH (moved 1 S) k st1 m1 room rest S1 R1 Ro) as (st2 & m2 & E2 & R2 & S2 & G).
    exists st2, m2. cbn [outbytes]. rewrite E. cbn [bind]. split; [exact E2|]. split; [exact R2|].
    rewrite moved_moved in *. rewrite Hz. split; [exact S2|].
    intros st3 H3. cbn [map app X65Spec.emits_seq]. exists st1. split; [exact Em|]. apply (G st3). exact H3.
Qed.

(** ** Handlers *)
(** What a handler stores first, for a column. *)
Definition opbytes (h : handler) (base : Z) (c : column) : option (list Z) :=
  let q := match c with Dir => Some (Z.lor base 0) | Ext => Some (Z.lor base 0x70) | Idx => Some (Z.lor base 0x60) | _ => None end in
  let p := match c with Dir => Some (Z.lor base 0x10) | Ext => Some (Z.lor base 0x30) | Idx => Some (Z.lor base 0x20) | _ => None end in
  let p16 := match c with Imm16 => Some base | _ => p end in
  match h with
  | HOpcodeQ => option_map (fun b => [b]) q
  | HOpcodeP8 => match c with Imm8 => Some [base] | _ => option_map (fun b => [b]) p end
  | HOpcodeP16 => option_map (fun b => [b]) p16
  | HOpcodeP16Page1 => option_map (fun b => [0x10; b]) p16
  | HOpcodeP16Page2 => option_map (fun b => [0x11; b]) p16
  | HOpcodeT16 => match c with Idx => Some [base] | _ => None end
  | HImplied => match c with Inherent => Some [base] | _ => None end
  | HImpliedPage1 => match c with Inherent => Some [0x10; base] | _ => None end
  | HImpliedPage2 => match c with Inherent => Some [0x11; base] | _ => None end
  | HImm8 => match c with Imm8 => Some [base] | _ => None end
  | HBcc => match c with Rel8 => Some [base] | _ => None end
  | HLBcc => match c with Rel16 => Some [0x10; base] | _ => None end
  | HLBRA => match c with Rel16 => Some [base] | _ => None end
  | HRegToReg => match c with Transfer => Some [base] | _ => None end
  | HStack => match c with Stack _ => Some [base] | _ => None end
  end.
(** The mode of a column, and what is stored then. *)
Definition mode_of (c : column) (mode : Z) : Prop :=
  match c with
  | Imm8 | Imm16 => mode = MODE_IMMEDIATE
  | Dir => mode = MODE_DIRECT
  | Ext => mode = MODE_EXTENDED
  | Idx => mode <> MODE_IMMEDIATE /\ mode <> MODE_DIRECT /\ mode <> MODE_EXTENDED /\ has mode MODE_ALL_INDEXED = true
  | _ => True
  end.
Definition operand_out (F : fmath) (c : column) (a : amode) (st : xstate) : res xstate :=
  match c with
  | Imm8 => outputExpr8 (am_expr a) st
  | Imm16 | Ext => outputExpr16 (am_expr a) st
  | Dir => let! e := expr_Binary F OpAnd (am_expr a) (expr_Const 0xFF) in outputExpr8 e st
  | Idx => let! (_, st1) := emitIndexed F a st in Ok st1
  | Rel8 => outputPc8 F (am_expr a) st
  | Rel16 => outputPc16 F (am_expr a) st
  | Stack _ => sect_OutputConst8 (am_post a) st
  | _ => Ok st
  end.
Lemma emit_out : forall F base a Dc Ec Ic c b s s', In (c, b) [(Dir, Z.lor base Dc); (Ext, Z.lor base Ec); (Idx, Z.lor base Ic)] ->
  mode_of c (am_mode a) -> (let! s1 := sect_OutputConst8 b s in operand_out F c a s1) = Ok s' ->
  exists x, emitOpcode F base a Dc Ec Ic s = Ok (x, s').
Proof.
  intros F base a Dc Ec Ic c b s s' I Mo E. unfold emitOpcode.
  destruct I as [I|[I|[I|[]]]]; injection I as <- <-; cbn [mode_of] in Mo; cbn [operand_out] in E.
  - rewrite Mo. change (MODE_DIRECT =? MODE_DIRECT) with true. cbv iota.
    destruct (sect_OutputConst8 _ s) as [s1| |]; try discriminate. cbn [bind] in *.
    destruct (expr_Binary _ _ _ _) as [e| |]; try discriminate. cbn [bind] in *. unfold done. rewrite E. cbn [bind]. eauto.
  - rewrite Mo. change (MODE_EXTENDED =? MODE_DIRECT) with false. change (MODE_EXTENDED =? MODE_EXTENDED) with true. cbv iota.
    destruct (sect_OutputConst8 _ s) as [s1| |]; try discriminate. cbn [bind] in *. unfold done. rewrite E. cbn [bind]. eauto.
  - destruct Mo as (_ & M1 & M2 & M3). apply Z.eqb_neq in M1, M2. rewrite M1, M2, M3.
    destruct (sect_OutputConst8 _ s) as [s1| |]; try discriminate. cbn [bind] in *.
    destruct (emitIndexed F a s1) as [[x s2]| |]; try discriminate. cbn [bind] in *. injection E as <-. eauto.
Qed.
Lemma p16_out : forall F base a c b s s',
  (match c with Imm16 => Some base | Dir => Some (Z.lor base 0x10) | Ext => Some (Z.lor base 0x30) | Idx => Some (Z.lor base 0x20) | _ => None end) = Some b ->
  mode_of c (am_mode a) -> (let! s1 := sect_OutputConst8 b s in operand_out F c a s1) = Ok s' ->
  exists x, handleOpcodeP16 F base a s = Ok (x, s').
Proof.
  intros F base a c b s s' Hb Mo E. unfold handleOpcodeP16.
  destruct c; try discriminate; injection Hb as <-; cbn [mode_of] in Mo.
  - rewrite Mo. change (MODE_IMMEDIATE =? MODE_IMMEDIATE) with true. cbv iota.
    destruct (sect_OutputConst8 _ s) as [s1| |]; try discriminate. cbn [bind operand_out] in *. unfold done. rewrite E. cbn [bind]. eauto.
  - rewrite Mo. change (MODE_DIRECT =? MODE_IMMEDIATE) with false. cbv iota. eapply (emit_out _ _ _ _ _ _ Dir); [left; reflexivity|exact Mo|exact E].
  - destruct Mo as (M0 & Mo). pose proof M0 as M0'. apply Z.eqb_neq in M0. rewrite M0.
    eapply (emit_out _ _ _ _ _ _ Idx); [right; right; left; reflexivity|split; [exact M0'|exact Mo]|exact E].
  - rewrite Mo. change (MODE_EXTENDED =? MODE_IMMEDIATE) with false. cbv iota.
    eapply (emit_out _ _ _ _ _ _ Ext); [right; left; reflexivity|exact Mo|exact E].
Qed.
Lemma handler_out : forall F h base c code a ts st st', opbytes h base c = Some code -> mode_of c (am_mode a) -> c <> Transfer ->
  (let! s := outbytes code st in operand_out F c a s) = Ok st' ->
  exists b, apply_handler F h base a ts st = Ok (b, ts, st').
Proof.
  intros F h base c code a ts st st' Ho Mo Nt E.
  assert (Fin : forall r : handled, (exists x, r = Ok (x, st')) -> exists b, (let! (b, st1) := r in Ok (b, ts, st1)) = Ok (b, ts, st'))
    by (intros r (x & ->); exists x; reflexivity).
  assert (One : forall b, code = [b] -> (let! s := sect_OutputConst8 b st in operand_out F c a s) = Ok st')
    by (intros b ->; cbn [outbytes bind] in E; destruct (sect_OutputConst8 b st); exact E).
  assert (Two : forall b0 b, code = [b0; b] -> exists s0, sect_OutputConst8 b0 st = Ok s0 /\ (let! s := sect_OutputConst8 b s0 in operand_out F c a s) = Ok st').
  { intros b0 b ->. cbn [outbytes bind] in E. destruct (sect_OutputConst8 b0 st) as [s0| |]; try discriminate. exists s0. split; [reflexivity|].
    cbn [bind] in E. destruct (sect_OutputConst8 b s0); exact E. }
  destruct h; cbn [opbytes apply_handler] in *; try (destruct c; congruence); apply Fin.
  - destruct c; try discriminate; injection Ho as <-; eapply (emit_out _ _ _ _ _ _ _); try exact Mo; try (apply One; reflexivity); cbn; tauto.
  - unfold handleOpcodeP8. destruct c; try discriminate; injection Ho as <-; cbn [mode_of] in Mo.
    + rewrite Mo. change (MODE_IMMEDIATE =? MODE_IMMEDIATE) with true. cbv iota. specialize (One _ eq_refl).
      destruct (sect_OutputConst8 base st) as [s1| |]; try discriminate. cbn [bind operand_out] in *. unfold done. rewrite One. cbn [bind]. eauto.
    + rewrite Mo. change (MODE_DIRECT =? MODE_IMMEDIATE) with false. cbv iota.
      eapply (emit_out _ _ _ _ _ _ Dir); [left; reflexivity|exact Mo|apply One; reflexivity].
    + pose proof Mo as Mo'. destruct Mo as (M0 & _). apply Z.eqb_neq in M0. rewrite M0.
      eapply (emit_out _ _ _ _ _ _ Idx); [right; right; left; reflexivity|exact Mo'|apply One; reflexivity].
    + rewrite Mo. change (MODE_EXTENDED =? MODE_IMMEDIATE) with false. cbv iota.
      eapply (emit_out _ _ _ _ _ _ Ext); [right; left; reflexivity|exact Mo|apply One; reflexivity].
  - destruct c; try discriminate. injection Ho as <-. specialize (One _ eq_refl). unfold handleOpcodeT16.
    destruct (sect_OutputConst8 base st) as [s1| |]; try discriminate. cbn [bind operand_out] in *.
    destruct (emitIndexed F a s1) as [[x s2]| |]; try discriminate. cbn [bind] in *. injection One as <-. eauto.
  - destruct (match c with Imm16 => Some base | _ => _ end) as [b|] eqn:Eb; try discriminate. injection Ho as <-.
    eapply (p16_out _ _ _ c b); [rewrite <- Eb; destruct c; reflexivity|exact Mo|apply One; reflexivity].
  - destruct (match c with Imm16 => Some base | _ => _ end) as [b|] eqn:Eb; try discriminate. injection Ho as <-.
    destruct (Two _ _ eq_refl) as (s0 & E0 & E1). unfold paged. change PAGE1 with 0x10. rewrite E0. cbn [bind].
    eapply (p16_out _ _ _ c b); [rewrite <- Eb; destruct c; reflexivity|exact Mo|exact E1].
  - destruct (match c with Imm16 => Some base | _ => _ end) as [b|] eqn:Eb; try discriminate. injection Ho as <-.
    destruct (Two _ _ eq_refl) as (s0 & E0 & E1). unfold paged. change PAGE2 with 0x11. rewrite E0. cbn [bind].
    eapply (p16_out _ _ _ c b); [rewrite <- Eb; destruct c; reflexivity|exact Mo|exact E1].
  - destruct c; try discriminate. injection Ho as <-. specialize (One _ eq_refl). unfold handleImplied, done.
    cbn [operand_out] in One. destruct (sect_OutputConst8 base st) as [s1| |]; try discriminate. cbn [bind] in *. injection One as <-. eauto.
  - destruct c; try discriminate. injection Ho as <-. destruct (Two _ _ eq_refl) as (s0 & E0 & E1). unfold paged, handleImplied, done.
    change PAGE1 with 0x10. rewrite E0. cbn [bind operand_out] in *. destruct (sect_OutputConst8 base s0) as [s1| |]; try discriminate.
    cbn [bind] in *. injection E1 as <-. eauto.
  - destruct c; try discriminate. injection Ho as <-. destruct (Two _ _ eq_refl) as (s0 & E0 & E1). unfold paged, handleImplied, done.
    change PAGE2 with 0x11. rewrite E0. cbn [bind operand_out] in *. destruct (sect_OutputConst8 base s0) as [s1| |]; try discriminate.
    cbn [bind] in *. injection E1 as <-. eauto.
  - destruct c; try discriminate. injection Ho as <-. specialize (One _ eq_refl). unfold handleImm8, done.
    cbn [operand_out] in One. destruct (sect_OutputConst8 base st) as [s1| |]; try discriminate. cbn [bind] in *. rewrite One. cbn [bind]. eauto.
  - destruct c; try discriminate. injection Ho as <-. specialize (One _ eq_refl). unfold handleBcc, done.
    cbn [operand_out] in One. destruct (sect_OutputConst8 base st) as [s1| |]; try discriminate. cbn [bind] in *. rewrite One. cbn [bind]. eauto.
  - destruct c; try discriminate. injection Ho as <-. destruct (Two _ _ eq_refl) as (s0 & E0 & E1). unfold paged, handleLBRA, done.
    change PAGE1 with 0x10. rewrite E0. cbn [bind operand_out] in *. destruct (sect_OutputConst8 base s0) as [s1| |]; try discriminate.
    cbn [bind] in *. rewrite E1. cbn [bind]. eauto.
  - destruct c; try discriminate. injection Ho as <-. specialize (One _ eq_refl). unfold handleLBRA, done.
    cbn [operand_out] in One. destruct (sect_OutputConst8 base st) as [s1| |]; try discriminate. cbn [bind] in *. rewrite One. cbn [bind]. eauto.
  - destruct c; try discriminate. injection Ho as <-. specialize (One _ eq_refl). unfold handleStack, done.
    cbn [operand_out] in One. destruct (sect_OutputConst8 base st) as [s1| |]; try discriminate. cbn [bind] in *. rewrite One. cbn [bind]. eauto.
Qed.

(** ** Reading operands *)
Definition idx_token (r : index) : Z := REG_X + index_number r.
Lemma lex_index : forall r, lex1 (Word (index_name r)) = TId (idx_token r). Proof. intros []; reflexivity. Qed.
Lemma index_read : forall r ts, index_register (TId (idx_token r) :: ts) = Some (index_number r, ts). Proof. intros [] ts; reflexivity. Qed.
Lemma post_or : forall b r, In b [0x80; 0x81; 0x82; 0x83; 0x84; 0x85; 0x86; 0x8B] ->
  Z.lor b (Z.shiftl (index_number r) 5) = b + 32 * index_number r /\
  Z.lor (b + 32 * index_number r) 0x10 = b + 32 * index_number r + 16.
Proof. intros b r I. cbn [In] in I. decompose [or] I; subst; try contradiction; destruct r; split; reflexivity. Qed.
(** Modes in which memory operands are allowed. *)
Definition memory_modes : list Z := [MODE_P; MODE_Q; MODE_T; MODE_ALLOWED_INDIRECT].
Definition no_sign (ts : list token) : Prop := match ts with TPlus :: _ => False | _ => True end.
Lemma pluses_none : forall ts, no_sign ts -> pluses ts = (0, ts).
Proof. intros [|[] ts] H; try reflexivity. destruct H. Qed.
(** Steps: ,R+ and so on. *)
Definition step_of (p : place expr) : option (Z * Z) :=
  match p with
  | Inc1 _ => Some (MODE_INDEXED_R_INC1, 0x80) | Inc2 _ => Some (MODE_INDEXED_R_INC2, 0x81) | Dec1 _ => Some (MODE_INDEXED_R_DEC1, 0x82)
  | Dec2 _ => Some (MODE_INDEXED_R_DEC2, 0x83) | At _ => Some (MODE_INDEXED_R, 0x84)
  | Acc AccA _ => Some (MODE_INDEXED_R_A, 0x86) | Acc AccB _ => Some (MODE_INDEXED_R_B, 0x85) | Acc AccD _ => Some (MODE_INDEXED_R_D, 0x8B)
  | _ => None
  end.
Definition place_reg {T : Type} (p : place T) : index :=
  match p with Inc1 r | Inc2 r | Dec1 r | Dec2 r | At r | Acc _ r | Off _ _ r => r | Pcr _ _ => IX end.
Lemma read_step : forall p mode b a allowed rest st, In allowed memory_modes -> step_of p = Some (mode, b) -> has allowed mode = true ->
  no_sign rest ->
  parse_mode a allowed (lex (place_text p) ++ rest) st =
    (true, AMode mode (b + 32 * index_number (place_reg p)) (am_expr a), rest, st).
Proof.
  intros p mode b a allowed rest st I St H N.
  assert (K : In b [0x80; 0x81; 0x82; 0x83; 0x84; 0x85; 0x86; 0x8B])
    by (destruct p as [| | | | |[]| |]; try discriminate; injection St as <- <-; cbn; tauto).
  rewrite <- (proj1 (post_or b (place_reg p) K)).
  destruct p as [r|r|r|r|r|c r|s n r|s n]; try discriminate; try (destruct c);
    injection St as <- <-; cbn [place_text lex map app acc_name place_reg]; rewrite lex_index;
    repeat (destruct I as [<-|I]; [|]); try contradiction; try discriminate H;
    destruct r; cbn; rewrite ?(pluses_none rest N); reflexivity.
Qed.

(** What an expression with an index register becomes. *)
Definition OFFSETS : Z := MODE_INDEXED_R_5BIT + MODE_INDEXED_R_8BIT + MODE_INDEXED_R_16BIT + MODE_INDEXED_PC_8BIT + MODE_INDEXED_PC_16BIT.
Definition LISTS : Z := MODE_REGISTER_LIST_S + MODE_REGISTER_LIST_U.
Lemma memory_has : forall al, In al memory_modes ->
  has al LISTS = false /\ has al OFFSETS = true /\ has al MODE_INDEXED_R_5BIT = negb (al =? MODE_ALLOWED_INDIRECT) /\
  has al MODE_INDEXED_R_8BIT = true /\ has al MODE_INDEXED_R_16BIT = true /\ has al MODE_INDEXED_PC_8BIT = true /\
  has al MODE_INDEXED_PC_16BIT = true.
Proof. intros al I. repeat (destruct I as [<-|I]; [repeat split; reflexivity|]). destruct I. Qed.
Lemma read_auto : forall a al n r rest st, In al memory_modes -> expr_IsConstant n = true -> -32768 <= e_v n <= 32767 ->
  let ind := al =? MODE_ALLOWED_INDIRECT in
  parse_mode a al (lex (place_text (Off Auto n r)) ++ rest) st =
    (true, match offset_width ind Auto (e_v n) with
           | W0 => AMode MODE_INDEXED_R (0x84 + 32 * index_number r) n
           | W5 => AMode MODE_INDEXED_R_5BIT (32 * index_number r + e_v n mod 32) n
           | W8 => AMode MODE_INDEXED_R_8BIT 0x88 n
           | W16 => AMode MODE_INDEXED_R_16BIT 0x89 n
           end, rest, st).
Proof.
  intros a al n r rest st I Cn Rn ind.
  assert (M5 : Z.lor (Z.shiftl (index_number r) 5) (Z.land (e_v n) 31) = 32 * index_number r + e_v n mod 32).
  { change 31 with (Z.ones 5). rewrite Z.land_ones by lia. change (2 ^ 5) with 32.
    rewrite Z.shiftl_mul_pow2 by lia. change 32 with (2 ^ 5) at 1. rewrite lor_low; [change (2 ^ 5) with 32; lia|lia|].
    change (2 ^ 5) with 32. apply Z.mod_pos_bound. lia. }
  assert (M0 : Z.lor (Z.shiftl (index_number r) 5) 0x84 = 0x84 + 32 * index_number r) by (destruct r; reflexivity).
  assert (NP : (idx_token r =? REG_PCR) = false) by (destruct r; reflexivity).
  destruct (memory_has al I) as (H0 & H1 & H2 & H3 & H4 & _). unfold LISTS, OFFSETS in *.
  unfold place_text, size_text. cbn [app lex map]. rewrite lex_index. cbn [lex1].
  unfold parse_mode. rewrite H0. cbn [app].
  unfold parse_expr. cbn [parse_Expression]. rewrite H1, NP.
  unfold parse_offset. cbn [am_expr set_expr]. rewrite Cn, index_read, H2, H3, H4. fold ind. cbn [negb andb orb].
  rewrite M0, M5. unfold offset_width.
  destruct ind; cbn [negb andb orb]; destruct (e_v n =? 0) eqn:V0, (-16 <=? e_v n) eqn:V1, (e_v n <=? 15) eqn:V2, (-128 <=? e_v n) eqn:V3, (e_v n <=? 127) eqn:V4,
    (-32768 <=? e_v n) eqn:V5, (e_v n <=? 32767) eqn:V6; cbn [negb andb orb]; try reflexivity; exfalso; lia.
Qed.
Lemma read_sized : forall a al n r rest st s, In al memory_modes -> s <> Auto ->
  parse_mode a al (lex (place_text (Off s n r)) ++ rest) st =
    (true, match s with Short => AMode MODE_INDEXED_R_8BIT 0x88 n | _ => AMode MODE_INDEXED_R_16BIT 0x89 n end, rest, st).
Proof.
  intros a al n r rest st s I Ns.
  assert (NP : (idx_token r =? REG_PCR) = false) by (destruct r; reflexivity).
  destruct (memory_has al I) as (H0 & H1 & H2 & H3 & H4 & _). unfold LISTS, OFFSETS in *.
  destruct s; [congruence|..]; unfold place_text, size_text; cbn [app lex map]; rewrite lex_index; cbn [lex1];
    unfold parse_mode; rewrite H0; cbn [app]; unfold parse_expr; cbn [parse_Expression]; rewrite H1, NP;
    unfold parse_offset; cbn [am_expr set_expr]; rewrite index_read, H2, H3, H4; cbn [negb andb orb]; rewrite ?andb_false_r; reflexivity.
Qed.
Lemma read_pcr : forall a al n rest st s, In al memory_modes ->
  parse_mode a al (lex (place_text (Pcr s n)) ++ rest) st =
    (true, match s with Short => AMode MODE_INDEXED_PC_8BIT 0x8C n | _ => AMode MODE_INDEXED_PC_16BIT 0x8D n end, rest, st).
Proof.
  intros a al n rest st s I.
  destruct (memory_has al I) as (H0 & H1 & H2 & H3 & H4 & H5 & H6). unfold LISTS, OFFSETS in *.
  destruct s; unfold place_text, size_text; cbn [app lex map]; change (lex1 (Word "PCR")) with (TId REG_PCR); cbn [lex1];
    unfold parse_mode; rewrite H0; cbn [app]; unfold parse_expr; cbn [parse_Expression]; rewrite H1, ?H5, H6;
    change (REG_PCR =? REG_PCR) with true; reflexivity.
Qed.
(** Addresses. *)
Definition stops (rest : list token) : Prop := match rest with TComma :: _ => False | _ => True end.
Lemma read_address : forall a al n rest st, has al LISTS = false -> has al MODE_ADDRESS = true -> isNull n = false -> stops rest ->
  parse_mode a al (TExpr n :: rest) st = (true, AMode MODE_ADDRESS (am_post a) n, rest, st).
Proof.
  intros a al n rest st H0 H1 N St. unfold parse_mode. fold LISTS. rewrite H0. unfold parse_expr. cbn [parse_Expression].
  unfold parse_plain. cbn [am_expr set_expr]. rewrite H1, N, !andb_false_r. cbn [negb andb].
  destruct rest as [|[] rest]; try reflexivity. destruct St.
Qed.
Lemma read_far : forall a al n rest st, has al LISTS = false -> has al MODE_EXTENDED = true -> stops rest ->
  parse_mode a al (TGt :: TExpr n :: rest) st = (true, AMode MODE_EXTENDED (am_post a) n, rest, st).
Proof.
  intros a al n rest st H0 H1 St. unfold parse_mode. fold LISTS. rewrite H0. unfold parse_expr. cbn [parse_Expression].
  unfold parse_plain. cbn [am_expr set_expr]. rewrite H1. cbn [negb andb].
  destruct rest as [|[] rest]; try reflexivity. destruct St.
Qed.
Lemma read_direct : forall a al n rest st, has al LISTS = false -> has al MODE_DIRECT = true -> stops rest ->
  parse_mode a al (TLt :: TExpr n :: rest) st = (true, AMode MODE_DIRECT (am_post a) n, rest, st).
Proof.
  intros a al n rest st H0 H1 St. unfold parse_mode. fold LISTS. rewrite H0. unfold parse_expr. cbn [parse_Expression].
  unfold parse_plain. cbn [am_expr set_expr]. rewrite H1, !andb_false_r. cbn [negb andb].
  destruct rest as [|[] rest]; try reflexivity. destruct St.
Qed.
Lemma read_immediate : forall a al n rest st, has al MODE_IMMEDIATE = true -> isNull n = false ->
  parse_mode a al (THash :: TExpr n :: rest) st = (true, AMode MODE_IMMEDIATE (am_post a) n, rest, st).
Proof.
  intros a al n rest st H1 N. unfold parse_mode. rewrite H1. unfold parseExpressionMode. cbn [parse_Expression]. rewrite N.
  destruct (has al (MODE_REGISTER_LIST_S + MODE_REGISTER_LIST_U)); reflexivity.
Qed.
(** Register lists. *)
Definition reg_token (r : reg) : Z :=
  match r with A => REG_A | B => REG_B | D => REG_D | PC => REG_PCR | CC => REG_CCR | DP => REG_DPR | X => REG_X | Y => REG_Y | U => REG_U | S => REG_S end.
Lemma lex_reg : forall r, lex1 (Word (reg_name r)) = TId (reg_token r). Proof. intros []; reflexivity. Qed.
Definition other (q : reg) : Z := match q with U => REG_S | _ => REG_U end.
Definition listed (q : reg) (r : reg) : bool := existsb (reg_eqb r) [CC; A; B; DP; X; Y; PC; q].
Lemma list_bit : forall q r ts st, (q = U \/ q = S) -> listed q r = true ->
  parseRegisterListBit (reg_token q) (other q) (TId (reg_token r) :: ts) st = (2 ^ stack_bit r, st).
Proof. intros q r ts st [-> | ->]; destruct r; try discriminate; reflexivity. Qed.
Definition or_bits (b : Z) (l : list reg) : Z := fold_left (fun b r => Z.lor b (2 ^ stack_bit r)) l b.
Lemma list_read : forall q l b rest st, (q = U \/ q = S) -> forallb (listed q) l = true -> l <> [] -> stops rest ->
  register_list (reg_token q) (other q) b (lex (regs_text l) ++ rest) st = (or_bits b l, rest, st).
Proof.
  intros q. induction l as [|r l IH]; intros b rest st Q L N St; [congruence|].
  cbn [forallb] in L. apply andb_prop in L. destruct L as (L1 & L2).
  assert (P : (2 ^ stack_bit r =? 0) = false) by (destruct r; reflexivity).
  destruct l as [|r' l].
  - cbn [regs_text lex map app]. rewrite lex_reg. cbn [register_list]. rewrite (list_bit q r rest st Q L1), P.
    destruct rest as [|[] rest]; try reflexivity. destruct St.
  - change (lex (regs_text (r :: r' :: l)) ++ rest) with (lex1 (Word (reg_name r)) :: TComma :: (lex (regs_text (r' :: l)) ++ rest)).
    rewrite lex_reg. cbn [register_list]. rewrite (list_bit q r _ st Q L1), P. rewrite IH; [reflexivity|exact Q|exact L2|discriminate|exact St].
Qed.
Lemma bits_or : forall q l b, (q = U \/ q = S) -> forallb (listed q) l = true ->
  0 <= b < 256 -> 0 <= or_bits b l < 256 /\
  forall i, 0 <= i -> Z.testbit (or_bits b l) i = Z.testbit b i || existsb (fun r => stack_bit r =? i) l.
Proof.
  intros q. induction l as [|r l IH]; intros b Q L B; cbn [or_bits fold_left existsb].
  - split; [exact B|]. intros i _. rewrite orb_false_r. reflexivity.
  - cbn [forallb] in L. apply andb_prop in L. destruct L as (L1 & L2). fold (or_bits (Z.lor b (2 ^ stack_bit r)) l).
    assert (SB : 0 <= stack_bit r <= 7) by (destruct Q as [-> | ->]; destruct r; try discriminate; cbn; lia).
    assert (Bb : 0 <= Z.lor b (2 ^ stack_bit r) < 256).
    { split; [apply Z.lor_nonneg; split; [lia|apply Z.pow_nonneg; lia]|].
      destruct (Z.eq_dec (Z.lor b (2 ^ stack_bit r)) 0) as [->|Nz]; [lia|].
      assert (0 <= Z.lor b (2 ^ stack_bit r)) by (apply Z.lor_nonneg; split; [lia|apply Z.pow_nonneg; lia]).
      change 256 with (2 ^ 8). apply Z.log2_lt_pow2; [lia|]. rewrite Z.log2_lor; [|lia|apply Z.pow_nonneg; lia].
      rewrite Z.log2_pow2 by lia. apply Z.max_lub_lt; [|lia]. destruct (Z.eq_dec b 0) as [->|]; [cbn; lia|]. apply Z.log2_lt_pow2; [lia|]. exact (proj2 B). }
    destruct (IH _ Q L2 Bb) as (R & T). split; [exact R|]. intros i Hi. rewrite (T i Hi), Z.lor_spec, Z.pow2_bits_eqb by lia.
    rewrite orb_assoc. reflexivity.
Qed.
Lemma or_sum : forall (P : Z -> bool),
  let s := fold_right (fun i s => (if P i then 2 ^ i else 0) + s) 0 [0; 1; 2; 3; 4; 5; 6; 7] in
  0 <= s < 256 /\ forall i, 0 <= i < 8 -> Z.testbit s i = P i.
Proof.
  intros P. cbv zeta. cbn [fold_right].
  destruct (P 0) eqn:P0, (P 1) eqn:P1, (P 2) eqn:P2, (P 3) eqn:P3, (P 4) eqn:P4, (P 5) eqn:P5, (P 6) eqn:P6, (P 7) eqn:P7;
    (split; [vm_compute; split; [discriminate|reflexivity]|]);
    intros i Hi; assert (Ci : i = 0 \/ i = 1 \/ i = 2 \/ i = 3 \/ i = 4 \/ i = 5 \/ i = 6 \/ i = 7) by lia;
    repeat (destruct Ci as [->|Ci]; [rewrite ?P0, ?P1, ?P2, ?P3, ?P4, ?P5, ?P6, ?P7; reflexivity|]); subst i;
    rewrite ?P0, ?P1, ?P2, ?P3, ?P4, ?P5, ?P6, ?P7; reflexivity.
Qed.
Lemma stack_byte_is : forall q l, (q = U \/ q = S) -> forallb (listed q) l = true -> or_bits 0 l = stack_byte l.
Proof.
  intros q l Q L. destruct (bits_or q l 0 Q L ltac:(lia)) as (R1 & T1).
  destruct (or_sum (fun i => existsb (fun r => stack_bit r =? i) l)) as (R2 & T2). fold (stack_byte l) in R2, T2.
  apply Z.bits_inj'. intros i Hi. destruct (Z_lt_dec i 8) as [Li|Li].
  - rewrite (T1 i Hi), (T2 i ltac:(lia)), Z.bits_0. reflexivity.
  - rewrite !Z.bits_above_log2; try reflexivity; try lia.
    + destruct (Z.eq_dec (stack_byte l) 0) as [->|]; [cbn; lia|]. apply Z.log2_lt_pow2; [lia|].
      apply Z.lt_le_trans with (2 ^ 8); [exact (proj2 R2)|apply Z.pow_le_mono_r; lia].
    + destruct (Z.eq_dec (or_bits 0 l) 0) as [->|]; [cbn; lia|]. apply Z.log2_lt_pow2; [lia|].
      apply Z.lt_le_trans with (2 ^ 8); [exact (proj2 R1)|apply Z.pow_le_mono_r; lia].
Qed.

(** ** The tables *)
Definition entry (name : string) : option (Z * Z * handler) :=
  match assoc name g_tokens with
  | TId t => if (T_6809_ABX <=? t) && (t <=? T_6809_NOP) then nth_error g_instructionHandlers (Z.to_nat (t - T_6809_ABX)) else None
  | _ => None
  end.
Definition suits (al : Z) (c : column) : bool :=
  match c with
  | Inherent | Transfer => al =? MODE_NONE
  | Imm8 | Imm16 => has al MODE_IMMEDIATE && negb (has al LISTS)
  | Dir | Ext => existsb (Z.eqb al) [MODE_P; MODE_Q]
  | Idx => existsb (Z.eqb al) [MODE_P; MODE_Q; MODE_T]
  | Rel8 | Rel16 => al =? MODE_ADDRESS
  | Stack U => al =? MODE_IMMEDIATE + MODE_REGISTER_LIST_U
  | Stack S => al =? MODE_IMMEDIATE + MODE_REGISTER_LIST_S
  | Stack _ => false
  end.
Fixpoint zs_eqb (a b : list Z) : bool :=
  match a, b with [], [] => true | x :: a', y :: b' => (x =? y) && zs_eqb a' b' | _, _ => false end.
Lemma zs_eqb_eq : forall a b, zs_eqb a b = true -> a = b.
Proof.
  induction a as [|x a IH]; intros [|y b] H; try reflexivity; try discriminate. cbn in H. apply andb_prop in H. destruct H as (H1 & H2).
  apply Z.eqb_eq in H1. rewrite (IH _ H2), H1. reflexivity.
Qed.
Definition agrees (r : row) : bool :=
  String.eqb (fst r) "LSRA" || String.eqb (fst r) "LSRB" ||
  match entry (fst r) with
  | Some (base, al, h) =>
      forallb (fun x => match opbytes h base (fst x) with Some code => zs_eqb code (snd x) | None => false end && suits al (fst x)) (snd r)
  | None => false
  end.
Lemma table_agrees : forallb agrees table = true. Proof. vm_compute. reflexivity. Qed.
Lemma in_table : forall name cols c code, In (name, cols) table -> In (c, code) cols -> name <> "LSRA" -> name <> "LSRB" ->
  exists t base al h, assoc name g_tokens = TId t /\ T_6809_ABX <= t <= T_6809_NOP /\
    nth_error g_instructionHandlers (Z.to_nat (t - T_6809_ABX)) = Some (base, al, h) /\ opbytes h base c = Some code /\ suits al c = true.
Proof.
  intros name cols c code I Ic N1 N2. pose proof (proj1 (forallb_forall _ _) table_agrees _ I) as G. unfold agrees in G. cbn [fst snd] in G.
  apply String.eqb_neq in N1, N2. rewrite N1, N2 in G. cbn [orb] in G. unfold entry in G.
  destruct (assoc name g_tokens) as [t| | | | | | | | | |]; try discriminate.
  destruct ((T_6809_ABX <=? t) && (t <=? T_6809_NOP)) eqn:Rt; [|discriminate].
  destruct (nth_error g_instructionHandlers _) as [[[base al] h]|] eqn:Nt; [|discriminate].
  pose proof (proj1 (forallb_forall _ _) G _ Ic) as Q. cbn [fst snd] in Q. apply andb_prop in Q. destruct Q as (Q1 & Q2).
  destruct (opbytes h base c) as [code'|] eqn:O; [|discriminate]. apply zs_eqb_eq in Q1. subst code'.
  exists t, base, al, h. split; [reflexivity|]. split; [lia|]. tauto.
Qed.

(** ** Operands *)
Lemma page_bits : forall v, Z.land v 0xFF00 = 256 * (v / 256 mod 256).
Proof.
  intro v. change 0xFF00 with (Z.shiftl (Z.ones 8) 8). change (v / 256) with (v / 2 ^ 8). change (_ mod 256) with ((v / 2 ^ 8) mod 2 ^ 8).
  rewrite <- Z.land_ones, <- Z.shiftr_div_pow2 by lia. rewrite Z.mul_comm. change 256 with (2 ^ 8). rewrite <- Z.shiftl_mul_pow2 by lia.
  apply Z.bits_inj'. intros i Hi. rewrite Z.land_spec. destruct (Z_lt_dec i 8) as [L|L].
  - rewrite !Z.shiftl_spec_low by lia. apply andb_false_r.
  - rewrite !Z.shiftl_spec by lia. rewrite Z.land_spec, Z.shiftr_spec by lia. replace (i - 8 + 8) with i by lia. reflexivity.
Qed.
Lemma numbers_moved : forall S cur cur' d f c, numbers_known S cur f c -> numbers_known (moved d S) cur' f c.
Proof.
  intros S cur cur' d f c H a rel I. destruct (H a rel I) as (O & So & D & P). split; [|tauto]. eapply X65Proofs.operand_moved; eassumption.
Qed.
(** The address chosen for a plain address. *)
Lemma chosen_address : forall S cur p post n, setting_ok S cur -> operand S cur (g_term n) (g_expr n) (g_value n) ->
  chosen (page_base p) (AMode MODE_ADDRESS post (g_expr n)) =
  AMode (if in_page p n then MODE_DIRECT else MODE_EXTENDED) post (g_expr n).
Proof.
  intros S cur p post n SO O. destruct (operand_facts _ _ _ _ _ SO O) as (_ & C & _).
  unfold chosen, in_page, known_now. cbn [am_mode am_expr]. change (MODE_ADDRESS =? MODE_ADDRESS) with true. cbv iota.
  destruct p as [p|]; cbn [page_base option_map]; [|reflexivity].
  destruct (expr_IsConstant (g_expr n)) eqn:K; [|reflexivity]. rewrite (C eq_refl), page_bits. cbn [andb].
  replace (256 * (g_value n / 256 mod 256) =? 256 * p) with (g_value n / 256 mod 256 =? p) by lia.
  destruct (g_value n / 256 mod 256 =? p); reflexivity.
Qed.
Lemma chosen_other : forall p a, am_mode a <> MODE_ADDRESS -> chosen p a = a.
Proof. intros p a N. unfold chosen. apply Z.eqb_neq in N. rewrite N. reflexivity. Qed.
Lemma seq_one : forall S k st st1 c room, stepped S k st st1 c room -> emits_seq S k st st1 [c].
Proof. intros S k st st1 c room (E & _). cbn. exists st1. split; [exact E|reflexivity]. Qed.
Lemma seq_two : forall S k st st1 st2 c d room room', stepped S k st st1 c room -> stepped (moved (Z.of_nat (fst (fst c))) S) k st1 st2 d room' ->
  emits_seq S k st st2 [c; d].
Proof. intros S k st st1 st2 c d room room' (E1 & _) (E2 & _). cbn. exists st1. split; [exact E1|]. exists st2. split; [exact E2|reflexivity]. Qed.
Lemma pc_moved : forall d S, e_pc (s_env (moved d S)) = e_pc (s_env S) + d.
Proof. reflexivity. Qed.
Lemma F_moved : forall d S, s_F (moved d S) = s_F S.
Proof. reflexivity. Qed.

Section Indexed.
Variable S : setting.
Variable k : nat.
Variable st : xstate.
Variable m : msect.
Hypothesis SO : setting_ok S (here m).
Hypothesis R : ready st k m 3.
Notation pc := (e_pc (s_env S)).
(** Only a post byte. *)
Lemma idx_plain : forall mode post e, has mode MODE_INDEXED_R_8BIT = false -> has mode (MODE_INDEXED_R_16BIT + MODE_EXTENDED_INDIRECT) = false ->
  has mode MODE_INDEXED_PC_8BIT = false -> has mode MODE_INDEXED_PC_16BIT = false ->
  exists st', operand_out (s_F S) Idx (AMode mode post e) st = Ok st' /\ emits_seq S k st st' [byte_cell post].
Proof.
  intros mode post e H1 H2 H3 H4. destruct (out_byte S k st m post 2 SO R) as (st1 & E & St); [lia|].
  exists st1. cbn [operand_out]. unfold emitIndexed. cbn [am_post am_mode]. rewrite E. cbn [bind]. rewrite H1, H2, H3, H4. cbn [bind].
  split; [reflexivity|]. eapply seq_one, St.
Qed.
Lemma idx_8 : forall mode post n, has mode MODE_INDEXED_R_8BIT = true ->
  operand S (here m) (g_term n) (g_expr n) (g_value n) -> X65Spec.source_term (g_term n) -> tdepth (g_term n) <= 240 -> fits8 (g_value n) ->
  exists st', operand_out (s_F S) Idx (AMode mode post (g_expr n)) st = Ok st' /\
    emits_seq S k st st' [byte_cell post; (1%nat, g_term n, g_value n)].
Proof.
  intros mode post n H1 O So D Fi. destruct (out_byte S k st m post 2 SO R) as (st1 & E & St); [lia|].
  pose proof St as (_ & m1 & R1 & S1). change (Z.of_nat (fst (fst (byte_cell post)))) with 1 in S1.
  destruct (out8 (moved 1 S) k st1 m1 false (g_term n) (g_expr n) (g_value n) 1 S1 R1) as (st2 & E2 & St2);
    [lia|eapply Z80Run.held_less; [eapply Z80Run.held_moved, held_arg; try eassumption; discriminate|lia]|exact Fi|].
  exists st2. cbn [operand_out]. unfold emitIndexed. cbn [am_post am_mode am_expr]. rewrite E. cbn [bind]. rewrite H1. unfold done. rewrite E2.
  split; [reflexivity|]. eapply seq_two; [exact St|exact St2].
Qed.
Lemma idx_16 : forall mode post n, has mode MODE_INDEXED_R_8BIT = false -> has mode (MODE_INDEXED_R_16BIT + MODE_EXTENDED_INDIRECT) = true ->
  operand S (here m) (g_term n) (g_expr n) (g_value n) -> X65Spec.source_term (g_term n) -> tdepth (g_term n) <= 240 -> fits16 (g_value n) ->
  exists st', operand_out (s_F S) Idx (AMode mode post (g_expr n)) st = Ok st' /\
    emits_seq S k st st' [byte_cell post; (2%nat, g_term n, g_value n)].
Proof.
  intros mode post n H1 H2 O So D Fi. destruct (out_byte S k st m post 2 SO R) as (st1 & E & St); [lia|].
  pose proof St as (_ & m1 & R1 & S1). change (Z.of_nat (fst (fst (byte_cell post)))) with 1 in S1.
  destruct (out16 (moved 1 S) k st1 m1 false (g_term n) (g_expr n) (g_value n) 0 S1 R1) as (st2 & E2 & St2);
    [lia|eapply Z80Run.held_less; [eapply Z80Run.held_moved, held_arg; try eassumption; discriminate|lia]|exact Fi|].
  exists st2. cbn [operand_out]. unfold emitIndexed. cbn [am_post am_mode am_expr]. rewrite E. cbn [bind]. rewrite H1, H2. unfold done. rewrite E2.
  split; [reflexivity|]. eapply seq_two; [exact St|exact St2].
Qed.
Lemma idx_pc8 : forall mode post n, has mode MODE_INDEXED_R_8BIT = false -> has mode (MODE_INDEXED_R_16BIT + MODE_EXTENDED_INDIRECT) = false ->
  has mode MODE_INDEXED_PC_8BIT = true -> ~ paren_head (g_term n) ->
  operand S (here m) (g_term n) (g_expr n) (g_value n) -> X65Spec.source_term (g_term n) -> tdepth (g_term n) <= 240 -> address (g_value n) ->
  near (g_value n - (pc + 2)) ->
  exists st', operand_out (s_F S) Idx (AMode mode post (g_expr n)) st = Ok st' /\
    emits_seq S k st st' [byte_cell post; (1%nat, PcRel (-1) (g_term n), g_value n - (pc + 2))].
Proof.
  intros mode post n H1 H2 H3 Np O So D Av Fi. destruct (out_byte S k st m post 2 SO R) as (st1 & E & St); [lia|].
  pose proof St as (_ & m1 & R1 & S1). change (Z.of_nat (fst (fst (byte_cell post)))) with 1 in S1.
  replace (g_value n - (pc + 2)) with (g_value n - (e_pc (s_env (moved 1 S)) + 1)) in * by (rewrite pc_moved; lia).
  destruct (out_pc8 (moved 1 S) k st1 m1 (g_term n) (g_expr n) (g_value n) 1 S1 R1) as (st2 & E2 & St2);
    [lia|eapply Z80Run.held_moved, held_arg; try eassumption; intros _; exact Np|exact Av|exact Fi|].
  exists st2. cbn [operand_out]. unfold emitIndexed. cbn [am_post am_mode am_expr]. rewrite E. cbn [bind]. rewrite H1, H2, H3. unfold done.
  rewrite F_moved in E2. rewrite E2. split; [reflexivity|]. eapply seq_two; [exact St|exact St2].
Qed.
Lemma idx_pc16 : forall mode post n, has mode MODE_INDEXED_R_8BIT = false -> has mode (MODE_INDEXED_R_16BIT + MODE_EXTENDED_INDIRECT) = false ->
  has mode MODE_INDEXED_PC_8BIT = false -> has mode MODE_INDEXED_PC_16BIT = true -> ~ paren_head (g_term n) ->
  operand S (here m) (g_term n) (g_expr n) (g_value n) -> X65Spec.source_term (g_term n) -> tdepth (g_term n) <= 240 -> address (g_value n) ->
  fits16 (g_value n - (pc + 3)) ->
  exists st', operand_out (s_F S) Idx (AMode mode post (g_expr n)) st = Ok st' /\
    emits_seq S k st st' [byte_cell post; (2%nat, PcRel (-2) (g_term n), g_value n - (pc + 3))].
Proof.
  intros mode post n H1 H2 H3 H4 Np O So D Av Fi. destruct (out_byte S k st m post 2 SO R) as (st1 & E & St); [lia|].
  pose proof St as (_ & m1 & R1 & S1). change (Z.of_nat (fst (fst (byte_cell post)))) with 1 in S1.
  replace (g_value n - (pc + 3)) with (g_value n - (e_pc (s_env (moved 1 S)) + 2)) in * by (rewrite pc_moved; lia).
  destruct (out_pc16 (moved 1 S) k st1 m1 (g_term n) (g_expr n) (g_value n) 0 S1 R1) as (st2 & E2 & St2);
    [lia|eapply Z80Run.held_moved, held_arg; try eassumption; intros _; exact Np|exact Av|exact Fi|].
  exists st2. cbn [operand_out]. unfold emitIndexed. cbn [am_post am_mode am_expr]. rewrite E. cbn [bind]. rewrite H1, H2, H3, H4. unfold done.
  rewrite F_moved in E2. rewrite E2. split; [reflexivity|]. eapply seq_two; [exact St|exact St2].
Qed.
End Indexed.

(** The mode and the post byte of an indexed operand, before brackets are added. *)
Definition place_mode (ind : bool) (p : place arg) : Z * Z :=
  match p with
  | Inc1 r => (MODE_INDEXED_R_INC1, 0x80 + 32 * index_number r)
  | Inc2 r => (MODE_INDEXED_R_INC2, 0x81 + 32 * index_number r)
  | Dec1 r => (MODE_INDEXED_R_DEC1, 0x82 + 32 * index_number r)
  | Dec2 r => (MODE_INDEXED_R_DEC2, 0x83 + 32 * index_number r)
  | At r => (MODE_INDEXED_R, 0x84 + 32 * index_number r)
  | Acc AccA r => (MODE_INDEXED_R_A, 0x86 + 32 * index_number r)
  | Acc AccB r => (MODE_INDEXED_R_B, 0x85 + 32 * index_number r)
  | Acc AccD r => (MODE_INDEXED_R_D, 0x8B + 32 * index_number r)
  | Off s n r =>
      match offset_width ind s (g_value n) with
      | W0 => (MODE_INDEXED_R, 0x84 + 32 * index_number r)
      | W5 => (MODE_INDEXED_R_5BIT, 32 * index_number r + g_value n mod 32)
      | W8 => (MODE_INDEXED_R_8BIT, 0x88)
      | W16 => (MODE_INDEXED_R_16BIT, 0x89)
      end
  | Pcr Short n => (MODE_INDEXED_PC_8BIT, 0x8C)
  | Pcr _ n => (MODE_INDEXED_PC_16BIT, 0x8D)
  end.
Definition place_expr (p : place arg) (e : expr) : expr := match p with Off _ n _ | Pcr _ n => g_expr n | _ => e end.
Definition place_ok (ind : bool) (p : place arg) : Prop :=
  match p with Inc1 _ | Dec1 _ => ind = false | Off Auto n _ => known_now n = true /\ e_v (g_expr n) = g_value n /\ -32768 <= g_value n <= 32767 | _ => True end.
Lemma place_read : forall al p a rest st, In al memory_modes -> let ind := al =? MODE_ALLOWED_INDIRECT in place_ok ind p -> no_sign rest ->
  parse_mode a al (lex (place_text (place_map g_expr p)) ++ rest) st =
    (true, AMode (fst (place_mode ind p)) (snd (place_mode ind p)) (place_expr p (am_expr a)), rest, st).
Proof.
  intros al p a rest st I ind Pk N.
  assert (Hs : forall p' mode b, place_map g_expr p = p' -> step_of p' = Some (mode, b) -> has al mode = true ->
    parse_mode a al (lex (place_text p') ++ rest) st = (true, AMode mode (b + 32 * index_number (place_reg p')) (am_expr a), rest, st)).
  { intros p' mode b _ St H. apply read_step; assumption. }
  assert (In1 : ind = false -> has al MODE_INDEXED_R_INC1 = true /\ has al MODE_INDEXED_R_DEC1 = true).
  { subst ind. intro E. repeat (destruct I as [<-|I]; [first [discriminate E|split; reflexivity]|]). destruct I. }
  assert (In2 : has al MODE_INDEXED_R_INC2 = true /\ has al MODE_INDEXED_R_DEC2 = true /\ has al MODE_INDEXED_R = true /\
                has al MODE_INDEXED_R_A = true /\ has al MODE_INDEXED_R_B = true /\ has al MODE_INDEXED_R_D = true).
  { clear - I. repeat (destruct I as [<-|I]; [repeat split; reflexivity|]). destruct I. }
  destruct In2 as (J1 & J2 & J3 & J4 & J5 & J6).
  destruct p as [r|r|r|r|r|c r|s n r|s n]; cbn [place_map place_mode place_expr fst snd] in *.
  - exact (Hs _ _ _ eq_refl eq_refl (proj1 (In1 Pk))).
  - exact (Hs _ _ _ eq_refl eq_refl J1).
  - exact (Hs _ _ _ eq_refl eq_refl (proj2 (In1 Pk))).
  - exact (Hs _ _ _ eq_refl eq_refl J2).
  - exact (Hs _ _ _ eq_refl eq_refl J3).
  - destruct c; [exact (Hs _ _ _ eq_refl eq_refl J4)|exact (Hs _ _ _ eq_refl eq_refl J5)|exact (Hs _ _ _ eq_refl eq_refl J6)].
  - destruct s.
    + cbn [place_ok] in Pk. destruct Pk as (K & V & Ra). unfold known_now in K. rewrite (read_auto a al (g_expr n) r rest st I K); [|lia].
      fold ind. rewrite V. destruct (offset_width ind Auto (g_value n)); reflexivity.
    + rewrite (read_sized a al (g_expr n) r rest st Short I); [reflexivity|discriminate].
    + rewrite (read_sized a al (g_expr n) r rest st Long I); [reflexivity|discriminate].
  - rewrite (read_pcr a al (g_expr n) rest st s I). destruct s; reflexivity.
Qed.
Lemma post_10 : forall b r, In b [0x80; 0x81; 0x82; 0x83; 0x84; 0x85; 0x86; 0x88; 0x89; 0x8B; 0x8C; 0x8D] ->
  Z.lor (b + 32 * index_number r) 0x10 = b + 32 * index_number r + 16.
Proof. intros b r I. cbn [In] in I. decompose [or] I; subst; try contradiction; destruct r; reflexivity. Qed.
Lemma not_W5 : forall s v, offset_width true s v <> W0 /\ offset_width true s v <> W5.
Proof. intros [] v; cbn; try (split; discriminate). destruct ((-128 <=? v) && (v <=? 127)); split; discriminate. Qed.

Definition mode_bit (ind : bool) : Z := if ind then MODE_INDIRECT_MODIFIER else 0.
(** From the mode to the cells. *)
Lemma place_out : forall S k st m ind p e, setting_ok S (here m) -> ready st k m 3 -> numbers_known S (here m) (Indexed ind p) Idx ->
  place_fits ind p (e_pc (s_env S)) -> faulty "" (Indexed ind p) = false -> place_ok ind p ->
  let mode := Z.lor (fst (place_mode ind p)) (mode_bit ind) in
  let post := if ind then Z.lor (snd (place_mode ind p)) 0x10 else snd (place_mode ind p) in
  mode_of Idx mode /\ mode <> MODE_ADDRESS /\
  exists st', operand_out (s_F S) Idx (AMode mode post (place_expr p e)) st = Ok st' /\ emits_seq S k st st' (place_cells ind p (e_pc (s_env S))).
Proof.
  intros S k st m ind p e SO R Nk Fi Fa Pk mode post.
  assert (Mo : mode_of Idx mode /\ mode <> MODE_ADDRESS).
  { subst mode. destruct p as [r|r|r|r|r|[] r|s n r|[] n]; cbn [place_mode fst];
      try (destruct (offset_width ind s (g_value n))); cbn [fst]; destruct ind; repeat split; vm_compute; congruence. }
  split; [exact (proj1 Mo)|]. split; [exact (proj2 Mo)|].
  assert (Pl : forall b r, In b [0x80; 0x81; 0x82; 0x83; 0x84; 0x85; 0x86; 0x8B] -> snd (place_mode ind p) = b + 32 * index_number r ->
    has mode MODE_INDEXED_R_8BIT = false -> has mode (MODE_INDEXED_R_16BIT + MODE_EXTENDED_INDIRECT) = false ->
    has mode MODE_INDEXED_PC_8BIT = false -> has mode MODE_INDEXED_PC_16BIT = false ->
    exists st', operand_out (s_F S) Idx (AMode mode post (place_expr p e)) st = Ok st' /\
      emits_seq S k st st' [byte_cell (b + 32 * index_number r + (if ind then 16 else 0))]).
  { intros b r Ib Eb H1 H2 H3 H4. replace (b + 32 * index_number r + (if ind then 16 else 0)) with post.
    - apply (idx_plain S k st m SO R); assumption.
    - subst post. rewrite Eb. destruct ind; [apply post_10; cbn in *; tauto|lia]. }
  assert (Arg : forall n rel, In (n, rel) (numbers (Indexed ind p) Idx) -> operand S (here m) (g_term n) (g_expr n) (g_value n) /\
    X65Spec.source_term (g_term n) /\ tdepth (g_term n) <= 240 /\ (rel = true -> ~ paren_head (g_term n))) by (intros n rel I; exact (Nk n rel I)).
  assert (Po : forall b, In b [0x88; 0x89; 0x8C; 0x8D] -> snd (place_mode ind p) = b -> post = b + 32 * 0 + (if ind then 16 else 0)).
  { intros b Ib Eb. subst post. rewrite Eb. destruct ind; [|lia]. clear Eb. cbn [In] in Ib. decompose [or] Ib; try contradiction; subst b; reflexivity. }
  destruct p as [r|r|r|r|r|c r|s n r|s n]; cbn [place_cells].
  - apply Pl; [cbn; tauto|reflexivity|..]; subst mode; destruct ind; reflexivity.
  - apply Pl; [cbn; tauto|reflexivity|..]; subst mode; destruct ind; reflexivity.
  - apply Pl; [cbn; tauto|reflexivity|..]; subst mode; destruct ind; reflexivity.
  - apply Pl; [cbn; tauto|reflexivity|..]; subst mode; destruct ind; reflexivity.
  - apply Pl; [cbn; tauto|reflexivity|..]; subst mode; destruct ind; reflexivity.
  - destruct c; (apply Pl; [cbn; tauto|reflexivity|..]; subst mode; destruct ind; reflexivity).
  - destruct (Arg n false (or_introl eq_refl)) as (O & So & D & _).
    cbn [faulty String.eqb orb] in Fa. apply orb_false_iff in Fa. destruct Fa as (Fa & _). cbn [place_mode place_expr] in *.
    assert (Wi : match offset_width ind s (g_value n) with W8 => near (g_value n) | W16 => fits16 (g_value n) | _ => True end).
    { clear - Fi. unfold near, fits16 in *. destruct s; cbn [offset_width place_fits] in *; try exact Fi.
      repeat match goal with |- context [if ?b then _ else _] => destruct b eqn:? end; try exact Logic.I; lia. }
    destruct (offset_width ind s (g_value n)) eqn:W; cbn [fst snd] in *.
    + apply Pl; [cbn; tauto|reflexivity|..]; subst mode; destruct ind; reflexivity.
    + destruct ind; [destruct (proj2 (not_W5 s (g_value n)) W)|]. subst post mode.
      apply (idx_plain S k st m SO R); reflexivity.
    + assert (Er : index_number r = 0) by lia. rewrite Er.
      rewrite <- (Po 0x88 (or_introl eq_refl) eq_refl). apply (idx_8 S k st m SO R); try assumption; [subst mode; destruct ind; reflexivity|].
      unfold near, fits8 in *. lia.
    + assert (Er : index_number r = 0) by lia. rewrite Er.
      rewrite <- (Po 0x89 (or_intror (or_introl eq_refl)) eq_refl).
      apply (idx_16 S k st m SO R); try assumption; subst mode; destruct ind; reflexivity.
  - destruct (Arg n true (or_introl eq_refl)) as (O & So & D & Np). specialize (Np eq_refl). cbn [place_expr place_fits] in *. change (index_number IX) with 0.
    destruct s; cbn [place_mode fst snd] in *.
    + rewrite <- (Po 0x8D ltac:(cbn; tauto) eq_refl).
      apply (idx_pc16 S k st m SO R); try assumption; try tauto; subst mode; destruct ind; reflexivity.
    + rewrite <- (Po 0x8C ltac:(cbn; tauto) eq_refl).
      apply (idx_pc8 S k st m SO R); try assumption; try tauto; subst mode; destruct ind; reflexivity.
    + rewrite <- (Po 0x8D ltac:(cbn; tauto) eq_refl).
      apply (idx_pc16 S k st m SO R); try assumption; try tauto; subst mode; destruct ind; reflexivity.
Qed.

(** ** Instructions *)
Lemma facts : forall S cur f c n rel, setting_ok S cur -> numbers_known S cur f c -> In (n, rel) (numbers f c) ->
  isNull (g_expr n) = false /\ (known_now n = true -> e_v (g_expr n) = g_value n).
Proof.
  intros S cur f c n rel SO Nk I. destruct (Nk n rel I) as (O & _). destruct (operand_facts _ _ _ _ _ SO O) as (N & C & _). tauto.
Qed.
Lemma ends_stops : forall rest, ends rest -> stops rest /\ no_sign rest.
Proof. intros [|[] rest] E; try destruct E; split; exact Logic.I. Qed.
Lemma plain_text : forall p, match lex (place_text p) with TLb :: _ => False | _ => True end.
Proof. intros [r|r|r|r|r|[] r|[] n r|[] n]; exact Logic.I. Qed.
Lemma suits_memory : forall al, suits al Idx = true -> In al memory_modes /\ (al =? MODE_ALLOWED_INDIRECT) = false /\ has al MODE_INDIRECT_MODIFIER = true.
Proof.
  intros al H. cbn [suits existsb] in H.
  assert (J : al = MODE_P \/ al = MODE_Q \/ al = MODE_T) by lia.
  unfold memory_modes. cbn [In]. destruct J as [J|[J|J]]; rewrite J; (split; [tauto|split; reflexivity]).
Qed.
Lemma suits_address : forall al c, suits al c = true -> In c [Dir; Ext; Rel8; Rel16] ->
  has al LISTS = false /\ has al MODE_ADDRESS = true /\ (In c [Dir; Ext] -> has al MODE_DIRECT = true /\ has al MODE_EXTENDED = true).
Proof.
  intros al c H I.
  assert (J : (al = MODE_P \/ al = MODE_Q) \/ (al = MODE_ADDRESS /\ In c [Rel8; Rel16])).
  { cbn [In] in I. decompose [or] I; try contradiction; subst c; cbn [suits existsb] in H.
    - left. destruct (Z.eqb_spec al MODE_P); [tauto|]. destruct (Z.eqb_spec al MODE_Q); [tauto|discriminate].
    - left. destruct (Z.eqb_spec al MODE_P); [tauto|]. destruct (Z.eqb_spec al MODE_Q); [tauto|discriminate].
    - right. cbn. split; [lia|tauto].
    - right. cbn. split; [lia|tauto]. }
  destruct J as [[-> | ->]|(-> & J)]; (split; [reflexivity|]); (split; [reflexivity|]); intro K; try (split; reflexivity).
  destruct J as [<-|[<-|[]]], K as [K|[K|[]]]; discriminate K.
Qed.
Lemma operand_done : forall S k st m p f c al rest junk, setting_ok S (here m) -> ready st k m 3 -> numbers_known S (here m) f c ->
  belongs p f c = true -> suits al c = true -> operand_fits f c (e_pc (s_env S)) -> faulty "" f = false -> ends rest -> c <> Transfer ->
  exists a, (forall st0, m6809_ParseAddressingMode junk al (lex (text (form_map g_expr f)) ++ rest) st0 = (true, a, rest, st0)) /\
    mode_of c (am_mode (chosen (page_base p) a)) /\
    exists st', operand_out (s_F S) c (chosen (page_base p) a) st = Ok st' /\ emits_seq S k st st' (operand_cells f c (e_pc (s_env S))).
Proof.
  intros S k st m p f c al rest junk SO R Nk Be Su Fi Fa En Nt. destruct (ends_stops rest En) as (St & Ns).
  destruct f as [|n|n|n|n|ind q|far n|l|a b]; cbn [form_map text] in *.
  - destruct c; try discriminate. cbn [suits] in Su. apply Z.eqb_eq in Su. subst al.
    exists (set_expr ENull junk). split.
    { intro st0. destruct rest as [|[] rest]; try destruct En; reflexivity. }
    split; [exact Logic.I|]. exists st. split; reflexivity.
  - assert (Ic : In (n, false) (numbers (Immediate n) c)) by (left; reflexivity).
    destruct (facts _ _ _ _ _ _ SO Nk Ic) as (Nn & _). destruct (Nk n false Ic) as (O & So & D & _).
    assert (Hh : has al MODE_IMMEDIATE = true) by (destruct c; try discriminate; cbn [suits] in Su; apply andb_prop in Su; tauto).
    exists (AMode MODE_IMMEDIATE (am_post junk) (g_expr n)). split.
    { intro st0. exact (read_immediate junk al (g_expr n) rest st0 Hh Nn). }
    rewrite chosen_other by discriminate.
    assert (He : held 245 false S (here m) (g_term n) (g_expr n) (g_value n))
      by (eapply Z80Run.held_less; [apply held_arg; try assumption; discriminate|lia]).
    destruct c; try discriminate; (split; [reflexivity|]); cbn [operand_out am_expr operand_cells operand_fits] in *.
    + destruct (out8 S k st m false _ _ _ 2 SO R ltac:(lia) He Fi) as (st1 & E & Sp). exists st1. split; [exact E|]. eapply seq_one, Sp.
    + destruct (out16 S k st m false _ _ _ 1 SO R ltac:(lia) He Fi) as (st1 & E & Sp). exists st1. split; [exact E|]. eapply seq_one, Sp.
  - assert (Cc : In c [Dir; Ext; Rel8; Rel16]) by (destruct c; try discriminate; cbn; tauto).
    destruct (suits_address al c Su Cc) as (H0 & H1 & _).
    assert (Ic : exists rel, In (n, rel) (numbers (Address n) c)) by (eexists; left; reflexivity). destruct Ic as (rel & Ic).
    destruct (facts _ _ _ _ _ _ SO Nk Ic) as (Nn & _). destruct (Nk n rel Ic) as (O & So & D & Np).
    exists (AMode MODE_ADDRESS (am_post junk) (g_expr n)). split.
    { intro st0. exact (read_address junk al (g_expr n) rest st0 H0 H1 Nn St). }
    rewrite (chosen_address S (here m) p (am_post junk) n SO O).
    assert (He : held 240 false S (here m) (g_term n) (g_expr n) (g_value n)) by (apply held_arg; try assumption; discriminate).
    assert (He' : held 245 false S (here m) (g_term n) (g_expr n) (g_value n)) by (eapply Z80Run.held_less; [exact He|lia]).
    destruct c; try discriminate; cbn [belongs operand_out am_expr operand_cells operand_fits mode_of am_mode] in *.
    + rewrite Be. split; [reflexivity|].
      destruct (Z80Run.held_bin 240 false S (here m) OpAnd _ _ _ 0xFF (g_value n mod 256) SO He) as (e1 & E1 & H2); try num;
        [cbn; tauto|cbn [op_meaning]; f_equal; apply (Z.land_ones (g_value n) 8); lia|].
      rewrite E1. cbn [bind].
      destruct (out8 S k st m true _ _ (g_value n mod 256) 2 SO R ltac:(lia) (Z80Run.held_less _ 245 _ _ _ _ _ _ H2 ltac:(lia))) as (st1 & E & Sp).
      { unfold fits8. pose proof (Z.mod_pos_bound (g_value n) 256). lia. }
      exists st1. split; [exact E|]. eapply seq_one, Sp.
    + apply negb_true_iff in Be. rewrite Be. split; [reflexivity|].
      destruct (out16 S k st m false _ _ _ 1 SO R ltac:(lia) He' Fi) as (st1 & E & Sp). exists st1. split; [exact E|]. eapply seq_one, Sp.
    + split; [exact Logic.I|]. destruct Ic as [Ic|[]]. injection Ic as <-. specialize (Np eq_refl).
      assert (Hb : held 240 true S (here m) (g_term n) (g_expr n) (g_value n)) by (apply held_arg; try assumption; intros _; exact Np).
      destruct (out_pc8 S k st m _ _ _ 2 SO R ltac:(lia) Hb (proj1 Fi) (proj2 Fi)) as (st1 & E & Sp). exists st1. split; [exact E|]. eapply seq_one, Sp.
    + split; [exact Logic.I|]. destruct Ic as [Ic|[]]. injection Ic as <-. specialize (Np eq_refl).
      assert (Hb : held 240 true S (here m) (g_term n) (g_expr n) (g_value n)) by (apply held_arg; try assumption; intros _; exact Np).
      destruct (out_pc16 S k st m _ _ _ 1 SO R ltac:(lia) Hb (proj1 Fi) (proj2 Fi)) as (st1 & E & Sp). exists st1. split; [exact E|]. eapply seq_one, Sp.
  - destruct c; try discriminate.
    destruct (suits_address al Dir Su ltac:(cbn; tauto)) as (H0 & _ & H1). destruct (H1 ltac:(cbn; tauto)) as (H2 & _).
    destruct (Nk n false (or_introl eq_refl)) as (O & So & D & _).
    exists (AMode MODE_DIRECT (am_post junk) (g_expr n)). split.
    { intro st0. exact (read_direct junk al (g_expr n) rest st0 H0 H2 St). }
    rewrite chosen_other by discriminate. split; [reflexivity|]. cbn [operand_out am_expr operand_cells].
    assert (He : held 240 false S (here m) (g_term n) (g_expr n) (g_value n)) by (apply held_arg; try assumption; discriminate).
    destruct (Z80Run.held_bin 240 false S (here m) OpAnd _ _ _ 0xFF (g_value n mod 256) SO He) as (e1 & E1 & H3); try num;
      [cbn; tauto|cbn [op_meaning]; f_equal; apply (Z.land_ones (g_value n) 8); lia|].
    rewrite E1. cbn [bind].
    destruct (out8 S k st m true _ _ (g_value n mod 256) 2 SO R ltac:(lia) (Z80Run.held_less _ 245 _ _ _ _ _ _ H3 ltac:(lia))) as (st1 & E & Sp).
    { unfold fits8. pose proof (Z.mod_pos_bound (g_value n) 256). lia. }
    exists st1. split; [exact E|]. eapply seq_one, Sp.
  - destruct c; try discriminate.
    destruct (suits_address al Ext Su ltac:(cbn; tauto)) as (H0 & _ & H1). destruct (H1 ltac:(cbn; tauto)) as (_ & H2).
    destruct (Nk n false (or_introl eq_refl)) as (O & So & D & _).
    exists (AMode MODE_EXTENDED (am_post junk) (g_expr n)). split.
    { intro st0. exact (read_far junk al (g_expr n) rest st0 H0 H2 St). }
    rewrite chosen_other by discriminate. split; [reflexivity|]. cbn [operand_out am_expr operand_cells operand_fits] in *.
    assert (He : held 245 false S (here m) (g_term n) (g_expr n) (g_value n))
      by (eapply Z80Run.held_less; [apply held_arg; try assumption; discriminate|lia]).
    destruct (out16 S k st m false _ _ _ 1 SO R ltac:(lia) He Fi) as (st1 & E & Sp). exists st1. split; [exact E|]. eapply seq_one, Sp.
  - assert (c = Idx) as -> by (destruct ind, q; destruct c; try discriminate; reflexivity).
    destruct (suits_memory al Su) as (Im & Ni & Hi). cbn [operand_cells operand_fits] in *.
    assert (Pk : place_ok ind q).
    { destruct q as [r|r|r|r|r|c r|s n r|s n]; try exact Logic.I; try (destruct ind; [discriminate|reflexivity]).
      destruct s; try exact Logic.I. cbn [place_ok]. cbn [faulty String.eqb orb andb] in Fa. apply orb_false_iff in Fa. destruct Fa as (_ & Fa).
      apply negb_false_iff in Fa. split; [exact Fa|]. split; [|exact Fi].
      exact (proj2 (facts _ _ _ _ _ _ SO Nk (or_introl eq_refl)) Fa). }
    destruct (place_out S k st m ind q (am_expr junk) SO R Nk Fi Fa Pk) as (Mo & Na & G).
    set (a := AMode (Z.lor (fst (place_mode ind q)) (mode_bit ind)) (if ind then Z.lor (snd (place_mode ind q)) 0x10 else snd (place_mode ind q))
                (place_expr q (am_expr junk))) in *.
    exists a. rewrite (chosen_other _ a) by exact Na. split; [|split; [exact Mo|exact G]].
    intro st0. destruct ind.
    + cbn [lex map app lex1]. cbn [m6809_ParseAddressingMode]. rewrite Hi. fold (lex (place_text (place_map g_expr q) ++ [Rb])).
      unfold lex at 1. rewrite map_app, <- app_assoc. fold (lex (place_text (place_map g_expr q))). cbn [map lex1 app].
      rewrite (place_read MODE_ALLOWED_INDIRECT q junk (TRb :: rest) st0 ltac:(unfold memory_modes; cbn; tauto) Pk Logic.I). cbn [am_mode].
      change (MODE_ALLOWED_INDIRECT =? MODE_ALLOWED_INDIRECT) with true.
      assert (Hm : has (fst (place_mode true q)) (MODE_ADDRESS + MODE_EXTENDED) = false).
      { destruct q as [r|r|r|r|r|[] r|s n r|[] n]; try reflexivity. cbn [place_mode]. destruct (offset_width true s (g_value n)); reflexivity. }
      rewrite Hm. reflexivity.
    + pose proof (plain_text (place_map g_expr q)) as Pt.
      pose proof (place_read al q junk rest st0 Im) as Pr. cbv zeta in Pr. rewrite Ni in Pr. specialize (Pr Pk Ns).
      assert (Eq : a = AMode (fst (place_mode false q)) (snd (place_mode false q)) (place_expr q (am_expr junk)))
        by (subst a; cbn [mode_bit]; rewrite Z.lor_0_r; reflexivity).
      rewrite Eq, <- Pr. unfold m6809_ParseAddressingMode.
      assert (Ne : lex (place_text (place_map g_expr q)) <> []) by (destruct q as [r|r|r|r|r|[] r|[] n r|[] n]; discriminate).
      destruct (lex (place_text (place_map g_expr q))) as [|[] t]; try reflexivity; [congruence|destruct Pt].
  - assert (c = Idx) as -> by (destruct c; try discriminate; reflexivity).
    destruct (suits_memory al Su) as (Im & Ni & Hi). cbn [operand_cells operand_fits] in *.
    destruct (Nk n false (or_introl eq_refl)) as (O & So & D & _).
    destruct (facts _ _ _ _ _ _ SO Nk (or_introl eq_refl)) as (Nn & _).
    exists (AMode (MODE_EXTENDED_INDIRECT + MODE_INDIRECT_MODIFIER) 0x9F (g_expr n)). rewrite chosen_other by discriminate. split.
    { intro st0. destruct far; cbn [lex map app lex1 m6809_ParseAddressingMode]; rewrite Hi.
      - rewrite (read_far junk MODE_ALLOWED_INDIRECT (g_expr n) (TRb :: rest) st0 eq_refl eq_refl Logic.I). reflexivity.
      - rewrite (read_address junk MODE_ALLOWED_INDIRECT (g_expr n) (TRb :: rest) st0 eq_refl eq_refl Nn Logic.I). reflexivity. }
    split; [repeat split; vm_compute; congruence|]. apply (idx_16 S k st m SO R); try assumption; reflexivity.
  - destruct c as [| | | | | | | |q|]; try discriminate. cbn [belongs] in Be. apply andb_prop in Be. destruct Be as (B1 & B2).
    assert (Q : q = U \/ q = M6809Spec.S) by (destruct q; try discriminate; tauto).
    assert (Nl : l <> []) by (destruct l; [discriminate|congruence]).
    assert (Na : match lex (regs_text l) ++ rest with TLb :: _ | THash :: _ => False | _ => True end)
      by (destruct l as [|r [|r' l']]; [congruence| |]; cbn [regs_text lex map app]; rewrite lex_reg; exact Logic.I).
    assert (Rd : forall st0, register_list (reg_token q) (other q) 0 (lex (regs_text l) ++ rest) st0 = (stack_byte l, rest, st0)).
    { intro st0. rewrite <- (stack_byte_is q l Q B2). apply list_read; assumption. }
    exists (AMode (Z.land al LISTS) (stack_byte l) (am_expr junk)).
    assert (Md : Z.land al LISTS <> MODE_ADDRESS) by (destruct Q as [-> | ->]; cbn [suits] in Su; apply Z.eqb_eq in Su; subst al; vm_compute; discriminate).
    split.
    { intro st0. specialize (Rd st0). unfold m6809_ParseAddressingMode, parse_mode. fold LISTS.
      destruct Q as [-> | ->]; cbn [suits] in Su; apply Z.eqb_eq in Su; subst al;
        [change (has (MODE_IMMEDIATE + MODE_REGISTER_LIST_U) LISTS) with true; change (has (MODE_IMMEDIATE + MODE_REGISTER_LIST_U) MODE_REGISTER_LIST_S) with false
        |change (has (MODE_IMMEDIATE + MODE_REGISTER_LIST_S) LISTS) with true; change (has (MODE_IMMEDIATE + MODE_REGISTER_LIST_S) MODE_REGISTER_LIST_S) with true];
        cbn [reg_token other] in Rd; cbv iota;
        destruct (lex (regs_text l) ++ rest) as [|[] t]; try destruct Na; rewrite Rd; reflexivity. }
    rewrite (chosen_other (page_base p) (AMode (Z.land al LISTS) (stack_byte l) (am_expr junk)) Md). split; [exact Logic.I|].
    cbn [operand_out am_post operand_cells].
    destruct (out_byte S k st m (stack_byte l) 2 SO R ltac:(lia)) as (st1 & E & Sp). exists st1. split; [exact E|]. eapply seq_one, Sp.
  - destruct c; try discriminate. congruence.
Qed.
Lemma transfer_reg : forall r ts, parseExgRegister (TId (reg_token r) :: ts) = transfer_code r.
Proof. intros [] ts; reflexivity. Qed.
Lemma transfer_done : forall S k st m a b rest, setting_ok S (here m) -> ready st k m 3 ->
  belongs None (@Pair arg a b) Transfer = true ->
  exists st', (forall base s0, sect_OutputConst8 base s0 = Ok st ->
      handleRegToReg base (TId (reg_token a) :: TComma :: TId (reg_token b) :: rest) s0 = Ok (true, rest, st')) /\
    emits_seq S k st st' (operand_cells (@Pair arg a b) Transfer (e_pc (s_env S))).
Proof.
  intros S k st m a b rest SO R Be.
  destruct (out_byte S k st m (16 * transfer_code a + transfer_code b) 2 SO R ltac:(lia)) as (st1 & E & Sp). exists st1.
  split; [|eapply seq_one, Sp]. intros base s0 E0. unfold handleRegToReg. rewrite E0. cbn [bind]. rewrite !transfer_reg.
  assert (N : forall r, (transfer_code r =? 15) = false) by (intros []; reflexivity). rewrite !N.
  assert (W : (Z.land (transfer_code a) 8 =? Z.land (transfer_code b) 8) = true) by (destruct a, b; try discriminate; reflexivity).
  assert (V : Z.lor (Z.shiftl (transfer_code a) 4) (transfer_code b) = 16 * transfer_code a + transfer_code b) by (destruct a, b; reflexivity).
  rewrite W, V, E. reflexivity.
Qed.
Theorem encoded : forall S k st m p name cols c code f rest junk,
  ready st k m 8 -> setting_ok S (here m) -> numbers_known S (here m) f c ->
  In (name, cols) table -> In (c, code) cols -> belongs p f c = true -> faulty name f = false ->
  operand_fits f c (e_pc (s_env S) + zlen code) -> ends rest ->
  exists b st', m6809_ParseInstruction (s_F S) (page_base p) junk (lex (Word name :: text (form_map g_expr f)) ++ rest) st =
      Ok (b, page_base p, rest, st') /\
    emits_seq S k st st' (encoding f c code (e_pc (s_env S))).
Proof.
  intros S k st m p name cols c code f rest junk R SO Nk It Ic Be Fa Fi En.
  unfold faulty in Fa. apply orb_false_iff in Fa. destruct Fa as (Fa & Ff). apply orb_false_iff in Fa. destruct Fa as (N1 & N2).
  apply String.eqb_neq in N1, N2.
  destruct (in_table _ _ _ _ It Ic N1 N2) as (t & base & al & h & At_ & Rt & Nt & Ob & Su).
  assert (Fa : faulty "" f = false) by (unfold faulty; cbn [String.eqb orb]; exact Ff).
  assert (Lc : zlen code <= 2).
  { clear - Ob. unfold opbytes in Ob. destruct h, c; cbn [option_map] in Ob; try discriminate; injection Ob as <-; vm_compute; discriminate. }
  assert (Lc0 : 0 <= zlen code) by (unfold zlen; lia).
  destruct (out_bytes code S k st m 3 (operand_cells f c (e_pc (s_env S) + zlen code)) SO) as (st1 & m1 & E1 & R1 & S1 & G);
    [apply (X65Run.ready_less _ _ _ _ _ R); lia|lia|].
  pose proof (numbers_moved S (here m) (here m1) (zlen code) f c Nk) as Nk1.
  assert (Dir_ : forall s b, ends rest -> (if b : bool then Ok (true, page_base p, rest, s) else Ok (m6809_ParseDirective (page_base p) rest s)) =
    Ok (b, page_base p, rest, s)).
  { intros s b E. destruct b; [reflexivity|]. destruct rest as [|[] rest]; try destruct E; reflexivity. }
  assert (Fin : forall b st', m6809_ParseIntegerInstruction (s_F S) (page_base p) junk (lex (Word name :: text (form_map g_expr f)) ++ rest) st =
      Ok (b, rest, st') -> emits_seq (moved (zlen code) S) k st1 st' (operand_cells f c (e_pc (s_env S) + zlen code)) ->
    exists b st', m6809_ParseInstruction (s_F S) (page_base p) junk (lex (Word name :: text (form_map g_expr f)) ++ rest) st =
      Ok (b, page_base p, rest, st') /\ emits_seq S k st st' (encoding f c code (e_pc (s_env S)))).
  { intros b st' E Em. exists b, st'. unfold m6809_ParseInstruction. rewrite E. cbn [bind]. rewrite (Dir_ st' b En). split; [reflexivity|]. apply G, Em. }
  cbn [lex map app] in Fin |- *. cbn [lex1] in Fin |- *. fold (lex (text (form_map g_expr f))) in Fin |- *. rewrite At_ in Fin |- *.
  unfold m6809_ParseIntegerInstruction in Fin.
  replace ((T_6809_ABX <=? t) && (t <=? T_6809_NOP)) with true in Fin by lia. rewrite Nt in Fin.
  destruct (match c with Transfer => true | _ => false end) eqn:Tc.
  - destruct c; try discriminate. destruct f as [| | | | |[] []| | |a b]; try discriminate.
    cbn [suits] in Su. apply Z.eqb_eq in Su. subst al.
    destruct (transfer_done (moved (zlen code) S) k st1 m1 a b rest S1 R1 Be) as (st2 & E2 & Em2).
    apply (Fin true st2); [|exact Em2].
    unfold opbytes in Ob. destruct h; try discriminate. injection Ob as <-. cbn [outbytes] in E1.
    destruct (sect_OutputConst8 base st) as [s| |] eqn:Es; try discriminate. cbn [bind] in E1. injection E1 as ->.
    cbn [form_map text lex map]. rewrite !lex_reg. cbn [lex1 app].
    change (m6809_ParseAddressingMode junk MODE_NONE (TId (reg_token a) :: TComma :: TId (reg_token b) :: rest) st)
      with (true, set_expr ENull junk, TId (reg_token a) :: TComma :: TId (reg_token b) :: rest, st).
    cbv beta iota. cbn [apply_handler]. apply E2, Es.
  - assert (Nc : c <> Transfer) by (intros ->; discriminate).
    destruct (operand_done (moved (zlen code) S) k st1 m1 p f c al rest junk S1 R1 Nk1 Be Su Fi Fa En Nc) as (a & Pa & Mo & st2 & E2 & Em2).
    specialize (Pa st). rewrite Pa in Fin. cbv beta iota in Fin.
    destruct (handler_out (s_F S) h base c code (chosen (page_base p) a) rest st st2 Ob Mo Nc) as (b & Eh); [rewrite E1; exact E2|].
    apply (Fin b st2 Eh). exact Em2.
Qed.
