(** Proofs about the 680x0 instruction parser: what the handlers enter. *)
From Coq Require Import String ZArith List Bool Lia ZifyBool.
From Verif Require Import Base BaseFacts Arith ArithProofs ExprSpec ExprModel ExprLayout ExprTree ExprProofs ObjWriteModel OptModel
  SectModel SectSpec SectProofs InstrSpec InstrProofs.
From Verif Require X65Proofs X65Run Z80Run M6809Proofs.
From Verif Require Import X65Spec M68kModel M68kSpec M68kProofs M68kEa M68kFull M68kParse M68kModes M68kShapes M68kParen M68kOperand M68kHandlers.
Import ListNotations.
Open Scope string_scope.
Open Scope list_scope.
Open Scope Z_scope.

(** Computing what the fields say, up to the operands. *)
Ltac fields_of := lazy beta iota zeta delta [decode_fields line_0 line_4 line_5 line_7 line_8 line_11 line_12 line_14 move special with_extend dyadic extend
  to_data sized_one only_if data memory alterable control is_data is_memory is_alterable is_control byte_areg size_eqb size_of_field
  bit_name shift_name condition conditions low_byte
  andb orb negb Z.eqb Pos.eqb Z.ltb Z.leb Z.compare Pos.compare Pos.compare_cont Z.modulo Z.div Z.div_eucl Z.pos_div_eucl Z.sub Z.opp Z.pos_sub
  Z.to_nat Pos.to_nat Pos.iter_op Nat.add nth Z.succ_double Z.pred_double Z.double Z.mul Pos.mul Z.add Pos.add Pos.succ Pos.pred_double fst snd].
Lemma ea_here : forall new mc pc mode reg ws s f p rest, effective new mc s mode reg (pc + 2) ws = Some (p, rest) ->
  ea new mc pc mode reg ws s ws f = Some (f p, rest).
Proof. intros new mc pc mode reg ws s f p rest E. unfold ea. rewrite after_first, E. reflexivity. Qed.
Definition dalt : list Z := [0; 2; 3; 4; 5; 6].
Definition malt : list Z := [2; 3; 4; 5; 6].
Ltac by_mode M E := unfold mode_set, dalt, malt in M; cbn [In] in M;
  repeat match type of M with _ \/ _ => destruct M as [M|M] end; try (destruct M as (? & M); repeat match type of M with _ \/ _ => destruct M as [M|M] end);
  try contradiction; subst.
Definition code (s : size) : Z := match s with SB => 1 | SW => 2 | SL => 4 end.
Definition field (s : size) : Z := match s with SB => 0 | SW => 1 | SL => 2 end.
Lemma size_field : forall s, getSizeField (code s) = Some (field s).
Proof. intros []; reflexivity. Qed.
Ltac ranges := try lia.

(** *** One operand *)
(** Instructions that are one word with an effective address: the word, the size of the
    operand, its modes, and what it does. *)
Definition one_ok (new : bool) (op : Z) (s : size) (modes sevens : list Z) (act : place -> action) : Prop :=
  exists h r m, op = h * 4096 + r * 512 + m * 64 /\ 0 <= h < 16 /\ 0 <= r < 8 /\ 0 <= m < 8 /\
  forall mc pc mode reg ws p rest, mode_set modes sevens mode reg -> effective new mc s mode reg (pc + 2) ws = Some (p, rest) ->
    decode_fields new mc pc r m mode reg ws h = Some (act p, rest).
Ltac one_op h r m := exists h, r, m; split; [reflexivity|]; split; [lia|]; split; [lia|]; split; [lia|];
  intros mc pc0 mode reg ws p rest Ms E; by_mode Ms E; fields_of; rewrite ?orb_true_r, ?andb_false_r; rewrite (ea_here _ _ _ _ _ _ _ _ _ _ E); reflexivity.
Lemma one_clr : forall new op name s, In (op, name) [(0x4200, "CLR"); (0x4400, "NEG"); (0x4000, "NEGX"); (0x4600, "NOT")] ->
  one_ok new (op + field s * 64) s dalt [0; 1] (fun p => Act name (Some s) [p]).
Proof.
  intros new op name s H. cbn [In] in H. destruct H as [H|[H|[H|[H|[]]]]]; injection H as <- <-; destruct s.
  - one_op 4 1 0. - one_op 4 1 1. - one_op 4 1 2. - one_op 4 2 0. - one_op 4 2 1. - one_op 4 2 2.
  - one_op 4 0 0. - one_op 4 0 1. - one_op 4 0 2. - one_op 4 3 0. - one_op 4 3 1. - one_op 4 3 2.
Qed.
Lemma one_tst : forall new s, one_ok new (0x4A00 + field s * 64) s dalt (if new then [0; 1; 2; 3; 4] else [0; 1]) (fun p => Act "TST" (Some s) [p]).
Proof.
  intros new s. destruct new, s; first [one_op 4 5 0 | one_op 4 5 1 | one_op 4 5 2].
Qed.
Lemma one_nbcd : forall new, one_ok new 0x4800 SB dalt [0; 1] (fun p => Act "NBCD" (Some SB) [p]).
Proof. intro new. one_op 4 4 0. Qed.
Lemma one_tas : forall new, one_ok new 0x4AC0 SB dalt [0; 1] (fun p => Act "TAS" (Some SB) [p]).
Proof. intro new. one_op 4 5 3. Qed.
Lemma one_pea : forall new, one_ok new 0x4840 SL [2; 5; 6] [0; 1; 2; 3] (fun p => Act "PEA" (Some SL) [p]).
Proof. intro new. one_op 4 4 1. Qed.
Lemma one_jmp : forall new, one_ok new 0x4EC0 SL [2; 5; 6] [0; 1; 2; 3] (fun p => Act "JMP" None [p]).
Proof. intro new. one_op 4 7 3. Qed.
Lemma one_jsr : forall new, one_ok new 0x4E80 SL [2; 5; 6] [0; 1; 2; 3] (fun p => Act "JSR" None [p]).
Proof. intro new. one_op 4 7 2. Qed.
Lemma one_scc : forall new c, In c [0; 1; 2; 3; 4; 5; 6; 7; 8; 9; 10; 11; 12; 13; 14; 15] ->
  one_ok new (0x50C0 + c * 256) SB dalt [0; 1] (fun p => Act (String.append "S" (condition c)) (Some SB) [p]).
Proof.
  intros new c H. cbn [In] in H. repeat (destruct H as [<-|H]; [|]); [..|destruct H].
  all: match goal with |- one_ok _ (_ + ?c * _) _ _ _ _ => let r := eval vm_compute in (c / 2) in let m := eval vm_compute in (c mod 2 * 4 + 3) in one_op 5 r m end.
Qed.
Lemma one_shift : forall new mem name, In (mem, name) [(0xE1C0, "ASL"); (0xE0C0, "ASR"); (0xE3C0, "LSL"); (0xE2C0, "LSR"); (0xE7C0, "ROL"); (0xE6C0, "ROR"); (0xE5C0, "ROXL"); (0xE4C0, "ROXR")] ->
  one_ok new mem SW malt [0; 1] (fun p => Act name (Some SW) [p]).
Proof.
  intros new mem name H. cbn [In] in H. repeat (destruct H as [H|H]; [injection H as <- <-|]); [..|destruct H].
  - one_op 14 0 7. - one_op 14 0 3. - one_op 14 1 7. - one_op 14 1 3. - one_op 14 3 7. - one_op 14 3 3. - one_op 14 2 7. - one_op 14 2 3.
Qed.
(** With a register in the first word. *)
Definition any_modes (s : size) : list Z := match s with SB => dalt | _ => [0; 1; 2; 3; 4; 5; 6] end.
Definition sevens : list Z := [0; 1; 2; 3; 4].
Ltac reg_op h r m := exists h, r, m; split; [lia|]; split; [lia|]; split; [lia|]; split; [lia|];
  intros mc pc0 mode reg ws p rest Ms E; unfold any_modes, sevens in Ms; by_mode Ms E; fields_of; rewrite ?orb_true_r, ?andb_false_r;
  rewrite (ea_here _ _ _ _ _ _ _ _ _ _ E); reflexivity.
Lemma to_dn : forall new h name s n, In (h, name) [(13, "ADD"); (9, "SUB"); (11, "CMP")] -> 0 <= n <= 7 ->
  one_ok new (h * 4096 + n * 512 + field s * 64) s (any_modes s) sevens (fun p => Act name (Some s) [p; InD n]).
Proof.
  intros new h name s n H N. cbn [In] in H. destruct H as [H|[H|[H|[]]]]; injection H as <- <-; destruct s; cbn [field].
  - reg_op 13 n 0. - reg_op 13 n 1. - reg_op 13 n 2. - reg_op 9 n 0. - reg_op 9 n 1. - reg_op 9 n 2. - reg_op 11 n 0. - reg_op 11 n 1. - reg_op 11 n 2.
Qed.
Lemma data_to_dn : forall new h name s n, In (h, name) [(12, "AND"); (8, "OR")] -> 0 <= n <= 7 ->
  one_ok new (h * 4096 + n * 512 + field s * 64) s dalt sevens (fun p => Act name (Some s) [p; InD n]).
Proof.
  intros new h name s n H N. cbn [In] in H. destruct H as [H|[H|[]]]; injection H as <- <-; destruct s; cbn [field].
  - reg_op 12 n 0. - reg_op 12 n 1. - reg_op 12 n 2. - reg_op 8 n 0. - reg_op 8 n 1. - reg_op 8 n 2.
Qed.
Lemma from_dn : forall new h name s n, In (h, name) [(13, "ADD"); (9, "SUB"); (12, "AND"); (8, "OR")] -> 0 <= n <= 7 ->
  one_ok new (h * 4096 + n * 512 + (4 + field s) * 64) s malt [0; 1] (fun p => Act name (Some s) [InD n; p]).
Proof.
  intros new h name s n H N. cbn [In] in H. destruct H as [H|[H|[H|[H|[]]]]]; injection H as <- <-; destruct s; cbn [field].
  - reg_op 13 n 4. - reg_op 13 n 5. - reg_op 13 n 6. - reg_op 9 n 4. - reg_op 9 n 5. - reg_op 9 n 6.
  - reg_op 12 n 4. - reg_op 12 n 5. - reg_op 12 n 6. - reg_op 8 n 4. - reg_op 8 n 5. - reg_op 8 n 6.
Qed.
Lemma eor_dn : forall new s n, 0 <= n <= 7 ->
  one_ok new (11 * 4096 + n * 512 + (4 + field s) * 64) s dalt [0; 1] (fun p => Act "EOR" (Some s) [InD n; p]).
Proof. intros new s n N. destruct s; cbn [field]. - reg_op 11 n 4. - reg_op 11 n 5. - reg_op 11 n 6. Qed.
Definition wl_field (s : size) : Z := match s with SW => 3 | _ => 7 end.
Lemma to_an : forall new h name s n, In (h, name) [(13, "ADD"); (9, "SUB"); (11, "CMP")] -> s <> SB -> 0 <= n <= 7 ->
  one_ok new (h * 4096 + n * 512 + wl_field s * 64) s (any_modes s) sevens (fun p => Act name (Some s) [p; InA n]).
Proof.
  intros new h name s n H Ns N. cbn [In] in H. destruct H as [H|[H|[H|[]]]]; injection H as <- <-; destruct s; try congruence; cbn [wl_field].
  - reg_op 13 n 3. - reg_op 13 n 7. - reg_op 9 n 3. - reg_op 9 n 7. - reg_op 11 n 3. - reg_op 11 n 7.
Qed.
Lemma muldiv_w : forall new op name n, In (op, name) [(0xC0C0, "MULU"); (0xC1C0, "MULS"); (0x80C0, "DIVU"); (0x81C0, "DIVS")] -> 0 <= n <= 7 ->
  one_ok new (op + n * 512) SW dalt sevens (fun p => Act name (Some SW) [p; InD n]).
Proof.
  intros new op name n H N. cbn [In] in H. destruct H as [H|[H|[H|[H|[]]]]]; injection H as <- <-.
  - reg_op 12 n 3. - reg_op 12 n 7. - reg_op 8 n 3. - reg_op 8 n 7.
Qed.
Lemma chk_dn : forall new s n, s <> SB -> (s = SL -> new = true) -> 0 <= n <= 7 ->
  one_ok new (4 * 4096 + n * 512 + (match s with SW => 6 | _ => 4 end) * 64) s dalt sevens (fun p => Act "CHK" (Some s) [p; InD n]).
Proof.
  intros new s n Ns Nw N. destruct s; [congruence|reg_op 4 n 6|]. rewrite (Nw eq_refl). reg_op 4 n 4.
Qed.
Lemma lea_an : forall new n, 0 <= n <= 7 -> one_ok new (4 * 4096 + n * 512 + 7 * 64) SL [2; 5; 6] [0; 1; 2; 3] (fun p => Act "LEA" None [p; InA n]).
Proof. intros new n N. reg_op 4 n 7. Qed.
Lemma bit_dn : forall new d name n, In (d, name) [(0, "BTST"); (0x40, "BCHG"); (0x80, "BCLR"); (0xC0, "BSET")] -> 0 <= n <= 7 ->
  one_ok new (0x100 + d + n * 512) SB dalt [0; 1] (fun p => Act name None [InD n; p]).
Proof.
  intros new op name n H N. cbn [In] in H. destruct H as [H|[H|[H|[H|[]]]]]; injection H as <- <-.
  - reg_op 0 n 4. - reg_op 0 n 5. - reg_op 0 n 6. - reg_op 0 n 7.
Qed.
Lemma quick_ea : forall new up name s n, In (up, name) [(0, "ADD"); (4, "SUB")] -> 0 <= n <= 7 ->
  one_ok new (5 * 4096 + n * 512 + (up + field s) * 64) s (any_modes s) [0; 1] (fun p => Act name (Some s) [Val (eight n); p]).
Proof.
  intros new up name s n H N. cbn [In] in H. destruct H as [H|[H|[]]]; injection H as <- <-; destruct s; cbn [field].
  - reg_op 5 n 0. - reg_op 5 n 1. - reg_op 5 n 2. - reg_op 5 n 4. - reg_op 5 n 5. - reg_op 5 n 6.
Qed.
Lemma movea_an : forall new s n, s <> SB -> 0 <= n <= 7 ->
  one_ok new ((match s with SW => 3 | _ => 2 end) * 4096 + n * 512 + 64) s (any_modes s) sevens (fun p => Act "MOVE" (Some s) [p; InA n]).
Proof.
  intros new s n Ns N. destruct s; [congruence| |].
  - exists 3, n, 1. split; [lia|]. split; [lia|]. split; [lia|]. split; [lia|]. intros mc pc0 mode reg ws p rest Ms E.
    change (decode_fields new mc pc0 n 1 mode reg ws 3) with
      (match effective new mc SW mode reg (pc0 + 2) ws with None => None | Some (p, l) => Some (Act "MOVE" (Some SW) [p; InA n], l) end).
    rewrite E. reflexivity.
  - exists 2, n, 1. split; [lia|]. split; [lia|]. split; [lia|]. split; [lia|]. intros mc pc0 mode reg ws p rest Ms E.
    change (decode_fields new mc pc0 n 1 mode reg ws 2) with
      (match effective new mc SL mode reg (pc0 + 2) ws with None => None | Some (p, l) => Some (Act "MOVE" (Some SL) [p; InA n], l) end).
    rewrite E. reflexivity.
Qed.

(** An immediate operand before the other one. *)
Definition imm_ok (new : bool) (r : Z) (s : size) (modes svs : list Z) (name : string) : Prop :=
  forall mc pc mode reg ws v l p rest, mode_set modes svs mode reg -> immediate_data s ws = Some (v, l) ->
    effective new mc s mode reg (after pc ws l) l = Some (p, rest) ->
    decode_fields new mc pc r (field s) mode reg ws 0 = Some (Act name (Some s) [v; p], rest).
Lemma imm_names : forall new r name s, In (r, name) [(0, "OR"); (1, "AND"); (2, "SUB"); (3, "ADD"); (5, "EOR")] -> imm_ok new r s dalt [0; 1] name.
Proof.
  intros new r name s H mc pc mode reg ws v l p rest Ms E1 E2. cbn [In] in H.
  destruct H as [H|[H|[H|[H|[H|[]]]]]]; injection H as <- <-; destruct s; cbn [field]; by_mode Ms E1; fields_of; unfold imm, ea; rewrite E1, E2; reflexivity.
Qed.
Lemma imm_cmp : forall new s, imm_ok new 6 s dalt (if new then [0; 1; 2; 3] else [0; 1]) "CMP".
Proof.
  intros new s mc pc mode reg ws v l p rest Ms E1 E2.
  destruct new, s; cbn [field]; by_mode Ms E1; fields_of; unfold imm, ea; rewrite E1, E2; reflexivity.
Qed.
Definition imm_mid (F : fmath) (size : Z) (e : expr) (st1 : xstate) : res xstate :=
  if size =? SIZE_BYTE then
    let! (e1, st2) := m68k_ExpressionCheck8Bit e st1 in
    let! e2 := expr_And F e1 0xFF in sect_OutputExpr16 e2 st2
  else if size =? SIZE_WORD then
    let! (e1, st2) := m68k_ExpressionCheck16Bit e st1 in sect_OutputExpr16 e1 st2
  else sect_OutputExpr32 e st1.
Definition imm_n (s : size) : nat := match s with SL => 4%nat | _ => 2%nat end.
Definition imm_v (s : size) (v : Z) : Z := match s with SB => v mod 256 | _ => v end.
Lemma imm_stage : forall S0 fl k s a st1 m1, argh S0 a -> imm_fits s (g_value a) -> good fl S0 k st1 m1 22 ->
  exists st2 m2, imm_mid (s_F S0) (code s) (g_expr a) st1 = Ok st2 /\ emits S0 k st1 st2 [(imm_n s, g_term a, imm_v s (g_value a))] /\
    good fl (moved (Z.of_nat (imm_n s)) S0) k st2 m2 18.
Proof.
  intros S0 fl k s a st1 m1 H V G. pose proof G as (SO & _). pose proof (argh_now _ (here m1) a H) as Nw. set (v := g_value a) in *.
  unfold imm_mid. destruct s; cbn [imm_fits code imm_n imm_v] in *.
  - change (1 =? SIZE_BYTE) with true. cbv iota.
    destruct (now_checked 240 _ (here m1) _ _ v (-128) 255 st1 SO Nw ltac:(lia) ltac:(unfold is_s32; lia) ltac:(unfold is_s32; lia) V) as (e1 & E1 & N1).
    unfold m68k_ExpressionCheck8Bit. rewrite E1. cbn [bind].
    destruct (now_bin (240 + 2) S0 (here m1) OpAnd _ e1 v 255 (v mod 256) SO N1 ltac:(lia) ltac:(unfold is_s32; lia)) as (e2 & E2 & N2).
    { left. reflexivity. } { cbn [op_meaning]. rewrite land_255. reflexivity. }
    unfold expr_And. rewrite E2. cbn [bind].
    destruct (good_expr16 fl S0 k st1 m1 (240 + 2 + 1) _ e2 _ 20 G ltac:(lia) N2 ltac:(lia)) as (st2 & m2 & E3 & Em & G2).
    exists st2, m2. split; [exact E3|]. split; [exact Em|]. apply (good_less _ _ _ _ _ _ _ G2). lia.
  - change (2 =? SIZE_BYTE) with false. change (2 =? SIZE_WORD) with true. cbv iota.
    destruct (now_checked 240 _ (here m1) _ _ v (-32768) 65535 st1 SO Nw ltac:(lia) ltac:(unfold is_s32; lia) ltac:(unfold is_s32; lia) V) as (e1 & E1 & N1).
    unfold m68k_ExpressionCheck16Bit. rewrite E1. cbn [bind].
    destruct (good_expr16 fl S0 k st1 m1 (240 + 2) _ e1 _ 20 G ltac:(lia) N1 ltac:(lia)) as (st2 & m2 & E3 & Em & G2).
    exists st2, m2. split; [exact E3|]. split; [exact Em|]. apply (good_less _ _ _ _ _ _ _ G2). lia.
  - change (4 =? SIZE_BYTE) with false. change (4 =? SIZE_WORD) with false. cbv iota.
    destruct (good_expr32 fl S0 k st1 m1 240 _ (g_expr a) _ 18 G ltac:(lia) Nw ltac:(lia)) as (st2 & m2 & E3 & Em & G2).
    exists st2, m2. split; [exact E3|]. split; [exact Em|exact G2].
Qed.
Lemma imm_data : forall s t v ws, immediate_data s (words [(imm_n s, t, imm_v s v)] ++ ws) = Some (Val (v mod 2 ^ bits s), ws).
Proof.
  intros s t v ws. destruct s; cbn [imm_n imm_v words Nat.eqb app immediate_data bits].
  - assert (E : word (v mod 256) mod 256 = v mod 2 ^ 8) by (unfold word; change (2 ^ 8) with 256; Z.div_mod_to_equations; lia).
    rewrite E. reflexivity.
  - reflexivity.
  - rewrite two_words. reflexivity.
Qed.
Lemma after_mid : forall pc l ws, after pc (l ++ ws) ws = pc + 2 + 2 * zlen l.
Proof. intros. unfold after, zlen. rewrite app_length. lia. Qed.
Lemma imm_len : forall s t v, 2 * zlen (words [(imm_n s, t, v)]) = Z.of_nat (imm_n s).
Proof. intros []; reflexivity. Qed.
Lemma orl3 : forall a f b x, Z.lor (orl [a; f; b]) x = Z.lor (orl [a; b; x]) f.
Proof.
  intros. unfold orl. cbn [fold_left]. rewrite !Z.lor_0_l. apply Z.bits_inj'. intros n _. rewrite !Z.lor_spec.
  destruct (Z.testbit a n), (Z.testbit f n), (Z.testbit b n), (Z.testbit x n); reflexivity.
Qed.
Lemma swap_fields : forall m r, 0 <= m <= 7 -> 0 <= r <= 7 -> Z.land (Z.lor ((m * 8 + r) / 8) ((m * 8 + r) * 8)) 0x3F = r * 8 + m.
Proof.
  intros m r M R. assert (Hm : reg_ok m = true) by (unfold reg_ok; lia). assert (Hr : reg_ok r = true) by (unfold reg_ok; lia).
  each_reg m Hm; each_reg r Hr; reflexivity.
Qed.
Lemma fields_cany : forall new s o mode reg, in_class new s CAny o = true -> fields o mode reg -> mode_set (any_modes s) sevens mode reg.
Proof.
  intros new s o mode reg C Fi. unfold in_class in C. apply andb_true_iff in C. destruct C as (_ & C).
  destruct s; [apply (fields_noreg o); [exact Fi|destruct o; try reflexivity; discriminate C]|apply (fields_any o), Fi|apply (fields_any o), Fi].
Qed.
Lemma fields_calt : forall new s o mode reg, in_class new s CAlt o = true -> fields o mode reg -> mode_set (any_modes s) [0; 1] mode reg.
Proof.
  intros new s o mode reg C Fi. unfold in_class in C. apply andb_true_iff in C. destruct C as (_ & C).
  assert (K : is_areg o = true /\ s <> SB \/ data_alterable o = true) by (destruct o; try (right; exact C); left; split; [reflexivity|destruct s; try discriminate; discriminate C]).
  destruct K as [(K & Ns)|K].
  - destruct o; try discriminate K. destruct Fi as (-> & _). left. destruct s; [congruence| |]; cbn; tauto.
  - destruct (fields_dalt o mode reg Fi K) as [X|X]; [|right; exact X]. left. destruct s; [exact X| |]; cbn in *; tauto.
Qed.

Section Handlers.
Variables (new : bool) (S0 : setting) (fl : bool) (k : nat) (st : xstate) (m0 : msect).
Hypothesis G : good fl S0 k st m0 24.
Notation F := (s_F S0).
Notation pc := (e_pc (s_env S0)).

Lemma h_one : forall l op s modes sevens act o md A, orl l = op -> one_ok new op s modes sevens act -> given new s S0 fl (opnd_args o) o md ->
  (forall mode reg, fields o mode reg -> mode_set modes sevens mode reg) -> incl (opnd_args o) A ->
  done new S0 fl k st A (outputOpcode F l md st) (fun mc => act (opnd_place mc s o)).
Proof.
  intros l op s modes sevens act o md A El (h & r & m & Eo & H & R & M & Dec) (K & N & mode & reg & Fi & Sh) Cl I.
  apply (done_ea new S0 fl k st m0 h r m l s _ _ A md mode reg _ _ G Sh); try assumption; [congruence|].
  intros mc ws rest E. apply Dec; [apply Cl, Fi|exact E].
Qed.
Lemma dn_facts : forall s n md, opd0 new s S0 (ODreg n) md -> a_direct md = n /\ 0 <= n <= 7 /\ reg_ok n = true /\ (a_mode md =? AM_DREG) = true.
Proof.
  intros s n md (Hok & D & K & _). cbn in Hok, D. split; [exact D|]. split; [apply reg_range, Hok|]. split; [exact Hok|]. apply (kind_tests _ _ K).
Qed.
Lemma an_facts : forall s n md, opd0 new s S0 (OAreg n) md -> a_direct md = n /\ 0 <= n <= 7 /\ reg_ok n = true /\ (a_mode md =? AM_DREG) = false /\ (a_mode md =? AM_AREG) = true.
Proof.
  intros s n md (Hok & D & K & _). cbn in Hok, D. split; [exact D|]. split; [apply reg_range, Hok|]. split; [exact Hok|]. destruct (kind_tests _ _ K) as (A & B & _). tauto.
Qed.
Ltac kinds_of H := let A := fresh "K" in pose proof (kind_tests _ _ (proj1 (proj2 (proj2 H)))) as A; destruct A as (?Kd & ?Ka & ?Ki & ?Kn & ?Kc & ?Ke).

(** *** Two operands *)
Lemma al_to_dn : forall h act modes s o1 n src dest A, one_ok new (h * 4096 + n * 512 + field s * 64) s modes sevens act -> In h [13; 9; 11; 12; 8] ->
  opd new s S0 fl o1 src -> opd0 new s S0 (ODreg n) dest -> (is_areg o1 = true -> s <> SB) ->
  (forall mode reg, fields o1 mode reg -> mode_set modes sevens mode reg) -> incl (opnd_args o1) A ->
  done new S0 fl k st A (handleArithmeticLogical F (h * 4096) (code s) src dest st) (fun mc => act (opnd_place mc s o1)).
Proof.
  intros h act modes s o1 n src dest A Ok1 Hh (O1 & G1) O2 Ns Cl I. destruct (dn_facts _ _ _ O2) as (Dd & N & Rn & Kd). kinds_of O1.
  unfold handleArithmeticLogical. rewrite Kd, Ka. 
  assert (E : is_areg o1 && negb (code s =? SIZE_WORD) && negb (code s =? SIZE_LONG) = false).
  { destruct (is_areg o1); [|reflexivity]. specialize (Ns eq_refl). destruct s; [congruence| |]; reflexivity. }
  rewrite E. unfold outputOpcodeSize. rewrite size_field, Dd.
  apply (h_one _ (h * 4096 + n * 512 + field s * 64) s modes sevens act); try assumption.
  clear -Hh Rn. cbn [In] in Hh. destruct Hh as [<-|[<-|[<-|[<-|[<-|[]]]]]]; destruct s; each_reg n Rn; reflexivity.
Qed.
Lemma al_from_dn : forall h name s n o2 src dest A, In (h, name) [(13, "ADD"); (9, "SUB"); (12, "AND"); (8, "OR")] ->
  opd0 new s S0 (ODreg n) src -> opd new s S0 fl o2 dest -> data_alterable o2 = true -> plain_reg o2 = false -> incl (opnd_args o2) A ->
  done new S0 fl k st A (handleArithmeticLogical F (h * 4096) (code s) src dest st) (fun mc => Act name (Some s) [InD n; opnd_place mc s o2]).
Proof.
  intros h name s n o2 src dest A Hh O1 (O2 & G2) C1 C2 I. destruct (dn_facts _ _ _ O1) as (Ds & N & Rn & Kd1). kinds_of O2.
  unfold handleArithmeticLogical. rewrite Kd, Kd1. replace (is_dreg o2) with false by (destruct o2; try reflexivity; discriminate C2).
  unfold outputOpcodeSize. rewrite size_field, Ds.
  apply (h_one _ (h * 4096 + n * 512 + (4 + field s) * 64) s malt [0; 1] (fun p => Act name (Some s) [InD n; p])); try assumption.
  - clear -Hh Rn. cbn [In] in Hh. destruct Hh as [H|[H|[H|[H|[]]]]]; injection H as <- _; destruct s; each_reg n Rn; reflexivity.
  - apply from_dn; assumption.
  - intros mode reg Fi. apply (fields_malt o2); assumption.
Qed.
Lemma eor_from_dn : forall s n o2 src dest A, opd0 new s S0 (ODreg n) src -> opd new s S0 fl o2 dest -> data_alterable o2 = true -> incl (opnd_args o2) A ->
  done new S0 fl k st A (handleEOR F (code s) src dest st) (fun mc => Act "EOR" (Some s) [InD n; opnd_place mc s o2]).
Proof.
  intros s n o2 src dest A O1 (O2 & G2) C I. destruct (dn_facts _ _ _ O1) as (Ds & N & Rn & _). kinds_of O1.
  unfold handleEOR. rewrite Ki. cbn [immediate]. unfold outputOpcodeSize. rewrite size_field, Ds.
  apply (h_one _ (11 * 4096 + n * 512 + (4 + field s) * 64) s dalt [0; 1] (fun p => Act "EOR" (Some s) [InD n; p])); try assumption.
  - clear -Rn. destruct s; each_reg n Rn; reflexivity.
  - apply eor_dn; assumption.
  - intros mode reg Fi. apply (fields_dalt o2); assumption.
Qed.
Lemma wl_is : forall s, s <> SB -> (if code s =? SIZE_WORD then 3 else 7) = wl_field s.
Proof. intros [] H; [congruence| |]; reflexivity. Qed.
Lemma a_not_quick : forall h name s o1 n src dest A l, In (h, name) [(13, "ADD"); (9, "SUB"); (11, "CMP")] -> s <> SB ->
  opd new s S0 fl o1 src -> opd0 new s S0 (OAreg n) dest -> in_class new s CAny o1 = true -> incl (opnd_args o1) A ->
  orl l = h * 4096 + n * 512 + wl_field s * 64 ->
  done new S0 fl k st A (outputOpcode F l src st) (fun mc => Act name (Some s) [opnd_place mc s o1; InA n]).
Proof.
  intros h name s o1 n src dest A l Hh Ns (O1 & G1) O2 C I El. destruct (an_facts _ _ _ O2) as (Dd & N & Rn & _).
  apply (h_one _ (h * 4096 + n * 512 + wl_field s * 64) s (any_modes s) sevens (fun p => Act name (Some s) [p; InA n])); try assumption.
  - apply to_an; assumption.
  - intros mode reg. apply (fields_cany new); assumption.
Qed.
(** *** Immediate operands *)
Lemma imm_two : forall K l r name s a o2 src dest A modes svs, orl l = r * 512 + field s * 64 -> 0 <= r < 8 -> imm_ok new r s modes svs name ->
  opd0 new s S0 (OImm a) src -> opd new s S0 fl o2 dest -> (forall mode reg, fields o2 mode reg -> mode_set modes svs mode reg) ->
  incl [a] A -> incl (opnd_args o2) A ->
  (forall st1, K st1 = let! st4 := imm_mid F (code s) (a_imm src) st1 in m68k_OutputExtensionWords F dest st4) ->
  done new S0 fl k st A (let! st1 := opword l dest st in K st1) (fun mc => Act name (Some s) [opnd_place mc s (OImm a); opnd_place mc s o2]).
Proof.
  intros K l r name s a o2 src dest A modes svs El R Im O1 (O2 & G2) Cl I1 I2 Ek.
  destruct O1 as (_ & Da & _ & Ga & V). cbn in Da. specialize (V a eq_refl). inversion Ga as [|? ? (H & _) _ E]; subst.
  destruct G2 as (_ & _ & mode & reg & Fi & Sh).
  apply (done_mid new S0 fl k st m0 0 r (field s) l s _ _ A dest mode reg _ _ K (imm_n s) (g_term a) (imm_v s (g_value a)) G Sh); try assumption; try lia.
  - destruct s; cbn; lia.
  - intros st1 m1 G1. destruct (imm_stage (moved 2 S0) fl k s a st1 m1 (argh_moved _ _ _ H) V G1) as (st2 & m2 & E2 & Em & G2).
    exists st2, m2. rewrite Ek, Da. change (s_F (moved 2 S0)) with F in E2. rewrite E2. split; [reflexivity|]. split; assumption.
  - destruct s; cbn; tauto.
  - right. apply src_arg. apply I1. left. reflexivity.
  - intros mc ws rest E. apply (Im mc pc mode reg _ _ ws); [apply Cl, Fi|apply imm_data|]. rewrite after_mid, imm_len. exact E.
Qed.
Lemma h_logical_i : forall r name s a o2 src dest A, In (r, name) [(0, "OR"); (1, "AND"); (2, "SUB"); (3, "ADD"); (5, "EOR")] ->
  opd0 new s S0 (OImm a) src -> opd new s S0 fl o2 dest -> data_alterable o2 = true -> incl [a] A -> incl (opnd_args o2) A ->
  done new S0 fl k st A (handleArithmeticLogicalI F (r * 512) (code s) src dest st) (fun mc => Act name (Some s) [opnd_place mc s (OImm a); opnd_place mc s o2]).
Proof.
  intros r name s a o2 src dest A Hr O1 O2 C I1 I2.
  assert (X : forall l K, orl l = r * 512 + field s * 64 -> (forall st1, K st1 = let! st4 := imm_mid F (code s) (a_imm src) st1 in m68k_OutputExtensionWords F dest st4) ->
    done new S0 fl k st A (let! st1 := opword l dest st in K st1) (fun mc => Act name (Some s) [opnd_place mc s (OImm a); opnd_place mc s o2])).
  { intros l K El Ek. apply (imm_two K l r name s a o2 src dest A dalt [0; 1]); try assumption.
    - cbn [In] in Hr. intuition; match goal with H : (_, _) = _ |- _ => injection H as <- _ end; lia.
    - apply imm_names, Hr.
    - intros mode reg Fi. apply (fields_dalt o2); assumption. }
  unfold handleArithmeticLogicalI. destruct s; cbn [code]; cbn [Z.eqb Pos.eqb SIZE_BYTE SIZE_WORD].
  - apply X; [clear -Hr; cbn [In] in Hr; destruct Hr as [H|[H|[H|[H|[H|[]]]]]]; injection H as <- _; reflexivity|].
    intro st1. unfold imm_mid. cbn [code Z.eqb Pos.eqb SIZE_BYTE].
    destruct (m68k_ExpressionCheck8Bit (a_imm src) st1) as [(e, st2)| |]; try reflexivity. cbn [bind].
    destruct (expr_And F e 255); reflexivity.
  - apply X; [clear -Hr; cbn [In] in Hr; destruct Hr as [H|[H|[H|[H|[H|[]]]]]]; injection H as <- _; reflexivity|].
    intro st1. unfold imm_mid. cbn [code Z.eqb Pos.eqb SIZE_BYTE SIZE_WORD].
    destruct (m68k_ExpressionCheck16Bit (a_imm src) st1) as [(e, st2)| |]; reflexivity.
  - apply X; [clear -Hr; cbn [In] in Hr; destruct Hr as [H|[H|[H|[H|[H|[]]]]]]; injection H as <- _; reflexivity|].
    intro st1. reflexivity.
Qed.
Lemma h_cmpi : forall s a o2 src dest A, opd0 new s S0 (OImm a) src -> opd new s S0 fl o2 dest -> in_class new s CCmpi o2 = true -> incl [a] A -> incl (opnd_args o2) A ->
  done new S0 fl k st A (handleCMPI F (code s) src dest st) (fun mc => Act "CMP" (Some s) [opnd_place mc s (OImm a); opnd_place mc s o2]).
Proof.
  intros s a o2 src dest A O1 O2 C I1 I2. unfold handleCMPI. rewrite size_field.
  apply (imm_two (fun st1 => let! st4 := imm_mid F (code s) (a_imm src) st1 in m68k_OutputExtensionWords F dest st4) _ 6 "CMP" s a o2 src dest A dalt (if new then [0; 1; 2; 3] else [0; 1]));
    try assumption; [destruct s; reflexivity|lia|apply imm_cmp| |reflexivity].
  intros mode reg Fi. unfold in_class in C. apply andb_true_iff in C. destruct C as (_ & C). destruct new.
  - apply (fields_noimm o2); [exact Fi| |]; destruct o2; try reflexivity; discriminate C.
  - apply (fields_dalt o2); [exact Fi|]. destruct o2; exact C.
Qed.
End Handlers.
