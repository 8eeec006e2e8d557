(** Proofs about the 680x0 instruction parser: branches. *)
From Coq Require Import String ZArith List Bool Lia ZifyBool.
From Verif Require Import Base BaseFacts Arith ArithProofs ExprSpec ExprModel ExprLayout ExprTree ExprProofs ObjWriteModel OptModel
  SectModel SectSpec SectProofs InstrSpec InstrProofs.
From Verif Require X65Proofs X65Run Z80Run M6809Proofs.
From Verif Require Import X65Spec M68kModel M68kSpec M68kProofs M68kEa M68kFull M68kParse M68kModes M68kShapes M68kParen M68kOperand M68kHandlers M68kInstr M68kInstr2 M68kInstr3 M68kInstr4.
Import ListNotations.
Open Scope string_scope.
Open Scope list_scope.
Open Scope Z_scope.

Lemma branch_word : forall c, In c codes ->
  Z.lor 0x6000 (c * 256) = 6 * 4096 + (c / 2) * 512 + (c mod 2) * 256 /\
  Z.lor (Z.lor 0x6000 (c * 256)) 0xFF = 6 * 4096 + (c / 2) * 512 + (c mod 2) * 256 + 255 /\
  0 <= c / 2 < 8 /\ 0 <= c mod 2 <= 1.
Proof.
  intros c H. assert (T : forallb (fun c => (Z.lor 0x6000 (c * 256) =? 6 * 4096 + (c / 2) * 512 + (c mod 2) * 256) &&
    (Z.lor (Z.lor 0x6000 (c * 256)) 0xFF =? 6 * 4096 + (c / 2) * 512 + (c mod 2) * 256 + 255) && (0 <=? c / 2) && (c / 2 <? 8) && (0 <=? c mod 2) && (c mod 2 <=? 1)) codes = true) by (vm_compute; reflexivity).
  rewrite forallb_forall in T. specialize (T _ H). cbv beta in T. rewrite !andb_true_iff, !Z.eqb_eq in T. destruct T as (((((T1 & T2) & T3) & T4) & T5) & T6).
  split; [exact T1|]. split; [exact T2|]. lia.
Qed.
Lemma db_word : forall c n, In c codes -> In n regs8 ->
  orl [0x50C8; c * 256; n] = 5 * 4096 + (c / 2) * 512 + ((c mod 2) * 4 + 3) * 64 + (1 * 8 + n).
Proof.
  intros c n H Hn. assert (T : forallb (fun c => forallb (fun n => orl [0x50C8; c * 256; n] =? 5 * 4096 + (c / 2) * 512 + ((c mod 2) * 4 + 3) * 64 + (1 * 8 + n)) regs8) codes = true) by (vm_compute; reflexivity).
  rewrite forallb_forall in T. specialize (T _ H). cbv beta in T. rewrite forallb_forall in T. specialize (T _ Hn). cbv beta in T. apply Z.eqb_eq, T.
Qed.
Section Handlers.
Variables (new : bool) (S0 : setting) (fl : bool) (k : nat) (st : xstate) (m0 : msect).
Hypothesis G : good fl S0 k st m0 24.
Hypothesis P0 : 0 <= e_pc (s_env S0) < 2 ^ 31 - 128.
Notation F := (s_F S0).
Notation pc := (e_pc (s_env S0)).
Definition target_of (cur : option asect) (s : size) (v : Z) : Prop :=
  0 <= v < 2 ^ 31 /\ match s with SB => s8 (v - (pc + 2)) /\ v <> pc + 2 /\ v <> pc + 1 | SW => s16 (v - (pc + 2)) | SL => floating cur end.
Lemma line_6_low : forall mc c x ws, In c codes -> 0 <= x < 256 ->
  decode new mc pc (word (6 * 4096 + (c / 2) * 512 + (c mod 2) * 256 + x) :: ws) =
  (let name := branch_name c in
   if x =? 0 then match ws with w :: l => Some (Act name None [Mem (addr (pc + 2 + signed 16 w))], l) | [] => None end
   else if (x =? 255) && new then match ws with hi :: lo :: l => Some (Act name None [Mem (addr (pc + 2 + (hi * 65536 + lo)))], l) | _ => None end
   else Some (Act name None [Mem (addr (pc + 2 + signed 8 x))], ws)).
Proof.
  intros mc c x ws Hc X. destruct (branch_word c Hc) as (_ & _ & R & U). rewrite decode_low by lia.
  cbn [decode_fields]. unfold line_6, low_byte.
  replace (2 * (c / 2) + (c mod 2 * 4 + x / 64) / 4) with c by (Z.div_mod_to_equations; lia).
  replace ((c mod 2 * 4 + x / 64) mod 4 * 64 + x / 8 mod 8 * 8 + x mod 8) with x by (Z.div_mod_to_equations; lia). reflexivity.
Qed.
Lemma now_weak : forall N M cur t e v, now N S0 cur t e v -> N <= M -> now M S0 cur t e v.
Proof. intros N M cur t e v (T & O & D & X) L. exists T. split; [exact O|]. split; [lia|exact X]. Qed.
Lemma h_bcc : forall cpu c s a rest A, In c codes -> old_sizes new cpu s -> argh S0 a -> afact a -> target_of (here m0) s (g_value a) -> (floating (here m0) -> fl = true) -> In a A ->
  exists X, handleBcc F (s_garbage S0) cpu (code s) c (TExpr (g_expr a) :: rest) st = with_text rest X /\
    done new S0 fl k st A X (fun mc => Act (branch_name c) None [Mem (addr (g_value a))]).
Proof.
  intros cpu c s a rest A Hc Os H (Nn & _) (V & T) Fl I. unfold handleBcc. cbn [parse_Expression]. rewrite Nn. cbv iota.
  destruct (branch_word c Hc) as (W1 & W2 & R & U). rewrite W2. rewrite W1. set (op := 6 * 4096 + c / 2 * 512 + c mod 2 * 256) in *.
  pose proof G as (SO & _). set (v := g_value a) in *.
  destruct s.
  - change (code SB =? SIZE_BYTE) with true. cbv iota. rewrite (good_current _ _ _ _ _ _ G). destruct T as (T & T2 & T3).
    destruct (now_pcrel S0 (here m0) (-2) a SO H) as (e1 & E1 & N1); [right; split; [exact V|lia]|lia|lia|]. fold v in N1. set (d := v + -2 - pc) in *.
    assert (D : -128 <= d <= 127) by (unfold s8 in T; lia).
    destruct (now_checked 241 S0 (here m0) _ e1 d (-128) 127 st SO N1 ltac:(lia) ltac:(s32) ltac:(s32) D) as (e2 & E2 & N2).
    destruct (now_bin (241 + 2) S0 (here m0) OpNe _ e2 d 0 (of_bool (negb (d =? 0))) SO N2 ltac:(lia) ltac:(s32)) as (c1 & E3 & N3).
    { do 3 right. left. reflexivity. } { reflexivity. }
    destruct (now_assert 244 S0 (here m0) _ e2 d c1 _ SO (now_weak _ 244 _ _ _ _ N2 ltac:(lia)) N3) as (e3 & E4 & N4); [replace (d =? 0) with false by lia; discriminate|lia|].
    destruct (now_bin (244 + 1) S0 (here m0) OpAnd _ e3 d 255 (d mod 256) SO N4 ltac:(lia) ltac:(s32)) as (e4 & E5 & N5).
    { left. reflexivity. } { cbn [op_meaning]. rewrite land_255. reflexivity. }
    assert (Bm : 0 <= d mod 256 < 256) by (apply Z.mod_pos_bound; lia).
    destruct (now_bin (244 + 1 + 1) S0 (here m0) OpOr _ e4 (d mod 256) op (op + d mod 256) SO N5 ltac:(lia) ltac:(s32)) as (e5 & E6 & N6).
    { right. left. reflexivity. }
    { cbn [op_meaning]. f_equal. rewrite Z.lor_comm. rewrite (sum_lor op (d mod 256) 8); [reflexivity|lia|change (2 ^ 8) with 256; lia|].
      unfold op. change (2 ^ 8) with 256. Z.div_mod_to_equations. lia. }
    rewrite E1. cbn [bind]. rewrite E2. cbn [bind]. rewrite E3. cbn [bind]. rewrite E4. cbn [bind]. unfold expr_And, expr_Or. rewrite E5. cbn [bind]. rewrite E6. cbn [bind].
    exists (let! st2 := sect_OutputExpr16 e5 st in Ok (true, st2)). split; [unfold with_text; destruct (sect_OutputExpr16 e5 st); reflexivity|].
    apply (done_expr16 new S0 fl k st m0 247 (PcRel (-2) (g_term a)) e5 _ A _ G N6); [lia|apply src_pc, I|].
    intros mc more. unfold op. rewrite line_6_low by assumption. cbv zeta.
    replace (d mod 256 =? 0) with false by (Z.div_mod_to_equations; lia).
    replace (d mod 256 =? 255) with false by (Z.div_mod_to_equations; lia). cbn [andb].
    rewrite (signed_8 d) by (first [exact D|apply Z.mod_mod; lia]). replace (pc + 2 + d) with v by lia. reflexivity.
  - change (code SW =? SIZE_BYTE) with false. change (code SW =? SIZE_WORD) with true. cbv iota.
    exists (let! st1 := sect_OutputConst16 op st in (let! e1 := expr_PcRelative F (sect_Current st1) (g_expr a) 0 in
      let! (e2, st2) := range_checked e1 (-32768) 32767 st1 in let! st3 := sect_OutputExpr16 e2 st2 in Ok (true, st3))). split.
    { unfold with_text. destruct (sect_OutputConst16 op st) as [s1| |]; [cbn [bind]|reflexivity|reflexivity]. destruct (expr_PcRelative F (sect_Current s1) (g_expr a) 0) as [e1| |]; [cbn [bind]|reflexivity|reflexivity].
      destruct (range_checked e1 (-32768) 32767 s1) as [(e2, s2)| |]; [cbn [bind]|reflexivity|reflexivity]. destruct (sect_OutputExpr16 e2 s2); reflexivity. }
    set (d := v - (pc + 2)) in *.
    apply (done_cell new S0 fl k st m0 G op (fun st1 => let! e1 := expr_PcRelative F (sect_Current st1) (g_expr a) 0 in
      let! (e2, st2) := range_checked e1 (-32768) 32767 st1 in let! st3 := sect_OutputExpr16 e2 st2 in Ok (true, st3)) 2%nat (PcRel 0 (g_term a)) d).
    + left. reflexivity. + right. apply src_pc, I.
    + intros st1 m1 G1. rewrite (good_current _ _ _ _ _ _ G1). pose proof G1 as (SO1 & _).
      destruct (now_pcrel (moved 2 S0) (here m1) 0 a SO1 (argh_moved _ 2 _ H)) as (e1 & E1 & N1); [right; split; [exact V|lia]|lia|rewrite pc_moved; lia|].
      rewrite pc_moved in N1. fold v in N1. replace (v + 0 - (pc + 2)) with d in N1 by lia. change (s_F (moved 2 S0)) with F in E1.
      destruct (now_checked 241 _ (here m1) _ e1 d (-32768) 32767 st1 SO1 N1 ltac:(lia) ltac:(s32) ltac:(s32) T) as (e2 & E2 & N2).
      destruct (good_expr16 fl (moved 2 S0) k st1 m1 _ _ _ _ 20 G1 ltac:(lia) N2 ltac:(lia)) as (st2 & m2 & E & Em & G2).
      exists st2, m2. rewrite E1. cbn [bind]. rewrite E2. cbn [bind]. rewrite E. split; [reflexivity|]. split; [exact Em|]. apply (good_less _ _ _ _ _ _ _ G2). lia.
    + intros mc more. cbn [words Nat.eqb app]. unfold op. rewrite <- (Z.add_0_r (6 * 4096 + c / 2 * 512 + c mod 2 * 256)). rewrite line_6_low by (assumption || lia). cbv zeta.
      change (0 =? 0) with true. cbv iota. rewrite signed_16 by exact T. replace (pc + 2 + d) with v by lia. reflexivity.
  - destruct (Os eq_refl) as (Hcpu & Hn). specialize (Fl T). change (code SL =? SIZE_BYTE) with false. change (code SL =? SIZE_WORD) with false. change (code SL =? SIZE_LONG) with true. cbv iota. rewrite Hcpu.
    rewrite (good_current _ _ _ _ _ _ G), (pcrel_floating _ _ _ _ T Nn). cbn [bind]. set (e1 := ENode TPcRelative false OpNone 0 0 (expr_Const 0) (g_expr a)).
    exists (let! st1 := sect_OutputConst16 (op + 255) st in (let! st2 := sect_OutputExpr32 e1 st1 in Ok (true, st2))). split.
    { unfold with_text. destruct (sect_OutputConst16 (op + 255) st) as [s1| |]; [cbn [bind]|reflexivity|reflexivity]. destruct (sect_OutputExpr32 e1 s1); reflexivity. }
    set (d := v - (pc + 2)) in *.
    apply (done_cell new S0 fl k st m0 G (op + 255) (fun st1 => let! st2 := sect_OutputExpr32 e1 st1 in Ok (true, st2)) 4%nat (PcRel 0 (g_term a)) d).
    + right. reflexivity. + right. apply src_pc, I.
    + intros st1 m1 G1. pose proof G1 as (SO1 & _ & Fl1). specialize (Fl1 Fl).
      destruct (now_pcrel (moved 2 S0) (here m1) 0 a SO1 (argh_moved _ 2 _ H)) as (e1' & E1 & N1); [right; split; [exact V|lia]|lia|rewrite pc_moved; lia|].
      rewrite (pcrel_floating _ _ _ _ Fl1 Nn) in E1. injection E1 as <-. fold e1 in N1. rewrite pc_moved in N1. fold v in N1. replace (v + 0 - (pc + 2)) with d in N1 by lia.
      destruct (good_expr32 fl (moved 2 S0) k st1 m1 _ _ _ _ 18 G1 ltac:(lia) N1 ltac:(lia)) as (st2 & m2 & E & Em & G2).
      exists st2, m2. rewrite E. split; [reflexivity|]. split; [exact Em|exact G2].
    + intros mc more. cbn [words Nat.eqb app]. unfold op. rewrite line_6_low by (assumption || lia). cbv zeta.
      change (255 =? 0) with false. change (255 =? 255) with true. rewrite Hn. cbn [andb]. cbv iota. rewrite two_words, addr_mod. replace (pc + 2 + d) with v by lia. reflexivity.
Qed.
Lemma h_dbcc : forall c n src s a rest A, In c codes -> opd new s S0 fl (ODreg n) src -> argh S0 a -> afact a -> 0 <= g_value a < 2 ^ 31 -> s16 (g_value a - (pc + 2)) -> In a A ->
  exists X, handleDBcc F c src (TComma :: TExpr (g_expr a) :: rest) st = with_text rest X /\
    done new S0 fl k st A X (fun mc => Act (String.append "DB" (condition c)) None [InD n; Mem (addr (g_value a))]).
Proof.
  intros c n src s a rest A Hc (P1 & _) H (Nn & _) V T I. unfold handleDBcc. cbn [parse_Expression]. rewrite Nn. cbv iota.
  destruct (dn_facts _ _ _ _ _ P1) as (Dn & N & _). rewrite Dn. rewrite (db_word c n Hc (in_regs n N)). destruct (branch_word c Hc) as (_ & _ & R & U).
  set (W := 5 * 4096 + c / 2 * 512 + (c mod 2 * 4 + 3) * 64 + (1 * 8 + n)). set (v := g_value a) in *. set (d := v - (pc + 2)) in *.
  exists (let! st1 := sect_OutputConst16 W st in (let! e1 := expr_PcRelative F (sect_Current st1) (g_expr a) 0 in let! st3 := sect_OutputExpr16 e1 st1 in Ok (true, st3))). split.
  { unfold with_text. destruct (sect_OutputConst16 W st) as [s1| |]; [cbn [bind]|reflexivity|reflexivity]. destruct (expr_PcRelative F (sect_Current s1) (g_expr a) 0) as [e1| |]; [cbn [bind]|reflexivity|reflexivity].
    destruct (sect_OutputExpr16 e1 s1); reflexivity. }
  apply (done_cell new S0 fl k st m0 G W (fun st1 => let! e1 := expr_PcRelative F (sect_Current st1) (g_expr a) 0 in let! st3 := sect_OutputExpr16 e1 st1 in Ok (true, st3)) 2%nat (PcRel 0 (g_term a)) d).
  - left. reflexivity. - right. apply src_pc, I.
  - intros st1 m1 G1. rewrite (good_current _ _ _ _ _ _ G1). pose proof G1 as (SO1 & _).
    destruct (now_pcrel (moved 2 S0) (here m1) 0 a SO1 (argh_moved _ 2 _ H)) as (e1 & E1 & N1); [right; split; [exact V|lia]|lia|rewrite pc_moved; lia|].
    rewrite pc_moved in N1. fold v in N1. replace (v + 0 - (pc + 2)) with d in N1 by lia. change (s_F (moved 2 S0)) with F in E1.
    destruct (good_expr16 fl (moved 2 S0) k st1 m1 _ _ _ _ 20 G1 ltac:(lia) N1 ltac:(lia)) as (st2 & m2 & E & Em & G2).
    exists st2, m2. rewrite E1. cbn [bind]. rewrite E. split; [reflexivity|]. split; [exact Em|]. apply (good_less _ _ _ _ _ _ _ G2). lia.
  - intros mc more. cbn [words Nat.eqb app]. unfold W. rewrite decode_word by lia. cbn [decode_fields]. unfold line_5.
    replace (size_of_field (c mod 2 * 4 + 3)) with (@None size) by (assert (E : c mod 2 = 0 \/ c mod 2 = 1) by lia; destruct E as [-> | ->]; reflexivity).
    change (1 =? 1) with true. cbv iota zeta. replace (2 * (c / 2) + (c mod 2 * 4 + 3) / 4) with c by (Z.div_mod_to_equations; lia).
    rewrite signed_16 by exact T. replace (pc + 2 + d) with v by lia. reflexivity.
Qed.
End Handlers.
