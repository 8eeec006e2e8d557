(** Proofs about the 680x0 instruction parser: addressing modes. *)
From Coq Require Import String ZArith List Bool Lia ZifyBool.
From Verif Require Import Base BaseFacts Arith ArithProofs ExprSpec ExprModel ExprLayout ExprTree ExprProofs ObjWriteModel OptModel
  SectModel SectSpec SectProofs InstrSpec InstrProofs.
From Verif Require X65Proofs X65Run Z80Run M6809Proofs.
From Verif Require Import X65Spec M68kModel M68kSpec M68kProofs M68kEa M68kFull M68kParse.
Import ListNotations.
Open Scope string_scope.
Open Scope list_scope.
Open Scope Z_scope.

(** ** What an addressing mode gives *)
(** [md] is stored in the fields [mode] and [reg] and extension words that mean [pl]. *)
Definition offset_ok (pcrel : bool) (q : Z) : Prop := 0 <= q <= 64 /\ (pcrel = true -> In q [2; 4; 6]).
Definition shaped (new : bool) (s : size) (S0 : setting) (fl pcrel : bool) (args : list arg) (md : amode) (mode reg : Z) (pl : machine -> place) : Prop :=
  m68k_GetEffectiveAddressField md = Some (mode * 8 + reg) /\ 0 <= mode <= 7 /\ 0 <= reg <= 7 /\
  forall q k st m room, offset_ok pcrel q -> good fl (moved q S0) k st m (10 + room) -> 0 <= room ->
  exists st1 m1 cells, m68k_OutputExtensionWords (s_F S0) md st = Ok (true, st1) /\ sent fl (moved q S0) k st cells st1 m1 room /\
    stored_from args cells /\ width cells <= 10 /\
    forall mc rest, effective new mc s mode reg (e_pc (s_env S0) + q) (words cells ++ rest) = Some (pl mc, rest).
Definition eheld (S0 : setting) (t : term) (e : expr) (v : Z) : Prop := held 248 true S0 None t e v.
Lemma eheld_now : forall S0 t e v q cur, eheld S0 t e v -> now 248 (moved q S0) cur t e v.
Proof. intros S0 t e v q cur H. apply (held_now 248 true). apply (Z80Run.held_moved 248 true S0 None), H. Qed.
Lemma argh_eheld : forall S0 a, argh S0 a -> eheld S0 (g_term a) (g_expr a) (g_value a).
Proof. intros S0 a H. apply (Z80Run.held_less 240 248); [exact H|lia]. Qed.
Lemma pc_moved : forall q S, e_pc (s_env (moved q S)) = e_pc (s_env S) + q.
Proof. reflexivity. Qed.
Lemma src_arg : forall a args, In a args -> src args (g_term a).
Proof. intros a args H. exists a. split; [exact H|left; reflexivity]. Qed.
Lemma src_pc : forall a z args, In a args -> src args (PcRel z (g_term a)).
Proof. intros a z args H. exists a. split; [exact H|right; exists z; reflexivity]. Qed.
Definition low (n : Z) : Z := Z.land (REG_A0 + n) 7.
Lemma low_reg : forall n, reg_ok n = true -> Z.land (REG_A0 + n) 7 = n /\ Z.lor 0x10 n = 2 * 8 + n /\ Z.lor 0x18 n = 3 * 8 + n /\
  Z.lor 0x20 n = 4 * 8 + n /\ Z.lor 0x28 n = 5 * 8 + n /\ Z.lor 0x30 n = 6 * 8 + n /\ Z.lor 8 n = 1 * 8 + n.
Proof. intros n H. each_reg n H; vm_compute; tauto. Qed.
Ltac use_reg n H := let A := fresh "Lr" in pose proof (low_reg n H) as A; destruct A as (?Lr & ?Lr & ?Lr & ?Lr & ?Lr & ?Lr & ?Lr).
Lemma reg_range : forall n, reg_ok n = true -> 0 <= n <= 7.
Proof. intros n H. unfold reg_ok in H. lia. Qed.

(** Without extension words. *)
Lemma sh_dreg : forall new s S0 fl n im z i o, reg_ok n = true ->
  shaped new s S0 fl false [] (AMode AM_DREG n im z i o) 0 n (fun _ => InD n).
Proof.
  intros new s S0 fl n im z i o H. split; [reflexivity|]. split; [lia|]. split; [apply reg_range, H|].
  intros q k st m room _ G Ro. exists st, m, []. split; [reflexivity|]. split; [apply sent_nil, (good_less _ _ _ _ _ _ _ G); lia|].
  split; [constructor|]. split; [discriminate|]. intros mc rest. reflexivity.
Qed.
Lemma sh_areg : forall new s S0 fl n im z i o, reg_ok n = true ->
  shaped new s S0 fl false [] (AMode AM_AREG n im z i o) 1 n (fun _ => InA n).
Proof.
  intros new s S0 fl n im z i o H. split; [cbn; f_equal; apply (low_reg n H)|]. split; [lia|]. split; [apply reg_range, H|].
  intros q k st m room _ G Ro. exists st, m, []. split; [reflexivity|]. split; [apply sent_nil, (good_less _ _ _ _ _ _ _ G); lia|].
  split; [constructor|]. split; [discriminate|]. intros mc rest. reflexivity.
Qed.
Lemma sh_through : forall new s S0 fl args M n d im z i ic is sc e ds, reg_ok n = true -> In M [AM_AIND; AM_AINC; AM_ADEC] ->
  shaped new s S0 fl false args (AMode M d im z i (Regs (REG_A0 + n) ic is sc e ds))
    (if M =? AM_AIND then 2 else if M =? AM_AINC then 3 else 4) n
    (fun mc => if M =? AM_AIND then Mem (addr (areg mc n)) else if M =? AM_AINC then PostInc n else PreDec n).
Proof.
  intros new s S0 fl args M n d im z i ic is sc e ds H HM.
  destruct (low_reg n H) as (L0 & L2 & L3 & L4 & _).
  split.
  { destruct HM as [<-|[<-|[<-|[]]]]; unfold m68k_GetEffectiveAddressField; cbn [a_mode a_outer r_base]; rewrite L0;
      [change (Some (Z.lor 0x10 n) = Some (2 * 8 + n))|change (Some (Z.lor 0x18 n) = Some (3 * 8 + n))|change (Some (Z.lor 0x20 n) = Some (4 * 8 + n))]; congruence. }
  split; [destruct HM as [<-|[<-|[<-|[]]]]; vm_compute; split; discriminate|]. split; [apply reg_range, H|].
  intros q k st m room _ G Ro. exists st, m, []. split; [destruct HM as [<-|[<-|[<-|[]]]]; reflexivity|].
  split; [apply sent_nil, (good_less _ _ _ _ _ _ _ G); lia|].
  split; [constructor|]. split; [discriminate|]. intros mc rest. destruct HM as [<-|[<-|[<-|[]]]]; reflexivity.
Qed.

(** With a word or a long word. *)
Lemma field_low : forall b r, Z.land r 7 = b -> Z.land r 7 = b.
Proof. trivial. Qed.
Lemma sh_adisp : forall new s S0 fl args n d im z i ic is sc t e v ds, reg_ok n = true -> eheld S0 t e v -> s16 v -> src args t -> ds = 2 \/ ds = 0 ->
  shaped new s S0 fl false args (AMode AM_ADISP d im z i (Regs (REG_A0 + n) ic is sc e ds)) 5 n (fun mc => Mem (addr (areg mc n + v))).
Proof.
  intros new s S0 fl args n d im z i ic is sc t e v ds H E V Sr Ds. destruct (low_reg n H) as (L0 & _ & _ & _ & L5 & _).
  split; [change (Some (Z.lor 0x28 (Z.land (REG_A0 + n) 7)) = Some (5 * 8 + n)); congruence|]. split; [lia|]. split; [apply reg_range, H|].
  intros q k st m room _ G Ro. pose proof G as (SO & _). pose proof (eheld_now S0 t e v q (here m) E) as Nw.
  destruct (now_facts _ _ _ _ _ _ SO Nw) as (Nu & _).
  destruct (good_expr16 fl (moved q S0) k st m 248 t e v (8 + room)) as (st1 & m1 & E1 & Em & G1);
    [replace (2 + (8 + room)) with (10 + room) by lia; exact G|lia|exact Nw|lia|].
  exists st1, m1, [(2%nat, t, v)]. split.
  { change (output_word (Regs (REG_A0 + n) ic is sc e ds) st = Ok (true, st1)). unfold output_word. cbn [r_disp r_dsize]. rewrite Nu.
    replace ((ds =? SIZE_WORD) || (ds =? SIZE_DEFAULT)) with true by (destruct Ds; subst; reflexivity). rewrite E1. reflexivity. }
  split; [apply sent_one; [exact Em|apply (good_less _ _ _ _ _ _ _ G1); lia]|].
  split; [apply stored_src; [left; reflexivity|exact Sr]|]. split; [discriminate|].
  intros mc rest. change (Some (Mem (addr (areg mc n + signed 16 (word v))), rest) = Some (Mem (addr (areg mc n + v)), rest)).
  rewrite signed_16 by exact V. reflexivity.
Qed.
Lemma in_q : forall q, offset_ok true q -> In q [2; 4; 6] /\ 2 <= q <= 6.
Proof. intros q (_ & H). specialize (H eq_refl). split; [exact H|]. cbn [In] in H. lia. Qed.
Lemma sh_pcdisp : forall new s S0 fl args a d im z i b ic is sc ds, argh S0 a -> reached (e_pc (s_env S0)) (g_value a) s16 -> In a args -> ds = 2 \/ ds = 0 ->
  0 <= e_pc (s_env S0) < 2 ^ 31 - 128 ->
  shaped new s S0 fl true args (AMode AM_PCDISP d im z i (Regs b ic is sc (g_expr a) ds)) 7 2 (fun mc => Mem (addr (g_value a))).
Proof.
  intros new s S0 fl args a d im z i b ic is sc ds H (V & R) Ia Ds P.
  split; [reflexivity|]. split; [lia|]. split; [lia|].
  intros q k st m room Q G Ro. pose proof G as (SO & _). destruct (in_q q Q) as (Iq & Q2). specialize (R q Iq).
  destruct (now_pcrel (moved q S0) (here m) 0 a SO (argh_moved _ _ _ H)) as (e1 & E1 & Nw); [left; exact V|lia|rewrite pc_moved; lia|].
  rewrite pc_moved in Nw. set (pc := e_pc (s_env S0)) in *. replace (g_value a + 0 - (pc + q)) with (g_value a - (pc + q)) in Nw by lia.
  pose proof (argh_now S0 None a H) as Nw0.
  destruct (now_facts _ _ _ _ _ _ SO Nw) as (Nu & _).
  assert (Nua : isNull (g_expr a) = false) by (pose proof (argh_now _ (here m) a (argh_moved _ q _ H)) as X; apply (now_facts _ _ _ _ _ _ SO X)).
  destruct (good_expr16 fl (moved q S0) k st m 241 (PcRel 0 (g_term a)) e1 (g_value a - (pc + q)) (8 + room)) as (st1 & m1 & E2 & Em & G1);
    [replace (2 + (8 + room)) with (10 + room) by lia; exact G|lia|exact Nw|lia|].
  exists st1, m1, [(2%nat, PcRel 0 (g_term a), g_value a - (pc + q))]. split.
  { change ((let! o1 := pc_relative (s_F S0) 0 (Regs b ic is sc (g_expr a) ds) st in output_word o1 st) = Ok (true, st1)).
    unfold pc_relative. cbn [r_disp]. rewrite Nua, (good_current _ _ _ _ _ _ G). change (s_F (moved q S0)) with (s_F S0) in E1. rewrite E1.
    cbn [bind]. unfold output_word, set_disp. cbn [r_disp r_dsize]. rewrite Nu.
    replace ((ds =? SIZE_WORD) || (ds =? SIZE_DEFAULT)) with true by (destruct Ds; subst; reflexivity). rewrite E2. reflexivity. }
  split; [apply sent_one; [exact Em|apply (good_less _ _ _ _ _ _ _ G1); lia]|].
  split; [apply stored_src; [left; reflexivity|apply src_pc; exact Ia]|]. split; [discriminate|].
  intros mc rest. change (Some (Mem (addr (pc + q + signed 16 (word (g_value a - (pc + q))))), rest) = Some (Mem (addr (g_value a)), rest)).
  rewrite signed_16 by exact R. do 4 f_equal. lia.
Qed.
Lemma sh_word : forall new s S0 fl args d im z i b ic is sc ds t e v, eheld S0 t e v -> s16 v -> src args t ->
  shaped new s S0 fl false args (AMode AM_WORD d im z i (Regs b ic is sc e ds)) 7 0 (fun mc => Mem (addr v)).
Proof.
  intros new s S0 fl args d im z i b ic is sc ds t e v E V Sr.
  split; [reflexivity|]. split; [lia|]. split; [lia|].
  intros q k st m room _ G Ro. pose proof G as (SO & _). pose proof (eheld_now S0 t e v q (here m) E) as Nw.
  destruct (now_facts _ _ _ _ _ _ SO Nw) as (Nu & _).
  destruct (good_expr16 fl (moved q S0) k st m 248 t e v (8 + room)) as (st1 & m1 & E1 & Em & G1);
    [replace (2 + (8 + room)) with (10 + room) by lia; exact G|lia|exact Nw|lia|].
  exists st1, m1, [(2%nat, t, v)]. split.
  { change ((if isNull e then Err else let! st1 := sect_OutputExpr16 e st in Ok (true, st1)) = Ok (true, st1)). rewrite Nu, E1. reflexivity. }
  split; [apply sent_one; [exact Em|apply (good_less _ _ _ _ _ _ _ G1); lia]|].
  split; [apply stored_src; [left; reflexivity|exact Sr]|]. split; [discriminate|].
  intros mc rest. change (Some (Mem (addr (signed 16 (word v))), rest) = Some (Mem (addr v), rest)). rewrite signed_16 by exact V. reflexivity.
Qed.
Lemma sh_long : forall new s S0 fl args d im z i b ic is sc ds t e v, eheld S0 t e v -> src args t ->
  shaped new s S0 fl false args (AMode AM_LONG d im z i (Regs b ic is sc e ds)) 7 1 (fun mc => Mem (addr v)).
Proof.
  intros new s S0 fl args d im z i b ic is sc ds t e v E Sr.
  split; [reflexivity|]. split; [lia|]. split; [lia|].
  intros q k st m room _ G Ro. pose proof G as (SO & _). pose proof (eheld_now S0 t e v q (here m) E) as Nw.
  destruct (now_facts _ _ _ _ _ _ SO Nw) as (Nu & _).
  destruct (good_expr32 fl (moved q S0) k st m 248 t e v (6 + room)) as (st1 & m1 & E1 & Em & G1);
    [replace (4 + (6 + room)) with (10 + room) by lia; exact G|lia|exact Nw|lia|].
  exists st1, m1, [(4%nat, t, v)]. split.
  { change ((if isNull e then Err else let! st1 := sect_OutputExpr32 e st in Ok (true, st1)) = Ok (true, st1)). rewrite Nu, E1. reflexivity. }
  split; [apply sent_one; [exact Em|apply (good_less _ _ _ _ _ _ _ G1); lia]|].
  split; [apply stored_src; [right; reflexivity|exact Sr]|]. split; [discriminate|].
  intros mc rest. change (Some (Mem (word (v / 65536) * 65536 + word v), rest) = Some (Mem (addr v), rest)). rewrite two_words. reflexivity.
Qed.
(** An immediate operand. *)
Definition imm_fits (s : size) (v : Z) : Prop := match s with SB => -128 <= v <= 255 | SW => -32768 <= v <= 65535 | SL => True end.
Definition imm_code (s : size) (z : Z) : Prop := match s with SB => z = 1 | SW => z = 2 \/ z = 0 | SL => z = 4 end.
Lemma word_byte : forall v, word v mod 256 = v mod 256.
Proof. intro v. unfold word. Z.div_mod_to_equations. lia. Qed.
Lemma sh_imm : forall new s S0 fl a z d i o, argh S0 a -> imm_fits s (g_value a) -> imm_code s z ->
  shaped new s S0 fl false [a] (AMode AM_IMM d (g_expr a) z i o) 7 4 (fun _ => Val (g_value a mod 2 ^ bits s)).
Proof.
  intros new s S0 fl a z d i o H V C. split; [reflexivity|]. split; [lia|]. split; [lia|].
  intros q k st m room _ G Ro. pose proof G as (SO & _). pose proof (argh_now _ (here m) a (argh_moved _ q _ H)) as Nw.
  destruct (now_facts _ _ _ _ _ _ SO Nw) as (Nu & _). set (v := g_value a) in *.
  change (m68k_OutputExtensionWords (s_F S0) (AMode AM_IMM d (g_expr a) z i o) st) with
    (if z =? SIZE_LONG then if isNull (g_expr a) then Ok (false, st) else let! st1 := sect_OutputExpr32 (g_expr a) st in Ok (true, st1)
     else let! (e, st1) := if z =? SIZE_BYTE then m68k_ExpressionCheck8Bit (g_expr a) st else m68k_ExpressionCheck16Bit (g_expr a) st in
          let! st2 := sect_OutputExpr16 e st1 in Ok (true, st2)).
  destruct s; cbn [imm_fits imm_code bits] in *.
  - subst z. cbn [Z.eqb SIZE_LONG SIZE_BYTE Pos.eqb].
    destruct (now_checked 240 _ (here m) _ _ v (-128) 255 st SO Nw ltac:(lia) ltac:(num) ltac:(num) V) as (e1 & E1 & N1).
    unfold m68k_ExpressionCheck8Bit. rewrite E1. cbn [bind].
    destruct (good_expr16 fl (moved q S0) k st m 242 (g_term a) e1 v (8 + room)) as (st1 & m1 & E2 & Em & G1);
      [replace (2 + (8 + room)) with (10 + room) by lia; exact G|lia|exact N1|lia|].
    rewrite E2. cbn [bind]. exists st1, m1, [(2%nat, g_term a, v)]. split; [reflexivity|].
    split; [apply sent_one; [exact Em|apply (good_less _ _ _ _ _ _ _ G1); lia]|].
    split; [apply stored_src; [left; reflexivity|apply src_arg; left; reflexivity]|]. split; [discriminate|].
    intros mc rest. change (Some (Val (word v mod 256), rest) = Some (Val (v mod 256), rest)). rewrite word_byte. reflexivity.
  - replace (z =? SIZE_LONG) with false by (destruct C; subst; reflexivity). replace (z =? SIZE_BYTE) with false by (destruct C; subst; reflexivity).
    destruct (now_checked 240 _ (here m) _ _ v (-32768) 65535 st SO Nw ltac:(lia) ltac:(num) ltac:(num) V) as (e1 & E1 & N1).
    unfold m68k_ExpressionCheck16Bit. rewrite E1. cbn [bind].
    destruct (good_expr16 fl (moved q S0) k st m 242 (g_term a) e1 v (8 + room)) as (st1 & m1 & E2 & Em & G1);
      [replace (2 + (8 + room)) with (10 + room) by lia; exact G|lia|exact N1|lia|].
    rewrite E2. cbn [bind]. exists st1, m1, [(2%nat, g_term a, v)]. split; [reflexivity|].
    split; [apply sent_one; [exact Em|apply (good_less _ _ _ _ _ _ _ G1); lia]|].
    split; [apply stored_src; [left; reflexivity|apply src_arg; left; reflexivity]|]. split; [discriminate|].
    intros mc rest. reflexivity.
  - subst z. cbn [Z.eqb SIZE_LONG SIZE_BYTE Pos.eqb]. rewrite Nu.
    destruct (good_expr32 fl (moved q S0) k st m 240 (g_term a) (g_expr a) v (6 + room)) as (st1 & m1 & E2 & Em & G1);
      [replace (4 + (6 + room)) with (10 + room) by lia; exact G|lia|exact Nw|lia|].
    rewrite E2. cbn [bind]. exists st1, m1, [(4%nat, g_term a, v)]. split; [reflexivity|].
    split; [apply sent_one; [exact Em|apply (good_less _ _ _ _ _ _ _ G1); lia]|].
    split; [apply stored_src; [right; reflexivity|apply src_arg; left; reflexivity]|]. split; [discriminate|].
    intros mc rest. change (Some (Val (word (v / 65536) * 65536 + word v), rest) = Some (Val (v mod 2 ^ 32), rest)). rewrite two_words. reflexivity.
Qed.
