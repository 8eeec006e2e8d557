(** Proofs about the 680x0 instruction parser: extension words. *)
From Coq Require Import String ZArith List Bool Lia ZifyBool.
From Verif Require Import Base BaseFacts Arith ArithProofs ExprSpec ExprModel ExprLayout ExprTree ExprProofs ObjWriteModel OptModel
  SectModel SectSpec SectProofs InstrSpec InstrProofs.
From Verif Require X65Proofs X65Run Z80Run M6809Proofs.
From Verif Require Import X65Spec M68kModel M68kSpec M68kProofs.
Import ListNotations.
Open Scope string_scope.
Open Scope list_scope.
Open Scope Z_scope.

(** ** Numbers *)
Lemma const_bin : forall F op e f w, expr_IsConstant e = true -> expr_IsConstant f = true -> build_value F op (e_v e) (e_v f) = Ok w ->
  exists g, expr_Binary F op e f = Ok g /\ expr_IsConstant g = true /\ e_v g = w /\ isNull g = false.
Proof.
  intros F op e f w E G B. exists (node2 op w e f). unfold expr_Binary.
  replace (isNull e) with false by (destruct e; [discriminate E|reflexivity]).
  replace (isNull f) with false by (destruct f; [discriminate G|reflexivity]). rewrite B. cbn [orb].
  split; [reflexivity|]. unfold node2. cbn [expr_IsConstant e_v isNull]. rewrite E, G. split; [|split]; reflexivity.
Qed.
Lemma const_checked : forall e v lo hi st, expr_IsConstant e = true -> e_v e = v -> lo <= v <= hi ->
  exists g, range_checked e lo hi st = Ok (g, st) /\ expr_IsConstant g = true /\ e_v g = v /\ isNull g = false.
Proof.
  intros e v lo hi st E V R. unfold range_checked, expr_CheckRange.
  assert (Hn : isNull e = false) by (destruct e; [discriminate E|reflexivity]).
  rewrite Hn. unfold expr_LowLimit. rewrite Hn. cbn [isNull expr_Const orb expr_IsConstant e_v]. rewrite E, V. cbn [andb].
  replace (v <? lo) with false by lia. cbn [bind]. unfold expr_HighLimit, node2. cbn [isNull orb expr_IsConstant e_v expr_Const]. rewrite E. cbn [andb].
  replace (v >? hi) with false by lia. eexists. split; [reflexivity|]. split; [reflexivity|]. split; reflexivity.
Qed.

Lemma scale_facts : forall sc c, In (sc, c) scales -> sc = ENull /\ c = 0 \/ isNull sc = false /\ expr_IsConstant sc = true /\ e_v sc = c /\ 1 <= c <= 3.
Proof.
  intros sc c H. unfold scales in H. cbn [In] in H.
  destruct H as [H|[H|[H|[H|[]]]]]; inversion H; subst; [left; split; reflexivity|right..]; vm_compute; intuition congruence.
Qed.
Lemma or_scale_number : forall F sc c e v, In (sc, c) scales -> expr_IsConstant e = true -> e_v e = v -> is_s32 v ->
  exists g, or_scale F e sc = Ok g /\ expr_IsConstant g = true /\ e_v g = Z.lor v (c * 512).
Proof.
  intros F sc c e v H E V Sv. unfold or_scale. destruct (scale_facts sc c H) as [(-> & ->)|(N & C & W & R)].
  - cbn [isNull]. exists e. rewrite V, Z.lor_0_r. tauto.
  - rewrite N. destruct (const_bin F OpAsl sc (expr_Const 9) (c * 512) C eq_refl) as (g & G & Gc & Gv & _).
    { rewrite W. assert (K : c = 1 \/ c = 2 \/ c = 3) by lia. destruct K as [->|[->| ->]]; reflexivity. }
    unfold expr_Asl. rewrite G. cbn [bind].
    destruct (const_bin F OpOr e g (Z.lor v (c * 512)) E Gc) as (h & A & B & D & _).
    { rewrite V, Gv. cbn [build_value]. rewrite c_or_ok by (assumption || num). reflexivity. }
    exists h. unfold expr_Or. tauto.
Qed.

(** ** Brief extension words *)
Definition lcode (isize : Z) : Z := if isize =? SIZE_LONG then 1 else 0.
Definition brief (i isize c v : Z) : Z := i * 4096 + lcode isize * 2048 + c * 512 + v mod 256.
Lemma brief_ins : forall i isize, 0 <= i <= 15 ->
  Z.lor (u16 (i * 4096)) (if isize =? SIZE_LONG then 0x0800 else 0) = i * 4096 + lcode isize * 2048.
Proof.
  intros i isize H. unfold u16, lcode. rewrite Z.mod_small by lia.
  assert (E : (i * 4096) mod 2 ^ 12 = 0) by (change (2 ^ 12) with 4096; apply Z.mod_mul; lia).
  destruct (isize =? SIZE_LONG); rewrite (sum_lor (i * 4096) _ 12) by (lia || exact E); lia.
Qed.
Lemma brief_or : forall i isize v, 0 <= i <= 15 -> Z.lor (v mod 256) (i * 4096 + lcode isize * 2048) = brief i isize 0 v.
Proof.
  intros i isize v H. rewrite Z.lor_comm. assert (0 <= v mod 256 < 2 ^ 8) by (apply Z.mod_pos_bound; lia).
  rewrite (sum_lor _ (v mod 256) 8); [unfold brief; lia|lia|assumption|].
  unfold lcode. change (2 ^ 8) with 256. destruct (isize =? SIZE_LONG); Z.div_mod_to_equations; lia.
Qed.
Lemma brief_scale : forall i isize c v, 0 <= i <= 15 -> 0 <= c <= 3 -> Z.lor (brief i isize 0 v) (c * 512) = brief i isize c v.
Proof.
  intros i isize c v I C. assert (B : 0 <= v mod 256 < 2 ^ 8) by (apply Z.mod_pos_bound; lia).
  assert (L : 0 <= lcode isize <= 1) by (unfold lcode; destruct (isize =? SIZE_LONG); lia).
  unfold brief at 1. replace (i * 4096 + lcode isize * 2048 + 0 * 512 + v mod 256) with ((i * 4096 + lcode isize * 2048) + v mod 256) by lia.
  rewrite <- (sum_lor _ (v mod 256) 8) by (try lia; change (2 ^ 8) with 256; Z.div_mod_to_equations; lia).
  rewrite <- Z.lor_assoc, (Z.lor_comm (v mod 256)).
  rewrite (sum_lor (c * 512) (v mod 256) 8) by (try lia; change (2 ^ 8) with 256; Z.div_mod_to_equations; lia).
  rewrite (sum_lor _ (c * 512 + v mod 256) 11) by (try (change (2 ^ 11) with 2048; change (2 ^ 8) with 256 in B); Z.div_mod_to_equations; lia).
  unfold brief. lia.
Qed.
Lemma out_brief : forall fl S k st m room N t e v base i isize ds, good fl S k st m (2 + room) -> 0 <= room -> 0 <= i <= 15 ->
  now N S (here m) t e v -> 1 <= N <= 250 -> s8 v ->
  exists st1 m1, output_indexed (s_F S) (Regs base i isize ENull e ds) st = Ok (true, st1) /\
    sent fl S k st [(2%nat, t, brief i isize 0 v)] st1 m1 room.
Proof.
  intros fl S k st m room N t e v base i isize ds G Ro I H HN V. pose proof G as (SO & _). unfold s8 in V.
  destruct (now_facts _ _ _ _ _ _ SO H) as (Nu & _).
  unfold output_indexed. cbn [r_index r_isize r_disp r_scale]. rewrite Nu.
  destruct (now_checked N S (here m) t e v (-128) 255 st SO H ltac:(lia) ltac:(num) ltac:(num) ltac:(lia)) as (e1 & E1 & H1).
  unfold m68k_ExpressionCheck8Bit. rewrite E1. cbn [bind]. unfold expr_And, expr_Or.
  destruct (now_bin _ S (here m) OpAnd t e1 v 255 (v mod 256) SO H1 ltac:(lia) ltac:(num) ltac:(cbn; tauto)) as (e2 & E2 & H2).
  { cbn [op_meaning]. rewrite land_255. reflexivity. }
  rewrite E2. cbn [bind]. rewrite brief_ins by exact I.
  assert (L : 0 <= lcode isize <= 1) by (unfold lcode; destruct (isize =? SIZE_LONG); lia).
  destruct (now_bin _ S (here m) OpOr t e2 (v mod 256) (i * 4096 + lcode isize * 2048) (brief i isize 0 v) SO H2 ltac:(lia) ltac:(num) ltac:(cbn; tauto)) as (e3 & E3 & H3).
  { cbn [op_meaning]. rewrite brief_or by exact I. reflexivity. }
  rewrite E3. cbn [bind]. unfold or_scale. cbn [isNull bind].
  destruct (good_expr16 fl S k st m _ t e3 _ room G Ro H3 ltac:(lia)) as (st1 & m1 & E & Em & G1).
  rewrite E. cbn [bind]. exists st1, m1. split; [reflexivity|]. apply sent_one; assumption.
Qed.
Lemma out_brief_number : forall fl S k st m room t e v base i isize sc c ds, good fl S k st m (2 + room) -> 0 <= room -> 0 <= i <= 15 ->
  (isNull e = true /\ v = 0 \/ expr_IsConstant e = true /\ e_v e = v) -> s8 v -> In (sc, c) scales ->
  exists st1 m1, output_indexed (s_F S) (Regs base i isize sc e ds) st = Ok (true, st1) /\
    sent fl S k st [(2%nat, t, brief i isize c v)] st1 m1 room.
Proof.
  intros fl S k st m room t e v base i isize sc c ds G Ro I H V Sc. unfold s8 in V.
  unfold output_indexed. cbn [r_index r_isize r_disp r_scale].
  assert (X : exists e1, (if isNull e then Ok (expr_Const 0, st) else m68k_ExpressionCheck8Bit e st) = Ok (e1, st) /\
                expr_IsConstant e1 = true /\ e_v e1 = v).
  { destruct H as [(-> & ->)|(C & W)]; [exists (expr_Const 0); repeat split; reflexivity|].
    replace (isNull e) with false by (destruct e; [discriminate C|reflexivity]).
    destruct (const_checked e v (-128) 255 st C W ltac:(lia)) as (g & A & B & D & _). exists g. tauto. }
  destruct X as (e1 & -> & C1 & V1). cbn [bind]. unfold expr_And.
  destruct (const_bin (s_F S) OpAnd e1 (expr_Const 255) (v mod 256) C1 eq_refl) as (e2 & -> & C2 & V2 & _).
  { cbn [build_value e_v expr_Const]. rewrite V1, c_and_ok by num. rewrite land_255. reflexivity. }
  cbn [bind]. unfold expr_Or. rewrite brief_ins by exact I.
  assert (L : 0 <= lcode isize <= 1) by (unfold lcode; destruct (isize =? SIZE_LONG); lia).
  assert (B : 0 <= v mod 256 < 256) by (apply Z.mod_pos_bound; lia).
  destruct (const_bin (s_F S) OpOr e2 (expr_Const (i * 4096 + lcode isize * 2048)) (brief i isize 0 v) C2 eq_refl) as (e3 & -> & C3 & V3 & _).
  { cbn [build_value e_v expr_Const]. rewrite V2, c_or_ok by num. rewrite brief_or by exact I. reflexivity. }
  assert (Sb : is_s32 (brief i isize 0 v)) by (unfold brief; num).
  cbn [bind]. destruct (or_scale_number (s_F S) sc c e3 _ Sc C3 V3 Sb) as (e4 & -> & C4 & V4). cbn [bind].
  destruct (good_number16 fl S k st m t e4 room G Ro C4) as (st1 & m1 & -> & Em & G1). cbn [bind].
  exists st1, m1. split; [reflexivity|]. rewrite V4, brief_scale in Em.
  - apply sent_one; assumption.
  - exact I.
  - destruct (scale_facts _ _ Sc) as [(_ & ->)|(_ & _ & _ & R)]; lia.
Qed.
(** What it means. *)
Definition index_at (mc : machine) (i isize c : Z) : Z :=
  let r := if 8 <=? i then areg mc (i - 8) else dreg mc i in
  (if isize =? SIZE_LONG then r else signed 16 r) * 2 ^ c.
Lemma odd_div : forall a b, Z.odd (a / b) = ((a / b) mod 2 =? 1).
Proof. intros. rewrite Zmod_odd. destruct (Z.odd (a / b)); reflexivity. Qed.
Lemma index_read : forall mc w i isize c low, w = i * 4096 + lcode isize * 2048 + c * 512 + low -> 0 <= i <= 15 -> 0 <= c <= 3 -> 0 <= low < 512 ->
  index_of mc w = index_at mc i isize c.
Proof.
  intros mc w i isize c low E I C L. unfold index_of, index_at.
  assert (Lc : 0 <= lcode isize <= 1 /\ (isize =? SIZE_LONG) = (lcode isize =? 1)) by (unfold lcode; destruct (isize =? SIZE_LONG); split; (reflexivity || lia)).
  destruct Lc as (Lc & ->). set (l := lcode isize) in *. clearbody l.
  assert (E1 : w / 4096 = i) by (subst w; Z.div_mod_to_equations; lia).
  assert (E2 : bit 15 w = (8 <=? i)).
  { unfold bit. rewrite odd_div. change (2 ^ 15) with 32768. subst w. Z.div_mod_to_equations. lia. }
  assert (E3 : bit 11 w = (l =? 1)).
  { unfold bit. rewrite odd_div. change (2 ^ 11) with 2048. subst w. Z.div_mod_to_equations. lia. }
  assert (E4 : (w / 512) mod 4 = c) by (subst w; Z.div_mod_to_equations; lia).
  rewrite E1, E2, E3, E4. destruct (8 <=? i) eqn:H.
  - replace (i mod 8) with (i - 8) by (Z.div_mod_to_equations; lia). reflexivity.
  - rewrite Z.mod_small by lia. reflexivity.
Qed.
Lemma brief_read : forall new mc base i isize c v rest, 0 <= i <= 15 -> 0 <= c <= 3 -> new || (c =? 0) = true -> s8 v ->
  extended new mc base (word (brief i isize c v)) rest = Some (addr (base + index_at mc i isize c + v), rest).
Proof.
  intros new mc base i isize c v rest I C N V. unfold extended.
  assert (Lc : 0 <= lcode isize <= 1) by (unfold lcode; destruct (isize =? SIZE_LONG); lia).
  assert (B : 0 <= v mod 256 < 256) by (apply Z.mod_pos_bound; lia).
  rewrite word_small by (unfold brief; lia).
  set (w := brief i isize c v). assert (Ew : w = i * 4096 + lcode isize * 2048 + c * 512 + v mod 256) by reflexivity. clearbody w.
  rewrite (index_read mc w i isize c (v mod 256)) by (exact Ew || lia).
  set (l := lcode isize) in *. clearbody l.
  replace (bit 8 w) with false.
  2:{ unfold bit. rewrite odd_div. change (2 ^ 8) with 256. subst w. symmetry. apply Z.eqb_neq.
      clear N V. set (u := v mod 256) in *. clearbody u. Z.div_mod_to_equations. lia. }
  replace ((w / 512) mod 4) with c.
  2:{ subst w. set (u := v mod 256) in *. clearbody u. Z.div_mod_to_equations. lia. }
  cbn [negb]. replace (negb new && negb (c =? 0)) with false by (destruct new, (c =? 0); try reflexivity; discriminate N).
  rewrite (signed_8 v V w); [reflexivity|]. subst w.
  replace (i * 4096 + l * 2048 + c * 512 + v mod 256) with (v mod 256 + (i * 16 + l * 8 + c * 2) * 256) by lia.
  rewrite Z_mod_plus_full. apply Z.mod_mod. lia.
Qed.
