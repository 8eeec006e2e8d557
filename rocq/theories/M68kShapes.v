(** Proofs about the 680x0 instruction parser: indexed addressing modes. *)
From Coq Require Import String ZArith List Bool Lia ZifyBool.
From Verif Require Import Base BaseFacts Arith ArithProofs ExprSpec ExprModel ExprLayout ExprTree ExprProofs ObjWriteModel OptModel
  SectModel SectSpec SectProofs InstrSpec InstrProofs.
From Verif Require X65Proofs X65Run Z80Run M6809Proofs.
From Verif Require Import X65Spec M68kModel M68kSpec M68kProofs M68kEa M68kFull M68kParse M68kModes.
Import ListNotations.
Open Scope string_scope.
Open Scope list_scope.
Open Scope Z_scope.

Lemma sh_brief : forall new s S0 fl args n d im z i ic isz sc c t e v ds, reg_ok n = true -> 0 <= ic <= 15 -> In (sc, c) scales ->
  new || (c =? 0) = true -> s8 v ->
  (e = ENull /\ v = 0 \/ eheld S0 t e v /\ src args t /\ (sc = ENull \/ expr_IsConstant e = true)) ->
  shaped new s S0 fl false args (AMode AM_AXDISP d im z i (Regs (REG_A0 + n) ic isz sc e ds)) 6 n
    (fun mc => Mem (addr (areg mc n + index_at mc ic isz c + v))).
Proof.
  intros new s S0 fl args n d im z i ic isz sc c t e v ds H I Sc Ne V E. destruct (low_reg n H) as (L0 & _ & _ & _ & _ & L6 & _).
  assert (C : 0 <= c <= 3) by (destruct (scale_facts _ _ Sc) as [(_ & ->)|(_ & _ & _ & R)]; lia).
  split; [change (Some (Z.lor 0x30 (Z.land (REG_A0 + n) 7)) = Some (6 * 8 + n)); congruence|]. split; [lia|]. split; [apply reg_range, H|].
  intros q k st m room _ G Ro. pose proof G as (SO & _).
  assert (X : exists t', exists st1 m1, output_indexed (s_F (moved q S0)) (Regs (REG_A0 + n) ic isz sc e ds) st = Ok (true, st1) /\
             sent fl (moved q S0) k st [(2%nat, t', brief ic isz c v)] st1 m1 (8 + room) /\ (t' = Num (brief ic isz c v) \/ src args t')).
  { assert (G' : good fl (moved q S0) k st m (2 + (8 + room))) by (replace (2 + (8 + room)) with (10 + room) by lia; exact G).
    assert (Num' : (isNull e = true /\ v = 0 \/ expr_IsConstant e = true /\ e_v e = v) -> forall t', exists st1 m1,
              output_indexed (s_F (moved q S0)) (Regs (REG_A0 + n) ic isz sc e ds) st = Ok (true, st1) /\
              sent fl (moved q S0) k st [(2%nat, t', brief ic isz c v)] st1 m1 (8 + room)).
    { intros X t'. apply (out_brief_number fl _ k st m (8 + room) t' e v _ ic isz sc c ds G'); (assumption || lia). }
    destruct E as [(-> & ->)|(E & Sr & K)].
    - exists (Num (brief ic isz c 0)). destruct (Num' (or_introl (conj eq_refl eq_refl)) (Num (brief ic isz c 0))) as (st1 & m1 & A & B).
      exists st1, m1. split; [exact A|]. split; [exact B|]. left. reflexivity.
    - exists t. pose proof (eheld_now S0 t e v q (here m) E) as Nw. destruct (now_facts _ _ _ _ _ _ SO Nw) as (_ & Co & _).
      destruct K as [-> |K].
      + assert (c = 0) by (destruct (scale_facts _ _ Sc) as [(_ & X)|(X & _)]; [exact X|discriminate X]). subst c.
        destruct (out_brief fl _ k st m (8 + room) 248 t e v (REG_A0 + n) ic isz ds G') as (st1 & m1 & A & B); try assumption; try lia.
        exists st1, m1. tauto.
      + destruct (Num' (or_intror (conj K (Co K))) t) as (st1 & m1 & A & B). exists st1, m1. tauto. }
  destruct X as (t' & st1 & m1 & A & B & Tr). exists st1, m1, [(2%nat, t', brief ic isz c v)].
  split; [exact A|]. split; [destruct B as (B1 & B2); split; [exact B1|apply (good_less _ _ _ _ _ _ _ B2); lia]|].
  split; [destruct Tr as [-> |Tr]; [apply stored_num|apply stored_src; [|exact Tr]]; left; reflexivity|]. split; [discriminate|].
  intros mc rest. change (in_memory (extended new mc (areg mc n) (word (brief ic isz c v)) rest) = Some (Mem (addr (areg mc n + index_at mc ic isz c + v)), rest)).
  rewrite brief_read by assumption. reflexivity.
Qed.
Lemma sh_brief_pc : forall new s S0 fl args a d im z i b ic isz ds, 0 <= ic <= 15 -> argh S0 a -> In a args ->
  reached (e_pc (s_env S0)) (g_value a) s8 -> 0 <= e_pc (s_env S0) < 2 ^ 31 - 128 ->
  shaped new s S0 fl true args (AMode AM_PCXDISP d im z i (Regs b ic isz ENull (g_expr a) ds)) 7 3
    (fun mc => Mem (addr (index_at mc ic isz 0 + g_value a))).
Proof.
  intros new s S0 fl args a d im z i b ic isz ds I H Ia (V & R) P.
  split; [reflexivity|]. split; [lia|]. split; [lia|].
  intros q k st m room Q G Ro. pose proof G as (SO & _). destruct (in_q q Q) as (Iq & Q2). specialize (R q Iq).
  destruct (now_pcrel (moved q S0) (here m) 0 a SO (argh_moved _ _ _ H)) as (e1 & E1 & Nw); [left; exact V|lia|rewrite pc_moved; lia|].
  rewrite pc_moved in Nw. set (pc := e_pc (s_env S0)) in *. replace (g_value a + 0 - (pc + q)) with (g_value a - (pc + q)) in Nw by lia.
  assert (Nua : isNull (g_expr a) = false) by (pose proof (argh_now _ (here m) a (argh_moved _ q _ H)) as X; apply (now_facts _ _ _ _ _ _ SO X)).
  assert (G' : good fl (moved q S0) k st m (2 + (8 + room))) by (replace (2 + (8 + room)) with (10 + room) by lia; exact G).
  destruct (out_brief fl _ k st m (8 + room) 241 (PcRel 0 (g_term a)) e1 (g_value a - (pc + q)) b ic isz ds G') as (st1 & m1 & A & B); try assumption; try lia.
  exists st1, m1, [(2%nat, PcRel 0 (g_term a), brief ic isz 0 (g_value a - (pc + q)))]. split.
  { change ((let! o1 := pc_relative (s_F S0) 0 (Regs b ic isz ENull (g_expr a) ds) st in output_indexed (s_F S0) o1 st) = Ok (true, st1)).
    unfold pc_relative. cbn [r_disp]. rewrite Nua, (good_current _ _ _ _ _ _ G). change (s_F (moved q S0)) with (s_F S0) in E1. rewrite E1. exact A. }
  split; [destruct B as (B1 & B2); split; [exact B1|apply (good_less _ _ _ _ _ _ _ B2); lia]|].
  split; [apply stored_src; [left; reflexivity|apply src_pc, Ia]|]. split; [discriminate|].
  intros mc rest. change (in_memory (extended new mc (pc + q) (word (brief ic isz 0 (g_value a - (pc + q)))) rest) = Some (Mem (addr (index_at mc ic isz 0 + g_value a)), rest)).
  rewrite brief_read; [|exact I|lia|apply orb_true_r|exact R]. cbn [in_memory]. do 4 f_equal. lia.
Qed.
Lemma sh_full : forall s S0 fl pcrel args md mode reg base index isz sc c d1 o pl,
  m68k_GetEffectiveAddressField md = Some (mode * 8 + reg) -> (mode = 6 /\ 0 <= reg <= 7 \/ mode = 7 /\ reg = 3) ->
  (is_none index = false -> 0 <= index <= 15) -> In (sc, c) scales ->
  (forall q k st m room, offset_ok pcrel q -> good fl (moved q S0) k st m (10 + room) ->
     exists bd od t1, m68k_OutputExtensionWords (s_F S0) md st = full_word (s_F S0) base index isz sc bd od st /\
       dis fl (moved 2 (moved q S0)) args bd t1 (d1 q) /\ od_is fl (moved q S0) args index od o) ->
  (forall mc q, offset_ok pcrel q -> pl mc = Mem (full_address mc (if mode =? 6 then areg mc reg else e_pc (s_env S0) + q) base index isz c (d1 q) o)) ->
  shaped true s S0 fl pcrel args md mode reg pl.
Proof.
  intros s S0 fl pcrel args md mode reg base index isz sc c d1 o pl Fi Mo I Sc Out Pl.
  split; [exact Fi|]. split; [lia|]. split; [lia|].
  intros q k st m room Q G Ro. destruct (Out q k st m room Q G) as (bd & od & t1 & E & Bd & Od).
  destruct (out_full fl (moved q S0) k st m room args base index isz sc c bd t1 (d1 q) od o G Ro I Sc Bd Od) as (st1 & m1 & cells & Ef & Se & St & W & Re).
  exists st1, m1, cells. split; [rewrite E; exact Ef|]. split; [exact Se|]. split; [exact St|]. split; [exact W|].
  intros mc rest. rewrite (Pl mc q Q).
  destruct (Re mc (if mode =? 6 then areg mc reg else e_pc (s_env S0) + q) rest) as (w & ws & Ew & Ex). rewrite Ew.
  destruct Mo as [(-> & Rr)|(-> & ->)].
  - cbn [Z.eqb Pos.eqb] in Ex |- *. change (effective true mc s 6 reg (e_pc (s_env S0) + q) (w :: ws)) with (in_memory (extended true mc (areg mc reg) w ws)).
    rewrite Ex. reflexivity.
  - cbn [Z.eqb Pos.eqb] in Ex |- *. change (effective true mc s 7 3 (e_pc (s_env S0) + q) (w :: ws)) with (in_memory (extended true mc (e_pc (s_env S0) + q) w ws)).
    rewrite Ex. reflexivity.
Qed.

(** ** Optimisation *)
Definition scale_of (x : option index) : expr :=
  match x with Some x => match x_scale x with None => ENull | Some c => if c =? 1 then ENull else scale_expr c end | None => ENull end.
Definition scale_log (x : option index) : Z := match x with Some x => match x_scale x with None => 0 | Some c => Z.log2 c end | None => 0 end.
Lemma scale_in : forall new x, index_ok new x = true -> In (scale_of x, scale_log x) scales /\ (new = false -> scale_log x = 0).
Proof.
  intros new [x|] H; [|split; [left; reflexivity|reflexivity]]. unfold scale_of, scale_log, index_ok in *.
  destruct (x_scale x) as [c|]; [|split; [left; reflexivity|reflexivity]].
  assert (K : c = 1 \/ new = true /\ (c = 2 \/ c = 4 \/ c = 8)) by (destruct new; lia).
  destruct K as [-> |(-> & K)]; [split; [left; reflexivity|reflexivity]|]. split; [|discriminate].
  destruct K as [->|[->| ->]]; cbn [scales In]; [right; left|right; right; left|right; right; right; left]; reflexivity.
Qed.
Lemma index_code_range : forall new x, index_ok new (Some x) = true -> 0 <= index_code (Some x) <= 15.
Proof.
  intros new x H. cbn [index_ok] in H. unfold index_code, REG_A0. assert (R : reg_ok (x_n x) = true) by (destruct (reg_ok (x_n x)); [reflexivity|discriminate H]).
  pose proof (reg_range _ R). destruct (x_addr x); lia.
Qed.
Lemma index_meaning : forall new x mc, index_ok new (Some x) = true ->
  index_at mc (index_code (Some x)) (index_size (Some x)) (scale_log (Some x)) = index_value mc (Some x).
Proof.
  intros new x mc H. unfold index_at, index_code, index_size, scale_log, index_value. cbn [index_ok] in H.
  assert (R : reg_ok (x_n x) = true) by (destruct (reg_ok (x_n x)); [reflexivity|discriminate H]). pose proof (reg_range _ R) as Rr.
  assert (Sc : 2 ^ match x_scale x with None => 0 | Some c => Z.log2 c end = match x_scale x with None => 1 | Some c => c end).
  { destruct (x_scale x) as [c|]; [|reflexivity]. assert (K : c = 1 \/ c = 2 \/ c = 4 \/ c = 8) by (destruct new; lia).
    destruct K as [->|[->|[->| ->]]]; reflexivity. }
  rewrite Sc. f_equal.
  destruct (x_addr x).
  - replace (8 <=? REG_A0 + x_n x) with true by (unfold REG_A0; lia). replace (REG_A0 + x_n x - 8) with (x_n x) by (unfold REG_A0; lia).
    destruct (x_size x) as [[]|]; reflexivity.
  - replace (8 <=? x_n x) with false by lia. destruct (x_size x) as [[]|]; reflexivity.
Qed.
(** What is known of an expression when it is read. *)
Definition afact (a : arg) : Prop := isNull (g_expr a) = false /\ (expr_IsConstant (g_expr a) = true -> e_v (g_expr a) = g_value a).
Definition dfact (d : option disp) : Prop := match d with Some (a, _) => afact a | None => True end.
Lemma base_code_cases : forall b, base_ok b = true ->
  (base_code b =? REG_PC) = is_pc b /\ (base_code b =? REG_NONE) = none b.
Proof.
  intros [[n|]|] H; cbn [base_code is_pc none]; try (split; reflexivity). cbn [base_ok] in H. pose proof (reg_range _ H).
  unfold REG_A0, REG_PC, REG_NONE. lia.
Qed.
Lemma index_code_none : forall new x, index_ok new x = true -> (index_code x =? REG_NONE) = none x.
Proof.
  intros new [x|] H; [|reflexivity]. pose proof (index_code_range new x H). unfold REG_NONE. cbn [none]. lia.
Qed.
Definition shown (b : option base) (d : option disp) : expr := if vanishes b d then ENull else disp_e d.
Definition opted (d : option disp) (b : option base) (x : option index) (z : Z) : regs :=
  Regs (base_code b) (index_code x) (index_size x) (scale_of x) (shown b d) z.
Lemma opt_raw : forall new d b x z, dfact d -> base_ok b = true -> index_ok new x = true -> (b = None -> alone x) ->
  optimizeFields (Regs (base_code b) (index_code x) (index_size x) (index_scale x) (disp_e d) z) = opted d b x z.
Proof.
  intros new d b x z D B X Al. destruct (base_code_cases b B) as (Bp & Bn). unfold optimizeFields. cbn [r_base r_disp]. rewrite Bp.
  assert (E1 : (if negb (is_pc b) && negb (isNull (disp_e d)) && expr_IsConstant (disp_e d) && (e_v (disp_e d) =? 0)
      then set_disp ENull (Regs (base_code b) (index_code x) (index_size x) (index_scale x) (disp_e d) z)
      else Regs (base_code b) (index_code x) (index_size x) (index_scale x) (disp_e d) z) =
      Regs (base_code b) (index_code x) (index_size x) (index_scale x) (shown b d) z).
  { unfold shown, vanishes, known_now. destruct d as [(a, s)|]; cbn [disp_e]; [|destruct (is_pc b); reflexivity]. cbn [dfact] in D. destruct D as (D1 & D2).
    rewrite D1. cbn [negb]. rewrite andb_true_r. destruct (expr_IsConstant (g_expr a)); [|rewrite !andb_false_r; reflexivity].
    rewrite D2 by reflexivity. destruct (negb (is_pc b) && true && (g_value a =? 0)); reflexivity. }
  rewrite E1. cbn [r_scale].
  assert (E2 : (if negb (isNull (index_scale x)) && expr_IsConstant (index_scale x) && (e_v (index_scale x) =? 0)
      then set_scale ENull (Regs (base_code b) (index_code x) (index_size x) (index_scale x) (shown b d) z)
      else Regs (base_code b) (index_code x) (index_size x) (index_scale x) (shown b d) z) = opted d b x z).
  { unfold opted, index_scale, scale_of. destruct x as [x|]; [|reflexivity]. cbn [index_ok] in X. destruct (x_scale x) as [c|]; [|reflexivity].
    assert (K : c = 1 \/ c = 2 \/ c = 4 \/ c = 8) by (destruct new; lia). destruct K as [->|[->|[->| ->]]]; reflexivity. }
  rewrite E2. unfold opted. cbn [r_base r_index r_isize]. rewrite Bn.
  replace (none b && (REG_A0 <=? index_code x) && (index_code x <=? REG_A7) && (index_size x =? SIZE_LONG)) with false; [reflexivity|].
  destruct b as [b|]; [reflexivity|]. specialize (Al eq_refl). cbn [none andb]. symmetry.
  destruct x as [x|]; [|reflexivity]. cbn [index_code index_size alone] in *. destruct (x_addr x) eqn:A.
  - destruct (Al eq_refl) as (-> & _). rewrite andb_false_r. reflexivity.
  - cbn [index_ok] in X. assert (R : reg_ok (x_n x) = true) by (destruct (reg_ok (x_n x)); [reflexivity|discriminate X]).
    pose proof (reg_range _ R). replace (REG_A0 <=? x_n x) with false by (unfold REG_A0; lia). reflexivity.
Qed.
