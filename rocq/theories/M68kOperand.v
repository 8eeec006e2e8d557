(** Proofs about the 680x0 instruction parser: any operand. *)
From Coq Require Import String ZArith List Bool Lia ZifyBool.
From Verif Require Import Base BaseFacts Arith ArithProofs ExprSpec ExprModel ExprLayout ExprTree ExprProofs ObjWriteModel OptModel
  SectModel SectSpec SectProofs InstrSpec InstrProofs.
From Verif Require X65Proofs X65Run Z80Run M6809Proofs.
From Verif Require Import X65Spec M68kModel M68kSpec M68kProofs M68kEa M68kFull M68kParse M68kModes M68kShapes M68kParen.
Import ListNotations.
Open Scope string_scope.
Open Scope list_scope.
Open Scope Z_scope.

Definition fix_imm (z : Z) (md : amode) : amode := if a_mode md =? AM_IMM then set_immsize z md else md.
Definition direct_facts (o : opnd) (md : amode) : Prop :=
  match o with
  | ODreg n | OAreg n => a_direct md = n
  | OInc n | ODec n => r_base (a_outer md) = REG_A0 + n
  | OImm v => a_imm md = g_expr v
  | OAbs v _ => r_disp (a_outer md) = g_expr v
  | _ => True
  end.
(** What may follow an operand. *)
Definition follows (rest : list token) : Prop := match rest with [] | TOther :: _ | TComma :: _ => True | _ => False end.
Lemma follow_cases : forall rest, follows rest -> rest = [] \/ exists r, rest = TOther :: r \/ rest = TComma :: r.
Proof. intros [|[] r] H; try destruct H; [left; reflexivity| |]; right; exists r; tauto. Qed.
Lemma chain_len : forall l r r', chain r l r' -> (List.length l <= List.length (lex (commas l)))%nat.
Proof.
  induction l as [|p l IH]; intros r r' Ch; [apply le_n|]. destruct Ch as (r1 & ((h & t & Hp & _) & _) & Ch). specialize (IH _ _ Ch).
  destruct l as [|p2 l]; [cbn [commas]; rewrite Hp; cbn [List.length]; lia|].
  change (commas (p :: p2 :: l)) with (p ++ Comma :: commas (p2 :: l)). rewrite lex_app, Hp. change (lex (Comma :: commas (p2 :: l))) with (TComma :: lex (commas (p2 :: l))).
  rewrite app_length. cbn [List.length]. cbn [List.length] in IH. lia.
Qed.
Definition a_good (S0 : setting) (a : arg) : Prop := argh S0 a /\ afact a.
Lemma args_good_opt : forall S0 d args, Forall (a_good S0) (opt_args d) -> incl (opt_args d) args -> args_good S0 args d.
Proof.
  intros S0 [(a, s)|] args H I; [|exact Logic.I]. inversion H as [|? ? (H1 & H2) _ E]; subst. split; [exact H1|]. split; [apply I; left; reflexivity|exact H2].
Qed.
Lemma dnull_opt : forall S0 d, Forall (a_good S0) (opt_args d) -> dnull d.
Proof. intros S0 [(a, s)|] H; [|exact Logic.I]. inversion H as [|? ? (_ & H2) _ E]; subst. apply H2. Qed.
Lemma dfact_opt : forall S0 d, Forall (a_good S0) (opt_args d) -> dfact d.
Proof. intros S0 [(a, s)|] H; [|exact Logic.I]. inversion H as [|? ? (_ & H2) _ E]; subst. exact H2. Qed.
(** The parts in parentheses. *)
Lemma read_paren : forall cpu outside d b x rest st S0, opnd_ok (is_new cpu) (OParen outside d b x) = true -> (b = None -> alone x) ->
  Forall (a_good S0) (opt_args d) ->
  m68k_GetAddressingMode cpu (lex (opnd_text (OParen outside d b x)) ++ rest) st =
  let '(ok, a, st2) := optimizeMode cpu (AMode AM_EMPTY 0 ENull 0 no_regs
      (Regs (base_code b) (index_code x) (index_size x) (index_scale x) (disp_e d) (out_size outside d b))) st in Ok (ok, a, rest, st2).
Proof.
  intros cpu outside d b x rest st S0 Ok Al A. cbn [opnd_ok] in Ok. rewrite !andb_true_iff in Ok. destruct Ok as (((((B & X) & Bx) & _) & Ou) & _).
  pose proof (dnull_opt _ _ A) as D. cbn [opnd_text]. destruct outside.
  - destruct d as [(a, s)|]; [|discriminate Ou]. cbn [dnull] in D. unfold disp_text. cbn [fst snd app].
    pose proof (tail_chain (is_new cpu) b x (set_dsize (size_code s) (set_disp (g_expr a) no_regs)) B X Al eq_refl eq_refl eq_refl eq_refl) as Ch.
    cbn [r_disp r_dsize set_dsize set_disp no_regs] in Ch.
    assert (Ne : maybe base_text b ++ maybe index_text x <> []) by (destruct b, x; try discriminate; discriminate Bx).
    pose proof (chain_len _ _ _ Ch) as Le. revert Ch Ne Le. set (l := maybe base_text b ++ maybe index_text x). intros Ch Ne Le.
    change (lex (Operand (g_expr a) :: size_text s ++ Lp :: commas l ++ [Rp])) with (TExpr (g_expr a) :: lex (size_text s ++ Lp :: commas l ++ [Rp])).
    rewrite lex_app. change (lex (Lp :: commas l ++ [Rp])) with (TLp :: lex (commas l ++ [Rp])). rewrite lex_app. change (lex [Rp]) with [TRp].
    cbn [app]. rewrite <- app_assoc. cbn [app]. rewrite <- app_assoc. cbn [app].
    unfold m68k_GetAddressingMode. cbn [parse_Expression]. rewrite D.
    assert (Sz : m68k_GetSizeSpecifier SIZE_DEFAULT (lex (size_text s) ++ TLp :: lex (commas l) ++ TRp :: rest) = (size_code s, TLp :: lex (commas l) ++ TRp :: rest)).
    { destruct s as [[]|]; reflexivity. }
    rewrite Sz. rewrite (outer_chain l _ cpu (set_outer (set_dsize (size_code s) (set_disp (g_expr a) no_regs)) no_mode) rest st _ Ne Ch) by (cbn [List.length]; rewrite app_length; lia).
    cbn [bind negb set_outer a_outer a_mode a_direct a_imm a_immsize a_inner no_mode r_base r_dsize andb].
    destruct (base_code_cases b B) as (_ & ->). unfold out_size. cbn [disp_z disp_e andb]. unfold SIZE_DEFAULT.
    destruct (negb (none b) && (size_code s =? 0)); reflexivity.
  - cbn [app]. pose proof (parts_chain (is_new cpu) d b x D B X Al) as Ch.
    assert (Ne : maybe disp_text d ++ maybe base_text b ++ maybe index_text x <> []) by (destruct d, b, x; try discriminate; discriminate Bx).
    pose proof (chain_len _ _ _ Ch) as Le. revert Ch Ne Le. set (l := maybe disp_text d ++ maybe base_text b ++ maybe index_text x). intros Ch Ne Le.
    change (lex (Lp :: commas l ++ [Rp])) with (TLp :: lex (commas l ++ [Rp])). rewrite lex_app. change (lex [Rp]) with [TRp]. cbn [app]. rewrite <- app_assoc. cbn [app].
    unfold m68k_GetAddressingMode. cbn [parse_Expression isNull]. rewrite (outer_chain l _ cpu (set_outer no_regs no_mode) rest st _ Ne Ch) by (cbn [List.length]; rewrite app_length; lia).
    reflexivity.
Qed.
Lemma read_mem : forall cpu bd b x post od rest st S0, In cpu cpus -> opnd_ok (is_new cpu) (OMem bd b x post od) = true ->
  (post = true \/ b = None -> alone x) -> negb (vanishes b bd && none b && (post || none x)) = true ->
  Forall (a_good S0) (opt_args bd) -> Forall (a_good S0) (opt_args od) ->
  m68k_GetAddressingMode cpu (lex (opnd_text (OMem bd b x post od)) ++ rest) st =
  let '(ok, a, st2) := optimizeMode cpu (AMode AM_EMPTY 0 ENull 0 (raw bd b (if post then None else x)) (raw od None (if post then x else None))) st in Ok (ok, a, rest, st2).
Proof.
  intros cpu bd b x post od rest st S0 Hc Ok Al Ne A1 A2. destruct (cpu_new cpu Hc) as (_ & C2 & _).
  cbn [opnd_ok] in Ok. rewrite !andb_true_iff in Ok. destruct Ok as (((Nw & B) & X) & _). rewrite Nw in *.
  pose proof (dnull_opt _ _ A1) as D1. pose proof (dnull_opt _ _ A2) as D2.
  assert (Ci : chain no_regs (maybe disp_text bd ++ maybe base_text b ++ (if post then [] else maybe index_text x)) (raw bd b (if post then None else x))).
  { replace (if post then [] else maybe index_text x) with (maybe index_text (if post then None else x)) by (destruct post; reflexivity).
    apply (parts_chain true); [exact D1|exact B|destruct post; [reflexivity|exact X]|]. intro E. destruct post; [exact Logic.I|apply Al; tauto]. }
  assert (Co : chain no_regs ((if post then maybe index_text x else []) ++ maybe disp_text od) (raw od None (if post then x else None))).
  { replace (if post then maybe index_text x else []) with (maybe index_text (if post then x else None)) by (destruct post; reflexivity).
    apply (outer_parts_chain true); [exact D2|destruct post; [exact X|reflexivity]|]. destruct post; [apply Al; tauto|exact Logic.I]. }
  assert (Nei : maybe disp_text bd ++ maybe base_text b ++ (if post then [] else maybe index_text x) <> []).
  { destruct bd as [bd|]; [discriminate|]. destruct b; [discriminate|]. destruct post; [discriminate Ne|]. destruct x; [discriminate|discriminate Ne]. }
  cbn [opnd_text]. revert Ci Co Nei.
  set (li := maybe disp_text bd ++ maybe base_text b ++ (if post then [] else maybe index_text x)).
  set (lo := (if post then maybe index_text x else []) ++ maybe disp_text od). intros Ci Co Nei.
  pose proof (chain_len _ _ _ Ci) as Lei. pose proof (chain_len _ _ _ Co) as Leo.
  set (tail := match lo with [] => TRp :: rest | _ => TComma :: lex (commas lo) ++ TRp :: rest end).
  assert (E : lex (Lp :: commas ((Lb :: commas li ++ [Rb]) :: lo) ++ [Rp]) ++ rest = TLp :: TLb :: lex (commas li) ++ TRb :: tail).
  { change (lex (Lp :: commas ((Lb :: commas li ++ [Rb]) :: lo) ++ [Rp])) with (TLp :: lex (commas ((Lb :: commas li ++ [Rb]) :: lo) ++ [Rp])).
    rewrite lex_app. change (lex [Rp]) with [TRp]. cbn [app]. rewrite <- app_assoc. cbn [app]. unfold tail. destruct lo as [|p lo].
    - cbn [commas]. change (lex (Lb :: commas li ++ [Rb])) with (TLb :: lex (commas li ++ [Rb])). rewrite lex_app. change (lex [Rb]) with [TRb].
      cbn [app]. rewrite <- app_assoc. reflexivity.
    - change (commas ((Lb :: commas li ++ [Rb]) :: p :: lo)) with ((Lb :: commas li ++ [Rb]) ++ Comma :: commas (p :: lo)). rewrite lex_app.
      change (lex (Lb :: commas li ++ [Rb])) with (TLb :: lex (commas li ++ [Rb])). rewrite lex_app. change (lex [Rb]) with [TRb].
      change (lex (Comma :: commas (p :: lo))) with (TComma :: lex (commas (p :: lo))).
      cbn [app]. rewrite <- !app_assoc. cbn [app]. reflexivity. }
  rewrite E. unfold m68k_GetAddressingMode. cbn [parse_Expression isNull].
  set (ts := TLb :: lex (commas li) ++ TRb :: tail).
  change (set_outer no_regs no_mode) with no_mode.
  assert (G : getOuterMode (List.length (TLp :: ts)) cpu no_mode ts st = Ok (true, AMode AM_EMPTY 0 ENull 0 (raw bd b (if post then None else x)) (raw od None (if post then x else None)), rest, st)).
  { cbn [List.length getOuterMode]. unfold getOuterPart. unfold ts at 1. rewrite C2.
    rewrite (inner_chain li _ no_mode tail st _ Nei Ci) by (unfold ts; cbn [List.length]; rewrite app_length; lia). cbn [bind negb].
    unfold tail at 1. destruct lo as [|p lo].
    - cbn [chain] in Co. rewrite Co. reflexivity.
    - rewrite (outer_chain (p :: lo) _ cpu _ rest st (raw od None (if post then x else None))).
      + reflexivity.
      + discriminate.
      + exact Co.
      + unfold ts, tail. cbn [List.length]. rewrite !app_length. cbn [List.length]. rewrite app_length. cbn [List.length] in Leo. lia. }
  rewrite G. reflexivity.
Qed.
(** Any operand. *)
Lemma operand_read : forall cpu s S0 fl cur o rest st m, In cpu cpus -> opnd_ok (is_new cpu) o = true ->
  opnd_fits (is_new cpu) cur (e_pc (s_env S0)) s o -> Forall (a_good S0) (opnd_args o) -> (floating cur -> fl = true) ->
  0 <= e_pc (s_env S0) < 2 ^ 31 - 128 -> setting_ok S0 (here m) -> follows rest ->
  exists md, m68k_GetAddressingMode cpu (lex (opnd_text o) ++ rest) st = Ok (true, md, rest, st) /\ direct_facts o md /\
    In (a_mode md) (kinds o) /\ (new_kind (a_mode md) = true -> is_new cpu = true) /\
    forall z, (immediate o = true -> imm_code s z) -> given (is_new cpu) s S0 fl (opnd_args o) o (fix_imm z md).
Proof.
  intros cpu s S0 fl cur o rest st m Hc Hok F A Fl P SO Fo.
  assert (Plain : forall md, given (is_new cpu) s S0 fl (opnd_args o) o md -> immediate o = false ->
            forall z, (immediate o = true -> imm_code s z) -> given (is_new cpu) s S0 fl (opnd_args o) o (fix_imm z md)).
  { intros md G Ni z _. unfold fix_imm. destruct (a_mode md =? AM_IMM) eqn:E; [|exact G]. apply Z.eqb_eq in E. destruct G as (K & _). rewrite E in K.
    exfalso. destruct o; try discriminate Ni; cbn [kinds In] in K; try (destruct K as [K|K]; [discriminate K|]); try (destruct K as [K|K]; [discriminate K|]); try destruct K.
    - destruct (is_pc b), (simple (OParen outside d b x)); cbn [In] in K; repeat (destruct K as [K|K]; [discriminate K|]); destruct K.
    - destruct (is_pc b); cbn [In] in K; repeat (destruct K as [K|K]; [discriminate K|]); destruct K. }
  assert (Done : forall md, m68k_GetAddressingMode cpu (lex (opnd_text o) ++ rest) st = Ok (true, md, rest, st) -> direct_facts o md ->
            given (is_new cpu) s S0 fl (opnd_args o) o md -> immediate o = false ->
            exists md, m68k_GetAddressingMode cpu (lex (opnd_text o) ++ rest) st = Ok (true, md, rest, st) /\ direct_facts o md /\
              In (a_mode md) (kinds o) /\ (new_kind (a_mode md) = true -> is_new cpu = true) /\
              forall z, (immediate o = true -> imm_code s z) -> given (is_new cpu) s S0 fl (opnd_args o) o (fix_imm z md)).
  { intros md E Df G Ni. exists md. split; [exact E|]. split; [exact Df|]. split; [apply G|]. split; [apply G|]. apply Plain; assumption. }
  destruct o as [n|n|n|n|n|a n|a|a s0|a|outside d b x|bd b x post od]; cbn [opnd_ok opnd_fits opnd_args] in *.
  - apply (Done (AMode AM_DREG n ENull 0 no_regs no_regs)).
    + cbn [opnd_text lex map app]. rewrite lex_d by exact Hok. reflexivity.
    + reflexivity.
    + split; [left; reflexivity|]. split; [intro K; discriminate K|]. exists 0, n. split; [split; reflexivity|]. apply sh_dreg, Hok.
    + reflexivity.
  - apply (Done (AMode AM_AREG n ENull 0 no_regs no_regs)).
    + cbn [opnd_text lex map app]. rewrite lex_a by exact Hok. reflexivity.
    + reflexivity.
    + split; [left; reflexivity|]. split; [intro K; discriminate K|]. exists 1, n. split; [split; reflexivity|]. apply sh_areg, Hok.
    + reflexivity.
  - apply (Done (AMode AM_AIND n ENull 0 no_regs (set_base (REG_A0 + n) no_regs))).
    + cbn [opnd_text lex map app]. rewrite lex_ind by exact Hok. reflexivity.
    + exact Logic.I.
    + split; [left; reflexivity|]. split; [intro K; discriminate K|]. exists 2, n. split; [cbn [fields through_pc]; tauto|].
      apply (sh_through _ s S0 fl [] AM_AIND n); [exact Hok|left; reflexivity].
    + reflexivity.
  - apply (Done (AMode AM_AINC n ENull 0 no_regs (set_base (REG_A0 + n) no_regs))).
    + cbn [opnd_text lex map app]. rewrite lex_inc by exact Hok. reflexivity.
    + reflexivity.
    + split; [left; reflexivity|]. split; [intro K; discriminate K|]. exists 3, n. split; [split; reflexivity|].
      apply (sh_through _ s S0 fl [] AM_AINC n); [exact Hok|right; left; reflexivity].
    + reflexivity.
  - apply (Done (AMode AM_ADEC n ENull 0 no_regs (set_base (REG_A0 + n) no_regs))).
    + cbn [opnd_text lex map app]. rewrite lex_dec by exact Hok. reflexivity.
    + reflexivity.
    + split; [left; reflexivity|]. split; [intro K; discriminate K|]. exists 4, n. split; [split; reflexivity|].
      apply (sh_through _ s S0 fl [] AM_ADEC n); [exact Hok|right; right; left; reflexivity].
    + reflexivity.
  - inversion A as [|? ? (H & N & Ev) _ E]; subst.
    assert (Hh : held 240 true S0 (here m) (g_term a) (g_expr a) (g_value a)).
    { rewrite <- (M6809Proofs.moved_0 S0). apply (Z80Run.held_moved 240 true S0 None), H. }
    destruct (Z80Run.held_checked 240 true S0 (here m) _ _ _ (-32768) 65535 st SO Hh) as (e1 & E1 & H1); try (unfold is_s32; lia); [unfold s16 in F; lia|].
    assert (H1' : eheld S0 (g_term a) e1 (g_value a)).
    { unfold eheld. rewrite <- (M6809Proofs.moved_0 S0). apply (Z80Run.held_moved 248 true S0 (here m)). apply (Z80Run.held_less (240 + 2)); [exact H1|lia]. }
    apply (Done (AMode AM_ADISP 0 ENull 0 no_regs (set_dsize SIZE_WORD (set_base (REG_A0 + n) (set_disp e1 no_regs))))).
    + cbn [opnd_text lex map app]. change (lex1 (Operand (g_expr a))) with (TExpr (g_expr a)). rewrite lex_ind by exact Hok. unfold m68k_GetAddressingMode. cbn [parse_Expression]. rewrite N.
      unfold m68k_ExpressionCheck16Bit. cbn [m68k_GetSizeSpecifier]. rewrite E1. reflexivity.
    + exact Logic.I.
    + split; [left; reflexivity|]. split; [intro K; discriminate K|]. exists 5, n. split; [cbn [fields through_pc]; tauto|].
      apply (sh_adisp _ s S0 fl [a] n 0 ENull 0 no_regs REG_NONE 0 ENull (g_term a) e1 (g_value a) 2); try assumption; [apply src_arg; left; reflexivity|left; reflexivity].
    + reflexivity.
  - inversion A as [|? ? (H & N & Ev) _ E]; subst.
    apply (Done (AMode AM_PCDISP 0 ENull 0 no_regs (set_dsize SIZE_WORD (set_base REG_PC (set_disp (g_expr a) no_regs))))).
    + cbn [opnd_text lex map app]. change (lex1 (Operand (g_expr a))) with (TExpr (g_expr a)). change (lex1 (Word "(PC)")) with TPcInd. unfold m68k_GetAddressingMode. cbn [parse_Expression]. rewrite N. reflexivity.
    + exact Logic.I.
    + split; [left; reflexivity|]. split; [intro K; discriminate K|]. exists 7, 2. split; [cbn [fields through_pc]; tauto|].
      apply sh_pcdisp; try assumption; left; reflexivity.
    + reflexivity.
  - inversion A as [|? ? (H & N & Ev) _ E]; subst.
    set (z := match s0 with Some SW => 2 | Some SL => 4 | _ => if small 16 a then 2 else 4 end).
    assert (Z24 : z = 2 \/ z = 4) by (unfold z; destruct s0 as [[]|]; try destruct (small 16 a); tauto).
    apply (Done (AMode (if z =? 2 then AM_WORD else AM_LONG) 0 ENull 0 no_regs (set_dsize z (set_disp (g_expr a) no_regs)))).
    + cbn [opnd_text]. change (lex (disp_text (a, s0))) with (TExpr (g_expr a) :: lex (size_text s0)). cbn [app].
      unfold m68k_GetAddressingMode. cbn [parse_Expression]. rewrite N.
      assert (Sz : m68k_GetSizeSpecifier SIZE_DEFAULT (lex (size_text s0) ++ rest) = (size_code s0, rest)).
      { destruct s0 as [[]|]; try reflexivity. cbn [size_text lex map app]. destruct (follow_cases rest Fo) as [-> |(r & [-> | ->])]; reflexivity. }
      rewrite Sz.
      assert (Od : m68k_OptimizeDisplacement (set_dsize (size_code s0) (set_disp (g_expr a) no_regs)) = set_dsize z (set_disp (g_expr a) no_regs)).
      { unfold m68k_OptimizeDisplacement. cbn [set_dsize set_disp r_disp r_dsize]. rewrite N. cbn [negb andb]. unfold z, small, known_now.
        change (2 ^ (16 - 1)) with 32768. destruct s0 as [[]|]; try reflexivity; [discriminate Hok|]. cbn [size_code SIZE_DEFAULT Z.eqb].
        destruct (expr_IsConstant (g_expr a)) eqn:K; [|reflexivity]. cbn [andb]. rewrite (Ev eq_refl).
        replace (g_value a <=? 32767) with (g_value a <? 32768) by lia. change (-32768) with (- (32768)).
        destruct ((- (32768) <=? g_value a) && (g_value a <? 32768)); reflexivity. }
      rewrite Od. cbn [set_dsize r_dsize].
      destruct (follow_cases rest Fo) as [-> |(r & [-> | ->])]; destruct Z24 as [-> | ->]; reflexivity.
    + reflexivity.
    + assert (V : z = 2 -> s16 (g_value a)).
      { unfold z. destruct s0 as [[]|]; intro E2; try discriminate E2; try exact F; (destruct (small 16 a) eqn:Sm; [|discriminate E2]);
          apply small_s in Sm; unfold s16; change (2 ^ (16 - 1)) with 32768 in Sm; lia. }
      split; [destruct Z24 as [-> | ->]; [left|right; left]; reflexivity|]. split; [destruct Z24 as [-> | ->]; intro K; discriminate K|].
      exists 7, (if z =? 2 then 0 else 1). split; [cbn [fields through_pc]; right; right; right; split; [reflexivity|]; destruct (z =? 2); tauto|].
      destruct (z =? 2) eqn:E2.
      * apply (sh_word _ s S0 fl [a] _ _ _ _ _ _ _ _ _ (g_term a)); [apply argh_eheld, H|apply V; lia|apply src_arg; left; reflexivity].
      * apply (sh_long _ s S0 fl [a] _ _ _ _ _ _ _ _ _ (g_term a)); [apply argh_eheld, H|apply src_arg; left; reflexivity].
    + reflexivity.
  - inversion A as [|? ? (H & N & Ev) _ E]; subst.
    exists (AMode AM_IMM 0 (g_expr a) 0 no_regs no_regs). split; [reflexivity|]. split; [reflexivity|]. split; [left; reflexivity|]. split; [intro K; discriminate K|].
    intros z I. split; [left; reflexivity|]. split; [intro K; discriminate K|]. exists 7, 4. split; [split; reflexivity|].
    apply sh_imm; [exact H|exact F|apply I; reflexivity].
  - destruct (paren_case cpu s S0 fl cur (opt_args d) outside d b x st Hc Hok F) as (md & E & G); try assumption.
    { apply args_good_opt; [exact A|apply incl_refl]. }
    apply (Done md); [|exact Logic.I|exact G|reflexivity].
    rewrite (read_paren cpu outside d b x rest st S0 Hok (proj1 F) A), E. reflexivity.
  - apply Forall_app in A. destruct A as (A1 & A2).
    assert (Nw : is_new cpu = true) by (rewrite !andb_true_iff in Hok; apply Hok). pose proof F as (Al & W1 & W2 & Ne).
    apply (Done (mem_md post bd b x od)).
    + rewrite (read_mem cpu bd b x post od rest st S0 Hc Hok Al Ne A1 A2).
      rewrite (optimize_mem (is_new cpu)); [reflexivity|apply (dfact_opt _ _ A1)|apply (dfact_opt _ _ A2)|..]; try assumption.
      * rewrite !andb_true_iff in Hok; apply Hok.
      * rewrite !andb_true_iff in Hok; apply Hok.
    + exact Logic.I.
    + rewrite Nw in *. apply (given_mem s S0 fl cur); try assumption.
      * apply args_good_opt; [exact A1|]. intros y Y. apply in_or_app. left. exact Y.
      * apply args_good_opt; [exact A2|]. intros y Y. apply in_or_app. right. exact Y.
    + reflexivity.
Qed.
