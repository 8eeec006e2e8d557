(** C47: PC-relative operands hold the distance from the place they are stored at. *)
From Coq Require Import ZArith List Bool Lia ZifyBool.
From Verif Require Import Base BaseFacts Arith ObjWriteModel SymModel SymSpec SymProofs
  ExprSpec ExprModel ExprLayout ExprTree ArithProofs ExprProofs ExprTotal ReduceProofs
  LinkExprModel LinkLayout LinkExprProofs ExprProps OptModel SectModel SectSpec InstrSpec InstrProofs PcRelSpec.
Import ListNotations.
Open Scope Z_scope.

(** ** Any target *)

Lemma pcrel_in_range : forall x adj pc, is_s32 (x + adj) -> is_s32 (adj - pc) -> is_s32 (x + adj - pc) ->
  pcrel_meaning x adj pc = Some (x + adj - pc).
Proof.
  intros x adj pc A B C. unfold pcrel_meaning. rewrite (inr_of _ A), (inr_of _ B), (inr_of _ C). reflexivity.
Qed.

(** A target expression of value [x] at a place with address [pc]: the operand is the
    distance [x + adj - pc], known at once or resolved in the end. *)
Theorem C47_distance : forall S cur t e x adj d, setting_ok S cur -> operand S cur t e x -> ~ paren_head t ->
  tdepth t <= 255 -> is_s32 adj ->
  d = x + adj - e_pc (s_env S) -> is_s32 (x + adj) -> is_s32 (adj - e_pc (s_env S)) -> is_s32 d ->
  exists e1, expr_PcRelative (s_F S) cur e adj = Ok e1 /\
    (expr_IsConstant e1 = true -> e_v e1 = d) /\ resolves S t e1 d.
Proof.
  intros S cur t e x adj d SO Op Np De A -> X1 X2 X3.
  destruct (operand_pcrel S cur adj t e x _ SO Op A Np (pcrel_in_range _ _ _ X1 X2 X3)) as (e1 & B & O1).
  exists e1. split; [exact B|]. split; [apply (operand_facts _ _ _ _ _ SO O1)|].
  eapply operand_resolves; [exact SO|exact O1| |exact (within_refl t)]. cbn [tdepth]. lia.
Qed.
Print Assumptions C47_distance.

(** ** A label of the same section *)

(** What a label is when it has been defined. *)
Lemma label_made : forall n st st1 k a, symbols_fine st -> z_section st = Some (k, a) ->
  sym_CreateLabel n st = Ok st1 -> z_errors st1 = z_errors st ->
  exists r s, at_ st1 r s /\ s_name s = n /\
    if fixed_address a
    then exists sec, ay_sym (s_asym s) = Symbol SymEqu true false true sec (s32 (a_pc a + a_cpuAdjust a + a_cpuOrigin a))
    else ay_sym (s_asym s) = Symbol SymLabel false true true (Some k) (s32 (a_pc a)).
Proof.
  intros n st st1 k a F Z1 H ER. unfold sym_CreateLabel in H.
  destruct (findOrCreateSymbol n st) as [r st0] eqn:Q.
  destruct (meaning_foc _ _ _ _ F Q) as (s & M & A & N & SN & FF & F1 & RS & SC & SE & ER0 & FR & _).
  rewrite (proj2 (the_sym_ok r st0 s) A) in H. cbn [bind] in H.
  assert (NE : forall x y : list Z, length x = S (length y) -> x <> y) by (intros x y L ->; lia).
  destruct (s_modifiable s && _).
  2:{ exfalso. injection H as <-. revert ER. cbn. rewrite ER0. apply NE. rewrite ?app_length; cbn; lia. }
  rewrite SE, Z1 in H.
  set (s1 := if symtype_eqb (s_type s) SymGlobal then set_export s else s) in H.
  assert (NM : s_name s1 = n) by (unfold s1; destruct (symtype_eqb (s_type s) SymGlobal); exact N).
  injection H as <-. unfold fixed_address.
  destruct ((a_loadfixed a || a_orgfixed a) && negb (a_bankfixed a)).
  - eexists r, _. split; [apply scope_at; eapply put_at; exact A|]. split; [exact NM|]. eexists. reflexivity.
  - eexists r, _. split; [apply scope_at; eapply put_at; exact A|]. split; [exact NM|]. reflexivity.
Qed.

(** An expression with a value in the layout keeps it until the end. *)
Lemma finishes : forall S i e d, fmath_ok (s_F S) -> env_ok (s_world S) (s_base S) (s_env S) ->
  bf e -> den (s_F S) (s_env S) e = Some d -> depth e <= 256 -> incl (svals e) [i] -> sbanks e = [] ->
  has_bit e = false -> y_type (w_symbol (s_world S) i) <> SymUndefined -> resolves S (Sym i) e d.
Proof.
  intros S i e d HF HE Bf D P Sv Sb Nb Ty k a off id c Hat (Hpc & Hsv & Hsb).
  destruct (optimize_ok (s_F S) (s_world S) (s_base S) (s_env S) HE (s_garb S) e Bf) as (O & Do & Po & So & Ko).
  destruct (reduce_ok (s_F S) (s_world S) (s_base S) (s_env S) HF HE k a off Hat (expr_Optimize (s_world S) e) d O)
    as (ov & e' & R & Hx & D' & Or & Pr & Sr & Kr).
  { intros s Hs. apply So, Sv in Hs. destruct Hs as [<-|[]]. exact Ty. }
  { congruence. }
  assert (HB : has_bit e' = false).
  { eapply reduce_no_bit; [|exact R]. apply optimize_no_bit. exact Nb. }
  destruct (write_total id e' Or HB) as [bs W].
  exists ov, e', bs. split; [exact R|]. split; [exact Hx|]. split; [exact W|].
  unfold calculateExpressionValue. rewrite <- (app_nil_r bs).
  rewrite (calc_write (s_F S) (s_env S) c id HF Hpc (s_world S) (s_base S) HE e' bs d Or W D').
  - reflexivity.
  - intros s Hs. apply Hsv. apply Sr, So, Sv in Hs. exact Hs.
  - intros s Hs. apply Kr, Ko in Hs. rewrite Sb in Hs. destruct Hs.
  - change (zlen []) with 0. lia.
Qed.

Lemma s32_swap : forall x y z d, is_s32 d -> d = x - (y - z) -> s32 (s32 x - (y - z)) = d.
Proof.
  intros x y z d D ->. rewrite <- (s32_id (x - (y - z))) by assumption. apply s32_eq.
  pose proof (u32_s32 x) as H. generalize dependent (y - z). intros t _. unfold u32 in *.
  rewrite Zminus_mod, H, <- Zminus_mod. reflexivity.
Qed.
Lemma s32_less : forall a b, s32 (a - s32 b) = s32 (a - b).
Proof.
  intros a b. apply s32_eq. pose proof (u32_s32 b) as H. unfold u32 in *.
  rewrite Zminus_mod, H, <- Zminus_mod. reflexivity.
Qed.

(** A label is defined in a section, and an operand relative to the program counter
    refers to it from the same section, before or after: it is the distance between
    the two, wherever the linker puts the section.  [w0] is the assembler's knowledge
    when the operand is read; [a1] and [a2] are the section then and in the end. *)
Theorem C47_same_section : forall n st st1 k a, symbols_fine st -> z_section st = Some (k, a) ->
  sym_CreateLabel n st = Ok st1 -> z_errors st1 = z_errors st ->
  exists r s, at_ st1 r s /\ s_name s = n /\
  forall S w0 i a1 a2 adj d,
    w_symbol (s_world S) i = ay_sym (s_asym s) ->
    (w_symbol w0 i = ay_sym (s_asym s) \/
     y_constant (w_symbol w0 i) = false /\ y_expression (w_symbol w0 i) = true) ->
    same_section a a1 -> same_section a a2 -> nth_error (w_sections (s_world S)) k = Some a2 ->
    org_fits a -> a_bankfixed a && a_orgfixed a = false ->
    fmath_ok (s_F S) -> env_ok (s_world S) (s_base S) (s_env S) -> e_pc (s_env S) = runs_at (s_base S) k a1 ->
    is_s32 adj -> is_s32 (a_pc a) -> is_s32 (runs_at (s_base S) k a + adj) -> is_s32 (adj - runs_at (s_base S) k a1) ->
    runs_at (s_base S) k a - runs_at (s_base S) k a1 = a_pc a - a_pc a1 ->
    d = a_pc a + adj - a_pc a1 -> is_s32 d ->
    exists e, build (s_F S) (s_garb S) (s_garbage S) w0 (Some a1) (PcRel adj (Sym i)) = Ok e /\
      (expr_IsConstant e = true -> e_v e = d) /\ resolves S (Sym i) e d.
Proof.
  intros n st st1 k a F Z1 H ER. destruct (label_made n st st1 k a F Z1 H ER) as (r & s & At & Nm & Made).
  exists r, s. split; [exact At|]. split; [exact Nm|].
  intros S w0 i a1 a2 adj d W W0 S1 S2 N2 OF BO HF HE PC A1 A2 A4 A5 A3 Hd A6.
  pose proof HE as (He1 & He2 & Hc & Hq & Hl & Hs & Hb).
  assert (Ty : y_type (w_symbol (s_world S) i) <> SymUndefined).
  { rewrite W. destruct (fixed_address a); [destruct Made as [sec ->]|rewrite Made]; discriminate. }
  destruct S1 as (L1 & B1 & O1 & _ & _ & _ & Or1 & Ad1 & _). destruct S2 as (L2 & B2 & O2 & _ & _ & _ & Or2 & Ad2 & _).
  assert (V : e_sym (s_env S) i = runs_at (s_base S) k a).
  { unfold runs_at in *. unfold fixed_address in Made. destruct (a_loadfixed a || a_orgfixed a) eqn:LO; cbn [andb] in Made.
    - destruct (a_bankfixed a) eqn:BF; cbn [negb] in Made.
      + assert (Of : a_orgfixed a = false) by (destruct (a_orgfixed a); [discriminate|reflexivity]).
        assert (Lf : a_loadfixed a = true) by (rewrite Of, orb_false_r in LO; exact LO).
        specialize (Hs i k). rewrite W, Made in Hs. destruct (Hs eq_refl) as (x & Nx & Vx & _). cbn [y_reloc y_value] in Vx.
        rewrite N2 in Nx. injection Nx as <-. pose proof (He1 i) as Hi. rewrite (Vx eq_refl), (Hb k a2 N2) in * by congruence.
        rewrite s32_id in * by exact A2. rewrite (OF Of), Z.add_0_r, s32_id; [lia|].
        rewrite Or2, Z.add_comm. exact Hi.
      + destruct Made as [sec E]. specialize (Hc i). rewrite W, E in Hc. rewrite (Hc eq_refl). cbn [y_value].
        replace (a_pc a + a_cpuAdjust a + a_cpuOrigin a) with (a_pc a + a_cpuOrigin a + a_cpuAdjust a) by lia.
        reflexivity.
    - specialize (Hs i k). rewrite W, Made in Hs. destruct (Hs eq_refl) as (x & Nx & Vx & _). cbn [y_reloc y_value] in Vx.
      rewrite (Vx eq_refl), s32_id by exact A2. reflexivity. }
  assert (Dist : runs_at (s_base S) k a + adj - runs_at (s_base S) k a1 = d).
  { lia. }
  assert (Finish : forall e, bf e -> den (s_F S) (s_env S) e = Some d -> depth e <= 256 -> incl (svals e) [i] ->
    sbanks e = [] -> has_bit e = false ->
    (expr_IsConstant e = true -> e_v e = d) /\ resolves S (Sym i) e d).
  { intros e Bf D P Sv Sb Nb. split.
    - intro C. rewrite (den_const _ _ _ C) in D. congruence.
    - apply finishes; assumption. }
  assert (Sy : w_symbol w0 i = ay_sym (s_asym s) /\ fixed_address a = true \/
    expr_Symbol (s_garb S) w0 i = Ok (ENode TSymbol false OpNone (s_garb S i) i ENull ENull)).
  { unfold expr_Symbol. destruct W0 as [W0|[W1 W2]].
    - destruct (fixed_address a) eqn:FA; [left; auto|]. right. rewrite W0, Made. reflexivity.
    - right. rewrite W1, W2. reflexivity. }
  cbn [build].
  destruct Sy as [[Sy FA]|Sy].
  - (* a number already *)
    rewrite FA in Made. destruct Made as [sec E]. unfold expr_Symbol. rewrite Sy, E. cbn [y_expression y_constant y_value bind].
    unfold fixed_address in FA. apply andb_true_iff in FA as [LO _].
    unfold expr_PcRelative, expr_Const. cbn [isNull]. rewrite <- L1, <- O1, LO.
    eexists. split; [reflexivity|].
    assert (EV : s32 (s32 (a_pc a + a_cpuAdjust a + a_cpuOrigin a) - (a_pc a1 + a_cpuOrigin a1 + a_cpuAdjust a1 - adj)) = d).
    { apply s32_swap; [exact A6|]. rewrite <- Or1, <- Ad1. lia. }
    rewrite EV. apply Finish; cbn; auto; try (intros ? []). lia.
  - rewrite Sy. cbn [bind]. unfold expr_PcRelative. cbn [isNull]. rewrite <- L1, <- O1.
    destruct (a_loadfixed a || a_orgfixed a) eqn:LO.
    + set (e0 := ENode TSymbol false OpNone (s_garb S i) i ENull ENull).
      set (pc := a_pc a1 + a_cpuOrigin a1 + a_cpuAdjust a1).
      assert (PCv : s32 (adj - pc) = adj - runs_at (s_base S) k a1).
      { rewrite <- (s32_id (adj - runs_at (s_base S) k a1)) by exact A5. unfold runs_at. rewrite <- L1, <- O1, LO, s32_less. reflexivity. }
      assert (G : forall x, bf (node2 OpAdd x e0 (expr_Const (s32 (adj - pc)))) /\
        den (s_F S) (s_env S) (node2 OpAdd x e0 (expr_Const (s32 (adj - pc)))) = Some d).
      { intro x. split.
        - cbn. repeat split; try discriminate; try apply s32_range; try tauto.
        - cbn [node2 expr_IsConstant e0 andb den un is_unary orb expr_Const op_meaning].
          rewrite V, PCv.
          rewrite <- (inr_of d A6). f_equal. lia. }
      unfold expr_Binary. cbn [isNull e0 expr_Const orb].
      destruct (build_value (s_F S) OpAdd _ _) as [x| |] eqn:BV.
      * eexists. split; [reflexivity|]. destruct (G x) as [G1 G2]. apply Finish; [exact G1|exact G2| | | |].
        -- cbn. lia.
        -- cbn. apply incl_refl.
        -- reflexivity.
        -- reflexivity.
      * exfalso. cbn [build_value e_v] in BV. unfold c_add, chk in BV. destruct (_ && _) in BV; discriminate.
      * cbn [expr_IsConstant andb]. eexists. split; [reflexivity|]. destruct (G 0) as [G1 G2].
        apply Finish; [exact G1|exact G2| | | |].
        -- cbn. lia.
        -- cbn. apply incl_refl.
        -- reflexivity.
        -- reflexivity.
    + eexists. split; [reflexivity|]. apply Finish.
      * cbn. repeat split; try discriminate; auto; apply A1.
      * cbn [den expr_Const]. rewrite V, PC. rewrite <- Dist. apply pcrel_in_range; [exact A4|exact A5|rewrite Dist; exact A6].
      * cbn. lia.
      * cbn. apply incl_refl.
      * reflexivity.
      * reflexivity.
Qed.
Print Assumptions C47_same_section.

(** In a section without any attribute the assembler needs no linker: the distance is
    known when the file has been read. *)
Theorem C47_floating : forall n st st1 k a, symbols_fine st -> z_section st = Some (k, a) ->
  sym_CreateLabel n st = Ok st1 -> z_errors st1 = z_errors st -> flags_zero a = true ->
  exists r s, at_ st1 r s /\ s_name s = n /\
  forall F garb g w0 w i a1 a2 adj d,
    w_symbol w i = ay_sym (s_asym s) ->
    (w_symbol w0 i = ay_sym (s_asym s) \/
     y_constant (w_symbol w0 i) = false /\ y_expression (w_symbol w0 i) = true) ->
    same_section a a1 -> same_section a a2 -> d = a_pc a + adj - a_pc a1 -> is_s32 d ->
    exists e e', build F garb g w0 (Some a1) (PcRel adj (Sym i)) = Ok e /\
      reduceExpression F w k a2 (a_pc a1) (expr_Optimize w e) = Ok (Some d, e').
Proof.
  intros n st st1 k a F Z1 H ER FZ. destruct (label_made n st st1 k a F Z1 H ER) as (r & s & At & Nm & Made).
  exists r, s. split; [exact At|]. split; [exact Nm|].
  intros Fm garb g w0 w i a1 a2 adj d W W0 S1 S2 Hd A6.
  assert (LO : a_loadfixed a = false /\ a_orgfixed a = false).
  { unfold flags_zero in FZ. destruct (a_loadfixed a), (a_orgfixed a); cbn in FZ; auto.
    all: destruct (a_bankfixed a); discriminate. }
  destruct LO as [L O]. unfold fixed_address in Made. rewrite L, O in Made. cbn [orb andb] in Made.
  destruct S1 as (L1 & B1 & O1 & _ & _ & _ & Or1 & Ad1 & _). destruct S2 as (L2 & B2 & O2 & G2 & R2 & P2 & _).
  assert (FZ2 : flags_zero a2 = true).
  { unfold flags_zero in *. rewrite <- L2, <- B2, <- O2, <- G2, <- R2, <- P2. exact FZ. }
  assert (Sy : expr_Symbol garb w0 i = Ok (ENode TSymbol false OpNone (garb i) i ENull ENull)).
  { unfold expr_Symbol. destruct W0 as [W0|[W1 W2]]; [rewrite W0, Made|rewrite W1, W2]; reflexivity. }
  cbn [build]. rewrite Sy. cbn [bind]. unfold expr_PcRelative. cbn [isNull]. rewrite <- L1, <- O1, L, O. cbn [orb].
  eexists _, _. split; [reflexivity|].
  cbn [expr_Optimize optNode expr_Const]. rewrite W, Made. cbn [y_constant].
  cbn [reduceExpression expr_GetSectionOffset]. unfold getSymbolSectionOffset. rewrite W, Made.
  cbn [y_type y_section y_constant y_reloc y_value symtype_eqb andb osect_eqb]. rewrite Nat.eqb_refl, FZ2. cbn [bind].
  replace (s32 (u32 (s32 (a_pc a)) + adj - a_pc a1)) with d; [reflexivity|].
  rewrite u32_s32. rewrite <- (s32_id d A6). apply s32_eq. subst d. unfold u32.
  rewrite (Zminus_mod (a_pc a mod 2 ^ 32 + adj)), Zplus_mod_idemp_l, <- Zminus_mod. reflexivity.
Qed.
Print Assumptions C47_floating.

(** ** Cases *)

(** A file position, section 0 without attributes, then the label "a" at offset 4. *)
Definition nm : list Z := [97].
Definition float (pc : Z) : asect := ASect false false false false false false 0 pc 0 (-1).
Definition before_label (a : asect) : sstate := SState [] None None (Some (0%nat, a)) (Some 1) 1 [].
Lemma before_fine : forall a, symbols_fine (before_label a).
Proof.
  intro a. split; [|split].
  - intros r1 r2 s1 s2 H. destruct r1; discriminate.
  - intros r s H. destruct r; discriminate.
  - intros r H. discriminate.
Qed.
Definition labelled (a : asect) : option symbol :=
  match sym_CreateLabel nm (before_label a) with
  | Ok st1 => match nth_error (z_syms st1) 0 with Some (Some s) => Some (ay_sym (s_asym s)) | _ => None end
  | _ => None
  end.
(** The label and a branch at offset 10 of the section loaded at 1000: symbol 1 of the
    program [exWorld] is such a label. *)
Example C47_case_float : exists st1,
  symbols_fine (before_label (float 4)) /\ sym_CreateLabel nm (before_label (float 4)) = Ok st1 /\
  z_errors st1 = z_errors (before_label (float 4)) /\ labelled (float 4) = Some (w_symbol exWorld 1) /\
  flags_zero (float 4) = true /\ same_section (float 4) (float 10) /\
  nth_error (w_sections exWorld) 0 = Some (float 10) /\ org_fits (float 4) /\
  runs_at exBase 0 (float 10) = 1010 /\ runs_at exBase 0 (float 4) = 1004 /\
  4 + -1 - 10 = -7.
Proof.
  eexists. split; [apply before_fine|]. split; [vm_compute; reflexivity|].
  do 2 (split; [vm_compute; reflexivity|]). split; [reflexivity|]. split; [unfold same_section; cbn; tauto|].
  split; [reflexivity|]. split; [intro; reflexivity|]. do 2 (split; [vm_compute; reflexivity|]). vm_compute. reflexivity.
Qed.
(** A forward branch from a section at $4000 in bank 2, and one with ORG $8000. *)
Definition banked (pc : Z) : asect := ASect true true false false false false 0x4000 pc 0 2.
Definition orged (pc : Z) : asect := ASect true false true false false false 0x4000 pc 0x4000 (-1).
Example C47_case_fixed :
  labelled (banked 20) = Some (Symbol SymLabel false true true (Some 0%nat) 20) /\
  labelled (orged 20) = Some (Symbol SymEqu true false true None 0x8014) /\
  org_fits (banked 20) /\ a_bankfixed (banked 20) && a_orgfixed (banked 20) = false /\
  org_fits (orged 20) /\ a_bankfixed (orged 20) && a_orgfixed (orged 20) = false /\
  runs_at exBase 0 (orged 20) - runs_at exBase 0 (orged 2) = 18.
Proof.
  do 2 (split; [vm_compute; reflexivity|]). split; [intro; reflexivity|]. split; [reflexivity|].
  split; [intro H; discriminate|]. split; [reflexivity|]. vm_compute. reflexivity.
Qed.

(** *** ORG in a section with a fixed bank: the label forgets ORG, the branch does not.
    The section is at $4000 in bank 2 and ORG says it runs at $8000.  The label is at
    its start; the branch stores -$4003 instead of -3. *)
Definition both (pc : Z) : asect := ASect true true true false false false 0x4000 pc 0x4000 2.
Definition org_world : world := World (fun _ => Symbol SymLabel false true true (Some 0%nat) 0) [both 4].
Definition org_link : linkctx := LinkCtx (fun _ => Ok (SymView 0x4000 (Some 0%nat) true false)) (fun _ => Err)
  (fun _ _ => Err) 0 0x4000 2.
Theorem C47_org_refuted :
  labelled (both 0) = Some (w_symbol org_world 0) /\ org_fits (both 0) /\
  exists e e' bs, build exF (fun _ => 0) 0 org_world (Some (both 2)) (PcRel (-1) (Sym 0)) = Ok e /\
    reduceExpression exF org_world 0 (both 4) 2 (expr_Optimize org_world e) = Ok (None, e') /\
    writeExpression (fun _ => 0) e' = Ok bs /\
    calculateExpressionValue exF org_link bs = Ok (Some (Entry None (- 0x4003))).
Proof.
  split; [vm_compute; reflexivity|]. split; [intro H; discriminate|].
  eexists _, _, _. split; [vm_compute; reflexivity|]. split; [vm_compute; reflexivity|].
  split; [vm_compute; reflexivity|]. vm_compute. reflexivity.
Qed.
Print Assumptions C47_org_refuted.
