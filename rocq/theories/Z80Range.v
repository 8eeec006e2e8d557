(** Proofs about the Z80 instruction parser: known operands out of range are reported. *)
From Coq Require Import ZArith List Bool Lia ZifyBool String.
From Verif Require Import Base BaseFacts Arith ArithProofs ExprSpec ExprModel ExprLayout ObjWriteModel OptModel
  SectModel SectSpec SectErrors InstrSpec InstrProofs.
From Verif Require X65Only X65Range.
From Verif Require Import Z80Model Z80Spec Z80Check Z80Run Z80Parse Z80Only.
Import ListNotations.
Open Scope string_scope.
Open Scope list_scope.
Open Scope Z_scope.

(** ** Constants *)
Definition is_num (e : expr) (v : Z) : Prop := expr_IsConstant e = true /\ e_v e = v.
Lemma num_checked : forall e v lo hi st e1 st1, is_num e v -> range_checked e lo hi st = Ok (e1, st1) -> quiet st st1 ->
  lo <= v <= hi /\ is_num e1 v /\ st1 = st.
Proof.
  intros e v lo hi st e1 st1 (C0 & V) H Q. destruct (Z.lt_ge_cases v lo) as [L0|L0]; [|destruct (Z.lt_ge_cases hi v) as [L1|L1]].
  - rewrite (X65Range.range_reported e v lo hi st C0 V) in H by lia. injection H as _ <-. destruct (X65Only.loud _ _ _ (more_refl st) Q).
  - rewrite (X65Range.range_reported e v lo hi st C0 V) in H by lia. injection H as _ <-. destruct (X65Only.loud _ _ _ (more_refl st) Q).
  - split; [lia|]. destruct e as [|t cst sgn val s l r]; [discriminate C0|]. cbn [expr_IsConstant e_v] in *. subst cst val.
    unfold range_checked, expr_CheckRange, expr_LowLimit, expr_HighLimit in H. cbn -[Z.ltb Z.gtb] in H.
    replace (v <? lo) with false in H by lia. cbn -[Z.ltb Z.gtb] in H. replace (v >? hi) with false in H by lia. injection H as <- <-.
    split; [split; reflexivity|reflexivity].
Qed.
Section Ran.
Variable F : fmath.
Variable ops : list (opnd (bool * arg)).
Variable f : nat -> expr.
Hypothesis nums : forall i, is_num (f i) (value ops i).
Variable ps : list pat.
Hypothesis disp_ok : forall i, displaced ps i = true -> -128 <= value ops i <= 127.
Notation tr := (amap nat expr f).
Lemma checked_reports : forall n lo hi a i st st', is_checked n lo hi a i = true -> run_act F (tr a) st = Ok st' -> quiet st st' -> lo <= value ops i <= hi.
Proof.
  intros n lo hi a i st st' Ck H Q. destruct (is_checked_is f _ _ _ _ _ Ck) as (x & -> & X). cbn [amap run_act] in H. rewrite X in H. cbn [theExpr bind] in H.
  destruct (range_checked (f i) lo hi st) as [[e1 st1]| |] eqn:Er; cbn [bind] in H; try discriminate H.
  pose proof (checked_keeps _ _ _ _ _ _ Er) as M1.
  assert (M2 : more st1 st') by (destruct n as [|[|n]]; [exact (expr16_keeps _ _ _ H)|exact (expr8_keeps _ _ _ H)|exact (expr16_keeps _ _ _ H)]).
  destruct (X65Only.more_quiet _ _ _ M1 M2 Q) as (Q1 & _). destruct (num_checked _ _ _ _ _ _ _ (nums i) Er Q1) as (B0 & _). exact B0.
Qed.
Lemma act_reports : forall a c st st', act_fits true ps a c = true -> run_act F (tr a) st = Ok st' -> quiet st st' ->
  (forall i, c = Next i -> -128 <= value ops i + 1 <= 127) -> fits_now ops c.
Proof.
  intros a c st st' Fi H Q Nx. destruct c; cbn [fits_now cell_fits act_fits] in *.
  - exact Logic.I.
  - exact (checked_reports _ _ _ _ _ _ _ Fi H Q).
  - exact (checked_reports _ _ _ _ _ _ _ Fi H Q).
  - assert (G : is_checked 1 (-128) 127 a i || is_checked 1 (-128) 255 a i && negb true = true -> -128 <= value ops i <= 127).
    { intro W. apply orb_true_iff in W. destruct W as [W|W]; [exact (checked_reports _ _ _ _ _ _ _ W H Q)|]. rewrite andb_false_r in W. discriminate W. }
    destruct a; try exact (G Fi). apply andb_true_iff in Fi. destruct Fi as (_ & Fi). exact (disp_ok i Fi).
  - exact (Nx i eq_refl).
  - exact (checked_reports _ _ _ _ _ _ _ Fi H Q).
  - exact (checked_reports _ _ _ _ _ _ _ Fi H Q).
  - exact Logic.I.
  - destruct a as [| | | | |op' x| |]; try discriminate Fi. apply andb_true_iff in Fi. destruct Fi as (Fi & _). apply andb_true_iff in Fi.
    destruct Fi as (_ & X). apply (xe_is f) in X. cbn [amap run_act] in H. rewrite X in H. cbn [theExpr bind] in H.
    destruct (range_checked (f i) 0 7 st) as [[e1 st1]| |] eqn:Er; cbn [bind] in H; try discriminate H. pose proof (checked_keeps _ _ _ _ _ _ Er) as M1.
    destruct (expr_Asl F e1 (expr_Const 3)) as [e2| |]; cbn [bind] in H; try discriminate H.
    destruct (expr_Or F (expr_Const op') e2) as [e3| |]; cbn [bind] in H; try discriminate H.
    destruct (X65Only.more_quiet _ _ _ M1 (expr8_keeps _ _ _ H) Q) as (Q1 & _). destruct (num_checked _ _ _ _ _ _ _ (nums i) Er Q1) as (B0 & _). exact B0.
  - destruct a; try discriminate Fi. apply (xe_is f) in Fi. cbn [amap run_act] in H. rewrite Fi in H. cbn [theExpr bind] in H.
    destruct (range_checked (f i) 0xFF00 0xFFFF st) as [[e1 st1]| |] eqn:Er; cbn [bind] in H; try discriminate H. pose proof (checked_keeps _ _ _ _ _ _ Er) as M1.
    destruct (expr_And F e1 (expr_Const 0xFF)) as [e2| |]; cbn [bind] in H; try discriminate H.
    destruct (X65Only.more_quiet _ _ _ M1 (expr8_keeps _ _ _ H) Q) as (Q1 & _). destruct (num_checked _ _ _ _ _ _ _ (nums i) Er Q1) as (B0 & _). exact B0.
Qed.
Lemma acts_report : forall l cs st st', acts_fit true ps l cs = true -> run_acts F (map tr l) st = Ok st' -> quiet st st' ->
  (forall i, In (Next i) cs -> -128 <= value ops i + 1 <= 127) -> Forall (fits_now ops) cs.
Proof.
  induction l as [|a l IH]; intros [|c cs] st st' Fi H Q Nx; try discriminate Fi; [constructor|].
  cbn [acts_fit] in Fi. apply andb_true_iff in Fi. destruct Fi as (F1 & F2). cbn [map run_acts] in H.
  destruct (run_act F (tr a) st) as [st1| |] eqn:Ea; cbn [bind] in H; try discriminate H.
  destruct (X65Only.more_quiet _ _ _ (run_keeps _ _ _ _ Ea) (proj1 (runs_keep _ _ _ _ H)) Q) as (Q1 & Q2).
  constructor; [|apply (IH cs st1 st' F2 H Q2); intros i Hi; apply Nx; right; exact Hi].
  apply (act_reports a c st st1 F1 Ea Q1). intros i ->. apply Nx. left. reflexivity.
Qed.
Lemma next_reports : forall e v st e1 st1, is_num e v -> -128 <= v <= 127 -> next_of F e st = Ok (e1, st1) -> quiet st st1 -> -128 <= v + 1 <= 127.
Proof.
  intros e v st e1 st1 (C0 & V) B0 H Q. unfold next_of, expr_Add, expr_Binary in H. destruct e as [|t cst sgn val s l r]; [discriminate C0|].
  cbn [expr_IsConstant e_v] in *. subst cst val. cbn [isNull orb expr_Const e_v] in H.
  assert (Bv : build_value F OpAdd v 1 = Ok (v + 1)).
  { assert (W : In v (map (fun k => Z.of_nat k - 128) (seq 0 256))) by (apply in_map_iff; exists (Z.to_nat (v + 128)); split; [lia|apply in_seq; lia]).
    clear - W. assert (G : forallb (fun v => match build_value F OpAdd v 1 with Ok w => w =? v + 1 | _ => false end) (map (fun k => Z.of_nat k - 128) (seq 0 256)) = true)
      by (vm_compute; reflexivity).
    pose proof (proj1 (forallb_forall _ _) G v W) as E0. cbv beta in E0. destruct (build_value F OpAdd v 1) as [w| |]; try discriminate E0.
    apply Z.eqb_eq in E0. congruence. }
  rewrite Bv in H. cbn [bind] in H.
  match type of H with range_checked ?x _ _ _ = _ => destruct (num_checked x (v + 1) (-128) 127 st e1 st1) as (G & _); [split; reflexivity|exact H|exact Q|exact G] end.
Qed.
Lemma plan_reports : forall p cs st st', plan_fits true ps p cs = true -> run_acts F (fst (pmap nat expr f p)) st = Ok st' -> quiet st st' ->
  (forall i, In (Next i) cs -> In (Disp i) cs -> displaced ps i = true) -> Forall (fits_now ops) cs.
Proof.
  intros [l b] cs st st' Fi H Q Dn. unfold plan_fits, pmap in *. cbn [fst snd] in *. apply andb_true_iff in Fi. destruct Fi as (Fi & Fa).
  apply andb_true_iff in Fi. destruct Fi as (_ & Nf). unfold next_first in Nf. rewrite forallb_forall in Nf.
  destruct (existsb (fun c => match c with Next _ => true | _ => false end) cs) eqn:Ex.
  - apply existsb_exists in Ex. destruct Ex as (c & Ic & Ec). destruct c; try discriminate Ec. clear Ec. pose proof (Nf _ Ic) as Ni. cbv beta iota in Ni.
    destruct l as [|a l]; [discriminate Ni|]. destruct a as [| | | | | |x|]; try discriminate Ni.
    destruct x as [|j| |]; try (cbn in Ni; discriminate Ni). apply andb_true_iff in Ni. destruct Ni as (Ni & Nd). cbn [xe] in Ni. apply Nat.eqb_eq in Ni. subst j.
    cbn [map amap xmap run_acts run_act] in H.
    destruct (next_of F (f i) st) as [[e1 st1]| |] eqn:En; cbn [bind] in H; try discriminate H.
    assert (M1 : more st st1) by (unfold next_of in En; destruct (expr_Add F (f i) (expr_Const 1)); cbn [bind] in En; try discriminate En; exact (checked_keeps _ _ _ _ _ _ En)).
    destruct (X65Only.more_quiet _ _ _ M1 (proj1 (runs_keep _ _ _ _ H)) Q) as (Q1 & Q2).
    assert (Di : In (Disp i) cs).
    { apply existsb_exists in Nd. destruct Nd as (d & Id & Ed). destruct d; try discriminate Ed. apply Nat.eqb_eq in Ed. subst. exact Id. }
    pose proof (next_reports _ _ _ _ _ (nums i) (disp_ok i (Dn i Ic Di)) En Q1) as B0.
    assert (Dr : drop_next (ANext (XExpr i) :: l) cs = l).
    { cbn [drop_next]. replace (existsb _ cs) with true; [reflexivity|]. symmetry. apply existsb_exists. exists (Next i). split; [exact Ic|apply Nat.eqb_refl]. }
    rewrite Dr in Fa. apply (acts_report l cs st1 st' Fa H Q2). intros i' Hi'. pose proof (Nf _ Hi') as Ni'. cbv beta iota in Ni'.
    apply andb_true_iff in Ni'. destruct Ni' as (Ni' & _). cbn [xe] in Ni'. apply Nat.eqb_eq in Ni'. subst. exact B0.
  - assert (No : forall i, ~ In (Next i) cs).
    { intros i Hi. assert (W : existsb (fun c => match c with Next _ => true | _ => false end) cs = true) by (apply existsb_exists; exists (Next i); auto). congruence. }
    assert (Dr : drop_next l cs = l).
    { destruct l as [|a l]; [reflexivity|]. destruct a; try reflexivity. destruct x; try reflexivity. cbn [drop_next].
      clear Ex. match goal with |- (if ?w then _ else _) = _ => destruct w eqn:E2; [|reflexivity] end. apply existsb_exists in E2. destruct E2 as (c & Ic & Ec). destruct c; try discriminate Ec. destruct (No _ Ic). }
    rewrite Dr in Fa. apply (acts_report l cs st st' Fa H Q). intros i Hi. destruct (No i Hi).
Qed.
End Ran.

(** ** Operands *)
Definition constants (p : opnd (bool * arg)) : Prop :=
  forall a, In a (carried p) -> is_num (g_expr (snd a)) (g_value (snd a)) /\ e_isParens (g_expr (snd a)) = false.
Lemma parens_num : forall e v p, expr_Parens e = Ok p -> is_num e v -> is_num p v.
Proof. intros e v p H (N1 & N2). unfold expr_Parens in H. destruct (isNull e); [discriminate|]. injection H as <-. split; assumption. Qed.
Lemma parse_const : forall o p rest st junk b m r1 st1, constants p -> signed_well fst p -> stops rest -> parsable o (pattern_of p) = true ->
  parse_AddrMode o (lex (text1 (omap the_source p)) ++ rest) st (empty_mode junk) = Ok (b, m, r1, st1) -> quiet st st1 ->
  b = true /\ st1 = st /\ r1 = rest /\ (match pattern_of p with IndexD _ | SPd => -128 <= g_value (arg_of p) <= 127 | _ => True end) /\
  exists e, m = pat_mode junk e (pattern_of p) /\ is_num e (g_value (arg_of p)) /\ constant e = constant (g_expr (arg_of p)).
Proof.
  intros o p rest st junk b m r1 st1 Cn Sw St Pa H Q.
  assert (zero : carried p = [] -> exists e, e = expr_Const 0 /\ is_num e (g_value (arg_of p)) /\ constant e = constant (g_expr (arg_of p))).
  { intro E0. unfold arg_of. rewrite E0. exists (expr_Const 0). repeat split. }
  assert (same : forall e1 a, In a (carried p) -> arg_of p = snd a -> is_num e1 (g_value (snd a)) -> constant e1 = constant (g_expr (arg_of p))).
  { intros e1 a Ia -> (N1 & N2). destruct (Cn a Ia) as ((N3 & N4) & _). unfold constant. rewrite N1, N2, N3, N4. reflexivity. }
  destruct p as [sq r|sq x|sq x a|a|sq a|a]; cbn [omap text1 pattern_of] in *.
  - destruct (zero eq_refl) as (e & _ & Ne & Ce). cbn [lex map app] in H. rewrite reg_lex in H. unfold parse_AddrMode in H. rewrite reg_range in H.
    unfold parse_keyword in H. cbv beta zeta in H. rewrite half_mode in H. rewrite half_parsable in Pa.
    assert (G : (if half r then
        if IS_Z80 o then
          if o_undocumented o then Ok (true, addressMode (T_MODE_B + reg_no r), rest, st)
          else Ok (false, addressMode (T_MODE_B + reg_no r), rest, err_Error MERROR_UNDOCUMENTED_INSTRUCTIONS st)
        else Ok (false, addressMode (T_MODE_B + reg_no r), rest, st)
      else Ok (true, addressMode (T_MODE_B + reg_no r), rest, st)) = Ok (true, pat_mode junk e (Reg r), rest, st)).
    { cbn [pat_mode]. destruct (half r); [|reflexivity]. apply andb_true_iff in Pa. destruct Pa as (-> & ->). reflexivity. }
    assert (G2 : Ok (true, pat_mode junk e (Reg r), rest, st) = Ok (b, m, r1, st1)).
    { rewrite <- G. destruct rest as [|[] rest]; try exact H. destruct St. }
    inversion G2. subst b m r1 st1. repeat (split; [reflexivity || exact Logic.I|]). exists e. repeat split; try apply Ne; exact Ce.
  - destruct (zero eq_refl) as (e & _ & Ne & Ce).
    assert (G2 : Ok (true, pat_mode junk e (Index x), rest, st) = Ok (b, m, r1, st1)) by (rewrite <- H; destruct sq, x; reflexivity).
    inversion G2. subst b m r1 st1. repeat (split; [reflexivity || exact Logic.I|]). exists e. repeat split; try apply Ne; exact Ce.
  - destruct a as [sg a]. cbn [signed_well fst] in Sw. subst sg. destruct (Cn _ (or_introl eq_refl)) as (Nm & _). cbn [snd] in Nm.
    assert (exists e1, range_checked (g_expr a) (-128) 127 st = Ok (e1, st1) /\ b = true /\ r1 = rest /\ m = pat_mode junk e1 (IndexD x)) as (e1 & Er & -> & -> & ->).
    { destruct sq, x; cbn [brackets the_source number_text fst snd lex map app lex1 parse_AddrMode] in H;
      change (lex1 (Word (xy_name X))) with (TId T_MODE_IX) in H; change (lex1 (Word (xy_name Y))) with (TId T_MODE_IY) in H;
      cbn [parse_index Z.eqb T_MODE_IX T_MODE_IY Pos.eqb orb] in H;
      destruct (range_checked (g_expr a) (-128) 127 st) as [[e1 st2]| |]; cbn [bind] in H; try discriminate H;
      cbn [expect_end closes negb bind] in H; inversion H; subst; exists e1; repeat split. }
    destruct (num_checked _ _ _ _ _ _ _ Nm Er Q) as (B0 & N1 & ->). repeat (split; [reflexivity|]). split; [exact B0|]. exists e1. split; [reflexivity|].
    split; [exact N1|]. exact (same e1 (true, a) (or_introl eq_refl) eq_refl N1).
  - destruct (Cn _ (or_introl eq_refl)) as (Nm & Ba). unfold number_text, the_source in H. cbn [fst snd] in H.
    assert (G2 : Ok (true, pat_mode junk (g_expr (snd a)) Imm, rest, st) = Ok (b, m, r1, st1)).
    { rewrite <- H. destruct (fst a); cbn [lex map app lex1 parse_AddrMode parse_bracket]; unfold parse_plain; cbn [parse_Expression bind]; rewrite Ba; reflexivity. }
    inversion G2. subst b m r1 st1. repeat (split; [reflexivity || exact Logic.I|]). exists (g_expr (snd a)). split; [reflexivity|]. split; [exact Nm|reflexivity].
  - destruct (Cn _ (or_introl eq_refl)) as (Nm & Ba). unfold number_text, the_source in H. cbn [fst snd] in H. destruct sq.
    + assert (G2 : Ok (true, pat_mode junk (g_expr (snd a)) Mem, rest, st) = Ok (b, m, r1, st1)) by (rewrite <- H; destruct (fst a); reflexivity).
      inversion G2. subst b m r1 st1. repeat (split; [reflexivity || exact Logic.I|]). exists (g_expr (snd a)). split; [reflexivity|]. split; [exact Nm|reflexivity].
    + destruct (expr_Parens (g_expr (snd a))) as [e1| |] eqn:Ep.
      2, 3: exfalso; destruct (fst a); cbn [brackets lex map app lex1 parse_AddrMode parse_index bind parse_bracket] in H;
        unfold parse_plain in H; cbn [parse_Expression] in H; rewrite Ep in H; discriminate H.
      assert (G2 : Ok (true, pat_mode junk e1 Mem, rest, st) = Ok (b, m, r1, st1)).
      { rewrite <- H. destruct (parens_facts _ _ Ep) as (P1 & _). destruct (fst a); cbn [brackets lex map app lex1 parse_AddrMode parse_index bind parse_bracket];
        unfold parse_plain; cbn [parse_Expression]; rewrite Ep; cbn [bind]; rewrite P1; reflexivity. }
      inversion G2. subst b m r1 st1. repeat (split; [reflexivity || exact Logic.I|]). exists e1. split; [reflexivity|].
      pose proof (parens_num _ _ _ Ep Nm) as N1. split; [exact N1|]. exact (same e1 a (or_introl eq_refl) eq_refl N1).
  - destruct a as [sg a]. cbn [signed_well fst] in Sw. subst sg. destruct (Cn _ (or_introl eq_refl)) as (Nm & _). cbn [snd] in Nm.
    cbn [the_source number_text fst snd lex map app lex1] in H. change (assoc "SP" g_tokens) with (TId T_MODE_SP) in H.
    cbn [parse_AddrMode] in H. change ((T_MODE_B <=? T_MODE_SP) && (T_MODE_SP <=? T_CC_M)) with true in H. cbn [parse_keyword] in H.
    change (T_MODE_SP =? T_MODE_SP) with true in H. cbv iota in H.
    destruct (range_checked (g_expr a) (-128) 127 st) as [[e1 st2]| |] eqn:Er; cbn [bind] in H; try discriminate H. injection H as <- <- <- <-.
    destruct (num_checked _ _ _ _ _ _ _ Nm Er Q) as (B0 & N1 & ->). repeat (split; [reflexivity|]). split; [exact B0|]. exists e1. split; [reflexivity|].
    split; [exact N1|]. exact (same e1 (true, a) (or_introl eq_refl) eq_refl N1).
Qed.

(** ** Instructions *)
Lemma next_displaced : forall r i, In r table -> In (Next i) (r_code r) -> displaced (r_pats r) i = true.
Proof.
  intros r i Ir In_.
  assert (W : forallb (fun r => forallb (fun c => match c with Next i => displaced (r_pats r) i | _ => true end) (r_code r)) table = true) by (vm_compute; reflexivity).
  rewrite forallb_forall in W. specialize (W r Ir). rewrite forallb_forall in W. exact (W _ In_).
Qed.
Section Reported.
Variable S : setting.
Variable cur : option asect.
Hypothesis SO : setting_ok S cur.
Variables (g u s : bool).
Variable r : row.
Hypothesis Ir : In r table.
Hypothesis En : enabled g u s r = true.
Hypothesis Fa : faulty r = false.
Hypothesis Ad : adds_sp r = false.
Variable ops : list (opnd (bool * arg)).
Hypothesis Po : map pattern_of ops = r_pats r.
Hypothesis Ho : holds ops (r_cond r).
Hypothesis Ak : args_known S cur ops.
Hypothesis Ck : forall p a, In p ops -> In a (carried p) -> expr_IsConstant (g_expr (snd a)) = true.
Hypothesis Sw : Forall (signed_well fst) ops.
Variable rest : list token.
Hypothesis Re : ends rest.
Variables junk1 junk2 : amode expr.
Variable st : xstate.
Notation o := (options_of g u s).
Lemma all_constants : forall p, In p ops -> constants p.
Proof.
  intros p Hp a Ha. destruct (Ak p a Hp Ha) as (O & _ & Ph & _). pose proof (Ck p a Hp Ha) as C0.
  destruct (operand_facts _ _ _ _ _ SO O) as (_ & Cv & _). split; [split; [exact C0|exact (Cv C0)]|]. exact (bare_expr S cur _ _ _ SO O Ph).
Qed.
Lemma all_known : forall i, is_num (g_expr (arg_at ops i)) (value ops i).
Proof.
  intro i. unfold value, arg_at. destruct (nth_error ops i) as [p|] eqn:Np; [|split; reflexivity].
  pose proof (all_constants p (nth_error_In _ _ Np)) as Cp. destruct p; try (split; reflexivity); exact (proj1 (Cp _ (or_introl eq_refl))).
Qed.
Lemma plan_quiet : forall e0 e1 ts st1 b ts' st', (forall i, is_num (pick e0 e1 i) (value ops i)) ->
  (forall i p, nth_error ops i = Some p -> match pattern_of p with IndexD _ | SPd => -128 <= value ops i <= 127 | _ => True end) ->
  exists i, instruction_of (r_name r) = Some i /\ (i_modes1 i = 0 -> r_pats r = []) /\
    (carry_out (s_F S) (planned constant o i junk1 junk2 e0 e1 (r_pats r)) ts st1 = Ok (b, ts', st') -> quiet st1 st' -> Forall (fits_now ops) (r_code r)).
Proof.
  intros e0 e1 ts st1 b ts' st' Nu Di. set (f := pick e0 e1) in *. set (view := fun i => constant (f i)).
  assert (Vw : forall i, view i = Some (value ops i)).
  { intro i. destruct (Nu i) as (N1 & N2). unfold view, constant. rewrite N1, N2. reflexivity. }
  assert (Vm : view_meets view (r_cond r)).
  { destruct (r_cond r) as [|i v|i|i]; cbn [holds view_meets] in *; [exact Logic.I| | |]; rewrite (Vw i).
    - destruct Ho as (_ & <-). reflexivity.
    - exists (value ops i). split; [reflexivity|apply Ho].
    - intros v Hv. injection Hv as <-. destruct Ho as [Hk|Hk]; [|exact Hk]. unfold known_now in Hk. rewrite (proj1 (all_known i)) in Hk. discriminate Hk. }
  destruct (row_planned view (tag_mode junk1) (tag_mode junk2) g u s r Ir En Fa Vm) as (i & Ei & Pa & M0 & Pf). rewrite Ad in Pf. cbn [negb] in Pf.
  assert (Vc : forall j, constant (f j) = cond_view (r_cond r) view j).
  { intro j. change (constant (f j)) with (view j). destruct (r_cond r) as [|j' v| |]; cbn [cond_view]; try reflexivity.
    destruct (Nat.eqb_spec j' j) as [->|]; [exact Vm|reflexivity]. }
  pose proof (planned_map expr f constant (cond_view (r_cond r) view) o i junk1 junk2 (r_pats r) Vc) as Pm.
  exists i. split; [exact Ei|]. split; [exact M0|]. intros H Q. change e0 with (f 0%nat) in H. change e1 with (f 1%nat) in H. rewrite Pm in H.
  unfold carry_out in H. destruct (run_acts (s_F S) _ st1) as [st2| |] eqn:Er in H; cbn [bind] in H; try discriminate H.
  assert (st2 = st') by congruence. subst st2.
  refine (plan_reports (s_F S) ops f Nu (r_pats r) _ _ (r_code r) st1 st' Pf Er Q _).
  - intros j Hj. unfold displaced in Hj. rewrite <- Po, nth_error_map in Hj. destruct (nth_error ops j) as [p|] eqn:Np; [|discriminate Hj].
    cbn [option_map] in Hj. specialize (Di j p Np). destruct (pattern_of p); try discriminate Hj; exact Di.
  - intros j Hj _. exact (next_displaced r j Ir Hj).
Qed.
Theorem reported : forall b ts' st', ~ Forall (fits_now ops) (r_code r) ->
  z80_ParseInstruction (s_F S) o junk1 junk2 (lex (Word (r_name r) :: text (map (omap the_source) ops)) ++ rest) st = Ok (b, ts', st') ->
  x_errors st' <> x_errors st.
Proof.
  intros b ts' st' Nf H Q. apply Nf. clear Nf. change (quiet st st') in Q.
  pose proof (at_most_two r Ir ops Po) as L2. pose proof (row_parsable g u s r Ir En ops Po) as Pa. pose proof all_constants as Cn.
  pose proof (ends_stops rest Re) as St. pose proof plan_quiet as Co. rewrite <- Po in Co.
  assert (N0 : forall i, nth_error ops i = None -> is_num (g_expr nothing) (value ops i)).
  { intros i Hi. unfold value, arg_at. rewrite Hi. split; reflexivity. }
  assert (Start : forall ts, exists i, instruction_of (r_name r) = Some i /\ (i_modes1 i = 0 -> r_pats r = []) /\
    (z80_ParseInstruction (s_F S) o junk1 junk2 (lex1 (Word (r_name r)) :: ts) st = Ok (b, ts', st') ->
     (if i_modes1 i =? 0 then carry_out (s_F S) (decide expr constant o i (empty_mode junk1) (empty_mode junk2)) ts st else
        let! (b1, m1, r1, st1) := parse_AddrMode o ts st (empty_mode junk1) in
        if b1 then
          match r1 with
          | TComma :: r2 =>
              let! (b2, m2, r3, st2) := parse_AddrMode o r2 st1 (empty_mode junk2) in
              if b2 then carry_out (s_F S) (decide expr constant o i m1 m2) r3 st2 else Ok (true, r3, err_Error ERROR_SECOND_OPERAND st2)
          | _ => carry_out (s_F S) (decide_one expr constant o i m1 (empty_mode junk2)) r1 st1
          end
        else if negb (am_mode m1 =? 0) && negb (has (am_mode m1) MODE_NONE)
        then Ok (true, r1, err_Error ERROR_FIRST_OPERAND st1)
        else carry_out (s_F S) (decide expr constant o i m1 (empty_mode junk2)) r1 st1) = Ok (b, ts', st'))).
  { intro ts. assert (Vm : view_meets (fun i => Some (value ops i)) (r_cond r)).
    { destruct (r_cond r) as [|i v|i|i]; cbn [holds view_meets] in *; [exact Logic.I| | |].
      - destruct Ho as (_ & <-). reflexivity.
      - exists (value ops i). split; [reflexivity|apply Ho].
      - intros v Hv. injection Hv as <-. destruct Ho as [Hk|Hk]; [|exact Hk]. unfold known_now in Hk. rewrite (proj1 (all_known i)) in Hk. discriminate Hk. }
    destruct (row_planned _ J J g u s r Ir En Fa Vm) as (i & Ei & _ & M0 & _). exists i. split; [exact Ei|]. split; [exact M0|].
    destruct (instruction_known _ _ Ei) as (id0 & Lx & Rg & Nt). rewrite Lx. unfold z80_ParseInstruction. rewrite Rg, Nt. intro G. exact G. }
  assert (Ck0 : forall (p : plan expr) ts1 st1, carry_out (s_F S) p ts1 st1 = Ok (b, ts', st') -> more st1 st').
  { intros p ts1 st1 Hc. unfold carry_out in Hc. destruct (run_acts (s_F S) (fst p) st1) as [st2| |] eqn:E2; cbn [bind] in Hc; try discriminate Hc.
    injection Hc as _ _ <-. exact (proj1 (runs_keep _ _ _ _ E2)). }
  destruct ops as [|p [|q [|]]]; cbn [Datatypes.length] in L2; [| | |lia].
  - (* no operand *)
    assert (G0 : forall i, is_num (pick (g_expr nothing) (g_expr nothing) i) (value [] i)).
    { intro i. replace (pick _ _ i) with (g_expr nothing) by (destruct i as [|[|]]; reflexivity). apply N0. destruct i; reflexivity. }
    destruct (Co (g_expr nothing) (g_expr nothing) rest st b ts' st' G0) as (i & Ei & M0 & G); [intros [|i] p Hp; discriminate Hp|].
    destruct (Start rest) as (i' & Ei' & _ & Sx). rewrite Ei in Ei'. injection Ei' as <-. cbn [map text lex app] in H. specialize (Sx H).
    cbn [map planned] in G. destruct (i_modes1 i =? 0); [exact (G Sx Q)|]. rewrite (no_operand o rest st _ Re) in Sx. cbn [bind] in Sx. exact (G Sx Q).
  - (* one *)
    cbn [map forallb] in Pa. apply andb_true_iff in Pa. destruct Pa as (Pa & _).
    cbn [map text] in H. change (lex (Word (r_name r) :: text1 (omap the_source p)) ++ rest) with (lex1 (Word (r_name r)) :: lex (text1 (omap the_source p)) ++ rest) in H.
    destruct (Start (lex (text1 (omap the_source p)) ++ rest)) as (i & Ei & M0 & Sx). specialize (Sx H).
    destruct (Z.eqb_spec (i_modes1 i) 0) as [E0|_]; [rewrite <- Po in M0; discriminate (M0 E0)|].
    destruct (parse_AddrMode o (lex (text1 (omap the_source p)) ++ rest) st (empty_mode junk1)) as [[[[b1 m1] r1] st1]| |] eqn:P1; cbn [bind] in Sx; try discriminate Sx.
    pose proof (parse_keeps _ _ _ _ _ _ _ _ P1) as M1.
    assert (Q1 : quiet st st1).
    { assert (W : more st1 st' \/ exists n st2, more st1 st2 /\ st' = err_Error n st2).
      { destruct b1.
        - destruct r1 as [|[] r1]; try (left; exact (Ck0 _ _ _ Sx)).
          destruct (parse_AddrMode o r1 st1 (empty_mode junk2)) as [[[[b2 m2] r3] st2]| |] eqn:P2; cbn [bind] in Sx; try discriminate Sx.
          pose proof (parse_keeps _ _ _ _ _ _ _ _ P2) as M2. destruct b2; [left; exact (more_trans _ _ _ M2 (Ck0 _ _ _ Sx))|]. injection Sx as _ _ <-. right. eauto.
        - destruct (negb _ && negb _) in Sx; [injection Sx as _ _ <-; right; exists ERROR_FIRST_OPERAND, st1; split; [apply more_refl|reflexivity]|left; exact (Ck0 _ _ _ Sx)]. }
      destruct W as [W|(n & st2 & W & ->)]; [exact (proj1 (X65Only.more_quiet _ _ _ M1 W Q))|destruct (X65Only.loud _ _ _ (more_trans _ _ _ M1 W) Q)]. }
    destruct (parse_const o p rest st junk1 _ _ _ _ (Cn p (or_introl eq_refl)) ltac:(inversion Sw; assumption) St Pa P1 Q1) as (-> & -> & -> & Di & e0 & -> & Ne & _).
    assert (G0 : forall i, is_num (pick e0 (g_expr nothing) i) (value [p] i)).
    { intros [|j]; [unfold value; rewrite arg_at_0; exact Ne|].
      replace (pick _ _ (Datatypes.S j)) with (g_expr nothing) by (destruct j; reflexivity). apply N0. destruct j; reflexivity. }
    destruct (Co e0 (g_expr nothing) rest st b ts' st' G0) as (i' & Ei' & _ & G).
    { intros [|[|j]] p' Hp; try discriminate Hp. injection Hp as <-. unfold value. rewrite arg_at_0. exact Di. }
    rewrite Ei in Ei'. injection Ei' as <-. cbn [map planned] in G. apply G; [|exact Q]. destruct rest as [|[] rest']; try exact Sx. destruct Re.
  - (* two *)
    cbn [map forallb] in Pa. apply andb_true_iff in Pa. destruct Pa as (Pa & Pb). apply andb_true_iff in Pb. destruct Pb as (Pb & _).
    set (r2 := lex (text1 (omap the_source q)) ++ rest) in *.
    assert (Ht : lex (Word (r_name r) :: text (map (omap the_source) [p; q])) ++ rest = lex1 (Word (r_name r)) :: lex (text1 (omap the_source p)) ++ TComma :: r2).
    { unfold r2, lex. cbn [map text app]. rewrite map_app. cbn [map]. rewrite <- app_assoc. reflexivity. }
    rewrite Ht in H. clear Ht. destruct (Start (lex (text1 (omap the_source p)) ++ TComma :: r2)) as (i & Ei & M0 & Sx). specialize (Sx H).
    destruct (Z.eqb_spec (i_modes1 i) 0) as [E0|_]; [rewrite <- Po in M0; discriminate (M0 E0)|].
    destruct (parse_AddrMode o (lex (text1 (omap the_source p)) ++ TComma :: r2) st (empty_mode junk1)) as [[[[b1 m1] r1] st1]| |] eqn:P1; cbn [bind] in Sx; try discriminate Sx.
    pose proof (parse_keeps _ _ _ _ _ _ _ _ P1) as M1.
    assert (Q1 : quiet st st1).
    { assert (W : more st1 st' \/ exists n st2, more st1 st2 /\ st' = err_Error n st2).
      { destruct b1.
        - destruct r1 as [|[] r1]; try (left; exact (Ck0 _ _ _ Sx)).
          destruct (parse_AddrMode o r1 st1 (empty_mode junk2)) as [[[[b2 m2] r3] st2]| |] eqn:P2; cbn [bind] in Sx; try discriminate Sx.
          pose proof (parse_keeps _ _ _ _ _ _ _ _ P2) as M2. destruct b2; [left; exact (more_trans _ _ _ M2 (Ck0 _ _ _ Sx))|]. injection Sx as _ _ <-. right. eauto.
        - destruct (negb _ && negb _) in Sx; [injection Sx as _ _ <-; right; exists ERROR_FIRST_OPERAND, st1; split; [apply more_refl|reflexivity]|left; exact (Ck0 _ _ _ Sx)]. }
      destruct W as [W|(n & st2 & W & ->)]; [exact (proj1 (X65Only.more_quiet _ _ _ M1 W Q))|destruct (X65Only.loud _ _ _ (more_trans _ _ _ M1 W) Q)]. }
    destruct (parse_const o p (TComma :: r2) st junk1 _ _ _ _ (Cn p (or_introl eq_refl)) ltac:(inversion Sw; assumption) Logic.I Pa P1 Q1) as (-> & -> & -> & Di & e0 & -> & Ne & _).
    destruct (parse_AddrMode o r2 st (empty_mode junk2)) as [[[[b2 m2] r3] st2]| |] eqn:P2; cbn [bind] in Sx; try discriminate Sx.
    pose proof (parse_keeps _ _ _ _ _ _ _ _ P2) as M2.
    assert (Q2 : quiet st st2).
    { destruct b2; [exact (proj1 (X65Only.more_quiet _ _ _ M2 (Ck0 _ _ _ Sx) Q))|]. injection Sx as _ _ <-. destruct (X65Only.loud _ _ _ M2 Q). }
    destruct (parse_const o q rest st junk2 _ _ _ _ (Cn q (or_intror (or_introl eq_refl))) ltac:(inversion Sw as [|? ? ? Sw2]; inversion Sw2; assumption) St Pb P2 Q2) as (-> & -> & -> & Di2 & e1 & -> & Ne2 & _).
    assert (G0 : forall i, is_num (pick e0 e1 i) (value [p; q] i)).
    { intros [|[|j]]; [unfold value; rewrite arg_at_0; exact Ne|unfold value; rewrite arg_at_1; exact Ne2|].
      cbn [pick]. apply N0. destruct j; reflexivity. }
    destruct (Co e0 e1 rest st b ts' st' G0) as (i' & Ei' & _ & G).
    { intros [|[|[|j]]] p' Hp; try discriminate Hp; injection Hp as <-; unfold value; [rewrite arg_at_0; exact Di|rewrite arg_at_1; exact Di2]. }
    rewrite Ei in Ei'. injection Ei' as <-. cbn [map planned] in G. exact (G Sx Q).
Qed.
End Reported.
