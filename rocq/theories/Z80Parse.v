(** Proofs about the Z80 instruction parser: operands, and whole instructions. *)
From Coq Require Import ZArith List Bool Lia ZifyBool String.
From Verif Require Import Base BaseFacts Arith ArithProofs ExprSpec ExprModel ExprLayout ExprTree ExprProofs ObjWriteModel OptModel
  SectModel SectSpec SectProofs InstrSpec InstrProofs.
From Verif Require X65Spec X65Proofs X65Run.
From Verif Require Import Z80Model Z80Spec Z80Check Z80Run.
Import ListNotations.
Open Scope string_scope.
Open Scope list_scope.
Open Scope Z_scope.

(** ** Expressions in parentheses *)
Lemma operand_parens : forall S cur t e v, setting_ok S cur -> operand S cur t e v ->
  exists e1, expr_Parens e = Ok e1 /\ operand S cur (Paren t) e1 v /\ constant e1 = constant e /\ e_isParens e1 = true.
Proof.
  intros S cur t e v SO O. destruct (operand_facts _ _ _ _ _ SO O) as (Nn & _). destruct O as (B & Ok' & D & K & Nb & M).
  unfold expr_Parens. rewrite Nn. eexists. split; [reflexivity|]. split; [|split; reflexivity].
  split; [|repeat (split; [assumption|]); exact M]. cbn [build]. rewrite B. cbn [bind]. unfold expr_Parens. rewrite Nn. reflexivity.
Qed.
Lemma held_parens : forall N S cur t e v, setting_ok S cur -> operand S cur t e v -> source_term t -> tdepth t <= N ->
  exists e1, expr_Parens e = Ok e1 /\ held (N + 1) false S cur t e1 v /\ constant e1 = constant e /\ e_isParens e1 = true.
Proof.
  intros N S cur t e v SO O So D. destruct (operand_parens S cur t e v SO O) as (e1 & E & O1 & C & P). exists e1. split; [exact E|].
  split; [|split; [exact C|exact P]]. exists (Paren t). split; [exact O1|]. split; [cbn [tdepth]; lia|]. split; [exact (within_refl t)|].
  split; [cbn [known]; tauto|]. split; [exact So|discriminate].
Qed.
Lemma held_self : forall N S cur t e v, operand S cur t e v -> source_term t -> ~ paren_head t -> tdepth t <= N -> held N true S cur t e v.
Proof. intros N S cur t e v O So P D. exists t. split; [exact O|]. split; [exact D|]. split; [apply within_refl|]. tauto. Qed.
Lemma bare_expr : forall S cur t e v, setting_ok S cur -> operand S cur t e v -> ~ paren_head t -> e_isParens e = false.
Proof.
  intros S cur t e v (HF & HE & HP) (B & Ok & Df & Dk & Nb & M) P.
  destruct (build_ok _ _ _ _ HF HE _ HP _ _ t e v Ok M B) as (_ & _ & _ & _ & _ & Pa).
  destruct e as [|[] ]; try reflexivity. destruct P. apply Pa. exact Logic.I.
Qed.

(** ** One operand *)
Definition the_source (a : bool * arg) : source := (fst a, g_expr (snd a)).
Definition knows (S : setting) (cur : option asect) (a : bool * arg) : Prop :=
  operand S cur (g_term (snd a)) (g_expr (snd a)) (g_value (snd a)) /\ source_term (g_term (snd a)) /\
  ~ paren_head (g_term (snd a)) /\ tdepth (g_term (snd a)) <= 240.
(** What follows does not continue the operand. *)
Definition stops (rest : list token) : Prop := match rest with TSigned _ :: _ => False | _ => True end.
Definition arg_of (p : opnd (bool * arg)) : arg := match carried p with a :: _ => snd a | [] => nothing end.
Definition is_memory (p : pat) : bool := match p with Mem => true | _ => false end.
Lemma reg_lex : forall sq r, lex1 (Word (spelling sq r)) = TId (T_MODE_B + reg_no r).
Proof. intros [] []; reflexivity. Qed.
Lemma reg_range : forall r, (T_MODE_B <=? T_MODE_B + reg_no r) && (T_MODE_B + reg_no r <=? T_CC_M) = true.
Proof. intros []; reflexivity. Qed.
Lemma nothing_held : forall N b S cur, 1 <= N -> held N b S cur (g_term nothing) (g_expr nothing) (g_value nothing).
Proof.
  intros N b S cur HN. change (held N b S cur (Num 0) (expr_Const 0) 0). exists (Num 0). split; [apply operand_num; num|]. split; [exact HN|]. split; [apply within_refl|]. cbn. tauto.
Qed.
Lemma parse_one : forall o S cur p rest st junk, setting_ok S cur -> (forall a, In a (carried p) -> knows S cur a) ->
  signed_well fst p -> stops rest -> parsable o (pattern_of p) = true ->
  (match pattern_of p with IndexD _ | SPd => -128 <= g_value (arg_of p) <= 127 | _ => True end) ->
  exists e, parse_AddrMode o (lex (text1 (omap the_source p)) ++ rest) st (empty_mode junk) = Ok (true, pat_mode junk e (pattern_of p), rest, st) /\
    held 244 (negb (is_memory (pattern_of p))) S cur (g_term (arg_of p)) e (g_value (arg_of p)) /\
    (match pattern_of p with IndexD _ | SPd => True | _ => constant e = constant (g_expr (arg_of p)) end).
Proof.
  intros o S cur p rest st junk SO Kn Sw St Pa Di.
  assert (none : carried p = [] -> forall X : Prop, (forall e, e = expr_Const 0 -> held 244 true S cur (g_term (arg_of p)) e (g_value (arg_of p)) ->
    constant e = constant (g_expr (arg_of p)) -> X) -> X).
  { intros C X H. apply (H (expr_Const 0) eq_refl); unfold arg_of; rewrite C; [apply (nothing_held 244); lia|reflexivity]. }
  destruct p as [sq r|sq x|sq x a|a|sq a|a]; cbn [omap text1 pattern_of carried arg_of is_memory negb] in *.
  - (* a register *)
    apply (none eq_refl). intros e _ He Hc. exists e. split; [|split; [exact He|exact Hc]].
    cbn [lex map app]. rewrite reg_lex. unfold parse_AddrMode. rewrite reg_range. unfold parse_keyword.
    assert (G : (if has (am_mode (addressMode (T_MODE_B + reg_no r) : amode expr)) MODE_GROUP_IXYLH then
        if IS_Z80 o then
          if o_undocumented o then Ok (true, addressMode (T_MODE_B + reg_no r), rest, st)
          else Ok (false, addressMode (T_MODE_B + reg_no r), rest, err_Error MERROR_UNDOCUMENTED_INSTRUCTIONS st)
        else Ok (false, addressMode (T_MODE_B + reg_no r), rest, st)
      else Ok (true, addressMode (T_MODE_B + reg_no r), rest, st)) = Ok (true, pat_mode junk e (Reg r), rest, st)).
    { cbn [pat_mode]. destruct r; try reflexivity; cbn [parsable] in Pa; apply andb_true_iff in Pa; destruct Pa as (-> & ->); reflexivity. }
    destruct rest as [|[] rest]; try exact G. destruct St.
  - (* (IX) *)
    apply (none eq_refl). intros e _ He Hc. exists e. split; [|split; [exact He|exact Hc]].
    destruct sq, x; reflexivity.
  - (* (IX+d) *)
    destruct a as [sg a]. cbn [signed_well fst] in Sw. subst sg. destruct (Kn _ (or_introl eq_refl)) as (O & So & Ph & D). cbn [snd] in *.
    destruct (held_checked 240 true S cur _ _ _ (-128) 127 st SO (held_self 240 S cur _ _ _ O So Ph D)) as (e1 & E1 & H1); try num.
    exists e1. split; [|split; [eapply held_less; [exact H1|lia]|exact Logic.I]].
    destruct sq, x; cbn [brackets the_source number_text fst snd lex map app lex1 parse_AddrMode];
      change (lex1 (Word (xy_name X))) with (TId T_MODE_IX); change (lex1 (Word (xy_name Y))) with (TId T_MODE_IY);
      cbn [parse_index Z.eqb T_MODE_IX T_MODE_IY Pos.eqb orb]; rewrite E1; reflexivity.
  - (* a number *)
    destruct (Kn _ (or_introl eq_refl)) as (O & So & Ph & D). exists (g_expr (snd a)).
    split; [|split; [eapply held_less; [exact (held_self 240 S cur _ _ _ O So Ph D)|lia]|reflexivity]].
    pose proof (bare_expr S cur _ _ _ SO O Ph) as Ba. unfold number_text, the_source. cbn [fst snd].
    destruct (fst a); cbn [lex map app lex1 parse_AddrMode parse_bracket parse_plain parse_Expression bind]; rewrite Ba; reflexivity.
  - (* an address *)
    destruct (Kn _ (or_introl eq_refl)) as (O & So & Ph & D). destruct sq.
    + exists (g_expr (snd a)). split; [|split; [|reflexivity]].
      * unfold number_text, the_source. cbn [fst snd]. destruct (fst a); reflexivity.
      * destruct (held_self 240 S cur _ _ _ O So Ph D) as (T & HT). exists T. intuition lia.
    + destruct (held_parens 240 S cur _ _ _ SO O So D) as (e1 & E1 & H1 & C1 & P1). exists e1.
      split; [|split; [eapply held_less; [exact H1|lia]|exact C1]].
      unfold number_text, the_source. cbn [fst snd]. destruct (fst a); cbn [brackets lex map app lex1 parse_AddrMode parse_index bind parse_bracket];
        unfold parse_plain; cbn [parse_Expression]; rewrite E1; cbn [bind]; rewrite P1; reflexivity.
  - (* SP+d *)
    destruct a as [sg a]. cbn [signed_well fst] in Sw. subst sg. destruct (Kn _ (or_introl eq_refl)) as (O & So & Ph & D). cbn [snd] in *.
    destruct (held_checked 240 true S cur _ _ _ (-128) 127 st SO (held_self 240 S cur _ _ _ O So Ph D)) as (e1 & E1 & H1); try num.
    exists e1. split; [|split; [eapply held_less; [exact H1|lia]|exact Logic.I]].
    cbn [the_source number_text fst snd lex map app lex1]. change (assoc "SP" g_tokens) with (TId T_MODE_SP).
    cbn [parse_AddrMode]. change ((T_MODE_B <=? T_MODE_SP) && (T_MODE_SP <=? T_CC_M)) with true. cbn [parse_keyword].
    change (T_MODE_SP =? T_MODE_SP) with true. cbv iota. rewrite E1. reflexivity.
Qed.

(** ** Instructions *)
Lemma ends_stops : forall rest, ends rest -> stops rest.
Proof. intros [|[] rest] H; exact Logic.I || destruct H. Qed.
Lemma instruction_known : forall s i, instruction_of s = Some i -> exists id0, lex1 (Word s) = TId id0 /\
  (T_Z80_ADC <=? translateToken id0) && (translateToken id0 <=? T_Z80_XOR) = true /\
  nth (Z.to_nat (translateToken id0 - T_Z80_ADC)) g_instructions (Instr 0 0 0 0 0 HImplied) = i.
Proof.
  intros s i H. unfold instruction_of in H. cbn [lex1]. destruct (assoc s g_tokens) as [id0| | | | | | | |]; try discriminate H.
  exists id0. split; [reflexivity|]. cbv zeta in H. destruct (_ && _) eqn:E; [|discriminate H]. split; [reflexivity|].
  apply nth_error_nth. exact H.
Qed.
Lemma no_operand : forall o rest st m, ends rest -> parse_AddrMode o rest st m = Ok (false, m, rest, st).
Proof. intros o [|[] rest] st m H; reflexivity || destruct H. Qed.
Definition in_slot (l : list (opnd (bool * arg))) (i : nat) : arg := arg_at l i.
Lemma arg_at_0 : forall p l, arg_at (p :: l) 0 = arg_of p.
Proof. intros [] l; reflexivity. Qed.
Lemma arg_at_1 : forall p q l, arg_at (p :: q :: l) 1 = arg_of q.
Proof. intros p [] l; reflexivity. Qed.
Definition pick (e0 e1 : expr) (i : nat) : expr := match i with O => e0 | 1%nat => e1 | _ => g_expr nothing end.
Lemma range_disp : forall ops i cs pc, in_range ops pc cs -> existsb (fun c => match c with Disp j => Nat.eqb i j | _ => false end) cs = true ->
  -128 <= value ops i <= 127.
Proof.
  intros ops i. induction cs as [|c cs IH]; intros pc Ra H; cbn [existsb] in H; [discriminate|]. destruct Ra as (R1 & R2).
  apply orb_true_iff in H. destruct H as [H|H]; [|exact (IH _ R2 H)]. destruct c; try discriminate H. apply Nat.eqb_eq in H. subst. exact R1.
Qed.
Lemma total_sum : forall cs, total cs = sum (map (fun c => Z.of_nat (cell_width c)) cs).
Proof. induction cs as [|c cs IH]; [reflexivity|]. cbn [total map sum]. rewrite IH. reflexivity. Qed.
Lemma constant_known : forall S cur t e v, setting_ok S cur -> operand S cur t e v ->
  constant e = if expr_IsConstant e then Some v else None.
Proof.
  intros S cur t e v SO O. destruct (operand_facts _ _ _ _ _ SO O) as (_ & C & _). unfold constant.
  destruct (expr_IsConstant e); [rewrite C; reflexivity|reflexivity].
Qed.

Section Whole.
Variable S : setting.
Variables (k : nat) (st : xstate) (m : msect).
Hypothesis SO : setting_ok S (here m).
Variables (g u s : bool).
Variable r : row.
Hypothesis Ir : In r table.
Hypothesis En : enabled g u s r = true.
Hypothesis Fa : faulty r = false.
Variable ops : list (opnd (bool * arg)).
Hypothesis Po : map pattern_of ops = r_pats r.
Hypothesis Ho : holds ops (r_cond r).
Hypothesis Ak : args_known S (here m) ops.
Hypothesis Sw : Forall (signed_well fst) ops.
Hypothesis Ra : in_range ops (e_pc (s_env S)) (r_code r).
Hypothesis R : ready st k m 8.
Variable rest : list token.
Hypothesis Re : ends rest.
Variables junk1 junk2 : amode expr.
Notation o := (options_of g u s).

Lemma row_disp : stores_disp r = true.
Proof. exact (proj1 (forallb_forall stores_disp table) all_disp r Ir). Qed.
Lemma at_most_two : (Datatypes.length ops <= 2)%nat.
Proof.
  pose proof row_disp as H. unfold stores_disp in H. apply andb_true_iff in H. destruct H as (_ & H). apply Nat.leb_le in H.
  rewrite <- Po, map_length in H. exact H.
Qed.
Lemma disp_fits : forall i p, nth_error ops i = Some p -> (i < 2)%nat ->
  match pattern_of p with IndexD _ | SPd => -128 <= value ops i <= 127 | _ => True end.
Proof.
  intros i p N Hi. pose proof row_disp as H. unfold stores_disp in H. apply andb_true_iff in H. destruct H as (H & _).
  apply andb_true_iff in H. destruct H as (H & _). apply andb_true_iff in H. destruct H as (H & _).
  rewrite forallb_forall in H. specialize (H i). rewrite <- Po, nth_error_map, N in H. cbn [option_map] in H.
  assert (I2 : In i [0; 1]%nat) by (cbn; lia). specialize (H I2).
  destruct (pattern_of p); try exact Logic.I; exact (range_disp ops i _ _ Ra H).
Qed.
Lemma bare_rels : forallb (rel_bare ops) (r_code r) = true.
Proof.
  pose proof row_disp as H. unfold stores_disp in H. apply andb_true_iff in H. destruct H as (H & _).
  apply andb_true_iff in H. destruct H as (H & _). apply andb_true_iff in H. destruct H as (_ & H).
  rewrite forallb_forall in H |- *. intros c Hc. specialize (H c Hc). destruct c; try reflexivity. cbn [rel_bare]. unfold is_mem.
  rewrite Po. destruct (nth_error (r_pats r) i) as [[]|]; try reflexivity. discriminate H.
Qed.
(** With the operands delivered, the handler stores the code. *)
Lemma carried_out : forall e0 e1 ts,
  (forall i, held 244 (negb (is_mem ops i)) S (here m) (g_term (arg_at ops i)) (pick e0 e1 i) (value ops i)) ->
  (forall i, match nth_error (r_pats r) i with
             | Some (IndexD _) | Some SPd => True
             | _ => constant (pick e0 e1 i) = constant (g_expr (arg_at ops i)) end) ->
  exists i st', instruction_of (r_name r) = Some i /\ (i_modes1 i = 0 -> r_pats r = []) /\
    forallb (parsable o) (r_pats r) = true /\
    carry_out (s_F S) (planned constant o i junk1 junk2 e0 e1 (r_pats r)) ts st = Ok (true, ts, st') /\
    emits_seq S k st st' (stored ops (e_pc (s_env S)) (r_code r)).
Proof.
  intros e0 e1 ts De Vi. set (f := pick e0 e1) in *. set (view := fun i => constant (f i)).
  assert (Cond : forall i, match r_cond r with Value j _ | InHigh j | NotHigh j => i = j | Always => False end ->
    view i = if known_now ops i then Some (value ops i) else None).
  { intros i Hi. unfold view. specialize (Vi i). 
    assert (P : match nth_error (r_pats r) i with Some Imm | Some Mem => true | _ => false end = true).
    { pose proof (proj1 (forallb_forall (fun r => match r_cond r with Value j _ | InHigh j | NotHigh j =>
         match nth_error (r_pats r) j with Some Imm | Some Mem => true | _ => false end | Always => true end) table)
         (ltac:(vm_compute; reflexivity)) r Ir) as Q. cbv beta in Q.
      destruct (r_cond r); try subst; try exact Q. destruct Hi. }
    destruct (nth_error (r_pats r) i) as [q|] eqn:Nq; [|discriminate P].
    assert (Vi' : constant (f i) = constant (g_expr (arg_at ops i))) by (destruct q; try discriminate P; exact Vi). rewrite Vi'.
    rewrite <- Po, nth_error_map in Nq. destruct (nth_error ops i) as [p|] eqn:Np; [|discriminate Nq]. cbn [option_map] in Nq. injection Nq as Nq.
    assert (exists a, carried p = [a] /\ arg_at ops i = snd a) as (a & Ca & Aa).
    { unfold arg_at. rewrite Np. destruct p; subst q; try discriminate P; eexists; split; reflexivity. }
    destruct (Ak p a (nth_error_In _ _ Np)) as (O & _); [rewrite Ca; left; reflexivity|].
    unfold known_now, value. rewrite Aa. exact (constant_known _ _ _ _ _ SO O). }
  assert (Vm : view_meets view (r_cond r)).
  { destruct (r_cond r) as [|i v|i|i]; cbn [holds view_meets] in *; [exact Logic.I| | |]; rewrite (Cond i eq_refl).
    - destruct Ho as (-> & <-). reflexivity.
    - destruct Ho as (-> & H). exists (value ops i). split; [reflexivity|exact H].
    - intros v Hv. destruct Ho as [H|H]; [rewrite H in Hv; discriminate Hv|]. destruct (known_now ops i); [|discriminate Hv]. injection Hv as <-. exact H. }
  destruct (row_planned view (tag_mode junk1) (tag_mode junk2) g u s r Ir En Fa Vm) as (i & Ei & Pa & M0 & Pf).
  assert (Vc : forall j, constant (f j) = cond_view (r_cond r) view j).
  { intro j. change (constant (f j)) with (view j). destruct (r_cond r) as [|j' v| |]; cbn [cond_view]; try reflexivity.
    destruct (Nat.eqb_spec j' j) as [->|]; [exact Vm|reflexivity]. }
  pose proof (planned_map expr f constant (cond_view (r_cond r) view) o i junk1 junk2 (r_pats r) Vc) as Pm.
  assert (R' : ready st k m (total (r_code r))).
  { apply (X65Run.ready_less _ _ _ _ _ R). pose proof row_disp as H. unfold stores_disp in H. apply andb_true_iff in H. destruct H as (H & _).
    apply andb_true_iff in H. destruct H as (_ & H). rewrite total_sum. lia. }
  destruct (runs ops f _ _ _ (r_code r) S k st m SO R' De Pf Ra bare_rels) as (st' & Sn & Ru & Em).
  exists i, st'. split; [exact Ei|]. split; [exact M0|]. split; [exact Pa|]. split; [|exact Em].
  change e0 with (f 0%nat). change e1 with (f 1%nat). rewrite Pm. unfold carry_out. rewrite Ru. cbn [bind]. unfold pmap. cbn [snd]. rewrite Sn. reflexivity.
Qed.
Lemma knows_of : forall p, In p ops -> forall a, In a (carried p) -> knows S (here m) a.
Proof. intros p Hp a Ha. exact (Ak p a Hp Ha). Qed.
Lemma row_parsable : forallb (parsable o) (map pattern_of ops) = true.
Proof.
  rewrite Po.
  pose proof (none_left _ _ (fun b r => negb (enabled (fst (fst b)) (snd (fst b)) (snd b) r) ||
    forallb (parsable (options_of (fst (fst b)) (snd (fst b)) (snd b))) (r_pats r)) table bools (ltac:(vm_compute; reflexivity))
    (g, u, s) r (all_bools g u s) Ir) as H. cbv beta in H. cbn [fst snd] in H. rewrite En in H. exact H.
Qed.
Lemma not_third : forall i, (2 <= i)%nat -> nth_error ops i = None.
Proof. intros i H. apply nth_error_None. pose proof at_most_two. lia. Qed.
Theorem encoded : exists st',
  z80_ParseInstruction (s_F S) o junk1 junk2 (lex (Word (r_name r) :: text (map (omap the_source) ops)) ++ rest) st = Ok (true, rest, st') /\
  emits_seq S k st st' (stored ops (e_pc (s_env S)) (r_code r)).
Proof.
  pose proof at_most_two as L2. pose proof row_parsable as Pa. pose proof not_third as N3. pose proof disp_fits as Df. pose proof knows_of as Kn.
  pose proof (ends_stops rest Re) as St. pose proof carried_out as Co.
  rewrite <- Po in Co. unfold is_mem in Co.
  assert (N0 : forall i b, nth_error ops i = None -> held 244 b S (here m) (g_term (arg_at ops i)) (g_expr nothing) (value ops i)).
  { intros i b H. unfold value, arg_at. rewrite H. apply (nothing_held 244). lia. }
  assert (N1 : forall i, nth_error ops i = None -> constant (g_expr nothing) = constant (g_expr (arg_at ops i))).
  { intros i H. unfold arg_at. rewrite H. reflexivity. }
  assert (Beyond : forall i e0 e1, (2 <= i)%nat -> pick e0 e1 i = g_expr nothing) by (intros [|[|i]] e0 e1 H; [lia|lia|reflexivity]).
  assert (Mp : forall i, nth_error ops i = None -> nth_error (map pattern_of ops) i = None) by (intros i H; rewrite nth_error_map, H; reflexivity).
  destruct ops as [|p [|q [|]]]; cbn [Datatypes.length] in L2; [| | |lia].
  - (* no operand *)
    destruct (Co (g_expr nothing) (g_expr nothing) rest) as (i & st' & Ei & _ & _ & C & Em).
    { intro i. replace (pick _ _ i) with (g_expr nothing) by (destruct i as [|[|]]; reflexivity). apply N0. destruct i; reflexivity. }
    { intro i. replace (pick _ _ i) with (g_expr nothing) by (destruct i as [|[|]]; reflexivity). rewrite Mp by (destruct i; reflexivity).
      apply N1. destruct i; reflexivity. }
    exists st'. split; [|exact Em]. destruct (instruction_known _ _ Ei) as (id0 & Lx & Rg & Nt).
    cbn [map text lex app]. rewrite Lx. unfold z80_ParseInstruction. rewrite Rg, Nt. cbn [map planned] in C.
    destruct (i_modes1 i =? 0); [exact C|]. cbn [lex map app]. rewrite (no_operand o rest st _ Re). cbn [bind]. exact C.
  - (* one *)
    cbn [map forallb] in Pa. apply andb_true_iff in Pa. destruct Pa as (Pa & _).
    destruct (parse_one o S (here m) p rest st junk1 SO (Kn p (or_introl eq_refl))) as (e0 & Ep & He & Hc); try assumption.
    { inversion Sw. assumption. }
    { specialize (Df 0%nat p eq_refl ltac:(lia)). unfold value in Df. rewrite arg_at_0 in Df. exact Df. }
    destruct (Co e0 (g_expr nothing) rest) as (i & st' & Ei & M0 & _ & C & Em).
    { intros [|i]; [unfold value; rewrite arg_at_0; destruct p; exact He|].
      replace (pick _ _ (Datatypes.S i)) with (g_expr nothing) by (destruct i; reflexivity). apply N0. destruct i; reflexivity. }
    { intros [|i]; [rewrite arg_at_0; destruct p; exact Hc|].
      replace (pick _ _ (Datatypes.S i)) with (g_expr nothing) by (destruct i; reflexivity). rewrite Mp by (destruct i; reflexivity).
      apply N1. destruct i; reflexivity. }
    exists st'. split; [|exact Em]. destruct (instruction_known _ _ Ei) as (id0 & Lx & Rg & Nt).
    cbn [map text]. change (lex (Word (r_name r) :: text1 (omap the_source p)) ++ rest) with (lex1 (Word (r_name r)) :: lex (text1 (omap the_source p)) ++ rest).
    rewrite Lx. unfold z80_ParseInstruction. rewrite Rg, Nt. cbn [map planned] in C.
    destruct (Z.eqb_spec (i_modes1 i) 0) as [E0|_]; [discriminate (M0 E0)|].
    rewrite Ep. cbn [bind]. destruct rest as [|[] rest']; try exact C. destruct Re.
  - (* two *)
    cbn [map forallb] in Pa. apply andb_true_iff in Pa. destruct Pa as (Pa & Pb). apply andb_true_iff in Pb. destruct Pb as (Pb & _).
    set (r2 := lex (text1 (omap the_source q)) ++ rest).
    destruct (parse_one o S (here m) p (TComma :: r2) st junk1 SO (Kn p (or_introl eq_refl))) as (e0 & Ep & He & Hc); try assumption.
    { inversion Sw. assumption. } { exact Logic.I. }
    { specialize (Df 0%nat p eq_refl ltac:(lia)). unfold value in Df. rewrite arg_at_0 in Df. exact Df. }
    destruct (parse_one o S (here m) q rest st junk2 SO (Kn q (or_intror (or_introl eq_refl)))) as (e1 & Eq & Hd & He'); try assumption.
    { inversion Sw as [|? ? ? S2]. inversion S2. assumption. }
    { specialize (Df 1%nat q eq_refl ltac:(lia)). unfold value in Df. rewrite arg_at_1 in Df. exact Df. }
    destruct (Co e0 e1 rest) as (i & st' & Ei & M0 & _ & C & Em).
    { intros [|[|i]]; [unfold value; rewrite arg_at_0; destruct p; exact He|unfold value; rewrite arg_at_1; destruct q; exact Hd|].
      rewrite Beyond by lia. apply N0. destruct i; reflexivity. }
    { intros [|[|i]]; [rewrite arg_at_0; destruct p; exact Hc|rewrite arg_at_1; destruct q; exact He'|].
      rewrite Beyond by lia. rewrite Mp by (destruct i; reflexivity). apply N1. destruct i; reflexivity. }
    exists st'. split; [|exact Em]. destruct (instruction_known _ _ Ei) as (id0 & Lx & Rg & Nt).
    cbn [map text].
    replace (lex (Word (r_name r) :: text1 (omap the_source p) ++ Comma :: text1 (omap the_source q)) ++ rest)
      with (lex1 (Word (r_name r)) :: lex (text1 (omap the_source p)) ++ TComma :: r2).
    2:{ unfold r2, lex. cbn [map app]. rewrite map_app. cbn [map]. rewrite <- app_assoc. reflexivity. }
    rewrite Lx. unfold z80_ParseInstruction. rewrite Rg, Nt. cbn [map planned] in C.
    destruct (Z.eqb_spec (i_modes1 i) 0) as [E0|_]; [discriminate (M0 E0)|].
    rewrite Ep. cbn [bind]. unfold r2. rewrite Eq. cbn [bind]. exact C.
Qed.
End Whole.
