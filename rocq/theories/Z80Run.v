(** Proofs about the Z80 instruction parser: what the calls store. *)
From Coq Require Import ZArith List Bool Lia ZifyBool String.
From Verif Require Import Base BaseFacts Arith ArithProofs ExprSpec ExprModel ExprLayout ExprTree ExprProofs ObjWriteModel OptModel
  SectModel SectSpec SectProofs InstrSpec InstrProofs.
From Verif Require X65Spec X65Proofs X65Run.
From Verif Require Import Z80Model Z80Spec Z80Check.
Import ListNotations.
Open Scope string_scope.
Open Scope list_scope.
Open Scope Z_scope.
Notation moved := X65Spec.moved.
Notation emits_seq := X65Spec.emits_seq.
Notation source_term := X65Spec.source_term.

Ltac num := unfold is_s32; lia.
(** An expression on its way; [bare]: it is not in parentheses. *)
Definition held (N : Z) (bare : bool) (S : setting) (cur : option asect) (t : term) (e : expr) (v : Z) : Prop :=
  exists T, operand S cur T e v /\ tdepth T <= N /\ symbols_within T t /\ (known (s_world S) t -> known (s_world S) T) /\
    source_term T /\ (bare = true -> ~ paren_head T).
Lemma held_moved : forall N b S cur cur' d t e v, held N b S cur t e v -> held N b (moved d S) cur' t e v.
Proof.
  intros N b S cur cur' d t e v (T & O & D & W & K & So & P). exists T.
  split; [eapply X65Proofs.operand_moved; eassumption|]. tauto.
Qed.
Lemma held_less : forall N M b S cur t e v, held N b S cur t e v -> N <= M -> held M b S cur t e v.
Proof. intros N M b S cur t e v (T & O & D & R) L. exists T. split; [exact O|]. split; [lia|exact R]. Qed.
Lemma held_checked : forall N b S cur t e v lo hi st, setting_ok S cur -> held N b S cur t e v -> 1 <= N -> is_s32 lo -> is_s32 hi ->
  lo <= v <= hi -> exists e1, range_checked e lo hi st = Ok (e1, st) /\ held (N + 2) true S cur t e1 v.
Proof.
  intros N b S cur t e v lo hi st SO (T & O & D & W & K & So & P) HN L H R.
  destruct (operand_checked S cur T e v lo hi st SO O L H R) as (e1 & C & O1). exists e1. split; [exact C|].
  exists (limited T lo hi). split; [exact O1|]. unfold limited. split; [cbn [tdepth]; lia|].
  split; [apply within_limited, W|]. cbn. tauto.
Qed.
Lemma held_bin : forall N b S cur op t e v c w, setting_ok S cur -> held N b S cur t e v -> 1 <= N -> is_s32 c ->
  In op [OpAnd; OpOr; OpAsl; OpAdd] -> op_meaning (s_F S) op v c = Some w ->
  exists e1, expr_Binary (s_F S) op e (expr_Const c) = Ok e1 /\ held (N + 1) true S cur t e1 w.
Proof.
  intros N b S cur op t e v c w SO (T & O & D & W & K & So & P) HN C Po M.
  destruct (operand_bin S cur op T (Num c) e (expr_Const c) v c w SO O (operand_num _ _ _ C) M) as (e1 & B & O1).
  { destruct Po as [<-|[<-|[<-|[<-|[]]]]]; exact Logic.I. }
  assert (B' : expr_Binary (s_F S) op e (expr_Const c) = Ok e1) by (destruct Po as [<-|[<-|[<-|[<-|[]]]]]; exact B).
  exists e1. split; [exact B'|]. exists (Bin op T (Num c)).
  split; [exact O1|]. split; [cbn [tdepth]; lia|]. split; [apply within_bin; [exact W|apply within_num]|].
  split; [cbn [known]; tauto|]. split; [cbn; tauto|].
  destruct Po as [<-|[<-|[<-|[<-|[]]]]]; cbn; tauto.
Qed.
Lemma held_or : forall N b S cur t e v c w, setting_ok S cur -> held N b S cur t e v -> 1 <= N -> is_s32 c -> Z.lor c v = w ->
  exists e1, expr_Binary (s_F S) OpOr (expr_Const c) e = Ok e1 /\ held (N + 1) true S cur t e1 w.
Proof.
  intros N b S cur t e v c w SO (T & O & D & W & K & So & P) HN C M.
  destruct (operand_bin S cur OpOr (Num c) T (expr_Const c) e c v w SO (operand_num _ _ _ C) O) as (e1 & B & O1);
    [cbn; congruence|exact Logic.I|].
  exists e1. split; [exact B|]. exists (Bin OpOr (Num c) T).
  split; [exact O1|]. split; [cbn [tdepth]; lia|]. split; [apply within_bin; [apply within_num|exact W]|].
  split; [cbn [known]; tauto|]. split; cbn; tauto.
Qed.
Lemma out_held : forall N b S k st m n t e v room, sizes n -> setting_ok S (here m) -> ready st k m (Z.of_nat n + room) -> 0 <= room ->
  held N b S (here m) t e v -> N <= 256 ->
  exists st1 m1, sect_OutputExpr n e st = Ok st1 /\ emits S k st st1 [(n, t, v)] /\ ready st1 k m1 room /\
    setting_ok (moved (Z.of_nat n) S) (here m1).
Proof.
  intros N b S k st m n t e v room Si SO R Ro (T & O & D & W & K & So & P) L.
  destruct (out_expr S (here m) n T t e v k st m Si SO O) as (st1 & E & Em); try assumption.
  { lia. } { apply (X65Run.ready_less _ _ _ _ _ R). lia. }
  destruct (X65Proofs.next_place S k st st1 m n _ _ room SO R Em) as (m1 & R2 & S2). exists st1, m1. tauto.
Qed.
Lemma current_now : forall st k m n, ready st k m n -> sect_Current st = here m.
Proof. intros st k m n ((C & N & _) & _). unfold sect_Current, here. rewrite C, N. reflexivity. Qed.
Lemma out_rel : forall N S k st m t e v room, setting_ok S (here m) -> ready st k m (1 + room) -> 0 <= room ->
  held N true S (here m) t e v -> N <= 250 -> 0 <= v <= 65535 -> -128 <= v - (e_pc (s_env S) + 1) <= 127 ->
  exists st1 m1, run_act (s_F S) (APcRel (XExpr e)) st = Ok st1 /\
    emits S k st st1 [(1%nat, PcRel (-1) t, v - (e_pc (s_env S) + 1))] /\ ready st1 k m1 room /\ setting_ok (moved 1 S) (here m1).
Proof.
  intros N S k st m t e v room SO R Ro (T & O & D & W & K & So & P) L Wv Re. specialize (P eq_refl). set (pc := e_pc (s_env S)) in *.
  cbn [run_act theExpr bind]. rewrite (current_now _ _ _ _ R).
  destruct (operand_pcrel S (here m) (-1) T e v (v - (pc + 1)) SO O) as (e1 & A & O1).
  { num. } { exact P. }
  { unfold pcrel_meaning, inr. fold pc.
    replace ((- 2 ^ 31 <=? v + -1) && (v + -1 <? 2 ^ 31)) with true by lia.
    replace ((- 2 ^ 31 <=? -1 - pc) && (-1 - pc <? 2 ^ 31)) with true by lia.
    replace ((- 2 ^ 31 <=? v + -1 - pc) && (v + -1 - pc <? 2 ^ 31)) with true by lia. f_equal. lia. }
  rewrite A. cbn [bind].
  destruct (operand_checked S (here m) _ e1 _ (-128) 127 st SO O1) as (e2 & Ck & O2); try num.
  rewrite Ck. cbn [bind].
  destruct (out_expr S (here m) 1 _ (PcRel (-1) t) e2 _ k st m (or_introl eq_refl) SO O2) as (st1 & E & Em).
  { unfold limited. cbn [tdepth]. lia. }
  { apply within_limited. exact W. }
  { intro Kn. destruct Kn. }
  { apply (X65Run.ready_less _ _ _ _ _ R). change (Z.of_nat 1) with 1. lia. }
  destruct (X65Proofs.next_place S k st st1 m 1 _ _ room SO R Em) as (m1 & R2 & S2). exists st1, m1. tauto.
Qed.

(** ** The calls of a plan *)
Section Run.
Variable ops : list (opnd (bool * arg)).
Variable f : nat -> expr.
Definition is_mem (i : nat) : bool := match nth_error (map pattern_of ops) i with Some Mem => true | _ => false end.
Definition delivered (S : setting) (cur : option asect) : Prop :=
  forall i, held 244 (negb (is_mem i)) S cur (g_term (arg_at ops i)) (f i) (value ops i).
Lemma delivered_moved : forall S cur cur' d, delivered S cur -> delivered (moved d S) cur'.
Proof. intros S cur cur' d H i. eapply held_moved, H. Qed.
Fixpoint total (cs : list cell) : Z := match cs with [] => 0 | c :: r => Z.of_nat (cell_width c) + total r end.
Lemma total_nn : forall cs, 0 <= total cs. Proof. induction cs; cbn [total]; lia. Qed.
Definition rel_bare (c : cell) : bool := match c with Rel i => negb (is_mem i) | _ => true end.
Notation tr := (amap nat expr f).
Lemma xe_is : forall i x, xe i x = true -> xmap nat expr f x = XExpr (f i).
Proof. intros i [|j| |]; cbn; intro H; try discriminate. apply Nat.eqb_eq in H. congruence. Qed.
Lemma next_ok : forall S cur i st, setting_ok S cur -> delivered S cur -> -128 <= value ops i + 1 <= 127 ->
  exists e, next_of (s_F S) (f i) st = Ok (e, st) /\ held 247 true S cur (g_term (arg_at ops i)) e (value ops i + 1).
Proof.
  intros S cur i st SO De R. unfold next_of, expr_Add.
  destruct (held_bin 244 _ S cur OpAdd _ _ _ 1 (value ops i + 1) SO (De i)) as (e1 & E1 & H1); try num.
  { cbn. tauto. } { cbn [op_meaning]. unfold inr. replace (_ && _) with true by lia. reflexivity. }
  rewrite E1. cbn [bind].
  destruct (held_checked _ _ S cur _ _ _ (-128) 127 st SO H1) as (e2 & E2 & H2); try num.
  exists e2. split; [exact E2|]. exact H2.
Qed.
Lemma is_checked_is : forall n lo hi a i, is_checked n lo hi a i = true -> exists x, a = AChecked n lo hi x /\ xmap nat expr f x = XExpr (f i).
Proof.
  intros n lo hi a i H. destruct a; try discriminate H. cbn [is_checked] in H. apply andb_true_iff in H. destruct H as (H & X).
  apply xe_is in X. assert (n = n0 /\ lo = lo0 /\ hi = hi0) as (-> & -> & ->) by lia. exists x. split; [reflexivity|exact X].
Qed.
Lemma one_act : forall ex ps a c S k st m room, setting_ok S (here m) -> ready st k m (Z.of_nat (cell_width c) + room) -> 0 <= room ->
  delivered S (here m) -> act_fits ex ps a c = true -> cell_fits ops (e_pc (s_env S)) c -> rel_bare c = true ->
  exists st1 m1, run_act (s_F S) (tr a) st = Ok st1 /\ emits S k st st1 [stored1 ops (e_pc (s_env S)) c] /\
    ready st1 k m1 room /\ setting_ok (moved (Z.of_nat (cell_width c)) S) (here m1).
Proof.
  intros ex ps a c S k st m room SO R Ro De Fi Ra Rb.
  assert (chk : forall n lo hi i, sizes n -> is_s32 lo -> is_s32 hi -> lo <= value ops i <= hi ->
    ready st k m (Z.of_nat n + room) -> (n = 1 \/ n = 2)%nat -> is_checked n lo hi a i = true ->
    exists st1 m1, run_act (s_F S) (tr a) st = Ok st1 /\
      emits S k st st1 [(n, g_term (arg_at ops i), value ops i)] /\ ready st1 k m1 room /\ setting_ok (moved (Z.of_nat n) S) (here m1)).
  { intros n lo hi i Si L H B R1 Nn Ck. destruct (is_checked_is _ _ _ _ _ Ck) as (x & -> & X).
    destruct (held_checked _ _ S (here m) _ _ _ lo hi st SO (De i)) as (e1 & E1 & H1); try assumption; [lia|].
    destruct (out_held 246 true S k st m n _ e1 _ room Si SO R1 Ro H1) as (st1 & m1 & E & R2); [lia|].
    exists st1, m1. split; [|exact R2]. cbn [amap run_act]. rewrite X. cbn [theExpr bind]. rewrite E1. cbn [bind].
    destruct Nn as [->| ->]; exact E. }
  destruct c; cbn [cell_fits] in Ra; cbn [stored1 cell_width act_fits] in *.
  - (* Byte *)
    destruct a as [b0|x| | | | | |]; try discriminate Fi.
    + assert (b = b0) by lia. subst b0. cbn [amap run_act]. apply (X65Run.op_step S k st m b room SO R Ro).
    + destruct x; try discriminate Fi. assert (b = 1) by lia. subst b.
      cbn [amap xmap run_act theExpr bind]. apply (out_held 1 true S k st m 1 (Num 1) _ 1 room (or_introl eq_refl) SO R Ro); [|lia].
      exists (Num 1). split; [apply operand_num; num|]. split; [cbn; lia|]. split; [apply within_refl|]. cbn. tauto.
  - (* N *) apply (chk 1%nat (-128) 255); try num; try assumption; left; reflexivity.
  - apply (chk 1%nat 0 255); try num; try assumption; left; reflexivity.
  - (* Disp *)
    assert (C1 : forall ex', is_checked 1 (-128) 127 a i || is_checked 1 (-128) 255 a i && ex' = true ->
      exists st1 m1, run_act (s_F S) (tr a) st = Ok st1 /\
      emits S k st st1 [(1%nat, g_term (arg_at ops i), value ops i)] /\ ready st1 k m1 room /\ setting_ok (moved (Z.of_nat 1) S) (here m1)).
    { intros ex' Q. apply orb_true_iff in Q. destruct Q as [Q|Q].
      - apply (chk 1%nat (-128) 127); try num; try assumption; left; reflexivity.
      - apply andb_true_iff in Q. destruct Q as (Q & _). apply (chk 1%nat (-128) 255); try num; try assumption; left; reflexivity. }
    destruct a; try (apply (C1 _ Fi)). clear C1. apply andb_true_iff in Fi. destruct Fi as (Fi & _). apply xe_is in Fi. cbn [amap run_act]. rewrite Fi. cbn [theExpr bind].
    apply (out_held 244 _ S k st m 1 _ _ _ room (or_introl eq_refl) SO R Ro (De i)). lia.
  - (* Next *)
    destruct a; try discriminate Fi. destruct x; try discriminate Fi. apply Nat.eqb_eq in Fi. subst e.
    destruct (next_ok S (here m) i st SO De Ra) as (e & E & H). cbn [amap xmap run_act theExpr]. rewrite E. cbn [bind].
    apply (out_held 247 _ S k st m 1 _ _ _ room (or_introl eq_refl) SO R Ro H). lia.
  - apply (chk 2%nat 0 65535); try num; try assumption; right; left; reflexivity.
  - apply (chk 2%nat (-32768) 65535); try num; try assumption; right; left; reflexivity.
  - (* Rel *)
    destruct a; try discriminate Fi. apply xe_is in Fi. cbn [amap]. rewrite Fi. pose proof (De i) as Di.
    cbn [rel_bare] in Rb. rewrite Rb in Di. destruct Ra as (Ra1 & Ra2).
    apply (out_rel 244 S k st m _ _ _ room SO R Ro Di); [lia|exact Ra1|exact Ra2].
  - (* Bit *)
    destruct a as [| | | | |op' x| |]; try discriminate Fi. apply andb_true_iff in Fi. destruct Fi as (Fi & B). apply andb_true_iff in Fi.
    destruct Fi as (Eo & X). apply xe_is in X. assert (op = op') by lia. subst op'.
    apply existsb_exists in B. destruct B as (op' & B & Eq). assert (op = op') by lia. subst op'.
    assert (Hv : In (value ops i) [0; 1; 2; 3; 4; 5; 6; 7]) by (cbn [In]; lia).
    assert (Bo : is_s32 op /\ Z.lor op (8 * value ops i) = op + 8 * value ops i).
    { unfold BIT_OPS in B. cbn [flat_map seq map app Z.of_nat Pos.of_succ_nat Pos.succ] in B.
      revert B Hv. generalize (value ops i). clear. intros v B Hv.
      repeat (destruct B as [<-|B]; [repeat (destruct Hv as [<-|Hv]; [split; [unfold is_s32; lia|reflexivity]|]); destruct Hv|]). destruct B. }
    destruct Bo as (B32 & Lo).
    destruct (held_checked _ _ S (here m) _ _ _ 0 7 st SO (De i)) as (e1 & E1 & H1); try num.
    destruct (held_bin _ _ S (here m) OpAsl _ _ _ 3 (8 * value ops i) SO H1) as (e2 & E2 & H2); try num.
    { cbn. tauto. } { revert Hv. generalize (value ops i). clear. intros v Hv. repeat (destruct Hv as [<-|Hv]; [reflexivity|]). destruct Hv. }
    destruct (held_or _ _ S (here m) _ _ _ op (op + 8 * value ops i) SO H2) as (e3 & E3 & H3); try num; try exact Lo; try exact B32.
    destruct (out_held 248 true S k st m 1 _ _ _ room (or_introl eq_refl) SO R Ro H3) as (st1 & m1 & E & R2); [lia|].
    exists st1, m1. split; [|exact R2]. cbn [amap run_act]. rewrite X. cbn [theExpr bind]. rewrite E1. cbn [bind].
    unfold expr_Asl, expr_Or. rewrite E2. cbn [bind]. rewrite E3. exact E.
  - (* High *)
    destruct a; try discriminate Fi. apply xe_is in Fi. unfold in_high in Ra.
    destruct (held_checked _ _ S (here m) _ _ _ 0xFF00 0xFFFF st SO (De i)) as (e1 & E1 & H1); try num.
    destruct (held_bin _ _ S (here m) OpAnd _ _ _ 0xFF (value ops i - 0xFF00) SO H1) as (e2 & E2 & H2); try num.
    { cbn. tauto. }
    { cbn [op_meaning]. f_equal. change 0xFF with (Z.ones 8) at 1. rewrite Z.land_ones by lia. revert Ra. generalize (value ops i). clear.
      intros v Ra. symmetry. apply Z.mod_unique_pos with 255; lia. }
    destruct (out_held 247 true S k st m 1 _ _ _ room (or_introl eq_refl) SO R Ro H2) as (st1 & m1 & E & R2); [lia|].
    exists st1, m1. split; [|exact R2]. cbn [amap run_act]. rewrite Fi. cbn [theExpr bind]. rewrite E1. cbn [bind].
    unfold expr_And. rewrite E2. exact E.
Qed.
Lemma all_acts : forall ex ps l cs S k st m, setting_ok S (here m) -> ready st k m (total cs) ->
  delivered S (here m) -> acts_fit ex ps l cs = true -> in_range ops (e_pc (s_env S)) cs -> forallb rel_bare cs = true ->
  exists st1, run_acts (s_F S) (map tr l) st = Ok st1 /\ emits_seq S k st st1 (stored ops (e_pc (s_env S)) cs).
Proof.
  intros ex ps. induction l as [|a l IH]; intros [|c cs] S k st m SO R De Fi Ra Rb; try discriminate Fi.
  - exists st. split; reflexivity.
  - cbn [acts_fit] in Fi. apply andb_true_iff in Fi. destruct Fi as (F1 & F2).
    cbn [forallb] in Rb. apply andb_true_iff in Rb. destruct Rb as (Rb1 & Rb2). destruct Ra as (Ra1 & Ra2).
    destruct (one_act ex ps a c S k st m (total cs) SO R (total_nn cs) De F1 Ra1 Rb1) as (st1 & m1 & E1 & Em & R1 & S1).
    destruct (IH cs _ k st1 m1 S1 R1) as (st2 & E2 & Em2); try assumption.
    { eapply delivered_moved, De. }
    exists st2. split; [cbn [map run_acts]; rewrite E1; cbn [bind]; exact E2|].
    cbn [stored X65Spec.emits_seq]. exists st1. split; [exact Em|].
    replace (fst (fst (stored1 ops (e_pc (s_env S)) c))) with (cell_width c) by (destruct c; reflexivity). exact Em2.
Qed.
Lemma range_next : forall i cs pc, in_range ops pc cs -> existsb (fun c => match c with Next j => Nat.eqb i j | _ => false end) cs = true ->
  -128 <= value ops i + 1 <= 127.
Proof.
  intros i. induction cs as [|c cs IH]; intros pc Ra H; cbn [existsb] in H; [discriminate|]. destruct Ra as (R1 & R2).
  apply orb_true_iff in H. destruct H as [H|H]; [|exact (IH _ R2 H)]. destruct c; try discriminate H. apply Nat.eqb_eq in H. subst. exact R1.
Qed.
Lemma runs : forall ex ps p cs S k st m, setting_ok S (here m) -> ready st k m (total cs) ->
  delivered S (here m) -> plan_fits ex ps p cs = true -> in_range ops (e_pc (s_env S)) cs -> forallb rel_bare cs = true ->
  exists st1, snd p = true /\ run_acts (s_F S) (fst (pmap nat expr f p)) st = Ok st1 /\ emits_seq S k st st1 (stored ops (e_pc (s_env S)) cs).
Proof.
  intros ex ps [l b] cs S k st m SO R De Fi Ra Rb. unfold plan_fits in Fi. cbn [fst snd] in *. apply andb_true_iff in Fi. destruct Fi as (Fi0 & Fi).
  apply andb_true_iff in Fi0. destruct Fi0 as (-> & _).
  assert (G : forall l', acts_fit ex ps l' cs = true -> exists st1, true = true /\ run_acts (s_F S) (map tr l') st = Ok st1 /\
     emits_seq S k st st1 (stored ops (e_pc (s_env S)) cs)).
  { intros l' F'. destruct (all_acts ex ps l' cs S k st m) as (st1 & A); try assumption. exists st1. split; [reflexivity|exact A]. }
  unfold pmap. cbn [fst]. unfold drop_next in Fi.
  destruct l as [|a l]; [apply G, Fi|]. destruct a; try (apply G, Fi). destruct x; try (apply G, Fi).
  destruct (existsb _ cs) eqn:Ex; [|apply G, Fi].
  pose proof (range_next _ _ _ Ra Ex) as Rn. destruct (next_ok S (here m) e st SO De Rn) as (e1 & E1 & _).
  destruct (G l Fi) as (st1 & T & A). exists st1. split; [exact T|]. cbn [map amap xmap run_acts run_act]. rewrite E1. exact A.
Qed.
End Run.
