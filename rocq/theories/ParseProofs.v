(** Proofs for C36. *)
From Coq Require Import ZArith List Bool Lia ZifyBool ZifyNat.
From Verif Require Import Base BaseFacts Arith ExprSpec ExprModel ExprLayout ParseModel ParseSpec ParseFuel.
Import ListNotations.
Open Scope Z_scope.

(** The levels as the functions of the parser are numbered. *)
Definition lv (o : op) : option nat :=
  match o with
  | OpBoolOr | OpBoolAnd => Some 0%nat
  | OpEq | OpNe | OpLe | OpGe | OpLt | OpGt => Some 2%nat
  | OpAdd | OpSub => Some 3%nat
  | OpAnd | OpXor | OpOr => Some 4%nat
  | OpMul | OpDiv | OpMod | OpFmul | OpFdiv | OpAsl | OpAsr => Some 5%nat
  | _ => None
  end.
Fixpoint grp (l : nat) (t : sx) : Prop :=
  match t with
  | XNum _ | XSym _ _ | XPc _ | XDef _ _ | XBank _ _ => True
  | XParen a => grp 0 a
  | XFun _ a => grp 0 a
  | XAtan2 a b => grp 0 a /\ grp 0 b
  | XNeg a | XPlus a | XInv a => grp 6 a
  | XNot a => if Nat.leb l 1 then grp 1 a else grp 6 a
  | XBin o a b =>
      match lv o with
      | Some p =>
          (l <= p)%nat /\ ((l <= 1)%nat -> (2 <= p)%nat -> starts_not a = false) /\
          grp p a /\ grp (S p) b
      | None => False
      end
  end.
Definition renum (l : nat) : nat := if (6 <=? l)%nat then (l - 1)%nat else l.
Lemma grouped_grp : forall t l, grouped levels l t -> grp (renum l) t.
Proof.
  induction t; intros l G; cbn [grouped grp] in *; auto;
    try (exact (IHt 7%nat G)); try (exact (IHt 0%nat G)).
  - unfold renum at 1. destruct (Nat.leb_spec 6 l); destruct (Nat.leb_spec l 1); try lia;
    try (destruct (Nat.leb_spec (l - 1) 1); try lia); try exact (IHt 7%nat G); try exact (IHt 1%nat G);
    destruct (Nat.leb_spec l 1); try lia; try exact (IHt 7%nat G); exact (IHt 1%nat G).
  - destruct (levels o) as [p|] eqn:EL; [|contradiction]. destruct G as (L & NN & Ga & Gb).
    assert (Ev : lv o = Some (renum p) /\ (p <= 6)%nat /\ p <> 5%nat).
    { destruct o; cbn in EL; inversion EL; subst; cbn; (split; [reflexivity|lia]). }
    destruct Ev as (-> & P6 & P5). apply IHt1 in Ga. apply IHt2 in Gb.
    assert (ES : renum (S p) = S (renum p)).
    { unfold renum. destruct (Nat.leb_spec 6 p); destruct (Nat.leb_spec 6 (S p)); lia. }
    rewrite ES in Gb.
    assert (L' : (renum l <= renum p)%nat).
    { unfold renum. destruct (Nat.leb_spec 6 p); destruct (Nat.leb_spec 6 l); lia. }
    split; [exact L'|]. split; [|auto].
    intros L1 P2. apply NN; unfold renum in *.
    + destruct (Nat.leb_spec 6 l); lia.
    + destruct (Nat.leb_spec 6 p); lia.
  - destruct G. split; [apply (IHt1 0%nat)|apply (IHt2 0%nat)]; assumption.
Qed.

(** From some recursion depth on, the result is [R]. *)
Definition runs {A : Type} (f : nat -> A) (R : A) : Prop :=
  exists N, forall n, (N <= n)%nat -> f n = R.

Lemma runs_parse : forall P mx ts R,
  runs (fun n => priority P n mx 0 ts) R -> parse_Expression P mx ts = R.
Proof.
  intros P mx ts R [N H]. unfold parse_Expression.
  set (k := (16 * (length ts + 1))%nat).
  rewrite <- (H (Nat.max N k)) by lia.
  apply (stable_all P k (Nat.max N k)); unfold k; lia.
Qed.

(** An expression that was entered without error is not NULL. *)
Ltac dbind H := match type of H with bind ?x _ = Ok _ =>
  let E := fresh "E" in destruct x eqn:E; cbn [bind] in H; [|discriminate H|discriminate H] end.

Lemma binary_not_null : forall F o l r e, expr_Binary F o l r = Ok e -> isNull e = false.
Proof.
  intros F o l r e H. unfold expr_Binary in H.
  repeat match type of H with
  | bind _ _ = Ok _ => dbind H
  | (match ?b with _ => _ end) = Ok _ => destruct b; try discriminate H
  end; injection H as <-; reflexivity.
Qed.
Lemma unary_not_null : forall F o r e, expr_Unary F o r = Ok e -> isNull e = false.
Proof.
  intros F o r e H. unfold expr_Unary in H.
  repeat match type of H with
  | bind _ _ = Ok _ => dbind H
  | (match ?b with _ => _ end) = Ok _ => destruct b; try discriminate H
  end; injection H as <-; reflexivity.
Qed.
Lemma sub_not_null : forall F w l r e, expr_Sub F w l r = Ok e -> isNull e = false.
Proof.
  intros F w l r e H. unfold expr_Sub in H. dbind H.
  destruct (_ && _); [dbind H; injection H as <-; reflexivity|].
  injection H as <-. exact (binary_not_null _ _ _ _ _ E).
Qed.
Lemma parens_inv : forall e e', expr_Parens e = Ok e' -> isNull e = false /\ isNull e' = false.
Proof.
  intros e e' H. unfold expr_Parens in H. destruct (isNull e); [discriminate H|].
  injection H as <-. auto.
Qed.
Lemma symbol_not_null : forall g w s e, expr_Symbol g w s = Ok e ->
  isNull e = false /\ y_expression (w_symbol w s) = true.
Proof.
  intros g w s e H. unfold expr_Symbol in H. cbv zeta in H.
  destruct (y_expression _); [|discriminate H].
  destruct (y_constant _); injection H as <-; auto.
Qed.

Section Grouping.
Variable P : pctx.
Variable mx g : Z.
Variable cur : option asect.
Notation F := (p_math P).
Notation W := (p_world P).
Notation enter t := (build (p_math P) (p_garbage P) g (p_world P) cur
                           (term_of (p_pc P) (p_defined P) t)).

Lemma levelOp_levels : forall l o, levelOp l o = true <-> lv o = Some l.
Proof.
  intros l o. destruct o; cbn; (split; [|injection 1 as <-; reflexivity] || (split; [|discriminate]));
  do 6 (destruct l as [|l]; cbn; try discriminate; try reflexivity).
Qed.

Lemma combine_build : forall o p a b e, lv o = Some p ->
  build2 F g W o a b = Ok e -> combine P o a b = Ok e /\ isNull e = false /\ isNull b = false.
Proof.
  intros o p a b e L H.
  assert (C : combine P o a b = Ok e) by (destruct o; try discriminate L; exact H).
  split; [exact C|]. split.
  - destruct o; try discriminate L; cbn [combine] in C;
      (exact (binary_not_null _ _ _ _ _ C) || exact (sub_not_null _ _ _ _ _ C)).
  - assert (B : exists o' e', expr_Binary F o' a b = Ok e').
    { destruct o; try discriminate L; cbn [combine] in C; try (eexists; eexists; exact C).
      unfold expr_Sub in C. dbind C. eexists; eexists; exact E. }
    destruct B as (o' & e' & B). unfold expr_Binary in B.
    destruct (isNull b); [rewrite orb_true_r in B; discriminate B|reflexivity].
Qed.

(** ** Trying a string expression first does no harm *)
Definition no_string (ts : list tok) : Prop :=
  runs (fun n => stringPri1 P n ts) (Ok (None, ts)) /\
  exists r, runs (fun n => stringExpression P n ts) (Ok (None, r)).

(** A first token that cannot start a string expression. *)
Definition dull (k : tok) : bool :=
  match k with
  | KStr _ _ | KLp | KOp OpOr | KOp OpAdd => false
  | KId _ (Dot (Some (MUpper | MLower | MSlice))) => false
  | _ => true
  end.

Lemma pri1_dull : forall k ts, dull k = true \/ k = KOp OpAdd ->
  forall n, (2 <= n)%nat -> stringPri1 P n (k :: ts) = Ok (None, k :: ts).
Proof.
  intros k ts D n Hn. destruct n as [|[|n]]; [lia|lia|].
  destruct D as [D| ->].
  - destruct k as [| |s [|[[]|]]| |[]| | | | | | | | | |]; try discriminate D; reflexivity.
  - reflexivity.
Qed.

Lemma no_string_dull : forall k ts, dull k = true -> no_string (k :: ts).
Proof.
  intros k ts D. split.
  - exists 2%nat. intros n Hn. apply pri1_dull; auto.
  - exists (k :: ts). exists 3%nat. intros [|n] Hn; [lia|].
    cbn [stringExpression]. rewrite pri1_dull by (auto || lia). cbn [bind].
    destruct n as [|n]; [lia|].
    destruct k as [| |s d| |[]| | | | | | | | | |]; try discriminate D; reflexivity.
Qed.

Lemma no_string_show : forall t rest, plain t -> no_string (show t ++ rest).
Proof.
  induction t; intros rest Pl; cbn [show app plain] in *;
    try (apply no_string_dull; destruct d as [|[[]|]]; (reflexivity || contradiction));
    try (apply no_string_dull; reflexivity).
  - apply no_string_dull; destruct star; reflexivity.
  - rewrite <- app_assoc. destruct (IHt ([KRp] ++ rest) Pl) as (_ & r & N & H).
    assert (Q : forall n, (S N <= n)%nat ->
       stringPri2 P n (KLp :: show t ++ [KRp] ++ rest) = Ok (None, KLp :: show t ++ [KRp] ++ rest)).
    { intros [|n] Hn; [lia|]. cbn [stringPri2]. rewrite H by lia. reflexivity. }
    split.
    + exists (S (S N)). intros [|n] Hn; [lia|]. cbn [stringPri1]. rewrite Q by lia. cbn [bind].
      destruct n as [|n]; [lia|]. reflexivity.
    + exists (KLp :: show t ++ [KRp] ++ rest). exists (S (S (S N))). intros [|[|n]] Hn; [lia|lia|].
      cbn [stringExpression stringPri1]. rewrite Q by lia. cbn [bind].
      destruct n as [|n]; [lia|]. reflexivity.
  - split.
    + exists 2%nat. intros n Hn. apply pri1_dull; auto.
    + destruct (IHt rest Pl) as ((N & H) & _).
      exists (show t ++ rest). exists (N + 4)%nat. intros [|[|n]] Hn; [lia|lia|].
      cbn [stringExpression]. rewrite pri1_dull by (auto || lia). cbn [bind stringLoop].
      rewrite H by lia. reflexivity.
  - rewrite <- app_assoc. apply IHt1. apply Pl.
Qed.

(** ** Levels *)
Definition above (l : nat) (rest : list tok) : Prop :=
  match rest with
  | KOp o :: _ => match lv o with Some p => (p <= l)%nat | None => True end
  | _ => True
  end.
Definition cont (l : nat) (e : expr) (rest : list tok) (R : parsed expr) : Prop :=
  match l with
  | 1%nat | 6%nat => R = Ok (e, rest)
  | _ => runs (fun n => loop P n mx l e rest) R
  end.

Lemma loop_stops : forall l e rest,
  match rest with KOp o :: _ => levelOp l o = false | _ => True end ->
  runs (fun n => loop P n mx l e rest) (Ok (e, rest)).
Proof.
  intros l e rest H. exists 1%nat. intros [|n] Hn; [lia|]. cbn [loop].
  destruct rest as [|[] r]; try reflexivity. rewrite H. reflexivity.
Qed.
Lemma above_stops : forall l j rest, above l rest -> (l < j)%nat ->
  match rest with KOp o :: _ => levelOp j o = false | _ => True end.
Proof.
  intros l j rest A L. destruct rest as [|[] r]; auto. cbn in A.
  destruct (levelOp j o) eqn:E; [|reflexivity].
  apply levelOp_levels in E. rewrite E in A. lia.
Qed.
Lemma cont_above : forall l j e rest, above l rest -> (l < j)%nat -> cont j e rest (Ok (e, rest)).
Proof.
  intros l j e rest A L. pose proof (loop_stops j e rest (above_stops l j rest A L)) as H.
  unfold cont. do 7 (destruct j as [|j]; auto).
Qed.

Definition loops (l : nat) : Prop := (l <= 5)%nat /\ l <> 1%nat.
Lemma level_step : forall l ts e rest R, loops l ->
  runs (fun n => priority P n mx (S l) ts) (Ok (e, rest)) ->
  runs (fun n => loop P n mx l e rest) R ->
  runs (fun n => priority P n mx l ts) R.
Proof.
  intros l ts e rest R (L5 & L1) [N HN] [M HM]. exists (S (Nat.max N M)). intros [|n] Hn; [lia|].
  do 6 (destruct l as [|l]; [try lia; cbn [priority]; rewrite HN by lia; cbn [bind]; apply HM; lia|]).
  lia.
Qed.
Definition not_not (ts : list tok) : Prop :=
  match ts with KOp OpBoolNot :: _ => False | _ => True end.
Lemma level1_step : forall ts R, not_not ts ->
  runs (fun n => priority P n mx 2 ts) R -> runs (fun n => priority P n mx 1 ts) R.
Proof.
  intros ts R NN [N HN]. exists (S N). intros [|n] Hn; [lia|].
  rewrite <- (HN n) by lia. cbn [priority].
  destruct ts as [|[| | | |[]| | | | | | | | | |] r]; try reflexivity. contradiction.
Qed.
Lemma cont_1_or : forall l e rest R, (l <= 6)%nat -> cont l e rest R ->
  (loops l /\ runs (fun n => loop P n mx l e rest) R) \/ ((l = 1%nat \/ l = 6%nat) /\ R = Ok (e, rest)).
Proof.
  intros l e rest R L C. unfold loops.
  do 7 (destruct l as [|l]; [first [left; split; [lia|exact C] | right; split; [lia|exact C]]|]). lia.
Qed.

(** From the level of the outermost operator down to the wanted level. *)
Lemma descend : forall j l ts e rest R, (l <= j)%nat -> (j <= 6)%nat ->
  ((l <= 1)%nat -> (2 <= j)%nat -> not_not ts) ->
  above l rest ->
  runs (fun n => priority P n mx j ts) (Ok (e, rest)) ->
  (j = l -> R = Ok (e, rest)) ->
  ((l < j)%nat -> cont l e rest R) ->
  runs (fun n => priority P n mx l ts) R.
Proof.
  induction j as [|j IH]; intros l ts e rest R Hl Hj NN A H Hjl C.
  - assert (l = 0)%nat by lia. subst. rewrite (Hjl eq_refl). exact H.
  - destruct (Nat.eq_dec (S j) l) as [<-|Ne]; [rewrite (Hjl eq_refl); exact H|].
    assert (Hlt : (l < S j)%nat) by lia. specialize (C Hlt).
    destruct (Nat.eq_dec j l) as [->|Nj].
    + destruct (cont_1_or l e rest R ltac:(lia) C) as [(L & Q)|([->| ->] & ->)].
      * exact (level_step l ts e rest R L H Q).
      * apply level1_step; [apply NN; lia|exact H].
      * lia.
    + apply (IH l ts e rest R); try lia; auto.
      destruct (Nat.eq_dec j 1) as [->|J1].
      * apply level1_step; [apply NN; lia|exact H].
      * apply (level_step j ts e rest); [split; lia|exact H|].
           apply loop_stops. apply (above_stops l j rest A). lia.
Qed.

Lemma head_not : forall t ts, starts_not t = false -> not_not (show t ++ ts).
Proof.
  induction t; intros ts H; cbn in *; auto; try discriminate.
  - destruct star; exact I.
  - rewrite <- app_assoc. apply IHt1. exact H.
Qed.

(** A token at which lv 6 to 8 do nothing. *)
Definition primary (k : tok) : bool :=
  match k with KNum _ | KId _ _ | KAt | KOp OpMul | KLp => true | _ => false end.
Lemma to_primary : forall k ts R, primary k = true -> no_string (k :: ts) ->
  runs (fun n => priority P n mx 9 (k :: ts)) R ->
  runs (fun n => priority P n mx 6 (k :: ts)) R.
Proof.
  intros k ts R Pk (_ & r & N & HN) [M HM]. exists (S (S (S (Nat.max N M)))).
  intros [|[|[|n]]] Hn; try lia.
  rewrite <- (HM n) by lia.
  assert (E8 : priority P (S n) mx 8 (k :: ts) = priority P n mx 9 (k :: ts)).
  { cbn [priority]. rewrite HN by lia. reflexivity. }
  rewrite <- E8.
  destruct k as [| | | |[]| | | | | | | | | |]; try discriminate Pk; reflexivity.
Qed.

Lemma grouping : forall t l rest R e, (l <= 6)%nat -> grp l t -> plain t ->
  enter t = Ok e -> above l rest -> cont l e rest R ->
  runs (fun n => priority P n mx l (show t ++ rest)) R.
Proof.
  assert (DONE : forall t l rest R e, (l <= 6)%nat -> starts_not t = false -> above l rest -> cont l e rest R ->
     runs (fun n => priority P n mx 6 (show t ++ rest)) (Ok (e, rest)) ->
     runs (fun n => priority P n mx l (show t ++ rest)) R).
  { intros t l rest R e L NN A C H. apply (descend 6 l _ e rest R); auto.
    - intros. apply head_not. exact NN.
    - intros <-. exact C. }
  induction t; intros l rest R e L G Pl B A C.
  - (* number *)
    apply (DONE _ _ _ _ e); auto. cbn [show app]. cbn in B. injection B as <-.
    apply to_primary; [reflexivity|apply (no_string_show (XNum z)); exact Pl|].
    exists 1%nat. intros [|n] Hn; [lia|]. reflexivity.
  - (* symbol *)
    apply (DONE _ _ _ _ e); auto. cbn [show app]. cbn [term_of build] in B.
    apply to_primary; [reflexivity|apply (no_string_show (XSym s d)); exact Pl|].
    exists 1%nat. intros [|n] Hn; [lia|]. cbn [priority]. unfold symbolExpr.
    destruct (symbol_not_null _ _ _ _ B) as (_ & ->). rewrite B. reflexivity.
  - (* program counter *)
    apply (DONE _ _ _ _ e); auto. cbn [show app]. cbn [term_of build] in B.
    apply to_primary; [destruct star; reflexivity|apply (no_string_show (XPc star)); exact Pl|].
    exists 1%nat. intros [|n] Hn; [lia|]. 
    destruct (symbol_not_null _ _ _ _ B) as (_ & E).
    destruct star; cbn [priority]; unfold symbolExpr; rewrite E, B; reflexivity.
  - (* parentheses *)
    apply (DONE _ _ _ _ e); auto. cbn [term_of build] in B. dbind B.
    pose proof (no_string_show (XParen t) rest Pl) as NS.
    cbn [show app] in NS |- *. rewrite <- app_assoc in NS |- *.
    apply to_primary; [reflexivity|exact NS|].
    destruct (parens_inv _ _ B) as (Nn & _).
    destruct (IHt 0%nat ([KRp] ++ rest) (Ok (a, [KRp] ++ rest)) a) as [N HN];
      [lia|exact G|exact Pl|reflexivity|exact I|apply loop_stops; exact I|].
    exists (S N). intros [|n] Hn; [lia|]. cbn [priority]. rewrite HN by lia. cbn [bind app].
    rewrite Nn, B. reflexivity.
  - (* minus *)
    apply (DONE _ _ _ _ e); auto. cbn [term_of build bind] in B. dbind B.
    destruct (IHt 6%nat rest (Ok (a, rest)) a) as [N HN];
      [lia|exact G|exact Pl|reflexivity| |reflexivity|].
    { destruct rest as [|[] r]; cbn; auto. destruct o; cbn; lia. }
    exists (S N). intros [|n] Hn; [lia|]. cbn [show app priority]. rewrite HN by lia. cbn [bind].
    cbn [build2] in B. rewrite B. reflexivity.
  - (* plus *)
    apply (DONE _ _ _ _ e); auto.
    destruct (IHt 6%nat rest (Ok (e, rest)) e) as [N HN];
      [lia|exact G|exact Pl|exact B| |reflexivity|].
    { destruct rest as [|[] r]; cbn; auto. destruct o; cbn; lia. }
    exists (S N). intros [|n] Hn; [lia|]. cbn [show app priority]. apply HN. lia.
  - (* complement *)
    apply (DONE _ _ _ _ e); auto. cbn [term_of build bind] in B. dbind B.
    destruct (IHt 6%nat rest (Ok (a, rest)) a) as [N HN];
      [lia|exact G|exact Pl|reflexivity| |reflexivity|].
    { destruct rest as [|[] r]; cbn; auto. destruct o; cbn; lia. }
    exists (S N). intros [|n] Hn; [lia|]. cbn [show app priority]. rewrite HN by lia. cbn [bind].
    cbn [build2 is_unary] in B. rewrite B. reflexivity.
  - (* not *)
    cbn [term_of build bind] in B. dbind B. cbn [build1 is_unary] in B.
    cbn [grp] in G. destruct (Nat.leb_spec l 1) as [L1|L1].
    + assert (H1 : runs (fun n => priority P n mx 1 (show (XNot t) ++ rest)) (Ok (e, rest))).
      { destruct (IHt 1%nat rest (Ok (a, rest)) a) as [N HN];
          [lia|exact G|exact Pl|reflexivity| |reflexivity|].
        { destruct rest as [|[] r]; cbn in *; auto. destruct (lv o); lia. }
        exists (S N). intros [|n] Hn; [lia|]. cbn [show app priority]. rewrite HN by lia. cbn [bind].
        rewrite B. reflexivity. }
      apply (descend 1 l _ e rest R); auto; try lia. intros <-. exact C.
    + assert (H6 : runs (fun n => priority P n mx 6 (show (XNot t) ++ rest)) (Ok (e, rest))).
      { destruct (IHt 6%nat rest (Ok (a, rest)) a) as [N HN];
          [lia|exact G|exact Pl|reflexivity| |reflexivity|].
        { destruct rest as [|[] r]; cbn; auto. destruct o; cbn; lia. }
        exists (S N). intros [|n] Hn; [lia|]. cbn [show app priority]. rewrite HN by lia. cbn [bind].
        rewrite B. reflexivity. }
      apply (descend 6 l _ e rest R); auto; try lia. intros <-. exact C.
  - (* binary operator *)
    cbn [grp] in G. destruct (lv o) as [p|] eqn:EL; [|contradiction].
    destruct G as (Lp & NN & Ga & Gb). destruct Pl as (Pa & Pb).
    cbn [term_of build bind] in B. dbind B. dbind B.
    destruct (combine_build o p a a0 e EL B) as (Cb & Ne & Nb).
    assert (P5 : (p <= 5)%nat) by (destruct o; cbn in EL; inversion EL; lia).
    assert (P1 : p <> 1%nat) by (destruct o; cbn in EL; inversion EL; lia).
    assert (LO : levelOp p o = true) by (apply levelOp_levels; exact EL).
    assert (Hb : runs (fun n => priority P n mx (S p) (show t2 ++ rest)) (Ok (a0, rest))).
    { apply (IHt2 (S p) rest (Ok (a0, rest)) a0); auto; try lia.
      - destruct rest as [|[] r]; cbn in *; auto. destruct (lv o0); lia.
      - apply (cont_above l); [exact A|lia]. }
    assert (Q : forall R', runs (fun n => loop P n mx p e rest) R' ->
      runs (fun n => priority P n mx p (show (XBin o t1 t2) ++ rest)) R').
    { intros R' [M HM]. cbn [show]. rewrite <- app_assoc. cbn [app].
      apply (IHt1 p _ R' a); auto; try lia.
      - cbn. rewrite EL. lia.
      - assert (runs (fun n => loop P n mx p a (KOp o :: show t2 ++ rest)) R').
        { destruct Hb as [N HN]. exists (S (Nat.max N M)). intros [|n] Hn; [lia|].
          cbn [loop]. rewrite LO, HN by lia. cbn [bind].
          rewrite <- (HM n) by lia.
          destruct o; rewrite ?Nb, Cb; reflexivity. }
        unfold cont. do 7 (destruct p as [|p]; [lia || assumption|]). lia. }
    destruct (Nat.eq_dec p l) as [->|Npl].
    + apply Q. destruct (cont_1_or l e rest R L C) as [(_ & X)|([-> | ->] & _)]; [exact X|lia|lia].
    + apply (descend p l _ e rest R); auto; try lia.
      * intros L1 P2. apply (head_not (XBin o t1 t2)). cbn. apply NN; lia.
      * apply Q. apply loop_stops. apply (above_stops l); [exact A|lia].
  - (* function *)
    apply (DONE _ _ _ _ e); auto. cbn [term_of build bind] in B. dbind B.
    destruct Pl as (Uf & Pl).
    cbn [show app]. rewrite <- app_assoc.
    destruct (IHt 0%nat ([KRp] ++ rest) (Ok (a, [KRp] ++ rest)) a) as [N HN];
      [lia|exact G|exact Pl|reflexivity|exact I|apply loop_stops; exact I|].
    assert (B' : expr_Unary F o a = Ok e) by (destruct o; try discriminate Uf; exact B).
    assert (Nn : isNull a = false).
    { unfold expr_Unary in B'. destruct (isNull a); [discriminate B'|reflexivity]. }
    exists (S (S N)). intros [|[|n]] Hn; [lia|lia|]. cbn [priority expectLp bind].
    rewrite HN by lia. cbn [bind app expectRp]. rewrite Nn, Uf, B'. reflexivity.
  - (* atan2 *)
    apply (DONE _ _ _ _ e); auto. cbn [term_of build bind] in B. dbind B. dbind B.
    destruct Pl as (Pa & Pb). destruct G as (Ga & Gb).
    cbn [show app]. rewrite <- app_assoc. cbn [app]. rewrite <- app_assoc.
    destruct (IHt1 0%nat (KComma :: show t2 ++ [KRp] ++ rest) (Ok (a, KComma :: show t2 ++ [KRp] ++ rest)) a) as [N HN];
      [lia|exact Ga|exact Pa|reflexivity|exact I|apply loop_stops; exact I|].
    destruct (IHt2 0%nat ([KRp] ++ rest) (Ok (a0, [KRp] ++ rest)) a0) as [M HM];
      [lia|exact Gb|exact Pb|reflexivity|exact I|apply loop_stops; exact I|].
    cbn [build2 is_unary] in B.
    assert (Nn : isNull a = false /\ isNull a0 = false).
    { unfold expr_Binary in B. destruct (isNull a), (isNull a0); try discriminate B; auto. }
    exists (S (S (Nat.max N M))). intros [|[|n]] Hn; [lia|lia|]. cbn [priority expectLp bind].
    rewrite HN by lia. cbn [bind expectComma isUnaryFun]. rewrite (proj1 Nn).
    rewrite HM by lia. cbn [bind expectRp app]. rewrite (proj2 Nn), B. reflexivity.
  - (* DEF *)
    apply (DONE _ _ _ _ e); auto. cbn [term_of build bind] in B. injection B as <-.
    exists 2%nat. intros [|[|n]] Hn; [lia|lia|]. reflexivity.
  - (* BANK *)
    apply (DONE _ _ _ _ e); auto. cbn [term_of build bind] in B. injection B as <-.
    exists 2%nat. intros [|[|n]] Hn; [lia|lia|]. reflexivity.
Qed.

Lemma lv_levels : forall o, levels o = None -> lv o = None.
Proof. intros []; cbn; congruence. Qed.

Lemma parse_grouped : forall t rest e, grouped levels 0 t -> plain t -> ends rest ->
  enter t = Ok e -> parse_Expression P mx (show t ++ rest) = Ok (e, rest).
Proof.
  intros t rest e G Pl En B. apply runs_parse. apply grouped_grp in G.
  assert (S0 : match rest with KOp o :: _ => lv o = None | _ => True end).
  { destruct rest as [|[] r]; auto. apply lv_levels. exact En. }
  apply (grouping t 0%nat rest (Ok (e, rest)) e); auto; [lia| |].
  - destruct rest as [|[] r]; cbn; auto. rewrite S0. exact I.
  - apply loop_stops. destruct rest as [|[] r]; auto. destruct (levelOp 0 o) eqn:E; [|reflexivity].
    apply levelOp_levels in E. congruence.
Qed.
End Grouping.

(** ** The documented table *)
Lemma levels_5_6 : forall t, grouped levels 5 t -> grouped levels 6 t.
Proof.
  intros t G. destruct t; cbn [grouped] in *; auto.
  destruct (levels o) as [p|] eqn:E; [|exact G].
  assert (p <> 5%nat) by (destruct o; cbn in E; inversion E; lia).
  destruct G as (L & NN & Ga & Gb). split; [lia|]. split; [intros; lia|]. auto.
Qed.
Lemma documented_levels : forall t, clear_cut t -> forall l, grouped documented l t -> grouped levels l t.
Proof.
  induction t; intros C l G; cbn [grouped clear_cut] in *; auto; try contradiction.
  - assert (SH : o = OpAsl \/ o = OpAsr \/ levels o = documented o /\ clear_cut t1 /\ clear_cut t2).
    { destruct o; auto. }
    destruct SH as [SH|[SH|(EL & Ca & Cb)]].
    1,2: subst o; cbn [documented levels] in *; destruct G as (L & NN & Ga & Gb);
         destruct t2; try contradiction; destruct C as (Ca & Cb); try contradiction;
         (split; [lia|]); (split; [intros; apply NN; lia|]);
         (split; [apply levels_5_6, IHt1; assumption|]); apply (IHt2 Cb 6%nat); exact Gb.
    rewrite EL. destruct (documented o) as [p|]; [|contradiction].
    destruct G as (L & NN & Ga & Gb). auto.
  - destruct C, G. auto.
Qed.
