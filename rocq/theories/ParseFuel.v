(** The recursion depth of the parser is enough (for C36). *)
From Coq Require Import ZArith List Bool Lia ZifyBool ZifyNat.
From Verif Require Import Base BaseFacts Arith ExprSpec ExprModel ExprLayout ParseModel ParseSpec.
Import ListNotations.
Open Scope Z_scope.

Lemma expectRp_inv : forall ts r, expectRp ts = Ok r -> ts = KRp :: r.
Proof. intros [|[] ts] r H; cbn in H; congruence. Qed.
Lemma expectLp_inv : forall ts r, expectLp ts = Ok r -> ts = KLp :: r.
Proof. intros [|[] ts] r H; cbn in H; congruence. Qed.
Lemma expectComma_inv : forall ts r, expectComma ts = Ok r -> ts = KComma :: r.
Proof. intros [|[] ts] r H; cbn in H; congruence. Qed.
Lemma isDot_inv : forall ts m r, isDot ts = Some (m, r) -> exists s, ts = KId s (Dot m) :: r.
Proof. intros [|[| |s [|d]| | | | | | | | | | | |] ts] m r H; cbn in H; try congruence. injection H as -> ->. eauto. Qed.

(** ** The rest is never longer than the input *)
Definition shorter (P : pctx) (n : nat) : Prop :=
  (forall mx l ts e r, priority P n mx l ts = Ok (e, r) -> (length r <= length ts)%nat) /\
  (forall mx l t ts e r, loop P n mx l t ts = Ok (e, r) -> (length r <= length ts)%nat) /\
  (forall ts e r, stringExpression P n ts = Ok (e, r) -> (length r <= length ts)%nat) /\
  (forall s ts e r, stringLoop P n s ts = Ok (e, r) -> (length r <= length ts)%nat) /\
  (forall ts e r, stringPri1 P n ts = Ok (e, r) -> (length r <= length ts)%nat) /\
  (forall s ts e r, memberLoop P n s ts = Ok (e, r) -> (length r <= length ts)%nat) /\
  (forall ts e r, stringPri2 P n ts = Ok (e, r) -> (length r <= length ts)%nat).

Ltac norm_in :=
  repeat match goal with
  | E : expectRp _ = Ok _ |- _ => apply expectRp_inv in E; subst
  | E : expectLp _ = Ok _ |- _ => apply expectLp_inv in E; subst
  | E : expectComma _ = Ok _ |- _ => apply expectComma_inv in E; subst
  | E : isDot _ = Some (_, _) |- _ => let s := fresh "s" in apply isDot_inv in E; destruct E as [s E]; subst
  end.

Ltac peel H :=
  lazymatch type of H with
  | Ok (_, _) = Ok _ => injection H as ? ?; subst
  | Ok _ = Ok _ => injection H as ?; subst
  | UB = Ok _ => discriminate H
  | Err = Ok _ => discriminate H
  | bind ?x _ = Ok _ =>
      let E := fresh "E" in destruct x eqn:E; cbn [bind] in H; [|discriminate H|discriminate H]
  | (match ?x with _ => _ end) = Ok _ => let E := fresh "E" in destruct x eqn:E; try discriminate H
  end.
Ltac use_shorter I1 I2 I3 I4 I5 I6 I7 :=
  repeat match goal with
  | E : priority _ _ _ _ _ = Ok (_, _) |- _ => apply I1 in E
  | E : loop _ _ _ _ _ _ = Ok (_, _) |- _ => apply I2 in E
  | E : stringExpression _ _ _ = Ok (_, _) |- _ => apply I3 in E
  | E : stringLoop _ _ _ _ = Ok (_, _) |- _ => apply I4 in E
  | E : stringPri1 _ _ _ = Ok (_, _) |- _ => apply I5 in E
  | E : memberLoop _ _ _ _ = Ok (_, _) |- _ => apply I6 in E
  | E : stringPri2 _ _ _ = Ok (_, _) |- _ => apply I7 in E
  end.

Lemma shorter_all : forall P n, shorter P n.
Proof.
  intros P n. induction n as [|n IH].
  - repeat split; intros; discriminate.
  - destruct IH as (I1 & I2 & I3 & I4 & I5 & I6 & I7).
    repeat apply conj.
    + intros mx l ts e r H. cbn [priority] in H.
      repeat (peel H); norm_in; use_shorter I1 I2 I3 I4 I5 I6 I7; subst; cbn [length] in *; lia.
    + intros mx l t ts e r H. cbn [loop] in H.
      repeat (peel H); norm_in; use_shorter I1 I2 I3 I4 I5 I6 I7; subst; cbn [length] in *; lia.
    + intros ts e r H. cbn [stringExpression] in H.
      repeat (peel H); norm_in; use_shorter I1 I2 I3 I4 I5 I6 I7; subst; cbn [length] in *; lia.
    + intros s ts e r H. cbn [stringLoop] in H.
      repeat (peel H); norm_in; use_shorter I1 I2 I3 I4 I5 I6 I7; subst; cbn [length] in *; lia.
    + intros ts e r H. cbn [stringPri1] in H.
      repeat (peel H); norm_in; use_shorter I1 I2 I3 I4 I5 I6 I7; subst; cbn [length] in *; lia.
    + intros s ts e r H. cbn [memberLoop] in H.
      repeat (peel H); norm_in;
      repeat match goal with
      | E : bind _ _ = Ok _ |- _ => repeat (peel E)
      | E : (match _ with _ => _ end) = Ok _ |- _ => repeat (peel E)
      end; norm_in;
      use_shorter I1 I2 I3 I4 I5 I6 I7; subst; cbn [length] in *; try lia.
    + intros ts e r H. cbn [stringPri2] in H.
      repeat (peel H); norm_in; use_shorter I1 I2 I3 I4 I5 I6 I7; subst; cbn [length] in *; lia.
Qed.

(** ** More recursion depth than the input needs changes nothing *)
Definition stable (P : pctx) (n : nat) : Prop :=
  forall m,
  (forall mx l ts, (l <= 9)%nat -> (16 * length ts + 12 <= n + l)%nat -> (16 * length ts + 12 <= m + l)%nat ->
     priority P n mx l ts = priority P m mx l ts) /\
  (forall mx l t ts, (l <= 8)%nat -> (16 * length ts + 1 <= n)%nat -> (16 * length ts + 1 <= m)%nat ->
     loop P n mx l t ts = loop P m mx l t ts) /\
  (forall ts, (16 * length ts + 3 <= n)%nat -> (16 * length ts + 3 <= m)%nat ->
     stringExpression P n ts = stringExpression P m ts) /\
  (forall s ts, (16 * length ts + 2 <= n)%nat -> (16 * length ts + 2 <= m)%nat ->
     stringLoop P n s ts = stringLoop P m s ts) /\
  (forall ts, (16 * length ts + 2 <= n)%nat -> (16 * length ts + 2 <= m)%nat ->
     stringPri1 P n ts = stringPri1 P m ts) /\
  (forall s ts, (16 * length ts + 1 <= n)%nat -> (16 * length ts + 1 <= m)%nat ->
     memberLoop P n s ts = memberLoop P m s ts) /\
  (forall ts, (16 * length ts + 1 <= n)%nat -> (16 * length ts + 1 <= m)%nat ->
     stringPri2 P n ts = stringPri2 P m ts).

Ltac lens := norm_in; cbn [length] in *; try lia.
Lemma bind_eq : forall {A B : Type} (x y : res A) (f g : A -> res B),
  x = y -> (forall a, x = Ok a -> f a = g a) -> bind x f = bind y g.
Proof. intros A B x y f g <- H. destruct x; cbn; auto. Qed.

Ltac sstep P n m I1 I2 I3 I4 I5 I6 I7 S1 S2 S3 S4 S5 S6 S7 :=
  lazymatch goal with
  | |- ?x = ?x => reflexivity
  | |- priority _ n _ _ _ = priority _ m _ _ _ => apply I1; lens
  | |- loop _ n _ _ _ _ = loop _ m _ _ _ _ => apply I2; lens
  | |- stringExpression _ n _ = stringExpression _ m _ => apply I3; lens
  | |- stringLoop _ n _ _ = stringLoop _ m _ _ => apply I4; lens
  | |- stringPri1 _ n _ = stringPri1 _ m _ => apply I5; lens
  | |- memberLoop _ n _ _ = memberLoop _ m _ _ => apply I6; lens
  | |- stringPri2 _ n _ = stringPri2 _ m _ => apply I7; lens
  | |- bind _ _ = bind _ _ => apply bind_eq
  | |- forall a, _ = Ok a -> _ =>
      let a := fresh "a" in let E := fresh "E" in intros a E;
      first [ match type of a with prod _ _ => destruct a end | idtac ];
      first [ apply S1 in E | apply S2 in E | apply S3 in E | apply S4 in E | apply S5 in E
            | apply S6 in E | apply S7 in E | idtac ]
  | |- (match ?x with _ => _ end) = _ => let E := fresh "E" in destruct x eqn:E; norm_in; try discriminate
  end.

Lemma stable_all : forall P n, stable P n.
Proof.
  intros P n. induction n as [|n IH]; intro m.
  - repeat split; intros; lia.
  - destruct m as [|m]; [repeat split; intros; lia|].
    destruct (IH m) as (I1 & I2 & I3 & I4 & I5 & I6 & I7). clear IH.
    destruct (shorter_all P n) as (S1 & S2 & S3 & S4 & S5 & S6 & S7).
    repeat apply conj.
    + intros mx l ts HL H1 H2. cbn [priority].
      repeat (sstep P n m I1 I2 I3 I4 I5 I6 I7 S1 S2 S3 S4 S5 S6 S7).
    + intros mx l t ts HL H1 H2. cbn [loop].
      repeat (sstep P n m I1 I2 I3 I4 I5 I6 I7 S1 S2 S3 S4 S5 S6 S7).
    + intros ts H1 H2. cbn [stringExpression].
      repeat (sstep P n m I1 I2 I3 I4 I5 I6 I7 S1 S2 S3 S4 S5 S6 S7).
    + intros s ts H1 H2. cbn [stringLoop].
      repeat (sstep P n m I1 I2 I3 I4 I5 I6 I7 S1 S2 S3 S4 S5 S6 S7).
    + intros ts H1 H2. cbn [stringPri1].
      repeat (sstep P n m I1 I2 I3 I4 I5 I6 I7 S1 S2 S3 S4 S5 S6 S7).
    + intros s ts H1 H2. cbn [memberLoop].
      repeat (sstep P n m I1 I2 I3 I4 I5 I6 I7 S1 S2 S3 S4 S5 S6 S7).
      all: repeat match goal with
        | E : bind _ _ = Ok _ |- _ => repeat (peel E)
        | E : (match _ with _ => _ end) = Ok _ |- _ => repeat (peel E)
        end; use_shorter S1 S2 S3 S4 S5 S6 S7; subst; lens.
    + intros ts H1 H2. cbn [stringPri2].
      repeat (sstep P n m I1 I2 I3 I4 I5 I6 I7 S1 S2 S3 S4 S5 S6 S7).
Qed.
