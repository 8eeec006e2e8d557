From Coq Require Import ZArith List Bool Lia ZifyBool ZifyNat.
From Verif Require Import Base BaseFacts AssignModel LinkModel ObjModel ObjSpec ObjProofs
  Arith ExprModel ObjWriteModel ObjWriteSpec.
Import ListNotations.
Open Scope Z_scope.

Lemma symtype_eqb_eq : forall a b, symtype_eqb a b = true <-> a = b.
Proof. destruct a, b; cbn; split; congruence. Qed.
Lemma osect_eqb_eq : forall a b, osect_eqb a b = true <-> a = b.
Proof.
  intros [a|] [b|]; cbn; split; intro H; try congruence.
  - apply Nat.eqb_eq in H. congruence.
  - apply Nat.eqb_eq. congruence.
Qed.
Lemma in_section_spec : forall y k, in_section y k = true <-> home_section y = Some k.
Proof. intros. unfold in_section, home_section. apply osect_eqb_eq. Qed.
Lemma upd_same : forall A (f : nat -> A) k v, upd f k v k = v.
Proof. intros. unfold upd. now rewrite Nat.eqb_refl. Qed.
Lemma upd_other : forall A (f : nat -> A) k v x, x <> k -> upd f k v x = f x.
Proof. intros. unfold upd. destruct (Nat.eqb x k) eqn:E; [apply Nat.eqb_eq in E; congruence|reflexivity]. Qed.
Lemma bind_ok : forall A B (r : res A) (f : A -> res B) v, bind r f = Ok v -> exists a, r = Ok a /\ f a = Ok v.
Proof. intros A B [a| |] f v H; cbn in H; try discriminate. eauto. Qed.

Lemma ok_inj : forall A (a b : A), Ok a = Ok b -> a = b.
Proof. intros A a b H. now inversion H. Qed.
Lemma ok_pair : forall A B (a c : A) (b d : B), Ok (a, b) = Ok (c, d) -> a = c /\ b = d.
Proof. intros A B a c b d H. now inversion H. Qed.

(** ** Positions *)
Lemma position_bound : forall T s, 0 <= position T s <= zlen T.
Proof.
  induction T as [|x T IH]; intro s; cbn [position].
  - unfold zlen; cbn; lia.
  - rewrite zlen_cons. specialize (IH s). destruct (Nat.eqb x s); lia.
Qed.
Lemma position_in : forall T s, In s T -> position T s < zlen T.
Proof.
  induction T as [|x T IH]; intros s H; [destruct H|]. cbn [position]. rewrite zlen_cons.
  pose proof (zlen_nonneg _ T).
  destruct (Nat.eqb x s) eqn:E; [lia|]. destruct H as [->|H]; [rewrite Nat.eqb_refl in E; discriminate|].
  specialize (IH s H). lia.
Qed.
Lemma position_app_l : forall T U s, In s T -> position (T ++ U) s = position T s.
Proof.
  induction T as [|x T IH]; intros U s H; [destruct H|]. cbn [position app].
  destruct (Nat.eqb x s) eqn:E; [reflexivity|]. destruct H as [->|H]; [rewrite Nat.eqb_refl in E; discriminate|].
  now rewrite IH.
Qed.
Lemma position_app_r : forall T s, ~ In s T -> position (T ++ [s]) s = zlen T.
Proof.
  induction T as [|x T IH]; intros s H; cbn [position app].
  - now rewrite Nat.eqb_refl.
  - destruct (Nat.eqb x s) eqn:E; [apply Nat.eqb_eq in E; subst; exfalso; apply H; now left|].
    rewrite IH, zlen_cons; [lia|]. intro; apply H; now right.
Qed.
Lemma position_nth : forall T s, In s T -> nth_error T (Z.to_nat (position T s)) = Some s.
Proof.
  induction T as [|x T IH]; intros s H; [destruct H|]. cbn [position].
  destruct (Nat.eqb x s) eqn:E; [apply Nat.eqb_eq in E; subst; reflexivity|].
  destruct H as [->|H]; [rewrite Nat.eqb_refl in E; discriminate|].
  pose proof (position_bound T s).
  replace (Z.to_nat (1 + position T s)) with (S (Z.to_nat (position T s))) by lia. cbn. auto.
Qed.

(** ** What expressions use *)
Definition uses_b (banks : bool) := fix f (e : expr) (s : nat) : Prop :=
  match e with
  | ENull => False
  | ENode t _ o _ x l r => f l s \/ f r s \/ (x = s /\ refers_node banks t o = true)
  end.
Lemma uses_b_spec : forall banks e s, banks = true \/ no_bank e -> (uses_b banks e s <-> uses e s).
Proof.
  intros banks. induction e as [|t c o v x l IHl r IHr]; intros s B; [reflexivity|].
  cbn [uses_b uses].
  assert (Bl : banks = true \/ no_bank l) by (destruct B as [B|B]; [auto|cbn in B; tauto]).
  assert (Br : banks = true \/ no_bank r) by (destruct B as [B|B]; [auto|cbn in B; tauto]).
  fold (uses_b banks). rewrite IHl, IHr by auto.
  assert (refers_node banks t o = true <-> t = TSymbol \/ t = TOperation /\ o = OpBank) as ->; [|reflexivity].
  unfold refers_node. destruct t; try (split; [discriminate|intros [?|[? ?]]; discriminate]); [|split; auto].
  rewrite andb_true_iff. split.
  - intros [_ H]. destruct o; try discriminate. auto.
  - intros [H|[_ ->]]; [discriminate|]. split; auto.
    destruct B as [B|B]; [auto|]. cbn in B. destruct B as [B _]. now contradiction B.
Qed.
Lemma writeExpression_ext : forall ids ids' e, (forall s, uses e s -> ids s = ids' s) ->
  writeExpression ids e = writeExpression ids' e.
Proof.
  intros ids ids'. induction e as [|t c o v x l IHl r IHr]; intro H; [reflexivity|].
  cbn [writeExpression]. rewrite IHl, IHr by (intros; apply H; cbn; auto).
  destruct (writeExpression ids' l) as [bl| |]; try reflexivity. cbn [bind].
  destruct (writeExpression ids' r) as [br| |]; try reflexivity. cbn [bind].
  destruct t; try reflexivity.
  - destruct (op_code o) as [b|] eqn:OC; [|reflexivity].
    destruct o; try reflexivity. rewrite (H x); [reflexivity|]. cbn. auto 10.
  - rewrite (H x); [reflexivity|]. cbn. auto 10.
Qed.

(** ** Marking local exports *)
Definition marks (A : astate) (k s : nat) : Prop :=
  exists y, nth_error (as_symbols A) s = Some y /\ ay_exportable y = true /\ home_section y <> Some k.
Lemma markExpression_spec : forall A k e fx s,
  markExpression A k e fx s = true <-> fx s = true \/ (uses_b (as_banks A) e s /\ marks A k s).
Proof.
  intros A k. induction e as [|t c o v x l IHl r IHr]; intros fx s; cbn [markExpression].
  { cbn. tauto. }
  set (fx2 := markExpression A k r (markExpression A k l fx)).
  assert (E : fx2 s = true <-> fx s = true \/ ((uses_b (as_banks A) l s \/ uses_b (as_banks A) r s) /\ marks A k s)).
  { unfold fx2. rewrite IHr, IHl. tauto. }
  cbn [uses_b]. fold (uses_b (as_banks A)).
  destruct (refers_node (as_banks A) t o) eqn:RN.
  2:{ rewrite E. intuition congruence. }
  destruct (nth_error (as_symbols A) x) as [y|] eqn:Y.
  - destruct (ay_exportable y && negb (in_section y k)) eqn:M.
    + destruct (Nat.eq_dec s x) as [->|N].
      * rewrite upd_same. split; [intros _|auto]. right. split; [auto|].
        exists y. apply andb_true_iff in M as [M1 M2]. repeat split; auto.
        rewrite <- in_section_spec. now destruct (in_section y k).
      * rewrite upd_other by auto. rewrite E. intuition congruence.
    + rewrite E. assert (~ marks A k x).
      { intros (y' & Y' & M1 & M2). assert (y' = y) by congruence. subst y'. rewrite <- in_section_spec in M2.
        rewrite M1 in M. destruct (in_section y k); [now apply M2|discriminate]. }
      intuition (subst; tauto).
  - rewrite E. assert (~ marks A k x) by (intros (y' & Y' & _); congruence). intuition (subst; tauto).
Qed.
Lemma markPatches_spec : forall A k ps fx s,
  fold_left (fun fx p => markExpression A k (ap_expr p) fx) ps fx s = true <->
  fx s = true \/ (exists p, In p ps /\ uses_b (as_banks A) (ap_expr p) s) /\ marks A k s.
Proof.
  intros A k. induction ps as [|p ps IH]; intros fx s; cbn [fold_left].
  - split; [auto|]. intros [H|[(p & [] & _) _]]. auto.
  - rewrite IH, markExpression_spec. split.
    + intros [[H|[H M]]|[(q & I & U) M]]; auto.
      * right. split; auto. exists p. split; [now left|auto].
      * right. split; auto. exists q. split; [now right|auto].
    + intros [H|[(q & [<-|I] & U) M]]; auto. right. split; eauto.
Qed.
Lemma markSections_spec : forall A ws k fx s,
  markSections A ws k fx s = true <->
  fx s = true \/ exists i w, nth_error ws i = Some w /\
    (exists p, In p (ws_patches w) /\ uses_b (as_banks A) (ap_expr p) s) /\ marks A (k + i) s.
Proof.
  intros A. induction ws as [|w ws IH]; intros k fx s; cbn [markSections].
  - split; [auto|]. intros [H|(i & w & N & _)]; [auto|destruct i; discriminate].
  - rewrite IH, markPatches_spec. split.
    + intros [[H|H]|(i & w' & N & H)]; auto.
      * right. exists 0%nat, w. rewrite Nat.add_0_r. auto.
      * right. exists (S i), w'. replace (k + S i)%nat with (S k + i)%nat by lia. auto.
    + intros [H|([|i] & w' & N & H)]; auto.
      * injection N as <-. rewrite Nat.add_0_r in H. auto.
      * right. exists i, w'. replace (S k + i)%nat with (k + S i)%nat by lia. auto.
Qed.
Definition banks_ok (A : astate) : Prop :=
  as_banks A = true \/ forall w p, In w (as_sections A) -> In p (ws_patches w) -> no_bank (ap_expr p).
Lemma banks_ok_expr : forall A w p, banks_ok A -> In w (as_sections A) -> In p (ws_patches w) ->
  as_banks A = true \/ no_bank (ap_expr p).
Proof. intros A w p [B|B] I1 I2; [auto|right; eauto]. Qed.
Lemma mark_spec : forall A s y, banks_ok A -> nth_error (as_symbols A) s = Some y ->
  (markLocalExports A s = true <-> file_visible A s y).
Proof.
  intros A s y B Y. unfold markLocalExports. rewrite markSections_spec. unfold file_visible, initialFx.
  rewrite Y. split.
  - intros [H|(i & w & N & (p & I & U) & (y' & Y' & M1 & M2))]; auto.
    right. assert (y' = y) by congruence. subst y'. split; auto. exists i. split; auto.
    exists w, p. repeat split; auto.
    apply (uses_b_spec (as_banks A)); auto. eapply banks_ok_expr; eauto. eapply nth_error_In; eauto.
  - intros [H|(E & k & (w & p & N & I & U) & M)]; auto.
    right. exists k, w. split; auto. split.
    + exists p. split; auto. apply uses_b_spec; auto. eapply banks_ok_expr; eauto. eapply nth_error_In; eauto.
    + exists y. auto.
Qed.

(** ** The symbol table of a section *)
Definition entry (A : astate) (fx : nat -> bool) (k s : nat) (y : asym) : osym :=
  OSym (ay_name y)
    (if in_section y k then if ay_export y then 0 else if fx s then 3 else 2
     else if symtype_eqb (y_type (ay_sym y)) SymImport || symtype_eqb (y_type (ay_sym y)) SymGlobal then 1 else 4)
    (y_value (ay_sym y))
    (if as_debug A then ay_file y else None) (if as_debug A then ay_line y else 0).
Definition entry_of (A : astate) (fx : nat -> bool) (k s : nat) (o : osym) : Prop :=
  exists y, nth_error (as_symbols A) s = Some y /\ o = entry A fx k s y.

Lemma debugInfo_spec : forall A y d, debugInfo A y = Ok d ->
  d = int (match (if as_debug A then ay_file y else None) with Some k => k | None => -1 end) ++
      int (if as_debug A then ay_line y else 0).
Proof.
  intros A y d. unfold debugInfo. destruct (as_debug A).
  - destruct (ay_file y); [|discriminate]. intro H. injection H as <-. reflexivity.
  - intro H. injection H as <-. reflexivity.
Qed.

(** The state of the ids: [T] is the table so far, [n] the number of symbols
    passed over. *)
Definition ids_ok (A : astate) (n : nat) (T : list nat) (ids : nat -> Z) : Prop :=
  forall s y, (s < n)%nat -> nth_error (as_symbols A) s = Some y -> y_type (ay_sym y) <> SymGroup ->
    (In s T -> ids s = position T s) /\ (~ In s T -> ids s = UINT32_MAX).
Definition groups_kept (A : astate) (ids0 ids : nat -> Z) : Prop :=
  forall s y, nth_error (as_symbols A) s = Some y -> y_type (ay_sym y) = SymGroup -> ids s = ids0 s.
Definition flagged (A : astate) (fx : nat -> bool) (k s : nat) : Prop :=
  exists y, nth_error (as_symbols A) s = Some y /\ in_section y k = true /\
    (ay_export y || fx s || (as_debug A && y_reloc (ay_sym y))) = true.

Lemma NoDup_snoc : forall (T : list nat) i, NoDup T -> ~ In i T -> NoDup (T ++ [i]).
Proof.
  induction T as [|x T IH]; intros i ND NI; cbn; [repeat constructor; intros []|].
  inversion ND; subst. constructor.
  - rewrite in_app_iff. intros [I|[<-|[]]]; [auto|]. apply NI. now left.
  - apply IH; auto. intro; apply NI; now right.
Qed.
Ltac split8 := split; [|split; [|split; [|split; [|split; [|split; [|split]]]]]].
Lemma withFlags_spec : forall A fx k,
  (forall s y, nth_error (as_symbols A) s = Some y -> y_type (ay_sym y) = SymGroup -> home_section y = None) ->
  forall ys i T n ids b n' ids',
  (forall j, nth_error ys j = nth_error (as_symbols A) (i + j)) ->
  NoDup T -> (forall s, In s T -> (s < i)%nat) -> n = zlen T -> ids_ok A i T ids ->
  writeSymbolsWithFlags A fx k (as_debug A) ys i (n, ids) = Ok (b, (n', ids')) ->
  exists U os, NoDup (T ++ U) /\ (forall s, In s (T ++ U) -> (s < i + length ys)%nat) /\
    n' = zlen (T ++ U) /\ ids_ok A (i + length ys) (T ++ U) ids' /\
    Forall2 (entry_of A fx k) U os /\ b = concat (map (sym_bytes 6) os) /\
    (forall s, In s U <-> (i <= s < i + length ys)%nat /\ flagged A fx k s) /\
    groups_kept A ids ids'.
Proof.
  intros A fx k HG. induction ys as [|y ys IH]; intros i T n ids b n' ids' Hys ND Ti Hn Hids W;
    cbn [writeSymbolsWithFlags] in W.
  - injection W as <- <- <-. exists [], []. rewrite app_nil_r. cbn [length]. rewrite Nat.add_0_r.
    split8; auto; [|intros s y _ _; reflexivity]. intro s. split; [intros []|intros [? _]; lia].
  - assert (Y : nth_error (as_symbols A) i = Some y) by (rewrite <- (Nat.add_0_r i), <- Hys; reflexivity).
    assert (Hys' : forall j, nth_error ys j = nth_error (as_symbols A) (S i + j)).
    { intro j. specialize (Hys (S j)). cbn in Hys. rewrite Hys. f_equal. lia. }
    apply bind_ok in W as ([b0 st2] & W1 & W). apply bind_ok in W as ([br [n3 ids3]] & W2 & W).
    injection W as <- <- <-.
    cbn [fst snd] in W1.
    match type of W1 with context [fst ?x + 1] => set (st1 := x) in * end.
    assert (S1 : fst st1 = n) by (unfold st1; destruct (symtype_eqb _ _); reflexivity).
    assert (S2 : ids_ok A (S i) T (snd st1)).
    { intros s y0 Hs Ys NG. destruct (Nat.eq_dec s i) as [->|N].
      - assert (y0 = y) by congruence. subst y0. unfold st1.
        destruct (symtype_eqb (y_type (ay_sym y)) SymGroup) eqn:E; [apply symtype_eqb_eq in E; contradiction|].
        cbn [snd]. rewrite upd_same. split; [|auto]. intro I. apply Ti in I. lia.
      - specialize (Hids s y0 ltac:(lia) Ys NG). unfold st1. destruct (symtype_eqb _ _); cbn [snd]; [auto|].
        now rewrite upd_other by auto. }
    assert (S3 : groups_kept A ids (snd st1)).
    { intros s y0 Ys G. unfold st1. destruct (symtype_eqb (y_type (ay_sym y)) SymGroup) eqn:E; cbn [snd]; [auto|].
      apply upd_other. intros ->. assert (y0 = y) by congruence. subst.
      rewrite G in E. discriminate. }
    clearbody st1. destruct st1 as [n1 ids1]. cbn [fst snd] in *. subst n1.
    destruct (in_section y k && _) eqn:F.
    + apply bind_ok in W1 as (d & D & W1). injection W1 as <- <-. cbn [fst snd] in *.
      assert (NI : ~ In i T) by (intro I; apply Ti in I; lia).
      assert (NG : y_type (ay_sym y) <> SymGroup).
      { intro G. pose proof (HG i y Y G) as HH. apply andb_true_iff in F as [F _].
        apply in_section_spec in F. congruence. }
      destruct (IH (S i) (T ++ [i]) (n + 1) (upd ids1 i n) br n3 ids3) as (U & os & U1 & U2 & U3 & U4 & U5 & U6 & U7 & U8); auto.
      * now apply NoDup_snoc.
      * intros s I. apply in_app_or in I as [I|[<-|[]]]; [apply Ti in I|]; lia.
      * rewrite zlen_app, Hn. reflexivity.
      * intros s y0 Hs Ys NG0. destruct (Nat.eq_dec s i) as [->|N].
        -- rewrite upd_same. split; [|intro I; exfalso; apply I; apply in_or_app; right; now left].
           intros _. rewrite position_app_r by auto. now rewrite Hn.
        -- rewrite upd_other by auto. destruct (S2 s y0 Hs Ys NG0) as [P1 P2]. split.
           ++ intro I. apply in_app_or in I as [I|[I|[]]]; [|congruence]. rewrite position_app_l by auto. auto.
           ++ intro I. apply P2. intro I'. apply I. apply in_or_app. auto.
      * assert (EA : (T ++ [i]) ++ U = T ++ i :: U) by (now rewrite <- app_assoc). rewrite EA in *. clear EA.
        exists (i :: U), (entry A fx k i y :: os). cbn [length].
        replace (i + S (length ys))%nat with (S i + length ys)%nat by lia.
        split8; auto.
        -- constructor; auto. exists y. auto.
        -- cbn [map concat]. rewrite <- U6. f_equal.
           rewrite (debugInfo_spec _ _ _ D). apply andb_true_iff in F as [F _].
           unfold sym_bytes, entry. cbn [oy_name oy_type oy_value oy_file oy_line]. rewrite F.
           unfold fputsz, asciiz, fputll, int, from. cbn [Z.geb Z.compare].
           destruct (ay_export y); [|destruct (fx i)]; reflexivity.
        -- intro s. split; [intros [<-|H]|].
           ++ split; [lia|]. exists y. apply andb_true_iff in F as [F1 F2]. auto.
           ++ apply U7 in H. split; [lia|tauto].
           ++ intros [H1 H2]. destruct (Nat.eq_dec s i) as [->|N]; [now left|right]. apply U7. split; [lia|auto].
        -- intros s y0 Ys G. rewrite (U8 s y0 Ys G). rewrite upd_other by congruence. eauto.
    + injection W1 as <- <-.
      destruct (IH (S i) T n ids1 br n3 ids3) as (U & os & U1 & U2 & U3 & U4 & U5 & U6 & U7 & U8); auto.
      { intros s I. apply Ti in I. lia. }
      exists U, os. cbn [length]. replace (i + S (length ys))%nat with (S i + length ys)%nat by lia.
      split8; auto.
      * intro s. split; [intro H; apply U7 in H; split; [lia|tauto]|].
        intros [H1 H2]. apply U7. split; [|auto].
        destruct (Nat.eq_dec s i) as [->|N]; [|lia]. exfalso.
        destruct H2 as (y' & Y' & F1 & F2). assert (y' = y) by congruence. subst y'.
        rewrite F1, F2 in F. discriminate.
      * intros s y0 Ys G. rewrite (U8 s y0 Ys G). exact (S3 s y0 Ys G).
Qed.

(** One table entry added by an expression. *)
Definition complete (A : astate) (fx : nat -> bool) (k : nat) (T : list nat) : Prop :=
  forall s, flagged A fx k s -> In s T.
Definition all_ids (A : astate) (T : list nat) (ids : nat -> Z) : Prop :=
  ids_ok A (length (as_symbols A)) T ids.
Lemma NoDup_bound : forall T n, NoDup T -> (forall s, In s T -> (s < n)%nat) -> (length T <= n)%nat.
Proof.
  intros T n ND B. rewrite <- (seq_length n 0). apply NoDup_incl_length; auto.
  intros s I. apply in_seq. apply B in I. lia.
Qed.
Lemma Forall2_app2 : forall A B (R : A -> B -> Prop) a b c d,
  Forall2 R a b -> Forall2 R c d -> Forall2 R (a ++ c) (b ++ d).
Proof. intros. now apply Forall2_app. Qed.

Lemma writeSymbols_spec : forall A fx k, zlen (as_symbols A) < 2 ^ 32 - 1 ->
  forall e T n ids b n' ids',
  (forall s, uses_b (as_banks A) e s -> exists y, nth_error (as_symbols A) s = Some y /\ y_type (ay_sym y) <> SymGroup) ->
  NoDup T -> (forall s, In s T -> (s < length (as_symbols A))%nat) -> n = zlen T -> all_ids A T ids ->
  complete A fx k T ->
  writeSymbols A fx k e (n, ids) = Ok (b, (n', ids')) ->
  exists U os, NoDup (T ++ U) /\ (forall s, In s (T ++ U) -> (s < length (as_symbols A))%nat) /\
    n' = zlen (T ++ U) /\ all_ids A (T ++ U) ids' /\
    Forall2 (entry_of A fx k) U os /\ b = concat (map (sym_bytes 6) os) /\
    (forall s, In s (T ++ U) <-> In s T \/ uses_b (as_banks A) e s) /\
    groups_kept A ids ids'.
Proof.
  intros A fx k HL. induction e as [|t c o v x l IHl r IHr]; intros T n ids b n' ids' Hu ND Ti Hn Hids Hc W;
    cbn [writeSymbols] in W.
  - injection W as <- <- <-. exists [], []. rewrite app_nil_r.
    split8; auto; [|intros s y _ _; reflexivity]. intro s. cbn. tauto.
  - apply bind_ok in W as ([bl [n1 ids1]] & W1 & W). apply bind_ok in W as ([br [n2 ids2]] & W2 & W).
    cbn [uses_b] in Hu. fold (uses_b (as_banks A)) in Hu.
    destruct (IHl T n ids bl n1 ids1) as (U & os & U1 & U2 & U3 & U4 & U5 & U6 & U7 & U8); auto.
    destruct (IHr (T ++ U) n1 ids1 br n2 ids2) as (V & os2 & V1 & V2 & V3 & V4 & V5 & V6 & V7 & V8); auto.
    { intros s F. apply in_or_app. auto. }
    rewrite <- app_assoc in *. cbn [fst snd] in *.
    assert (Base : b = bl ++ br -> (refers_node (as_banks A) t o = true -> In x (T ++ U ++ V)) ->
        (n', ids') = (n2, ids2) ->
        exists U os, NoDup (T ++ U) /\ (forall s, In s (T ++ U) -> (s < length (as_symbols A))%nat) /\
          n' = zlen (T ++ U) /\ all_ids A (T ++ U) ids' /\
          Forall2 (entry_of A fx k) U os /\ b = concat (map (sym_bytes 6) os) /\
          (forall s, In s (T ++ U) <-> In s T \/ uses_b (as_banks A) (ENode t c o v x l r) s) /\
          groups_kept A ids ids').
    { intros -> HR E. injection E as -> ->. exists (U ++ V), (os ++ os2). split8; auto.
      - now apply Forall2_app2.
      - rewrite map_app, concat_app. congruence.
      - intro s. rewrite V7, U7. cbn [uses_b]. fold (uses_b (as_banks A)).
        split; [tauto|]. intros [H|[H|[H|[<- H]]]]; auto.
        apply HR in H. apply V7 in H. rewrite U7 in H. tauto.
      - intros s y Y G. rewrite (V8 s y Y G). eauto. }
    destruct (refers_node (as_banks A) t o) eqn:RN.
    2:{ injection W as <- <- <-. apply Base; auto. discriminate. }
    destruct (Hu x ltac:(auto)) as (y & Y & NG). rewrite Y in W.
    assert (Hx : (x < length (as_symbols A))%nat) by (apply nth_error_Some; congruence).
    destruct (V4 x y Hx Y NG) as [P1 P2].
    destruct (ids2 x =? UINT32_MAX) eqn:ID.
    + apply bind_ok in W as (d & D & W). injection W as <- <- <-.
      assert (NI : ~ In x (T ++ U ++ V)).
      { intro I. pose proof (position_in _ _ I) as PB. rewrite <- (P1 I) in PB.
        pose proof (NoDup_bound _ _ V1 V2). unfold zlen, UINT32_MAX in *. lia. }
      assert (NF : in_section y k = true -> ay_export y = false /\ fx x = false).
      { intro S. destruct (ay_export y) eqn:E1; destruct (fx x) eqn:E2; auto; exfalso; apply NI, in_or_app; left;
        apply Hc; exists y; rewrite E1, E2; auto. }
      exists (U ++ V ++ [x]), (os ++ os2 ++ [entry A fx k x y]).
      replace (T ++ U ++ V ++ [x]) with ((T ++ U ++ V) ++ [x]) by (now rewrite <- !app_assoc).
      split8; auto.
      * now apply NoDup_snoc.
      * intros s I. apply in_app_or in I as [I|[<-|[]]]; auto.
      * rewrite zlen_app, V3. reflexivity.
      * intros s y0 Hs Ys NG0. destruct (Nat.eq_dec s x) as [->|N].
        -- rewrite upd_same. split; [|intro I; exfalso; apply I; apply in_or_app; right; now left].
           intros _. rewrite position_app_r by auto. auto.
        -- rewrite upd_other by auto. destruct (V4 s y0 Hs Ys NG0) as [Q1 Q2]. split.
           ++ intro I. apply in_app_or in I as [I|[I|[]]]; [|congruence]. rewrite position_app_l by auto. auto.
           ++ intro I. apply Q2. intro I'. apply I. apply in_or_app. auto.
      * apply Forall2_app2; auto. apply Forall2_app2; auto. constructor; [|constructor]. exists y. auto.
      * rewrite !map_app, !concat_app, <- U6, <- V6. cbn [map concat]. rewrite app_nil_r. do 2 f_equal.
        rewrite (debugInfo_spec _ _ _ D). unfold sym_bytes, entry. cbn [oy_name oy_type oy_value oy_file oy_line].
        unfold fputsz, asciiz, fputll, int, from. cbn [Z.geb Z.compare].
        destruct (in_section y k) eqn:IS.
        -- destruct (NF eq_refl) as [-> ->]. reflexivity.
        -- destruct (_ || _); reflexivity.
      * intro s. rewrite in_app_iff, V7, U7. cbn [uses_b In]. fold (uses_b (as_banks A)). rewrite RN.
        split; [tauto|]. intros [H|[H|[H|[H _]]]]; tauto.
      * intros s y0 Ys G. rewrite upd_other by congruence. rewrite (V8 s y0 Ys G). eauto.
    + injection W as <- <- <-. apply Base; auto. intros _.
      destruct (in_dec Nat.eq_dec x (T ++ U ++ V)) as [I|I]; auto. apply P2 in I. unfold UINT32_MAX in *. lia.
Qed.

Lemma patchSymbols_spec : forall A fx k, zlen (as_symbols A) < 2 ^ 32 - 1 ->
  forall ps T n ids b n' ids',
  (forall p s, In p ps -> uses_b (as_banks A) (ap_expr p) s ->
     exists y, nth_error (as_symbols A) s = Some y /\ y_type (ay_sym y) <> SymGroup) ->
  NoDup T -> (forall s, In s T -> (s < length (as_symbols A))%nat) -> n = zlen T -> all_ids A T ids ->
  complete A fx k T ->
  writePatchSymbols A fx k ps (n, ids) = Ok (b, (n', ids')) ->
  exists U os, NoDup (T ++ U) /\ (forall s, In s (T ++ U) -> (s < length (as_symbols A))%nat) /\
    n' = zlen (T ++ U) /\ all_ids A (T ++ U) ids' /\
    Forall2 (entry_of A fx k) U os /\ b = concat (map (sym_bytes 6) os) /\
    (forall s, In s (T ++ U) <-> In s T \/ exists p, In p ps /\ uses_b (as_banks A) (ap_expr p) s) /\
    groups_kept A ids ids'.
Proof.
  intros A fx k HL. induction ps as [|p ps IH]; intros T n ids b n' ids' Hu ND Ti Hn Hids Hc W;
    cbn [writePatchSymbols] in W.
  - injection W as <- <- <-. exists [], []. rewrite app_nil_r.
    split8; auto; [|intros s y _ _; reflexivity]. intro s. split; [auto|]. intros [H|(p & [] & _)]. auto.
  - apply bind_ok in W as ([bl [n1 ids1]] & W1 & W). apply bind_ok in W as ([br [n2 ids2]] & W2 & W).
    injection W as <- <- <-.
    destruct (writeSymbols_spec A fx k HL (ap_expr p) T n ids bl n1 ids1) as (U & os & U1 & U2 & U3 & U4 & U5 & U6 & U7 & U8); auto.
    { intros s Us. apply (Hu p); [now left|auto]. }
    destruct (IH (T ++ U) n1 ids1 br n2 ids2) as (V & os2 & V1 & V2 & V3 & V4 & V5 & V6 & V7 & V8); auto.
    { intros q s I. apply (Hu q). now right. }
    { intros s F. apply in_or_app. auto. }
    rewrite <- app_assoc in *. exists (U ++ V), (os ++ os2). split8; auto.
    + now apply Forall2_app2.
    + rewrite map_app, concat_app. congruence.
    + intro s. rewrite V7, U7. split.
      * intros [[H|H]|(q & I & H)]; auto; right; [exists p|exists q]; split; auto; [now left|now right].
      * intros [H|(q & [<-|I] & H)]; auto. right. eauto.
    + intros s y Y G. rewrite (V8 s y Y G). eauto.
Qed.

(** ** Groups *)
Definition rank (ys : list asym) (g : nat) : nat := length (filter isGroup (firstn g ys)).
Lemma group_bytes_of : forall y, ay_groupType y = GROUP_TEXT \/ ay_groupType y = GROUP_BSS ->
  group_bytes (group_of y) =
  fputsz (ay_name y) ++ fputll (Z.lor (ay_groupType y) (Z.lor (if ay_shared y then 536870912 else 0) (if ay_data y then 1073741824 else 0))).
Proof.
  intros y H. unfold group_bytes, group_of, asciiz, fputsz, fputll, int. cbn [og_name og_type og_flags].
  do 3 f_equal. destruct H as [-> | ->], (ay_shared y), (ay_data y); reflexivity.
Qed.
Lemma writeGroupList_spec : forall ys i n ids b n' ids',
  (forall y, In y ys -> y_type (ay_sym y) = SymGroup -> ay_groupType y = GROUP_TEXT \/ ay_groupType y = GROUP_BSS) ->
  writeGroupList ys i (n, ids) = (b, (n', ids')) ->
  b = concat (map (fun y => group_bytes (group_of y)) (filter isGroup ys)) /\
  n' = n + zlen (filter isGroup ys) /\
  (forall s, (s < i)%nat -> ids' s = ids s) /\
  (forall g y, nth_error ys g = Some y -> y_type (ay_sym y) = SymGroup -> ids' (i + g)%nat = n + Z.of_nat (rank ys g)).
Proof.
  induction ys as [|y ys IH]; intros i n ids b n' ids' HT W; cbn [writeGroupList] in W.
  - injection W as <- <- <-. split; [|split; [|split]]; auto.
    + cbn. unfold zlen; cbn; lia.
    + intros [|g] y H; discriminate.
  - destruct (isGroup y) eqn:G; cbn [filter]; rewrite G.
    + destruct (writeGroupList ys (S i) _) as [b1 [n1 ids1]] eqn:W1. injection W as <- <- <-.
      apply IH in W1 as (B1 & B2 & B3 & B4); [|intros; apply HT; [now right|auto]].
      assert (GT : y_type (ay_sym y) = SymGroup) by now apply symtype_eqb_eq.
      split; [|split; [|split]].
      * cbn [map concat]. rewrite group_bytes_of by (apply HT; [now left|auto]). rewrite B1, <- app_assoc. reflexivity.
      * cbn [fst] in B2. rewrite zlen_cons. lia.
      * intros s Hs. rewrite B3 by lia. apply upd_other. lia.
      * intros [|g] y0 N T.
        -- rewrite Nat.add_0_r. rewrite B3 by lia. cbn [snd fst]. rewrite upd_same. cbn. lia.
        -- cbn in N. replace (i + S g)%nat with (S i + g)%nat by lia. rewrite (B4 g y0) by auto.
           unfold rank. cbn [firstn filter fst]. rewrite G. cbn [length]. lia.
    + apply IH in W as (B1 & B2 & B3 & B4); [|intros; apply HT; [now right|auto]].
      split; [|split; [|split]]; auto.
      intros [|g] y0 N T.
      * cbn in N. injection N as <-. unfold isGroup in G. rewrite T in G. discriminate.
      * cbn in N. replace (i + S g)%nat with (S i + g)%nat by lia. rewrite (B4 g y0) by auto.
        unfold rank. cbn [firstn filter]. rewrite G. reflexivity.
Qed.
Lemma rank_nth : forall ys g y, nth_error ys g = Some y -> isGroup y = true ->
  nth_error (filter isGroup ys) (rank ys g) = Some y.
Proof.
  induction ys as [|x ys IH]; intros [|g] y N G; try discriminate.
  - cbn in N. injection N as ->. unfold rank. cbn. now rewrite G.
  - cbn in N. unfold rank. cbn [firstn filter]. destruct (isGroup x); cbn; now apply IH.
Qed.

(** ** Constants *)
Lemma writeConstants_spec : forall A ys b n, writeConstants A ys = Ok (b, n) ->
  exists os, b = concat (map (sym_bytes 6) os) /\ n = zlen os /\
    Forall2 (fun y o => o = OSym (ay_name y) 0 (y_value (ay_sym y)) (if as_debug A then ay_file y else None)
                              (if as_debug A then ay_line y else 0)) (filter isExportedConstant ys) os.
Proof.
  intros A. induction ys as [|y ys IH]; intros b n W; cbn [writeConstants] in W.
  - injection W as <- <-. exists []. split; [reflexivity|split; [reflexivity|constructor]].
  - cbn [filter]. destruct (isExportedConstant y); [|now apply IH].
    apply bind_ok in W as (d & D & W). apply bind_ok in W as ([b1 n1] & W1 & W). injection W as <- <-.
    apply IH in W1 as (os & O1 & O2 & O3).
    eexists (_ :: os). split; [|split; [|constructor; [reflexivity|exact O3]]].
    + cbn [map concat]. rewrite O1. rewrite (debugInfo_spec _ _ _ D).
      unfold sym_bytes. cbn [oy_name oy_type oy_value oy_file oy_line].
      unfold fputsz, asciiz, fputll, int, from. cbn [Z.geb Z.compare is_import SYM_IMPORT SYM_LOCALIMPORT].
      rewrite <- !app_assoc. reflexivity.
    + rewrite zlen_cons. lia.
Qed.

(** ** Patches *)
Lemma writePatchList_spec : forall ids ps b, writePatchList ids ps = Ok b ->
  exists qs, b = concat (map patch_bytes qs) /\
    Forall2 (fun p q => op_offset q = ap_offset p /\ op_type q = ap_type p /\
                        writeExpression ids (ap_expr p) = Ok (op_expr q)) ps qs.
Proof.
  intros ids. induction ps as [|p ps IH]; intros b W; cbn [writePatchList] in W.
  - injection W as <-. exists []. auto.
  - apply bind_ok in W as (b1 & W1 & W). apply bind_ok in W as (b2 & W2 & W). injection W as <-.
    unfold writePatch in W1. apply bind_ok in W1 as (bs & W1 & E). injection E as <-.
    apply IH in W2 as (qs & Q1 & Q2).
    exists (OPatch (ap_offset p) (ap_type p) bs :: qs). split.
    + cbn [map concat]. rewrite Q1. unfold patch_bytes. cbn [op_offset op_type op_expr].
      unfold fputll, int. now rewrite <- !app_assoc.
    + constructor; auto.
Qed.
Lemma Forall2_zlen : forall A B (R : A -> B -> Prop) a b, Forall2 R a b -> zlen a = zlen b.
Proof. intros A B R a b H. unfold zlen. induction H; cbn; lia. Qed.

(** ** Sections *)
Lemma entry_lists : forall A k s y, banks_ok A -> nth_error (as_symbols A) s = Some y ->
  lists A k s (entry A (markLocalExports A) k s y).
Proof.
  intros A k s y B Y. exists y. split; auto. unfold entry. cbn [oy_name oy_type oy_value oy_file oy_line].
  pose proof (mark_spec A s y B Y) as M. split; [reflexivity|]. split; [|split; [reflexivity|]].
  - unfold kind. destruct (in_section y k) eqn:S.
    + left. apply in_section_spec in S. split; auto.
      destruct (ay_export y); auto. right. destruct (markLocalExports A s).
      * left. repeat split; auto. now apply M.
      * right. repeat split; auto. intro H. apply M in H. discriminate.
    + right. split; [intro H; apply in_section_spec in H; congruence|].
      destruct (symtype_eqb _ SymImport || _) eqn:E.
      * left. split; auto. apply orb_true_iff in E. now rewrite !symtype_eqb_eq in E.
      * right. split; auto. intro H. rewrite <- !symtype_eqb_eq in H. apply orb_true_iff in H. congruence.
  - unfold place_of. cbn [oy_file oy_line]. destruct (as_debug A); auto.
Qed.
Lemma fputll_max : fputll UINT32_MAX = int (-1).
Proof. reflexivity. Qed.
Lemma int_attribute : forall b v, int (attribute b v) = fputll (if b then v else UINT32_MAX).
Proof.
  intros [|] v; [|reflexivity]. unfold attribute, int, fputll. now rewrite u32_s32.
Qed.
Lemma attribute_s32 : forall b v, is_s32 (attribute b v).
Proof. intros [|] v; unfold attribute; [apply s32_range|unfold is_s32; lia]. Qed.
Lemma map_line_bytes : forall ls,
  concat (map line_bytes (map (fun l => OLine (al_file l) (al_line l) (al_offset l)) ls)) =
  concat (map writeLineMapping ls).
Proof. intro ls. rewrite map_map. reflexivity. Qed.

Definition gids_ok (A : astate) (ids : nat -> Z) : Prop :=
  forall g y, nth_error (as_symbols A) g = Some y -> y_type (ay_sym y) = SymGroup ->
    ids g = Z.of_nat (rank (as_symbols A) g).

Lemma Forall_Forall2_r : forall A B (R : A -> B -> Prop) (P : A -> Prop) (Q : B -> Prop) a b,
  Forall2 R a b -> Forall P a -> (forall x y, R x y -> P x -> Q y) -> Forall Q b.
Proof.
  intros A B R P Q a b F G H. induction F; [constructor|]. inversion G; subst. constructor; eauto.
Qed.
Lemma Forall2_imp : forall A B (R S : A -> B -> Prop) a b,
  Forall2 R a b -> (forall x y, In x a -> R x y -> S x y) -> Forall2 S a b.
Proof.
  intros A B R S a b F H. induction F; constructor; [apply H; [now left|auto]|].
  apply IHF. intros. apply H; [now right|auto].
Qed.

Lemma writeSection_spec : forall A m k w ids b ids',
  astate_ok A -> nth_error (as_sections A) k = Some w ->
  om_groups m = map group_of (filter isGroup (as_symbols A)) ->
  om_files m = (if as_debug A then as_files A else []) ->
  gids_ok A ids ->
  writeSection A (markLocalExports A) k w ids = Ok (b, ids') ->
  exists s, b = sect_bytes 6 m s /\ sect_ok_v 6 m s /\ describes_section A m k w s /\ gids_ok A ids'.
Proof.
  intros A m k w ids b ids' HA HW HGr HFi HG W.
  destruct HA as (A1 & A2 & A3 & A4 & A5 & A6 & A7 & A8).
  assert (Hw : wsect_ok A w) by (rewrite Forall_forall in A6; apply A6; eapply nth_error_In; eauto).
  destruct Hw as (W1 & (g & G & GT) & W2 & W3 & W4 & W5 & W6 & W7 & W8).
  unfold writeSection in W. rewrite G in W.
  destruct (a_bankfixed (ws_sect w) && negb (as_banks A)) eqn:BK; [discriminate|].
  apply bind_ok in W as ([bsym ids1] & S1 & W). apply bind_ok in W as (rest & S2 & W). apply ok_pair in W as [<- <-].
  unfold writeSectionSymbols in S1.
  apply bind_ok in S1 as ([b1 [n1 i1]] & F1 & S1). apply bind_ok in S1 as ([b2 [n2 i2]] & F2 & S1).
  cbn [fst snd] in S1. apply ok_pair in S1 as [<- <-].
  assert (HGN : forall s y, nth_error (as_symbols A) s = Some y -> y_type (ay_sym y) = SymGroup -> home_section y = None).
  { intros s y Y T. rewrite Forall_forall in A4. apply A4; auto. eapply nth_error_In; eauto. }
  destruct (withFlags_spec A (markLocalExports A) k HGN (as_symbols A) 0 [] 0 ids b1 n1 i1)
    as (T & os & T1 & T2 & T3 & T4 & T5 & T6 & T7 & T8); auto.
  { constructor. } { intros s []. } { intros s y Hs. lia. }
  cbn [app Nat.add] in *.
  assert (BX : forall p, In p (ws_patches w) -> as_banks A = true \/ no_bank (ap_expr p)).
  { intros p I. eapply banks_ok_expr; eauto. eapply nth_error_In; eauto. }
  assert (HU : forall p s, In p (ws_patches w) -> uses_b (as_banks A) (ap_expr p) s ->
     exists y, nth_error (as_symbols A) s = Some y /\ y_type (ay_sym y) <> SymGroup).
  { intros p s I U. rewrite Forall_forall in W8. destruct (W8 p I) as (_ & _ & _ & W9). apply W9.
    apply (uses_b_spec (as_banks A)); auto. }
  destruct (patchSymbols_spec A (markLocalExports A) k A5 (ws_patches w) T n1 i1 b2 n2 i2)
    as (U & os2 & U1 & U2 & U3 & U4 & U5 & U6 & U7 & U8); auto.
  { intros s F. apply T7. split; auto. destruct F as (y & Y & _).
    assert ((s < length (as_symbols A))%nat) by (apply nth_error_Some; congruence). lia. }
  assert (GK : gids_ok A i2).
  { intros g0 y Y GT0. rewrite (U8 g0 y Y GT0), (T8 g0 y Y GT0). exact (HG g0 y Y GT0). }
  assert (GB : isGroup g = true) by (now apply symtype_eqb_eq).
  pose proof (rank_nth _ _ _ G GB) as RK.
  (* the table *)
  assert (TB : forall x, In x (T ++ U) <-> listed A k x).
  { intro x. rewrite U7, T7. unfold listed, flagged. split.
    - intros [[_ (y & Y & IS & FL)]|(p & I & Ux)].
      + exists y. split; auto. right. apply in_section_spec in IS. split; auto.
        apply orb_true_iff in FL as [FL|FL]; [apply orb_true_iff in FL as [FL|FL]|]; auto.
        * right. left. now apply mark_spec.
        * right. right. now apply andb_true_iff.
      + destruct (HU p x I Ux) as (y & Y & _). exists y. split; auto. left. exists w, p.
        repeat split; auto. apply (uses_b_spec (as_banks A)); auto.
    - intros (y & Y & [(w' & p & N & I & Ux)|[IS FL]]).
      + right. assert (w' = w) by congruence. subst w'. exists p. split; auto. apply uses_b_spec; auto.
      + left. split.
        * assert ((x < length (as_symbols A))%nat) by (apply nth_error_Some; congruence). lia.
        * exists y. apply in_section_spec in IS. repeat split; auto.
          destruct FL as [FL|[FL|[FL1 FL2]]].
          -- rewrite FL. reflexivity.
          -- apply mark_spec in FL; auto. rewrite FL. destruct (ay_export y); reflexivity.
          -- rewrite FL1, FL2. now rewrite orb_true_r. }
  assert (EL : Forall2 (lists A k) (T ++ U) (os ++ os2)).
  { apply Forall2_app2; [eapply Forall2_imp; [exact T5|]|eapply Forall2_imp; [exact U5|]];
    intros x o _ (y & Y & ->); now apply entry_lists. }
  assert (NL : n2 = zlen (os ++ os2)).
  { rewrite U3. rewrite !zlen_app. rewrite (Forall2_zlen _ _ _ _ _ T5), (Forall2_zlen _ _ _ _ _ U5). reflexivity. }
  (* the patches *)
  assert (PQ : exists qs, rest = (if ay_groupType g =? 0 then ws_data w ++ list_of patch_bytes qs else []) /\
     (ay_groupType g =? 0 = true ->
      Forall2 (fun p q => op_offset q = ap_offset p /\ op_type q = ap_type p /\
                        writeExpression i2 (ap_expr p) = Ok (op_expr q)) (ws_patches w) qs)).
  { destruct (ay_groupType g =? 0) eqn:TX.
    - apply bind_ok in S2 as (ps & S2 & E). apply ok_inj in E. subst rest.
      unfold writeSectionPatches in S2. apply bind_ok in S2 as (pb & S2 & E). apply ok_inj in E. subst ps.
      apply writePatchList_spec in S2 as (qs & Q1 & Q2). exists qs. split; auto.
      unfold list_of. rewrite <- (Forall2_zlen _ _ _ _ _ Q2), Q1. reflexivity.
    - injection S2 as <-. exists []. split; auto. discriminate. }
  destruct PQ as (qs & -> & PQ).
  set (sec := OSect (Some (rank (as_symbols A) (ws_group w))) (ws_name w)
    (attribute (a_bankfixed (ws_sect w)) (a_bank (ws_sect w)))
    (attribute (a_loadfixed (ws_sect w)) (ws_imagePosition w))
    (attribute (a_loadfixed (ws_sect w)) (a_cpuOrigin (ws_sect w)))
    (attribute (a_aligned (ws_sect w)) (ws_align w)) (a_root (ws_sect w))
    (attribute (a_paged (ws_sect w)) (ws_page w)) (os ++ os2)
    (if as_debug A then map (fun l => OLine (al_file l) (al_line l) (al_offset l)) (ws_lines w) else [])
    (ws_usedSpace w) (ws_data w) qs).
  assert (OG : os_ogroup m sec = Some (group_of g)).
  { unfold os_ogroup. cbn [sec os_group]. rewrite HGr.
    now apply map_nth_error. }
  assert (TX : is_text m sec = (ay_groupType g =? 0)) by (unfold is_text; now rewrite OG).
  exists sec. split; [|split; [|split; [|exact GK]]].
  - unfold sect_bytes. rewrite TX. cbn [sec os_group os_name os_bank os_position os_basePC os_align os_root os_page os_symbols os_lines os_size os_data os_patches].
    unfold from. cbn [Z.geb Z.compare]. rewrite !int_attribute. rewrite (HG _ _ G GT).
    assert (list_of (sym_bytes 6) (os ++ os2) = fputll n2 ++ b1 ++ b2) as ->.
    { unfold list_of. rewrite <- NL, map_app, concat_app, <- T6, <- U6. reflexivity. }
    rewrite <- !app_assoc. unfold asciiz, fputsz. rewrite <- !app_assoc.
    assert (writeLineMappings A w = list_of line_bytes
      (if as_debug A then map (fun l => OLine (al_file l) (al_line l) (al_offset l)) (ws_lines w) else [])) as ->;
      [|reflexivity].
    unfold writeLineMappings, list_of. destruct (as_debug A); [|reflexivity].
    cbn [andb]. rewrite map_line_bytes. unfold zlen at 3. rewrite map_length. fold (zlen (ws_lines w)). change fputll with int.
    destruct (zlen (ws_lines w) =? 0) eqn:ZL; [|reflexivity].
    destruct (ws_lines w); [reflexivity|]. rewrite zlen_cons in ZL. pose proof (zlen_nonneg _ l). lia.
  - unfold sect_ok_v. rewrite TX. cbn [sec os_group os_name os_bank os_position os_basePC os_align os_root os_page os_symbols os_lines os_size os_data os_patches].
    split; [rewrite HGr, map_length; apply nth_error_Some; congruence|].
    split; auto. do 5 (split; [apply attribute_s32|]).
    split; [|split; [|split; [|split]]]; auto.
    + assert (OK : Forall (fun x => exists y, nth_error (as_symbols A) x = Some y) (T ++ U)).
      { apply Forall_forall. intros x I. destruct (nth_error (as_symbols A) x) eqn:E; eauto.
        apply nth_error_None in E. apply U2 in I. lia. }
      eapply Forall_Forall2_r; [exact EL|exact OK|].
      intros x o (y & Y & L1 & L2 & L3 & L4) _. cbn beta.
      rewrite Forall_forall in A4. destruct (A4 y (nth_error_In _ _ Y)) as (Y1 & Y2 & Y3 & Y4).
      unfold sym_ok_v. rewrite L1, L3. split; auto. split; [|split; auto].
      * unfold kind, SYM_EXPORT, SYM_IMPORT, SYM_LOCAL, SYM_LOCALEXPORT, SYM_LOCALIMPORT in L2. unfold is_u32.
        assert (0 <= oy_type o <= 4) by (destruct L2 as [[_ [(_ & ->)|[(_ & _ & ->)|(_ & _ & ->)]]]|[_ [[_ ->]|[_ ->]]]]; lia).
        lia.
      * intros _. unfold place_of in L4. rewrite HFi. destruct (as_debug A) eqn:DB.
        -- destruct L4 as [-> ->]. destruct (Y3 eq_refl) as (Y5 & f & -> & Y6). auto.
        -- destruct L4 as [-> ->]. split; auto. unfold is_u32; lia.
    + rewrite <- NL, U3. pose proof (NoDup_bound _ _ U1 U2). unfold is_u32, zlen in *. lia.
    + intros _. rewrite HFi. destruct (as_debug A).
      * split; [|unfold zlen in *; now rewrite map_length].
        apply Forall_forall. intros l I. apply in_map_iff in I as (l0 & <- & I).
        rewrite Forall_forall in W6. specialize (W6 _ I). exact W6.
      * split; [constructor|]. unfold is_u32, zlen; cbn; lia.
    + intro TE. specialize (PQ TE). split; [|split]; [apply (W4 g G); unfold GROUP_TEXT; lia| |].
      * eapply Forall_Forall2_r; [exact PQ|exact W8|].
        intros p q (Q1 & Q2 & Q3) (P1 & P2 & P3 & _). unfold patch_ok. rewrite Q1, Q2. eauto.
      * rewrite <- (Forall2_zlen _ _ _ _ _ PQ). exact W7.
  - unfold describes_section. cbn [sec os_group os_name os_bank os_position os_basePC os_align os_root os_page os_symbols os_lines os_size os_data os_patches].
    split; [exists g; auto|]. do 10 (split; [reflexivity|]).
    exists (T ++ U). split; auto. split; auto. split; auto.
    intro TE. rewrite TX in TE. eapply Forall2_imp; [apply PQ; auto|].
    intros p q I (Q1 & Q2 & Q3). split; auto. split; auto. rewrite <- Q3. apply writeExpression_ext.
    intros s Us. assert (In s (T ++ U)).
    { apply TB. apply (uses_b_spec (as_banks A)) in Us; [|auto]. destruct (HU p s I Us) as (y & Y & _).
      exists y. split; auto. left. exists w, p. repeat split; auto. apply (uses_b_spec (as_banks A)); auto. }
    apply (uses_b_spec (as_banks A)) in Us; [|auto]. destruct (HU p s I Us) as (y & Y & NG).
    symmetry. apply (U4 s y); auto.
Qed.

Lemma writeSectionList_spec : forall A m, astate_ok A ->
  om_groups m = map group_of (filter isGroup (as_symbols A)) ->
  om_files m = (if as_debug A then as_files A else []) ->
  forall ws k ids b,
  (forall j, nth_error ws j = nth_error (as_sections A) (k + j)) ->
  gids_ok A ids ->
  writeSectionList A (markLocalExports A) k ws ids = Ok b ->
  exists ss, b = concat (map (sect_bytes 6 m) ss) /\ Forall (sect_ok_v 6 m) ss /\ length ss = length ws /\
    forall j w s, nth_error ws j = Some w -> nth_error ss j = Some s -> describes_section A m (k + j) w s.
Proof.
  intros A m HA HGr HFi. induction ws as [|w ws IH]; intros k ids b Hws HG W; cbn [writeSectionList] in W.
  - injection W as <-. exists []. split; [reflexivity|]. split; [constructor|]. split; [reflexivity|].
    intros [|j] w s N; discriminate.
  - apply bind_ok in W as ([b1 ids1] & W1 & W). apply bind_ok in W as (b2 & W2 & W). apply ok_inj in W. subst b.
    assert (N : nth_error (as_sections A) k = Some w) by (rewrite <- (Nat.add_0_r k), <- Hws; reflexivity).
    destruct (writeSection_spec A m k w ids b1 ids1 HA N HGr HFi HG W1) as (s & S1 & S2 & S3 & S4).
    destruct (IH (S k) ids1 b2) as (ss & T1 & T2 & T3 & T4); auto.
    { intro j. specialize (Hws (S j)). cbn in Hws. rewrite Hws. f_equal. lia. }
    exists (s :: ss). split; [cbn [map concat]; congruence|]. split; [constructor; auto|]. split; [cbn; lia|].
    intros [|j] w0 s0 N1 N2; cbn in N1, N2.
    + injection N1 as <-. injection N2 as <-. now rewrite Nat.add_0_r.
    + replace (k + S j)%nat with (S k + j)%nat by lia. eauto.
Qed.

Lemma filter_length_le : forall A (f : A -> bool) l, (length (filter f l) <= length l)%nat.
Proof. intros A f l. induction l as [|x l IH]; cbn; [lia|]. destruct (f x); cbn; lia. Qed.
Lemma obj_Write_spec : forall A b, astate_ok A -> obj_Write A = Ok b ->
  exists m, b = module_bytes 6 m /\ module_ok 6 m /\ describes A m.
Proof.
  intros A b HA W. pose proof HA as (A1 & A2 & A3 & A4 & A5 & A6 & A7 & A8).
  unfold obj_Write in W.
  destruct (writeGroupList (as_symbols A) 0 (0, fun _ => 0)) as [gb [gn gids]] eqn:WG.
  apply bind_ok in W as (cb & W1 & W). apply bind_ok in W as (sb & W2 & W).
  apply writeGroupList_spec in WG as (G1 & G2 & _ & G3).
  2:{ intros y I T. rewrite Forall_forall in A4. now apply A4. }
  cbn [snd fst] in *.
  unfold writeExportedConstantsSection in W1. apply bind_ok in W1 as ([cs n] & WC & W1). apply ok_inj in W1.
  apply writeConstants_spec in WC as (os & O1 & O2 & O3).
  set (G := map group_of (filter isGroup (as_symbols A))) in *.
  set (Fi := if as_debug A then as_files A else []) in *.
  destruct (writeSectionList_spec A (OModule (as_wordSize A) Fi G []) HA eq_refl eq_refl (as_sections A) 0 gids sb)
    as (ss & S1 & S2 & S3 & S4); auto.
  set (c := OSect None [] (-1) (-1) (-1) (-1) false (-1) os [] 0 [] []).
  set (m := OModule (as_wordSize A) Fi G (c :: ss)).
  assert (CW : cb = sect_bytes 6 m c).
  { rewrite <- W1. unfold sect_bytes. cbn [c os_group os_name os_bank os_position os_basePC os_align os_root os_page os_symbols os_lines os_size os_data os_patches].
    change (is_text m c) with false. unfold from. cbn [Z.geb Z.compare].
    rewrite !fputll_max. unfold list_of at 1. rewrite <- O1, <- O2. rewrite <- !app_assoc. reflexivity. }
  exists m. split; [|split].
  - apply ok_inj in W. subst b.
    assert (E1 : (if as_debug A then writeFileNames (as_files A) else fputll 0) = list_of file_bytes Fi).
    { unfold Fi. destruct (as_debug A); reflexivity. }
    assert (E2 : fputll gn ++ gb = list_of group_bytes G).
    { unfold list_of, G. rewrite map_map, <- G1, G2. unfold zlen. rewrite map_length. reflexivity. }
    assert (E3 : fputll (zlen (as_sections A) + 1) ++ cb ++ sb = list_of (sect_bytes 6 m) (c :: ss)).
    { unfold list_of. cbn [map concat]. rewrite <- CW.
      change (sect_bytes 6 m) with (sect_bytes 6 (OModule (as_wordSize A) Fi G [])). rewrite <- S1.
      rewrite zlen_cons. unfold fputll, int, zlen. rewrite S3. do 3 f_equal. lia. }
    rewrite E1, (app_assoc (fputll gn)), E2, E3. reflexivity.
  - assert (ZA : zlen (filter isGroup (as_symbols A)) <= zlen (as_symbols A)).
    { unfold zlen. pose proof (filter_length_le _ isGroup (as_symbols A)). lia. }
    assert (ZB : zlen os <= zlen (as_symbols A)).
    { rewrite <- (Forall2_zlen _ _ _ _ _ O3). unfold zlen.
      pose proof (filter_length_le _ isExportedConstant (as_symbols A)). lia. }
    unfold module_ok. cbn [m om_wordSize om_files om_groups om_sections].
    split; [lia|]. split; auto. split; [intros _; unfold Fi; destruct (as_debug A); auto|].
    split; [|split; [|split]].
    + apply Forall_forall. intros g I. unfold G in I. apply in_map_iff in I as (y & <- & I).
      apply filter_In in I as [I GT]. rewrite Forall_forall in A4. destruct (A4 y I) as (Y1 & _ & _ & Y4).
      apply symtype_eqb_eq in GT. destruct (Y4 GT) as [Y5 _].
      unfold group_ok, group_of. cbn [og_name og_type og_flags]. split; auto.
      unfold GROUP_TEXT, GROUP_BSS in Y5. split; [lia|].
      destruct (ay_shared y), (ay_data y); auto.
    + unfold G, zlen in *. rewrite map_length. lia.
    + constructor.
      * unfold sect_ok_v. cbn [c os_group os_name os_bank os_position os_basePC os_align os_root os_page os_symbols os_lines os_size os_data os_patches].
        split; auto. split; [split; [constructor|unfold zlen; cbn; lia]|].
        do 5 (split; [unfold is_s32; lia|]).
        split; [|split; [|split; [|split]]].
        -- assert (OK : Forall (asym_ok A) (filter isExportedConstant (as_symbols A))).
           { apply Forall_forall. intros y I. apply filter_In in I as [I _]. rewrite Forall_forall in A4. auto. }
           eapply Forall_Forall2_r; [exact O3|exact OK|].
           intros y o -> (Y1 & Y2 & Y3 & Y4). unfold sym_ok_v. cbn [oy_name oy_type oy_value oy_file oy_line].
           split; auto. split; [unfold is_u32; lia|]. split; auto. intros _. cbn [om_files]. unfold Fi.
           destruct (as_debug A) eqn:DB.
           ++ destruct (Y3 eq_refl) as (Y5 & f & -> & Y6). auto.
           ++ split; auto. unfold is_u32; lia.
        -- unfold is_u32. pose proof (zlen_nonneg _ os). lia.
        -- intros _. split; [constructor|unfold is_u32, zlen; cbn; lia].
        -- unfold is_u32; lia.
        -- discriminate.
      * exact S2.
    + rewrite zlen_cons. unfold is_u32, zlen in *. lia.
  - unfold describes. cbn [m om_wordSize om_files om_groups om_sections].
    split; auto. split; auto. split; auto. exists c, ss. split; auto. split; [|split; auto].
    unfold describes_constants. do 10 (split; [reflexivity|]).
    eapply Forall2_imp; [exact O3|]. intros y o _ ->. cbn [oy_name oy_type oy_value oy_file oy_line].
    repeat split; auto. unfold place_of. cbn [oy_file oy_line]. destruct (as_debug A); auto.
Qed.

(** ** Totality *)
Lemma debugInfo_total : forall A y, asym_ok A y -> exists d, debugInfo A y = Ok d.
Proof.
  intros A y (_ & _ & D & _). unfold debugInfo. destruct (as_debug A); [|eauto].
  destruct (D eq_refl) as (_ & f & -> & _). eauto.
Qed.
Lemma writeExpression_total : forall ids e, has_code e -> exists b, writeExpression ids e = Ok b.
Proof.
  intros ids. induction e as [|t c o v s l IHl r IHr]; cbn [has_code writeExpression]; [eauto|].
  intros (O & L & R). destruct (IHl L) as (bl & ->), (IHr R) as (br & ->). cbn [bind].
  destruct t; eauto. destruct (O eq_refl) as [O1 O2]. destruct o; cbn [op_code]; eauto; congruence.
Qed.
Lemma writeSymbols_total : forall A fx k e st, Forall (asym_ok A) (as_symbols A) ->
  (forall s, uses_b (as_banks A) e s -> exists y, nth_error (as_symbols A) s = Some y) ->
  exists r, writeSymbols A fx k e st = Ok r.
Proof.
  intros A fx k e st HA. revert st. induction e as [|t c o v s l IHl r IHr]; intros st U; cbn [writeSymbols]; [eauto|].
  cbn [uses_b] in U.
  destruct (IHl st) as ([bl st1] & ->); [intros x Ux; apply U; tauto|]. cbn [bind].
  destruct (IHr st1) as ([br st2] & ->); [intros x Ux; apply U; tauto|]. cbn [bind].
  destruct (refers_node (as_banks A) t o) eqn:RN; [|eauto].
  destruct (U s) as (y & Y); [tauto|]. rewrite Y. destruct (snd st2 s =? UINT32_MAX); [|eauto].
  destruct (debugInfo_total A y) as (d & ->); [rewrite Forall_forall in HA; apply HA; eapply nth_error_In; eauto|].
  cbn [bind]. eauto.
Qed.
Lemma writePatchSymbols_total : forall A fx k ps st, Forall (asym_ok A) (as_symbols A) ->
  (forall p s, In p ps -> uses_b (as_banks A) (ap_expr p) s -> exists y, nth_error (as_symbols A) s = Some y) ->
  exists r, writePatchSymbols A fx k ps st = Ok r.
Proof.
  intros A fx k ps st HA. revert st. induction ps as [|p ps IH]; intros st U; cbn [writePatchSymbols]; [eauto|].
  destruct (writeSymbols_total A fx k (ap_expr p) st HA) as ([b st1] & ->); [intros s; apply U; now left|]. cbn [bind].
  destruct (IH st1) as ([b2 st2] & ->); [intros p' s I; apply U; now right|]. cbn [bind]. eauto.
Qed.
Lemma withFlags_total : forall A fx k rel ys i st, Forall (asym_ok A) ys ->
  exists r, writeSymbolsWithFlags A fx k rel ys i st = Ok r.
Proof.
  intros A fx k rel. induction ys as [|y ys IH]; intros i st F; cbn [writeSymbolsWithFlags]; [eauto|].
  inversion F as [|? ? Fy Fys]; subst. destruct (debugInfo_total A y Fy) as (d & ->). cbn [bind].
  destruct (in_section y k && (ay_export y || fx i || rel && y_reloc (ay_sym y))); cbn [bind];
  match goal with |- context [writeSymbolsWithFlags A fx k rel ys (S i) ?st'] =>
    destruct (IH (S i) st' Fys) as ([b2 st2] & ->) end; cbn [bind]; eauto.
Qed.
Lemma writePatchList_total : forall ids ps, Forall (fun p => has_code (ap_expr p)) ps ->
  exists b, writePatchList ids ps = Ok b.
Proof.
  intros ids. induction ps as [|p ps IH]; intro F; cbn [writePatchList]; [eauto|].
  inversion F as [|? ? Fp Fps]; subst. unfold writePatch.
  destruct (writeExpression_total ids _ Fp) as (b & ->). cbn [bind]. destruct (IH Fps) as (b2 & ->). cbn [bind]. eauto.
Qed.
Lemma writeConstants_total : forall A ys, Forall (asym_ok A) ys -> exists r, writeConstants A ys = Ok r.
Proof.
  intros A. induction ys as [|y ys IH]; intro F; cbn [writeConstants]; [eauto|].
  inversion F as [|? ? Fy Fys]; subst. destruct (debugInfo_total A y Fy) as (d & ->).
  destruct (IH Fys) as ([b n] & ->). cbn [bind]. destruct (isExportedConstant y); eauto.
Qed.
Lemma writeSectionList_total : forall A fx ws k ids, astate_ok A ->
  Forall (fun w => In w (as_sections A) /\ Forall (fun p => has_code (ap_expr p)) (ws_patches w)) ws ->
  exists b, writeSectionList A fx k ws ids = Ok b.
Proof.
  intros A fx ws k ids HA. revert k ids. destruct HA as (A1 & A2 & A3 & A4 & A5 & A6 & A7 & A8).
  induction ws as [|w ws IH]; intros k ids F; cbn [writeSectionList]; [eauto|].
  inversion F as [|? ? [I C] Fws]; subst. unfold writeSection.
  pose proof A6 as A6'. rewrite Forall_forall in A6'.
  destruct (A6' w I) as (W1 & (g & G & GT) & W2 & W3 & W4 & W5 & W6 & W7 & W8). rewrite G.
  assert (a_bankfixed (ws_sect w) && negb (as_banks A) = false) as ->.
  { destruct (a_bankfixed (ws_sect w)); [|reflexivity]. now rewrite W2. }
  unfold writeSectionSymbols.
  destruct (withFlags_total A fx k (as_debug A) (as_symbols A) 0 (0, ids) A4) as ([b1 st1] & ->). cbn [bind].
  destruct (writePatchSymbols_total A fx k (ws_patches w) st1 A4) as ([b2 st2] & ->).
  { intros p s Ip U. rewrite Forall_forall in W8. destruct (W8 p Ip) as (_ & _ & _ & W9).
    destruct (W9 s) as (y & Y & _); eauto. apply (uses_b_spec (as_banks A)); auto.
    eapply banks_ok_expr; eauto. }
  cbn [bind]. unfold writeSectionPatches.
  destruct (writePatchList_total (snd st2) (ws_patches w) C) as (pb & ->). cbn [bind].
  destruct (ay_groupType g =? 0); cbn [bind];
  destruct (IH (S k) (snd st2) Fws) as (b3 & ->); cbn [bind]; eauto.
Qed.
Lemma obj_Write_total : forall A, astate_ok A ->
  (forall w p, In w (as_sections A) -> In p (ws_patches w) -> has_code (ap_expr p)) ->
  exists b, obj_Write A = Ok b.
Proof.
  intros A HA HC. unfold obj_Write. destruct (writeGroupList (as_symbols A) 0 (0, fun _ => 0)) as [gb [gn gids]].
  unfold writeExportedConstantsSection.
  destruct (writeConstants_total A (as_symbols A)) as ([cb n] & ->); [apply HA|]. cbn [bind].
  destruct (writeSectionList_total A (markLocalExports A) (as_sections A) 0 (snd (gn, gids)) HA) as (b & ->).
  { apply Forall_forall. intros w I. split; auto. apply Forall_forall. intros p. now apply HC. }
  cbn [bind]. eauto.
Qed.
