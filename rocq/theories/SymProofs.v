(** Proofs about the symbol table. *)
From Coq Require Import ZArith List Bool Lia.
From Verif Require Import Base BaseFacts Arith ExprModel ObjWriteModel SymModel SymSpec.
Import ListNotations.
Open Scope Z_scope.

Lemma local_spec : forall n, isLocalName n = true <-> is_local n.
Proof.
  intro n. unfold isLocalName, is_local. destruct n as [|c n].
  - split; [discriminate|]. intros [[r H]|[[r H]|[r H]]]; try discriminate. destruct r; discriminate.
  - rewrite !orb_true_iff, !Z.eqb_eq. split.
    + intros [[-> | ->]|H]; [left; eauto|right; left; eauto|]. right; right. exists (removelast (c :: n)).
      rewrite <- H. apply app_removelast_last. discriminate.
    + intros [[r H]|[[r H]|[r H]]]; [inversion H; auto|inversion H; auto|]. right. rewrite H. apply last_last.
Qed.
Lemma scope_spec : forall n st c, assumedScopeOf n st = c <->
  (is_local n -> c = z_scope st) /\ (~ is_local n -> c = None).
Proof.
  intros n st c. unfold assumedScopeOf. pose proof (local_spec n) as L. destruct (isLocalName n).
  - assert (A : is_local n) by (apply L; reflexivity). split; [intros <-|]; [tauto|]. intros [B _]. symmetry; auto.
  - assert (A : ~ is_local n) by (intro X; apply L in X; discriminate). split; [intros <-; tauto|]. intros [_ B]. symmetry; auto.
Qed.

Lemma type_eqb : forall a b, symtype_eqb a b = true <-> a = b.
Proof. intros a b. destruct a, b; cbn; split; congruence. Qed.
Lemma oref_eq : forall a b, oref_eqb a b = true <-> a = b.
Proof.
  intros [a|] [b|]; cbn; try (split; congruence). rewrite Nat.eqb_eq. split; congruence.
Qed.

Lemma put_same : forall A k (x y : A) l, nth_error l k = Some y -> nth_error (put k x l) k = Some x.
Proof.
  intros A k x y. induction k as [|k IH]; intros [|a l] H; try discriminate; [reflexivity|].
  cbn [put nth_error] in *. apply IH, H.
Qed.
Lemma put_other : forall A k j (x : A) l, j <> k -> nth_error (put k x l) j = nth_error l j.
Proof.
  intros A k; induction k as [|k IH]; intros j x [|a l] N; try reflexivity.
  - destruct j; [congruence|reflexivity].
  - destruct j; [reflexivity|]. cbn [put nth_error]. apply IH. congruence.
Qed.
Lemma put_length : forall A k (x : A) l, length (put k x l) = length l.
Proof. intros A k. induction k as [|k IH]; intros x [|a l]; cbn; auto. Qed.

Lemma the_sym_ok : forall r st s, the_sym r st = Ok s <-> at_ st r s.
Proof.
  intros r st s. unfold the_sym, at_. destruct (nth_error (z_syms st) r) as [[x|]|]; split; intro H; try discriminate; congruence.
Qed.

Lemma find_sound : forall n c l k r, find_sym n c l k = Some r ->
  exists j s, r = (k + j)%nat /\ nth_error l j = Some (Some s) /\ s_name s = n /\ s_scope s = c.
Proof.
  intros n c l; induction l as [|[s|] l IH]; intros k r H; try discriminate; cbn [find_sym] in H.
  - destruct (oref_eqb (s_scope s) c && beq (s_name s) n) eqn:E.
    + inversion H; subst. apply andb_true_iff in E as [E1 E2]. apply oref_eq in E1. apply beq_eq in E2.
      exists 0%nat, s. rewrite Nat.add_0_r. auto.
    + destruct (IH _ _ H) as (j & x & A & B & C). exists (S j), x. split; [lia|]. auto.
  - destruct (IH _ _ H) as (j & x & A & B & C). exists (S j), x. split; [lia|]. auto.
Qed.
Lemma find_complete : forall n c l k, find_sym n c l k = None ->
  forall j s, nth_error l j = Some (Some s) -> s_name s = n -> s_scope s = c -> False.
Proof.
  intros n c l; induction l as [|[x|] l IH]; intros k H [|j] s N E1 E2; try discriminate; cbn [find_sym nth_error] in *.
  - inversion N; subst. assert (B : beq (s_name s) (s_name s) = true) by (apply beq_eq; reflexivity).
    assert (O : oref_eqb (s_scope s) (s_scope s) = true) by (apply oref_eq; reflexivity).
    rewrite B, O in H. discriminate.
  - destruct (oref_eqb (s_scope x) c && beq (s_name x) n); [discriminate|]. eapply IH; eassumption.
  - eapply IH; eassumption.
Qed.

(** ** Evolution of the whole table *)

Lemma evolves_refl : forall s, evolves s s.
Proof. intro s. unfold evolves. tauto. Qed.
Lemma evolves_trans : forall a b c, evolves a b -> evolves b c -> evolves a c.
Proof.
  intros a b c (A1&A2&A3&A4&A5&A6) (B1&B2&B3&B4&B5&B6). unfold evolves.
  split; [congruence|]. split; [congruence|]. split; [congruence|]. split; [tauto|].
  split; [intro X; pose proof (A5 X) as Y; rewrite <- Y in X; rewrite (B5 X); exact Y|].
  intro S. destruct (A6 S) as (C1&C2&C3&C4&C5). rewrite <- C1 in S. destruct (B6 S) as (D1&D2&D3&D4&D5).
  repeat split; congruence.
Qed.

Definition evo (st st' : sstate) : Prop :=
  symbols_fine st' /\ (length (z_syms st) <= length (z_syms st'))%nat /\
  forall r s, at_ st r s -> exists s', at_ st' r s' /\ evolves s s'.
Lemma evo_refl : forall st, symbols_fine st -> evo st st.
Proof. intros st F. split; [exact F|]. split; [lia|]. intros r s A. exists s. split; [exact A|apply evolves_refl]. Qed.
Lemma evo_trans : forall a b c, evo a b -> evo b c -> evo a c.
Proof.
  intros a b c (A1 & A2 & A3) (B1 & B2 & B3). split; [exact B1|]. split; [lia|].
  intros r s H. destruct (A3 r s H) as (s1 & H1 & E1). destruct (B3 r s1 H1) as (s2 & H2 & E2).
  exists s2. split; [exact H2|]. eapply evolves_trans; eassumption.
Qed.
Lemma fine_same : forall st st', symbols_fine st -> z_syms st' = z_syms st -> z_rs st' = z_rs st -> symbols_fine st'.
Proof.
  intros st st' (A & B & C) E R. unfold symbols_fine, at_ in *. rewrite E, R. auto.
Qed.
Lemma evo_same : forall st st', symbols_fine st -> z_syms st' = z_syms st -> z_rs st' = z_rs st -> evo st st'.
Proof.
  intros st st' F E R. split; [eapply fine_same; eassumption|]. rewrite E. split; [lia|].
  intros r s A. exists s. unfold at_ in *. rewrite E. split; [exact A|apply evolves_refl].
Qed.

Lemma evo_put : forall st r s s', symbols_fine st -> at_ st r s -> evolves s s' -> flags_fit s' -> evo st (put_sym r s' st).
Proof.
  intros st r s s' (U & F & R) A E FF.
  assert (T : forall q x, at_ (put_sym r s' st) q x -> exists y, at_ st q y /\ evolves y x /\ (q <> r -> x = y) /\ flags_fit x).
  { intros q x X. unfold at_, put_sym in *. cbn in X. destruct (Nat.eq_dec q r) as [->|N].
    - rewrite (put_same _ _ _ _ _ A) in X. inversion X; subst x. exists s. split; [exact A|]. split; [exact E|]. split; [congruence|exact FF].
    - rewrite put_other in X by exact N. exists x. split; [exact X|]. split; [apply evolves_refl|]. split; [reflexivity|]. eapply F; exact X. }
  split.
  - split; [|split].
    + intros r1 r2 s1 s2 A1 A2 N S. destruct (T _ _ A1) as (y1 & Y1 & (E1&E1'&_) & _), (T _ _ A2) as (y2 & Y2 & (E2&E2'&_) & _).
      eapply U; try eassumption; congruence.
    + intros q x X. destruct (T q x X) as (y & _ & _ & _ & Y). exact Y.
    + intros q Q. cbn in Q. destruct (R q Q) as [L H]. cbn. rewrite put_length. split; [exact L|].
      intros x X. destruct (T q x X) as (y & Y & (_&_&_&_&Z1&_) & _). rewrite Z1; [|left]; apply H, Y.
  - cbn. rewrite put_length. split; [lia|]. intros q x X. unfold at_, put_sym in *. cbn.
    destruct (Nat.eq_dec q r) as [->|N].
    + exists s'. rewrite A in X. inversion X; subst x. rewrite (put_same _ _ _ _ _ A). auto.
    + exists x. rewrite put_other by exact N. split; [exact X|apply evolves_refl].
Qed.

Lemma evo_create : forall st n c, symbols_fine st -> getSymbol n c st = None -> evo st (snd (createSymbol n c st)).
Proof.
  intros st n c (U & F & R) G. unfold getSymbol in G. pose proof (find_complete _ _ _ _ G) as GC.
  assert (T : forall q x, at_ (snd (createSymbol n c st)) q x ->
    (at_ st q x \/ (q = length (z_syms st) /\ x = new_symbol n c st))).
  { intros q x X. unfold at_ in *. cbn in X. destruct (Nat.lt_ge_cases q (length (z_syms st))) as [L|L].
    - rewrite nth_error_app1 in X by exact L. left; exact X.
    - rewrite nth_error_app2 in X by exact L. destruct (q - length (z_syms st))%nat as [|k] eqn:K; [|destruct k; discriminate].
      inversion X. right. split; [lia|reflexivity]. }
  split.
  - split; [|split].
    + intros r1 r2 s1 s2 A1 A2 N S. destruct (T _ _ A1) as [B1|[B1 C1]], (T _ _ A2) as [B2|[B2 C2]].
      * eapply U; eassumption.
      * subst s2. exfalso. eapply GC; [exact B1|exact N|exact S].
      * subst s1. exfalso. eapply GC; [exact B2|symmetry; exact N|symmetry; exact S].
      * congruence.
    + intros q x X. destruct (T q x X) as [B|[_ ->]]; [eapply F; exact B|]. split; reflexivity.
    + intros q Q. cbn in Q. destruct (R q Q) as [L H]. cbn. rewrite app_length. split; [lia|].
      intros x X. destruct (T q x X) as [B|[B _]]; [apply H, B|lia].
  - cbn. rewrite app_length. split; [lia|]. intros q x X. exists x. unfold at_ in *. cbn.
    rewrite nth_error_app1 by (apply nth_error_Some; congruence). split; [exact X|apply evolves_refl].
Qed.

Lemma nth_error_Some_lt : forall A (l : list A) k x, nth_error l k = Some x -> (k < length l)%nat.
Proof. intros A l k x H. apply nth_error_Some. congruence. Qed.
(** The symbol a name means, and the state in which it exists. *)
Lemma foc_in : forall n c st r st1, symbols_fine st -> findOrCreateSymbolInScope c n st = (r, st1) ->
  evo st st1 /\ z_scope st1 = z_scope st /\ z_rs st1 = z_rs st /\ z_section st1 = z_section st /\
  z_errors st1 = z_errors st /\
  exists s, at_ st1 r s /\ s_name s = n /\ s_scope s = c /\
    (at_ st r s /\ st1 = st \/
     (forall q x, at_ st q x -> s_name x = n -> s_scope x = c -> False) /\ s = new_symbol n c st /\ s_type s = SymUndefined).
Proof.
  intros n c st r st1 F H. unfold findOrCreateSymbolInScope in H. destruct (getSymbol n c st) as [q|] eqn:G.
  - inversion H; subst. split; [apply evo_refl; exact F|]. repeat (split; [reflexivity|]).
    unfold getSymbol in G. apply find_sound in G as (j & s & E & N & A & B). cbn in E. subst j.
    exists s. split; [exact N|]. split; [exact A|]. split; [exact B|]. left. auto.
  - pose proof (evo_create st n c F G) as E. rewrite H in E. cbn in E. split; [exact E|].
    unfold createSymbol in H. inversion H; subst. repeat (split; [reflexivity|]).
    exists (new_symbol n c st). split.
    { unfold at_. cbn. rewrite nth_error_app2, Nat.sub_diag by lia. reflexivity. }
    split; [reflexivity|]. split; [reflexivity|]. right. split; [|auto].
    intros q x. unfold getSymbol in G. apply (find_complete _ _ _ _ G).
Qed.
Lemma foc : forall n st r st1, symbols_fine st -> findOrCreateSymbol n st = (r, st1) ->
  evo st st1 /\ z_scope st1 = z_scope st /\ z_rs st1 = z_rs st /\ z_section st1 = z_section st /\
  z_errors st1 = z_errors st /\
  exists s, seen st1 n r s /\
    (at_ st r s /\ st1 = st \/ (forall q x, ~ seen st n q x) /\ s = new_symbol n (assumedScopeOf n st) st /\ s_type s = SymUndefined).
Proof.
  intros n st r st1 F H. unfold findOrCreateSymbol in H. destruct (foc_in _ _ _ _ _ F H) as (A & B & C & D & E & s & S1 & S2 & S3 & S4).
  split; [exact A|]. split; [exact B|]. split; [exact C|]. split; [exact D|]. split; [exact E|].
  exists s. symmetry in S3. apply scope_spec in S3 as [L1 L2]. split.
  - split; [exact S1|]. split; [exact S2|]. rewrite B. auto.
  - destruct S4 as [S4|(S4 & S5 & S6)]; [left; exact S4|right]. split; [|auto].
    intros q x (X1 & X2 & X3 & X4). apply (S4 q x X1 X2). symmetry. apply scope_spec. auto.
Qed.

Lemma fit_set_type : forall t v k x s, t <> SymGroup -> flags_fit (set_type t v k x s).
Proof. intros t v k x s N. split; destruct t; try reflexivity; congruence. Qed.
Lemma fit_export : forall s, flags_fit s -> flags_fit (set_export s).
Proof. intros s F. exact F. Qed.
Lemma fit_value : forall v s, flags_fit s -> flags_fit (set_value v s).
Proof. intros v s F. exact F. Qed.
Lemma evolves_export : forall s, evolves s (set_export s).
Proof. intro s. unfold evolves. cbn. tauto. Qed.
Lemma evolves_value : forall v s, settled (s_type s) = false -> evolves s (set_value v s).
Proof. intros v s H. unfold evolves. cbn. rewrite H. repeat split; auto; discriminate. Qed.
Lemma evolves_type : forall t v k x s, settled (s_type s) = false -> (s_type s = SymSet \/ s_type s = SymStructure -> t = s_type s) -> evolves s (set_type t v k x s).
Proof.
  intros t v k x s H T. unfold evolves. cbn. rewrite H. repeat split; auto; try discriminate.
  unfold s_export. cbn. intros ->. reflexivity.
Qed.
(** When a symbol is modifiable and of one of the types. *)
Lemma mod_unsettled : forall s t, flags_fit s -> s_modifiable s && canBeType s t = true -> t <> SymGroup ->
  settled (s_type s) = false /\ (s_type s = SymSet \/ s_type s = SymStructure -> t = s_type s).
Proof.
  intros s t [F _] H N. apply andb_true_iff in H as [H1 H2]. rewrite F in H1. unfold canBeType in H2.
  apply orb_true_iff in H2. rewrite !type_eqb in H2.
  destruct H2 as [H2|H2]; rewrite H2 in *; [|split; [reflexivity|intros [X|X]; discriminate]].
  destruct t; try discriminate; try congruence; split; try reflexivity; auto.
Qed.

Lemma of_type_evo : forall n t f st o st1, symbols_fine st -> t <> SymGroup ->
  (forall s, evolves s (f s) /\ flags_fit (f s) \/ settled (s_type s) = true \/ ((s_type s = SymSet \/ s_type s = SymStructure) /\ t <> s_type s)) ->
  (forall s, s_type (f s) = t) ->
  createSymbolOfType n t f st = Ok (o, st1) ->
  evo st st1 /\ z_rs st1 = z_rs st /\ z_scope st1 = z_scope st /\ (forall r, o = Some r -> exists s, at_ st1 r s /\ s_type s = t).
Proof.
  intros n t f st o st1 F T E TT H. unfold createSymbolOfType in H.
  destruct (findOrCreateSymbol n st) as [r st2] eqn:Q. destruct (foc _ _ _ _ F Q) as (A & B & C & D & E2 & s & S1 & S2).
  destruct (the_sym r st2) as [s0| |] eqn:TS; try discriminate. cbn [bind] in H. apply the_sym_ok in TS.
  destruct (s_modifiable s0 && canBeType s0 t) eqn:M; inversion H; subst.
  - assert (FF : flags_fit s0) by (eapply A; exact TS). destruct (mod_unsettled _ _ FF M T) as [N1 N2].
    destruct (E s0) as [[E1 E3]|[E1|[E1 E3]]].
    + split; [eapply evo_trans; [exact A|]; eapply evo_put; try eassumption; apply A|].
      split; [exact C|]. split; [exact B|]. intros q Q1. inversion Q1; subst. exists (f s0). split; [|apply TT].
      unfold at_, put_sym. cbn. eapply put_same. exact TS.
    + congruence.
    + exfalso. apply E3, N2, E1.
  - split; [eapply evo_trans; [exact A|]; apply evo_same; try reflexivity; apply A|].
    split; [exact C|]. split; [exact B|]. discriminate.
Qed.

Lemma counter_dec : forall t, {t = SymSet \/ t = SymStructure} + {~ (t = SymSet \/ t = SymStructure)}.
Proof. intros []; try (right; intros [X|X]; discriminate); left; auto. Qed.
Lemma type_dec : forall a b : symtype, {a = b} + {a <> b}.
Proof. decide equality. Qed.
Lemma settype_cases : forall t v x (s : ssym), t <> SymGroup ->
  evolves s (set_type t (v s) (s_section s) (x s) s) /\ flags_fit (set_type t (v s) (s_section s) (x s) s) \/
  settled (s_type s) = true \/ ((s_type s = SymSet \/ s_type s = SymStructure) /\ t <> s_type s).
Proof.
  intros t v x s N. destruct (settled (s_type s)) eqn:S; [auto|].
  destruct (counter_dec (s_type s)) as [C|C].
  - destruct (type_dec t (s_type s)) as [E|E]; [|auto].
    left. split; [apply evolves_type; auto|apply fit_set_type; exact N].
  - left. split; [|apply fit_set_type; exact N]. apply evolves_type; [exact S|]. tauto.
Qed.

Definition fine_step (st : sstate) (r : res sstate) : Prop := forall st', r = Ok st' -> symbols_fine st -> evo st st'.
Lemma fine_bind : forall st f g, fine_step st f -> (forall st1, f = Ok st1 -> fine_step st1 (g st1)) ->
  fine_step st (let! st1 := f in g st1).
Proof.
  intros st f g A B st' H F. destruct f as [st1| |]; try discriminate. cbn [bind] in H.
  pose proof (A st1 eq_refl F) as E1. pose proof (B st1 eq_refl st' H (proj1 E1)) as E2. eapply evo_trans; eassumption.
Qed.
Lemma scope_evo : forall n r st, symbols_fine st -> evo st (begin_scope n r st).
Proof. intros n r st F. unfold begin_scope. destruct (isLocalName n); [apply evo_refl; exact F|]. apply evo_same; auto. Qed.
Lemma scope_syms : forall n r st, z_syms (begin_scope n r st) = z_syms st /\ z_rs (begin_scope n r st) = z_rs st.
Proof. intros. unfold begin_scope. destruct (isLocalName n); auto. Qed.

Lemma integer_evo : forall t n v st o st1, t <> SymGroup -> symbols_fine st -> createInteger t n v st = Ok (o, st1) ->
  evo st st1 /\ z_rs st1 = z_rs st /\ (forall r, o = Some r -> exists s, at_ st1 r s /\ s_type s = t).
Proof.
  intros t n v st o st1 N F H. unfold createInteger in H.
  destruct (createSymbolOfType _ _ _ _) as [[[r|] st2]| |] eqn:C; try discriminate; cbn [bind] in H; inversion H; subst;
    apply of_type_evo in C; try assumption; try (intro; reflexivity); try (intro s; exact (settype_cases t (fun _ => v) s_text s N)).
  - destruct C as (A & B & _ & D). pose proof (scope_evo n r st2 (proj1 A)) as E. split; [eapply evo_trans; eassumption|].
    destruct (scope_syms n r st2) as [X Y]. split; [congruence|]. intros q Q. destruct (D q Q) as (s & S1 & S2).
    exists s. unfold at_ in *. rewrite X. auto.
  - destruct C as (A & B & _ & D). split; [exact A|]. split; [exact B|exact D].
Qed.

Lemma foc_fine : forall n st (g : nat -> ssym -> sstate -> res sstate),
  (forall r s st1, at_ st1 r s -> symbols_fine st1 -> flags_fit s -> fine_step st1 (g r s st1)) ->
  fine_step st (let (r, st1) := findOrCreateSymbol n st in let! s := the_sym r st1 in g r s st1).
Proof.
  intros n st g G st' H F. destruct (findOrCreateSymbol n st) as [r st1] eqn:Q.
  destruct (foc _ _ _ _ F Q) as (A & _). destruct (the_sym r st1) as [s| |] eqn:T; try discriminate. cbn [bind] in H.
  apply the_sym_ok in T. eapply evo_trans; [exact A|]. eapply G; try eassumption; try apply A. eapply A; exact T.
Qed.
Lemma fine_err : forall n st, fine_step st (Ok (sym_Error n st)).
Proof. intros n st st' H F. inversion H; subst. apply evo_same; auto. Qed.
Lemma fine_bad : forall st, fine_step st UB.
Proof. intros st st' H. discriminate. Qed.
Lemma fine_put : forall st r s s', at_ st r s -> evolves s s' -> flags_fit s' -> fine_step st (Ok (put_sym r s' st)).
Proof. intros st r s s' A E F st' H FF. inversion H; subst. eapply evo_put; eassumption. Qed.
Lemma fine_put_scope : forall st n r s s', at_ st r s -> evolves s s' -> flags_fit s' ->
  fine_step st (Ok (begin_scope n r (put_sym r s' st))).
Proof.
  intros st n r s s' A E F st' H FF. inversion H; subst. pose proof (evo_put st r s s' FF A E F) as E1.
  eapply evo_trans; [exact E1|]. apply scope_evo, E1.
Qed.
Lemma fine_file : forall st s n, fine_step st (match s_file s with None => UB | Some _ => Ok (sym_Error n st) end).
Proof. intros st s n. destruct (s_file s); [apply fine_err|apply fine_bad]. Qed.

Lemma rs_evo : forall st r st1, symbols_fine st -> getRsCounter st = Ok (r, st1) ->
  evo st st1 /\ (forall s, at_ st1 r s -> s_type s = SymSet).
Proof.
  intros st r st1 F H. unfold getRsCounter in H. destruct (z_rs st) as [q|] eqn:R.
  - inversion H; subst. split; [apply evo_refl; exact F|]. intros s S. apply F in R. apply R, S.
  - destruct (sym_CreateSet rs_name 0 st) as [[[q|] st2]| |] eqn:C; try discriminate. cbn [bind] in H. inversion H; subst.
    apply integer_evo in C; [|discriminate|exact F]. destruct C as (A & B & D). destruct (D r eq_refl) as (s & S1 & S2).
    assert (FF : symbols_fine (with_rs (Some r) st2)).
    { destruct A as ((U & V & W) & _). split; [exact U|]. split; [exact V|]. cbn. intros k K. inversion K; subst k.
      split; [apply nth_error_Some; unfold at_ in S1; congruence|]. intros x X. change (at_ st2 r x) in X.
      unfold at_ in *. congruence. }
    split.
    + split; [exact FF|]. destruct A as (_ & L & A). split; [exact L|exact A].
    + intros x X. change (at_ st2 r x) in X. unfold at_ in *. congruence.
Qed.
Lemma inc_evo : forall size st v st1, symbols_fine st -> parse_IncrementRs size st = Ok (v, st1) -> evo st st1.
Proof.
  intros size st v st1 F H. unfold parse_IncrementRs in H. destruct (getRsCounter st) as [[r st2]| |] eqn:R; try discriminate.
  cbn [bind] in H. destruct (rs_evo _ _ _ F R) as [A T]. destruct (the_sym r st2) as [s| |] eqn:Q; try discriminate. cbn [bind] in H.
  apply the_sym_ok in Q. destruct (c_add (s_value s) size) as [x| |]; try discriminate. cbn [bind] in H. inversion H; subst.
  eapply evo_trans; [exact A|]. eapply evo_put; [apply A|exact Q| |].
  - apply evolves_value. rewrite (T s Q). reflexivity.
  - apply fit_value. eapply A. exact Q.
Qed.
Lemma integer_scope : forall t n v st o st1, createInteger t n v st = Ok (o, st1) ->
  z_scope st1 = z_scope st \/ z_scope st1 = o /\ o <> None /\ isLocalName n = false.
Proof.
  intros t n v st o st1 H. unfold createInteger, createSymbolOfType in H. unfold findOrCreateSymbol, findOrCreateSymbolInScope in H.
  destruct (getSymbol _ _ st) as [r|].
  - destruct (the_sym r st) as [s| |]; try discriminate. cbn [bind] in H.
    destruct (_ && _); inversion H; subst; [|left; reflexivity]. unfold begin_scope. destruct (isLocalName n); [left; reflexivity|right].
    repeat split. discriminate.
  - destruct (createSymbol _ _ st) as [r st2] eqn:C. unfold createSymbol in C. inversion C; subst.
    destruct (the_sym _ _) as [s| |]; try discriminate. cbn [bind] in H.
    destruct (_ && _); inversion H; subst; [|left; reflexivity]. unfold begin_scope. destruct (isLocalName n); [left; reflexivity|right].
    repeat split. discriminate.
Qed.
Lemma inc_scope : forall size st v st1, symbols_fine st -> parse_IncrementRs size st = Ok (v, st1) ->
  z_scope st1 = z_scope st \/ exists r s, z_scope st1 = Some r /\ at_ st1 r s /\ s_type s = SymSet.
Proof.
  intros size st v st1 F H. unfold parse_IncrementRs in H. destruct (getRsCounter st) as [[r st2]| |] eqn:R; try discriminate.
  cbn [bind] in H. destruct (rs_evo _ _ _ F R) as [A T]. destruct (the_sym r st2) as [s| |] eqn:Q; try discriminate. cbn [bind] in H.
  apply the_sym_ok in Q. destruct (c_add (s_value s) size) as [x| |]; try discriminate. cbn [bind] in H. inversion H; subst.
  unfold getRsCounter in R. destruct (z_rs st).
  - inversion R; subst. left. reflexivity.
  - destruct (sym_CreateSet rs_name 0 st) as [[[q|] st3]| |] eqn:C; try discriminate. cbn [bind] in R. inversion R; subst.
    destruct (integer_scope _ _ _ _ _ _ C) as [E|[E _]]; [left; exact E|right].
    exists r, (set_value x s). split; [exact E|]. split; [|apply (T s Q)].
    unfold at_, put_sym. cbn. eapply put_same. exact Q.
Qed.
Lemma dot_local : forall n, isDotLocalName n = true -> isLocalName n = true.
Proof. intros [|c n] H; [discriminate|]. cbn in *. rewrite H. destruct (c =? 36); reflexivity. Qed.
Lemma setrs_fine : forall v st, fine_step st (parse_SetRs v st).
Proof.
  intros v st st' H F. unfold parse_SetRs in H. destruct (getRsCounter st) as [[r st2]| |] eqn:R; try discriminate.
  cbn [bind] in H. destruct (rs_evo _ _ _ F R) as [A T]. destruct (the_sym r st2) as [s| |] eqn:Q; try discriminate. cbn [bind] in H.
  apply the_sym_ok in Q. inversion H; subst. eapply evo_trans; [exact A|]. eapply evo_put; [apply A|exact Q| |].
  - apply evolves_value. rewrite (T s Q). reflexivity.
  - apply fit_value. eapply A. exact Q.
Qed.

Lemma step_fine : forall o st, (forall n, o <> OPurge n) -> fine_step st (sstep o st).
Proof.
  intros o st NP. destruct o; cbn [sstep].
  - (* label *) unfold sym_CreateLabel. apply foc_fine. intros r s st1 A F FF.
    destruct (s_modifiable s && _) eqn:M; [|apply fine_err].
    assert (US : settled (s_type s) = false /\ ~ (s_type s = SymSet \/ s_type s = SymStructure)).
    { destruct FF as [FF _]. apply andb_true_iff in M as [M1 M2]. rewrite FF in M1. unfold canBeType in M2.
      rewrite !orb_true_iff, !type_eqb in M2. destruct M2 as [[M2|M2]|M2]; rewrite M2 in *; try discriminate; split; try reflexivity; intros [X|X]; discriminate. }
    destruct US as [US NS].
    set (s1 := if symtype_eqb (s_type s) SymGlobal then set_export s else s).
    assert (E1 : evolves s s1 /\ flags_fit s1 /\ s_type s1 = s_type s).
    { unfold s1. destruct (symtype_eqb _ _); split; try apply evolves_export; try apply evolves_refl; auto. }
    destruct E1 as (E1 & E2 & E3). destruct (z_section st1) as [[k a]|].
    + eapply fine_put_scope; [exact A| |].
      * eapply evolves_trans; [exact E1|]. match goal with |- context [if ?b then _ else _] => destruct b end;
          apply evolves_type; rewrite E3; auto; tauto.
      * match goal with |- context [if ?b then _ else _] => destruct b end; apply fit_set_type; discriminate.
    + intros st' H _. inversion H; subst. eapply evo_trans; [eapply evo_put; [exact F|exact A|exact E1|exact E2]|].
      apply evo_same; try reflexivity. eapply evo_put; [exact F|exact A|exact E1|exact E2].
  - (* equ *) unfold sym_CreateEqu. apply foc_fine. intros r s st1 A F FF.
    destruct (s_modifiable s && _) eqn:M; [|apply fine_file].
    assert (US : settled (s_type s) = false /\ ~ (s_type s = SymSet \/ s_type s = SymStructure)).
    { destruct FF as [FF _]. apply andb_true_iff in M as [M1 M2]. rewrite FF in M1. unfold canBeType in M2.
      rewrite !orb_true_iff, !type_eqb in M2. destruct M2 as [[M2|M2]|M2]; rewrite M2 in *; try discriminate; split; try reflexivity; intros [X|X]; discriminate. }
    destruct US as [US NS].
    set (s1 := if symtype_eqb (s_type s) SymGlobal then set_export s else s).
    assert (E1 : evolves s s1 /\ flags_fit s1 /\ s_type s1 = s_type s).
    { unfold s1. destruct (symtype_eqb _ _); split; try apply evolves_export; try apply evolves_refl; auto. }
    destruct E1 as (E1 & E2 & E3). eapply fine_put_scope; [exact A| |apply fit_set_type; discriminate].
    eapply evolves_trans; [exact E1|]. apply evolves_type; rewrite E3; auto; tauto.
  - (* set *) intros st' H F. destruct (sym_CreateSet name v st) as [[q st1]| |] eqn:C; try discriminate. inversion H; subst.
    eapply integer_evo in C; [|discriminate|exact F]. apply C.
  - (* equs *) intros st' H F. unfold sym_CreateEqus in H. destruct (createSymbolOfType _ _ _ _) as [[q st1]| |] eqn:C; try discriminate.
    inversion H; subst. eapply of_type_evo in C; [apply C|exact F|discriminate| |reflexivity].
    intro s. apply (settype_cases _ s_value (fun _ => text)). discriminate.
  - (* macro *) intros st' H F. unfold sym_CreateMacro in H. destruct (createSymbolOfType _ _ _ _) as [[q st1]| |] eqn:C; try discriminate.
    inversion H; subst. eapply of_type_evo in C; [apply C|exact F|discriminate| |reflexivity].
    intro s. apply (settype_cases _ s_value (fun _ => text)). discriminate.
  - (* group *) intros st' H F. unfold sym_CreateGroup in H. destruct (getSymbol name None st) as [r|] eqn:G.
    + destruct (the_sym r st) as [s| |]; try discriminate. cbn [bind] in H.
      destruct (_ && _); inversion H; subst; [apply evo_refl; exact F|apply evo_same; auto].
    + pose proof (evo_create st name None F G) as E. destruct (createSymbol name None st) as [r st1] eqn:C. cbn in E.
      inversion H; subst. eapply evo_trans; [exact E|].
      unfold createSymbol in C. inversion C; subst. eapply evo_put; [apply E| | |].
      * unfold at_. cbn. rewrite nth_error_app2, Nat.sub_diag by lia. reflexivity.
      * unfold evolves. cbn. do 4 (split; [auto|]). split; [intros [X|X]; discriminate|]. discriminate.
      * split; reflexivity.
  - (* export *) unfold sym_Export. apply foc_fine. intros r s st1 A F FF. destruct (s_exportable s); [|apply fine_file].
    eapply fine_put; [exact A|apply evolves_export|apply fit_export; exact FF].
  - (* import *) unfold sym_Import. apply foc_fine. intros r s st1 A F FF. destruct (symtype_eqb _ _) eqn:T; [|apply fine_err].
    apply type_eqb in T. eapply fine_put; [exact A| |apply fit_set_type; discriminate].
    apply evolves_type; rewrite T; [reflexivity|intros [X|X]; discriminate].
  - (* global *) unfold sym_Global. apply foc_fine. intros r s st1 A F FF. destruct (_ || _); [apply fine_file|].
    destruct (symtype_eqb (s_type s) SymUndefined) eqn:T.
    + apply type_eqb in T. eapply fine_put; [exact A| |apply fit_set_type; discriminate].
      apply evolves_type; rewrite T; [reflexivity|intros [X|X]; discriminate].
    + destruct (s_exportable s); [|apply fine_file].
      eapply fine_put; [exact A|apply evolves_export|apply fit_export; exact FF].
  - exfalso. eapply NP; reflexivity.
  - (* use *) intros st' H F. inversion H; subst. destruct (findOrCreateSymbol name st) as [r st1] eqn:Q.
    apply (foc _ _ _ _ F Q).
  - intros st' H F. inversion H; subst. destruct (findOrCreateSymbolInScope (Some scope) name st) as [r st1] eqn:Q.
    apply (foc_in _ _ _ _ _ F Q).
  - (* rs *) unfold createRsSymbol. intros st' H F. destruct (c_mul multiplier n) as [value| |]; try discriminate. cbn [bind] in H.
    destruct (isDotLocalName name) eqn:DL.
    + destruct (z_scope st) as [c|] eqn:SC0; [|inversion H; subst; apply evo_same; auto].
      destruct (the_sym c st) as [s| |] eqn:TC; try discriminate. cbn [bind] in H. apply the_sym_ok in TC.
      destruct (symtype_eqb (s_type s) SymStructure) eqn:T; [|inversion H; subst; apply evo_same; auto].
      destruct (parse_IncrementRs value st) as [[v st1]| |] eqn:I; try discriminate. cbn [bind] in H.
      pose proof (inc_evo _ _ _ _ F I) as E1.
      destruct (sym_CreateSet name v st1) as [[q st2]| |] eqn:C; try discriminate. cbn [bind] in H.
      pose proof (integer_scope _ _ _ _ _ _ C) as CS.
      apply integer_evo in C; [|discriminate|apply E1]. destruct C as (E2 & _).
      destruct (z_scope st2) as [c2|] eqn:SC; try discriminate. destruct (the_sym c2 st2) as [s2| |] eqn:T2; try discriminate. cbn [bind] in H.
      apply the_sym_ok in T2. destruct (c_add _ _) as [v2| |] eqn:CA; try discriminate. cbn [bind] in H. inversion H; subst.
      eapply evo_trans; [exact E1|]. eapply evo_trans; [exact E2|].
      assert (US : s_type s2 = SymSet \/ s_type s2 = SymStructure).
      { destruct CS as [CS|(_ & _ & CS)]; [|rewrite (dot_local _ DL) in CS; discriminate].
        assert (P : forall s1, at_ st1 c2 s1 -> s_type s1 = SymSet \/ s_type s1 = SymStructure -> s_type s2 = SymSet \/ s_type s2 = SymStructure).
        { intros s1 S1 S2. destruct E2 as (_ & _ & E2). destruct (E2 _ _ S1) as (y & Y1 & (_&_&_&_&Y2&_)).
          assert (y = s2) by (unfold at_ in *; congruence). subst y. rewrite (Y2 S2). exact S2. }
        apply type_eqb in T. destruct (inc_scope _ _ _ _ F I) as [X|(r & x & X1 & X2 & X3)].
        - assert (c2 = c) by congruence. subst c2. destruct E1 as (_ & _ & E1). destruct (E1 _ _ TC) as (y & Y1 & (_&_&_&_&Y2&_)).
          apply (P y Y1). rewrite Y2; auto.
        - assert (c2 = r) by congruence. subst c2. apply (P x X2). auto. }
      eapply evo_put; [apply E2|exact T2| |apply fit_value; eapply E2; exact T2].
      apply evolves_value. destruct US as [->| ->]; reflexivity.
    + destruct (parse_IncrementRs value st) as [[v st1]| |] eqn:I; try discriminate. cbn [bind] in H.
      pose proof (inc_evo _ _ _ _ F I) as E1.
      destruct (sym_CreateSet name v st1) as [[q st2]| |] eqn:C; try discriminate. cbn [bind] in H. inversion H; subst.
      apply integer_evo in C; [|discriminate|apply E1]. eapply evo_trans; [exact E1|apply C].
  - (* rs label *) unfold createRsSetSymbol. apply fine_bind; [apply setrs_fine|]. intros st1 _ st' H F.
    destruct (isDotLocalName name).
    + destruct (sym_CreateSet name v st1) as [[q st2]| |] eqn:C; try discriminate. cbn [bind] in H. inversion H; subst.
      apply integer_evo in C; [apply C|discriminate|exact F].
    + destruct (sym_CreateStructure name v st1) as [[q st2]| |] eqn:C; try discriminate. cbn [bind] in H. inversion H; subst.
      apply integer_evo in C; [apply C|discriminate|exact F].
  - apply setrs_fine.
  - intros st' H F. destruct (c_mul n multiplier) as [size| |]; try discriminate. cbn [bind] in H.
    destruct (parse_IncrementRs size st) as [[v st1]| |] eqn:I; try discriminate. cbn [bind] in H. inversion H; subst.
    eapply inc_evo; eassumption.
  - unfold sym_EndStructure. intros st' H F. destruct (z_scope st) as [c|]; [|inversion H; subst; apply evo_same; auto].
    destruct (the_sym c st) as [s| |] eqn:T; try discriminate. cbn [bind] in H. apply the_sym_ok in T.
    destruct (symtype_eqb (s_type s) SymStructure) eqn:TS; [|inversion H; subst; apply evo_same; auto].
    apply type_eqb in TS.
    destruct (match z_rs st with None => _ | Some q => _ end) as [v| |]; try discriminate. cbn [bind] in H. inversion H; subst.
    assert (E : evo st (put_sym c (set_value v s) st)).
    { eapply evo_put; [exact F|exact T|apply evolves_value; rewrite TS; reflexivity|apply fit_value; eapply F; exact T]. }
    eapply evo_trans; [exact E|]. apply evo_same; try reflexivity. apply E.
  - intros st' H F. inversion H; subst. apply evo_same; auto.
  - intros st' H F. inversion H; subst. apply evo_same; auto.
  - intros st' H F. inversion H; subst. apply evo_same; auto.
Qed.

(** ** Definitions, one by one *)

Lemma meaning_foc : forall n st r st1, symbols_fine st -> findOrCreateSymbol n st = (r, st1) ->
  exists s, meaning st n r s /\ at_ st1 r s /\ s_name s = n /\
    s_scope s = assumedScopeOf n st /\ flags_fit s /\
    symbols_fine st1 /\ z_rs st1 = z_rs st /\ z_scope st1 = z_scope st /\ z_section st1 = z_section st /\ z_errors st1 = z_errors st /\
    (forall q x, q <> r -> at_ st1 q x <-> at_ st q x) /\
    (forall x, at_ st r x -> x = s) /\ (at_ st r s \/ s_type s = SymUndefined).
Proof.
  intros n st r st1 F H. destruct (foc _ _ _ _ F H) as (A & B & C & D & E & s & S1 & S2).
  exists s. assert (L : (forall q x, ~ seen st n q x) -> r = length (z_syms st)).
  { intro S3. unfold findOrCreateSymbol, findOrCreateSymbolInScope in H. destruct (getSymbol _ _ _) eqn:G.
    - exfalso. inversion H; subst. eapply S3; exact S1.
    - inversion H. reflexivity. }
  assert (M : meaning st n r s).
  { destruct S2 as [[S2 ->]|(S2 & S3 & S4)]; [left; exact S1|right]. split; [exact S2|]. split; [apply L, S2|].
    subst s. pose proof (proj1 (scope_spec n st (assumedScopeOf n st)) eq_refl) as [L1 L2].
    unfold fresh_symbol. cbn. auto 10. }
  split; [exact M|]. destruct S1 as (S1 & N & L1 & L2). split; [exact S1|]. split; [exact N|].
  split; [symmetry; apply scope_spec; rewrite B in L1; auto|]. split; [eapply A; exact S1|].
  split; [apply A|]. split; [exact C|]. split; [exact B|]. split; [exact D|]. split; [exact E|].
  destruct S2 as [[S2 ->]|(S2 & S3 & S4)].
  - split; [tauto|]. split; [|auto]. intros x X. unfold at_ in *. congruence.
  - pose proof (L S2) as LR. split.
    + intros q x Q. unfold findOrCreateSymbol, findOrCreateSymbolInScope in H. destruct (getSymbol _ _ _) eqn:G.
      * inversion H; subst. tauto.
      * inversion H; subst. unfold at_. cbn. destruct (Nat.lt_ge_cases q (length (z_syms st))) as [K|K].
        -- rewrite nth_error_app1 by exact K. tauto.
        -- rewrite nth_error_app2 by exact K. rewrite (proj2 (nth_error_None (z_syms st) q) K).
           destruct (q - length (z_syms st))%nat as [|k] eqn:J; [lia|]. destruct k; split; discriminate.
    + split; [|auto]. intros x X. unfold at_ in X. apply nth_error_Some_lt in X. lia.
Qed.

(** The result of an accepted definition. *)
Definition carried (o : sop) (n : list Z) (st : sstate) (r : nat) (s : ssym) : Prop :=
  exists st' s', sstep o st = Ok st' /\ z_errors st' = z_errors st /\ at_ st' r s' /\ becomes o (z_section st) s s' /\
    (forall q x, q <> r -> at_ st' q x <-> at_ st q x) /\
    z_scope st' = (if begins_scope o && negb (isLocalName n) then Some r else z_scope st) /\ z_rs st' = z_rs st /\ z_section st' = z_section st.
Definition refused (o : sop) (n : list Z) (st : sstate) (r : nat) (s : ssym) : Prop :=
  exists st' s' e, sstep o st = Ok st' /\ z_errors st' = z_errors st ++ [e] /\ at_ st' r s' /\
    (s' = s \/ is_label o = true /\ s_type s = SymGlobal /\ s_type s' = SymGlobal /\ evolves s s') /\
    (forall q x, q <> r -> at_ st' q x <-> at_ st q x) /\ z_scope st' = z_scope st.

Lemma put_at : forall st r s s', at_ st r s -> at_ (put_sym r s' st) r s'.
Proof. intros st r s s' A. unfold at_, put_sym. cbn. eapply put_same. exact A. Qed.
Lemma put_at_other : forall st r s' q x, q <> r -> at_ (put_sym r s' st) q x <-> at_ st q x.
Proof. intros st r s' q x N. unfold at_, put_sym. cbn. rewrite put_other by exact N. tauto. Qed.
Lemma scope_at : forall n r st q x, at_ (begin_scope n r st) q x <-> at_ st q x.
Proof. intros. unfold begin_scope, at_. destruct (isLocalName n); tauto. Qed.
Lemma scope_errors : forall n r st, z_errors (begin_scope n r st) = z_errors st.
Proof. intros. unfold begin_scope. destruct (isLocalName n); reflexivity. Qed.
Lemma scope_scope : forall n r st, z_scope (begin_scope n r st) = if negb (isLocalName n) then Some r else z_scope st.
Proof. intros. unfold begin_scope. destruct (isLocalName n); reflexivity. Qed.

Section Define.
  Variables (o : sop) (n : list Z) (st : sstate) (r : nat) (st1 : sstate) (s : ssym).
  Hypothesis (A : at_ st1 r s).
  Hypothesis (RS : z_rs st1 = z_rs st).
  Hypothesis (SE : z_section st1 = z_section st).
  Hypothesis (SC : z_scope st1 = z_scope st).
  Hypothesis (ER : z_errors st1 = z_errors st).
  Hypothesis (FR : forall q x, q <> r -> at_ st1 q x <-> at_ st q x).

  Lemma carry_put : forall s', sstep o st = Ok (put_sym r s' st1) -> begins_scope o = false ->
    becomes o (z_section st) s s' -> carried o n st r s.
  Proof.
    intros s' H B C. exists (put_sym r s' st1), s'. split; [exact H|]. split; [exact ER|]. split; [eapply put_at; exact A|].
    split; [exact C|]. split; [intros q x Q; rewrite put_at_other by exact Q; apply FR, Q|]. rewrite B. split; [exact SC|]. split; [exact RS|exact SE].
  Qed.
  Lemma carry_scope : forall s', sstep o st = Ok (begin_scope n r (put_sym r s' st1)) -> begins_scope o = true ->
    becomes o (z_section st) s s' -> carried o n st r s.
  Proof.
    intros s' H B C. exists (begin_scope n r (put_sym r s' st1)), s'. split; [exact H|]. split; [rewrite scope_errors; exact ER|].
    split; [apply scope_at; eapply put_at; exact A|].
    split; [exact C|]. split; [intros q x Q; rewrite scope_at, put_at_other by exact Q; apply FR, Q|].
    rewrite B, scope_scope. cbn. rewrite SC. split; [reflexivity|]. rewrite (proj2 (scope_syms n r _)). split; [exact RS|].
    unfold begin_scope. destruct (isLocalName n); exact SE.
  Qed.
  Lemma refuse_err : forall e, sstep o st = Ok (sym_Error e st1) -> refused o n st r s.
  Proof.
    intros e H. exists (sym_Error e st1), s, e. split; [exact H|]. split; [cbn; rewrite ER; reflexivity|].
    split; [exact A|]. split; [auto|]. split; [exact FR|exact SC].
  Qed.
End Define.

Lemma define_shape : forall o n st, symbols_fine st -> op_name o = Some n ->
  exists r s, meaning st n r s /\
    (accepted o st s = true -> carried o n st r s) /\
    (accepted o st s = false -> s_file s <> None \/ (exists st', sstep o st = Ok st') -> refused o n st r s).
Proof.
  intros o n st F O. destruct (findOrCreateSymbol n st) as [r st1] eqn:Q.
  destruct (meaning_foc _ _ _ _ F Q) as (s & M & A & N & SN & FF & F1 & RS & SC & SE & ER & FR & _).
  exists r, s. split; [exact M|]. pose proof (proj2 (the_sym_ok r st1 s) A) as T.
  destruct FF as [FM FE]. unfold accepted. clear N SN.
  destruct o; try discriminate; cbn [op_name] in O; inversion O; subst n; cbn [is_label].
  - (* label *)
    rewrite <- SE.
    assert (ST : sstep (OLabel name) st = if s_modifiable s && (canBeType s SymLabel || symtype_eqb (s_type s) SymGlobal) then
      match z_section st1 with
      | Some (k, a) => Ok (begin_scope name r (put_sym r (if (a_loadfixed a || a_orgfixed a) && negb (a_bankfixed a)
          then set_type SymEqu (s32 (a_pc a + a_cpuAdjust a + a_cpuOrigin a)) (s_section s) (s_text s) (if symtype_eqb (s_type s) SymGlobal then set_export s else s)
          else set_type SymLabel (s32 (a_pc a)) (Some k) (s_text s) (if symtype_eqb (s_type s) SymGlobal then set_export s else s)) st1))
      | None => Ok (sym_Error ERROR_LABEL_SECTION (put_sym r (if symtype_eqb (s_type s) SymGlobal then set_export s else s) st1))
      end else Ok (sym_Error ERROR_MODIFY_SYMBOL st1)).
    { cbn [sstep]. unfold sym_CreateLabel. rewrite Q, T. cbn [bind]. destruct (_ && _); [|reflexivity].
      destruct (z_section st1) as [[k a]|]; [|reflexivity]. destruct (symtype_eqb (s_type s) SymGlobal); reflexivity. }
    assert (TY : s_modifiable s && (canBeType s SymLabel || symtype_eqb (s_type s) SymGlobal) = accepts (OLabel name) (s_type s)).
    { rewrite FM. unfold canBeType. destruct (s_type s); reflexivity. }
    rewrite TY in ST. split.
    + intro AC. apply andb_true_iff in AC as [AC1 AC2]. rewrite AC1 in ST. rewrite SE in *. destruct (z_section st) as [[k a]|] eqn:Z1; [|discriminate].
      eapply carry_scope; try eassumption; try reflexivity; try congruence. rewrite Z1. unfold becomes, fixed_address.
      destruct (symtype_eqb (s_type s) SymGlobal) eqn:G.
      * apply type_eqb in G. destruct (_ && _); repeat split; try reflexivity; auto.
      * assert (G' : s_type s <> SymGlobal) by (intro X; apply type_eqb in X; congruence).
        destruct (_ && _); repeat split; try reflexivity; unfold s_export; cbn; rewrite orb_false_r; tauto.
    + intros AC _. destruct (accepts (OLabel name) (s_type s)) eqn:AC1.
      * destruct (z_section st1) as [[k a]|] eqn:Z1; [discriminate|].
        exists (sym_Error ERROR_LABEL_SECTION (put_sym r (if symtype_eqb (s_type s) SymGlobal then set_export s else s) st1)),
          (if symtype_eqb (s_type s) SymGlobal then set_export s else s), ERROR_LABEL_SECTION.
        split; [exact ST|]. split; [cbn; rewrite ER; reflexivity|]. split; [apply (put_at st1 r s _ A)|].
        split; [destruct (symtype_eqb (s_type s) SymGlobal) eqn:G; [right; apply type_eqb in G; auto using evolves_export|left; reflexivity]|].
        split; [|exact SC]. intros q x X. change (at_ (put_sym r (if symtype_eqb (s_type s) SymGlobal then set_export s else s) st1) q x <-> at_ st q x).
        rewrite put_at_other by exact X. apply FR, X.
      * eapply refuse_err; eassumption.
  - (* equ *)
    assert (TY : s_modifiable s && (canBeType s SymEqu || symtype_eqb (s_type s) SymGlobal) = accepts (OEqu name v) (s_type s)).
    { rewrite FM. unfold canBeType. destruct (s_type s); reflexivity. }
    assert (ST : sstep (OEqu name v) st = if accepts (OEqu name v) (s_type s) then
      Ok (begin_scope name r (put_sym r (set_type SymEqu v (s_section s) (s_text s) (if symtype_eqb (s_type s) SymGlobal then set_export s else s)) st1))
      else match s_file s with None => UB | Some _ => Ok (sym_Error ERROR_MODIFY_SYMBOL st1) end).
    { cbn [sstep]. unfold sym_CreateEqu. rewrite Q, T. cbn [bind]. rewrite TY. destruct (accepts _ _); [|reflexivity].
      destruct (symtype_eqb (s_type s) SymGlobal); reflexivity. }
    rewrite andb_true_r. split; intro AC; rewrite AC in ST.
    + eapply carry_scope; try eassumption; try reflexivity. unfold becomes.
      destruct (symtype_eqb (s_type s) SymGlobal) eqn:G.
      * apply type_eqb in G. repeat split; try reflexivity; auto.
      * assert (G' : s_type s <> SymGlobal) by (intro X; apply type_eqb in X; congruence).
        repeat split; try reflexivity; unfold s_export; cbn; rewrite orb_false_r; tauto.
    + intro NF. destruct (s_file s); [|destruct NF as [NF|[st' NF]]; congruence]. eapply refuse_err; eassumption.
  - (* set *)
    assert (TY : s_modifiable s && canBeType s SymSet = accepts (OSet name v) (s_type s)).
    { rewrite FM. unfold canBeType. destruct (s_type s); reflexivity. }
    assert (ST : exists e, sstep (OSet name v) st = if accepts (OSet name v) (s_type s) then
      Ok (begin_scope name r (put_sym r (set_type SymSet v (s_section s) (s_text s) s) st1)) else Ok (sym_Error e st1)).
    { eexists. cbn [sstep]. unfold sym_CreateSet, createInteger, createSymbolOfType. rewrite Q, T. cbn [bind]. rewrite TY.
      destruct (accepts _ _); reflexivity. }
    destruct ST as [e ST]. rewrite andb_true_r. split; intro AC; rewrite AC in ST.
    + eapply carry_scope; try eassumption; try reflexivity. unfold becomes. repeat split; try reflexivity.
      unfold s_export; cbn. apply orb_false_r.
    + intros _. eapply refuse_err; eassumption.
  - (* equs *)
    assert (TY : s_modifiable s && canBeType s SymEqus = accepts (OEqus name text) (s_type s)).
    { rewrite FM. unfold canBeType. destruct (s_type s); reflexivity. }
    assert (ST : exists e, sstep (OEqus name text) st = if accepts (OEqus name text) (s_type s) then
      Ok (put_sym r (set_type SymEqus (s_value s) (s_section s) text s) st1) else Ok (sym_Error e st1)).
    { eexists. cbn [sstep]. unfold sym_CreateEqus, createSymbolOfType. rewrite Q, T. cbn [bind]. rewrite TY.
      destruct (accepts _ _); reflexivity. }
    destruct ST as [e ST]. rewrite andb_true_r. split; intro AC; rewrite AC in ST.
    + eapply carry_put; try eassumption; try reflexivity. unfold becomes. repeat split; try reflexivity.
      unfold s_export; cbn. apply orb_false_r.
    + intros _. eapply refuse_err; eassumption.
  - (* macro *)
    assert (TY : s_modifiable s && canBeType s SymMacro = accepts (OMacro name text) (s_type s)).
    { rewrite FM. unfold canBeType. destruct (s_type s); reflexivity. }
    assert (ST : exists e, sstep (OMacro name text) st = if accepts (OMacro name text) (s_type s) then
      Ok (put_sym r (set_type SymMacro (s_value s) (s_section s) text s) st1) else Ok (sym_Error e st1)).
    { eexists. cbn [sstep]. unfold sym_CreateMacro, createSymbolOfType. rewrite Q, T. cbn [bind]. rewrite TY.
      destruct (accepts _ _); reflexivity. }
    destruct ST as [e ST]. rewrite andb_true_r. split; intro AC; rewrite AC in ST.
    + eapply carry_put; try eassumption; try reflexivity. unfold becomes. repeat split; try reflexivity.
      unfold s_export; cbn. apply orb_false_r.
    + intros _. eapply refuse_err; eassumption.
  - (* export *)
    assert (ST : sstep (OExport name) st = if accepts (OExport name) (s_type s) then Ok (put_sym r (set_export s) st1)
      else match s_file s with None => UB | Some _ => Ok (sym_Error ERROR_SYMBOL_EXPORT st1) end).
    { cbn [sstep]. unfold sym_Export. rewrite Q, T. cbn [bind]. rewrite FE. destruct (s_type s); reflexivity. }
    rewrite andb_true_r. split; intro AC; rewrite AC in ST.
    + eapply carry_put; try eassumption; try reflexivity. unfold becomes. repeat split; reflexivity.
    + intro NF. destruct (s_file s); [|destruct NF as [NF|[st' NF]]; congruence]. eapply refuse_err; eassumption.
  - (* import *)
    assert (ST : sstep (OImport name) st = if accepts (OImport name) (s_type s) then
      Ok (put_sym r (set_type SymImport 0 (s_section s) (s_text s) s) st1) else Ok (sym_Error ERROR_IMPORT_DEFINED st1)).
    { cbn [sstep]. unfold sym_Import. rewrite Q, T. cbn [bind]. destruct (s_type s); reflexivity. }
    rewrite andb_true_r. split; intro AC; rewrite AC in ST.
    + eapply carry_put; try eassumption; try reflexivity. unfold becomes. repeat split; try reflexivity.
      unfold s_export; cbn. apply orb_false_r.
    + intros _. eapply refuse_err; eassumption.
  - (* global *)
    rewrite andb_true_r. assert (ST : exists e, sstep (OGlobal name) st = if accepts (OGlobal name) (s_type s) then
      Ok (put_sym r (match s_type s with SymUndefined => set_type SymGlobal 0 (s_section s) (s_text s) s | _ => set_export s end) st1)
      else match s_file s with None => UB | Some _ => Ok (sym_Error e st1) end).
    { cbn [sstep]. unfold sym_Global. rewrite Q, T. cbn [bind]. rewrite FE. destruct (s_type s); first [exists ERROR_MODIFY_SYMBOL; reflexivity|exists ERROR_SYMBOL_EXPORT; reflexivity]. }
    destruct ST as [e ST]. split; intro AC; rewrite AC in ST.
    + eapply carry_put; try eassumption; try reflexivity. unfold becomes.
      destruct (s_type s) eqn:TT; try discriminate; repeat split; try assumption; try reflexivity.
      unfold s_export; cbn. apply orb_false_r.
    + intro NF. destruct (s_file s); [|destruct NF as [NF|[st' NF]]; congruence]. eapply refuse_err; eassumption.
Qed.

Lemma step_total_fine : forall o st st', symbols_fine st -> sstep o st = Ok st' -> symbols_fine st'.
Proof.
  intros o st st' F H.
  assert (D : (exists n, o = OPurge n) \/ (forall n, o <> OPurge n)).
  { destruct o; try (right; intros ? ?; discriminate). left; eauto. }
  destruct D as [[n ->]|D]; [|exact (proj1 (step_fine o st D st' H F))].
  cbn in H. inversion H; subst. unfold sym_Purge. destruct (getSymbol _ _ st) as [r|] eqn:G; [|exact F].
  destruct F as (U & V & W).
  assert (T : forall q x, at_ (with_syms (put r None (z_syms st)) st) q x -> at_ st q x).
  { intros q x X. unfold at_ in *. cbn in X. destruct (Nat.eq_dec q r) as [->|N].
    - destruct (nth_error (z_syms st) r) eqn:E; [rewrite (put_same _ _ _ _ _ E) in X; discriminate|].
      assert (L : (length (z_syms st) <= r)%nat) by (apply nth_error_None; exact E).
      rewrite (proj2 (nth_error_None _ _)) in X by (rewrite put_length; exact L). discriminate.
    - rewrite put_other in X by exact N. exact X. }
  split; [|split].
  - intros r1 r2 s1 s2 A1 A2. apply U; auto.
  - intros q x X. eapply V, T, X.
  - intros q Q. cbn in Q. destruct (W q Q) as [L R]. cbn. rewrite put_length. split; [exact L|].
    intros x X. apply R, T, X.
Qed.
Lemma purge_keeps : forall n st r s, at_ st r s -> symbols_fine st -> s_name s <> n -> at_ (sym_Purge n st) r s.
Proof.
  intros n st r s A F N. unfold sym_Purge. destruct (getSymbol _ _ st) as [q|] eqn:G; [|exact A].
  unfold getSymbol in G. apply find_sound in G as (j & x & E & X & XN & _). cbn in E. subst j.
  unfold at_ in *. cbn. rewrite put_other; [exact A|]. intro E. subst q. rewrite A in X. inversion X; subst. congruence.
Qed.
Lemma run_fine : forall l st st', symbols_fine st -> srun l st = Ok st' -> symbols_fine st'.
Proof.
  intro l; induction l as [|o l IH]; intros st st' F H; cbn in H.
  - inversion H; subst; exact F.
  - destruct (sstep o st) as [st1| |] eqn:S1; try discriminate. eapply IH; [|exact H]. eapply step_total_fine; eassumption.
Qed.
Lemma run_evolves : forall l st st' r s, symbols_fine st -> at_ st r s ->
  (forall n, In (OPurge n) l -> n <> s_name s) -> srun l st = Ok st' -> exists s', at_ st' r s' /\ evolves s s'.
Proof.
  intro l; induction l as [|o l IH]; intros st st' r s F A N H; cbn in H.
  - inversion H; subst. exists s. split; [exact A|apply evolves_refl].
  - destruct (sstep o st) as [st1| |] eqn:S1; try discriminate.
    assert (X : exists s1, at_ st1 r s1 /\ evolves s s1).
    { assert (D : (exists n, o = OPurge n) \/ (forall n, o <> OPurge n)).
      { destruct o; try (right; intros ? ?; discriminate). left; eauto. }
      destruct D as [[n ->]|D].
      - cbn in S1. inversion S1; subst. exists s. split; [|apply evolves_refl]. apply purge_keeps; auto.
        intro E. apply (N n); [left; reflexivity|auto].
      - destruct (step_fine o st D st1 S1 F) as (_ & _ & E). apply E, A. }
    destruct X as (s1 & A1 & E1).
    destruct (IH st1 st' r s1) as (s2 & A2 & E2); auto.
    { eapply step_total_fine; eassumption. }
    { intros n K. destruct E1 as (E1 & _). rewrite E1. apply N. right; exact K. }
    exists s2. split; [exact A2|]. eapply evolves_trans; eassumption.
Qed.
Lemma initial_fine : symbols_fine sinitial.
Proof.
  split; [|split].
  - intros r1 r2 s1 s2 A. unfold at_ in A. destruct r1; discriminate.
  - intros r s A. unfold at_ in A. destruct r; discriminate.
  - intros r R. discriminate.
Qed.

(** ** The counter *)

Lemma set_meaning : forall n v st, symbols_fine st ->
  (forall q x, seen st n q x -> s_type x = SymUndefined \/ s_type x = SymSet) ->
  exists r s, meaning st n r s /\ carried (OSet n v) n st r s.
Proof.
  intros n v st F H. destruct (define_shape (OSet n v) n st F eq_refl) as (r & s & M & A & _).
  exists r, s. split; [exact M|]. apply A. unfold accepted. cbn [is_label]. rewrite andb_true_r.
  destruct M as [M|(_ & _ & M)].
  - destruct (H r s M) as [->| ->]; reflexivity.
  - destruct M as (_ & _ & _ & -> & _). reflexivity.
Qed.
Lemma carried_set : forall n v st r s, carried (OSet n v) n st r s ->
  exists o st' s', sym_CreateSet n v st = Ok (o, st') /\ z_errors st' = z_errors st /\ at_ st' r s' /\
    s_name s' = s_name s /\ s_scope s' = s_scope s /\ s_type s' = SymSet /\ s_value s' = v /\
    (forall q x, q <> r -> at_ st' q x <-> at_ st q x) /\
    z_scope st' = (if negb (isLocalName n) then Some r else z_scope st) /\ z_rs st' = z_rs st.
Proof.
  intros n v st r s (st' & s' & H & E & A & (B1 & B2 & B3 & B4 & _) & R & SC & RS & _). cbn [sstep] in H.
  destruct (sym_CreateSet n v st) as [[o st1]| |]; try discriminate. cbn [bind] in H. inversion H; subst.
  exists o, st', s'. auto 12.
Qed.

Lemma chk_ok : forall z, is_s32 z -> chk z = Ok z.
Proof.
  intros z H. unfold chk, is_s32 in *. rewrite (proj2 (andb_true_iff _ _)); [reflexivity|].
  split; [apply Z.leb_le|apply Z.ltb_lt]; lia.
Qed.
Lemma inc_ok : forall st r c size, z_rs st = Some r -> at_ st r c -> is_s32 (s_value c + size) ->
  parse_IncrementRs size st = Ok (s_value c, put_sym r (set_value (s_value c + size) c) st).
Proof.
  intros st r c size R A S. unfold parse_IncrementRs, getRsCounter. rewrite R. cbn [bind].
  rewrite (proj2 (the_sym_ok r st c) A). cbn [bind]. unfold c_add. rewrite (chk_ok _ S). reflexivity.
Qed.
Lemma seen_unique : forall st n q x q' x', symbols_fine st -> seen st n q x -> seen st n q' x' -> q = q' /\ x = x'.
Proof.
  intros st n q x q' x' (U & _) (A & N & L1 & L2) (A' & N' & L1' & L2').
  assert (E : q = q').
  { eapply U; try eassumption; [congruence|].
    destruct (isLocalName n) eqn:L.
    - assert (is_local n) by (apply local_spec; exact L). rewrite L1, L1' by assumption. reflexivity.
    - assert (~ is_local n) by (intro X; apply local_spec in X; congruence). rewrite L2, L2' by assumption. reflexivity. }
  split; [exact E|]. subst. unfold at_ in *. congruence.
Qed.
(** A meaning is a place: everything else has another name or scope. *)
Lemma meaning_other : forall st n r s q x, symbols_fine st -> meaning st n r s -> at_ st q x ->
  s_name x <> n \/ s_scope x <> s_scope s -> q <> r.
Proof.
  intros st n r s q x F M A D E. subst q. destruct M as [(M1 & M2 & _)|(_ & -> & _)].
  - assert (x = s) by (unfold at_ in *; congruence). subst x. destruct D; congruence.
  - unfold at_ in A. apply nth_error_Some_lt in A. lia.
Qed.
Lemma meaning_name : forall st n r s, meaning st n r s -> s_name s = n /\ s_scope s = assumedScopeOf n st.
Proof.
  intros st n r s [(_ & N & L1 & L2)|(_ & _ & N & L1 & L2 & _)]; (split; [exact N|]); symmetry; apply scope_spec; auto.
Qed.
