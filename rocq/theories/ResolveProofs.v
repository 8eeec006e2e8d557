(** Proofs about symbol resolution. *)
From Coq Require Import ZArith List Bool Lia ZifyBool ZifyNat.
From Verif Require Import Base BaseFacts AssignModel Arith LinkExprModel LinkModel LinkSpec.
Import ListNotations.
Open Scope Z_scope.

Lemma find_index_some : forall A (f : A -> bool) l k j, find_index f l k = Some j ->
  exists l1 x l2, l = l1 ++ x :: l2 /\ j = (k + length l1)%nat /\ f x = true /\ (forall y, In y l1 -> f y = false).
Proof.
  induction l as [|a l IH]; cbn; intros k j H; [discriminate|].
  destruct (f a) eqn:Fa.
  - injection H as <-. exists [], a, l. repeat split; auto; try (cbn; lia); intros ? [].
  - destruct (IH _ _ H) as (l1 & x & l2 & -> & -> & Fx & Hn). exists (a :: l1), x, l2.
    repeat split; auto; try (cbn; lia). intros y [<-|Hy]; auto.
Qed.
Lemma find_index_none : forall A (f : A -> bool) l k, find_index f l k = None -> forall y, In y l -> f y = false.
Proof.
  induction l as [|a l IH]; cbn; intros k H y Hy; [destruct Hy|]. destruct (f a) eqn:Fa; [discriminate|].
  destruct Hy as [<-|Hy]; eauto.
Qed.
Lemma find_symbol_some : forall ok f p k i j, find_symbol ok f p k = Some (i, j) ->
  exists p1 d p2 ys1 x ys2, p = p1 ++ d :: p2 /\ i = (k + length p1)%nat /\
    sc_symbols d = ys1 ++ x :: ys2 /\ j = length ys1 /\ ok d = true /\ f x = true /\
    (forall x', In x' ys1 -> f x' = false) /\
    (forall d' x', In d' p1 -> ok d' = true -> In x' (sc_symbols d') -> f x' = false).
Proof.
  induction p as [|s p IH]; cbn; intros k i j H; [discriminate|].
  destruct (if ok s then find_index f (sc_symbols s) 0 else None) as [j0|] eqn:Q.
  - injection H as <- <-. destruct (ok s) eqn:O; [|discriminate].
    destruct (find_index_some _ _ _ _ _ Q) as (l1 & x & l2 & E & -> & Fx & Hn).
    exists [], s, p, l1, x, l2. repeat split; auto; try (cbn; lia); intros d' x' [].
  - destruct (IH _ _ _ H) as (p1 & d & p2 & ys1 & x & ys2 & -> & -> & E & -> & O & Fx & Hn & Hp).
    exists (s :: p1), d, p2, ys1, x, ys2. repeat split; auto; try (cbn; lia).
    intros d' x' [<-|Hd] Ho Hx; [|eauto]. rewrite Ho in Q. eapply find_index_none; eauto.
Qed.
Lemma find_symbol_none : forall ok f p k, find_symbol ok f p k = None ->
  forall d x, In d p -> ok d = true -> In x (sc_symbols d) -> f x = false.
Proof.
  induction p as [|s p IH]; cbn; intros k H d x Hd Ho Hx; [destruct Hd|].
  destruct (if ok s then find_index f (sc_symbols s) 0 else None) as [j0|] eqn:Q; [discriminate|].
  destruct Hd as [<-|Hd]; [|eauto]. rewrite Ho in Q. eapply find_index_none; eauto.
Qed.
(** The result of the search depends only on what the tests see. *)
Lemma find_index_ext : forall A B (R : A -> B -> Prop) f g l l' k,
  (forall x y, R x y -> f x = g y) -> Forall2 R l l' -> find_index f l k = find_index g l' k.
Proof.
  intros A B R f g l l' k H HF. revert k. induction HF as [|x y l l' Hxy _ IH]; intros k; [reflexivity|].
  cbn. rewrite (H _ _ Hxy), IH. reflexivity.
Qed.
Lemma find_symbol_ext : forall (R : lsect -> lsect -> Prop) (Q : lsym -> lsym -> Prop) ok ok' f g p p' k,
  (forall s s', R s s' -> ok s = ok' s' /\ Forall2 Q (sc_symbols s) (sc_symbols s')) ->
  (forall y y', Q y y' -> f y = g y') -> Forall2 R p p' -> find_symbol ok f p k = find_symbol ok' g p' k.
Proof.
  intros R Q ok ok' f g p p' k H1 H2 HF. revert k. induction HF as [|s s' p p' Hs _ IH]; intros k; [reflexivity|].
  cbn. destruct (H1 _ _ Hs) as [-> HQ]. rewrite (find_index_ext _ _ Q f g _ _ 0%nat H2 HQ), IH. reflexivity.
Qed.

Lemma set_nth_length : forall A (l : list A) k v, length (set_nth l k v) = length l.
Proof. induction l; intros [|k] v; cbn; auto. Qed.
Lemma nth_set_nth : forall A (l : list A) k v x, nth_error l k = Some x -> nth_error (set_nth l k v) k = Some v.
Proof. induction l; intros [|k] v x H; cbn in *; try discriminate; eauto. Qed.
Lemma nth_set_nth_other : forall A (l : list A) k k' v, k <> k' -> nth_error (set_nth l k v) k' = nth_error l k'.
Proof.
  induction l; intros [|k] [|k'] v H; cbn; auto; try congruence.
Qed.
Lemma Forall2_set_nth : forall A B (R : A -> B -> Prop) l l' k x v, Forall2 R l l' ->
  nth_error l k = Some x -> R x v -> Forall2 R l (set_nth l' k v).
Proof.
  intros A B R l l' k x v H. revert k. induction H as [|a b l l' Hab H IH]; intros [|k] Hk Hr; cbn in *; try discriminate.
  - injection Hk as ->. constructor; auto.
  - constructor; auto.
Qed.
Lemma Forall2_nth : forall A B (R : A -> B -> Prop) l l' k y, Forall2 R l l' -> nth_error l' k = Some y ->
  exists x, nth_error l k = Some x /\ R x y.
Proof.
  intros A B R l l' k y H. revert k. induction H as [|a b l l' Hab H IH]; intros [|k] Hk; cbn in *; try discriminate.
  - injection Hk as <-. eauto.
  - eauto.
Qed.
Lemma Forall2_nth_l : forall A B (R : A -> B -> Prop) l l' k x, Forall2 R l l' -> nth_error l k = Some x ->
  exists y, nth_error l' k = Some y /\ R x y.
Proof.
  intros A B R l l' k x H. revert k. induction H as [|a b l l' Hab H IH]; intros [|k] Hk; cbn in *; try discriminate.
  - injection Hk as <-. eauto.
  - eauto.
Qed.
Lemma Forall2_refl : forall A (R : A -> A -> Prop) l, (forall x, In x l -> R x x) -> Forall2 R l l.
Proof. induction l; intros H; constructor; [apply H; left; reflexivity|apply IHl; intros; apply H; right; assumption]. Qed.

Lemma Forall2_impl : forall A B (R Q : A -> B -> Prop) l l', (forall x y, R x y -> Q x y) -> Forall2 R l l' -> Forall2 Q l l'.
Proof. intros A B R Q l l' H HF. induction HF; constructor; auto. Qed.
Lemma Forall2_len : forall A B (R : A -> B -> Prop) l l', Forall2 R l l' -> length l = length l'.
Proof. intros A B R l l' H. induction H; cbn; auto. Qed.

(** ** The invariant *)
Section Inv.
Variable p0 : program.
Hypothesis Hfresh : fresh p0.

(** [y] is [y0] as read, or resolved to its definition. *)
Definition sym_ok (s0 : lsect) (y0 y : lsym) : Prop :=
  y = y0 \/
  (exists d x, defines p0 s0 y0 d x /\
     y = LSym (ls_name y0) (ls_type y0) (address d x) true (ls_file x) (ls_line x) (Some (sc_id d)) (ls_expr y0)).
Definition sect_ok (s0 s : lsect) : Prop :=
  s = set_symbols s0 (sc_symbols s) /\ Forall2 (sym_ok s0) (sc_symbols s0) (sc_symbols s).
Definition prog_ok (p : program) : Prop := Forall2 sect_ok p0 p.

Lemma prog_ok_init : prog_ok p0.
Proof.
  apply Forall2_refl. intros s _. split; [destruct s; reflexivity|].
  apply Forall2_refl. intros y _. left. reflexivity.
Qed.

Lemma sym_ok_same : forall s0 y0 y, sym_ok s0 y0 y -> ls_type y = ls_type y0 /\ ls_name y = ls_name y0.
Proof. intros s0 y0 y [->|(d & x & _ & ->)]; cbn; auto. Qed.
Lemma sect_ok_same : forall s0 s, sect_ok s0 s -> sc_place s = sc_place s0 /\ sc_fileId s = sc_fileId s0.
Proof. intros s0 s [-> _]. auto. Qed.

Lemma get_sym_ok : forall p i j s y, prog_ok p -> get_sym p i j = Some (s, y) ->
  exists s0 y0, symbol_at p0 i j s0 y0 /\ sect_ok s0 s /\ sym_ok s0 y0 y.
Proof.
  intros p i j s y HP H. unfold get_sym in H. destruct (nth_error p i) as [s1|] eqn:N; [|discriminate].
  destruct (nth_error (sc_symbols s1) j) as [y1|] eqn:M; [|discriminate]. injection H as <- <-.
  destruct (Forall2_nth _ _ _ _ _ _ _ HP N) as (s0 & N0 & HS). destruct HS as [HS1 HS2].
  destruct (Forall2_nth _ _ _ _ _ _ _ HS2 M) as (y0 & M0 & HY).
  exists s0, y0. split; [split; assumption|]. split; [split; assumption|assumption].
Qed.
Lemma get_sym_back : forall p i j s0 y0, prog_ok p -> symbol_at p0 i j s0 y0 ->
  exists s y, get_sym p i j = Some (s, y) /\ sect_ok s0 s /\ sym_ok s0 y0 y.
Proof.
  intros p i j s0 y0 HP [N M]. destruct (Forall2_nth_l _ _ _ _ _ _ _ HP N) as (s & N' & HS).
  pose proof HS as [_ HS2]. destruct (Forall2_nth_l _ _ _ _ _ _ _ HS2 M) as (y & M' & HY).
  exists s, y. unfold get_sym. rewrite N', M'. auto.
Qed.
Lemma put_sym_ok : forall p i j s0 y0 y, prog_ok p -> symbol_at p0 i j s0 y0 -> sym_ok s0 y0 y ->
  prog_ok (put_sym p i j y).
Proof.
  intros p i j s0 y0 y HP [N M] HY. unfold put_sym.
  destruct (Forall2_nth_l _ _ _ _ _ _ _ HP N) as (s & N' & HS). rewrite N'.
  eapply Forall2_set_nth; eauto. destruct HS as [HS1 HS2]. split.
  - rewrite HS1. reflexivity.
  - cbn. eapply Forall2_set_nth; eauto.
Qed.
Lemma get_put_same : forall p i j s y y', get_sym p i j = Some (s, y) ->
  exists s', get_sym (put_sym p i j y') i j = Some (s', y') /\ s' = set_symbols s (sc_symbols s').
Proof.
  intros p i j s y y' H. unfold get_sym, put_sym in *. destruct (nth_error p i) as [s1|] eqn:N; [|discriminate].
  destruct (nth_error (sc_symbols s1) j) as [y1|] eqn:M; [|discriminate]. injection H as <- <-.
  rewrite (nth_set_nth _ _ _ _ _ N). cbn. rewrite (nth_set_nth _ _ _ _ _ M). eexists. split; [reflexivity|].
  reflexivity.
Qed.
Lemma get_put_other : forall p i j i' j' y', (i <> i' \/ j <> j') ->
  match get_sym (put_sym p i j y') i' j' with
  | Some (s, y) => exists s1, get_sym p i' j' = Some (s1, y)
  | None => get_sym p i' j' = None
  end.
Proof.
  intros p i j i' j' y' H. unfold get_sym, put_sym. destruct (nth_error p i) as [s1|] eqn:N.
  - destruct (PeanoNat.Nat.eq_dec i i') as [->|Hi].
    + rewrite (nth_set_nth _ _ _ _ _ N), N. cbn. rewrite nth_set_nth_other by tauto.
      destruct (nth_error (sc_symbols s1) j'); eauto.
    + rewrite nth_set_nth_other by assumption. destruct (nth_error p i') as [s2|]; [|reflexivity].
      destruct (nth_error (sc_symbols s2) j'); eauto.
  - destruct (nth_error p i') as [s2|]; [|reflexivity]. destruct (nth_error (sc_symbols s2) j'); eauto.
Qed.

Lemma in_symbol_at : forall i j s y, symbol_at p0 i j s y -> In s p0 /\ In y (sc_symbols s).
Proof. intros i j s y [H1 H2]. split; eapply nth_error_In; eauto. Qed.

Definition own (t : Z) : bool := (t =? SYM_LOCALEXPORT) || (t =? SYM_EXPORT) || (t =? SYM_LOCAL).

Lemma resolveDefined_ok : forall s0 y0 s y', own (ls_type y0) = true -> sect_ok s0 s ->
  resolveDefined s y0 = Ok y' -> sym_ok s0 y0 y' /\ ls_resolved y' = true.
Proof.
  intros s0 y0 s y' Ho HS H. unfold resolveDefined in H. destruct (sect_ok_same _ _ HS) as [HP _].
  unfold sc_cpuLocation, sc_id in H. rewrite HP in H.
  assert (HV : exists v, y' = LSym (ls_name y0) (ls_type y0) v true (ls_file y0) (ls_line y0)
     (Some (s_id (sc_place s0))) (ls_expr y0) /\ v = address s0 y0).
  { unfold address. destruct (s_cpuLocation (sc_place s0) =? -1).
    - cbn in H. injection H as <-. eauto.
    - unfold c_add, chk in H. destruct (_ && _) in H; [|discriminate]. cbn in H. injection H as <-. eauto. }
  destruct HV as (v & -> & ->). split; [|reflexivity]. right. exists s0, y0. split; [|reflexivity].
  apply def_own. unfold own in Ho. unfold SYM_LOCALEXPORT, SYM_EXPORT, SYM_LOCAL in *. lia.
Qed.

(** The searches give the same position in the current and the fresh program, and
    that position is the definition. *)
Lemma find_import : forall p s0 y0 i j, prog_ok p -> ls_type y0 = SYM_IMPORT ->
  find_symbol (fun d => sc_used d || sc_isEqu d) (exports (ls_name y0)) p 0 = Some (i, j) ->
  exists d x, symbol_at p0 i j d x /\ defines p0 s0 y0 d x /\ ls_type x = SYM_EXPORT.
Proof.
  intros p s0 y0 i j HP Ht H.
  rewrite <- (find_symbol_ext sect_ok (fun y y' => ls_type y' = ls_type y /\ ls_name y' = ls_name y)
             (fun d => sc_used d || sc_isEqu d) (fun d => sc_used d || sc_isEqu d)
             (exports (ls_name y0)) (exports (ls_name y0)) p0 p 0) in H.
  - destruct (find_symbol_some _ _ _ _ _ _ H) as (p1 & d & p2 & ys1 & x & ys2 & E1 & -> & E2 & -> & O & Fx & Hn & Hp).
    exists d, x. unfold exports in Fx. apply andb_prop in Fx as [Fx1 Fx2]. apply beq_eq in Fx2.
    apply Z.eqb_eq in Fx1. split; [|split; [|assumption]].
    + split.
      * rewrite E1. cbn. rewrite nth_error_app2, PeanoNat.Nat.sub_diag by lia. reflexivity.
      * rewrite E2, nth_error_app2, PeanoNat.Nat.sub_diag by lia. reflexivity.
    + apply def_import; [assumption|]. exists p1, p2, ys1, ys2. split; [assumption|]. split; [assumption|].
      split; [unfold sc_isEqu, isEqu in O; destruct (s_group (sc_place d)); [left|right]; auto;
              rewrite orb_false_r in O; exact O|].
      split; [auto|]. split.
      * intros x' Hx' [T Nm]. specialize (Hn x' Hx'). unfold exports in Hn. rewrite T, Nm, beq_refl in Hn. discriminate.
      * intros d' x' Hd' Ho Hx' [T Nm]. specialize (Hp d' x' Hd'). cbv beta in Hp.
        assert (HO : sc_used d' || sc_isEqu d' = true).
        { unfold sc_isEqu, isEqu. destruct Ho as [-> | ->]; [reflexivity|apply orb_true_r]. }
        specialize (Hp HO Hx'). unfold exports in Hp. rewrite T, Nm, beq_refl in Hp. discriminate.
  - intros s s' HS. destruct (sect_ok_same _ _ HS) as [HPl _]. unfold sc_used, sc_isEqu. rewrite HPl. split; [reflexivity|].
    destruct HS as [_ HS]. eapply Forall2_impl; [|exact HS]. intros a b Hab. apply sym_ok_same in Hab. exact Hab.
  - intros y y' [T Nm]. unfold exports. rewrite T, Nm. reflexivity.
  - exact HP.
Qed.
Lemma find_import_none : forall p y0, prog_ok p ->
  find_symbol (fun d => sc_used d || sc_isEqu d) (exports (ls_name y0)) p 0 = None ->
  ls_type y0 = SYM_IMPORT -> forall s0 d x, ~ defines p0 s0 y0 d x.
Proof.
  intros p y0 HP H Ht s0 d x HD.
  rewrite <- (find_symbol_ext sect_ok (fun y y' => ls_type y' = ls_type y /\ ls_name y' = ls_name y)
             (fun d => sc_used d || sc_isEqu d) (fun d => sc_used d || sc_isEqu d)
             (exports (ls_name y0)) (exports (ls_name y0)) p0 p 0) in H.
  - inversion HD as [HO|d1 x1 _ HF|d1 x1 HT _]; subst.
    + unfold SYM_IMPORT, SYM_EXPORT, SYM_LOCAL, SYM_LOCALEXPORT in *. lia.
    + destruct HF as (p1 & p2 & ys1 & ys2 & E1 & E2 & O & [T Nm] & _).
      assert (HI : In d p0) by (rewrite E1; apply in_elt).
      assert (HX : In x (sc_symbols d)) by (rewrite E2; apply in_elt).
      pose proof (find_symbol_none _ _ _ _ H d x HI) as Q. cbv beta in Q.
      assert (HO : sc_used d || sc_isEqu d = true).
      { unfold sc_isEqu, isEqu. destruct O as [-> | ->]; [reflexivity|apply orb_true_r]. }
      specialize (Q HO HX). unfold exports in Q. rewrite T, Nm, beq_refl in Q. discriminate.
    + unfold SYM_IMPORT, SYM_LOCALIMPORT in *. lia.
  - intros s s' HS. destruct (sect_ok_same _ _ HS) as [HPl _]. unfold sc_used, sc_isEqu. rewrite HPl. split; [reflexivity|].
    destruct HS as [_ HS]. eapply Forall2_impl; [|exact HS]. intros a b Hab. apply sym_ok_same in Hab. exact Hab.
  - intros y y' [T Nm]. unfold exports. rewrite T, Nm. reflexivity.
  - exact HP.
Qed.
Lemma find_local : forall p s0 y0 i j, prog_ok p -> ls_type y0 = SYM_LOCALIMPORT ->
  find_symbol (fun d => sc_used d && (sc_fileId d =? sc_fileId s0)) (exports_locally (ls_name y0)) p 0 = Some (i, j) ->
  exists d x, symbol_at p0 i j d x /\ defines p0 s0 y0 d x /\
    (ls_type x = SYM_LOCALEXPORT \/ ls_type x = SYM_EXPORT).
Proof.
  intros p s0 y0 i j HP Ht H.
  rewrite <- (find_symbol_ext sect_ok (fun y y' => ls_type y' = ls_type y /\ ls_name y' = ls_name y)
             (fun d => sc_used d && (sc_fileId d =? sc_fileId s0)) (fun d => sc_used d && (sc_fileId d =? sc_fileId s0))
             (exports_locally (ls_name y0)) (exports_locally (ls_name y0)) p0 p 0) in H.
  - destruct (find_symbol_some _ _ _ _ _ _ H) as (p1 & d & p2 & ys1 & x & ys2 & E1 & -> & E2 & -> & O & Fx & Hn & Hp).
    exists d, x. unfold exports_locally in Fx. apply andb_prop in Fx as [Fx1 Fx2]. apply beq_eq in Fx2.
    apply orb_prop in Fx1. rewrite !Z.eqb_eq in Fx1. apply andb_prop in O as [O1 O2]. apply Z.eqb_eq in O2.
    split; [|split; [|assumption]].
    + split.
      * rewrite E1. cbn. rewrite nth_error_app2, PeanoNat.Nat.sub_diag by lia. reflexivity.
      * rewrite E2, nth_error_app2, PeanoNat.Nat.sub_diag by lia. reflexivity.
    + apply def_localimport; [assumption|]. exists p1, p2, ys1, ys2. split; [assumption|]. split; [assumption|].
      split; [auto|]. split; [auto|]. split.
      * intros x' Hx' [T Nm]. specialize (Hn x' Hx'). unfold exports_locally in Hn. rewrite Nm, beq_refl in Hn.
        destruct T as [T|T]; rewrite T in Hn; discriminate.
      * intros d' x' Hd' [Ho1 Ho2] Hx' [T Nm]. specialize (Hp d' x' Hd'). cbv beta in Hp.
        rewrite Ho1, Ho2, Z.eqb_refl in Hp. specialize (Hp eq_refl Hx'). unfold exports_locally in Hp.
        rewrite Nm, beq_refl in Hp. destruct T as [T|T]; rewrite T in Hp; discriminate.
  - intros s s' HS. destruct (sect_ok_same _ _ HS) as [HPl HFi]. unfold sc_used. rewrite HPl, HFi. split; [reflexivity|].
    destruct HS as [_ HS]. eapply Forall2_impl; [|exact HS]. intros a b Hab. apply sym_ok_same in Hab. exact Hab.
  - intros y y' [T Nm]. unfold exports_locally. rewrite T, Nm. reflexivity.
  - exact HP.
Qed.
Lemma find_local_none : forall p s0 y0, prog_ok p ->
  find_symbol (fun d => sc_used d && (sc_fileId d =? sc_fileId s0)) (exports_locally (ls_name y0)) p 0 = None ->
  ls_type y0 = SYM_LOCALIMPORT -> forall d x, ~ defines p0 s0 y0 d x.
Proof.
  intros p s0 y0 HP H Ht d x HD.
  rewrite <- (find_symbol_ext sect_ok (fun y y' => ls_type y' = ls_type y /\ ls_name y' = ls_name y)
             (fun d => sc_used d && (sc_fileId d =? sc_fileId s0)) (fun d => sc_used d && (sc_fileId d =? sc_fileId s0))
             (exports_locally (ls_name y0)) (exports_locally (ls_name y0)) p0 p 0) in H.
  - inversion HD as [HO|d1 x1 HT _|d1 x1 _ HF]; subst.
    + unfold SYM_LOCALIMPORT, SYM_EXPORT, SYM_LOCAL, SYM_LOCALEXPORT in *. lia.
    + unfold SYM_IMPORT, SYM_LOCALIMPORT in *. lia.
    + destruct HF as (p1 & p2 & ys1 & ys2 & E1 & E2 & [O1 O2] & [T Nm] & _).
      assert (HI : In d p0) by (rewrite E1; apply in_elt).
      assert (HX : In x (sc_symbols d)) by (rewrite E2; apply in_elt).
      pose proof (find_symbol_none _ _ _ _ H d x HI) as Q. cbv beta in Q.
      rewrite O1, O2, Z.eqb_refl in Q. specialize (Q eq_refl HX). unfold exports_locally in Q.
      rewrite Nm, beq_refl in Q. destruct T as [T|T]; rewrite T in Q; discriminate.
  - intros s s' HS. destruct (sect_ok_same _ _ HS) as [HPl HFi]. unfold sc_used. rewrite HPl, HFi. split; [reflexivity|].
    destruct HS as [_ HS]. eapply Forall2_impl; [|exact HS]. intros a b Hab. apply sym_ok_same in Hab. exact Hab.
  - intros y y' [T Nm]. unfold exports_locally. rewrite T, Nm. reflexivity.
  - exact HP.
Qed.

Lemma resolveFrom_ok : forall p i j s0 y0 i' j' d x p', prog_ok p ->
  symbol_at p0 i j s0 y0 -> symbol_at p0 i' j' d x -> own (ls_type x) = true -> own (ls_type y0) = false ->
  defines p0 s0 y0 d x ->
  resolveFrom p i j y0 i' j' = Ok p' ->
  prog_ok p' /\ exists s y, get_sym p' i j = Some (s, y) /\ ls_resolved y = true.
Proof.
  intros p i j s0 y0 i' j' d x p' HP Hij Hij' Hox Hoy HD H. unfold resolveFrom in H.
  destruct (get_sym_back p i' j' d x HP Hij') as (d1 & x1 & G & HS & HX). rewrite G in H.
  set (r1 := if ls_resolved x1 then Ok p else let! x' := resolveDefined d1 x1 in Ok (put_sym p i' j' x')) in H.
  assert (HR : forall p1, r1 = Ok p1 -> prog_ok p1 /\ exists d2 x2, get_sym p1 i' j' = Some (d2, x2) /\
             ls_value x2 = address d x /\ ls_file x2 = ls_file x /\ ls_line x2 = ls_line x).
  { intros p1 E. unfold r1 in E. destruct HX as [->|(dd & xx & Hdef & ->)].
    - destruct (Hfresh d x) as [Hres [_ _]]; try (apply (in_symbol_at _ _ _ _ Hij')).
      rewrite Hres in E. destruct (resolveDefined d1 x) as [x'| |] eqn:RD; try discriminate. cbn in E. injection E as <-.
      destruct (resolveDefined_ok d x d1 x' Hox HS RD) as [Hok Hr].
      split; [eapply put_sym_ok; eauto|].
      destruct (get_put_same p i' j' d1 x x' G) as (d2 & G2 & _). exists d2, x'. split; [assumption|].
      destruct Hok as [->|(dd & xx & Hdef & ->)]; [congruence|].
      cbn. inversion Hdef as [_|? ? T|? ? T]; subst.
      + auto.
      + rewrite T in Hox. discriminate.
      + rewrite T in Hox. discriminate.
    - cbn in E. injection E as <-. split; [assumption|]. do 2 eexists. split; [exact G|].
      inversion Hdef as [_|? ? T|? ? T]; subst.
      + cbn. auto.
      + rewrite T in Hox. discriminate.
      + rewrite T in Hox. discriminate. }
  clearbody r1. destruct r1 as [p1| |]; try discriminate. cbn [bind] in H.
  destruct (HR p1 eq_refl) as (HP1 & d2 & x2 & G2 & V & Fi & Li). rewrite G2 in H. injection H as <-.
  assert (HY : sym_ok s0 y0 (LSym (ls_name y0) (ls_type y0) (ls_value x2) true (ls_file x2) (ls_line x2)
                (Some (sc_id d1)) (ls_expr y0))).
  { right. exists d, x. split; [assumption|]. rewrite V, Fi, Li. unfold sc_id.
    destruct (sect_ok_same _ _ HS) as [-> _]. reflexivity. }
  split; [eapply put_sym_ok; eauto|].
  destruct (get_sym_back p1 i j s0 y0 HP1 Hij) as (s1 & y1 & G1 & _).
  destruct (get_put_same p1 i j s1 y1 (LSym (ls_name y0) (ls_type y0) (ls_value x2) true (ls_file x2) (ls_line x2)
                (Some (sc_id d1)) (ls_expr y0)) G1) as (s2 & G3 & _).
  do 2 eexists. split; [exact G3|reflexivity].
Qed.

Variable linkerValue : program -> list Z -> res (Z * option Z).

Lemma resolveSymbol_ok : forall p i j allow p' s y, prog_ok p -> get_sym p i j = Some (s, y) ->
  ls_resolved y = false -> resolveSymbol linkerValue p i j allow = Ok p' ->
  prog_ok p' /\
  ((exists s' y', get_sym p' i j = Some (s', y') /\ ls_resolved y' = true) \/
   (p' = p /\ allow = true /\ ls_type y = SYM_IMPORT /\ forall s0 d x, ~ defines p0 s0 y d x)).
Proof.
  intros p i j allow p' s y HP G Hr H. unfold resolveSymbol in H. rewrite G in H.
  destruct (get_sym_ok p i j s y HP G) as (s0 & y0 & Hat & HS & HY).
  destruct HY as [->|(dd & xx & _ & ->)]; [|discriminate].
  destruct (Hfresh s0 y0) as [Hres [_ Hnl]]; try (apply (in_symbol_at _ _ _ _ Hat)).
  fold (own (ls_type y0)) in H. destruct (own (ls_type y0)) eqn:Ho.
  - destruct (resolveDefined s y0) as [y'| |] eqn:RD; try discriminate. cbn in H. injection H as <-.
    destruct (resolveDefined_ok s0 y0 s y' Ho HS RD) as [Hok Hr'].
    split; [eapply put_sym_ok; eauto|]. left. destruct (get_put_same p i j s y0 y' G) as (s' & G' & _). eauto.
  - destruct (ls_type y0 =? SYM_IMPORT) eqn:TI.
    + apply Z.eqb_eq in TI.
      destruct (find_symbol _ _ p 0) as [[i' j']|] eqn:FS.
      * destruct (find_import p s0 y0 i' j' HP TI FS) as (d & x & Hat' & HD & Tx).
        destruct (resolveFrom_ok p i j s0 y0 i' j' d x p' HP Hat Hat') as [A B]; auto.
        { rewrite Tx. reflexivity. }
      * destruct allow; [|discriminate]. injection H as <-. split; [assumption|]. right.
        split; [reflexivity|]. split; [reflexivity|]. split; [assumption|].
        intros s1 d x. eapply find_import_none; eauto.
    + destruct (ls_type y0 =? SYM_LOCALIMPORT) eqn:TL.
      * apply Z.eqb_eq in TL. destruct (sect_ok_same _ _ HS) as [_ HFi]. rewrite HFi in H.
        destruct (find_symbol _ _ p 0) as [[i' j']|] eqn:FS; [|discriminate].
        destruct (find_local p s0 y0 i' j' HP TL FS) as (d & x & Hat' & HD & Tx).
        destruct (resolveFrom_ok p i j s0 y0 i' j' d x p' HP Hat Hat') as [A B]; auto.
        { destruct Tx as [-> | ->]; reflexivity. }
      * destruct (ls_type y0 =? SYM_LINKER) eqn:TK; [|discriminate]. apply Z.eqb_eq in TK. congruence.
Qed.
Lemma getSymbol_ok : forall p i j allow p', prog_ok p -> getSymbol linkerValue p i j allow = Ok p' ->
  prog_ok p' /\
  ((exists s' y', get_sym p' i j = Some (s', y') /\ ls_resolved y' = true) \/
   (p' = p /\ allow = true /\ exists s y, get_sym p i j = Some (s, y) /\ ls_resolved y = false /\
     ls_type y = SYM_IMPORT /\ forall s0 d x, ~ defines p0 s0 y d x)).
Proof.
  intros p i j allow p' HP H. unfold getSymbol in H. destruct (nth_error p i) as [s|] eqn:N; [|discriminate].
  destruct (nth_error (sc_symbols s) j) as [y|] eqn:M; [|discriminate].
  assert (G : get_sym p i j = Some (s, y)) by (unfold get_sym; rewrite N, M; reflexivity).
  destruct (ls_resolved y) eqn:R.
  - injection H as <-. split; [assumption|]. left. eauto.
  - destruct (resolveSymbol_ok p i j allow p' s y HP G R H) as [A [B|(B & C & D & E)]]; split; auto.
    right. split; [assumption|]. split; [assumption|]. exists s, y. auto.
Qed.

(** Resolved symbols stay as they are. *)
Definition keeps (p p' : program) : Prop := forall i j s y, get_sym p i j = Some (s, y) -> ls_resolved y = true ->
  exists s', get_sym p' i j = Some (s', y).
Lemma keeps_refl : forall p, keeps p p.
Proof. intros p i j s y H _. eauto. Qed.
Lemma keeps_trans : forall p q r, keeps p q -> keeps q r -> keeps p r.
Proof. intros p q r H1 H2 i j s y H R. destruct (H1 _ _ _ _ H R) as [s' H']. eauto. Qed.
Lemma keeps_put : forall p i j s y y', get_sym p i j = Some (s, y) -> ls_resolved y = false ->
  keeps p (put_sym p i j y').
Proof.
  intros p i j s y y' G R i1 j1 s1 y1 G1 R1.
  assert (HN : i <> i1 \/ j <> j1).
  { destruct (PeanoNat.Nat.eq_dec i i1) as [->|]; [|tauto]. destruct (PeanoNat.Nat.eq_dec j j1) as [->|]; [|tauto].
    rewrite G in G1. injection G1 as -> ->. congruence. }
  pose proof (get_put_other p i j i1 j1 y' HN) as Q. destruct (get_sym (put_sym p i j y') i1 j1) as [[s2 y2]|].
  - destruct Q as [s3 Q]. rewrite G1 in Q. injection Q as _ <-. eauto.
  - congruence.
Qed.
Lemma resolveFrom_keeps : forall p i j s y i' j' p', get_sym p i j = Some (s, y) -> ls_resolved y = false ->
  (forall d x, get_sym p i' j' = Some (d, x) -> ls_type x <> ls_type y) ->
  resolveFrom p i j y i' j' = Ok p' -> keeps p p'.
Proof.
  intros p i j s y i' j' p' G R HT H. unfold resolveFrom in H. destruct (get_sym p i' j') as [[d x]|] eqn:G'; [|discriminate].
  assert (HN : i' <> i \/ j' <> j).
  { destruct (PeanoNat.Nat.eq_dec i' i) as [->|]; [|tauto]. destruct (PeanoNat.Nat.eq_dec j' j) as [->|]; [|tauto].
    rewrite G in G'. injection G' as -> ->. exfalso. eapply HT; reflexivity. }
  destruct (ls_resolved x) eqn:Rx.
  - cbn in H. rewrite G' in H. injection H as <-. eapply keeps_put; eauto.
  - destruct (resolveDefined d x) as [x'| |]; try discriminate. cbn in H.
    destruct (get_sym (put_sym p i' j' x') i' j') as [[d2 x2]|]; [|discriminate]. injection H as <-.
    eapply keeps_trans; [eapply keeps_put; [exact G'|exact Rx]|].
    pose proof (get_put_other p i' j' i j x' HN) as Q. destruct (get_sym (put_sym p i' j' x') i j) as [[s3 y3]|] eqn:G3.
    + destruct Q as [s4 Q]. rewrite G in Q. injection Q as _ <-. eapply keeps_put; eauto.
    + congruence.
Qed.
Lemma getSymbol_keeps : forall p i j allow p', prog_ok p -> getSymbol linkerValue p i j allow = Ok p' -> keeps p p'.
Proof.
  intros p i j allow p' HP H. unfold getSymbol in H. destruct (nth_error p i) as [s|] eqn:N; [|discriminate].
  destruct (nth_error (sc_symbols s) j) as [y|] eqn:M; [|discriminate].
  assert (G : get_sym p i j = Some (s, y)) by (unfold get_sym; rewrite N, M; reflexivity).
  destruct (ls_resolved y) eqn:R; [injection H as <-; apply keeps_refl|].
  unfold resolveSymbol in H. rewrite G in H.
  destruct (get_sym_ok p i j s y HP G) as (s0 & y0 & Hat & HS & HY).
  destruct HY as [->|(dd & xx & _ & ->)]; [|discriminate].
  fold (own (ls_type y0)) in H. destruct (own (ls_type y0)) eqn:Ho.
  - destruct (resolveDefined s y0) as [y'| |]; try discriminate. cbn in H. injection H as <-. eapply keeps_put; eauto.
  - destruct (ls_type y0 =? SYM_IMPORT) eqn:TI.
    + apply Z.eqb_eq in TI. destruct (find_symbol _ _ p 0) as [[i' j']|] eqn:FS.
      * eapply resolveFrom_keeps; eauto. intros d x Gd. destruct (find_import p s0 y0 i' j' HP TI FS) as (d0 & x0 & Hat' & _ & Tx).
        destruct (get_sym_back p i' j' d0 x0 HP Hat') as (d1 & x1 & G1 & _ & HX). rewrite Gd in G1. injection G1 as -> ->.
        apply sym_ok_same in HX as [-> _]. rewrite Tx, TI. discriminate.
      * destruct allow; [|discriminate]. injection H as <-. apply keeps_refl.
    + destruct (ls_type y0 =? SYM_LOCALIMPORT) eqn:TL.
      * apply Z.eqb_eq in TL. destruct (sect_ok_same _ _ HS) as [_ HFi]. rewrite HFi in H.
        destruct (find_symbol _ _ p 0) as [[i' j']|] eqn:FS; [|discriminate].
        eapply resolveFrom_keeps; eauto. intros d x Gd. destruct (find_local p s0 y0 i' j' HP TL FS) as (d0 & x0 & Hat' & _ & Tx).
        destruct (get_sym_back p i' j' d0 x0 HP Hat') as (d1 & x1 & G1 & _ & HX). rewrite Gd in G1. injection G1 as -> ->.
        apply sym_ok_same in HX as [-> _]. rewrite TL. destruct Tx as [-> | ->]; discriminate.
      * destruct (ls_type y0 =? SYM_LINKER); [|discriminate]. destruct (linkerValue p (ls_expr y0)) as [[v k]| |]; try discriminate.
        cbn in H. injection H as <-. eapply keeps_put; eauto.
Qed.

(** A symbol defined by [x] of [d] can be resolved when its address is in range. *)
Lemma resolveDefined_total : forall s0 s x, sect_ok s0 s -> is_s32 (address s0 x) ->
  exists x', resolveDefined s x = Ok x'.
Proof.
  intros s0 s x HS HA. unfold resolveDefined, address, sc_cpuLocation in *. destruct (sect_ok_same _ _ HS) as [-> _].
  destruct (s_cpuLocation (sc_place s0) =? -1); [cbn; eauto|].
  unfold c_add, chk. unfold is_s32 in HA.
  match goal with |- context [if ?c then _ else _] => destruct c eqn:I end; [cbn; eauto|].
  exfalso. lia.
Qed.
Lemma resolveFrom_total : forall p i j y0 i' j' d x, prog_ok p -> symbol_at p0 i' j' d x ->
  is_s32 (address d x) -> exists p', resolveFrom p i j y0 i' j' = Ok p'.
Proof.
  intros p i j y0 i' j' d x HP Hat HA. unfold resolveFrom.
  destruct (get_sym_back p i' j' d x HP Hat) as (d1 & x1 & G & HS & HX). rewrite G.
  destruct HX as [->|(dd & xx & Hdef & ->)].
  - destruct (Hfresh d x) as [-> _]; try (apply (in_symbol_at _ _ _ _ Hat)).
    destruct (resolveDefined_total d d1 x HS HA) as [x' ->]. cbn.
    destruct (get_put_same p i' j' d1 x x' G) as (d2 & -> & _). eauto.
  - cbn. rewrite G. eauto.
Qed.
Lemma first_symbol_unique : forall ok f p d x d' x', first_symbol ok f p d x -> first_symbol ok f p d' x' -> d = d' /\ x = x'.
Proof.
  intros ok f p d x d' x' (p1 & p2 & ys1 & ys2 & E1 & E2 & O & Fx & Hn & Hp)
    (p1' & p2' & ys1' & ys2' & E1' & E2' & O' & Fx' & Hn' & Hp').
  assert (HD : d = d').
  { rewrite E1 in E1'. clear E1. revert p1' E1' Hp'. induction p1 as [|a p1 IH]; intros [|a' p1'] E1' Hp'.
    - injection E1' as -> _. reflexivity.
    - injection E1' as -> _. exfalso. eapply (Hp' a' x); auto; [left; reflexivity|]. rewrite E2. apply in_elt.
    - injection E1' as -> _. exfalso. eapply (Hp d' x'); auto; [left; reflexivity|]. rewrite E2'. apply in_elt.
    - injection E1' as -> E1'. eapply IH; eauto.
      + intros d1 x1 Hd1. apply Hp. right. assumption.
      + intros d1 x1 Hd1. apply Hp'. right. assumption. }
  subst d'. split; [reflexivity|]. rewrite E2 in E2'. clear -E2' Fx Fx' Hn Hn'.
  revert ys1' E2' Hn'. induction ys1 as [|a ys1 IH]; intros [|a' ys1'] E Hn'.
  - injection E as -> _. reflexivity.
  - injection E as -> _. exfalso. eapply (Hn' a'); auto. left. reflexivity.
  - injection E as -> _. exfalso. eapply (Hn x'); auto. left. reflexivity.
  - injection E as -> E. eapply IH; eauto.
    + intros x1 Hx1. apply Hn. right. assumption.
    + intros x1 Hx1. apply Hn'. right. assumption.
Qed.
Lemma defines_unique : forall s y d x d' x', defines p0 s y d x -> defines p0 s y d' x' -> d = d' /\ x = x'.
Proof.
  intros s y d x d' x' H H'. unfold SYM_EXPORT, SYM_LOCAL, SYM_LOCALEXPORT, SYM_IMPORT, SYM_LOCALIMPORT in *.
  inversion H; subst; inversion H'; subst; unfold SYM_EXPORT, SYM_LOCAL, SYM_LOCALEXPORT, SYM_IMPORT, SYM_LOCALIMPORT in *;
    try lia; auto; eapply first_symbol_unique; eauto.
Qed.

(** Requesting a symbol that has a definition. *)
Lemma getSymbol_total : forall p i j allow s0 y0 d x, prog_ok p -> symbol_at p0 i j s0 y0 ->
  defines p0 s0 y0 d x -> is_s32 (address d x) ->
  exists p', getSymbol linkerValue p i j allow = Ok p'.
Proof.
  intros p i j allow s0 y0 d x HP Hat HD HA. destruct (get_sym_back p i j s0 y0 HP Hat) as (s & y & G & HS & HY).
  pose proof G as G0. unfold get_sym in G. unfold getSymbol. destruct (nth_error p i) as [s1|]; [|discriminate].
  destruct (nth_error (sc_symbols s1) j) as [y1|]; [|discriminate]. injection G as -> ->.
  destruct HY as [->|(dd & xx & _ & ->)]; [|cbn; eauto].
  destruct (Hfresh s0 y0) as [Hres [_ Hnl]]; try (apply (in_symbol_at _ _ _ _ Hat)). rewrite Hres.
  unfold resolveSymbol. rewrite G0. fold (own (ls_type y0)).
  destruct (own (ls_type y0)) eqn:Ho.
  - assert (HE : s0 = d /\ y0 = x).
    { inversion HD; subst; auto; unfold own in Ho; rewrite H in Ho; discriminate. }
    destruct HE as [<- <-]. destruct (resolveDefined_total s0 s y0 HS HA) as [y' ->]. cbn. eauto.
  - destruct (ls_type y0 =? SYM_IMPORT) eqn:TI.
    + apply Z.eqb_eq in TI. destruct (find_symbol _ _ p 0) as [[i' j']|] eqn:FS.
      * destruct (find_import p s0 y0 i' j' HP TI FS) as (d0 & x0 & Hat' & HD' & Tx).
        destruct (defines_unique _ _ _ _ _ _ HD HD') as [-> ->]. eapply resolveFrom_total; eauto.
      * exfalso. eapply find_import_none; eauto.
    + destruct (ls_type y0 =? SYM_LOCALIMPORT) eqn:TL.
      * apply Z.eqb_eq in TL. destruct (sect_ok_same _ _ HS) as [_ ->].
        destruct (find_symbol _ _ p 0) as [[i' j']|] eqn:FS.
        { destruct (find_local p s0 y0 i' j' HP TL FS) as (d0 & x0 & Hat' & HD' & Tx).
          destruct (defines_unique _ _ _ _ _ _ HD HD') as [-> ->]. eapply resolveFrom_total; eauto. }
        exfalso. eapply find_local_none; eauto.
      * exfalso. inversion HD; subst; unfold own, SYM_EXPORT, SYM_LOCAL, SYM_LOCALEXPORT in *; try lia; congruence.
Qed.
(** Requesting one that has none. *)
Lemma getSymbol_missing : forall p i j allow s0 y0, prog_ok p -> symbol_at p0 i j s0 y0 ->
  (ls_type y0 = SYM_IMPORT /\ allow = false \/ ls_type y0 = SYM_LOCALIMPORT) ->
  (forall d x, ~ defines p0 s0 y0 d x) ->
  getSymbol linkerValue p i j allow = Err.
Proof.
  intros p i j allow s0 y0 HP Hat HT HD. destruct (get_sym_back p i j s0 y0 HP Hat) as (s & y & G & HS & HY).
  pose proof G as G0. unfold get_sym in G. unfold getSymbol. destruct (nth_error p i) as [s1|]; [|discriminate].
  destruct (nth_error (sc_symbols s1) j) as [y1|]; [|discriminate]. injection G as -> ->.
  destruct HY as [->|(dd & xx & HD' & _)]; [|exfalso; eapply HD; eauto].
  destruct (Hfresh s0 y0) as [Hres [_ Hnl]]; try (apply (in_symbol_at _ _ _ _ Hat)). rewrite Hres.
  unfold resolveSymbol. rewrite G0. destruct HT as [[HT ->]|HT]; rewrite HT; cbn.
  - destruct (find_symbol _ _ p 0) as [[i' j']|] eqn:FS; [|reflexivity].
    destruct (find_import p s0 y0 i' j' HP HT FS) as (d & x & _ & Hd & _). exfalso. eapply HD; eauto.
  - destruct (sect_ok_same _ _ HS) as [_ ->].
    destruct (find_symbol _ _ p 0) as [[i' j']|] eqn:FS; [|reflexivity].
    destruct (find_local p s0 y0 i' j' HP HT FS) as (d & x & _ & Hd & _). exfalso. eapply HD; eauto.
Qed.

Lemma resolving_ok : forall p, resolving linkerValue p0 p -> prog_ok p.
Proof. intros p H. induction H; [apply prog_ok_init|]. eapply getSymbol_ok; eauto. Qed.

(** ** Views *)
Hypothesis Hids : NoDup (map (fun s => s_id (sc_place s)) p0).

Lemma by_id_ok : forall p d, prog_ok p -> In d p0 -> exists d', by_id p (sc_id d) = Some d' /\ sc_place d' = sc_place d.
Proof.
  intros p d HP HI. unfold prog_ok in HP. revert HI Hids.
  generalize (fun a b H => proj1 (sect_ok_same a b H)) as HS. intros HS HI HN.
  assert (HF : Forall2 (fun a b => sc_place b = sc_place a) p0 p) by (eapply Forall2_impl; [|exact HP]; intros; apply HS; assumption).
  clear HP HS Hfresh. unfold by_id. induction HF as [|a b l l' Hab HF IH]; [destruct HI|].
  cbn in *. apply NoDup_cons_iff in HN as [HN1 HN2]. unfold sc_id at 1. rewrite Hab.
  destruct HI as [->|HI].
  - unfold sc_id. rewrite Z.eqb_refl. eauto.
  - destruct (s_id (sc_place a) =? sc_id d) eqn:E; [|apply IH; assumption].
    apply Z.eqb_eq in E. exfalso. apply HN1. rewrite E. unfold sc_id.
    apply (in_map (fun s => s_id (sc_place s)) _ _ HI).
Qed.
Lemma defines_in : forall s y d x, In s p0 -> defines p0 s y d x -> In d p0.
Proof.
  intros s y d x Hs H. inversion H as [|? ? ? HF|? ? ? HF]; subst; auto;
    destruct HF as (p1 & p2 & ys1 & ys2 & -> & _); apply in_elt.
Qed.

Lemma symbol_view_ok : forall p i allow id s0 y0 d x, prog_ok p -> symbol_at p0 i (Z.to_nat id) s0 y0 ->
  defines p0 s0 y0 d x -> is_s32 (address d x) ->
  symbol_view linkerValue p i allow id = Ok (seen y0 x d).
Proof.
  intros p i allow id s0 y0 d x HP Hat HD HA. unfold symbol_view.
  destruct (getSymbol_total p i (Z.to_nat id) allow s0 y0 d x HP Hat HD HA) as [p' E]. rewrite E. cbn.
  destruct (getSymbol_ok p i _ allow p' HP E) as [HP' HR].
  destruct (get_sym_back p' i _ s0 y0 HP' Hat) as (s & y & G & HS & HY). rewrite G.
  destruct HR as [(s' & y' & G' & R)|(-> & -> & s1 & y1 & G1 & R1 & T1 & N1)].
  2:{ exfalso. rewrite G in G1. injection G1 as <- <-. destruct HY as [->|(dd & xx & _ & ->)]; [|discriminate].
      eapply N1; eauto. }
  rewrite G in G'. injection G' as <- <-.
  destruct HY as [->|(dd & xx & HD' & ->)].
  { destruct (Hfresh s0 y0) as [Hres _]; try (apply (in_symbol_at _ _ _ _ Hat)). congruence. }
  destruct (defines_unique _ _ _ _ _ _ HD HD') as [<- <-].
  unfold view, seen. cbn. destruct (by_id_ok p' d HP') as (d' & B & Hpl).
  { eapply defines_in; eauto. apply (in_symbol_at _ _ _ _ Hat). }
  rewrite B. unfold sc_cpuLocation, sc_isEqu, isEqu. rewrite Hpl. reflexivity.
Qed.
Lemma symbol_view_missing : forall p i allow id s0 y0, prog_ok p -> symbol_at p0 i (Z.to_nat id) s0 y0 ->
  (ls_type y0 = SYM_IMPORT /\ allow = false \/ ls_type y0 = SYM_LOCALIMPORT) ->
  (forall d x, ~ defines p0 s0 y0 d x) ->
  symbol_view linkerValue p i allow id = Err.
Proof. intros. unfold symbol_view. erewrite getSymbol_missing; eauto. Qed.
(** A view that is given is that of the definition, or of an import allowed to
    stay open. *)
Lemma symbol_view_inv : forall p i allow id v, prog_ok p -> symbol_view linkerValue p i allow id = Ok v ->
  exists s0 y0, symbol_at p0 i (Z.to_nat id) s0 y0 /\
    ((exists d x, defines p0 s0 y0 d x /\ v = seen y0 x d) \/
     (allow = true /\ ls_type y0 = SYM_IMPORT /\ forall d x, ~ defines p0 s0 y0 d x)).
Proof.
  intros p i allow id v HP H. unfold symbol_view in H.
  destruct (getSymbol linkerValue p i (Z.to_nat id) allow) as [p'| |] eqn:E; try discriminate. cbn in H.
  destruct (getSymbol_ok p i _ allow p' HP E) as [HP' HR].
  destruct (get_sym p' i (Z.to_nat id)) as [[s y]|] eqn:G; [|discriminate].
  destruct (get_sym_ok p' i _ s y HP' G) as (s0 & y0 & Hat & HS & HY).
  exists s0, y0. split; [assumption|].
  destruct HY as [->|(d & x & HD & ->)].
  - right. destruct HR as [(s' & y' & G' & R)|(-> & -> & s1 & y1 & G1 & R1 & T1 & N1)].
    + injection G' as <- <-. destruct (Hfresh s0 y0) as [Hres _]; try (apply (in_symbol_at _ _ _ _ Hat)). congruence.
    + rewrite G in G1. injection G1 as <- <-. auto.
  - left. exists d, x. split; [assumption|]. injection H as <-. unfold view, seen. cbn.
    destruct (by_id_ok p' d HP') as (d' & B & Hpl).
    { eapply defines_in; eauto. apply (in_symbol_at _ _ _ _ Hat). }
    rewrite B. unfold sc_cpuLocation, sc_isEqu, isEqu. rewrite Hpl. reflexivity.
Qed.

(** The bank. *)
Lemma symbol_bank_ok : forall p i id s0 y0 d x, prog_ok p -> symbol_at p0 i (Z.to_nat id) s0 y0 ->
  defines p0 s0 y0 d x -> is_s32 (address d x) ->
  symbol_bank linkerValue p i id =
    Ok (if s_cpuBank (sc_place d) =? -1 then None else Some (s_cpuBank (sc_place d))).
Proof.
  intros p i id s0 y0 d x HP Hat HD HA. unfold symbol_bank.
  destruct (get_sym_back p i _ s0 y0 HP Hat) as (s & y & G & HS & HY). rewrite G.
  destruct (getSymbol_total p i (Z.to_nat id) false s0 y0 d x HP Hat HD HA) as [p' E]. rewrite E. cbn.
  destruct (getSymbol_ok p i _ false p' HP E) as [HP' HR].
  destruct (get_sym_back p' i _ s0 y0 HP' Hat) as (s2 & y2 & G2 & HS2 & HY2). rewrite G2.
  destruct HR as [(s' & y' & G' & R)|(_ & ? & _)]; [|discriminate].
  rewrite G2 in G'. injection G' as <- <-.
  destruct HY2 as [->|(dd & xx & HD' & ->)].
  { destruct (Hfresh s0 y0) as [Hres _]; try (apply (in_symbol_at _ _ _ _ Hat)). congruence. }
  destruct (defines_unique _ _ _ _ _ _ HD HD') as [<- <-]. cbn.
  destruct (by_id_ok p' d HP') as (d' & B & Hpl).
  { eapply defines_in; eauto. apply (in_symbol_at _ _ _ _ Hat). }
  rewrite B. unfold sc_cpuBank. rewrite Hpl. reflexivity.
Qed.
Lemma symbol_bank_inv : forall p i id b, prog_ok p -> symbol_bank linkerValue p i id = Ok b ->
  exists s0 y0 d x, symbol_at p0 i (Z.to_nat id) s0 y0 /\ defines p0 s0 y0 d x /\
    b = (if s_cpuBank (sc_place d) =? -1 then None else Some (s_cpuBank (sc_place d))).
Proof.
  intros p i id b HP H. unfold symbol_bank in H. destruct (get_sym p i (Z.to_nat id)) as [[s y]|] eqn:G; [|discriminate].
  destruct (getSymbol linkerValue p i (Z.to_nat id) false) as [p'| |] eqn:E; try discriminate. cbn in H.
  destruct (getSymbol_ok p i _ false p' HP E) as [HP' HR].
  destruct HR as [(s' & y' & G' & R)|(_ & ? & _)]; [|discriminate]. rewrite G' in H.
  destruct (get_sym_ok p' i _ s' y' HP' G') as (s0 & y0 & Hat & HS & HY).
  destruct HY as [->|(d & x & HD & ->)].
  { destruct (Hfresh s0 y0) as [Hres _]; try (apply (in_symbol_at _ _ _ _ Hat)). congruence. }
  exists s0, y0, d, x. split; [assumption|]. split; [assumption|]. cbn in H.
  destruct (by_id_ok p' d HP') as (d' & B & Hpl).
  { eapply defines_in; eauto. apply (in_symbol_at _ _ _ _ Hat). }
  rewrite B in H. injection H as <-. unfold sc_cpuBank. rewrite Hpl. reflexivity.
Qed.

(** ** Resolving everything *)
(** Position [i], [j] is resolved or an import that has no definition. *)
Definition done (p : program) (i j : nat) : Prop := exists s y, get_sym p i j = Some (s, y) /\
  (ls_resolved y = true \/ (ls_type y = SYM_IMPORT /\ forall s0 d x, ~ defines p0 s0 y d x)).
Lemma done_keeps : forall p p' i j, prog_ok p -> prog_ok p' -> keeps p p' -> done p i j -> done p' i j.
Proof.
  intros p p' i j HP HP' HK (s & y & G & [R|[T N]]).
  - destruct (HK _ _ _ _ G R) as [s' G']. exists s', y. auto.
  - destruct (get_sym_ok p i j s y HP G) as (s0 & y0 & Hat & _ & HY).
    destruct (get_sym_back p' i j s0 y0 HP' Hat) as (s' & y' & G' & _ & HY').
    exists s', y'. split; [assumption|]. destruct HY' as [->|(d & x & _ & ->)]; [|left; reflexivity].
    destruct HY as [->|(d & x & HD & ->)]; [right; auto|]. exfalso. cbn in T.
    eapply (N s0 d x). inversion HD; subst; [|apply def_import; assumption|].
    + unfold SYM_IMPORT, SYM_EXPORT, SYM_LOCAL, SYM_LOCALEXPORT in *. lia.
    + unfold SYM_IMPORT, SYM_LOCALIMPORT in *. lia.
Qed.
Lemma resolveRest_ok : forall n p i j p', prog_ok p -> resolving linkerValue p0 p -> resolveRest linkerValue p i j n = Ok p' ->
  prog_ok p' /\ keeps p p' /\ resolving linkerValue p0 p' /\ forall k, (j <= k < j + n)%nat -> done p' i k.
Proof.
  induction n as [|n IH]; intros p i j p' HP HR H; cbn in H.
  - injection H as <-. split; [assumption|]. split; [apply keeps_refl|]. split; [assumption|]. intros; lia.
  - destruct (getSymbol linkerValue p i j true) as [p1| |] eqn:E; try discriminate. cbn in H.
    destruct (getSymbol_ok p i j true p1 HP E) as [HP1 HD1].
    pose proof (getSymbol_keeps p i j true p1 HP E) as K1.
    destruct (IH p1 i (S j) p' HP1 (resolving_more _ _ _ _ _ _ _ HR E) H) as (HP' & K2 & HR' & HD2).
    split; [assumption|]. split; [eapply keeps_trans; eauto|]. split; [assumption|].
    intros k Hk. destruct (PeanoNat.Nat.eq_dec k j) as [->|]; [|apply HD2; lia].
    eapply done_keeps; [exact HP1|exact HP'|exact K2|].
    destruct HD1 as [(s & y & G & R)|(-> & _ & s & y & G & R & T & N)]; exists s, y; auto.
Qed.
Lemma nth_ok : forall p i s, prog_ok p -> nth_error p i = Some s -> exists s0, nth_error p0 i = Some s0 /\ sect_ok s0 s.
Proof. intros p i s HP H. eapply Forall2_nth in H; [|exact HP]. exact H. Qed.
Lemma resolveSections_ok : forall n p i p', prog_ok p -> resolving linkerValue p0 p ->
  resolveSections linkerValue p i n = Ok p' ->
  prog_ok p' /\ keeps p p' /\ resolving linkerValue p0 p' /\
  forall k s0 j, (i <= k < i + n)%nat -> nth_error p0 k = Some s0 -> sc_used s0 = true ->
    (j < length (sc_symbols s0))%nat -> done p' k j.
Proof.
  induction n as [|n IH]; intros p i p' HP HR H; cbn in H.
  - injection H as <-. split; [assumption|]. split; [apply keeps_refl|]. split; [assumption|]. intros; lia.
  - destruct (nth_error p i) as [s|] eqn:N; [|discriminate].
    destruct (nth_ok p i s HP N) as (s0 & N0 & HS).
    destruct (if sc_used s then resolveRest linkerValue p i 0 (length (sc_symbols s)) else Ok p) as [p1| |] eqn:E; try discriminate.
    cbn in H.
    assert (H1 : prog_ok p1 /\ keeps p p1 /\ resolving linkerValue p0 p1 /\
      (sc_used s0 = true -> forall k, (k < length (sc_symbols s0))%nat -> done p1 i k)).
    { assert (HU : sc_used s = sc_used s0) by (unfold sc_used; destruct (sect_ok_same _ _ HS) as [-> _]; reflexivity).
      rewrite HU in E. destruct (sc_used s0).
      - destruct (resolveRest_ok _ _ _ _ _ HP HR E) as (A & B & C & D). repeat (split; [assumption|]).
        intros _ k Hk. apply D. destruct HS as [_ HS]. apply Forall2_len in HS. lia.
      - injection E as <-. split; [assumption|]. split; [apply keeps_refl|]. split; [assumption|]. discriminate. }
    destruct H1 as (HP1 & K1 & HR1 & HD1). destruct (IH p1 (S i) p' HP1 HR1 H) as (HP' & K2 & HR' & HD2).
    split; [assumption|]. split; [eapply keeps_trans; eauto|]. split; [assumption|].
    intros k sk j Hk Nk Uk Hj. destruct (PeanoNat.Nat.eq_dec k i) as [->|].
    + rewrite N0 in Nk. injection Nk as <-. eapply done_keeps; [exact HP1|exact HP'|exact K2|]. auto.
    + eapply HD2; eauto. lia.
Qed.
End Inv.
