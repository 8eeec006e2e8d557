(** Proofs about smart linking. *)
From Coq Require Import ZArith List Bool Lia ZifyBool ZifyNat.
From Verif Require Import Base BaseFacts AssignModel Arith LinkExprModel LinkModel LinkSpec ResolveProofs.
Import ListNotations.
Open Scope Z_scope.

(** ** The searches *)
Lemma find_index_first : forall A (f : A -> bool) l j, find_index f l 0 = Some j <->
  exists x, nth_error l j = Some x /\ f x = true /\ forall j' x', (j' < j)%nat -> nth_error l j' = Some x' -> f x' = false.
Proof.
  intros A f l j.
  assert (G : forall l k j, find_index f l k = Some j <-> exists m x, j = (k + m)%nat /\ nth_error l m = Some x /\ f x = true /\
    forall j' x', (j' < m)%nat -> nth_error l j' = Some x' -> f x' = false).
  { clear. induction l as [|a l IH]; intros k j; cbn [find_index].
    - split; [discriminate|]. intros (m & x & _ & N & _). destruct m; discriminate.
    - destruct (f a) eqn:Fa.
      + split.
        * intros [= <-]. exists 0%nat, a. repeat split; auto; intros; lia.
        * intros (m & x & -> & N & Fx & HF). destruct m as [|m]; [f_equal; lia|].
          rewrite (HF 0%nat a) in Fa; [discriminate|lia|reflexivity].
      + rewrite IH. split.
        * intros (m & x & -> & N & Fx & HF). exists (S m), x. split; [lia|]. repeat split; auto.
          intros [|j'] x' Hj Nj; cbn in Nj; [congruence|]. eapply HF; eauto. lia.
        * intros (m & x & -> & N & Fx & HF). destruct m as [|m]; [cbn in N; congruence|].
          exists m, x. split; [lia|]. repeat split; auto. intros j' x' Hj Nj. apply (HF (S j')); [lia|assumption]. }
  rewrite G. split.
  - intros (m & x & -> & H). exists x. exact H.
  - intros (x & H). exists j, x. split; [reflexivity|exact H].
Qed.
Lemma covering_spec : forall p v fid k, findSectionContainingAddress p v fid = Some k <->
  exists t, first_section (covers v fid) p k t.
Proof.
  intros p v fid k. unfold findSectionContainingAddress. rewrite find_index_first.
  assert (E : forall s, (sc_fileId s =? fid) && (sc_cpuLocation s <=? v) && (v <? s32 (sc_cpuLocation s + s_size (sc_place s))) = true
     <-> covers v fid s).
  { intros s. unfold covers, sc_cpuLocation. rewrite !andb_true_iff, Z.eqb_eq, Z.leb_le, Z.ltb_lt. tauto. }
  unfold first_section. split; intros (x & N & C & HF); exists x; (split; [assumption|]); split.
  - apply E. exact C.
  - intros k' d' Hk Nk HC. apply E in HC. rewrite (HF _ _ Hk Nk) in HC. discriminate.
  - apply E. exact C.
  - intros k' d' Hk Nk. apply not_true_is_false. rewrite E. eauto.
Qed.
Lemma hasSymbol_some : forall s name t x, sectionHasSymbol s name t = Some x <-> named t name s x.
Proof.
  intros s name t x. unfold sectionHasSymbol, named. generalize (sc_symbols s) as l.
  induction l as [|a l IH]; cbn [find].
  - split; [discriminate|]. intros (ys1 & ys2 & E & _). destruct ys1; discriminate.
  - destruct ((ls_type a =? t) && beq (ls_name a) name) eqn:C.
    + apply andb_prop in C as [C1 C2]. apply Z.eqb_eq in C1. apply beq_eq in C2. split.
      * intros [= ->]. exists [], l. repeat split; auto.
      * intros (ys1 & ys2 & E & T & Nm & HF). destruct ys1 as [|b ys1]; injection E as -> ->; [reflexivity|].
        exfalso. apply (HF b); [left; reflexivity|auto].
    + rewrite IH. split.
      * intros (ys1 & ys2 & -> & T & Nm & HF). exists (a :: ys1), ys2. repeat split; auto.
        intros x' [<-|Hx]; [|auto]. intros [T' N']. rewrite T', N', Z.eqb_refl, beq_refl in C. discriminate.
      * intros (ys1 & ys2 & E & T & Nm & HF). destruct ys1 as [|b ys1]; injection E as -> ->.
        { rewrite T, Nm, Z.eqb_refl, beq_refl in C. discriminate. }
        exists ys1, ys2. repeat split; auto. intros x' Hx. apply HF. right. assumption.
Qed.
Lemma hasSymbol_none : forall s name t, sectionHasSymbol s name t = None <-> ~ has_symbol t name s.
Proof.
  intros s name t. unfold sectionHasSymbol, has_symbol. split.
  - intros H (x & Hx & T & Nm). pose proof (find_none _ _ H x Hx) as Q. cbv beta in Q.
    rewrite T, Nm, Z.eqb_refl, beq_refl in Q. discriminate.
  - intros H. destruct (find _ _) as [x|] eqn:F; [|reflexivity]. exfalso. apply H. apply find_some in F as [Hx C].
    apply andb_prop in C as [C1 C2]. apply Z.eqb_eq in C1. apply beq_eq in C2. eauto.
Qed.
Lemma named_has : forall t name d x, named t name d x -> has_symbol t name d.
Proof. intros t name d x (ys1 & ys2 & E & T & Nm & _). exists x. rewrite E. split; [apply in_elt|auto]. Qed.
Lemma named_unique : forall t name d x x', named t name d x -> named t name d x' -> x = x'.
Proof. intros t name d x x' H H'. apply hasSymbol_some in H, H'. congruence. Qed.
Lemma first_section_unique : forall f p k d k' d', first_section f p k d -> first_section f p k' d' -> k = k' /\ d = d'.
Proof.
  intros f p k d k' d' (N & C & HF) (N' & C' & HF'). destruct (Compare_dec.lt_eq_lt_dec k k') as [[L|E]|L].
  - exfalso. eapply HF'; eauto.
  - subst. split; [reflexivity|congruence].
  - exfalso. eapply HF; eauto.
Qed.

(** What the code looks at when it follows a found symbol. *)
Definition at_home (p : program) (m : nat) (d : lsect) (x : lsym) : option nat :=
  if sc_isEqu d then findSectionContainingAddress p (ls_value x) (sc_fileId d) else Some m.
Lemma at_home_spec : forall p m d x k, at_home p m d x = Some k <-> home p m d x k.
Proof.
  intros p m d x k. unfold at_home, sc_isEqu, isEqu. destruct (s_group (sc_place d)) as [g|] eqn:G.
  - split; [intros [= <-]; constructor; congruence|]. intros H. inversion H; subst; congruence.
  - rewrite covering_spec. split; [intros [t H]; eapply home_constant; eauto|]. intros H. inversion H; subst; [congruence|eauto].
Qed.

Section S.
Variable p0 : program.
Hypothesis Hfresh : fresh p0.
Hypothesis Hids : NoDup (map sc_id p0).

Lemma index_of_nth : forall k s, nth_error p0 k = Some s -> index_of p0 (sc_id s) = Some k.
Proof.
  intros k s N. unfold index_of. apply find_index_first. exists s. split; [exact N|]. split; [apply Z.eqb_refl|].
  intros k' s' L N'. apply Z.eqb_neq. intro E. rewrite NoDup_nth_error in Hids.
  assert (k' = k); [|lia]. apply Hids; [rewrite map_length; apply nth_error_Some; congruence|].
  rewrite (map_nth_error sc_id _ _ N'), (map_nth_error sc_id _ _ N). congruence.
Qed.

Lemma no_linker : forall s name, In s p0 -> sectionHasSymbol s name SYM_LINKER = None.
Proof.
  intros s name Hs. apply hasSymbol_none. intros (x & Hx & T & _). destruct (Hfresh s x Hs Hx) as (_ & _ & H). congruence.
Qed.
Lemma findExporter_spec : forall name p k, (forall m s, nth_error p m = Some s -> nth_error p0 (k + m) = Some s) ->
  (exists m d x, first_section (has_symbol SYM_EXPORT name) p m d /\ named SYM_EXPORT name d x /\
     findExporter p0 p name k = at_home p0 (k + m) d x) \/
  ((forall d, In d p -> ~ has_symbol SYM_EXPORT name d) /\ findExporter p0 p name k = None).
Proof.
  intros name. induction p as [|s p IH]; intros k HI.
  - right. split; [intros d []|reflexivity].
  - cbn [findExporter]. assert (Hkk : nth_error p0 k = Some s) by (rewrite <- (PeanoNat.Nat.add_0_r k); apply HI; reflexivity).
    assert (Hs : In s p0) by (eapply nth_error_In; eauto). rewrite no_linker by exact Hs.
    destruct (sectionHasSymbol s name SYM_EXPORT) as [y|] eqn:HS.
    + left. exists 0%nat, s, y. apply hasSymbol_some in HS. split.
      * split; [reflexivity|]. split; [eapply named_has; eauto|intros; lia].
      * split; [assumption|]. destruct HS as (ys1 & ys2 & E & _).
        unfold at_home. rewrite PeanoNat.Nat.add_0_r.
        destruct (Hfresh s y) as (_ & [->|[-> G]] & _); [exact Hs|rewrite E; apply in_elt|reflexivity|].
        rewrite (index_of_nth _ _ Hkk). unfold sc_isEqu, isEqu. destruct (s_group (sc_place s)); [reflexivity|congruence].
    + apply hasSymbol_none in HS.
      destruct (IH (S k)) as [(m & d & x & (N & C & HF) & Hn & E)|[HN E]].
      * intros m s' N. replace (S k + m)%nat with (k + S m)%nat by lia. apply HI. exact N.
      * left. exists (S m), d, x. split.
        { split; [exact N|]. split; [assumption|]. intros [|k'] d' Hk Nk; cbn in Nk; [congruence|]. apply (HF k'); [lia|assumption]. }
        split; [assumption|]. rewrite E. f_equal. lia.
      * right. split; [|assumption]. intros d [<-|Hd]; auto.
Qed.
Lemma exporter_iff : forall name k, sect_FindSectionWithExportedSymbol p0 name = Some k <-> exporter p0 name k.
Proof.
  intros name k. unfold sect_FindSectionWithExportedSymbol.
  destruct (findExporter_spec name p0 0%nat (fun m s H => H)) as [(m & d & x & F & Hn & ->)|[HN ->]].
  - rewrite at_home_spec. split.
    + intros H. exists m, d, x. auto.
    + intros (m' & d' & x' & F' & Hn' & H). destruct (first_section_unique _ _ _ _ _ _ F F') as [<- <-].
      rewrite (named_unique _ _ _ _ _ Hn Hn'). exact H.
  - split; [discriminate|]. intros (m & d & x & (N & C & _) & _). exfalso. eapply HN; eauto. eapply nth_error_In; eauto.
Qed.
Lemma findLocal_spec : forall name fid p k, (forall s, In s p -> In s p0) ->
  (exists m d x, first_section (fun d => sc_fileId d = fid /\ has_symbol SYM_LOCALEXPORT name d) p m d /\
     named SYM_LOCALEXPORT name d x /\ findLocalExporter p0 p name fid k = at_home p0 (k + m) d x) \/
  ((forall d, In d p -> sc_fileId d = fid -> ~ has_symbol SYM_LOCALEXPORT name d) /\
     findLocalExporter p0 p name fid k = sect_FindSectionWithExportedSymbol p0 name).
Proof.
  intros name fid. induction p as [|s p IH]; intros k HI.
  - right. split; [intros d []|reflexivity].
  - cbn [findLocalExporter].
    destruct (if sc_fileId s =? fid then sectionHasSymbol s name SYM_LOCALEXPORT else None) as [y|] eqn:HS.
    + left. exists 0%nat, s, y. destruct (sc_fileId s =? fid) eqn:FI; [|discriminate]. apply Z.eqb_eq in FI.
      apply hasSymbol_some in HS. split.
      * split; [reflexivity|]. split; [split; [assumption|eapply named_has; eauto]|intros; lia].
      * split; [assumption|]. unfold at_home. rewrite PeanoNat.Nat.add_0_r. reflexivity.
    + assert (HN : ~ (sc_fileId s = fid /\ has_symbol SYM_LOCALEXPORT name s)).
      { intros [E1 E2]. rewrite E1, Z.eqb_refl in HS. apply hasSymbol_none in HS. auto. }
      destruct (IH (S k)) as [(m & d & x & (N & C & HF) & Hn & E)|[HN' E]].
      * intros; apply HI; right; assumption.
      * left. exists (S m), d, x. split.
        { split; [exact N|]. split; [assumption|]. intros [|k'] d' Hk Nk; cbn in Nk; [congruence|]. apply (HF k'); [lia|assumption]. }
        split; [assumption|]. rewrite E. f_equal. lia.
      * right. split; [|assumption]. intros d [<-|Hd]; auto.
Qed.
Lemma local_exporter_iff : forall name fid k, sect_FindSectionWithLocallyExportedSymbol p0 name fid = Some k <->
  local_exporter p0 name fid k.
Proof.
  intros name fid k. unfold sect_FindSectionWithLocallyExportedSymbol, local_exporter.
  destruct (findLocal_spec name fid p0 0%nat (fun s H => H)) as [(m & d & x & F & Hn & ->)|[HN ->]].
  - rewrite at_home_spec. split.
    + intros H. left. exists m, d, x. auto.
    + intros [(m' & d' & x' & F' & Hn' & H)|[HN _]].
      * destruct (first_section_unique _ _ _ _ _ _ F F') as [<- <-]. rewrite (named_unique _ _ _ _ _ Hn Hn'). exact H.
      * exfalso. destruct F as (N & [C1 C2] & _). eapply HN; eauto. eapply nth_error_In; eauto.
  - rewrite exporter_iff. split; [auto|]. intros [(m & d & x & (N & [C1 C2] & _) & _)|[_ H]]; [|assumption].
    exfalso. eapply HN; eauto. eapply nth_error_In; eauto.
Qed.
Lemma home_in : forall m d x k, nth_error p0 m = Some d -> home p0 m d x k -> (k < length p0)%nat.
Proof.
  intros m d x k N H. apply nth_error_Some. inversion H as [|k' t _ (Nk & _)]; subst; congruence.
Qed.
Lemma exporter_in : forall name k, exporter p0 name k -> (k < length p0)%nat.
Proof. intros name k (m & d & x & (N & _) & _ & H). eapply home_in; eauto. Qed.
Lemma local_exporter_in : forall name fid k, local_exporter p0 name fid k -> (k < length p0)%nat.
Proof.
  intros name fid k [(m & d & x & (N & _) & _ & H)|[_ H]]; [eapply home_in; eauto|eapply exporter_in; eauto].
Qed.

(** ** Programs that differ in what is used *)
Definition sameu (a b : lsect) : Prop := b = a \/ b = set_used a.
Definition marked (p : program) : Prop := Forall2 sameu p0 p.
Definition is_used (p : program) (k : nat) : Prop := exists s, nth_error p k = Some s /\ sc_used s = true.

Lemma sameu_static : forall a b, sameu a b -> sc_symbols b = sc_symbols a /\ sc_fileId b = sc_fileId a /\ sc_root b = sc_root a /\
  sc_isEqu b = sc_isEqu a /\ sc_cpuLocation b = sc_cpuLocation a /\ s_size (sc_place b) = s_size (sc_place a) /\ sc_id b = sc_id a.
Proof. intros a b [->| ->]; repeat split. Qed.
Lemma covering_same : forall p v fid, marked p -> findSectionContainingAddress p v fid = findSectionContainingAddress p0 v fid.
Proof.
  intros p v fid H. unfold findSectionContainingAddress. symmetry. eapply find_index_ext; [|exact H].
  intros a b Hab. destruct (sameu_static a b Hab) as (_ & -> & _ & _ & -> & -> & _). reflexivity.
Qed.
Lemma index_same : forall p k, marked p -> index_of p k = index_of p0 k.
Proof.
  intros p k H. unfold index_of. symmetry. eapply find_index_ext; [|exact H].
  intros a b Hab. destruct (sameu_static a b Hab) as (_ & _ & _ & _ & _ & _ & ->). reflexivity.
Qed.
Lemma exporter_same : forall p name, marked p ->
  sect_FindSectionWithExportedSymbol p name = sect_FindSectionWithExportedSymbol p0 name.
Proof.
  intros p name H. unfold sect_FindSectionWithExportedSymbol.
  assert (G : forall l l' k, Forall2 sameu l l' -> findExporter p l' name k = findExporter p0 l name k).
  { intros l l' k HF. revert k. induction HF as [|a b l l' Hab _ IH]; intros k; [reflexivity|]. cbn [findExporter].
    unfold sectionHasSymbol. destruct (sameu_static a b Hab) as (-> & -> & _ & -> & _).
    rewrite IH. destruct (match find _ _ with Some y => Some y | None => find _ _ end) as [y|]; [|reflexivity].
    rewrite covering_same by assumption. destruct (ls_section y); [|reflexivity]. apply index_same. assumption. }
  apply G. exact H.
Qed.
Lemma local_same : forall p name fid, marked p ->
  sect_FindSectionWithLocallyExportedSymbol p name fid = sect_FindSectionWithLocallyExportedSymbol p0 name fid.
Proof.
  intros p name fid H. unfold sect_FindSectionWithLocallyExportedSymbol.
  assert (G : forall l l' k, Forall2 sameu l l' -> findLocalExporter p l' name fid k = findLocalExporter p0 l name fid k).
  { intros l l' k HF. revert k. induction HF as [|a b l l' Hab _ IH]; intros k; cbn [findLocalExporter].
    - apply exporter_same. assumption.
    - unfold sectionHasSymbol. destruct (sameu_static a b Hab) as (-> & -> & _ & -> & _).
      rewrite IH. destruct (if sc_fileId a =? fid then _ else None) as [y|]; [|reflexivity].
      rewrite covering_same by assumption. reflexivity. }
  apply G. exact H.
Qed.

(** Number of sections not in use. *)
Fixpoint unused (p : program) : nat :=
  match p with [] => O | s :: r => ((if sc_used s then 0 else 1) + unused r)%nat end.
Lemma unused_le : forall p, (unused p <= length p)%nat.
Proof. induction p as [|s p IH]; cbn; [lia|]. destruct (sc_used s); lia. Qed.
Lemma unused_set : forall p i s, nth_error p i = Some s ->
  (unused (set_nth p i (set_used s)) + (if sc_used s then 0 else 1) = unused p)%nat.
Proof.
  induction p as [|a p IH]; intros [|i] s N; cbn in *; try discriminate.
  - injection N as ->. destruct (sc_used s); lia.
  - specialize (IH i s N). lia.
Qed.
Lemma marked_set : forall p i s, marked p -> nth_error p i = Some s -> marked (set_nth p i (set_used s)).
Proof.
  intros p i s H N. destruct (Forall2_nth _ _ _ _ _ _ _ H N) as (s0 & N0 & HS).
  eapply Forall2_set_nth; eauto. destruct HS as [->| ->]; right; reflexivity.
Qed.
Lemma used_set : forall p i s k, nth_error p i = Some s ->
  is_used (set_nth p i (set_used s)) k <-> (k = i \/ is_used p k).
Proof.
  intros p i s k N. unfold is_used. destruct (PeanoNat.Nat.eq_dec i k) as [<-|Hk].
  - rewrite (nth_set_nth _ _ _ _ _ N). split; [auto|]. intros _. exists (set_used s). auto.
  - rewrite nth_set_nth_other by assumption. split; [auto|]. intros [E|H]; [congruence|assumption].
Qed.

(** ** The marking *)
(** [U]' extends [U]; what is new is reachable from what [S] allows, refers only to
    what is in [U'], and imports nothing that is missing. *)
Record spreads (p p' : program) (from : nat -> Prop) : Prop := {
  sp_marked : marked p';
  sp_more : forall k, is_used p k -> is_used p' k;
  sp_less : (unused p' <= unused p)%nat;
  sp_new : forall k, is_used p' k -> is_used p k \/ exists j, from j /\ reachable p0 j k;
  sp_closed : forall k, is_used p' k -> ~ is_used p k -> forall m, refers p0 k m -> is_used p' m;
  sp_sound : forall k, is_used p' k -> ~ is_used p k -> ~ dangling p0 k }.
Lemma used_dec : forall p k, is_used p k \/ ~ is_used p k.
Proof.
  intros p k. unfold is_used. destruct (nth_error p k) as [s|] eqn:N.
  - destruct (sc_used s) eqn:U; [left; eauto|right]. intros (s' & [= <-] & U'). congruence.
  - right. intros (s' & E & _). discriminate.
Qed.
Lemma spreads_refl : forall p from, marked p -> spreads p p from.
Proof. intros p from H. constructor; auto; intros; tauto. Qed.
Lemma spreads_trans : forall p q r (f1 f2 f3 : nat -> Prop), spreads p q f1 -> spreads q r f2 ->
  (forall j, f1 j -> f3 j) -> (forall j, f2 j -> f3 j) -> spreads p r f3.
Proof.
  intros p q r f1 f2 f3 A B F1 F2. constructor.
  - apply (sp_marked _ _ _ B).
  - intros k H. apply (sp_more _ _ _ B), (sp_more _ _ _ A), H.
  - pose proof (sp_less _ _ _ A). pose proof (sp_less _ _ _ B). lia.
  - intros k H. destruct (sp_new _ _ _ B k H) as [H1|(j & Hj & R)]; [|right; eauto].
    destruct (sp_new _ _ _ A k H1) as [H2|(j & Hj & R)]; [left; assumption|right; eauto].
  - intros k H HN m R. destruct (used_dec q k) as [Hq|Hq].
    + apply (sp_more _ _ _ B). eapply (sp_closed _ _ _ A); eauto.
    + eapply (sp_closed _ _ _ B); eauto.
  - intros k H HN. destruct (used_dec q k) as [Hq|Hq]; [eapply (sp_sound _ _ _ A); eauto|eapply (sp_sound _ _ _ B); eauto].
Qed.
Lemma spreads_weaken : forall p q (f1 f2 : nat -> Prop), spreads p q f1 -> (forall j, f1 j -> f2 j) -> spreads p q f2.
Proof.
  intros p q f1 f2 A H. eapply spreads_trans; [exact A|apply spreads_refl; apply (sp_marked _ _ _ A)|exact H|exact H].
Qed.

(** What marking from [i] does. *)
Definition outcome (p : program) (i : nat) (r : res program) : Prop :=
  match r with
  | Ok p' => spreads p p' (eq i) /\ is_used p' i /\ (forall m, refers p0 i m -> is_used p' m) /\ ~ dangling p0 i
  | Err => exists k, reachable p0 i k /\ dangling p0 k
  | UB => False
  end.
Definition good_mark (mark : program -> nat -> res program) (n : nat) : Prop :=
  forall p i, marked p -> (i < length p0)%nat -> ~ is_used p i -> (unused p <= n)%nat -> outcome p i (mark p i).

Lemma reach_trans : forall i j k, reachable p0 i j -> reachable p0 j k -> reachable p0 i k.
Proof. intros i j k H H'. induction H'; [assumption|]. eapply reach_next; eauto. Qed.
Lemma reach_step : forall i j k, refers p0 i j -> reachable p0 j k -> reachable p0 i k.
Proof. intros i j k H H'. eapply reach_trans; [|exact H']. eapply reach_next; [apply reach_here|exact H]. Qed.

Lemma useSection_ok : forall mark n p k, good_mark mark n -> marked p -> (k < length p0)%nat -> (unused p <= n)%nat ->
  match useSection mark p k with
  | Ok p' => spreads p p' (eq k) /\ is_used p' k
  | Err => exists m, reachable p0 k m /\ dangling p0 m
  | UB => False
  end.
Proof.
  intros mark n p k HM HP Hk Hn. unfold useSection.
  destruct (nth_error p k) as [d|] eqn:N.
  2:{ apply nth_error_None in N. pose proof (Forall2_len _ _ _ _ _ HP). lia. }
  destruct (sc_used d) eqn:U.
  - split; [apply spreads_refl; assumption|]. exists d. auto.
  - assert (HU : ~ is_used p k) by (intros (s & N' & U'); congruence).
    specialize (HM p k HP Hk HU Hn). unfold outcome in HM. destruct (mark p k) as [p'| |]; auto. tauto.
Qed.

(** The loop over the symbols of section [i]. *)
Lemma follow_ok : forall mark n i s, good_mark mark n -> nth_error p0 i = Some s ->
  forall ys p, (forall y, In y ys -> In y (sc_symbols s)) -> marked p -> (unused p <= n)%nat ->
  match followSymbols mark (sc_fileId s) p ys with
  | Ok p' => spreads p p' (fun j => refers p0 i j) /\
      forall y, In y ys ->
        (forall k, ls_type y = SYM_IMPORT /\ exporter p0 (ls_name y) k \/
                   ls_type y = SYM_LOCALIMPORT /\ local_exporter p0 (ls_name y) (sc_fileId s) k -> is_used p' k) /\
        (ls_type y = SYM_IMPORT -> exists k, exporter p0 (ls_name y) k)
  | Err => exists k, reachable p0 i k /\ dangling p0 k
  | UB => False
  end.
Proof.
  intros mark n i s HM N. induction ys as [|y ys IH]; intros p HI HP Hn; cbn [followSymbols].
  - split; [apply spreads_refl; assumption|]. intros y [].
  - set (r := if ls_type y =? SYM_LOCALIMPORT then _ else _).
    assert (HR : match r with
      | Ok p1 => spreads p p1 (fun j => refers p0 i j) /\
          (forall k, ls_type y = SYM_IMPORT /\ exporter p0 (ls_name y) k \/
                   ls_type y = SYM_LOCALIMPORT /\ local_exporter p0 (ls_name y) (sc_fileId s) k -> is_used p1 k) /\
          (ls_type y = SYM_IMPORT -> exists k, exporter p0 (ls_name y) k)
      | Err => exists k, reachable p0 i k /\ dangling p0 k
      | UB => False
      end).
    { unfold r. destruct (ls_type y =? SYM_LOCALIMPORT) eqn:TL.
      - apply Z.eqb_eq in TL. unfold useSectionWithLocalExport. rewrite local_same by assumption.
        assert (TI : ls_type y <> SYM_IMPORT) by (rewrite TL; discriminate).
        destruct (sect_FindSectionWithLocallyExportedSymbol p0 (ls_name y) (sc_fileId s)) as [k|] eqn:FS.
        + apply local_exporter_iff in FS. pose proof (local_exporter_in _ _ _ FS) as Hk.
          assert (HRf : refers p0 i k) by (exists s, y; split; [assumption|]; split; [apply HI; left; reflexivity|]; right; auto).
          pose proof (useSection_ok mark n p k HM HP Hk Hn) as HU. destruct (useSection mark p k) as [p1| |]; [|auto|auto].
          * destruct HU as [HU1 HU2]. split; [eapply spreads_weaken; [exact HU1|intros j <-; exact HRf]|].
            split; [|tauto]. intros k' [[T _]|[_ H]]; [congruence|].
            apply local_exporter_iff in FS, H. rewrite FS in H. injection H as <-. assumption.
          * destruct HU as (m & Hm & Hd). exists m. split; [eapply reach_step; eauto|assumption].
        + split; [apply spreads_refl; assumption|]. split; [|tauto].
          intros k [[T _]|[_ H]]; [congruence|]. apply local_exporter_iff in H. congruence.
      - destruct (ls_type y =? SYM_IMPORT) eqn:TI.
        + apply Z.eqb_eq in TI. apply Z.eqb_neq in TL. unfold useSectionWithGlobalExport. rewrite exporter_same by assumption.
          destruct (sect_FindSectionWithExportedSymbol p0 (ls_name y)) as [k|] eqn:FS.
          * apply exporter_iff in FS. pose proof (exporter_in _ _ FS) as Hk.
            assert (HRf : refers p0 i k) by (exists s, y; split; [assumption|]; split; [apply HI; left; reflexivity|]; left; auto).
            pose proof (useSection_ok mark n p k HM HP Hk Hn) as HU. destruct (useSection mark p k) as [p1| |]; [|auto|auto].
            { destruct HU as [HU1 HU2]. split; [eapply spreads_weaken; [exact HU1|intros j <-; exact HRf]|].
              split; [|eauto]. intros k' [[_ H]|[T _]]; [|congruence].
              apply exporter_iff in FS, H. rewrite FS in H. injection H as <-. assumption. }
            { destruct HU as (m & Hm & Hd). exists m. split; [eapply reach_step; eauto|assumption]. }
          * exists i. split; [apply reach_here|]. exists s, y. split; [assumption|]. split; [apply HI; left; reflexivity|].
            split; [assumption|]. intros k H. apply exporter_iff in H. congruence.
        + apply Z.eqb_neq in TI, TL. split; [apply spreads_refl; assumption|]. split; [|tauto].
          intros k [[T _]|[T _]]; congruence. }
    clearbody r. destruct r as [p1| |]; [|exact HR|exact HR]. cbn [bind]. destruct HR as (A & B & C).
    specialize (IH p1). pose proof (sp_less _ _ _ A) as L.
    specialize (IH (fun y' H => HI y' (or_intror H)) (sp_marked _ _ _ A) ltac:(lia)).
    destruct (followSymbols mark (sc_fileId s) p1 ys) as [p2| |]; [|exact IH|exact IH].
    destruct IH as [A2 B2]. split.
    + eapply spreads_trans; [exact A|exact A2| |]; auto.
    + intros y' [<-|Hy]; [|auto]. split; [|assumption]. intros k Hk. apply (sp_more _ _ _ A2). auto.
Qed.

Lemma markUsed_good : forall n p i, marked p -> (i < length p0)%nat ->
  (unused p - (if match nth_error p i with Some s => sc_used s | None => true end then 0 else 1) <= n)%nat ->
  outcome p i (markUsed (S n) p i).
Proof.
  induction n as [n IHn] using (well_founded_induction Wf_nat.lt_wf). intros p i HP Hi Hn. cbn [markUsed].
  destruct (nth_error p i) as [s|] eqn:N.
  2:{ apply nth_error_None in N. pose proof (Forall2_len _ _ _ _ _ HP). lia. }
  destruct (Forall2_nth _ _ _ _ _ _ _ HP N) as (s0 & N0 & HS).
  pose proof (marked_set p i s HP N) as HP1. pose proof (unused_set p i s N) as HU1.
  pose proof (fun k => used_set p i s k N) as HUS.
  set (p1 := set_nth p i (set_used s)) in *. clearbody p1.
  assert (HL : (unused p1 <= n)%nat) by (destruct (sc_used s); lia).
  assert (HM : good_mark (markUsed n) (unused p1)).
  { intros q k Hq Hk HNU Hun. destruct n as [|n'].
    - exfalso. apply HNU. destruct (nth_error q k) as [sk|] eqn:Nk.
      2:{ apply nth_error_None in Nk. pose proof (Forall2_len _ _ _ _ _ Hq). lia. }
      exists sk. split; [assumption|]. pose proof (unused_set q k sk Nk) as Q. destruct (sc_used sk); [reflexivity|lia].
    - apply IHn; [lia|assumption|assumption|].
      destruct (nth_error q k) as [sk|] eqn:Nk.
      2:{ apply nth_error_None in Nk. pose proof (Forall2_len _ _ _ _ _ Hq). lia. }
      destruct (sc_used sk) eqn:Uk; [exfalso; apply HNU; exists sk; auto|lia]. }
  destruct (sameu_static _ _ HS) as (ES & EF & _). rewrite ES, EF.
  pose proof (follow_ok (markUsed n) (unused p1) i s0 HM N0 (sc_symbols s0) p1 (fun y H => H) HP1 (le_n _)) as HF.
  destruct (followSymbols (markUsed n) (sc_fileId s0) p1 (sc_symbols s0)) as [p2| |]; [|exact HF|exact HF].
  destruct HF as [A B]. unfold outcome.
  assert (Hcl : forall m, refers p0 i m -> is_used p2 m).
  { intros m (s' & y & N' & Hy & HE). rewrite N0 in N'. injection N' as <-. apply (proj1 (B y Hy)). exact HE. }
  assert (Hsd : ~ dangling p0 i).
  { intros (s' & y & N' & Hy & T & HE). rewrite N0 in N'. injection N' as <-. destruct (proj2 (B y Hy) T) as [k Hk]. eapply HE; eauto. }
  assert (Hi2 : is_used p2 i) by (apply (sp_more _ _ _ A), HUS; left; reflexivity).
  split; [|auto]. constructor.
  - apply (sp_marked _ _ _ A).
  - intros k Hk. apply (sp_more _ _ _ A), HUS. right. assumption.
  - pose proof (sp_less _ _ _ A). destruct (sc_used s); lia.
  - intros k Hk. destruct (sp_new _ _ _ A k Hk) as [H1|(j & Hj & R)].
    + apply HUS in H1 as [->|H1]; [right|left; assumption]. exists i. split; [reflexivity|apply reach_here].
    + right. exists i. split; [reflexivity|]. eapply reach_step; eauto.
  - intros k Hk HN m R. destruct (PeanoNat.Nat.eq_dec k i) as [->|Hki]; [auto|].
    apply (sp_closed _ _ _ A k Hk); [|assumption]. intros Q. apply HUS in Q as [Q|Q]; auto.
  - intros k Hk HN. destruct (PeanoNat.Nat.eq_dec k i) as [->|Hki]; [auto|].
    apply (sp_sound _ _ _ A k Hk). intros Q. apply HUS in Q as [Q|Q]; auto.
Qed.

(** ** The whole of smart linking *)
Definition settled (p : program) : Prop :=
  forall k, is_used p k -> (forall m, refers p0 k m -> is_used p m) /\ ~ dangling p0 k.
Lemma settled_spread : forall p p' i, settled p -> outcome p i (Ok p') -> settled p'.
Proof.
  intros p p' i HS (A & B & C & D) k Hk. destruct (used_dec p k) as [Hp|Hp].
  - destruct (HS k Hp) as [H1 H2]. split; [|assumption]. intros m R. apply (sp_more _ _ _ A). auto.
  - split; [apply (sp_closed _ _ _ A k Hk Hp)|apply (sp_sound _ _ _ A k Hk Hp)].
Qed.
Lemma settled_reach : forall p i k, settled p -> is_used p i -> reachable p0 i k -> is_used p k.
Proof. intros p i k HS Hi R. induction R as [|j k R IH HR]; [assumption|]. apply (proj1 (HS j IH)). assumption. Qed.
Definition root (k : nat) : Prop := exists s, nth_error p0 k = Some s /\ sc_root s = true.

Lemma markUsed_enough : forall p i, marked p -> (i < length p0)%nat -> outcome p i (markUsed (S (length p0)) p i).
Proof.
  intros p i HP Hi. apply markUsed_good; auto. pose proof (unused_le p). pose proof (Forall2_len _ _ _ _ _ HP). lia.
Qed.
Lemma useRooted_ok : forall ks p, (forall k, In k ks -> (k < length p0)%nat) -> marked p -> settled p ->
  match useRooted (S (length p0)) p ks with
  | Ok p' => marked p' /\ settled p' /\ (forall k, is_used p k -> is_used p' k) /\
      (forall k, In k ks -> root k -> is_used p' k) /\
      (forall k, is_used p' k -> is_used p k \/ exists j, root j /\ reachable p0 j k)
  | Err => exists j k, root j /\ reachable p0 j k /\ dangling p0 k
  | UB => False
  end.
Proof.
  induction ks as [|k ks IH]; intros p HI HP HS; cbn [useRooted].
  - split; [assumption|]. split; [assumption|]. split; [auto|]. split; [intros k []|]. auto.
  - assert (Hk : (k < length p0)%nat) by (apply HI; left; reflexivity).
    destruct (nth_error p k) as [s|] eqn:N.
    2:{ apply nth_error_None in N. pose proof (Forall2_len _ _ _ _ _ HP). lia. }
    destruct (Forall2_nth _ _ _ _ _ _ _ HP N) as (s0 & N0 & HSs). destruct (sameu_static _ _ HSs) as (_ & _ & ER & _).
    rewrite ER. destruct (sc_root s0) eqn:R.
    + pose proof (markUsed_enough p k HP Hk) as O. assert (HR : root k) by (exists s0; auto).
      destruct (markUsed (S (length p0)) p k) as [p1| |].
      * cbn [bind]. pose proof (settled_spread p p1 k HS O) as HS1. destruct O as (A & B & C & D).
        specialize (IH p1 (fun k' H => HI k' (or_intror H)) (sp_marked _ _ _ A) HS1).
        destruct (useRooted (S (length p0)) p1 ks) as [p2| |]; [|exact IH|exact IH].
        destruct IH as (I1 & I2 & I3 & I4 & I5). split; [assumption|]. split; [assumption|].
        split; [intros k' H; apply I3, (sp_more _ _ _ A), H|]. split.
        { intros k' [<-|H] Hr; auto. }
        { intros k' H. destruct (I5 k' H) as [H1|H1]; [|right; assumption].
          destruct (sp_new _ _ _ A k' H1) as [H2|(j & <- & H2)]; [left; assumption|right; eauto]. }
      * cbn. destruct O as (k' & H1 & H2). eauto.
      * exact O.
    + cbn [bind]. specialize (IH p (fun k' H => HI k' (or_intror H)) HP HS).
      destruct (useRooted (S (length p0)) p ks) as [p2| |]; [|exact IH|exact IH].
      destruct IH as (I1 & I2 & I3 & I4 & I5). repeat (split; [assumption|]). split; [|assumption].
      intros k' [<-|H] Hr; [|auto]. destruct Hr as (s' & N' & R'). congruence.
Qed.

Hypothesis Hunused : forall s, In s p0 -> sc_used s = false.
Lemma none_used : forall k, ~ is_used p0 k.
Proof. intros k (s & N & U). rewrite Hunused in U; [discriminate|]. eapply nth_error_In; eauto. Qed.

Lemma smart_ok : forall entry,
  match smart_Process (S (length p0)) p0 (Some entry) with
  | Ok p' => marked p' /\ (forall k, is_used p' k <-> needed p0 entry k) /\
      (exists e, exporter p0 entry e) /\ (forall k, needed p0 entry k -> ~ dangling p0 k)
  | Err => (forall e, ~ exporter p0 entry e) \/ exists k, needed p0 entry k /\ dangling p0 k
  | UB => False
  end.
Proof.
  intros entry. unfold smart_Process, useSectionWithGlobalExport.
  assert (M0 : marked p0) by (apply Forall2_refl; intros; left; reflexivity).
  destruct (sect_FindSectionWithExportedSymbol p0 entry) as [e|] eqn:FS.
  2:{ cbn. left. intros e H. apply exporter_iff in H. congruence. }
  apply exporter_iff in FS. pose proof (exporter_in _ _ FS) as He.
  unfold useSection. destruct (nth_error p0 e) as [d|] eqn:N; [|apply nth_error_None in N; lia].
  rewrite (Hunused d) by (eapply nth_error_In; eauto).
  pose proof (markUsed_enough p0 e M0 He) as O. destruct (markUsed (S (length p0)) p0 e) as [p1| |].
  - cbn [bind]. assert (HS0 : settled p0) by (intros k Hk; exfalso; eapply none_used; eauto).
    pose proof (settled_spread p0 p1 e HS0 O) as HS1. destruct O as (A & B & C & D).
    pose proof (useRooted_ok (seq 0 (length p0)) p1) as Q.
    specialize (Q (fun k H => proj2 (proj1 (in_seq _ _ _) H)) (sp_marked _ _ _ A) HS1).
    destruct (useRooted (S (length p0)) p1 (seq 0 (length p0))) as [p2| |].
    + destruct Q as (I1 & I2 & I3 & I4 & I5). split; [assumption|].
      assert (HU : forall k, is_used p2 k <-> needed p0 entry k).
      { intros k. split.
        - intros H. destruct (I5 k H) as [H1|(j & (s & Nj & Rj) & R)].
          + destruct (sp_new _ _ _ A k H1) as [H2|(j & <- & H2)]; [exfalso; eapply none_used; eauto|].
            left. exists e. auto.
          + right. exists j, s. auto.
        - intros [(e' & He' & R)|(r & s & Nr & Rr & R)].
          + apply exporter_iff in He', FS. rewrite FS in He'. injection He' as <-.
            eapply settled_reach; [exact I2| |exact R]. apply I3. assumption.
          + eapply settled_reach; [exact I2| |exact R]. apply I4; [|exists s; auto].
            apply in_seq. split; [lia|]. apply nth_error_Some. congruence. }
      split; [assumption|]. split; [eauto|]. intros k Hk. apply (I2 k). apply HU. assumption.
    + right. destruct Q as (j & k & (s & Nj & Rj) & R & Dk). exists k. split; [|assumption]. right. exists j, s. auto.
    + exact Q.
  - cbn. destruct O as (k & R & Dk). right. exists k. split; [|assumption]. left. eauto.
  - exact O.
Qed.
End S.
