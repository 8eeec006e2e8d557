From Coq Require Import ZArith List Bool Lia ZifyBool ZifyNat.
From Verif Require Import Base BaseFacts XlibModel XlibSpec.
Import ListNotations.
Open Scope Z_scope.

Lemma zlen_writeModule : forall m,
  zlen (writeModule m) = zlen (m_name m) + 1 + 4 + zlen (m_data m).
Proof.
  intro m. unfold writeModule. rewrite !zlen_app.
  unfold le32. rewrite !zlen_cons, !zlen_nil. lia.
Qed.

Lemma readModules_write : forall l fuel,
  Forall module_ok l -> (length (concat (map writeModule l)) <= fuel)%nat ->
  readModules fuel (zlen (concat (map writeModule l)))
    (concat (map writeModule l)) = Ok l.
Proof.
  induction l as [|m l IH]; intros fuel F L; cbn [map concat].
  - destruct fuel; reflexivity.
  - inversion F as [|? ? Hm Hl]; subst.
    destruct Hm as [[Hn Hn2] [Hd Hd2]].
    cbn [map concat] in L. rewrite app_length in L.
    assert (1 <= length (writeModule m))%nat as Lw.
    { pose proof (zlen_writeModule m). pose proof (zlen_nonneg _ (m_name m)).
      pose proof (zlen_nonneg _ (m_data m)). unfold zlen in *. lia. }
    destruct fuel as [|fuel]; [lia|].
    cbn [readModules].
    set (R := concat (map writeModule l)) in *.
    rewrite zlen_app, zlen_writeModule.
    pose proof (zlen_nonneg _ (m_name m)). pose proof (zlen_nonneg _ (m_data m)).
    pose proof (zlen_nonneg _ R).
    destruct (_ =? 0) eqn:E1; [lia|].
    destruct (_ <? 0) eqn:E2; [lia|].
    unfold writeModule. rewrite <- !app_assoc.
    cbn [app]. rewrite getsz_app by assumption.
    unfold MAXNAMELENGTH. destruct (256 <=? _) eqn:E3; [lia|].
    rewrite get32_le32 by (unfold is_u32; lia).
    rewrite take_app' by (unfold zlen; lia).
    replace (_ - _ - _ - _) with (zlen R) by lia.
    rewrite IH; [|assumption|lia]. cbn [bind]. now destruct m.
Qed.

Lemma lib_round_trip : forall l, Forall module_ok l ->
  lib_Read (Some (lib_Write l)) = Ok l.
Proof.
  intros l F. unfold lib_Read, lib_Write.
  assert (Hz : zlen (magic ++ le32 (u32 (zlen l)) ++ concat (map writeModule l))
     = 8 + zlen (concat (map writeModule l))).
  { rewrite !zlen_app. unfold le32, magic. rewrite !zlen_cons, !zlen_nil. lia. }
  rewrite Hz. pose proof (zlen_nonneg _ (concat (map writeModule l))).
  set (R := concat (map writeModule l)) in *.
  destruct (8 + zlen R =? 0) eqn:E; [lia|].
  rewrite (take_app' 4 magic) by reflexivity.
  rewrite beq_refl. unfold readLib0.
  destruct (8 + zlen R - 4 =? 0) eqn:E2; [lia|].
  rewrite get32_le32 by apply u32_range.
  replace (8 + zlen R - 4 - 4) with (zlen R) by lia.
  apply readModules_write; auto.
  rewrite app_length. fold R. lia.
Qed.

(** ** truncateFileName *)
Lemma until_sep_spec : forall r,
  ~ In 47 (until_sep r) /\ ~ In 92 (until_sep r) /\
  (r = until_sep r \/ exists d, r = until_sep r ++ 47 :: d \/ r = until_sep r ++ 92 :: d).
Proof.
  induction r as [|c r (I1 & I2 & I3)]; cbn; [auto|].
  destruct (is_sep c) eqn:E; unfold is_sep in E.
  - cbn. repeat split; auto. right. exists r.
    assert (c = 92 \/ c = 47) as [->| ->] by lia; auto.
  - cbn. repeat split.
    + intros [->|H]; [lia|auto].
    + intros [->|H]; [lia|auto].
    + destruct I3 as [I3|[d [D|D]]].
      * left. now rewrite <- I3.
      * right. exists d. left. cbn. now rewrite <- D.
      * right. exists d. right. cbn. now rewrite <- D.
Qed.

Lemma truncate_base : forall p t, base_name p t ->
  truncateFileName p = firstn 255 t.
Proof.
  intros p t (H1 & H2 & H3). unfold truncateFileName, MAXNAMELENGTH.
  change (Z.to_nat (256 - 1)) with 255%nat. f_equal.
  assert (N : forall a b s, ~ In 47 a -> ~ In 92 a -> is_sep s = true ->
            until_sep (a ++ s :: b) = a).
  { induction a as [|c a IH]; intros b s A1 A2 S; cbn.
    - now rewrite S.
    - destruct (is_sep c) eqn:E.
      + unfold is_sep in E. cbn in A1, A2. lia.
      + f_equal. apply IH; cbn in *; auto. }
  assert (N0 : forall a, ~ In 47 a -> ~ In 92 a -> until_sep a = a).
  { induction a as [|c a IH]; intros A1 A2; cbn; auto.
    destruct (is_sep c) eqn:E.
    + unfold is_sep in E. cbn in A1, A2. lia.
    + f_equal. apply IH; cbn in *; auto. }
  destruct H3 as [->|[d [-> | ->]]].
  - rewrite N0, rev_involutive; auto; rewrite <- in_rev; auto.
  - rewrite rev_app_distr. cbn [rev]. rewrite <- app_assoc. cbn [app].
    rewrite N, rev_involutive; auto; rewrite <- in_rev; auto.
  - rewrite rev_app_distr. cbn [rev]. rewrite <- app_assoc. cbn [app].
    rewrite N, rev_involutive; auto; rewrite <- in_rev; auto.
Qed.

Lemma base_exists : forall p, exists t, base_name p t.
Proof.
  intro p. exists (rev (until_sep (rev p))).
  destruct (until_sep_spec (rev p)) as (A & B & C).
  unfold base_name. rewrite <- !in_rev. repeat split; auto.
  destruct C as [C|[d [C|C]]].
  - left. rewrite <- C. now rewrite rev_involutive.
  - right. exists (rev d). left.
    rewrite <- (rev_involutive p), C at 1. rewrite rev_app_distr. cbn.
    now rewrite <- app_assoc.
  - right. exists (rev d). right.
    rewrite <- (rev_involutive p), C at 1. rewrite rev_app_distr. cbn.
    now rewrite <- app_assoc.
Qed.

Lemma until_sep_sub : forall r, incl (until_sep r) r.
Proof.
  induction r as [|c r IH]; cbn; [intros ? []|].
  destruct (is_sep c); [intros ? []|].
  intros x [->|H]; [now left|right; auto].
Qed.

Lemma firstn_incl : forall A n (l : list A), incl (firstn n l) l.
Proof.
  induction n; intros [|a l]; cbn; try (intros ? []; fail).
  intros x [->|H]; [now left|right; now apply IHn].
Qed.

Lemma truncate_ok : forall p, cstr p -> name_ok (truncateFileName p).
Proof.
  intros p C. unfold name_ok, truncateFileName. split.
  - unfold cstr in *. rewrite Forall_forall in *. intros x H. apply C.
    apply firstn_incl in H. apply in_rev in H. apply until_sep_sub in H.
    now apply in_rev in H.
  - unfold zlen, MAXNAMELENGTH. rewrite firstn_length. lia.
Qed.

(** ** add / replace *)
Lemma findName_lookup : forall l n,
  lookup l n = option_map m_data (findName l n).
Proof.
  unfold lookup. induction l as [|m l IH]; intro n; cbn; auto.
  destruct (beq (m_name m) n); auto.
Qed.

Lemma findName_none : forall l n, findName l n = None <-> ~ In n (map m_name l).
Proof.
  induction l as [|m l IH]; intro n; cbn; [tauto|].
  destruct (beq (m_name m) n) eqn:E.
  - apply beq_eq in E. split; [discriminate|]. tauto.
  - apply beq_neq in E. rewrite IH. tauto.
Qed.

Lemma replace_names : forall l n d, map m_name (replaceName l n d) = map m_name l.
Proof.
  induction l as [|m l IH]; intros n d; cbn; auto.
  destruct (beq (m_name m) n) eqn:E; cbn.
  - apply beq_eq in E. now rewrite E.
  - now rewrite IH.
Qed.

Lemma replace_lookup : forall l n d x, In n (map m_name l) ->
  lookup (replaceName l n d) x = if beq n x then Some d else lookup l x.
Proof.
  intros l n d x. rewrite !findName_lookup.
  induction l as [|m l IH]; cbn; [tauto|]. intros H.
  destruct (beq (m_name m) n) eqn:E; cbn.
  - apply beq_eq in E. rewrite E. destruct (beq n x); auto.
  - destruct (beq (m_name m) x) eqn:E2.
    + apply beq_eq in E2. subst x.
      apply beq_neq in E. destruct (beq n (m_name m)) eqn:E3; auto.
      apply beq_eq in E3. congruence.
    + apply IH. destruct H; auto. apply beq_neq in E. contradiction.
Qed.

Lemma data_all : forall d, data_ok d -> firstn (Z.to_nat (u32 (zlen d))) d = d.
Proof.
  intros d [_ L]. pose proof (zlen_nonneg _ d).
  rewrite u32_id by (unfold is_u32; lia).
  apply firstn_all2. unfold zlen. lia.
Qed.

Lemma add_lookup : forall l f d, data_ok d -> forall x,
  lookup (lib_AddReplace l f (Some d)) x =
  if beq (truncateFileName f) x then Some d else lookup l x.
Proof.
  intros l f d D x. unfold lib_AddReplace, lib_Find.
  rewrite data_all by assumption.
  destruct (findName l (truncateFileName f)) eqn:E.
  - apply replace_lookup.
    destruct (in_dec (list_eq_dec Z.eq_dec) (truncateFileName f) (map m_name l)); auto.
    apply findName_none in n. congruence.
  - rewrite findName_lookup. cbn. rewrite findName_lookup.
    destruct (beq _ x); auto.
Qed.

Lemma add_names : forall l f d,
  map m_name (lib_AddReplace l f (Some d)) =
  if in_dec (list_eq_dec Z.eq_dec) (truncateFileName f) (map m_name l)
  then map m_name l else truncateFileName f :: map m_name l.
Proof.
  intros. unfold lib_AddReplace, lib_Find.
  destruct (findName l (truncateFileName f)) eqn:E;
  destruct (in_dec _ _ _) as [I|N]; cbn; auto.
  - apply replace_names.
  - apply findName_none in N. congruence.
  - apply findName_none in E. contradiction.
Qed.

Lemma add_nodup : forall l f d, NoDup (map m_name l) ->
  NoDup (map m_name (lib_AddReplace l f d)).
Proof.
  intros l f [d|] H; [|exact H]. rewrite add_names.
  destruct (in_dec _ _ _); auto. now constructor.
Qed.

Lemma replace_ok : forall l n d, Forall module_ok l -> name_ok n -> data_ok d ->
  Forall module_ok (replaceName l n d).
Proof.
  induction l as [|m l IH]; intros n d F N D; cbn; auto.
  inversion F; subst. destruct (beq (m_name m) n); constructor; auto.
  split; auto.
Qed.

Lemma add_ok : forall l f d, Forall module_ok l -> cstr f -> data_ok d ->
  Forall module_ok (lib_AddReplace l f (Some d)).
Proof.
  intros l f d F C D. unfold lib_AddReplace. rewrite data_all by assumption.
  pose proof (truncate_ok f C).
  destruct (lib_Find l f).
  - now apply replace_ok.
  - constructor; auto. split; auto.
Qed.

(** position by position: the other modules are untouched *)
Lemma add_others : forall l f d, NoDup (map m_name l) ->
  filter (fun m => negb (beq (m_name m) (truncateFileName f)))
     (lib_AddReplace l f (Some d)) =
  filter (fun m => negb (beq (m_name m) (truncateFileName f))) l.
Proof.
  intros l f d ND. unfold lib_AddReplace, lib_Find.
  set (n := truncateFileName f). set (dd := firstn _ d). clearbody n dd.
  destruct (findName l n) eqn:E.
  - clear E. induction l as [|a l IH]; cbn; auto.
    cbn in ND. inversion ND; subst.
    destruct (beq (m_name a) n) eqn:E; cbn.
    + now rewrite beq_refl.
    + rewrite E. cbn. f_equal. auto.
  - cbn. now rewrite beq_refl.
Qed.

(** ** delete *)
Lemma deleteWalk_absent : forall l n, ~ In n (map m_name l) ->
  deleteWalk l n = Ok (l, false).
Proof.
  induction l as [|m l IH]; intros n H; cbn; auto.
  cbn in H. destruct (beq (m_name m) n) eqn:E.
  - apply beq_eq in E. tauto.
  - rewrite IH by tauto. reflexivity.
Qed.

Lemma deleteWalk_present : forall a m b n,
  ~ In n (map m_name a) -> m_name m = n -> b <> [] ->
  deleteWalk (a ++ m :: b) n = Ok (a ++ b, true).
Proof.
  induction a as [|x a IH]; intros m b n H E NB; cbn.
  - subst. rewrite beq_refl. destruct b; congruence.
  - cbn in H. destruct (beq (m_name x) n) eqn:E2.
    + apply beq_eq in E2. tauto.
    + rewrite IH; auto.
Qed.

Lemma deleteWalk_last : forall a m n,
  ~ In n (map m_name a) -> m_name m = n -> deleteWalk (a ++ [m]) n = UB.
Proof.
  induction a as [|x a IH]; intros m n H E; cbn.
  - subst. now rewrite beq_refl.
  - cbn in H. destruct (beq (m_name x) n) eqn:E2.
    + apply beq_eq in E2. tauto.
    + rewrite IH; [reflexivity|tauto|assumption].
Qed.

Lemma delete_ok_inv : forall l f l', lib_DeleteModule l f = Ok l' ->
  exists a m b, l = a ++ m :: b /\ l' = a ++ b /\ b <> [] /\
    m_name m = truncateFileName f /\ ~ In (truncateFileName f) (map m_name a).
Proof.
  intros l f l' H. unfold lib_DeleteModule in H.
  destruct (in_dec (list_eq_dec Z.eq_dec) (truncateFileName f) (map m_name l)) as [I|N].
  - assert (exists a m b, l = a ++ m :: b /\ m_name m = truncateFileName f /\
             ~ In (truncateFileName f) (map m_name a)) as (a & m & b & -> & E & Na).
    { clear H. revert I. generalize (truncateFileName f) as n. induction l as [|x l IH]; cbn; [tauto|].
      intros n I. destruct (list_eq_dec Z.eq_dec (m_name x) n) as [E|NE].
      - exists [], x, l. cbn. auto.
      - destruct I as [I|I]; [contradiction|].
        destruct (IH n I) as (a & m & b & -> & E & Na).
        exists (x :: a), m, b. cbn. repeat split; auto. tauto. }
    destruct b as [|y b].
    + rewrite deleteWalk_last in H by assumption. discriminate.
    + rewrite deleteWalk_present in H by (auto; discriminate).
      cbn in H. inversion H; subst. exists a, m, (y :: b).
      repeat split; auto. discriminate.
  - rewrite deleteWalk_absent in H by assumption. discriminate.
Qed.

Lemma lookup_app : forall a b n,
  lookup (a ++ b) n = match lookup a n with Some d => Some d | None => lookup b n end.
Proof.
  intros. rewrite !findName_lookup. induction a; cbn; auto.
  destruct (beq (m_name a) n); auto.
Qed.

Lemma lookup_absent : forall l n, ~ In n (map m_name l) -> lookup l n = None.
Proof.
  intros l n H. rewrite findName_lookup. apply findName_none in H. now rewrite H.
Qed.

Lemma delete_lookup : forall l f l', NoDup (map m_name l) ->
  lib_DeleteModule l f = Ok l' -> forall x,
  lookup l' x = if beq (truncateFileName f) x then None else lookup l x.
Proof.
  intros l f l' ND H x.
  destruct (delete_ok_inv _ _ _ H) as (a & m & b & -> & -> & NB & E & Na).
  rewrite map_app in ND. cbn in ND. rewrite E in ND.
  pose proof (NoDup_remove_2 _ _ _ ND) as N2.
  destruct (beq (truncateFileName f) x) eqn:Ex.
  - apply beq_eq in Ex. subst x. apply lookup_absent. now rewrite map_app.
  - rewrite !lookup_app. destruct (lookup a x); auto.
    rewrite (findName_lookup (m :: b)). cbn. rewrite E, Ex. apply findName_lookup.
Qed.

Lemma delete_keeps : forall l f l', NoDup (map m_name l) ->
  lib_DeleteModule l f = Ok l' ->
  l' = filter (fun m => negb (beq (m_name m) (truncateFileName f))) l.
Proof.
  intros l f l' ND H.
  destruct (delete_ok_inv _ _ _ H) as (a & m & b & -> & -> & NB & E & Na).
  rewrite map_app in ND. cbn in ND. rewrite E in ND.
  pose proof (NoDup_remove_2 _ _ _ ND) as N2.
  set (n := truncateFileName f) in *. clearbody n.
  assert (K : forall l, ~ In n (map m_name l) ->
            filter (fun m => negb (beq (m_name m) n)) l = l).
  { induction l as [|y l IH]; cbn; auto. intro Hn.
    destruct (beq (m_name y) n) eqn:Ey; [apply beq_eq in Ey; tauto|].
    cbn. rewrite IH; auto. }
  rewrite filter_app. cbn. rewrite E, beq_refl. cbn.
  rewrite in_app_iff in N2.
  rewrite !K; auto.
Qed.

Lemma delete_preserves : forall l f l', lib_DeleteModule l f = Ok l' ->
  (Forall module_ok l -> Forall module_ok l') /\
  (NoDup (map m_name l) -> NoDup (map m_name l')).
Proof.
  intros l f l' H.
  destruct (delete_ok_inv _ _ _ H) as (a & m & b & -> & -> & NB & E & Na).
  split.
  - rewrite !Forall_app. intros [A B]. inversion B; subst; auto.
  - rewrite !map_app. cbn. apply NoDup_remove_1.
Qed.

(** ** histories *)
Definition inv (file : option (list Z)) (l : list module) : Prop :=
  lib_Read file = Ok l /\ Forall module_ok l /\ NoDup (map m_name l).

Lemma inv_written : forall l, Forall module_ok l -> NoDup (map m_name l) ->
  inv (Some (lib_Write l)) l.
Proof. intros. split; auto. now apply lib_round_trip. Qed.

Lemma handleAdd_spec : forall fs args l,
  (forall a d, fs a = Some d -> data_ok d) -> Forall cstr args ->
  Forall module_ok l -> NoDup (map m_name l) ->
  Forall module_ok (handleAdd fs l args) /\ NoDup (map m_name (handleAdd fs l args)) /\
  forall m, (forall x, lookup l x = m x) -> forall x,
    lookup (handleAdd fs l args) x =
    fold_left (fun m a => match fs a with
                          | Some d => upd m (truncateFileName a) (Some d)
                          | None => m end) args m x.
Proof.
  intros fs. induction args as [|a args IH]; intros l Hfs Ha F ND; cbn.
  - auto.
  - inversion Ha; subst.
    assert (Forall module_ok (lib_AddReplace l a (fs a))) as F'.
    { destruct (fs a) eqn:E; auto. apply add_ok; eauto. }
    pose proof (add_nodup l a (fs a) ND) as ND'.
    destruct (IH _ Hfs H2 F' ND') as (A & B & C).
    repeat split; auto. intros m Hm x. apply C. intro y.
    destruct (fs a) eqn:E; auto.
    rewrite add_lookup by eauto. unfold upd. now rewrite Hm.
Qed.

Lemma handleDelete_spec : forall args l l',
  Forall module_ok l -> NoDup (map m_name l) -> handleDelete l args = Ok l' ->
  Forall module_ok l' /\ NoDup (map m_name l') /\
  forall m, (forall x, lookup l x = m x) -> forall x,
    lookup l' x = fold_left (fun m a => upd m (truncateFileName a) None) args m x.
Proof.
  induction args as [|a args IH]; intros l l' F ND H; cbn in *.
  - inversion H; subst. auto.
  - destruct (lib_DeleteModule l a) as [l1| |] eqn:E; try discriminate. cbn in H.
    destruct (delete_preserves _ _ _ E) as [P1 P2].
    destruct (IH _ _ (P1 F) (P2 ND) H) as (A & B & C).
    repeat split; auto. intros m Hm x. apply C. intro y.
    rewrite (delete_lookup _ _ _ ND E). unfold upd. now rewrite Hm.
Qed.

Lemma session_spec : forall h file l file',
  Forall cmd_ok h -> inv file l -> session file h = Ok file' ->
  exists l', inv file' l' /\
    forall m, (forall x, lookup l x = m x) -> forall x,
      lookup l' x = fold_left (spec_step truncateFileName) h m x.
Proof.
  induction h as [|[fs c] h IH]; intros file l file' Hc I H; cbn [session fold_left] in *.
  - inversion H; subst. exists l. auto.
  - inversion Hc as [|? ? [Hfs Hargs] Hc']; subst. cbn [fst snd] in *.
    destruct I as (Hr & F & ND).
    unfold xlib in H. rewrite Hr in H. cbn [bind] in H.
    destruct c as [args|args|args|]; cbn [bind e_library] in H.
    + destruct (handleAdd_spec fs args l Hfs Hargs F ND) as (A & B & C).
      destruct (IH _ _ _ Hc' (inv_written _ A B) H) as (l' & I' & L').
      exists l'. split; auto. intros m Hm x. apply L'. intro y.
      unfold spec_step. cbn [fst snd]. now apply C.
    + destruct (handleDelete l args) as [l1| |] eqn:E; try discriminate.
      cbn [bind e_library] in H.
      destruct (handleDelete_spec args l l1 F ND E) as (A & B & C).
      destruct (IH _ _ _ Hc' (inv_written _ A B) H) as (l' & I' & L').
      exists l'. split; auto. intros m Hm x. apply L'. intro y.
      unfold spec_step. cbn [fst snd]. now apply C.
    + destruct (handleExtract l args) as [x1| |] eqn:E; try discriminate.
      cbn [bind e_library] in H.
      apply (IH file l file' Hc'); auto. split; auto.
    + apply (IH file l file' Hc'); auto. split; auto.
Qed.

Lemma session_extract : forall h file',
  Forall cmd_ok h -> session None h = Ok file' ->
  forall fs p d,
    fold_left (spec_step truncateFileName) h (fun _ => None) (truncateFileName p) = Some d ->
    xlib fs file' (Extract [p]) = Ok (Effect file' [(p, d)] []).
Proof.
  intros h file' Hc H fs p d Hd.
  destruct (session_spec h None [] file' Hc) as (l & (Hr & _ & _) & L); auto.
  { repeat split; constructor. }
  rewrite <- L in Hd by reflexivity.
  unfold xlib. rewrite Hr. cbn. unfold lib_Find.
  rewrite findName_lookup in Hd.
  destruct (findName l (truncateFileName p)) as [m|]; [|discriminate].
  cbn in Hd. inversion Hd. reflexivity.
Qed.

Lemma session_extract_absent : forall h file',
  Forall cmd_ok h -> session None h = Ok file' ->
  forall fs p,
    fold_left (spec_step truncateFileName) h (fun _ => None) (truncateFileName p) = None ->
    xlib fs file' (Extract [p]) = Err.
Proof.
  intros h file' Hc H fs p Hd.
  destruct (session_spec h None [] file' Hc) as (l & (Hr & _ & _) & L); auto.
  { repeat split; constructor. }
  rewrite <- L in Hd by reflexivity.
  unfold xlib. rewrite Hr. cbn. unfold lib_Find.
  rewrite findName_lookup in Hd.
  destruct (findName l (truncateFileName p)) as [m|]; [discriminate|reflexivity].
Qed.

Lemma key_eq : forall key, is_key key -> forall p, key p = truncateFileName p.
Proof.
  intros key K p. destruct (base_exists p) as [t T].
  rewrite (K _ _ T). symmetry. now apply truncate_base.
Qed.

Lemma spec_step_key : forall key, is_key key -> forall m c,
  spec_step key m c = spec_step truncateFileName m c.
Proof.
  intros key K m [fs c]. unfold spec_step. cbn [fst snd].
  destruct c as [args|args|args|]; auto.
  - revert m. induction args as [|a args IH]; intro m; cbn; auto.
    rewrite (key_eq key K). apply IH.
  - revert m. induction args as [|a args IH]; intro m; cbn; auto.
    rewrite (key_eq key K). apply IH.
Qed.

Lemma spec_fold_key : forall key, is_key key -> forall h m,
  fold_left (spec_step key) h m = fold_left (spec_step truncateFileName) h m.
Proof.
  intros key K. induction h as [|c h IH]; intro m; cbn; auto.
  rewrite (spec_step_key key K). apply IH.
Qed.

Lemma session_map : forall key h file,
  is_key key -> Forall cmd_ok h -> session None h = Ok file ->
  forall fs p,
    xlib fs file (Extract [p]) =
    match fold_left (spec_step key) h (fun _ => None) (key p) with
    | Some d => Ok (Effect file [(p, d)] [])
    | None => Err
    end.
Proof.
  intros key h file K Hc H fs p.
  rewrite (spec_fold_key key K), (key_eq key K).
  destruct (fold_left (spec_step truncateFileName) h (fun _ => None) (truncateFileName p)) eqn:E.
  - eapply session_extract; eauto.
  - eapply session_extract_absent; eauto.
Qed.

Lemma session_list : forall h file,
  Forall cmd_ok h -> session None h = Ok file ->
  forall fs, exists lst, xlib fs file ListAll = Ok (Effect file [] lst) /\
    NoDup (map snd lst) /\
    forall key n, is_key key ->
      (In n (map snd lst) <-> fold_left (spec_step key) h (fun _ => None) n <> None).
Proof.
  intros h file Hc H fs.
  destruct (session_spec h None [] file Hc) as (l & (Hr & F & ND) & L); auto.
  { repeat split; constructor. }
  exists (map (fun m => (zlen (m_data m), m_name m)) l).
  unfold xlib. rewrite Hr. cbn. rewrite map_map. cbn. split; auto. split; auto.
  intros key n K. rewrite (spec_fold_key key K), <- L by reflexivity.
  rewrite findName_lookup.
  destruct (findName l n) eqn:E; cbn.
  - split; [discriminate|]. intros _.
    destruct (in_dec (list_eq_dec Z.eq_dec) n (map m_name l)) as [I|N]; auto.
    apply findName_none in N. congruence.
  - apply findName_none in E. tauto.
Qed.

Lemma count_field : forall l, zlen l < 2 ^ 32 ->
  exists rest, lib_Write l = [88; 76; 66; 0] ++ le32 (zlen l) ++ rest.
Proof.
  intros l H. eexists. unfold lib_Write. rewrite u32_id; [reflexivity|].
  pose proof (zlen_nonneg _ l). unfold is_u32. lia.
Qed.
