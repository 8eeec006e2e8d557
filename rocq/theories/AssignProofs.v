From Coq Require Import ZArith List Bool Lia ZifyBool ZifyNat Permutation Sorted.
From Verif Require Import Base BaseFacts PoolModel PoolSpec PoolProofs AssignModel AssignSpec.
Import ListNotations.
Open Scope Z_scope.

(** ** the passes as guarded placements *)
Inductive kind : Type := KAbs | KFloat.
Record gpass : Type := GPass { gp_guard : section -> bool; gp_kind : kind }.

Definition place (cf : config) (k : kind) (s : section) (m : mem) : res (section * mem) :=
  match k with
  | KAbs => placeAbsolute cf s m
  | KFloat => if isEqu s then Ok (placeEqu s, m) else placeFloating cf s m
  end.
Definition gstep (cf : config) (g : gpass) : pass := fun s m =>
  if gp_guard g s then place cf (gp_kind g) s m else keep s m.

Definition whenGuard (bank align page : bool) (p : predicate) (s : section) : bool :=
  (Bool.eqb (negb (s_cpuBank s =? -1)) bank &&
   Bool.eqb (negb (s_byteAlign s =? -1)) align &&
   Bool.eqb (negb (s_page s =? -1)) page) && p s.
Definition lastGuard (p : predicate) (s : section) : bool :=
  negb (s_assigned s) && (isEqu s || p s).

Definition gblock (p : predicate) : list gpass :=
  [GPass (fun s => p s && negb (s_cpuByteLocation s =? -1) && negb (s_cpuBank s =? -1)) KAbs;
   GPass (fun s => p s && negb (s_cpuByteLocation s =? -1) && (s_cpuBank s =? -1)) KAbs;
   GPass (whenGuard true true true p) KFloat;
   GPass (whenGuard true true false p) KFloat;
   GPass (whenGuard true false true p) KFloat;
   GPass (whenGuard false true true p) KFloat;
   GPass (whenGuard false true false p) KFloat;
   GPass (whenGuard false false true p) KFloat;
   GPass (lastGuard p) KFloat].
Definition gpasses : list gpass :=
  flat_map gblock sectionPredicates ++ [GPass (lastGuard truePredicate) KFloat].

Definition class_pred (p : predicate) : Prop :=
  forall s, p s = true -> s_assigned s = false /\ isEqu s = false.

Lemma isClass_pred : forall t f, class_pred (isClass t f).
Proof.
  intros t f s H. unfold isClass, isEqu in *. destruct (s_assigned s); [discriminate|].
  destruct (s_group s); [auto|discriminate].
Qed.

Lemma sectionPredicates_class : Forall class_pred sectionPredicates.
Proof. unfold sectionPredicates. repeat (apply Forall_cons; [apply isClass_pred|]). apply Forall_nil. Qed.

Definition pass_eq (f : pass) (cf : config) (g : gpass) : Prop :=
  forall s m, f s m = gstep cf g s m.

Lemma when_eq : forall cf b a pg p, class_pred p ->
  pass_eq (assignWhen b a pg cf p) cf (GPass (whenGuard b a pg p) KFloat).
Proof.
  intros cf b a pg p C s m. unfold assignWhen, gstep, whenGuard, assignSectionCore. cbn [gp_guard gp_kind].
  destruct (Bool.eqb _ b && _ && _); cbn [andb]; [|reflexivity].
  destruct (p s) eqn:E; [|reflexivity]. destruct (C s E) as [_ Q].
  cbn [place]. now rewrite Q.
Qed.

Lemma last_eq : forall cf p, pass_eq (assignSection cf p) cf (GPass (lastGuard p) KFloat).
Proof.
  intros cf p s m. unfold assignSection, gstep, lastGuard. cbn [gp_guard gp_kind place].
  destruct (s_assigned s); cbn; [reflexivity|].
  destruct (isEqu s); cbn; [reflexivity|]. destruct (p s); reflexivity.
Qed.

Lemma block_eq : forall cf p, class_pred p ->
  Forall2 (fun f g => pass_eq f cf g) (predicatePasses cf p) (gblock p).
Proof.
  intros cf p C. unfold predicatePasses, gblock.
  repeat (constructor; [first [intros s m; reflexivity|now apply when_eq|apply last_eq]|]).
  constructor.
Qed.

Lemma passes_eq : forall cf,
  Forall2 (fun f g => pass_eq f cf g)
    (flat_map (predicatePasses cf) sectionPredicates ++ [assignSection cf truePredicate]) gpasses.
Proof.
  intro cf. unfold gpasses. apply Forall2_app.
  - pose proof sectionPredicates_class as C. induction C as [|p l Hp Hl IH]; cbn [flat_map]; [constructor|].
    apply Forall2_app; auto. now apply block_eq.
  - repeat constructor. apply last_eq.
Qed.

(** ** which pass places a section *)
Definition first_kind (gs : list gpass) (s : section) : option kind :=
  option_map gp_kind (find (fun g => gp_guard g s) gs).

Lemma first_kind_app : forall a b s, first_kind (a ++ b) s =
  match first_kind a s with Some k => Some k | None => first_kind b s end.
Proof.
  intros a b s. unfold first_kind. induction a as [|g a IH]; cbn; auto.
  destruct (gp_guard g s); auto.
Qed.

Lemma first_kind_none : forall a s, (forall g, In g a -> gp_guard g s = false) ->
  first_kind a s = None.
Proof.
  intros a s H. unfold first_kind. induction a as [|g a IH]; cbn; auto.
  rewrite H by (now left). apply IH. intros; apply H; now right.
Qed.

Lemma block_false : forall p s, p s = false -> isEqu s = false -> first_kind (gblock p) s = None.
Proof.
  intros p s H E. apply first_kind_none. unfold gblock.
  intros g Hg. cbn in Hg.
  repeat (destruct Hg as [<-|Hg]; [cbn [gp_guard]; unfold whenGuard, lastGuard; rewrite ?H, ?E;
     cbn; now rewrite ?andb_false_r|]). destruct Hg.
Qed.

Lemma block_org : forall p s, p s = true -> s_cpuByteLocation s <> -1 ->
  first_kind (gblock p) s = Some KAbs.
Proof.
  intros p s H E. unfold first_kind, gblock. cbn [find gp_guard].
  rewrite H. cbn [andb]. destruct (Z.eqb_spec (s_cpuByteLocation s) (-1)) as [|_]; [contradiction|].
  cbn [negb andb]. destruct (s_cpuBank s =? -1); reflexivity.
Qed.

Lemma blocks_org : forall ps s, Exists (fun p => p s = true) ps -> isEqu s = false ->
  s_cpuByteLocation s <> -1 -> first_kind (flat_map gblock ps) s = Some KAbs.
Proof.
  intros ps s. induction ps as [|p ps IH]; intros X E O; [inversion X|].
  cbn [flat_map]. rewrite first_kind_app. destruct (p s) eqn:Ep.
  - now rewrite block_org.
  - rewrite block_false by auto. apply IH; auto. inversion X; subst; auto. congruence.
Qed.

Lemma class_exists : forall s, s_assigned s = false -> isEqu s = false -> group_kind_ok s ->
  Exists (fun p => p s = true) sectionPredicates.
Proof.
  intros s A E G. unfold group_kind_ok, isEqu in *. destruct (s_group s) as [g|] eqn:Eg; [|discriminate].
  unfold sectionPredicates.
  assert (X : forall t f, og_type g = t -> og_flags g = f -> isClass t f s = true).
  { intros t f <- <-. unfold isClass. rewrite A, Eg, !Z.eqb_refl. reflexivity. }
  destruct G as [[T [F|[F|[F|F]]]]|[T [F|F]]].
  - apply Exists_cons_tl, Exists_cons_hd. now apply X.
  - apply Exists_cons_hd. now apply X.
  - do 3 apply Exists_cons_tl. apply Exists_cons_hd. now apply X.
  - do 2 apply Exists_cons_tl. apply Exists_cons_hd. now apply X.
  - do 5 apply Exists_cons_tl. apply Exists_cons_hd. now apply X.
  - do 4 apply Exists_cons_tl. apply Exists_cons_hd. now apply X.
Qed.

Lemma org_kind : forall s, s_assigned s = false -> isEqu s = false -> group_kind_ok s ->
  s_cpuByteLocation s <> -1 -> first_kind gpasses s = Some KAbs.
Proof.
  intros s A E G O. unfold gpasses. rewrite first_kind_app, blocks_org; auto.
  now apply class_exists.
Qed.

Lemma abs_guard : forall g s, In g gpasses -> gp_kind g = KAbs -> gp_guard g s = true ->
  s_cpuByteLocation s <> -1 /\ isEqu s = false.
Proof.
  intros g s Hg Hk H. unfold gpasses in Hg. apply in_app_iff in Hg as [Hg|[<-|[]]]; [|discriminate].
  apply in_flat_map in Hg as (p & Hp & Hg).
  pose proof sectionPredicates_class as C. rewrite Forall_forall in C. specialize (C p Hp s).
  unfold gblock in Hg. cbn in Hg.
  repeat (destruct Hg as [<-|Hg];
    [first [discriminate
           |cbn [gp_guard] in H; apply andb_true_iff in H as [H _];
            apply andb_true_iff in H as [H1 H2]; destruct (C H1); split; [lia|assumption]]|]).
  destruct Hg.
Qed.

Lemma abs_kind : forall s, first_kind gpasses s = Some KAbs ->
  s_cpuByteLocation s <> -1 /\ isEqu s = false.
Proof.
  intros s H. unfold first_kind in H. destruct (find _ gpasses) as [g|] eqn:E; [|discriminate].
  apply find_some in E as [E1 E2]. inversion H. eapply abs_guard; eauto.
Qed.

Lemma equ_kind : forall s, isEqu s = true -> first_kind gpasses s <> Some KAbs.
Proof. intros s E H. destruct (abs_kind s H). congruence. Qed.

(** ** one allocation *)
Lemma tryPools_some : forall cf m ks bank q pl,
  tryPools cf m ks bank q = Ok (Some pl) ->
  exists k p f f' l, In k ks /\ nth_error (cf_pools cf) k = Some p /\ nth_error m k = Some f /\
    serve f q = Ok (Some (l, f')) /\ (bank = -1 \/ bank = p_bank p) /\
    pl = mkPlacement p k l (set_nth m k f').
Proof.
  intros cf m ks bank q pl. induction ks as [|k ks IH]; intro H; cbn in H; [discriminate|].
  assert (R : tryPools cf m ks bank q = Ok (Some pl) ->
    exists k0 p f f' l, In k0 (k :: ks) /\ nth_error (cf_pools cf) k0 = Some p /\
      nth_error m k0 = Some f /\ serve f q = Ok (Some (l, f')) /\
      (bank = -1 \/ bank = p_bank p) /\ pl = mkPlacement p k0 l (set_nth m k0 f')).
  { intro H'. destruct (IH H') as (k0 & p & f & f' & l & I & Q). exists k0, p, f, f', l. split; [now right|auto]. }
  destruct (nth_error (cf_pools cf) k) as [p|] eqn:Ep; [|discriminate].
  destruct (nth_error m k) as [f|] eqn:Ef; [|discriminate].
  destruct ((bank =? -1) || (bank =? p_bank p)) eqn:Eb; [|auto].
  destruct (serve f q) as [[[l f']|]| |] eqn:Es; cbn in H; try discriminate; auto.
  inversion H; subst. exists k, p, f, f', l. split; [now left|]. repeat (split; [assumption|]). split; [|reflexivity]. apply orb_true_iff in Eb. destruct Eb as [Eb|Eb]; apply Z.eqb_eq in Eb; auto.
Qed.

Lemma findGroup_find : forall gs n,
  findGroup gs n = find (fun G => beq (g_name G) n) gs.
Proof. induction gs as [|g gs IH]; intro n; cbn; auto. destruct (beq (g_name g) n); auto. Qed.

Lemma nth_set_same : forall A (l : list A) k v, (k < length l)%nat ->
  nth_error (set_nth l k v) k = Some v.
Proof. induction l as [|x l IH]; intros [|k] v H; cbn in *; try lia; auto. apply IH. lia. Qed.
Lemma nth_set_other : forall A (l : list A) k j v, k <> j ->
  nth_error (set_nth l k v) j = nth_error l j.
Proof. induction l as [|x l IH]; intros [|k] [|j] v H; cbn; auto; try lia. Qed.
Lemma length_set : forall A (l : list A) k v, length (set_nth l k v) = length l.
Proof. induction l as [|x l IH]; intros [|k] v; cbn; auto. Qed.

(** ** memory invariant *)
Definition MI (cf : config) (m : mem) (ss : list section) : Prop :=
  length m = length (cf_pools cf) /\
  forall k p f, nth_error (cf_pools cf) k = Some p -> nth_error m k = Some f ->
    inv (p_loc p) (p_size p) f (ranges_in k ss).

Lemma count_perm : forall a b x, Permutation a b -> count a x = count b x.
Proof. intros a b x H. induction H; cbn [count]; lia. Qed.

Lemma inv_perm : forall b s f p q, Permutation p q -> inv b s f p -> inv b s f q.
Proof.
  intros b s f p q H [A B C]. constructor; auto.
  - rewrite Forall_forall in *. intros x Hx. apply B. eapply Permutation_in; [symmetry|]; eauto.
  - intro a. rewrite <- (count_perm p q a H). apply C.
Qed.

Lemma ranges_in_app : forall k a b, ranges_in k (a ++ b) = ranges_in k a ++ ranges_in k b.
Proof. intros. unfold ranges_in. now rewrite filter_app, map_app. Qed.

Lemma ranges_in_none : forall k s, s_pool s = None -> ranges_in k [s] = [].
Proof. intros k s H. unfold ranges_in. cbn. now rewrite H. Qed.

Lemma ranges_in_some : forall k j s, s_pool s = Some j ->
  ranges_in k [s] = if Nat.eqb j k then [(s_cpuByteLocation s, s_size s)] else [].
Proof. intros k j s H. unfold ranges_in. cbn. rewrite H. destruct (Nat.eqb j k); reflexivity. Qed.

Lemma MI_step : forall cf m pre s s' post k p f f' l q,
  config_ok cf -> MI cf m (pre ++ s :: post) -> s_pool s = None ->
  nth_error (cf_pools cf) k = Some p -> nth_error m k = Some f ->
  req_ok (p_loc p) (p_size p) q -> serve f q = Ok (Some (l, f')) ->
  s_pool s' = Some k -> s_cpuByteLocation s' = l -> s_size s' = req_size q ->
  MI cf (set_nth m k f') (pre ++ s' :: post) /\ within (l, req_size q) (p_loc p) (p_size p) /\
  PoolSpec.pool_ok (p_loc p) (p_size p) /\ Forall (chunk_in (p_loc p) (p_size p)) f.
Proof.
  intros cf m pre s s' post k p f f' l q CF [ML MM] Hs Hp Hf R S Hs' Hl Hz.
  destruct CF as [CP _].
  assert (PO : PoolSpec.pool_ok (p_loc p) (p_size p)).
  { rewrite Forall_forall in CP. specialize (CP p (nth_error_In _ _ Hp)). unfold PoolSpec.pool_ok. lia. }
  pose proof (MM k p f Hp Hf) as I.
  pose proof (inv_step _ _ _ _ _ _ _ PO I R S) as I'.
  assert (W : within (l, req_size q) (p_loc p) (p_size p)).
  { destruct I' as [_ B _]. inversion B; tauto. }
  split; [|split; [|split]]; auto; [|apply I].
  split; [now rewrite length_set|].
  intros j pj fj Hpj Hfj.
  change (pre ++ s' :: post) with (pre ++ [s'] ++ post).
  rewrite !ranges_in_app, (ranges_in_some j k s' Hs').
  destruct (Nat.eqb_spec k j) as [->|N].
  - rewrite nth_set_same in Hfj by (apply nth_error_Some; congruence).
    assert (pj = p) by congruence. assert (fj = f') by congruence. subst pj fj.
    eapply inv_perm; [|exact I'].
    change (pre ++ s :: post) with (pre ++ [s] ++ post).
    rewrite !ranges_in_app, (ranges_in_none j s Hs). rewrite Hl, Hz. cbn [app].
    apply Permutation_middle.
  - rewrite nth_set_other in Hfj by auto. cbn [app].
    specialize (MM j pj fj Hpj Hfj).
    change (pre ++ s :: post) with (pre ++ [s] ++ post) in MM.
    rewrite !ranges_in_app, (ranges_in_none j s Hs) in MM. exact MM.
Qed.

Lemma MI_same : forall cf m pre s s' post, MI cf m (pre ++ s :: post) ->
  s_pool s = None -> s_pool s' = None -> MI cf m (pre ++ s' :: post).
Proof.
  intros cf m pre s s' post [ML MM] H H'. split; auto. intros k p f Hp Hf.
  specialize (MM k p f Hp Hf).
  change (pre ++ s :: post) with (pre ++ [s] ++ post) in MM.
  change (pre ++ s' :: post) with (pre ++ [s'] ++ post).
  rewrite !ranges_in_app, ranges_in_none in * by auto. exact MM.
Qed.

(** ** placing one section *)
(** What is known about a section placed by a pass of the given kind. *)
Record placed_by (cf : config) (kd : kind) (s s' : section) : Prop := {
  pb_same : s_id s' = s_id s /\ s_group s' = s_group s /\ s_size s' = s_size s /\
            s_used s' = s_used s /\ s_minimumWordSize s' = s_minimumWordSize s /\
            s_byteAlign s' = s_byteAlign s /\ s_page s' = s_page s;
  pb_assigned : s_assigned s' = true;
  pb_equ : s_group s = None ->
     s_cpuByteLocation s' = 0 /\ s_cpuLocation s' = 0 /\ s_cpuBank s' = 0 /\
     s_imageLocation s' = -1 /\ s_pool s' = None;
  pb_pool : forall g, s_group s = Some g ->
     exists G k p,
       find (fun G => beq (g_name G) (og_name g)) (cf_groups cf) = Some G /\
       In k (g_pools G) /\ nth_error (cf_pools cf) k = Some p /\
       s_pool s' = Some k /\
       within (s_cpuByteLocation s', s_size s') (p_loc p) (p_size p) /\
       s_cpuBank s' = p_bank p /\ s_overlay s' = p_overlay p /\
       s_imageLocation s' =
         (if p_image p =? -1 then -1
          else p_image p + (s_cpuByteLocation s' - p_loc p));
  pb_bank : s_group s <> None -> s_cpuBank s <> -1 -> s_cpuBank s' = s_cpuBank s;
  pb_org : s_group s <> None -> kd = KAbs ->
     s_cpuByteLocation s' = s_cpuByteLocation s /\ s_cpuLocation s' = s_cpuLocation s;
  pb_floating : s_group s <> None -> kd = KFloat ->
     s_cpuLocation s' = s_cpuByteLocation s' / s_minimumWordSize s /\
     (s_byteAlign s <> -1 -> s_cpuByteLocation s' mod s_byteAlign s = 0) /\
     (s_page s <> -1 -> s_byteAlign s = -1 ->
        in_one_page (s_page s) (s_cpuByteLocation s') (s_size s)) }.

Lemma u32_neg1 : u32 (-1) = NONE.
Proof. reflexivity. Qed.

Lemma u32_attr : forall z, z = -1 \/ 0 <= z < 2 ^ 31 ->
  (z = -1 /\ u32 z = NONE) \/ (z <> -1 /\ u32 z = z /\ u32 z <> NONE).
Proof.
  intros z [->|H]; [left; auto|right]. unfold u32, NONE.
  rewrite Z.mod_small by lia. lia.
Qed.

Lemma place_floating_ok : forall cf m pre s post s' m',
  config_ok cf -> section_ok s -> MI cf m (pre ++ s :: post) ->
  placeFloating cf s m = Ok (s', m') ->
  MI cf m' (pre ++ s' :: post) /\ placed_by cf KFloat s s'.
Proof.
  intros cf m pre s post s' m' CF SO M H.
  destruct SO as (Z1 & O1 & A1 & P1 & W1 & As & Pn).
  unfold placeFloating in H. destruct (s_group s) as [g|] eqn:Eg; [|discriminate].
  unfold group_AllocateAligned in H. rewrite findGroup_find in H.
  destruct (find _ (cf_groups cf)) as [G|] eqn:EG; [|discriminate].
  destruct (tryPools _ _ _ _ _) as [[pl|]| |] eqn:ET; cbn [bind] in H; try discriminate.
  destruct (Z.eqb_spec (s_minimumWordSize s) 0); [lia|].
  apply tryPools_some in ET as (k & p & f & f' & l & I & Hp & Hf & S & B & ->).
  inversion H; subst s' m'; clear H. cbn [pl_loc pl_bank pl_image pl_overlay pl_pool pl_mem mkPlacement] in *.
  pose proof CF as [CP _]. rewrite Forall_forall in CP. specialize (CP p (nth_error_In _ _ Hp)). cbn in CP.
  assert (FA : s_byteAlign s <> -1 -> u32 (s_byteAlign s) = s_byteAlign s /\ u32 (s_byteAlign s) <> NONE).
  { destruct (u32_attr (s_byteAlign s) ltac:(lia)) as [[a1 a2]|[a1 [a2 a3]]]; tauto. }
  assert (FB : s_byteAlign s = -1 -> u32 (s_byteAlign s) = NONE) by (intros ->; reflexivity).
  assert (FP : s_page s <> -1 -> u32 (s_page s) = s_page s /\ u32 (s_page s) <> NONE).
  { destruct (u32_attr (s_page s) ltac:(lia)) as [[a1 a2]|[a1 [a2 a3]]]; tauto. }
  assert (R : req_ok (p_loc p) (p_size p) (Aligned (s_size s) (u32 (s_byteAlign s)) (u32 (s_page s)))).
  { destruct (u32_attr (s_byteAlign s) ltac:(lia)) as [[a1 a2]|[a1 [a2 a3]]];
    destruct (u32_attr (s_page s) ltac:(lia)) as [[p1 p2]|[p1 [p2 p3]]];
    cbn; unfold NONE in *; lia. }
  assert (PO : PoolSpec.pool_ok (p_loc p) (p_size p)) by (unfold PoolSpec.pool_ok; lia).
  pose proof (inv_step _ _ _ _ _ _ _ PO (proj2 M k p f Hp Hf) R S) as I'.
  assert (W : within (l, s_size s) (p_loc p) (p_size p)).
  { destruct I' as [_ B' _]. inversion B'; tauto. }
  destruct W as [w1 w2]; cbn [fst snd req_size] in w1, w2.
  assert (SL : s32 l = l) by (apply s32_id; unfold is_s32; lia).
  rewrite SL in *.
  edestruct (MI_step cf m pre s
     (Section_ (s_id s) (Some g) l (p_bank p) (l ÷ s_minimumWordSize s)
               (if p_image p =? -1 then -1 else p_image p + l - p_loc p) (p_overlay p)
               (s_minimumWordSize s) (s_byteAlign s) (s_page s) (s_size s) (s_used s) true (Some k)) post
     k p f f' l _ CF M Pn Hp Hf R S eq_refl eq_refl eq_refl) as (M' & W & _ & CH).
  split; [exact M'|].
  cbn [serve] in S. destruct (aligned_result _ _ _ _ _ _ _ _ PO CH R S) as [AR PR].
  constructor; cbn [s_id s_group s_size s_used s_minimumWordSize s_byteAlign s_page s_assigned
    s_cpuByteLocation s_cpuLocation s_cpuBank s_imageLocation s_overlay s_pool]; auto.
  - repeat split; auto.
  - rewrite Eg; discriminate.
  - intros g0 Hg0; rewrite Eg in Hg0; inversion Hg0; subst g0; exists G, k, p; repeat split; auto; cbn; try lia;
      destruct (p_image p =? -1); lia.
  - intros _ B0. lia.
  - intros; discriminate.
  - intros _ _. split; [apply Z.quot_div_nonneg; lia|split].
    + intro N. destruct (FA N) as [E1 E2]. rewrite <- E1. auto.
    + intros N1 N2. destruct (FP N1) as [E1 E2]. rewrite <- E1. apply PR; auto.
Qed.

Lemma place_absolute_ok : forall cf m pre s post s' m',
  config_ok cf -> section_ok s -> s_cpuByteLocation s <> -1 -> MI cf m (pre ++ s :: post) ->
  placeAbsolute cf s m = Ok (s', m') ->
  MI cf m' (pre ++ s' :: post) /\ placed_by cf KAbs s s'.
Proof.
  intros cf m pre s post s' m' CF SO N M H.
  destruct SO as (Z1 & O1 & A1 & P1 & W1 & As & Pn).
  destruct O1 as [O1|O1]; [contradiction|].
  unfold placeAbsolute in H. destruct (s_group s) as [g|] eqn:Eg; [|discriminate].
  unfold group_AllocateAbsolute in H. rewrite findGroup_find in H.
  destruct (find _ (cf_groups cf)) as [G|] eqn:EG; [|discriminate].
  destruct (tryPools _ _ _ _ _) as [[pl|]| |] eqn:ET; cbn [bind] in H; try discriminate.
  apply tryPools_some in ET as (k & p & f & f' & l & I & Hp & Hf & S & B & ->).
  inversion H; subst s' m'; clear H. cbn [pl_loc pl_bank pl_image pl_overlay pl_pool pl_mem mkPlacement] in *.
  pose proof CF as [CP _]. rewrite Forall_forall in CP. specialize (CP p (nth_error_In _ _ Hp)). cbn in CP.
  rewrite u32_id in S by (unfold is_u32; lia).
  assert (El : l = s_cpuByteLocation s).
  { cbn in S. destruct (pool_AllocateAbsolute _ _ _); congruence. }
  assert (R : req_ok (p_loc p) (p_size p) (Absolute (s_size s) (s_cpuByteLocation s))).
  { cbn. lia. }
  assert (SL : s32 l = l) by (apply s32_id; unfold is_s32; lia).
  rewrite SL in *.
  edestruct (MI_step cf m pre s
     (Section_ (s_id s) (Some g) (s_cpuByteLocation s) (p_bank p) (s_cpuLocation s)
               (if p_image p =? -1 then -1 else p_image p + l - p_loc p) (p_overlay p)
               (s_minimumWordSize s) (s_byteAlign s) (s_page s) (s_size s) (s_used s) true (Some k)) post
     k p f f' l _ CF M Pn Hp Hf R S eq_refl) as (M' & W & PO & CH); [auto|reflexivity|].
  split; [exact M'|].
  destruct W as [w1 w2]; cbn [fst snd req_size] in w1, w2.
  constructor; cbn [s_id s_group s_size s_used s_minimumWordSize s_byteAlign s_page s_assigned
    s_cpuByteLocation s_cpuLocation s_cpuBank s_imageLocation s_overlay s_pool]; auto.
  - repeat split; auto.
  - rewrite Eg; discriminate.
  - intros g0 Hg0; rewrite Eg in Hg0; inversion Hg0; subst g0; exists G, k, p; repeat split; auto; cbn; try lia;
      destruct (p_image p =? -1); lia.
  - intros _ B0. lia.
  - intros; discriminate.
Qed.

Lemma place_equ_ok : forall cf m pre s post,
  section_ok s -> s_group s = None -> MI cf m (pre ++ s :: post) ->
  MI cf m (pre ++ placeEqu s :: post) /\ placed_by cf KFloat s (placeEqu s).
Proof.
  intros cf m pre s post SO E M. destruct SO as (_ & _ & _ & _ & _ & _ & Pn). split.
  - eapply MI_same; eauto.
  - constructor; cbn; auto; try congruence; try tauto.
Qed.

(** ** all passes *)
(** State of one section after the passes [done]. *)
Definition status (cf : config) (done : list gpass) (s s' : section) : Prop :=
  (s' = s /\ (s_used s = true -> forall g, In g done -> gp_guard g s = false)) \/
  (s_used s = true /\ exists kd, first_kind gpasses s = Some kd /\ placed_by cf kd s s').

Lemma guard_unassigned : forall g s, In g gpasses -> gp_guard g s = true -> s_assigned s = false.
Proof.
  intros g s Hg H. unfold gpasses in Hg. apply in_app_iff in Hg as [Hg|[<-|[]]].
  - apply in_flat_map in Hg as (p & Hp & Hg).
    pose proof sectionPredicates_class as C. rewrite Forall_forall in C. specialize (C p Hp s).
    unfold gblock in Hg. cbn in Hg.
    repeat (destruct Hg as [<-|Hg];
      [cbn [gp_guard] in H; unfold whenGuard, lastGuard in H; rewrite ?andb_true_iff in H;
       first [ destruct H as [[H1 _] _]; now destruct (C H1)
             | destruct H as [_ H1]; now destruct (C H1)
             | destruct H as [H1 _]; now destruct (s_assigned s) ] |]).
    destruct Hg.
  - cbn [gp_guard] in H. unfold lastGuard in H. now destruct (s_assigned s).
Qed.

Lemma pass_ok : forall cf done g rest, config_ok cf -> gpasses = done ++ g :: rest ->
  forall ss ss0 pre m ss' m',
  Forall section_ok ss0 -> Forall2 (status cf done) ss0 ss ->
  MI cf m (pre ++ ss) ->
  forEachUsed (gstep cf g) ss m = Ok (ss', m') ->
  Forall2 (status cf (done ++ [g])) ss0 ss' /\ MI cf m' (pre ++ ss').
Proof.
  intros cf done g rest CF EG. induction ss as [|s ss IH]; intros ss0 pre m ss' m' SO F M H.
  - inversion F; subst. cbn in H. inversion H; subst. split; [constructor|auto].
  - inversion F as [|s0 ? ss0' ? Hst F']; subst. inversion SO as [|? ? So0 SO']; subst.
    cbn [forEachUsed] in H.
    assert (Hg : In g gpasses) by (rewrite EG; apply in_app_iff; right; now left).
    assert (STEP : forall s1 m1,
       (if s_used s then gstep cf g s m else keep s m) = Ok (s1, m1) ->
       status cf (done ++ [g]) s0 s1 /\ MI cf m1 (pre ++ s1 :: ss)).
    { intros s1 m1 E. destruct Hst as [[-> Hfalse]|[Hu (kd & Hk & PB)]].
      - destruct (s_used s0) eqn:Eu.
        + unfold gstep in E. destruct (gp_guard g s0) eqn:Eg.
          * assert (FK : first_kind gpasses s0 = Some (gp_kind g)).
            { rewrite EG, first_kind_app, first_kind_none by auto.
              unfold first_kind. cbn [find]. now rewrite Eg. }
            assert (X : MI cf m1 (pre ++ s1 :: ss) /\ placed_by cf (gp_kind g) s0 s1).
            { destruct (gp_kind g) eqn:Ek; cbn [place] in E.
              - destruct (abs_kind s0 FK) as [K1 K2]. eapply place_absolute_ok; eauto.
              - unfold isEqu in E. destruct (s_group s0) eqn:Egr.
                + eapply place_floating_ok; eauto.
                + inversion E; subst. now apply place_equ_ok. }
            destruct X as [X1 X2]. split; auto. right. eauto.
          * unfold keep in E. inversion E; subst. split; auto. left. split; auto.
            intros _ g0 Hg0. apply in_app_iff in Hg0 as [Hg0|[<-|[]]]; auto.
        + unfold keep in E. inversion E; subst. split; auto. left. split; auto. congruence.
      - pose proof (pb_assigned _ _ _ _ PB) as As.
        assert (E' : s1 = s /\ m1 = m).
        { destruct (s_used s); unfold gstep, keep in E; [|now inversion E].
          destruct (gp_guard g s) eqn:Eg; [|now inversion E].
          pose proof (guard_unassigned g s Hg Eg). congruence. }
        destruct E' as [-> ->]. split; auto. right. eauto. }
    destruct (if s_used s then gstep cf g s m else keep s m) as [[s1 m1]| |] eqn:E; cbn [bind] in H; try discriminate.
    destruct (forEachUsed (gstep cf g) ss m1) as [[r' m2]| |] eqn:E2; cbn [bind] in H; try discriminate.
    inversion H; subst. destruct (STEP s1 m1 eq_refl) as [S1 S2].
    destruct (IH ss0' (pre ++ [s1]) m1 r' m' SO' F') as [R1 R2]; auto.
    { rewrite <- app_assoc. exact S2. }
    split; [constructor; auto|]. rewrite <- app_assoc in R2. exact R2.
Qed.

Lemma forEachUsed_ext : forall f h ss m, (forall s m, f s m = h s m) ->
  forEachUsed f ss m = forEachUsed h ss m.
Proof.
  intros f h. induction ss as [|s ss IH]; intros m H; cbn; auto. rewrite H.
  destruct (if s_used s then h s m else keep s m) as [[s1 m1]| |]; cbn; auto. now rewrite IH.
Qed.

Lemma passes_ok : forall cf rest fs done, config_ok cf -> gpasses = done ++ rest ->
  Forall2 (fun f g => pass_eq f cf g) fs rest ->
  forall ss ss0 m ss' m',
  Forall section_ok ss0 -> Forall2 (status cf done) ss0 ss -> MI cf m ss ->
  runPasses fs ss m = Ok (ss', m') ->
  Forall2 (status cf gpasses) ss0 ss' /\ MI cf m' ss'.
Proof.
  intros cf rest. induction rest as [|g rest IH]; intros fs done CF EG FF ss ss0 m ss' m' SO F M H.
  - inversion FF; subst. cbn in H. inversion H; subst. rewrite app_nil_r in EG. now rewrite EG.
  - inversion FF as [|f ? fs' ? Hf FF']; subst. cbn [runPasses] in H.
    rewrite (forEachUsed_ext f (gstep cf g)) in H by (intros; apply Hf).
    destruct (forEachUsed (gstep cf g) ss m) as [[ss1 m1]| |] eqn:E; cbn [bind] in H; try discriminate.
    destruct (pass_ok cf done g rest CF EG ss ss0 [] m ss1 m1 SO F M E) as [F1 M1].
    eapply (IH fs' (done ++ [g])); eauto. rewrite <- app_assoc. exact EG.
Qed.

Lemma MI_init : forall cf ss, config_ok cf -> Forall section_ok ss -> MI cf (initMem cf) ss.
Proof.
  intros cf ss [CF _] SO. unfold MI, initMem. split; [apply map_length|].
  intros k p f Hp Hf. rewrite nth_error_map, Hp in Hf. cbn in Hf. inversion Hf; subst f.
  assert (E : ranges_in k ss = []).
  { unfold ranges_in. induction SO as [|s l Hs _ IH]; cbn; auto.
    destruct Hs as (_ & _ & _ & _ & _ & _ & Pn). now rewrite Pn. }
  rewrite E. apply inv_init. rewrite Forall_forall in CF.
  specialize (CF p (nth_error_In _ _ Hp)). cbn in CF. unfold PoolSpec.pool_ok. lia.
Qed.

Lemma last_guard : forall s, section_ok s -> exists g, In g gpasses /\ gp_guard g s = true.
Proof.
  intros s SO. exists (GPass (lastGuard truePredicate) KFloat). split.
  - unfold gpasses. apply in_app_iff. right. now left.
  - cbn. destruct SO as (_ & _ & _ & _ & _ & A & _). unfold lastGuard. rewrite A.
    unfold truePredicate. now rewrite orb_true_r.
Qed.

Lemma status_placed_well : forall cf s s', section_ok s ->
  status cf gpasses s s' -> placed_well cf s s'.
Proof.
  intros cf s s' SO [[-> Hf]|[Hu (kd & Hk & PB)]].
  - assert (U : s_used s = false).
    { destruct (s_used s) eqn:U; auto. destruct (last_guard s SO) as (g & Hg & G).
      rewrite (Hf eq_refl g Hg) in G. discriminate. }
    constructor; try (intros; congruence). repeat split; auto.
  - destruct PB as [Q1 Q2 Q3 Q4 Q5 Q6 Q7]. constructor; auto; try congruence.
    + intros _ G K O. apply Q6; auto.
      assert (first_kind gpasses s = Some KAbs); [|congruence].
      apply org_kind; auto; [apply SO|]. unfold isEqu. destruct (s_group s); congruence.
    + intros _ G O. apply Q7; auto.
      destruct kd; auto. destruct (abs_kind s Hk). congruence.
Qed.

Lemma assign_Place_ok : forall cf ss ss' m',
  config_ok cf -> Forall section_ok ss ->
  assign_Place cf ss (initMem cf) = Ok (ss', m') ->
  Forall2 (placed_well cf) ss ss' /\ MI cf m' ss'.
Proof.
  intros cf ss ss' m' CF SO H. unfold assign_Place in H.
  destruct (passes_ok cf gpasses _ [] CF eq_refl (passes_eq cf) ss ss (initMem cf) ss' m' SO) as [F M]; auto.
  - clear H. induction ss; constructor; [left; split; auto; intros _ g []|].
    apply IHss. now inversion SO.
  - now apply MI_init.
  - split; auto. clear - SO F. induction F; constructor.
    + apply status_placed_well; auto. now inversion SO.
    + apply IHF. now inversion SO.
Qed.

(** ** the sort *)
Lemma insert_perm : forall s l, Permutation (s :: l) (insertSection s l).
Proof.
  intros s l. induction l as [|x l IH]; cbn; auto.
  destruct (leSection s x); auto. etransitivity; [apply perm_swap|]. now apply perm_skip.
Qed.
Lemma sort_perm : forall l, Permutation l (sect_SortSections l).
Proof.
  induction l as [|s l IH]; cbn; auto. etransitivity; [apply perm_skip; exact IH|]. apply insert_perm.
Qed.
Lemma leSection_spec : forall a b, leSection a b = true <-> section_le a b.
Proof.
  intros a b. unfold leSection, section_le.
  destruct (s_used a), (s_used b); cbn [Bool.eqb];
  destruct (Z.eqb_spec (s_cpuBank a) (s_cpuBank b)); split; intros H;
  try (right; split; [reflexivity|]; lia);
  try (left; split; reflexivity);
  try discriminate; try reflexivity;
  destruct H as [[H1 H2]|[H1 H2]]; try discriminate; lia.
Qed.
Lemma leSection_total : forall a b, leSection a b = false -> section_le b a.
Proof.
  intros a b H. apply leSection_spec. unfold leSection in *.
  destruct (s_used a), (s_used b); cbn [Bool.eqb] in *; try discriminate; auto;
  destruct (Z.eqb_spec (s_cpuBank a) (s_cpuBank b)), (Z.eqb_spec (s_cpuBank b) (s_cpuBank a)); lia.
Qed.
Lemma section_le_trans : forall a b c, section_le a b -> section_le b c -> section_le a c.
Proof.
  unfold section_le. intros a b c [[H1 H2]|[H1 H2]] [[H3 H4]|[H3 H4]];
    try (left; split; congruence); right; (split; [congruence|lia]).
Qed.
Lemma insert_sorted : forall s l, StronglySorted section_le l -> StronglySorted section_le (insertSection s l).
Proof.
  intros s l H. induction H as [|x l Hl IH Hx]; cbn.
  - repeat constructor.
  - destruct (leSection s x) eqn:E.
    + apply leSection_spec in E. constructor; [constructor; auto|]. constructor; auto.
      eapply Forall_impl; [|exact Hx]. intros b. now apply section_le_trans.
    + apply leSection_total in E. constructor; auto.
      rewrite Forall_forall in *. intros y Hy.
      apply (Permutation_in _ (Permutation_sym (insert_perm s l))) in Hy. destruct Hy as [<-|Hy]; auto.
Qed.
Lemma sort_sorted : forall l, StronglySorted section_le (sect_SortSections l).
Proof. induction l as [|s l IH]; cbn; [constructor|]. now apply insert_sorted. Qed.

Lemma filter_perm : forall A (f : A -> bool) a b, Permutation a b -> Permutation (filter f a) (filter f b).
Proof.
  intros A f a b H. induction H; cbn; auto.
  - destruct (f x); auto.
  - destruct (f x), (f y); auto. apply perm_swap.
  - etransitivity; eauto.
Qed.
Lemma ranges_in_perm : forall k a b, Permutation a b -> Permutation (ranges_in k a) (ranges_in k b).
Proof. intros k a b H. unfold ranges_in. apply Permutation_map. now apply filter_perm. Qed.

Lemma nth_error_exists : forall A (l : list A) k, (k < length l)%nat -> exists x, nth_error l k = Some x.
Proof.
  intros A l k H. destruct (nth_error l k) eqn:E; eauto. apply nth_error_None in E. lia.
Qed.

Lemma MI_disjoint : forall cf m ss k, MI cf m ss -> (k < length (cf_pools cf))%nat ->
  forall a, count (ranges_in k ss) a <= 1.
Proof.
  intros cf m ss k [ML MM] Hk a.
  destruct (nth_error_exists _ (cf_pools cf) k Hk) as [p Hp].
  destruct (nth_error_exists _ m k ltac:(lia)) as [f Hf].
  destruct (MM k p f Hp Hf) as [_ _ C]. specialize (C a).
  pose proof (count_nonneg (ranges f) a). unfold ind in C. destruct (_ && _); lia.
Qed.

Lemma assign_sound : forall cf ss out,
  config_ok cf -> Forall section_ok ss -> assign_Process cf ss = Ok out ->
  exists ss', Permutation ss' out /\ Forall2 (placed_well cf) ss ss' /\
    (forall k, disjoint (ranges_in k out)) /\
    StronglySorted section_le out.
Proof.
  intros cf ss out CF SO H. unfold assign_Process in H.
  destruct (assign_Place cf ss (initMem cf)) as [[ss' m']| |] eqn:E; cbn in H; try discriminate.
  inversion H; subst. destruct (assign_Place_ok cf ss ss' m' CF SO E) as [F M].
  exists ss'. pose proof (sort_perm ss') as PP. split; auto. split; auto. split; [|apply sort_sorted].
  intro k. apply count_disjoint. intro a.
  rewrite <- (count_perm _ _ a (ranges_in_perm k _ _ PP)).
  destruct (Nat.lt_ge_cases k (length (cf_pools cf))) as [L|L].
  - eapply MI_disjoint; eauto.
  - assert (EE : ranges_in k ss' = []).
    { unfold ranges_in. clear - F L SO. induction F as [|s s' l l' PW F IH]; cbn; auto.
      inversion SO; subst.
      assert (X : match s_pool s' with Some j => Nat.eqb j k | None => false end = false).
      { destruct (s_used s) eqn:U.
        - destruct (s_group s) as [g|] eqn:G.
          + destruct (pw_pool _ _ _ PW U g G) as (G0 & k0 & p & _ & _ & Hp & -> & _).
            apply Nat.eqb_neq. intro. subst. assert (nth_error (cf_pools cf) k <> None) by congruence.
            apply nth_error_Some in H. lia.
          + destruct (pw_equ _ _ _ PW U G) as (_ & _ & _ & _ & ->). reflexivity.
        - rewrite (pw_unused _ _ _ PW U). destruct H1 as (_ & _ & _ & _ & _ & _ & ->). reflexivity. }
      rewrite X. auto. }
    rewrite EE. cbn. lia.
Qed.

(** ** no undefined behaviour *)
Lemma tryPools_no_UB : forall cf m ss ks bank q,
  config_ok cf -> MI cf m ss -> Forall (fun k => (k < length (cf_pools cf))%nat) ks ->
  (forall k p, nth_error (cf_pools cf) k = Some p -> req_ok (p_loc p) (p_size p) q) ->
  tryPools cf m ks bank q <> UB.
Proof.
  intros cf m ss ks bank q CF M F R. induction F as [|k ks Hk F IH]; cbn; [discriminate|].
  destruct (nth_error_exists _ (cf_pools cf) k Hk) as [p Hp]. rewrite Hp.
  destruct (nth_error_exists _ m k ltac:(rewrite (proj1 M); exact Hk)) as [f Hf]. rewrite Hf.
  destruct (_ || _); [|exact IH].
  assert (S : serve f q <> UB).
  { destruct (serve_no_UB _ _ f q (R k p Hp)) as [a ->]. discriminate. }
  destruct (serve f q) as [[[l f']|]| |]; cbn; try discriminate; auto.
Qed.

Lemma place_no_UB : forall cf m ss s g kd, config_ok cf -> MI cf m ss -> section_ok s ->
  (kd = KAbs -> s_cpuByteLocation s <> -1) -> s_group s = Some g -> place cf kd s m <> UB.
Proof.
  intros cf m ss s g kd CF M SO KA Eg.
  destruct SO as (Z1 & O1 & A1 & P1 & W1 & As & Pn).
  assert (GI : forall n G, find (fun G => beq (g_name G) n) (cf_groups cf) = Some G ->
     Forall (fun k => (k < length (cf_pools cf))%nat) (g_pools G)).
  { intros n G H. apply find_some in H as [H _]. destruct CF as [_ CG]. rewrite Forall_forall in CG. auto. }
  destruct kd; cbn [place].
  - unfold placeAbsolute, group_AllocateAbsolute. rewrite Eg, findGroup_find.
    destruct (find _ (cf_groups cf)) as [G|] eqn:EG; [|discriminate].
    assert (T : tryPools cf m (g_pools G) (s_cpuBank s) (Absolute (s_size s) (u32 (s_cpuByteLocation s))) <> UB).
    { eapply tryPools_no_UB; eauto. intros k p Hp. specialize (KA eq_refl).
      rewrite u32_id by (unfold is_u32; lia). cbn. lia. }
    destruct (tryPools _ _ _ _ _) as [[pl|]| |]; cbn; try discriminate. congruence.
  - unfold isEqu, placeFloating, group_AllocateAligned. rewrite Eg, findGroup_find.
    destruct (find _ (cf_groups cf)) as [G|] eqn:EG; [|discriminate].
    assert (T : tryPools cf m (g_pools G) (s_cpuBank s) (Aligned (s_size s) (u32 (s_byteAlign s)) (u32 (s_page s))) <> UB).
    { eapply tryPools_no_UB; eauto. intros k p Hp.
      pose proof CF as [CP _]. rewrite Forall_forall in CP. specialize (CP p (nth_error_In _ _ Hp)). cbn in CP.
      destruct (u32_attr (s_byteAlign s) ltac:(lia)) as [[a1 a2]|[a1 [a2 a3]]];
      destruct (u32_attr (s_page s) ltac:(lia)) as [[p1 p2]|[p1 [p2 p3]]];
      cbn; unfold NONE in *; lia. }
    destruct (tryPools _ _ _ _ _) as [[pl|]| |]; cbn; try discriminate; try congruence.
    destruct (Z.eqb_spec (s_minimumWordSize s) 0); [lia|]. discriminate.
Qed.

Lemma pass_no_UB : forall cf done g rest, config_ok cf -> gpasses = done ++ g :: rest ->
  forall ss ss0 pre m,
  Forall section_ok ss0 -> Forall2 (status cf done) ss0 ss ->
  MI cf m (pre ++ ss) -> forEachUsed (gstep cf g) ss m <> UB.
Proof.
  intros cf done g rest CF EG. induction ss as [|s ss IH]; intros ss0 pre m SO F M; [discriminate|].
  inversion F as [|s0 ? ss0' ? Hst F']; subst. inversion SO as [|? ? So0 SO']; subst.
  cbn [forEachUsed].
  assert (Hg : In g gpasses) by (rewrite EG; apply in_app_iff; right; now left).
  assert (N1 : (if s_used s then gstep cf g s m else keep s m) <> UB).
  { destruct (s_used s) eqn:U; [|discriminate]. unfold gstep. destruct (gp_guard g s) eqn:Eg; [|discriminate].
    pose proof (guard_unassigned g s Hg Eg) as As.
    destruct Hst as [[-> Hf]|[_ (kd & _ & PB)]]; [|pose proof (pb_assigned _ _ _ _ PB); congruence].
    destruct (s_group s0) as [gr|] eqn:Egr.
    - eapply place_no_UB; eauto. intro K. now destruct (abs_guard g s0 Hg K Eg).
    - destruct (gp_kind g) eqn:K; cbn [place].
      + destruct (abs_guard g s0 Hg K Eg) as [_ E]. unfold isEqu in E. rewrite Egr in E. discriminate.
      + unfold isEqu. now rewrite Egr. }
  destruct (if s_used s then gstep cf g s m else keep s m) as [[s1 m1]| |] eqn:E; cbn [bind]; try discriminate; auto.
  assert (P1 : forEachUsed (gstep cf g) [s] m = Ok ([s1], m1)).
  { cbn [forEachUsed]. rewrite E. reflexivity. }
  assert (M1 : MI cf m1 (pre ++ s1 :: ss)).
  { (* one section at a time *)
    assert (X : Forall2 (status cf done) [s0] [s]) by (constructor; auto).
    destruct Hst as [[-> Hf]|[Hu (kd & Hk & PB)]].
    - destruct (s_used s0) eqn:Eu.
      + unfold gstep in E. destruct (gp_guard g s0) eqn:Eg; [|inversion E; subst; exact M].
        assert (FK : first_kind gpasses s0 = Some (gp_kind g)).
        { rewrite EG, first_kind_app, first_kind_none by auto. unfold first_kind. cbn [find]. now rewrite Eg. }
        destruct (gp_kind g) eqn:Ek; cbn [place] in E.
        * destruct (abs_kind s0 FK). eapply place_absolute_ok; eauto.
        * unfold isEqu in E. destruct (s_group s0) eqn:Egr.
          -- eapply place_floating_ok; eauto.
          -- inversion E; subst. now apply place_equ_ok.
      + inversion E; subst. exact M.
    - assert (E' : s1 = s /\ m1 = m).
      { destruct (s_used s); unfold gstep, keep in E; [|now inversion E].
        destruct (gp_guard g s) eqn:Eg; [|now inversion E].
        pose proof (guard_unassigned g s Hg Eg). pose proof (pb_assigned _ _ _ _ PB). congruence. }
      destruct E' as [-> ->]. exact M. }
  assert (N2 : forEachUsed (gstep cf g) ss m1 <> UB).
  { eapply (IH ss0' (pre ++ [s1])); eauto. rewrite <- app_assoc. exact M1. }
  destruct (forEachUsed (gstep cf g) ss m1) as [[r' m2]| |]; cbn; try discriminate; auto.
Qed.

Lemma passes_no_UB : forall cf rest fs done, config_ok cf -> gpasses = done ++ rest ->
  Forall2 (fun f g => pass_eq f cf g) fs rest ->
  forall ss ss0 m,
  Forall section_ok ss0 -> Forall2 (status cf done) ss0 ss -> MI cf m ss ->
  runPasses fs ss m <> UB.
Proof.
  intros cf rest. induction rest as [|g rest IH]; intros fs done CF EG FF ss ss0 m SO F M.
  - inversion FF; subst. discriminate.
  - inversion FF as [|f ? fs' ? Hf FF']; subst. cbn [runPasses].
    rewrite (forEachUsed_ext f (gstep cf g)) by (intros; apply Hf).
    pose proof (pass_no_UB cf done g rest CF EG ss ss0 [] m SO F M) as N.
    destruct (forEachUsed (gstep cf g) ss m) as [[ss1 m1]| |] eqn:E; cbn [bind]; try discriminate; auto.
    destruct (pass_ok cf done g rest CF EG ss ss0 [] m ss1 m1 SO F M E) as [F1 M1].
    eapply (IH fs' (done ++ [g])); eauto. rewrite <- app_assoc. exact EG.
Qed.

Lemma assign_no_UB : forall cf ss, config_ok cf -> Forall section_ok ss ->
  assign_Process cf ss <> UB.
Proof.
  intros cf ss CF SO. unfold assign_Process.
  assert (N : assign_Place cf ss (initMem cf) <> UB).
  { unfold assign_Place. eapply (passes_no_UB cf gpasses _ [] CF eq_refl (passes_eq cf)); eauto.
    - clear. induction ss; constructor; auto. left. split; auto. intros _ g [].
    - now apply MI_init. }
  destruct (assign_Place cf ss (initMem cf)) as [[a b]| |]; cbn; try discriminate; auto.
Qed.

(** ** unused sections *)
Definition used_keeps (f : pass) : Prop := forall s m s' m', f s m = Ok (s', m') -> s_used s' = s_used s.

Lemma gstep_used_keeps : forall cf g, used_keeps (gstep cf g).
Proof.
  intros cf g s m s' m' H. unfold gstep in H. destruct (gp_guard g s); [|now inversion H].
  destruct (gp_kind g); cbn [place] in H.
  - unfold placeAbsolute in H. destruct (s_group s); [|discriminate].
    destruct (group_AllocateAbsolute _ _ _ _ _ _) as [[pl|]| |]; cbn in H; inversion H; reflexivity.
  - destruct (isEqu s); [now inversion H|].
    unfold placeFloating in H. destruct (s_group s); [|discriminate].
    destruct (group_AllocateAligned _ _ _ _ _ _ _) as [[pl|]| |]; cbn in H; try discriminate.
    destruct (_ =? 0); inversion H; reflexivity.
Qed.

Definition map_res {A B} (f : A -> B) (r : res A) : res B := bind r (fun a => Ok (f a)).
Definition only_used (x : list section * mem) := (filter s_used (fst x), snd x).

Lemma forEachUsed_filter : forall f, used_keeps f -> forall ss m,
  forEachUsed f (filter s_used ss) m = map_res only_used (forEachUsed f ss m).
Proof.
  intros f K. induction ss as [|s ss IH]; intros m; [reflexivity|].
  cbn [filter forEachUsed]. destruct (s_used s) eqn:U.
  - cbn [forEachUsed]. rewrite U. destruct (f s m) as [[s1 m1]| |] eqn:E; cbn [bind]; try reflexivity.
    rewrite IH. destruct (forEachUsed f ss m1) as [[r m2]| |]; cbn; try reflexivity.
    unfold only_used. cbn. rewrite (K _ _ _ _ E), U. reflexivity.
  - rewrite IH. cbn [keep bind]. destruct (forEachUsed f ss m) as [[r m2]| |]; cbn; try reflexivity.
    unfold only_used. cbn. now rewrite U.
Qed.

Lemma runPasses_filter : forall fs, Forall used_keeps fs -> forall ss m,
  runPasses fs (filter s_used ss) m = map_res only_used (runPasses fs ss m).
Proof.
  intros fs F. induction F as [|f fs K F IH]; intros ss m; [reflexivity|].
  cbn [runPasses]. rewrite (forEachUsed_filter f K).
  destruct (forEachUsed f ss m) as [[r m2]| |]; cbn; try reflexivity. apply IH.
Qed.

Lemma passes_used_keeps : forall cf,
  Forall used_keeps (flat_map (predicatePasses cf) sectionPredicates ++ [assignSection cf truePredicate]).
Proof.
  intro cf. pose proof (passes_eq cf) as F.
  induction F as [|f g fs gs H F IH]; constructor; auto.
  intros s m s' m' E. rewrite H in E. eapply gstep_used_keeps; eauto.
Qed.

Lemma insert_filter : forall s l,
  filter s_used (insertSection s l) =
  if s_used s then insertSection s (filter s_used l) else filter s_used l.
Proof.
  intros s l. induction l as [|x l IH].
  - cbn. destruct (s_used s); reflexivity.
  - cbn [insertSection]. destruct (leSection s x) eqn:L.
    + cbn [filter]. destruct (s_used s) eqn:U; [|reflexivity].
      destruct (s_used x) eqn:Ux.
      * cbn [insertSection]. now rewrite L.
      * unfold leSection in L. rewrite U, Ux in L. discriminate.
    + cbn [filter]. destruct (s_used x) eqn:Ux; rewrite IH; destruct (s_used s) eqn:U; auto.
      cbn [insertSection]. now rewrite L.
Qed.

Lemma sort_filter : forall l,
  filter s_used (sect_SortSections l) = sect_SortSections (filter s_used l).
Proof.
  induction l as [|s l IH]; [reflexivity|]. cbn [sect_SortSections fold_right filter].
  fold (sect_SortSections l). rewrite insert_filter, IH. destruct (s_used s); reflexivity.
Qed.

Lemma assign_filter : forall cf ss,
  assign_Process cf (filter s_used ss) = map_res (filter s_used) (assign_Process cf ss).
Proof.
  intros cf ss. unfold assign_Process, assign_Place.
  rewrite runPasses_filter by apply passes_used_keeps.
  destruct (runPasses _ ss (initMem cf)) as [[r m]| |]; cbn; try reflexivity.
  now rewrite <- sort_filter.
Qed.

Lemma forEachUsed_unused : forall f, used_keeps f -> forall ss m ss' m',
  forEachUsed f ss m = Ok (ss', m') ->
  filter (fun s => negb (s_used s)) ss' = filter (fun s => negb (s_used s)) ss.
Proof.
  intros f K. induction ss as [|s ss IH]; intros m ss' m' H; cbn in H; [inversion H; auto|].
  destruct (s_used s) eqn:U.
  - destruct (f s m) as [[s1 m1]| |] eqn:E; cbn in H; try discriminate.
    destruct (forEachUsed f ss m1) as [[r m2]| |] eqn:E2; cbn in H; try discriminate.
    inversion H; subst. cbn. rewrite (K _ _ _ _ E), U. cbn. eauto.
  - cbn in H. destruct (forEachUsed f ss m) as [[r m2]| |] eqn:E2; cbn in H; try discriminate.
    inversion H; subst. cbn. rewrite U. cbn. f_equal. eauto.
Qed.

Lemma runPasses_unused : forall fs, Forall used_keeps fs -> forall ss m ss' m',
  runPasses fs ss m = Ok (ss', m') ->
  filter (fun s => negb (s_used s)) ss' = filter (fun s => negb (s_used s)) ss.
Proof.
  intros fs F. induction F as [|f fs K F IH]; intros ss m ss' m' H; cbn in H; [now inversion H|].
  destruct (forEachUsed f ss m) as [[r m2]| |] eqn:E; cbn in H; try discriminate.
  rewrite (IH _ _ _ _ H). eapply forEachUsed_unused; eauto.
Qed.

Lemma assign_unused : forall cf ss out, assign_Process cf ss = Ok out ->
  Permutation (filter (fun s => negb (s_used s)) ss) (filter (fun s => negb (s_used s)) out).
Proof.
  intros cf ss out H. unfold assign_Process in H.
  destruct (assign_Place cf ss (initMem cf)) as [[r m]| |] eqn:E; cbn in H; inversion H; subst.
  unfold assign_Place in E. rewrite <- (runPasses_unused _ (passes_used_keeps cf) _ _ _ _ E).
  apply filter_perm, sort_perm.
Qed.
