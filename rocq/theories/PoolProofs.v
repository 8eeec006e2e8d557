From Coq Require Import ZArith List Bool Lia ZifyBool ZifyNat.
From Verif Require Import Base BaseFacts PoolModel PoolSpec.
Import ListNotations.
Open Scope Z_scope.

Definition chunk_in (base size : Z) (c : chunk) : Prop :=
  base <= c_loc c /\ 0 <= c_size c /\ c_loc c + c_size c <= base + size.

(** Every allocator carves the placed range out of one free chunk. *)
Definition carved (free : list chunk) (l n : Z) (free' : list chunk) : Prop :=
  exists pre c post, free = pre ++ c :: post /\
    free' = pre ++ pool_CarveRange c n l ++ post /\
    c_loc c <= l /\ l + n <= c_loc c + c_size c.

Lemma carved_cons : forall c free l n free',
  carved free l n free' -> carved (c :: free) l n (c :: free').
Proof.
  intros c free l n free' (pre & d & post & -> & -> & H).
  exists (c :: pre), d, post. cbn. auto.
Qed.

Lemma memory_carved : forall base size free n l free',
  pool_ok base size -> Forall (chunk_in base size) free -> 0 <= n ->
  pool_AllocateMemory free n = Some (l, free') -> carved free l n free'.
Proof.
  intros base size free n. induction free as [|c r IH]; intros l free' P F Hn H;
    cbn in H; [discriminate|].
  inversion F as [|? ? Hc Hr]; subst.
  destruct (n <=? c_size c) eqn:E.
  - inversion H; subst. exists [], c, r. cbn [app]. repeat split; try lia.
    unfold pool_CarveRange. rewrite Z.eqb_refl. reflexivity.
  - destruct (pool_AllocateMemory r n) as [[l1 r1]|] eqn:E2; [|discriminate].
    inversion H; subst. apply carved_cons. eapply IH; eauto.
Qed.

Lemma fits_spec : forall base size c n l,
  pool_ok base size -> chunk_in base size c -> 0 <= n -> 0 <= l -> l + n < 2 ^ 32 ->
  fits c n l = true <-> c_loc c <= l /\ l + n <= c_loc c + c_size c.
Proof.
  intros base size c n l P C Hn Hl Hw. unfold fits, chunk_in, pool_ok in *.
  rewrite andb_true_iff, !Z.leb_le. unfold u32. rewrite !Z.mod_small by lia. lia.
Qed.

Lemma absolute_carved : forall base size free n l free',
  pool_ok base size -> Forall (chunk_in base size) free ->
  0 <= n -> 0 <= l -> l + n < 2 ^ 32 ->
  pool_AllocateAbsolute free n l = Some free' -> carved free l n free'.
Proof.
  intros base size free n l. induction free as [|c r IH]; intros free' P F Hn Hl Hw H;
    cbn in H; [discriminate|].
  inversion F as [|? ? Hc Hr]; subst.
  destruct (fits c n l) eqn:E.
  - inversion H; subst. apply (fits_spec base size) in E; auto.
    exists [], c, r. cbn [app]. tauto.
  - destruct (pool_AllocateAbsolute r n l) as [r1|] eqn:E2; [|discriminate].
    inversion H; subst. apply carved_cons. eapply IH; eauto.
Qed.

Lemma align_up_spec : forall x a, 0 <= x -> 0 < a -> x + a <= 2 ^ 32 ->
  align_up x a mod a = 0 /\ x <= align_up x a < x + a.
Proof.
  intros x a Hx Ha Hw. unfold align_up.
  assert (T : u32 (x + a - 1) = x + a - 1) by (unfold u32; apply Z.mod_small; lia).
  rewrite T. set (t := x + a - 1) in *.
  pose proof (Z.div_mod t a ltac:(lia)) as D.
  pose proof (Z.mod_pos_bound t a Ha) as M.
  assert (0 <= t / a) by (apply Z.div_pos; lia).
  assert (U : u32 (t - t mod a) = t - t mod a).
  { unfold u32. apply Z.mod_small. subst t. nia. }
  rewrite U. split.
  - replace (t - t mod a) with ((t / a) * a) by lia. apply Z.mod_mul. lia.
  - subst t. lia.
Qed.

Lemma aligned_carved : forall base size free n a l free',
  pool_ok base size -> Forall (chunk_in base size) free ->
  0 <= n -> 0 < a -> base + size + a + n <= 2 ^ 32 ->
  alignedLoop free n a = Some (l, free') -> carved free l n free' /\ l mod a = 0.
Proof.
  intros base size free n a. induction free as [|c r IH]; intros l free' P F Hn Ha Hw H;
    cbn in H; [discriminate|].
  inversion F as [|? ? Hc Hr]; subst.
  unfold chunk_in, pool_ok in *.
  destruct (align_up_spec (c_loc c) a) as [A1 A2]; try lia.
  destruct (fits c n (align_up (c_loc c) a)) eqn:E.
  - inversion H; subst. apply (fits_spec base size) in E; unfold chunk_in, pool_ok; auto; try lia.
    split; auto. exists [], c, r. cbn [app]. tauto.
  - destruct (alignedLoop r n a) as [[l1 r1]|] eqn:E2; [|discriminate].
    inversion H; subst. destruct (IH l r1) as [I1 I2]; auto.
    split; auto. now apply carved_cons.
Qed.

Definition rem_page (c : chunk) (ps page : Z) : Z :=
  let rc := c_loc c + c_size c - page in
  let rp := ps - page mod ps in
  if rc <? rp then rc else rp.

Lemma pageLoop_step : forall base size c n a ps page fuel,
  pool_ok base size -> chunk_in base size c -> 0 < ps < NONE ->
  c_loc c <= page < c_loc c + c_size c ->
  pageLoop (S fuel) c n a ps page =
    let rp := rem_page c ps page in
    if n <=? rp then
      if a =? NONE then Some (page, pool_CarveRange c n page)
      else
        let loc := align_up page a in
        if fits c n loc then Some (loc, pool_CarveRange c n loc)
        else pageLoop fuel c n a ps (page + rp)
    else pageLoop fuel c n a ps (page + rp).
Proof.
  intros base size c n a ps page fuel P C Hps Hp.
  unfold chunk_in, pool_ok, NONE in *.
  pose proof (Z.mod_pos_bound page ps ltac:(lia)) as M.
  cbn [pageLoop]. cbv zeta.
  assert (E1 : u32 (c_loc c + c_size c) = c_loc c + c_size c)
    by (unfold u32; apply Z.mod_small; lia).
  assert (E2 : u32 (c_loc c + c_size c - page) = c_loc c + c_size c - page)
    by (unfold u32; apply Z.mod_small; lia).
  assert (E3 : u32 (ps - page mod ps) = ps - page mod ps)
    by (unfold u32; apply Z.mod_small; lia).
  rewrite E1, E2, E3.
  fold (rem_page c ps page).
  change (if c_loc c + c_size c - page <? ps - page mod ps
          then c_loc c + c_size c - page else ps - page mod ps)
    with (rem_page c ps page).
  assert (0 < rem_page c ps page <= c_loc c + c_size c - page).
  { unfold rem_page. destruct (_ <? _) eqn:E; lia. }
  assert (E4 : u32 (page + rem_page c ps page) = page + rem_page c ps page)
    by (unfold u32; apply Z.mod_small; lia).
  rewrite E4.
  replace (page <? c_loc c + c_size c) with true by lia. reflexivity.
Qed.

Lemma pageLoop_end : forall base size c n a ps page fuel,
  pool_ok base size -> chunk_in base size c -> c_loc c + c_size c <= page ->
  pageLoop fuel c n a ps page = None.
Proof.
  intros base size c n a ps page [|fuel] P C H; [reflexivity|].
  cbn [pageLoop]. unfold chunk_in, pool_ok in *.
  assert (E1 : u32 (c_loc c + c_size c) = c_loc c + c_size c)
    by (unfold u32; apply Z.mod_small; lia).
  rewrite E1. replace (page <? c_loc c + c_size c) with false by lia. reflexivity.
Qed.

Lemma rem_page_spec : forall base size c ps page,
  pool_ok base size -> chunk_in base size c -> 0 < ps < NONE ->
  c_loc c <= page < c_loc c + c_size c ->
  0 < rem_page c ps page /\ page + rem_page c ps page <= c_loc c + c_size c /\
  page + rem_page c ps page <= (page / ps + 1) * ps /\
  (page + rem_page c ps page = c_loc c + c_size c \/
   page + rem_page c ps page = (page / ps + 1) * ps).
Proof.
  intros base size c ps page P C Hps Hp. unfold rem_page.
  pose proof (Z.mod_pos_bound page ps ltac:(lia)) as M.
  pose proof (Z.div_mod page ps ltac:(lia)) as D.
  destruct (_ <? _) eqn:E; nia.
Qed.

Lemma pageLoop_carved : forall base size c n a ps fuel page l cs,
  pool_ok base size -> chunk_in base size c -> 0 < ps < NONE -> 0 <= n < 2 ^ 32 ->
  (a = NONE \/ 0 < a /\ base + size + a + n <= 2 ^ 32) ->
  c_loc c <= page ->
  pageLoop fuel c n a ps page = Some (l, cs) ->
  cs = pool_CarveRange c n l /\ c_loc c <= l /\ l + n <= c_loc c + c_size c /\
  (a = NONE -> in_one_page ps l n) /\
  (a <> NONE -> l mod a = 0).
Proof.
  intros base size c n a ps fuel. induction fuel as [|fuel IH];
    intros page l cs P C Hps Hn Ha Hp H; [discriminate|].
  destruct (Z_lt_le_dec page (c_loc c + c_size c)) as [Hlt|Hge].
  - rewrite (pageLoop_step base size) in H by (auto; lia). cbv zeta in H.
    destruct (rem_page_spec base size c ps page P C Hps) as (R1 & R2 & R3 & R4); [lia|].
    destruct (n <=? rem_page c ps page) eqn:E.
    + destruct (a =? NONE) eqn:Ea.
      * inversion H; subst. repeat split; try lia.
        intros _. exists (l / ps).
        pose proof (Z.mul_div_le l ps ltac:(lia)).
        split; [lia|]. lia.
      * destruct Ha as [Ha|[Ha Hw]]; [lia|].
        destruct (align_up_spec page a) as [A1 A2];
          [unfold chunk_in, pool_ok in *; lia..|].
        destruct (fits c n (align_up page a)) eqn:Ef.
        -- inversion H; subst.
           apply (fits_spec base size) in Ef; auto; try (unfold chunk_in, pool_ok in *; lia).
           repeat split; try lia; auto. 
        -- apply IH in H; auto; lia.
    + apply IH in H; auto; lia.
  - rewrite (pageLoop_end base size) in H by auto. discriminate.
Qed.

Lemma serve_carved : forall base size free q l free',
  pool_ok base size -> Forall (chunk_in base size) free -> req_ok base size q ->
  serve free q = Ok (Some (l, free')) -> carved free l (req_size q) free'.
Proof.
  intros base size free q l free' P F R H. destruct q as [n loc|n a ps]; cbn in *.
  - destruct (pool_AllocateAbsolute free n loc) eqn:E; [|discriminate].
    inversion H; subst. eapply absolute_carved; eauto; lia.
  - destruct R as (Hn & Ha & Hps). unfold pool_AllocateAligned in H.
    destruct ((a =? NONE) && (ps =? NONE)) eqn:E1.
    { inversion H. eapply memory_carved; eauto. lia. }
    destruct free as [|c r]; [discriminate|].
    destruct (ps =? NONE) eqn:E2; cbn [negb] in H.
    + destruct Ha as [Ha|[Ha Hw]]; [subst a; rewrite Z.eqb_refl in E1; discriminate|].
      destruct (a =? 0) eqn:E3; [lia|]. inversion H.
      eapply aligned_carved; eauto; lia.
    + destruct (ps <? n) eqn:E3; [discriminate|].
      destruct (ps =? 0) eqn:E4; [lia|].
      destruct (a =? 0) eqn:E5; [discriminate|].
      destruct (pageLoop _ _ _ _ _ _) as [[l1 cs]|] eqn:E6; [|discriminate].
      inversion H; subst. inversion F as [|? ? Hc Hr]; subst.
      assert (Hps' : 0 < ps < NONE)
        by (destruct Hps as [->|]; [rewrite Z.eqb_refl in E2; discriminate|assumption]).
      destruct (pageLoop_carved base size c n a ps _ _ l cs P Hc Hps' Hn Ha (Z.le_refl _) E6)
        as (-> & L1 & L2 & _).
      exists [], c, r. cbn [app]. auto.
Qed.

Lemma serve_no_UB : forall base size free q,
  req_ok base size q -> exists a, serve free q = Ok a.
Proof.
  intros base size free q R. destruct q as [n loc|n a ps]; cbn in *.
  - eauto.
  - destruct R as (Hn & Ha & Hps). unfold pool_AllocateAligned.
    assert (a <> 0) by (unfold NONE in *; lia).
    assert (ps <> 0) by (unfold NONE in *; lia).
    destruct (_ && _); eauto. destruct free as [|c r]; eauto.
    destruct (negb _).
    + destruct (_ <? _); eauto.
      destruct (ps =? 0) eqn:E1; [lia|]. destruct (a =? 0) eqn:E2; [lia|].
      destruct (pageLoop _ _ _ _ _ _) as [[? ?]|]; eauto.
    + destruct (a =? 0) eqn:E2; [lia|]. eauto.
Qed.

(** ** what carving does *)
Definition ind (l n a : Z) : Z := if (l <=? a) && (a <? l + n) then 1 else 0.

Lemma count_app : forall x y a, count (x ++ y) a = count x a + count y a.
Proof. induction x as [|r x IH]; intros; cbn [count app]; [lia|]. rewrite IH. lia. Qed.

Lemma carve_eq : forall base size c n l,
  pool_ok base size -> chunk_in base size c -> 0 <= n ->
  c_loc c <= l -> l + n <= c_loc c + c_size c ->
  pool_CarveRange c n l =
    if l =? c_loc c then [Chunk (c_loc c + n) (c_size c - n)]
    else [Chunk (c_loc c) (l - c_loc c);
          Chunk (l + n) (c_loc c + c_size c - (l + n))].
Proof.
  intros base size c n l P C Hn H1 H2. unfold pool_CarveRange, pool_ok, chunk_in, u32 in *.
  destruct (l =? c_loc c) eqn:E.
  - rewrite !Z.mod_small by lia. reflexivity.
  - rewrite !Z.mod_small by lia. reflexivity.
Qed.

Lemma carve_count : forall base size c n l a,
  pool_ok base size -> chunk_in base size c -> 0 <= n ->
  c_loc c <= l -> l + n <= c_loc c + c_size c ->
  count (ranges (pool_CarveRange c n l)) a + ind l n a = ind (c_loc c) (c_size c) a.
Proof.
  intros base size c n l a P C Hn H1 H2. rewrite (carve_eq base size) by auto.
  unfold chunk_in in C. unfold ind.
  destruct (l =? c_loc c) eqn:E; cbn [ranges map count fst snd c_loc c_size];
    repeat match goal with
    | |- context [if ?b then _ else _] => destruct b eqn:?
    end; lia.
Qed.

Lemma carve_in : forall base size c n l,
  pool_ok base size -> chunk_in base size c -> 0 <= n ->
  c_loc c <= l -> l + n <= c_loc c + c_size c ->
  Forall (chunk_in base size) (pool_CarveRange c n l).
Proof.
  intros base size c n l P C Hn H1 H2. rewrite (carve_eq base size) by auto.
  unfold chunk_in in *. destruct (l =? c_loc c) eqn:E;
    repeat constructor; cbn [c_loc c_size]; lia.
Qed.

Lemma carved_count : forall base size free l n free' a,
  pool_ok base size -> Forall (chunk_in base size) free -> 0 <= n ->
  carved free l n free' ->
  count (ranges free') a + ind l n a = count (ranges free) a.
Proof.
  intros base size free l n free' a P F Hn (pre & c & post & -> & -> & H1 & H2).
  apply Forall_app in F as [F1 F2]. inversion F2 as [|? ? Hc Hp]; subst.
  unfold ranges. rewrite !map_app. cbn [map]. rewrite !count_app. cbn [count fst snd].
  pose proof (carve_count base size c n l a P Hc Hn H1 H2) as K.
  unfold ranges in K. fold (ind (c_loc c) (c_size c) a). lia.
Qed.

Lemma carved_in : forall base size free l n free',
  pool_ok base size -> Forall (chunk_in base size) free -> 0 <= n ->
  carved free l n free' ->
  Forall (chunk_in base size) free' /\ within (l, n) base size.
Proof.
  intros base size free l n free' P F Hn (pre & c & post & -> & -> & H1 & H2).
  apply Forall_app in F as [F1 F2]. inversion F2 as [|? ? Hc Hp]; subst. split.
  - apply Forall_app; split; auto. apply Forall_app; split; auto.
    now apply carve_in.
  - unfold within, chunk_in in *. cbn [fst snd]. lia.
Qed.

(** ** the invariant over histories *)
Record inv (base size : Z) (free : list chunk) (placed : list (Z * Z)) : Prop := {
  inv_free : Forall (chunk_in base size) free;
  inv_placed : Forall (fun r => within r base size /\ 0 <= snd r) placed;
  inv_count : forall a, count (ranges free) a + count placed a = ind base size a }.

Lemma inv_init : forall base size, pool_ok base size ->
  inv base size (initChunks base size) [].
Proof.
  intros base size P. unfold pool_ok in P. constructor.
  - repeat constructor; cbn; lia.
  - constructor.
  - intro a. cbn. unfold ind. lia.
Qed.

Lemma req_size_nonneg : forall base size q, req_ok base size q -> 0 <= req_size q.
Proof. intros base size [n l|n a p]; cbn; lia. Qed.

Lemma inv_step : forall base size free placed q l free',
  pool_ok base size -> inv base size free placed -> req_ok base size q ->
  serve free q = Ok (Some (l, free')) ->
  inv base size free' ((l, req_size q) :: placed).
Proof.
  intros base size free placed q l free' P [I1 I2 I3] R H.
  pose proof (serve_carved _ _ _ _ _ _ P I1 R H) as C.
  pose proof (req_size_nonneg _ _ _ R) as Hn.
  destruct (carved_in _ _ _ _ _ _ P I1 Hn C) as [K1 K2].
  constructor; auto.
  intro a. pose proof (carved_count _ _ _ _ _ _ a P I1 Hn C) as K.
  specialize (I3 a). cbn [count fst snd]. fold (ind l (req_size q) a). lia.
Qed.

Lemma serveAll_inv : forall base size qs free placed,
  pool_ok base size -> inv base size free placed ->
  Forall (req_ok base size) qs ->
  exists free' placed', serveAll free placed qs = Ok (free', placed') /\
    inv base size free' placed'.
Proof.
  intros base size. induction qs as [|q qs IH]; intros free placed P I F; cbn [serveAll].
  - eauto.
  - inversion F as [|? ? Hq Hqs]; subst.
    destruct (serve_no_UB base size free q Hq) as [a E]. rewrite E. cbn [bind].
    destruct a as [[l free']|].
    + apply IH; auto. eapply inv_step; eauto.
    + apply IH; auto.
Qed.

Lemma count_nonneg : forall l a, 0 <= count l a.
Proof.
  induction l as [|r l IH]; intro a; cbn [count]; [lia|]. specialize (IH a).
  destruct (_ && _); lia.
Qed.

Lemma count_covers : forall l i r a,
  nth_error l i = Some r -> covers r a -> 1 <= count l a.
Proof.
  induction l as [|s l IH]; intros [|i] r a H C; cbn in *; try discriminate.
  - inversion H; subst. unfold covers in C. pose proof (count_nonneg l a).
    replace ((fst r <=? a) && (a <? fst r + snd r)) with true by lia. lia.
  - specialize (IH i r a H C). destruct (_ && _); lia.
Qed.

Lemma count_disjoint : forall l, (forall a, count l a <= 1) -> disjoint l.
Proof.
  unfold disjoint. induction l as [|s l IH]; intros H i j r t a N Hi Hj Ci Cj.
  - destruct i; discriminate.
  - assert (Hl : forall a, count l a <= 1).
    { intro x. specialize (H x). cbn [count] in H. destruct (_ && _); lia. }
    destruct i as [|i], j as [|j]; cbn in Hi, Hj.
    + congruence.
    + inversion Hi; subst. pose proof (count_covers l j t a Hj Cj).
      specialize (H a). cbn [count] in H. unfold covers in Ci.
      replace ((fst r <=? a) && (a <? fst r + snd r)) with true in H by lia. lia.
    + inversion Hj; subst. pose proof (count_covers l i r a Hi Ci).
      specialize (H a). cbn [count] in H. unfold covers in Cj.
      replace ((fst t <=? a) && (a <? fst t + snd t)) with true in H by lia. lia.
    + eapply (IH Hl i j); eauto.
Qed.

Lemma inv_disjoint : forall base size free placed,
  inv base size free placed -> disjoint placed.
Proof.
  intros base size free placed [_ _ I]. apply count_disjoint. intro a.
  specialize (I a). pose proof (count_nonneg (ranges free) a).
  unfold ind in I. destruct (_ && _); lia.
Qed.

(** ** completeness: sorted, separated free list *)
(** Chunks in increasing order with at least one used byte between them. *)
Fixpoint separated (free : list chunk) : Prop :=
  match free with
  | [] => True
  | c :: r => (forall d, In d r -> c_loc c + c_size c < c_loc d) /\ separated r
  end.

Lemma separated_app : forall a b, separated (a ++ b) <->
  separated a /\ separated b /\
  (forall c d, In c a -> In d b -> c_loc c + c_size c < c_loc d).
Proof.
  induction a as [|c a IH]; intro b; cbn.
  - tauto.
  - rewrite IH. split.
    + intros (H1 & H2 & H3 & H4). repeat split; auto.
      * intros d Hd. apply H1. apply in_app_iff. auto.
      * intros x d [->|Hx] Hd; auto. apply H1. apply in_app_iff. auto.
    + intros ((H1 & H2) & H3 & H4). repeat split; auto.
      intros d Hd. apply in_app_iff in Hd as [Hd|Hd]; auto.
Qed.

Lemma carved_separated : forall base size free l n free',
  pool_ok base size -> Forall (chunk_in base size) free -> 0 < n ->
  separated free -> carved free l n free' -> separated free'.
Proof.
  intros base size free l n free' P F Hn S (pre & c & post & -> & -> & H1 & H2).
  apply Forall_app in F as [F1 F2]. inversion F2 as [|? ? Hc Hp]; subst.
  rewrite (carve_eq base size) by (auto; lia).
  apply separated_app in S as (S1 & S2 & S3). cbn in S2. destruct S2 as [S2 S4].
  unfold chunk_in in Hc.
  destruct (l =? c_loc c) eqn:E; cbn [app]; apply separated_app;
    (split; [exact S1|split]).
  - cbn [separated]. split; auto. intros d Hd. cbn [c_loc c_size]. specialize (S2 d Hd). lia.
  - intros x d Hx [<-|Hd]; cbn [c_loc c_size].
    + specialize (S3 x c Hx (or_introl eq_refl)). lia.
    + apply S3; cbn; auto.
  - cbn [separated]. split; [|split; auto].
    + intros d [<-|Hd]; cbn [c_loc c_size]; [lia|]. specialize (S2 d Hd). lia.
    + intros d Hd. cbn [c_loc c_size]. specialize (S2 d Hd). lia.
  - intros x d Hx [<-|[<-|Hd]]; cbn [c_loc c_size].
    + specialize (S3 x c Hx (or_introl eq_refl)). lia.
    + specialize (S3 x c Hx (or_introl eq_refl)). lia.
    + apply S3; cbn; auto.
Qed.

Lemma count_none : forall l a, (forall r, In r l -> ~ covers r a) -> count l a = 0.
Proof.
  induction l as [|r l IH]; intros a H; cbn [count]; [reflexivity|].
  rewrite IH by (intros; apply H; now right).
  assert (~ covers r a) by (apply H; now left). unfold covers in *.
  destruct (_ && _) eqn:E; lia.
Qed.

Lemma count_some : forall f a, 0 < count (ranges f) a ->
  exists c, In c f /\ c_loc c <= a < c_loc c + c_size c.
Proof.
  induction f as [|c f IH]; intros a H; cbn [ranges map count fst snd] in H; [lia|].
  destruct ((c_loc c <=? a) && (a <? c_loc c + c_size c)) eqn:E.
  - exists c. split; [now left|lia].
  - destruct (IH a) as (d & Hd & B); [unfold ranges; lia|]. exists d. split; auto. now right.
Qed.

(** A free range lies inside a single chunk. *)
Lemma free_in_chunk : forall base size free placed x n,
  inv base size free placed -> separated free ->
  0 < n -> all_free base size placed x n ->
  exists c, In c free /\ c_loc c <= x /\ x + n <= c_loc c + c_size c.
Proof.
  intros base size free placed x n [I1 I2 I3] SP Hn (A1 & A2 & A3).
  assert (Cov : forall a, x <= a < x + n ->
            exists c, In c free /\ c_loc c <= a < c_loc c + c_size c).
  { intros a Ha. apply count_some. specialize (I3 a).
    rewrite (count_none placed a) in I3 by (intros r Hr; eauto).
    unfold ind in I3. replace ((base <=? a) && (a <? base + size)) with true in I3 by lia. lia. }
  (* extend byte by byte *)
  assert (Ext : forall k, (k < Z.to_nat n)%nat -> exists c, In c free /\ c_loc c <= x /\
             x + Z.of_nat k < c_loc c + c_size c).
  { induction k as [|k IHk]; intro Hk.
    - destruct (Cov x) as (c & Hc & B); [lia|]. exists c. repeat split; auto; lia.
    - destruct IHk as (c & Hc & B1 & B2); [lia|].
      destruct (Cov (x + Z.of_nat (S k))) as (d & Hd & D1); [lia|].
      exists c. repeat split; auto.
      destruct (Z_lt_le_dec (x + Z.of_nat (S k)) (c_loc c + c_size c)) as [|Hge]; auto.
      exfalso.
      (* c ends at x+k+1, d covers x+k+1: they would touch *)
      assert (Sep : forall f, separated f -> In c f -> In d f ->
               c = d \/ c_loc c + c_size c < c_loc d \/ c_loc d + c_size d < c_loc c).
      { induction f as [|e f IHf]; cbn; [tauto|]. intros [F1 F2] Ic Id.
        destruct Ic as [->|Ic], Id as [->|Id]; auto. }
      destruct (Sep free SP Hc Hd) as [->|[Q|Q]]; lia. }
  destruct (Ext (Z.to_nat n - 1)%nat) as (c & Hc & B1 & B2); [lia|].
  exists c. repeat split; auto; lia.
Qed.

Lemma chunk_is_free : forall base size free placed c x n,
  inv base size free placed -> In c free -> c_loc c <= x -> x + n <= c_loc c + c_size c ->
  all_free base size placed x n.
Proof.
  intros base size free placed c x n [I1 I2 I3] Hc H1 H2.
  rewrite Forall_forall in I1. pose proof (I1 c Hc) as C. unfold chunk_in in C.
  unfold all_free. repeat split; try lia.
  intros a Ha r Hr Hcov.
  apply In_nth_error in Hr as [i Hi]. pose proof (count_covers _ _ _ _ Hi Hcov).
  assert (In (c_loc c, c_size c) (ranges free)) as Ic
    by (unfold ranges; now apply (in_map (fun c => (c_loc c, c_size c)))).
  apply In_nth_error in Ic as [j Hj].
  assert (1 <= count (ranges free) a)
    by (eapply count_covers; eauto; unfold covers; cbn; lia).
  specialize (I3 a). unfold ind in I3. destruct (_ && _) in I3; lia.
Qed.

Lemma memory_first_fit : forall base size free n,
  pool_ok base size -> Forall (chunk_in base size) free -> separated free -> 0 < n ->
  match pool_AllocateMemory free n with
  | None => forall c x, In c free -> c_loc c <= x -> x + n <= c_loc c + c_size c -> False
  | Some (l, _) => forall c x, In c free -> c_loc c <= x -> x + n <= c_loc c + c_size c -> l <= x
  end.
Proof.
  intros base size free n P. induction free as [|c r IH]; intros F S Hn; cbn.
  - tauto.
  - inversion F as [|? ? Hc Hr]; subst. cbn in S. destruct S as [S1 S2].
    unfold chunk_in in *.
    destruct (n <=? c_size c) eqn:E.
    + intros d x [<-|Hd] H1 H2; [lia|]. specialize (S1 d Hd). lia.
    + specialize (IH Hr S2 Hn). destruct (pool_AllocateMemory r n) as [[l r']|].
      * intros d x [<-|Hd] H1 H2; [lia|]. eapply IH; eauto.
      * intros d x [<-|Hd] H1 H2; [lia|]. eapply IH; eauto.
Qed.

Lemma absolute_complete : forall base size free n l c,
  pool_ok base size -> Forall (chunk_in base size) free ->
  0 <= n -> 0 <= l -> l + n < 2 ^ 32 ->
  pool_AllocateAbsolute free n l = None ->
  In c free -> c_loc c <= l -> l + n <= c_loc c + c_size c -> False.
Proof.
  intros base size free n l c P. induction free as [|d r IH]; intros F Hn Hl Hw H Hc H1 H2;
    [destruct Hc|].
  inversion F as [|? ? Hd Hr]; subst. cbn in H.
  destruct (fits d n l) eqn:E; [discriminate|].
  destruct (pool_AllocateAbsolute r n l) eqn:E2; [discriminate|].
  destruct Hc as [->|Hc]; [|eauto].
  assert (fits c n l = true) by (apply (fits_spec base size); auto). congruence.
Qed.

Lemma multiple_ge : forall x y a, 0 < a -> y mod a = 0 -> x mod a = 0 -> y < x + a -> y <= x.
Proof.
  intros x y a Ha Hy Hx H.
  apply Z.mod_divide in Hy as [k ->]; [|lia]. apply Z.mod_divide in Hx as [j ->]; [|lia].
  assert (k < j + 1) by nia. nia.
Qed.

Lemma aligned_first_fit : forall base size free n a,
  pool_ok base size -> Forall (chunk_in base size) free -> separated free -> 0 < n ->
  0 < a -> base + size + a + n <= 2 ^ 32 ->
  match alignedLoop free n a with
  | None => forall c x, In c free -> x mod a = 0 -> c_loc c <= x ->
              x + n <= c_loc c + c_size c -> False
  | Some (l, _) => forall c x, In c free -> x mod a = 0 -> c_loc c <= x ->
              x + n <= c_loc c + c_size c -> l <= x
  end.
Proof.
  intros base size free n a P. induction free as [|c r IH]; intros F S Hn Ha Hw; cbn.
  - tauto.
  - inversion F as [|? ? Hc Hr]; subst. cbn in S. destruct S as [S1 S2].
    pose proof Hc as Hc'. unfold chunk_in, pool_ok in *.
    destruct (align_up_spec (c_loc c) a) as [A1 A2]; try lia.
    destruct (fits c n (align_up (c_loc c) a)) eqn:E.
    + intros d x [<-|Hd] Hx H1 H2.
      * eapply multiple_ge; eauto. lia.
      * specialize (S1 d Hd). apply (fits_spec base size) in E; unfold pool_ok, chunk_in; try lia.
    + assert (NC : forall x, x mod a = 0 -> c_loc c <= x -> x + n <= c_loc c + c_size c -> False).
      { intros x Hx H1 H2.
        assert (align_up (c_loc c) a <= x) by (eapply multiple_ge; eauto; lia).
        assert (fits c n (align_up (c_loc c) a) = true)
          by (apply (fits_spec base size); unfold pool_ok, chunk_in; lia).
        congruence. }
      specialize (IH Hr S2 Hn Ha Hw). destruct (alignedLoop r n a) as [[l r']|].
      * intros d x [<-|Hd] Hx H1 H2; [exfalso; eauto|]. eapply IH; eauto.
      * intros d x [<-|Hd] Hx H1 H2; [eauto|]. eapply IH; eauto.
Qed.

(** The page loop is complete inside its chunk. *)
Lemma pageLoop_complete : forall base size c n ps fuel page,
  pool_ok base size -> chunk_in base size c -> 0 < ps < NONE -> 0 < n ->
  c_loc c <= page ->
  (c_loc c + c_size c - 1) / ps - page / ps + 1 <= Z.of_nat fuel ->
  (page = c_loc c \/ page mod ps = 0 \/ page = c_loc c + c_size c) ->
  match pageLoop fuel c n NONE ps page with
  | None => forall x, page <= x -> x + n <= c_loc c + c_size c -> in_one_page ps x n -> False
  | Some (l, _) => forall x, page <= x -> x + n <= c_loc c + c_size c -> in_one_page ps x n -> l <= x
  end.
Proof.
  intros base size c n ps fuel. induction fuel as [|fuel IH]; intros page P C Hps Hn Hp Hf Hm.
  - cbn. intros x H1 H2 _.
    assert (page / ps <= (c_loc c + c_size c - 1) / ps) by (apply Z.div_le_mono; lia). lia.
  - destruct (Z_lt_le_dec page (c_loc c + c_size c)) as [Hlt|Hge].
    + rewrite (pageLoop_step base size) by (auto; lia). cbv zeta.
      destruct (rem_page_spec base size c ps page P C Hps) as (R1 & R2 & R3 & R4); [lia|].
      rewrite Z.eqb_refl.
      destruct (n <=? rem_page c ps page) eqn:E.
      * intros x H1 H2 _. lia.
      * set (page' := page + rem_page c ps page) in *.
        (* no fit starts in [page, page') *)
        assert (NF : forall x, page <= x -> x < page' -> x + n <= c_loc c + c_size c ->
                  in_one_page ps x n -> False).
        { intros x H1 H2 H3 (p & Q1 & Q2).
          destruct R4 as [R4|R4].
          - lia.
          - assert (p <= page / ps) by nia. nia. }
        assert (Hnext : (c_loc c + c_size c - 1) / ps - page' / ps + 1 <= Z.of_nat fuel \/
                        page' = c_loc c + c_size c).
        { destruct R4 as [R4|R4]; [right; exact R4|left].
          rewrite R4, Z.div_mul by lia. lia. }
        destruct (Z.eq_dec page' (c_loc c + c_size c)) as [Eq|Ne].
        -- rewrite (pageLoop_end base size) by (auto; lia).
           intros x H1 H2 H3. apply (NF x); auto; lia.
        -- assert (Hm' : page' = c_loc c \/ page' mod ps = 0 \/ page' = c_loc c + c_size c).
           { right. left. destruct R4 as [R4|R4]; [congruence|]. rewrite R4. apply Z.mod_mul. lia. }
           destruct Hnext as [Hnext|]; [|congruence].
           specialize (IH page' P C Hps Hn ltac:(lia) Hnext Hm').
           destruct (pageLoop fuel c n NONE ps page') as [[l cs]|];
             intros x H1 H2 H3;
             (destruct (Z_lt_le_dec x page') as [Hx|Hx];
              [exfalso; eapply NF; eauto|eapply IH; eauto]).
    + rewrite (pageLoop_end base size) by auto.
      intros x H1 H2 _. lia.
Qed.

Lemma pageFuel_enough : forall base size c ps,
  pool_ok base size -> chunk_in base size c -> 0 < ps ->
  (c_loc c + c_size c - 1) / ps - c_loc c / ps + 1 <= Z.of_nat (pageFuel c ps).
Proof.
  intros base size c ps P C Hps. unfold pageFuel, chunk_in, pool_ok in *.
  pose proof (Z.div_mod (c_loc c + c_size c - 1) ps ltac:(lia)) as D1.
  pose proof (Z.mod_pos_bound (c_loc c + c_size c - 1) ps Hps) as M1.
  pose proof (Z.div_mod (c_loc c) ps ltac:(lia)) as D2.
  pose proof (Z.mod_pos_bound (c_loc c) ps Hps) as M2.
  pose proof (Z.div_mod (c_size c) ps ltac:(lia)) as D3.
  pose proof (Z.mod_pos_bound (c_size c) ps Hps) as M3.
  assert (0 <= c_size c / ps) by (apply Z.div_pos; lia).
  rewrite Z2Nat.id by lia. nia.
Qed.

Lemma serveAll_separated : forall base size qs free placed,
  pool_ok base size -> inv base size free placed -> separated free ->
  Forall (req_ok base size) qs -> Forall (fun q => 0 < req_size q) qs ->
  forall free' placed', serveAll free placed qs = Ok (free', placed') ->
    inv base size free' placed' /\ separated free'.
Proof.
  intros base size. induction qs as [|q qs IH]; intros free placed P I SP F Z free' placed' H;
    cbn [serveAll] in H.
  - inversion H; subst. auto.
  - inversion F as [|? ? Hq Hqs]; subst. inversion Z as [|? ? Zq Zqs]; subst.
    destruct (serve_no_UB base size free q Hq) as [a E]. rewrite E in H. cbn [bind] in H.
    destruct a as [[l free1]|].
    + eapply (IH free1 ((l, req_size q) :: placed)); eauto.
      * eapply inv_step; eauto.
      * exact (carved_separated base size free l (req_size q) free1 P (inv_free _ _ _ _ I) Zq SP
                 (serve_carved _ _ _ _ _ _ P (inv_free _ _ _ _ I) Hq E)).
    + eapply IH; eauto.
Qed.

Lemma history : forall base size qs free placed,
  pool_ok base size -> Forall (req_ok base size) qs ->
  serveAll (initChunks base size) [] qs = Ok (free, placed) -> inv base size free placed.
Proof.
  intros base size qs free placed P F H.
  destruct (serveAll_inv base size qs _ _ P (inv_init base size P) F) as (f & p & E & I).
  rewrite E in H. inversion H; subst. exact I.
Qed.

Lemma history_separated : forall base size qs free placed,
  pool_ok base size -> Forall (req_ok base size) qs -> Forall (fun q => 0 < req_size q) qs ->
  serveAll (initChunks base size) [] qs = Ok (free, placed) ->
  inv base size free placed /\ separated free.
Proof.
  intros base size qs free placed P F Z H.
  eapply serveAll_separated; eauto.
  - now apply inv_init.
  - cbn. split; auto. intros d [].
Qed.

Lemma history_total : forall base size qs,
  pool_ok base size -> Forall (req_ok base size) qs ->
  exists free placed, serveAll (initChunks base size) [] qs = Ok (free, placed).
Proof.
  intros base size qs P F.
  destruct (serveAll_inv base size qs _ _ P (inv_init base size P) F) as (f & p & E & _). eauto.
Qed.

Lemma serve_only_change : forall base size free q l free',
  pool_ok base size -> Forall (chunk_in base size) free -> req_ok base size q ->
  serve free q = Ok (Some (l, free')) ->
  forall a, count (ranges free') a =
            count (ranges free) a - (if (l <=? a) && (a <? l + req_size q) then 1 else 0).
Proof.
  intros base size free q l free' P F R H a.
  pose proof (carved_count base size free l (req_size q) free' a P F
     (req_size_nonneg _ _ _ R) (serve_carved _ _ _ _ _ _ P F R H)).
  unfold ind in *. lia.
Qed.

Lemma aligned_result : forall base size free n a ps l free',
  pool_ok base size -> Forall (chunk_in base size) free ->
  req_ok base size (Aligned n a ps) ->
  pool_AllocateAligned free n a ps = Ok (Some (l, free')) ->
  (a <> NONE -> l mod a = 0) /\
  (ps <> NONE -> a = NONE -> in_one_page ps l n).
Proof.
  intros base size free n a ps l free' P F (Hn & Ha & Hps) H.
  unfold pool_AllocateAligned in H.
  destruct ((a =? NONE) && (ps =? NONE)) eqn:E1.
  { apply andb_true_iff in E1 as [E1 E2]. apply Z.eqb_eq in E1, E2. tauto. }
  destruct free as [|c r]; [discriminate|].
  destruct (Z.eqb_spec ps NONE) as [E2|E2]; cbn [negb] in H.
  - destruct (Z.eqb_spec a 0); [discriminate|]. inversion H as [H1].
    destruct Ha as [Ha|[Ha Hw]].
    { subst a. rewrite Z.eqb_refl in E1. discriminate. }
    split; [|tauto]. intros _.
    change (alignedLoop (c :: r) n a = Some (l, free')) in H1.
    eapply (aligned_carved base size); eauto; lia.
  - destruct (ps <? n) eqn:E3; [discriminate|].
    destruct (ps =? 0) eqn:E4; [discriminate|].
    destruct (a =? 0) eqn:E5; [discriminate|].
    destruct (pageLoop _ _ _ _ _ _) as [[l1 cs]|] eqn:E6; [|discriminate].
    inversion H; subst. inversion F as [|? ? Hc Hr]; subst.
    assert (Hps' : 0 < ps < NONE) by tauto.
    destruct (pageLoop_carved base size c n a ps _ _ l cs P Hc Hps' Hn Ha (Z.le_refl _) E6)
      as (_ & _ & _ & A & B). tauto.
Qed.

Lemma small_aligned_in_page : forall n a ps l,
  0 <= n <= a -> 0 < a -> ps mod a = 0 -> 0 < ps -> l mod a = 0 -> in_one_page ps l n.
Proof.
  intros n a ps l Hn Ha Hps Pp Hl.
  apply Z.mod_divide in Hps as [k ->]; [|lia]. apply Z.mod_divide in Hl as [j ->]; [|lia].
  assert (0 < k) by nia.
  exists (j / k). pose proof (Z.div_mod j k ltac:(lia)). pose proof (Z.mod_pos_bound j k ltac:(lia)).
  split; nia.
Qed.
