(** Proofs about binary images. *)
From Coq Require Import ZArith List Bool Lia ZifyBool ZifyNat.
From Verif Require Import Base BaseFacts AssignModel LinkModel FileModel FileProofs ImageModel ImageSpec.
From Verif Require Import AssignSpec PoolSpec AssignProofs ImageSpec.
Import ListNotations.
Open Scope Z_scope.

Lemma writeBlocks_end : forall fuel f c n, 0 <= n -> n / WRITE_BLOCK_SIZE + 1 <= Z.of_nat fuel ->
  f_pos f = zlen (f_data f) ->
  f_data (writeBlocks fuel f c n) = f_data f ++ repeat c (Z.to_nat n) /\
  f_pos (writeBlocks fuel f c n) = f_pos f + n.
Proof.
  induction fuel as [|fuel IH]; intros f c n N F P.
  - unfold WRITE_BLOCK_SIZE in F. assert (0 <= n / 16384) by (apply Z.div_pos; lia). lia.
  - cbn [writeBlocks]. destruct (n >? 0) eqn:E.
    + set (t := if n >? WRITE_BLOCK_SIZE then WRITE_BLOCK_SIZE else n).
      assert (T : 0 < t <= n /\ t <= WRITE_BLOCK_SIZE /\ (t = n \/ t = WRITE_BLOCK_SIZE)).
      { unfold t, WRITE_BLOCK_SIZE. destruct (n >? 16384) eqn:E2; lia. }
      clearbody t. set (f1 := fwrite f (repeat c (Z.to_nat t))).
      assert (D1 : f_data f1 = f_data f ++ repeat c (Z.to_nat t)).
      { unfold f1, fwrite. cbn [f_data]. rewrite P. apply overwrite_end. }
      assert (P1 : f_pos f1 = f_pos f + t).
      { unfold f1, fwrite. cbn [f_pos]. rewrite zlen_repeat. lia. }
      destruct T as (T1 & T2 & T3).
      destruct (Z.eq_dec t n) as [Tn|Tn].
      * rewrite Tn in *. rewrite Z.sub_diag.
        assert (writeBlocks fuel f1 c 0 = f1) as -> by (destruct fuel; reflexivity).
        split; auto.
      * destruct (IH f1 c (n - t)) as [A B].
        -- lia.
        -- assert (t = WRITE_BLOCK_SIZE) by lia. subst t. unfold WRITE_BLOCK_SIZE in *.
           replace n with ((n - 16384) + 1 * 16384) in F by lia. rewrite Z.div_add in F by lia. lia.
        -- rewrite P1, D1, zlen_app, zlen_repeat, P. lia.
        -- rewrite A, B, D1, P1. split; [|lia]. rewrite <- app_assoc, <- repeat_app. do 2 f_equal. lia.
    + assert (n = 0) by lia. subst n. cbn. rewrite app_nil_r. split; auto; lia.
Qed.
Lemma writeRepeatedBytes_end : forall f c n, 0 <= n ->
  f_data (writeRepeatedBytes f c (zlen (f_data f)) n) = f_data f ++ repeat c (Z.to_nat n).
Proof.
  intros f c n N. unfold writeRepeatedBytes.
  destruct (writeBlocks_end (Z.to_nat (n / WRITE_BLOCK_SIZE + 1)) (fseek f (zlen (f_data f))) c n) as [A _]; auto.
  assert (0 <= n / WRITE_BLOCK_SIZE) by (apply Z.div_pos; unfold WRITE_BLOCK_SIZE; lia). lia.
Qed.

Lemma find_put_same : forall fs o f, findFile (putFile fs o f) o = Some f.
Proof.
  induction fs as [|[k g] fs IH]; intros o f; cbn; [now rewrite Z.eqb_refl|].
  destruct (k =? o) eqn:E; cbn; rewrite E; auto.
Qed.
Lemma find_put_other : forall fs o o' f, o <> o' -> findFile (putFile fs o f) o' = findFile fs o'.
Proof.
  induction fs as [|[k g] fs IH]; intros o o' f N; cbn.
  - destruct (o =? o') eqn:E; [lia|reflexivity].
  - destruct (k =? o) eqn:E; cbn.
    + assert (k = o) by lia. subst. destruct (o =? o') eqn:E2; [lia|reflexivity].
    + destruct (k =? o'); auto.
Qed.

(** The content of a file after the sections [ss]. *)
Definition header_of (hdr : list Z) (o : Z) : list Z := if o =? MAIN then hdr else [].
Definition good (hdr : list Z) (done : program) (fs : files) : Prop :=
  forall o,
    (findFile fs o <> None <-> o = MAIN \/ exists s, In s done /\ imaged o s = true) /\
    f_data (getFileHandle fs o) = header_of hdr o ++ image o done.

Lemma size_covers_aux : forall o ss n,
  n <= fold_left (fun n s => if imaged o s then Z.max n (img_end s) else n) ss n /\
  Forall (fun s => imaged o s = true -> img_end s <= fold_left (fun n s => if imaged o s then Z.max n (img_end s) else n) ss n) ss.
Proof.
  intros o. induction ss as [|s ss IH]; intros n; [split; [cbn; lia|constructor]|]. cbn [fold_left].
  destruct (IH (if imaged o s then Z.max n (img_end s) else n)) as [A B]. split.
  - destruct (imaged o s); lia.
  - constructor.
    + intro I. rewrite I in *. lia.
    + exact B.
Qed.
Lemma image_size_nonneg : forall o ss, 0 <= image_size o ss.
Proof. intros o ss. exact (proj1 (size_covers_aux o ss 0)). Qed.
Lemma image_zlen : forall o ss, zlen (image o ss) = image_size o ss.
Proof.
  intros o ss. unfold image. rewrite zlen_map_zseq. pose proof (image_size_nonneg o ss). lia.
Qed.
Lemma image_byte_at : forall o ss k, 0 <= k < image_size o ss -> byte (image o ss) k = image_byte o ss k.
Proof. intros o ss k K. unfold image. rewrite byte_map by lia. f_equal. Qed.
Lemma image_byte_snoc : forall o ss s k, image_byte o (ss ++ [s]) k =
  if imaged o s && covers s k then byte (content s) (k - img_start s) else image_byte o ss k.
Proof. intros. unfold image_byte. now rewrite fold_left_app. Qed.
Lemma image_size_snoc : forall o ss s, image_size o (ss ++ [s]) =
  if imaged o s then Z.max (image_size o ss) (img_end s) else image_size o ss.
Proof. intros. unfold image_size. now rewrite fold_left_app. Qed.
Lemma size_covers : forall o ss s, In s ss -> imaged o s = true -> img_end s <= image_size o ss.
Proof. intros o ss s I H. destruct (size_covers_aux o ss 0) as [_ B]. rewrite Forall_forall in B. exact (B s I H). Qed.
Lemma image_byte_none : forall o ss k, (forall s, In s ss -> imaged o s = true -> covers s k = false) ->
  image_byte o ss k = 255.
Proof.
  intros o ss k. unfold image_byte. generalize 255. induction ss as [|s ss IH]; intros b H; cbn [fold_left]; auto.
  rewrite IH.
  - destruct (imaged o s) eqn:E; auto. now rewrite (H s (or_introl eq_refl) E).
  - intros s' I. apply H. now right.
Qed.
Lemma image_beyond : forall o ss k, image_size o ss <= k -> image_byte o ss k = 255.
Proof.
  intros o ss k K. apply image_byte_none. intros s I H. pose proof (size_covers o ss s I H).
  unfold covers. lia.
Qed.
Lemma size_bound : forall o ss b, 0 <= b -> (forall s, In s ss -> imaged o s = true -> img_end s <= b) -> image_size o ss <= b.
Proof.
  intros o ss b B. unfold image_size. revert B. generalize 0. induction ss as [|s ss IH]; intros n N H; cbn [fold_left]; auto.
  apply IH.
  - destruct (imaged o s) eqn:E; [|auto]. specialize (H s (or_introl eq_refl) E). lia.
  - intros s' I. apply H. now right.
Qed.

Lemma imaged_split : forall s, (exists o, imaged o s = true) <->
  isEqu (sc_place s) = false /\
  s_used (sc_place s) && s_assigned (sc_place s) && negb (s_imageLocation (sc_place s) =? -1) && negb (isBss (sc_place s)) = true.
Proof.
  intro s. unfold imaged, isEqu, isBss. split.
  - intros [o H]. destruct (s_group (sc_place s)) as [g|]; split; auto; rewrite ?andb_false_r in H; try discriminate.
    rewrite !andb_true_iff in *. tauto.
  - intros [H1 H2]. exists (s_overlay (sc_place s)). destruct (s_group (sc_place s)); [|discriminate].
    rewrite Z.eqb_refl, andb_true_r. exact H2.
Qed.
Lemma imaged_overlay : forall o s, imaged o s = true -> o = s_overlay (sc_place s).
Proof. intros o s H. unfold imaged in H. rewrite !andb_true_iff in H. lia. Qed.

Lemma image_append : forall o done s, imaged o s = false -> image o (done ++ [s]) = image o done.
Proof.
  intros o done s H. unfold image. rewrite image_size_snoc, H. apply map_ext. intro k.
  now rewrite image_byte_snoc, H.
Qed.

Lemma section_good : forall hdr done fs s,
  good hdr done fs -> image_ok (zlen hdr) s -> Forall (image_ok (zlen hdr)) done ->
  exists fs', writeImageSection (zlen hdr) fs s = Ok fs' /\ good hdr (done ++ [s]) fs'.
Proof.
  intros hdr done fs s G HS HD. unfold writeImageSection.
  pose proof (zlen_nonneg _ hdr) as Hh.
  destruct (s_used (sc_place s) && s_assigned (sc_place s) && negb (s_imageLocation (sc_place s) =? -1) &&
            negb (isBss (sc_place s))) eqn:SEL; destruct (isEqu (sc_place s)) eqn:EQ.
  1,3,4: exists fs; split; [reflexivity|];
    assert (NI : forall o, imaged o s = false) by
      (intro o; destruct (imaged o s) eqn:E; auto; assert (exists o, imaged o s = true) as X by eauto;
       apply imaged_split in X; destruct X; congruence);
    intro o; destruct (G o) as [G1 G2]; rewrite image_append by auto; split; auto; rewrite G1; split;
    (intros [H|(s' & I & H)]; [auto|right; exists s'; split; auto]);
    [apply in_or_app; auto|apply in_app_or in I as [I|[<-|[]]]; auto; rewrite NI in H; discriminate].
  assert (X : exists o, imaged o s = true) by (apply imaged_split; auto).
  destruct (HS X) as (S1 & S2 & S3 & d & S4 & S5). destruct X as [o I]. pose proof (imaged_overlay o s I) as EO. subst o.
  set (o := s_overlay (sc_place s)) in *. set (p := sc_place s) in *.
  rewrite S4. destruct (zlen d <? s_size p) eqn:ZD; [lia|].
  set (start := if o =? UINT32_MAX then u32 (u32 (s_imageLocation p) + zlen hdr) else u32 (s_imageLocation p)).
  assert (ST : start = zlen (header_of hdr o) + img_start s).
  { unfold start, header_of, img_start. fold p. unfold img_end, img_start in S3. fold p in S3. unfold img_start in S1. fold p in S1.
    rewrite (u32_id (s_imageLocation p)) by (unfold is_u32; lia). change UINT32_MAX with MAIN.
    destruct (o =? MAIN); [rewrite u32_id by (unfold is_u32; lia)|]; change (zlen []) with 0; lia. }
  assert (HL : 0 <= zlen (header_of hdr o) <= zlen hdr).
  { unfold header_of. destruct (o =? MAIN); change (zlen []) with 0; lia. }
  assert (SZ : image_size o done + zlen hdr < 2 ^ 31).
  { assert (image_size o done <= 2 ^ 31 - 1 - zlen hdr); [|lia]. apply size_bound; [unfold img_end in S3; fold p in S3; lia|].
    intros s' I' H'. rewrite Forall_forall in HD. destruct (HD s' I') as (_ & _ & H3 & _); eauto. lia. }
  pose proof (image_size_nonneg o done) as SN.
  destruct (G o) as [G1 G2]. set (f := getFileHandle fs o) in *.
  assert (FS : u32 (fsize f) = zlen (header_of hdr o) + image_size o done).
  { unfold fsize. rewrite G2, zlen_app, image_zlen. apply u32_id. unfold is_u32. lia. }
  rewrite FS. set (cur := zlen (header_of hdr o) + image_size o done) in *.
  unfold img_end in S3. fold p in S3.
  set (f1 := if start >? cur then _ else f).
  assert (F1 : f_data f1 = f_data f ++ repeat 255 (Z.to_nat (start - cur))).
  { unfold f1. destruct (start >? cur) eqn:E.
    - rewrite s32_id by (unfold is_s32; lia).
      assert (cur = zlen (f_data (fseek f cur))) as EC by (cbn [fseek f_data]; rewrite G2, zlen_app, image_zlen; reflexivity).
      rewrite EC at 2. rewrite writeRepeatedBytes_end by lia. reflexivity.
    - replace (Z.to_nat (start - cur)) with 0%nat by lia. cbn. now rewrite app_nil_r. }
  clearbody f1.
  assert (FN : firstn (Z.to_nat (s_size p)) d = d).
  { apply firstn_all2. unfold zlen in S5. lia. }
  rewrite FN. eexists. split; [reflexivity|].
  intro o'. destruct (Z.eq_dec o' o) as [->|NE].
  - split.
    + rewrite find_put_same. split; [|discriminate]. intros _. right. exists s. split; auto. apply in_or_app; right; now left.
    + unfold getFileHandle. rewrite find_put_same. unfold fwrite, fseek. cbn [f_data f_pos]. rewrite F1, G2.
      assert (CD : content s = d) by (unfold content; now rewrite S4).
      apply byte_ext.
      * rewrite overwrite_zlen by lia. rewrite !zlen_app, zlen_repeat, !image_zlen, image_size_snoc, I.
        unfold img_end. fold p. destruct (zlen d =? 0) eqn:E0; lia.
      * intros k K. rewrite overwrite_byte by lia.
        rewrite (byte_app (header_of hdr o) (image o (done ++ [s]))) by lia.
        rewrite overwrite_zlen in K by lia. rewrite !zlen_app, zlen_repeat, !image_zlen in K.
        destruct ((start <=? k) && (k <? start + zlen d)) eqn:E.
        -- destruct (k <? zlen (header_of hdr o)) eqn:E2; [lia|].
           rewrite image_byte_at.
           ++ rewrite image_byte_snoc, I. cbn [andb].
              assert (covers s (k - zlen (header_of hdr o)) = true) as -> by (unfold covers, img_end; fold p; lia).
              rewrite CD. f_equal. lia.
           ++ rewrite image_size_snoc, I. unfold img_end. fold p. lia.
        -- rewrite <- app_assoc. rewrite byte_app by lia.
           destruct (k <? zlen (header_of hdr o)) eqn:E2; [reflexivity|].
           assert (KK : 0 <= k - zlen (header_of hdr o) < image_size o (done ++ [s])).
           { rewrite image_size_snoc, I. unfold img_end. fold p. destruct (zlen d =? 0) eqn:E0; lia. }
           rewrite (image_byte_at o (done ++ [s])) by auto. rewrite image_byte_snoc, I. cbn [andb].
           assert (covers s (k - zlen (header_of hdr o)) = false) as -> by (unfold covers, img_end; fold p; lia).
           rewrite byte_app by lia. rewrite image_zlen.
           destruct (k - zlen (header_of hdr o) <? image_size o done) eqn:E3; [apply image_byte_at; lia|].
           rewrite image_beyond by lia. apply byte_repeat. destruct (zlen d =? 0) eqn:E0; lia.
  - rewrite find_put_other by auto. unfold getFileHandle. rewrite find_put_other by auto.
    assert (NI : imaged o' s = false).
    { destruct (imaged o' s) eqn:E; auto. apply imaged_overlay in E. contradiction. }
    rewrite image_append by auto. destruct (G o') as [G1' G2']. split; [|exact G2'].
    rewrite G1'. split; (intros [H|(s' & I' & H)]; [auto|right; exists s'; split; auto]).
    + apply in_or_app; auto.
    + apply in_app_or in I' as [I'|[<-|[]]]; auto. rewrite NI in H. discriminate.
Qed.
Lemma sections_good : forall hdr ss done fs,
  good hdr done fs -> Forall (image_ok (zlen hdr)) (done ++ ss) ->
  exists fs', writeImageSections (zlen hdr) fs ss = Ok fs' /\ good hdr (done ++ ss) fs'.
Proof.
  intros hdr. induction ss as [|s ss IH]; intros done fs G F.
  - exists fs. now rewrite app_nil_r.
  - pose proof F as F'. rewrite Forall_app in F. destruct F as [F1 F2]. inversion F2 as [|? ? Fs Fss]; subst.
    destruct (section_good hdr done fs s G Fs F1) as (fs1 & W & G1).
    destruct (IH (done ++ [s]) fs1 G1) as (fs2 & W2 & G2).
    { now rewrite <- app_assoc. }
    exists fs2. cbn [writeImageSections]. rewrite W. cbn [bind]. rewrite W2. split; auto.
    now rewrite <- app_assoc in G2.
Qed.
Lemma start_good : forall hdr, good hdr [] [(UINT32_MAX, File hdr (zlen hdr))].
Proof.
  intros hdr o. unfold getFileHandle. cbn [findFile]. change UINT32_MAX with MAIN. unfold header_of.
  rewrite (Z.eqb_sym MAIN o). destruct (o =? MAIN) eqn:E; split; try (cbn; now rewrite ?app_nil_r).
  - split; [|discriminate]. left. lia.
  - split; [contradiction|]. intros [H|(s & [] & _)]. lia.
Qed.

Lemma image_written : forall log2n hdr ss padding,
  Forall (image_ok (zlen hdr)) ss ->
  exists fs f, image_WriteBinaryToFile log2n (File hdr (zlen hdr)) ss padding = Ok fs /\
    f_data f = hdr ++ image MAIN ss /\
    findFile fs MAIN = Some (padImage log2n padding f) /\
    forall o, o <> MAIN ->
      (forall g, findFile fs o = Some g -> f_data g = image o ss) /\
      (findFile fs o = None <-> forall s, In s ss -> imaged o s = false).
Proof.
  intros log2n hdr ss padding F. unfold image_WriteBinaryToFile. cbn [ftell f_pos].
  destruct (sections_good hdr ss [] [(UINT32_MAX, File hdr (zlen hdr))] (start_good hdr) F) as (fs & W & G).
  cbn [app] in G. rewrite W. cbn [bind]. eexists. exists (getFileHandle fs MAIN). split; [reflexivity|].
  change UINT32_MAX with MAIN. split; [|split].
  - destruct (G MAIN) as [_ G2]. exact G2.
  - apply find_put_same.
  - intros o N. rewrite find_put_other by auto. destruct (G o) as [G1 G2]. split.
    + intros g H. unfold getFileHandle in G2. rewrite H in G2. rewrite G2. unfold header_of.
      destruct (o =? MAIN) eqn:E; [lia|reflexivity].
    + split.
      * intros H s I. destruct (imaged o s) eqn:E; auto. exfalso. apply (proj2 G1); auto. right; eauto.
      * intro H. destruct (findFile fs o) eqn:E; auto. exfalso.
        destruct (proj1 G1) as [H1|(s & I & H1)]; [discriminate|contradiction|]. rewrite H in H1; auto; discriminate.
Qed.

(** ** Disjoint sections *)
Lemma last_cover : forall o ss s k, image_disjoint ss -> In s ss -> imaged o s = true -> covers s k = true ->
  image_byte o ss k = byte (content s) (k - img_start s).
Proof.
  intros o ss. induction ss as [|x ss IH] using rev_ind; intros s k D I H C; [destruct I|].
  rewrite image_byte_snoc. apply in_app_or in I as [I|[<-|[]]].
  - assert (D' : image_disjoint ss /\ forall a, In a ss -> forall o k, imaged o a = true -> imaged o x = true -> covers a k = true -> covers x k = true -> False).
    { clear - D. induction ss as [|a ss IH]; [split; [constructor|intros ? []]|].
      cbn in D. inversion D as [|? ? D1 D2]; subst. destruct (IH D2) as [E1 E2]. split.
      - constructor; auto. rewrite Forall_forall in *. intros b Ib. apply D1. apply in_or_app; auto.
      - intros b [<-|Ib]; [|exact (E2 b Ib)]. rewrite Forall_forall in D1. apply D1. apply in_or_app; right; now left. }
    destruct D' as [D1 D2]. destruct (imaged o x && covers x k) eqn:E; [|auto].
    apply andb_true_iff in E as [E1 E2]. exfalso. eauto.
  - now rewrite H, C.
Qed.
Lemma slice_bytes : forall d p n, 0 <= p -> 0 <= n -> p + n <= zlen d ->
  forall e, zlen e = n -> (forall k, 0 <= k < n -> byte d (p + k) = byte e k) ->
  firstn (Z.to_nat n) (skipn (Z.to_nat p) d) = e.
Proof.
  intros d p n P N L e E H. apply byte_ext.
  - unfold zlen in *. rewrite firstn_length, skipn_length. lia.
  - intros k K. assert (zlen (firstn (Z.to_nat n) (skipn (Z.to_nat p) d)) = n) as Q
      by (unfold zlen in *; rewrite firstn_length, skipn_length; lia). rewrite Q in K.
    rewrite byte_firstn by lia. destruct (k <? Z.of_nat (Z.to_nat n)) eqn:E1; [|lia].
    rewrite byte_skipn by lia. rewrite <- H by lia. f_equal. lia.
Qed.

(** ** Padding *)
Lemma padImage_data : forall log2n padding f, padding <> -1 -> zlen (f_data f) < 2 ^ 31 ->
  0 <= bytesToPad log2n padding (zlen (f_data f)) ->
  f_data (padImage log2n padding f) = f_data f ++ repeat 255 (Z.to_nat (bytesToPad log2n padding (zlen (f_data f)))).
Proof.
  intros log2n padding f N L B. unfold padImage. destruct (padding =? -1) eqn:E; [lia|].
  unfold fsize. pose proof (zlen_nonneg _ (f_data f)). rewrite u32_id by (unfold is_u32; lia).
  now apply writeRepeatedBytes_end.
Qed.

(** ** Images as a user sees them *)
Lemma size_reached : forall o ss, image_size o ss = 0 \/ exists s, In s ss /\ imaged o s = true /\ img_end s = image_size o ss.
Proof.
  intros o ss. induction ss as [|s ss IH] using rev_ind; [left; reflexivity|]. rewrite image_size_snoc.
  destruct (imaged o s) eqn:E.
  - destruct (Z.max_spec (image_size o ss) (img_end s)) as [[L ->]|[L ->]].
    + right. exists s. split; [apply in_or_app; right; left; auto|auto].
    + destruct IH as [IH|(x & I & J & K)]; [auto|]. right. exists x. split; [apply in_or_app; auto|auto].
  - destruct IH as [IH|(x & I & J & K)]; [auto|]. right. exists x. split; [apply in_or_app; auto|auto].
Qed.
Lemma image_is_held : forall h o ss, Forall (image_ok h) ss -> image_disjoint ss -> image_holds o ss (image o ss).
Proof.
  intros h o ss OK D. constructor.
  - intros s I H k K. rewrite Forall_forall in OK. destruct (OK s I (ex_intro _ o H)) as (P & N & _ & d & DE & LE).
    pose proof (size_covers o ss s I H) as SC. unfold img_end in SC.
    change at_ with byte. rewrite image_byte_at by lia.
    rewrite (last_cover o ss s) by (auto; unfold covers, img_end; lia). f_equal. lia.
  - intros k K H. rewrite image_zlen in K. change at_ with byte. rewrite image_byte_at by lia. now apply image_byte_none.
  - intros s I H. rewrite image_zlen. now apply size_covers.
  - rewrite image_zlen. apply size_reached.
Qed.
Lemma disjoint_tail : forall (r : Z * Z) l, PoolSpec.disjoint (r :: l) -> PoolSpec.disjoint l.
Proof. intros r l D i j a b x N I J. apply (D (S i) (S j) a b x); auto. Qed.
Lemma disjoint_pairs : forall (P : section -> bool) (f : section -> Z * Z) l,
  PoolSpec.disjoint (map f (filter P l)) ->
  ForallOrdPairs (fun a b => P a = true -> P b = true -> forall x, PoolSpec.covers (f a) x -> PoolSpec.covers (f b) x -> False) l.
Proof.
  intros P f. induction l as [|a l IH]; intros D; [constructor|]. cbn [filter] in D. destruct (P a) eqn:E.
  - cbn [map] in D. constructor; [|apply IH; eapply disjoint_tail; eauto].
    apply Forall_forall. intros b I _ PB x CA CB.
    assert (J : In (f b) (map f (filter P l))) by (apply in_map, filter_In; auto).
    apply In_nth_error in J as [j J]. apply (D 0%nat (S j) (f a) (f b) x); auto.
  - constructor; [|apply IH; auto]. apply Forall_forall. intros b _ X. congruence.
Qed.
Lemma FOP_impl_in : forall {A : Type} (P Q : A -> A -> Prop) l, (forall a b, In a l -> In b l -> P a b -> Q a b) ->
  ForallOrdPairs P l -> ForallOrdPairs Q l.
Proof.
  intros A P Q l H F. induction F as [|a l FA F IH]; [constructor|]. constructor.
  - rewrite Forall_forall in *. intros b I. apply H; [left; auto|right; auto|auto].
  - apply IH. intros x y I J. apply H; right; auto.
Qed.
Lemma FOP_map : forall {A B : Type} (g : A -> B) (P : B -> B -> Prop) l,
  ForallOrdPairs P (map g l) -> ForallOrdPairs (fun a b => P (g a) (g b)) l.
Proof.
  intros A B g P. induction l as [|a l IH]; intro F; [constructor|]. cbn in F. inversion F as [|? ? F1 F2]; subst.
  constructor; [|auto]. rewrite Forall_forall in *. intros b I. apply F1. now apply in_map.
Qed.
Lemma FOP_all : forall {A K : Type} (P : K -> A -> A -> Prop) l, (forall k, ForallOrdPairs (P k) l) ->
  ForallOrdPairs (fun a b => forall k, P k a b) l.
Proof.
  intros A K P. induction l as [|a l IH]; intro F; [constructor|]. constructor.
  - apply Forall_forall. intros b I k. specialize (F k). inversion F as [|? ? F1 F2]; subst. rewrite Forall_forall in F1. auto.
  - apply IH. intro k. specialize (F k). inversion F; auto.
Qed.
Definition in_pool (k : nat) (s : section) : bool := match s_pool s with Some j => Nat.eqb j k | None => false end.
Lemma linked_placed : forall cf places out s, config_ok cf -> Forall section_ok places -> assign_Process cf places = Ok out ->
  In s out -> exists s0, In s0 places /\ placed_well cf s0 s.
Proof.
  intros cf places out s CF SO A I. destruct (AssignProofs.assign_sound cf places out CF SO A) as (ss' & PM & F2 & _ & _).
  apply (Permutation.Permutation_in s (Permutation.Permutation_sym PM)) in I.
  clear - F2 I. induction F2 as [|x y l l' H F IH]; [destruct I|]. destruct I as [<-|I].
  - exists x. split; [left; auto|auto].
  - destruct (IH I) as (s0 & I0 & H0). exists s0. split; [right; auto|auto].
Qed.
Lemma linked_image_for : forall (T : nat -> Prop) cf header places out ss, config_ok cf -> image_config_for T header cf -> 0 <= header ->
  text_in T cf ss ->
  Forall section_ok places -> assign_Process cf places = Ok out -> map sc_place ss = out -> Forall has_contents ss ->
  Forall (image_ok header) ss /\ image_disjoint ss.
Proof.
  intros T cf header places out ss CF [IC1 IC2] HN TI SO A M HC.
  assert (PW : forall s o, In s ss -> imaged o s = true -> exists k p, nth_error (cf_pools cf) k = Some p /\ T k /\
     s_pool (sc_place s) = Some k /\ within (s_cpuByteLocation (sc_place s), s_size (sc_place s)) (p_loc p) (p_size p) /\
     s_overlay (sc_place s) = p_overlay p /\ p_image p <> -1 /\ 0 <= s_size (sc_place s) /\
     s_imageLocation (sc_place s) = p_image p + (s_cpuByteLocation (sc_place s) - p_loc p)).
  { intros s o I H. assert (J : In (sc_place s) out) by (rewrite <- M; now apply in_map).
    destruct (linked_placed cf places out _ CF SO A J) as (s0 & I0 & PW).
    rewrite Forall_forall in SO. specialize (SO s0 I0).
    destruct (pw_same _ _ _ PW) as (_ & SG & SZ & SU & _).
    unfold imaged in H. rewrite !andb_true_iff in H. destruct H as ((((U & AS) & IL) & OV) & GB).
    destruct (s_group (sc_place s)) as [g|] eqn:EG; [|discriminate].
    destruct (pw_pool _ _ _ PW) with (g := g) as (G & k & p & FG & IK & NP & SP & W & _ & SO' & SI); [congruence|congruence|].
    exists k, p. split; auto. split.
    { apply (TI s g G k); auto. unfold isBss_. rewrite EG. now apply negb_true_iff. }
    split; auto. split; auto. split; auto.
    destruct (p_image p =? -1) eqn:EP; [rewrite SI in IL; discriminate|]. split; [lia|].
    split; [|auto]. rewrite SZ. destruct SO. lia. }
  split.
  - apply Forall_forall. intros s I (o & H). destruct (PW s o I H) as (k & p & NP & TK & SP & W & SO' & PI & SZ & SI).
    destruct (IC1 k p NP TK) as [X|X]; [contradiction|].
    unfold within in W. cbn [fst snd] in W.
    unfold img_end, img_start. rewrite SI. split; [lia|]. split; [auto|]. split; [lia|].
    rewrite Forall_forall in HC. apply (HC s I).
    + unfold imaged in H. rewrite !andb_true_iff in H. tauto.
    + unfold imaged in H. rewrite !andb_true_iff in H. unfold isBss_. destruct (s_group (sc_place s)); [|destruct H; discriminate].
      destruct (og_type o0 =? GROUP_BSS); auto. destruct H; discriminate.
  - destruct (AssignProofs.assign_sound cf places out CF SO A) as (ss' & PM & F2 & DJ & _).
    assert (F : ForallOrdPairs (fun a b => forall k, in_pool k (sc_place a) = true -> in_pool k (sc_place b) = true ->
       forall x, PoolSpec.covers (s_cpuByteLocation (sc_place a), s_size (sc_place a)) x ->
                 PoolSpec.covers (s_cpuByteLocation (sc_place b), s_size (sc_place b)) x -> False) ss).
    { apply FOP_all. intro k. specialize (DJ k). unfold ranges_in in DJ. apply disjoint_pairs in DJ. rewrite <- M in DJ.
      apply (FOP_map sc_place) in DJ. exact DJ. }
    revert F. apply FOP_impl_in. intros a b IA IB FP o x HA HB CA CB.
    destruct (PW a o IA HA) as (ka & p & NPa & TKa & SPa & Wa & OVa & PIa & SZa & SIa).
    destruct (PW b o IB HB) as (kb & q & NPb & TKb & SPb & Wb & OVb & PIb & SZb & SIb).
    pose proof (imaged_overlay _ _ HA). pose proof (imaged_overlay _ _ HB).
    unfold within in Wa, Wb. cbn [fst snd] in Wa, Wb.
    unfold covers, img_end, img_start in CA, CB.
    destruct (Nat.eq_dec ka kb) as [<-|NE].
    + rewrite NPa in NPb. injection NPb as <-.
      apply (FP ka) with (x := x - p_image p + p_loc p); unfold in_pool; rewrite ?SPa, ?SPb, ?Nat.eqb_refl; auto;
        unfold PoolSpec.covers; cbn [fst snd]; lia.
    + apply (IC2 ka kb p q x NE TKa TKb NPa NPb PIa PIb); [congruence| |]; lia.
Qed.

Lemma linked_image : forall cf header places out ss, config_ok cf -> image_config_ok header cf -> 0 <= header ->
  Forall section_ok places -> assign_Process cf places = Ok out -> map sc_place ss = out -> Forall has_contents ss ->
  Forall (image_ok header) ss /\ image_disjoint ss.
Proof.
  intros cf header places out ss CF [IC1 IC2] HN SO A M HC.
  apply (linked_image_for (fun _ => True) cf header places out); auto.
  - split; [|intros i j p q k NE _ _; apply IC2; auto]. intros k p NP _. rewrite Forall_forall in IC1. apply IC1. eapply nth_error_In; eauto.
  - intros s g G k _ _ _ _ _. exact I.
Qed.

Lemma image_bytes : forall o ss, Forall (fun s => bytes (content s)) ss -> bytes (image o ss).
Proof.
  intros o ss F. unfold image, bytes. apply Forall_map. apply Forall_forall. intros k _.
  unfold image_byte. assert (B : is_byte 255) by (unfold is_byte; lia). revert B. generalize 255.
  induction F as [|s ss H F IH]; intros b B; cbn [fold_left]; auto. apply IH.
  destruct (imaged o s && covers s k); auto.
  destruct (nth_in_or_default (Z.to_nat (k - img_start s)) (content s) 0) as [X|X]; [|rewrite X; unfold is_byte; lia].
  unfold bytes in H. rewrite Forall_forall in H. auto.
Qed.

(** ** How much is added *)
Lemma pad_multiple : forall log2n p n, 0 < p < 2 ^ 31 -> 0 <= n < 2 ^ 31 -> bytesToPad log2n p n = p - n mod p.
Proof.
  intros log2n p n P N. unfold bytesToPad. destruct (p =? 0) eqn:E; [lia|].
  rewrite u32_id by (unfold is_u32; lia). rewrite s32_id; auto. unfold is_s32.
  pose proof (Z.mod_pos_bound n p). lia.
Qed.
Lemma pad_power : forall log2n n, log2_spec log2n -> 0 < n < 2 ^ 31 ->
  bytesToPad log2n 0 n = 2 ^ (log2n n + 1) - n /\ 2 ^ (log2n n + 1) <= 2 ^ 31.
Proof.
  intros log2n n LS N. destruct (LS n N) as (L0 & L1 & L2). unfold bytesToPad. cbn [Z.eqb].
  rewrite Z.shiftl_mul_pow2 by auto. replace (2 * 2 ^ log2n n) with (2 ^ (log2n n + 1)) by (rewrite Z.pow_add_r by lia; lia).
  assert (log2n n < 31) by (apply (Z.pow_lt_mono_r_iff 2); lia).
  assert (2 ^ (log2n n + 1) <= 2 ^ 31) by (apply Z.pow_le_mono_r; lia).
  rewrite u32_id by (unfold is_u32; lia). rewrite s32_id by (unfold is_s32; lia). auto.
Qed.
