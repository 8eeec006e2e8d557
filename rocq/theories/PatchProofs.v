(** Proofs about storing patches. *)
From Coq Require Import ZArith List Bool Lia ZifyBool ZifyNat.
From Verif Require Import Base BaseFacts AssignModel Arith LinkExprModel LinkModel LinkSpec.
Import ListNotations.
Open Scope Z_scope.

Lemma zlen_nat : forall A (l : list A), zlen l = Z.of_nat (length l).
Proof. reflexivity. Qed.
Lemma set_nth_split : forall A (l : list A) k v, (k < length l)%nat ->
  set_nth l k v = firstn k l ++ v :: skipn (S k) l.
Proof. induction l as [|a l IH]; intros [|k] v H; cbn in *; try lia; [reflexivity|]. rewrite IH by lia. reflexivity. Qed.

Lemma stores_ok : forall bs data k, 0 <= k -> k + zlen bs <= zlen data -> stores data k bs = Ok (replaced data k bs).
Proof.
  induction bs as [|b bs IH]; intros data k H0 H1; unfold replaced.
  - cbn. rewrite PeanoNat.Nat.add_0_r, firstn_skipn. reflexivity.
  - rewrite zlen_nat in H1. cbn [length] in H1. cbn [stores]. unfold store.
    destruct ((0 <=? k) && (k <? zlen data)) eqn:C; [|exfalso; rewrite zlen_nat in *; lia]. cbn [bind].
    rewrite IH; [|lia|].
    2:{ rewrite !zlen_nat, set_nth_split by (rewrite zlen_nat in *; lia).
        rewrite app_length, firstn_length. cbn [length]. rewrite skipn_length. rewrite zlen_nat in *. lia. }
    f_equal. unfold replaced. rewrite zlen_nat in *.
    rewrite set_nth_split by lia.
    replace (Z.to_nat (k + 1)) with (S (Z.to_nat k)) by lia.
    assert (L : length (firstn (Z.to_nat k) data) = Z.to_nat k) by (rewrite firstn_length; lia).
    rewrite firstn_app, skipn_app, L.
    replace (S (Z.to_nat k) - Z.to_nat k)%nat with 1%nat by lia.
    replace (S (Z.to_nat k) + length bs - Z.to_nat k)%nat with (S (length bs)) by lia.
    rewrite (firstn_all2 (firstn _ data)) by lia. rewrite (skipn_all2 (firstn _ data)) by lia.
    cbn [firstn skipn app]. rewrite <- app_assoc. cbn [app length]. f_equal. f_equal. f_equal.
    rewrite <- (firstn_skipn (S (Z.to_nat k)) data) at 2.
    rewrite skipn_app, (skipn_all2 (firstn (S _) data)) by (rewrite firstn_length; lia).
    rewrite firstn_length. cbn [app].
    f_equal. lia.
Qed.
Lemma stores_outside : forall bs data k, ~ (0 <= k /\ k + zlen bs <= zlen data) -> bs <> [] -> stores data k bs = UB.
Proof.
  induction bs as [|b bs IH]; intros data k H Hn; [congruence|]. cbn [stores]. unfold store.
  destruct ((0 <=? k) && (k <? zlen data)) eqn:C; [|reflexivity]. cbn [bind].
  assert (L : zlen (set_nth data (Z.to_nat k) b) = zlen data).
  { rewrite !zlen_nat. rewrite !zlen_nat in C. rewrite set_nth_split by lia. rewrite app_length, firstn_length. cbn [length].
    rewrite skipn_length. lia. }
  destruct bs as [|b' bs]; [exfalso; rewrite !zlen_nat in *; cbn [length] in *; lia|].
  apply IH; [|discriminate]. rewrite L. rewrite !zlen_nat in *. cbn [length] in *. lia.
Qed.

Lemma byte_of : forall v k n, k = 2 ^ n -> 0 <= n <= 24 -> u8 (u32 v / k) = (v / k) mod 256.
Proof.
  intros v k n -> Hn. unfold u8, u32.
  change 4294967296 with (2 ^ 32). change 256 with (2 ^ 8).
  rewrite <- !Z.shiftr_div_pow2 by lia. rewrite <- !Z.land_ones by lia.
  apply Z.bits_inj'. intros b Hb. rewrite !Z.land_spec, !Z.shiftr_spec, !Z.land_spec by lia.
  destruct (Z.ltb_spec b 8).
  - rewrite (Z.ones_spec_low 32 (b + n)) by lia. rewrite andb_true_r. reflexivity.
  - rewrite (Z.ones_spec_high 8 b) by lia. rewrite !andb_false_r. reflexivity.
Qed.
Lemma div_div : forall v a b, 0 < a -> 0 < b -> v / a / b = v / (a * b).
Proof. intros. apply Z.div_div; lia. Qed.

Lemma encoding_len : forall t v, zlen (encoding t v) = width t.
Proof.
  intros t v. unfold encoding, width.
  destruct t as [|t|t]; try reflexivity. do 3 (try destruct t as [t|t|]); try reflexivity.
Qed.
Lemma bytes_of_value : forall v, 
  u8 (u32 v / 2 ^ 0) = v mod 256 /\ u8 (u32 v / 2 ^ 8) = (v / 256) mod 256 /\
  u8 (u32 v / 2 ^ 16) = (v / 256 / 256) mod 256 /\ u8 (u32 v / 2 ^ 24) = (v / 256 / 256 / 256) mod 256.
Proof.
  intros v. rewrite !div_div by lia.
  rewrite (byte_of v (2 ^ 0) 0), (byte_of v (2 ^ 8) 8), (byte_of v (2 ^ 16) 16), (byte_of v (2 ^ 24) 24) by (reflexivity || lia).
  rewrite Z.div_1_r. auto.
Qed.

Lemma storePatch_plain : forall data t off v, 0 <= t <= 4 -> 
  storePatch data t off true v = asmPatch data t off v.
Proof.
  intros data t off v Ht. unfold storePatch, asmPatch, PATCH_8, PATCH_LE_16, PATCH_BE_16, PATCH_LE_32, PATCH_BE_32.
  assert (t = 0 \/ t = 1 \/ t = 2 \/ t = 3 \/ t = 4) as [-> |[-> |[-> |[-> | ->]]]] by lia; cbn [Z.eqb Pos.eqb]; reflexivity.
Qed.
Lemma asmPatch_ok : forall data t off v, 0 <= t <= 4 -> 0 <= off -> off + width t <= zlen data -> fits t v ->
  asmPatch data t off v = Ok (replaced data off (encoding t v)).
Proof.
  intros data t off v Ht H0 H1 HF. pose proof (bytes_of_value v) as (B0 & B1 & B2 & B3).
  unfold asmPatch, PATCH_8, PATCH_LE_16, PATCH_BE_16, PATCH_LE_32, PATCH_BE_32. cbv zeta. rewrite B0, B1, B2, B3.
  assert (t = 0 \/ t = 1 \/ t = 2 \/ t = 3 \/ t = 4) as [-> |[-> |[-> |[-> | ->]]]] by lia;
    cbn [Z.eqb Pos.eqb width fits encoding low_bytes rev app] in *.
  - destruct ((v >=? -128) && (v <=? 255)) eqn:C; [|exfalso; lia]. apply stores_ok; auto.
  - destruct ((v >=? -32768) && (v <=? 65535)) eqn:C; [|exfalso; lia]. apply stores_ok; auto.
  - destruct ((v >=? -32768) && (v <=? 65535)) eqn:C; [|exfalso; lia]. apply stores_ok; auto.
  - apply stores_ok; auto.
  - apply stores_ok; auto.
Qed.
Lemma asmPatch_range : forall data t off v, 0 <= t <= 4 -> ~ fits t v -> asmPatch data t off v = Err.
Proof.
  intros data t off v Ht HF.
  unfold asmPatch, PATCH_8, PATCH_LE_16, PATCH_BE_16, PATCH_LE_32, PATCH_BE_32. cbv zeta.
  assert (t = 0 \/ t = 1 \/ t = 2 \/ t = 3 \/ t = 4) as [-> |[-> |[-> |[-> | ->]]]] by lia;
    cbn [Z.eqb Pos.eqb fits] in *.
  - destruct ((v >=? -128) && (v <=? 255)) eqn:C; [exfalso; lia|reflexivity].
  - destruct ((v >=? -32768) && (v <=? 65535)) eqn:C; [exfalso; lia|reflexivity].
  - destruct ((v >=? -32768) && (v <=? 65535)) eqn:C; [exfalso; lia|reflexivity].
  - tauto.
  - tauto.
Qed.
Lemma storePatch_symbol : forall data t off v d, 0 <= t <= 4 -> storePatch data t off false v = Ok d ->
  fits t v /\ asmPatch data t off v = Ok d.
Proof.
  intros data t off v d Ht H.
  unfold storePatch, asmPatch, PATCH_8, PATCH_LE_16, PATCH_BE_16, PATCH_LE_32, PATCH_BE_32 in *.
  assert (t = 0 \/ t = 1 \/ t = 2 \/ t = 3 \/ t = 4) as [-> |[-> |[-> |[-> | ->]]]] by lia;
    cbn [Z.eqb Pos.eqb fits andb] in *; try discriminate; auto.
Qed.

(** ** Replacing bytes *)
Lemma replaced_len : forall data off bs, 0 <= off -> off + zlen bs <= zlen data -> zlen (replaced data off bs) = zlen data.
Proof.
  intros data off bs H0 H1. unfold replaced. rewrite !zlen_nat in *. rewrite !app_length, firstn_length, skipn_length. lia.
Qed.
Lemma replaced_slice : forall data off bs, 0 <= off -> off + zlen bs <= zlen data -> slice (replaced data off bs) off (zlen bs) = bs.
Proof.
  intros data off bs H0 H1. unfold replaced, slice. rewrite !zlen_nat in *.
  assert (L : length (firstn (Z.to_nat off) data) = Z.to_nat off) by (rewrite firstn_length; lia).
  rewrite skipn_app, L, PeanoNat.Nat.sub_diag. rewrite skipn_all2 by lia. cbn [skipn app].
  rewrite firstn_app. rewrite firstn_all2 by lia. replace (Z.to_nat (Z.of_nat (length bs)) - length bs)%nat with 0%nat by lia.
  cbn [firstn]. apply app_nil_r.
Qed.
Lemma replaced_other : forall data off bs k, 0 <= off -> off + zlen bs <= zlen data -> 0 <= k ->
  ~ (off <= k < off + zlen bs) -> nth_error (replaced data off bs) (Z.to_nat k) = nth_error data (Z.to_nat k).
Proof.
  intros data off bs k H0 H1 Hk HN. unfold replaced. rewrite !zlen_nat in *.
  assert (L : length (firstn (Z.to_nat off) data) = Z.to_nat off) by (rewrite firstn_length; lia).
  destruct (Z.ltb_spec k off).
  - rewrite nth_error_app1 by lia.
    transitivity (nth_error (firstn (Z.to_nat off) data ++ skipn (Z.to_nat off) data) (Z.to_nat k)).
    + rewrite nth_error_app1 by lia. reflexivity.
    + rewrite firstn_skipn. reflexivity.
  - rewrite nth_error_app2 by lia. rewrite nth_error_app2 by lia.
    set (n := (Z.to_nat off + length bs)%nat).
    assert (L2 : length (firstn n data) = n) by (rewrite firstn_length; lia).
    transitivity (nth_error (firstn n data ++ skipn n data) (Z.to_nat k)).
    + rewrite nth_error_app2 by lia. rewrite L, L2. f_equal. lia.
    + rewrite firstn_skipn. reflexivity.
Qed.
(** Equal bytes give equal slices. *)
Lemma slice_ext : forall a b off n, 0 <= off -> 0 <= n ->
  (forall k, off <= k < off + n -> nth_error a (Z.to_nat k) = nth_error b (Z.to_nat k)) -> slice a off n = slice b off n.
Proof.
  intros a b off n H0 Hn H. unfold slice.
  assert (HN : forall k, (k < Z.to_nat n)%nat -> nth_error (skipn (Z.to_nat off) a) k = nth_error (skipn (Z.to_nat off) b) k).
  { intros k Hk. specialize (H (off + Z.of_nat k)). replace (Z.to_nat (off + Z.of_nat k)) with (Z.to_nat off + k)%nat in H by lia.
    assert (G : forall A (l : list A) m j, nth_error (skipn m l) j = nth_error l (m + j)).
    { induction l as [|x l IH]; intros [|m] j; cbn; auto. destruct j; reflexivity. }
    rewrite !G. apply H. lia. }
  revert HN. generalize (skipn (Z.to_nat off) a) (skipn (Z.to_nat off) b) (Z.to_nat n).
  clear. intros a b n. revert a b. induction n as [|n IH]; intros a b H; [reflexivity|].
  pose proof (H 0%nat ltac:(lia)) as Q. destruct a as [|x a], b as [|y b]; cbn in Q; try discriminate; [reflexivity|].
  injection Q as ->. cbn. f_equal. apply IH. intros k Hk. apply (H (S k)). lia.
Qed.

(** ** Patching a section *)
Section P.
Variable allowReloc osr : bool.
Variable eval : lpatch -> res (option entry).

Lemma onePatch_ok : forall data q d q', inside data q -> onePatch allowReloc osr eval data q = Ok (d, q') ->
  (eval q = Ok None /\ d = data) \/
  (exists e, eval q = Ok (Some e) /\ fits (pt_type q) (stored osr e) /\
     (en_symbol e <> None -> allowReloc = true /\ (pt_type q = 3 \/ pt_type q = 4)) /\
     d = replaced data (pt_offset q) (encoding (pt_type q) (stored osr e))).
Proof.
  intros data q d q' (Ht & H0 & H1) H. unfold onePatch in H. destruct (eval q) as [[e|]| |] eqn:E; try discriminate; cbn [bind] in H.
  2:{ injection H as <- <-. auto. }
  right. exists e. split; [reflexivity|].
  assert (FD : forall v, (fits (pt_type q) v) \/ ~ fits (pt_type q) v).
  { intros v. assert (pt_type q = 0 \/ pt_type q = 1 \/ pt_type q = 2 \/ pt_type q = 3 \/ pt_type q = 4) as [-> |[-> |[-> |[-> | ->]]]] by lia; cbn; try tauto; lia. }
  unfold stored. destruct (en_symbol e) as [y|] eqn:S.
  - destruct allowReloc; [|discriminate]. cbn [negb] in H.
    assert (T34 : forall v dd, storePatch data (pt_type q) (pt_offset q) false v = Ok dd -> pt_type q = 3 \/ pt_type q = 4).
    { intros v dd HS. assert (pt_type q = 0 \/ pt_type q = 1 \/ pt_type q = 2 \/ pt_type q = 3 \/ pt_type q = 4) as [T |[T |[T |[T |T]]]] by lia;
        rewrite T in HS; try discriminate; auto. }
    destruct (osr || v_local y).
    + unfold c_add, chk in H. match type of H with context [if ?c then _ else _] => destruct c end; [|discriminate]. cbn [bind] in H.
      destruct (storePatch _ _ _ _ _) as [dd| |] eqn:SP in H; try discriminate. cbn [bind] in H. injection H as <- <-.
      destruct (storePatch_symbol _ _ _ _ _ Ht SP) as [HF HA]. split; [assumption|].
      rewrite asmPatch_ok in HA by assumption. injection HA as <-. split; [|reflexivity]. intros _. split; eauto.
    + destruct (storePatch _ _ _ _ _) as [dd| |] eqn:SP in H; try discriminate. cbn [bind] in H. injection H as <- <-.
      destruct (storePatch_symbol _ _ _ _ _ Ht SP) as [HF HA]. split; [assumption|].
      rewrite asmPatch_ok in HA by assumption. injection HA as <-. split; [|reflexivity]. intros _. split; eauto.
  - rewrite storePatch_plain in H by assumption. destruct (FD (en_value e)) as [HF|HF].
    + rewrite asmPatch_ok in H by assumption. cbn [bind] in H. injection H as <- _. split; [assumption|].
      split; [|reflexivity]. congruence.
    + rewrite asmPatch_range in H by assumption. discriminate.
Qed.

Lemma inside_len : forall data data' q, zlen data' = zlen data -> inside data q -> inside data' q.
Proof. intros data data' q L (A & B & C). unfold inside. rewrite L. auto. Qed.
Lemma inside_enc : forall data q v, inside data q -> 0 <= pt_offset q /\ pt_offset q + zlen (encoding (pt_type q) v) <= zlen data.
Proof. intros data q v (A & B & C). rewrite encoding_len. auto. Qed.

Lemma patchAll_ok : forall qs data d qs', Forall (inside data) qs -> ForallOrdPairs disjoint qs ->
  patchAll allowReloc osr eval data qs = Ok (d, qs') ->
  zlen d = zlen data /\
  (forall q, In q qs -> eval q = Ok None \/
     exists e, eval q = Ok (Some e) /\ fits (pt_type q) (stored osr e) /\
       (en_symbol e <> None -> allowReloc = true /\ (pt_type q = 3 \/ pt_type q = 4)) /\
       slice d (pt_offset q) (width (pt_type q)) = encoding (pt_type q) (stored osr e)) /\
  (forall k, 0 <= k -> (forall q, In q qs -> covered q k -> eval q = Ok None) ->
     nth_error d (Z.to_nat k) = nth_error data (Z.to_nat k)).
Proof.
  induction qs as [|q qs IH]; intros data d qs' HI HD H.
  - cbn in H. injection H as <- <-. split; [reflexivity|]. split; [intros q []|reflexivity].
  - cbn [patchAll] in H. destruct (onePatch allowReloc osr eval data q) as [[d1 q1]| |] eqn:O; try discriminate. cbn [bind] in H.
    destruct (patchAll allowReloc osr eval d1 qs) as [[d2 r2]| |] eqn:PA; try discriminate. cbn [bind] in H. injection H as <- <-.
    inversion HI as [|? ? HIq HIr]; subst. inversion HD as [|? ? HDq HDr]; subst.
    assert (L1 : zlen d1 = zlen data).
    { destruct (onePatch_ok _ _ _ _ HIq O) as [[_ ->]|(e & _ & _ & _ & ->)]; [reflexivity|].
      apply replaced_len; apply (inside_enc data q (stored osr e) HIq). }
    destruct (IH d1 d2 r2) as (L2 & P2 & N2); auto.
    { eapply Forall_impl; [|exact HIr]. intros. eapply inside_len; eauto. }
    split; [congruence|]. split.
    + intros q' [<-|Hq]; [|auto].
      destruct (onePatch_ok _ _ _ _ HIq O) as [[E ->]|(e & E & Fe & Se & ->)]; [left; assumption|right].
      exists e. split; [assumption|]. split; [assumption|]. split; [assumption|].
      destruct (inside_enc data q (stored osr e) HIq) as [A B].
      rewrite <- (encoding_len (pt_type q) (stored osr e)).
      etransitivity; [|apply (replaced_slice data (pt_offset q) (encoding (pt_type q) (stored osr e)) A B)].
      rewrite encoding_len. apply slice_ext; [exact A|rewrite <- (encoding_len _ (stored osr e)); rewrite zlen_nat; lia|].
      intros k Hk. apply N2; [lia|]. intros q' Hq' Hc. exfalso. rewrite Forall_forall in HDq.
      apply (HDq q' Hq' k). split; [unfold covered; lia|assumption].
    + intros k Hk HN. rewrite N2; [|assumption|].
      2:{ intros q' Hq' Hc. apply HN; [right|]; assumption. }
      destruct (onePatch_ok _ _ _ _ HIq O) as [[E ->]|(e & E & Fe & Se & ->)]; [reflexivity|].
      destruct (inside_enc data q (stored osr e) HIq) as [A B].
      apply replaced_other; auto. rewrite encoding_len. intros Hc.
      rewrite (HN q (or_introl eq_refl)) in E; [discriminate|]. unfold covered. lia.
Qed.

(** Plain values in range are always stored. *)
Lemma patchAll_total : forall qs data, Forall (inside data) qs ->
  (forall q, In q qs -> exists v, eval q = Ok (Some (Entry None v)) /\ fits (pt_type q) v) ->
  exists d qs', patchAll allowReloc osr eval data qs = Ok (d, qs').
Proof.
  induction qs as [|q qs IH]; intros data HI HE; [cbn; eauto|].
  inversion HI as [|? ? HIq HIr]; subst. destruct (HE q (or_introl eq_refl)) as (v & E & HF).
  cbn [patchAll]. unfold onePatch. rewrite E. cbn [bind en_symbol en_value]. pose proof HIq as (A & B & C).
  rewrite storePatch_plain, asmPatch_ok by assumption. cbn [bind].
  destruct (IH (replaced data (pt_offset q) (encoding (pt_type q) v))) as (d & qs' & ->).
  - eapply Forall_impl; [|exact HIr]. intros a Ha. eapply inside_len; [|exact Ha].
    apply replaced_len; apply (inside_enc data q v HIq).
  - intros q' Hq'. apply HE. right. assumption.
  - cbn. eauto.
Qed.
End P.
