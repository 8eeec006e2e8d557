(** Proofs for C56. *)
From Coq Require Import ZArith List Bool Lia ZifyBool ZifyNat.
From Verif Require Import Base BaseFacts StrModel StrSpec.
Import ListNotations.
Open Scope Z_scope.

(** ** Digits *)
Definition num (base : Z) (ds : list Z) : Z := fold_left (fun a d => a * base + d) ds 0.
Lemma num_acc : forall base ds a, fold_left (fun a d => a * base + d) ds a = a * base ^ Z.of_nat (length ds) + num base ds.
Proof.
  intros base ds. unfold num. induction ds as [|d ds IH]; intro a; cbn [fold_left length]; [cbn; lia|].
  rewrite IH, (IH (0 * base + d)). replace (Z.of_nat (S (length ds))) with (Z.succ (Z.of_nat (length ds))) by lia.
  rewrite Z.pow_succ_r by lia. ring.
Qed.
Lemma num_app : forall base a b, num base (a ++ b) = num base a * base ^ Z.of_nat (length b) + num base b.
Proof. intros. unfold num. rewrite fold_left_app. apply num_acc. Qed.
Lemma num_zeros : forall base k, num base (repeat 0 k) = 0.
Proof. intros base k. unfold num. induction k as [|k IH]; [reflexivity|]. cbn [repeat fold_left]. exact IH. Qed.
Lemma toDigits_ok : forall base, 2 <= base -> forall n v acc, 0 <= v < base ^ Z.of_nat n -> (0 < n)%nat ->
  exists ds, toDigits n base v acc = ds ++ acc /\ Forall (fun d => 0 <= d < base) ds /\ num base ds = v /\ ds <> [] /\
    (length ds <= n)%nat /\ ((1 < length ds)%nat -> hd 0 ds <> 0).
Proof.
  intros base B. induction n as [|n IH]; intros v acc V N; [lia|]. cbn [toDigits].
  pose proof (Z.mod_pos_bound v base ltac:(lia)) as M. pose proof (Z.div_mod v base ltac:(lia)) as DM.
  destruct (Z.eqb_spec (v / base) 0) as [E|NE].
  - exists [v mod base]. split; [reflexivity|]. split; [repeat constructor; lia|]. split; [unfold num; cbn [fold_left]; lia|].
    split; [discriminate|]. cbn [length]. split; lia.
  - assert (Q : 0 <= v / base < base ^ Z.of_nat n).
    { split; [apply Z.div_pos; lia|]. apply Z.div_lt_upper_bound; [lia|]. rewrite <- Z.pow_succ_r by lia.
      replace (Z.succ (Z.of_nat n)) with (Z.of_nat (S n)) by lia. lia. }
    assert (N' : (0 < n)%nat). { destruct n; [cbn in Q; lia|lia]. }
    destruct (IH (v / base) (v mod base :: acc) Q N') as (ds & E & F & NV & NN & L & H).
    exists (ds ++ [v mod base]). rewrite E, <- app_assoc. split; [reflexivity|].
    split; [apply Forall_app; split; [exact F|repeat constructor; lia]|].
    split; [rewrite num_app, NV; unfold num; cbn [fold_left length]; change (Z.of_nat 1) with 1; rewrite Z.pow_1_r; lia|].
    split; [destruct ds; discriminate|]. rewrite app_length. cbn [length]. split; [lia|]. intros _.
    destruct ds as [|d ds]; [congruence|]. cbn [app hd] in *. destruct ds as [|d2 ds]; [|apply H; cbn; lia].
    unfold num in NV. cbn [fold_left] in NV. lia.
Qed.
Lemma printUnsigned_ok : forall width base v, 2 <= base <= 16 -> 0 <= v < 2 ^ 33 ->
  exists ds, printUnsigned width base v = map digitChar ds /\ Forall (fun d => 0 <= d < base) ds /\ num base ds = v /\ ds <> [] /\
    (width <= length ds)%nat /\ ((width < length ds)%nat -> (1 < length ds)%nat -> hd 0 ds <> 0).
Proof.
  intros width base v B V. unfold printUnsigned, padded.
  assert (V' : 0 <= v < base ^ Z.of_nat 33).
  { split; [lia|]. apply Z.lt_le_trans with (2 ^ 33); [lia|]. change (Z.of_nat 33) with 33. apply Z.pow_le_mono_l. lia. }
  destruct (toDigits_ok base ltac:(lia) 33 v [] V' ltac:(lia)) as (ds & E & F & NV & NN & L & H).
  rewrite app_nil_r in E. rewrite E.
  exists (repeat 0 (width - length ds) ++ ds). split; [reflexivity|].
  split; [apply Forall_app; split; [|exact F]; apply Forall_forall; intros x X; apply repeat_spec in X; lia|].
  split; [rewrite num_app, num_zeros; lia|]. split; [destruct ds; [congruence|]; destruct (repeat _ _); discriminate|].
  rewrite app_length, repeat_length. split; [lia|]. intros W1 W2.
  replace (width - length ds)%nat with 0%nat in * by lia. cbn [repeat app]. apply H. lia.
Qed.
Lemma shows_intro : forall base ds, Forall (fun d => 0 <= d < base) ds -> shows base (map digitChar ds) (num base ds).
Proof. intros base ds F. exists ds. split; [exact F|]. split; [reflexivity|reflexivity]. Qed.
Lemma needed_intro : forall width ds, Forall (fun d => 0 <= d < 16) ds -> ds <> [] -> (width <= length ds)%nat ->
  ((width < length ds)%nat -> (1 < length ds)%nat -> hd 0 ds <> 0) -> no_more_than_needed width (map digitChar ds).
Proof.
  intros width ds F N W H. unfold no_more_than_needed. rewrite map_length.
  split; [destruct ds; [congruence|discriminate]|]. split; [exact W|]. intros A B. specialize (H A B).
  destruct ds as [|d ds]; [congruence|]. inversion F; subst. cbn [map hd] in *. unfold digitChar. destruct (Z.ltb_spec d 10); lia.
Qed.

(** The last digits, and the first ones. *)
Lemma num_mod : forall base ds k, 2 <= base -> Forall (fun d => 0 <= d < base) ds -> (k <= length ds)%nat ->
  num base (skipn k ds) = num base ds mod base ^ Z.of_nat (length ds - k) /\
  num base (firstn k ds) = num base ds / base ^ Z.of_nat (length ds - k).
Proof.
  intros base ds k B F K.
  assert (BD : forall l, Forall (fun d => 0 <= d < base) l -> 0 <= num base l < base ^ Z.of_nat (length l)).
  { induction l as [|d l IH] using rev_ind; intro FL; [cbn; lia|]. apply Forall_app in FL. destruct FL as (F1 & F2).
    inversion F2; subst. rewrite num_app, app_length. cbn [length]. replace (Z.of_nat (length l + 1)) with (Z.succ (Z.of_nat (length l))) by lia.
    rewrite Z.pow_succ_r by lia. specialize (IH F1). change (Z.of_nat 1) with 1. rewrite Z.pow_1_r. unfold num at 2 4. cbn [fold_left]. nia. }
  pose proof (firstn_skipn k ds) as E. assert (FS : Forall (fun d => 0 <= d < base) (skipn k ds)).
  { rewrite <- E in F. apply Forall_app in F. tauto. }
  specialize (BD _ FS). rewrite skipn_length in BD.
  assert (NE : num base ds = num base (firstn k ds) * base ^ Z.of_nat (length ds - k) + num base (skipn k ds)).
  { rewrite <- E at 1. rewrite num_app, skipn_length. reflexivity. }
  split.
  - apply (Z.mod_unique_pos _ _ (num base (firstn k ds))); [exact BD|]. rewrite NE. ring.
  - apply (Z.div_unique_pos _ _ _ (num base (skipn k ds))); [exact BD|]. rewrite NE. ring.
Qed.

(** ** Slices *)
Lemma slice_ok : forall t s c, zlen t <= 2147483647 ->
  match c with Some c => - 2147483648 <= c /\ zlen t + c <= 2147483647 | None => True end ->
  slice t s c = Ok (part t s c).
Proof.
  intros t s c L HC. unfold slice, part. pose proof (zlen_nonneg Z t) as P.
  set (len := zlen t) in *.
  set (st := if s <? 0 then if len + s <? 0 then 0 else len + s else if len <? s then len else s).
  assert (ST : 0 <= st <= len) by (unfold st; destruct (Z.ltb_spec s 0); destruct (Z.ltb_spec (len + s) 0); destruct (Z.ltb_spec len s); lia).
  assert (SK : skipn (Z.to_nat (if s <? 0 then len + s else s)) t = skipn (Z.to_nat st) t).
  { unfold st. destruct (Z.ltb_spec s 0).
    - destruct (Z.ltb_spec (len + s) 0); [|reflexivity]. f_equal. lia.
    - destruct (Z.ltb_spec len s); [|reflexivity]. rewrite !skipn_all2 by (subst len; unfold zlen in *; lia). reflexivity. }
  rewrite SK. clearbody st. clear SK.
  assert (LEN : length t = Z.to_nat len) by (subst len; unfold zlen; lia).
  pose proof (skipn_length (Z.to_nat st) t) as SL.
  destruct c as [c|].
  - destruct HC as (H1 & H2).
    assert (B : negb ((-2147483648 <=? st + c) && (st + c <=? 2147483647)) = false) by lia. rewrite B.
    destruct (Z.leb_spec len st).
    + cbn [orb]. assert (E : skipn (Z.to_nat st) t = []) by (apply skipn_all2; lia). rewrite E. rewrite firstn_nil. reflexivity.
    + cbn [orb]. destruct (Z.leb_spec len (st + c)).
      * destruct (Z.leb_spec (len - st) 0); [lia|]. f_equal. rewrite !firstn_all2 by lia. reflexivity.
      * destruct (Z.leb_spec c 0); [|reflexivity]. replace (Z.to_nat c) with 0%nat by lia. reflexivity.
  - assert (B : negb ((-2147483648 <=? st + (len - st)) && (st + (len - st) <=? 2147483647)) = false) by lia. rewrite B.
    destruct (Z.leb_spec len (st + (len - st))); [|lia].
    destruct (Z.leb_spec len st).
    + cbn [orb]. rewrite skipn_all2 by lia. reflexivity.
    + cbn [orb]. destruct (Z.leb_spec (len - st) 0); [lia|]. f_equal. apply firstn_all2. lia.
Qed.

(** ** Expressions *)
Scheme term_mut := Induction for term Sort Prop with sum_mut := Induction for sum Sort Prop.
Combined Scheme expr_mutind from term_mut, sum_mut.
Definition no_member (l : list stok) : Prop :=
  match l with KDot :: KSlice :: _ | KDot :: KUpper :: _ | KDot :: KLower :: _ => False | _ => True end.
Lemma members_end : forall m t l, (0 < m)%nat -> no_member l -> members m t l = Ok (t, l).
Proof.
  intros m t l M H. destruct m as [|m]; [lia|]. cbn [members].
  destruct l as [|[] l]; try reflexivity. destruct l as [|[] l]; try reflexivity; contradiction.
Qed.
Definition reads_term (e : sexpr) (l : list stok) : Prop :=
  fits_int e -> forall n m r, (length l < n)%nat -> (length l < m)%nat ->
  exists v r1 m', pri2 (parse_StringExpression n) (l ++ r) = Ok (Some v, r1) /\
    members m v r1 = members m' (value e) r /\ (m <= m' + length l)%nat.
Definition reads_sum (e : sexpr) (l : list stok) : Prop :=
  fits_int e -> forall n k r, (length l < n)%nat -> (length l < k)%nat -> no_member r ->
  exists v r1 k', pri1 n (parse_StringExpression n) (l ++ r) = Ok (Some v, r1) /\
    sums k n (parse_StringExpression n) v r1 = sums k' n (parse_StringExpression n) (value e) r /\ (k <= k' + length l)%nat.

Lemma pri1_of_term : forall e l n r, reads_term e l -> fits_int e -> (length l < n)%nat -> no_member r ->
  pri1 n (parse_StringExpression n) (l ++ r) = Ok (Some (value e), r).
Proof.
  intros e l n r H F N NM. destruct (H F n n r N N) as (v & r1 & m' & E1 & E2 & M).
  unfold pri1. rewrite E1. cbn [bind]. rewrite E2. rewrite members_end by (auto; lia). reflexivity.
Qed.
Lemma sums_end : forall k n ex s l, (0 < k)%nat -> ends_expression l -> sums k n ex s l = Ok (Some s, l).
Proof. intros k n ex s l K H. destruct k as [|k]; [lia|]. cbn [sums]. destruct l as [|[] l]; try reflexivity. contradiction. Qed.
Lemma ends_no_member : forall l, ends_expression l -> no_member l.
Proof. intros [|[] [|[] l]]; cbn; tauto. Qed.
Lemma parse_of_sum : forall e l n r, reads_sum e l -> fits_int e -> (S (length l) < n)%nat -> ends_expression r ->
  parse_StringExpression n (l ++ r) = Ok (Some (value e), r).
Proof.
  intros e l n r H F N ER. destruct n as [|n]; [lia|]. cbn [parse_StringExpression].
  destruct (H F n n r ltac:(lia) ltac:(lia) (ends_no_member r ER)) as (v & r1 & k' & E1 & E2 & K).
  rewrite E1. cbn [bind]. rewrite E2. apply sums_end; [lia|exact ER].
Qed.

Lemma all_read : (forall e l, term e l -> reads_term e l) /\ (forall e l, sum e l -> reads_sum e l).
Proof.
  apply (expr_mutind (fun e l _ => reads_term e l) (fun e l _ => reads_sum e l)).
  - intros s F n m r N M. exists s, r, m. cbn [app pri2 value length] in *. split; [reflexivity|]. split; [reflexivity|lia].
  - intros e l S IH F n m r N M. cbn [length] in N, M. rewrite app_length in N, M. cbn [length] in N, M.
    exists (value e), r, m. cbn [app pri2]. rewrite <- app_assoc. cbn [app].
    rewrite (parse_of_sum e l n (KClose :: r) IH F ltac:(lia) I). cbn [bind]. split; [reflexivity|]. split; [reflexivity|lia].
  - intros e l T IH F n m r N M. rewrite app_length in N, M. cbn [length] in N, M. rewrite <- app_assoc.
    destruct (IH F n m ([KDot; KUpper] ++ r) ltac:(lia) ltac:(lia)) as (v & r1 & m' & E1 & E2 & L).
    destruct m' as [|m']; [lia|]. exists v, r1, m'. split; [exact E1|]. rewrite E2. cbn [app members value].
    split; [reflexivity|]. rewrite app_length. cbn [length]. lia.
  - intros e l T IH F n m r N M. rewrite app_length in N, M. cbn [length] in N, M. rewrite <- app_assoc.
    destruct (IH F n m ([KDot; KLower] ++ r) ltac:(lia) ltac:(lia)) as (v & r1 & m' & E1 & E2 & L).
    destruct m' as [|m']; [lia|]. exists v, r1, m'. split; [exact E1|]. rewrite E2. cbn [app members value].
    split; [reflexivity|]. rewrite app_length. cbn [length]. lia.
  - intros e l s T IH F n m r N M. rewrite app_length in N, M. cbn [length] in N, M. rewrite <- app_assoc.
    cbn [fits_int] in F. destruct F as (F & Z1 & Z2).
    destruct (IH F n m ([KDot; KSlice; KOpen; KNumber s; KClose] ++ r) ltac:(lia) ltac:(lia)) as (v & r1 & m' & E1 & E2 & L).
    destruct m' as [|m']; [lia|]. exists v, r1, m'. split; [exact E1|]. rewrite E2. cbn [app members value].
    rewrite slice_ok by auto. cbn [bind]. split; [reflexivity|]. rewrite app_length. cbn [length]. lia.
  - intros e l s c T IH F n m r N M. rewrite app_length in N, M. cbn [length] in N, M. rewrite <- app_assoc.
    cbn [fits_int] in F. destruct F as (F & Z1 & Z2).
    destruct (IH F n m ([KDot; KSlice; KOpen; KNumber s; KComma; KNumber c; KClose] ++ r) ltac:(lia) ltac:(lia)) as (v & r1 & m' & E1 & E2 & L).
    destruct m' as [|m']; [lia|]. exists v, r1, m'. split; [exact E1|]. rewrite E2. cbn [app members value].
    rewrite slice_ok by auto. cbn [bind]. split; [reflexivity|]. rewrite app_length. cbn [length]. lia.
  - intros e l T IH F n k r N K NM. exists (value e), r, k. rewrite (pri1_of_term e l n r IH F N NM).
    split; [reflexivity|]. split; [reflexivity|lia].
  - intros a b la lb Sa IHa Tb IHb F n k r N K NM. rewrite app_length in N, K. cbn [length] in N, K. rewrite <- app_assoc. cbn [app].
    cbn [fits_int] in F. destruct F as (Fa & Fb).
    destruct (IHa Fa n k (KAdd :: lb ++ r) ltac:(lia) ltac:(lia) I) as (v & r1 & k' & E1 & E2 & L).
    destruct k' as [|k']; [lia|]. exists v, r1, k'. split; [exact E1|]. rewrite E2. cbn [sums value].
    rewrite (pri1_of_term b lb n r IHb Fb ltac:(lia) NM). cbn [bind]. split; [reflexivity|]. rewrite app_length. cbn [length]. lia.
Qed.
