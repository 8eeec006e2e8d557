(** Proofs about the built-in memory maps. *)
From Coq Require Import String Ascii ZArith List Bool Lia ZifyBool ZifyNat Permutation Sorted.
From Verif Require Import Base BaseFacts PoolSpec AssignModel AssignSpec AssignProofs AssignFull LinkModel ImageSpec ImageProofs
  FormatSpec MachineModel MachineSpec.
Import ListNotations.
Open Scope Z_scope.

Fixpoint allpairs {A : Type} (f : A -> A -> bool) (l : list A) : bool :=
  match l with [] => true | x :: r => forallb (f x) r && allpairs f r end.
Lemma allpairs_nth : forall (A : Type) (f : A -> A -> bool) l, allpairs f l = true ->
  forall i j p q, (i < j)%nat -> nth_error l i = Some p -> nth_error l j = Some q -> f p q = true.
Proof.
  intros A f. induction l as [|x l IH]; intros H i j p q L I J; [destruct i; discriminate|].
  cbn in H. apply andb_prop in H as [H1 H2]. destruct i, j; try lia; cbn in I, J.
  - injection I as ->. rewrite forallb_forall in H1. apply H1. eapply nth_error_In; eauto.
  - apply (IH H2 i j); auto. lia.
Qed.
Definition apart (a m b n : Z) : bool := (a + m <=? b) || (b + n <=? a) || (m <=? 0) || (n <=? 0).

(** *** Well formed *)
Definition pools_fine (cf : config) : bool :=
  forallb (fun p => (0 <=? p_loc p) && (0 <=? p_size p) && (p_loc p + p_size p <? 2 ^ 31)) (cf_pools cf) &&
  let n := List.length (cf_pools cf) in
  forallb (fun g => forallb (fun k => Nat.ltb k n) (g_pools g)) (cf_groups cf).
Lemma pools_fine_ok : forall cf, pools_fine cf = true -> config_ok cf.
Proof.
  intros cf H. apply andb_prop in H as [H1 H2]. rewrite forallb_forall in H1, H2. split; apply Forall_forall.
  - intros p I. specialize (H1 p I). lia.
  - intros g I. specialize (H2 g I). rewrite forallb_forall in H2. apply Forall_forall. intros k K. specialize (H2 k K). now apply PeanoNat.Nat.ltb_lt.
Qed.

(** *** Address spaces *)
Definition banks_apart (cf : config) : bool :=
  allpairs (fun p q => negb (p_bank p =? p_bank q) || apart (p_loc p) (p_size p) (p_loc q) (p_size q)) (cf_pools cf).

Lemma out_pool : forall cf ss out s, config_ok cf -> Forall section_ok ss -> assign_Process cf ss = Ok out -> In s out ->
  s_used s = true -> s_group s <> None ->
  exists k p, nth_error (cf_pools cf) k = Some p /\ s_pool s = Some k /\
    within (s_cpuByteLocation s, s_size s) (p_loc p) (p_size p) /\ s_cpuBank s = p_bank p /\ 0 <= s_size s /\
    s_imageLocation s = (if p_image p =? -1 then -1 else p_image p + (s_cpuByteLocation s - p_loc p)).
Proof.
  intros cf ss out s CF SO A I U G. destruct (linked_placed cf ss out s CF SO A I) as (s0 & I0 & PW).
  destruct (pw_same _ _ _ PW) as (_ & SG & SZ & SU & _). destruct (s_group s) as [g|] eqn:EG; [|congruence].
  destruct (pw_pool _ _ _ PW) with (g := g) as (G' & k & p & _ & _ & NP & SP & W & SB & _ & SI); [congruence|congruence|].
  exists k, p. repeat split; auto; try apply W. rewrite Forall_forall in SO. specialize (SO s0 I0). destruct SO. lia.
Qed.
Lemma FOP_nth : forall (A : Type) (P : A -> A -> Prop) l, ForallOrdPairs P l ->
  forall i j a b, (i < j)%nat -> nth_error l i = Some a -> nth_error l j = Some b -> P a b.
Proof.
  intros A P l F. induction F as [|x l FA F IH]; intros i j a b L I J; [destruct i; discriminate|].
  destruct i, j; try lia; cbn in I, J.
  - injection I as ->. rewrite Forall_forall in FA. apply FA. eapply nth_error_In; eauto.
  - apply (IH i j); auto. lia.
Qed.
Lemma pool_apart : forall cf ss out, config_ok cf -> Forall section_ok ss -> assign_Process cf ss = Ok out ->
  forall i j a b k x, i <> j -> nth_error out i = Some a -> nth_error out j = Some b ->
    s_pool a = Some k -> s_pool b = Some k ->
    s_cpuByteLocation a <= x < s_cpuByteLocation a + s_size a ->
    s_cpuByteLocation b <= x < s_cpuByteLocation b + s_size b -> False.
Proof.
  intros cf ss out CF SO A. destruct (assign_sound cf ss out CF SO A) as (ss' & PM & F2 & DJ & _).
  assert (W : forall i j a b k x, (i < j)%nat -> nth_error out i = Some a -> nth_error out j = Some b ->
    s_pool a = Some k -> s_pool b = Some k ->
    s_cpuByteLocation a <= x < s_cpuByteLocation a + s_size a ->
    s_cpuByteLocation b <= x < s_cpuByteLocation b + s_size b -> False).
  { intros i j a b k x L I J PA PB CA CB. specialize (DJ k). unfold ranges_in in DJ. apply disjoint_pairs in DJ.
    pose proof (FOP_nth _ _ _ DJ i j a b L I J) as H. cbv beta in H. rewrite PA, PB, PeanoNat.Nat.eqb_refl in H.
    apply (H eq_refl eq_refl x); unfold PoolSpec.covers; cbn [fst snd]; lia. }
  intros i j a b k x NE I J PA PB CA CB. destruct (PeanoNat.Nat.lt_total i j) as [L|[L|L]]; [|contradiction|]; eauto.
Qed.
Lemma maps_no_overlap : forall cf ss out, config_ok cf -> banks_apart cf = true -> Forall section_ok ss ->
  assign_Process cf ss = Ok out -> no_overlap out.
Proof.
  intros cf ss out CF BA SO A i j a b x NE I J UA UB GA GB EB CA CB.
  destruct (out_pool cf ss out a CF SO A (nth_error_In _ _ I) UA GA) as (ka & p & NPa & SPa & Wa & Ba & SZa & _).
  destruct (out_pool cf ss out b CF SO A (nth_error_In _ _ J) UB GB) as (kb & q & NPb & SPb & Wb & Bb & SZb & _).
  unfold within in Wa, Wb. cbn [fst snd] in Wa, Wb.
  destruct (PeanoNat.Nat.lt_total ka kb) as [L|[<-|L]].
  - pose proof (allpairs_nth _ _ _ BA ka kb p q L NPa NPb) as H. cbv beta in H. unfold apart in H. lia.
  - eapply pool_apart with (i := i) (j := j); eauto.
  - pose proof (allpairs_nth _ _ _ BA kb ka q p L NPb NPa) as H. cbv beta in H. unfold apart in H. lia.
Qed.

(** *** Images *)
Definition images_apart (T : nat -> bool) (cf : config) : bool :=
  let ps := combine (seq 0 (List.length (cf_pools cf))) (cf_pools cf) in
  forallb (fun kp => let p := snd kp in negb (T (fst kp)) || (p_image p =? -1) || ((0 <=? p_image p) && (p_image p + p_size p <? 2 ^ 31))) ps &&
  allpairs (fun kp kq => let p := snd kp in let q := snd kq in
    negb (T (fst kp)) || negb (T (fst kq)) || (p_image p =? -1) || (p_image q =? -1) ||
    negb (p_overlay p =? p_overlay q) || apart (p_image p) (p_size p) (p_image q) (p_size q)) ps.
Lemma nth_numbered : forall (A : Type) (l : list A) a k p, nth_error l k = Some p ->
  nth_error (combine (seq a (List.length l)) l) k = Some ((a + k)%nat, p).
Proof.
  intros A. induction l as [|x l IH]; intros a k p H; [destruct k; discriminate|]. cbn. destruct k; cbn in *.
  - injection H as ->. f_equal. f_equal. lia.
  - rewrite (IH (S a) k p H). f_equal. f_equal. lia.
Qed.
Lemma images_apart_ok : forall T cf, images_apart T cf = true -> image_config_for (fun k => T k = true) 0 cf.
Proof.
  intros T cf H. unfold images_apart in H. apply andb_prop in H as [H1 H2]. split.
  - intros k p NP TK. apply (nth_numbered _ _ 0%nat) in NP. rewrite forallb_forall in H1. specialize (H1 _ (nth_error_In _ _ NP)).
    cbn [fst snd PeanoNat.Nat.add] in H1. rewrite TK in H1. lia.
  - assert (W : forall i j p q k, (i < j)%nat -> T i = true -> T j = true -> nth_error (cf_pools cf) i = Some p ->
      nth_error (cf_pools cf) j = Some q -> p_image p <> -1 -> p_image q <> -1 -> p_overlay p = p_overlay q ->
      p_image p <= k < p_image p + p_size p -> p_image q <= k < p_image q + p_size q -> False).
    { intros i j p q k L TI TJ I J PP PQ OV A B. apply (nth_numbered _ _ 0%nat) in I, J.
      pose proof (allpairs_nth _ _ _ H2 i j _ _ L I J) as X. cbn [fst snd PeanoNat.Nat.add] in X. rewrite TI, TJ in X. unfold apart in X. lia. }
    intros i j p q k NE TI TJ I J PP PQ OV A B. destruct (PeanoNat.Nat.lt_total i j) as [L|[L|L]]; [|contradiction|]; eauto.
Qed.

(** *** HC800 *)
Definition hc800_fine (cf : config) : bool :=
  forallb (fun p => (129 <=? p_bank p) && (p_bank p <=? 255) && (p_image p =? 0) && (p_size p <? 65535)) (cf_pools cf) &&
  allpairs (fun p q => negb (p_bank p =? p_bank q)) (cf_pools cf).
Definition hc800_apart (cf : config) : bool :=
  forallb (fun p => p_image p =? 0) (cf_pools cf) &&
  allpairs (fun p q => apart (16384 * p_bank p) (p_size p) (16384 * p_bank q) (p_size q)) (cf_pools cf).
Lemma hc800_memory_apart : forall cf ss out, config_ok cf -> hc800_apart cf = true -> Forall section_ok ss ->
  assign_Process cf ss = Ok out -> hc800_no_overlap out.
Proof.
  intros cf ss out CF BA SO A i j a b x NE I J UA UB GA GB CA CB. apply andb_prop in BA as [Z0 BA]. rewrite forallb_forall in Z0.
  destruct (out_pool cf ss out a CF SO A (nth_error_In _ _ I) UA GA) as (ka & p & NPa & SPa & Wa & Ba & SZa & SIa).
  destruct (out_pool cf ss out b CF SO A (nth_error_In _ _ J) UB GB) as (kb & q & NPb & SPb & Wb & Bb & SZb & SIb).
  unfold within in Wa, Wb. cbn [fst snd] in Wa, Wb. unfold hc800_memory in *.
  pose proof (Z0 p (nth_error_In _ _ NPa)) as Pa. pose proof (Z0 q (nth_error_In _ _ NPb)) as Pb.
  assert (Ea : s_imageLocation a = s_cpuByteLocation a - p_loc p) by (destruct (p_image p =? -1) eqn:E; lia).
  assert (Eb : s_imageLocation b = s_cpuByteLocation b - p_loc q) by (destruct (p_image q =? -1) eqn:E; lia).
  destruct (PeanoNat.Nat.lt_total ka kb) as [L|[<-|L]].
  - pose proof (allpairs_nth _ _ _ BA ka kb p q L NPa NPb) as H. cbv beta in H. unfold apart in H. lia.
  - rewrite NPa in NPb. injection NPb as <-.
    eapply pool_apart with (i := i) (j := j) (k := ka) (x := x - 16384 * p_bank p + p_loc p); eauto; lia.
  - pose proof (allpairs_nth _ _ _ BA kb ka q p L NPb NPa) as H. cbv beta in H. unfold apart in H. lia.
Qed.
Lemma linked_hc800 : forall cf places out ss, config_ok cf -> hc800_fine cf = true ->
  Forall section_ok places -> Forall (fun s => s_used s = true) places -> assign_Process cf places = Ok out ->
  map sc_place ss = out -> Forall has_contents ss -> Forall (fun s => isBss_ s = true -> sc_data s = None) ss -> hc800_program ss.
Proof.
  intros cf places out ss CF HF SO AU A M HC BD. apply andb_prop in HF as [HP BA]. rewrite forallb_forall in HP.
  assert (US : forall s, In s ss -> s_used (sc_place s) = true /\ In (sc_place s) out).
  { intros s I. assert (J : In (sc_place s) out) by (rewrite <- M; now apply in_map). split; auto.
    destruct (linked_placed cf places out _ CF SO A J) as (s0 & I0 & PW). destruct (pw_same _ _ _ PW) as (_ & _ & _ & SU & _).
    rewrite Forall_forall in AU. rewrite SU. auto. }
  assert (HM : forall s, In s ss -> s_group (sc_place s) = None -> s_cpuBank (sc_place s) = 0).
  { intros s I G. destruct (US s I) as [U J]. destruct (linked_placed cf places out _ CF SO A J) as (s0 & I0 & PW).
    destruct (pw_same _ _ _ PW) as (_ & SG & _ & SU & _). apply (pw_equ _ _ _ PW); congruence. }
  split; [|split].
  - apply Forall_forall. intros s I B. destruct (US s I) as [U J]. destruct (s_group (sc_place s)) as [g|] eqn:EG; [|rewrite (HM s I EG) in B; lia].
    exists g. split; auto. rewrite Forall_forall in HC, BD. split.
    + intro T. apply (BD s I). unfold isBss_. rewrite EG. lia.
    + intro T. destruct (HC s I U) as (d & D & L); [unfold isBss_; rewrite EG; lia|]. exists d. split; auto. split; auto.
      destruct (out_pool cf places out _ CF SO A J U) as (k & p & NP & SP & W & SB & SZ & SI); [congruence|].
      specialize (HP p (nth_error_In _ _ NP)). unfold within in W. cbn [fst snd] in W. destruct (p_image p =? -1) eqn:E; lia.
  - destruct (assign_sound cf places out CF SO A) as (ss' & PM & F2 & DJ & ST). rewrite <- M in ST. apply (FOP_impl_in (fun a b => section_le (sc_place a) (sc_place b))).
    + intros a b IA IB [[X _]|[_ [X|[X _]]]] _; [destruct (US a IA); congruence|lia|lia].
    + clear - ST. induction ss as [|s ss IH]; [constructor|]. cbn in ST. inversion ST as [|? ? ST' FA]; subst. constructor; auto.
      rewrite Forall_forall in FA. apply Forall_forall. intros b I. apply FA. now apply in_map.
  - assert (F : ForallOrdPairs (fun a b => forall k, in_pool k (sc_place a) = true -> in_pool k (sc_place b) = true ->
       forall x, PoolSpec.covers (s_cpuByteLocation (sc_place a), s_size (sc_place a)) x ->
                 PoolSpec.covers (s_cpuByteLocation (sc_place b), s_size (sc_place b)) x -> False) ss).
    { destruct (assign_sound cf places out CF SO A) as (ss' & PM & F2 & DJ & ST).
      apply FOP_all. intro k. specialize (DJ k). unfold ranges_in in DJ. apply disjoint_pairs in DJ. rewrite <- M in DJ.
      apply (FOP_map sc_place) in DJ. exact DJ. }
    revert F. apply FOP_impl_in. intros a b IA IB FP d e x DA DB EB CA CB.
    rewrite Forall_forall in HC, BD. destruct (US a IA) as [UA JA]. destruct (US b IB) as [UB JB].
    assert (GA : isBss_ a = false) by (destruct (isBss_ a) eqn:E; auto; rewrite (BD a IA E) in DA; discriminate).
    assert (GB : isBss_ b = false) by (destruct (isBss_ b) eqn:E; auto; rewrite (BD b IB E) in DB; discriminate).
    destruct (HC a IA UA GA) as (d' & DA' & LA). destruct (HC b IB UB GB) as (e' & DB' & LB).
    rewrite DA in DA'. injection DA' as <-. rewrite DB in DB'. injection DB' as <-.
    assert (NA : s_group (sc_place a) <> None) by (unfold isBss_ in GA; destruct (s_group (sc_place a)); congruence).
    assert (NB : s_group (sc_place b) <> None) by (unfold isBss_ in GB; destruct (s_group (sc_place b)); congruence).
    destruct (out_pool cf places out _ CF SO A JA UA NA) as (ka & p & NPa & SPa & Wa & Ba & SZa & SIa).
    destruct (out_pool cf places out _ CF SO A JB UB NB) as (kb & q & NPb & SPb & Wb & Bb & SZb & SIb).
    pose proof (HP p (nth_error_In _ _ NPa)) as Pa. pose proof (HP q (nth_error_In _ _ NPb)) as Pb.
    assert (Ea : s_imageLocation (sc_place a) = s_cpuByteLocation (sc_place a) - p_loc p) by (destruct (p_image p =? -1) eqn:E; lia).
    assert (Eb : s_imageLocation (sc_place b) = s_cpuByteLocation (sc_place b) - p_loc q) by (destruct (p_image q =? -1) eqn:E; lia).
    destruct (PeanoNat.Nat.lt_total ka kb) as [L|[<-|L]].
    + pose proof (allpairs_nth _ _ _ BA ka kb p q L NPa NPb) as H. cbv beta in H. lia.
    + rewrite NPa in NPb. injection NPb as <-.
      apply (FP ka) with (x := x + p_loc p); unfold in_pool; rewrite ?SPa, ?SPb, ?PeanoNat.Nat.eqb_refl; auto;
        unfold PoolSpec.covers; cbn [fst snd]; lia.
    + pose proof (allpairs_nth _ _ _ BA kb ka q p L NPb NPa) as H. cbv beta in H. lia.
Qed.

(** ** Regions *)
(** Pool [p] is within [r], and images agree. *)
Definition pool_in (r : region) (p : pool) : bool :=
  (first r <=? p_bank p) && (p_bank p <=? last r) && (low r <=? p_loc p) && (p_loc p + p_size p <=? high r + 1) &&
  match file r with
  | Some (per, offset) => negb (p_image p =? -1) && (p_image p - p_loc p =? per * p_bank p + offset)
  | None => p_image p =? -1
  end.
(** [p] is all of [r] in bank [b]. *)
Definition pool_is (r : region) (b : Z) (p : pool) : bool :=
  (p_bank p =? b) && (p_loc p =? low r) && (p_loc p + p_size p =? high r + 1).
Definition group_pools (cf : config) (G : group) : list pool :=
  flat_map (fun k => match nth_error (cf_pools cf) k with Some p => [p] | None => [] end) (g_pools G).
Definition regions_check (t : list (string * list region)) (cf : config) : bool :=
  forallb (fun G => existsb (fun e => beq (g_name G) (str (fst e))) t) (cf_groups cf) &&
  forallb (fun e => match find (fun G => beq (g_name G) (str (fst e))) (cf_groups cf) with
    | None => false
    | Some G =>
        forallb (fun p => existsb (fun r => pool_in r p) (snd e)) (group_pools cf G) &&
        forallb (fun r => forallb (fun i => existsb (pool_is r (first r + Z.of_nat i)) (group_pools cf G))
                            (seq 0 (Z.to_nat (last r - first r + 1)))) (snd e)
    end) t.
Lemma in_group_pools : forall cf G p, In p (group_pools cf G) <-> exists k, In k (g_pools G) /\ nth_error (cf_pools cf) k = Some p.
Proof.
  intros. unfold group_pools. rewrite in_flat_map. split; intros (k & I & H); exists k; split; auto.
  - destruct (nth_error (cf_pools cf) k); [destruct H as [->|[]]; auto|destruct H].
  - rewrite H. now left.
Qed.
Lemma str_inj : forall a b, str a = str b -> a = b.
Proof.
  intros a b H. rewrite <- (string_of_list_ascii_of_string a), <- (string_of_list_ascii_of_string b). f_equal.
  unfold str in H. revert H. generalize (list_ascii_of_string a) (list_ascii_of_string b).
  induction l as [|x l IH]; intros [|y l'] H; try discriminate; auto. injection H as H1 H2. f_equal; auto.
  apply Nat2Z.inj in H1. rewrite <- (ascii_nat_embedding x), <- (ascii_nat_embedding y). now f_equal.
Qed.
Lemma regions_in : forall t cf s s' g, regions_check t cf = true -> placed_well cf s s' -> s_used s = true -> s_group s = Some g ->
  exists e r, In e t /\ og_name g = str (fst e) /\ In r (snd e) /\ in_region r s'.
Proof.
  intros t cf s s' g C PW U SG. apply andb_prop in C as [C1 C2]. rewrite forallb_forall in C1, C2.
  destruct (pw_pool _ _ _ PW U g SG) as (G & k & p & FG & IK & NP & _ & (W1 & W2) & SB & _ & SI).
  destruct (find_some _ _ FG) as [IG EG]. apply beq_eq in EG.
  pose proof (C1 G IG) as X. apply existsb_exists in X as (e & IE & X). apply beq_eq in X.
  specialize (C2 e IE). rewrite <- X, EG in C2. rewrite FG in C2. apply andb_prop in C2 as [C2 _]. rewrite forallb_forall in C2.
  specialize (C2 p (proj2 (in_group_pools cf G p) (ex_intro _ k (conj IK NP)))). apply existsb_exists in C2 as (r & IR & PR).
  exists e, r. split; auto. split; [congruence|]. split; auto. unfold pool_in in PR. unfold in_region. cbn in W1, W2.
  destruct (file r) as [[per off]|]; rewrite !andb_true_iff in PR; destruct PR as ((((A1 & A2) & A3) & A4) & A5).
  - destruct A5 as [A5 A6]. destruct (p_image p =? -1) eqn:E; [discriminate|]. rewrite SI, SB.
    apply Z.leb_le in A1, A2, A3, A4. apply Z.eqb_eq in A6. lia.
  - rewrite A5 in SI. rewrite SI, SB. apply Z.leb_le in A1, A2, A3, A4. lia.
Qed.
Lemma regions_usable : forall t cf e r s g, config_ok cf -> regions_check t cf = true -> In e t -> In r (snd e) ->
  section_ok s -> group_kind_ok s -> s_used s = true -> s_group s = Some g -> og_name g = str (fst e) -> 0 < s_size s ->
  s_cpuByteLocation s <> -1 -> s_byteAlign s = -1 ->
  first r <= s_cpuBank s <= last r -> s_cpuBank s <> -1 ->
  low r <= s_cpuByteLocation s -> s_cpuByteLocation s + s_size s <= high r + 1 ->
  exists s', assign_Process cf [s] = Ok [s'] /\ placed_well cf s s'.
Proof.
  intros t cf e r s g CF C IE IR SO GK U SG EN SZ LN AL FB BN LO HI.
  apply andb_prop in C as [_ C2]. rewrite forallb_forall in C2. specialize (C2 e IE).
  destruct (find _ _) as [G|] eqn:FG in C2; [|discriminate]. apply andb_prop in C2 as [_ C2]. rewrite forallb_forall in C2.
  specialize (C2 r IR). rewrite forallb_forall in C2.
  specialize (C2 (Z.to_nat (s_cpuBank s - first r))). rewrite in_seq in C2. specialize (C2 ltac:(lia)).
  apply existsb_exists in C2 as (p & IP & PI). apply in_group_pools in IP as (k & IK & NP).
  unfold pool_is in PI. rewrite !andb_true_iff, !Z.eqb_eq in PI. destruct PI as ((P1 & P2) & P3).
  destruct (assign_Process cf [s]) as [out| |] eqn:A.
  - destruct (assign_sound cf [s] out CF (Forall_cons _ SO (Forall_nil _)) A) as (ss' & PP & F2 & _).
    inversion F2 as [|? s' ? l PW F0]; subst. inversion F0; subst. apply Permutation_length_1_inv in PP. subst. eauto.
  - exfalso.
    destruct (refused_full cf [s] CF) as (mid & s1 & g1 & I1 & U1 & SG1 & F2 & IM & NR); auto; try (apply Forall_cons; [auto|apply Forall_nil]).
    destruct I1 as [<-|[]]. rewrite SG in SG1. injection SG1 as <-.
    inversion F2 as [|? m ? l PW F0]; subst. inversion F0; subst. destruct IM as [->|[]].
    apply (NR G k p); auto; [rewrite EN; auto|right; lia|].
    exists (s_cpuByteLocation s). split; [|split; auto; lia].
    split; [lia|]. split; [lia|]. intros a _ r0 I. unfold ranges_in in I. cbn in I.
    destruct SO as (_ & _ & _ & _ & _ & _ & SP). rewrite SP in I. destruct I.
  - now destruct (assign_no_UB cf [s] CF (Forall_cons _ SO (Forall_nil _))).
Qed.
