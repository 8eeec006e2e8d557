(** Proofs for C54 and C55. *)
From Coq Require Import ZArith List Bool Lia ZifyBool ZifyNat.
From Verif Require Import Base BaseFacts LexModel LexSpec LexProofs ScanModel ScanSpec ScanProofs TokModel TokSpec.
Import ListNotations.
Open Scope Z_scope.

Lemma toupper_upper : forall c, toupper c = upper c. Proof. reflexivity. Qed.
Lemma map_upper : forall s, map toupper s = map upper s. Proof. reflexivity. Qed.
Lemma beq_true : forall a b, beq a b = true <-> a = b.
Proof. apply beq_eq. Qed.
Lemma upper_id : forall s, existsb islower s = false -> map upper s = s.
Proof.
  induction s as [|c s IH]; intro H; [reflexivity|]. cbn [existsb map] in *. apply orb_false_iff in H. destruct H as (A & B).
  rewrite (IH B). unfold upper, islower in *. rewrite A. reflexivity.
Qed.
Lemma upper_idem : forall c, upper (upper c) = upper c.
Proof. intro c. unfold upper. destruct ((97 <=? c) && (c <=? 122)) eqn:E; [|rewrite E; reflexivity].
  destruct ((97 <=? c - 32) && (c - 32 <=? 122)) eqn:F; lia.
Qed.
Lemma hash_upper : forall s, hashString (map upper s) = hashString s.
Proof.
  intro s. unfold hashString. generalize 0. induction s as [|c s IH]; intro h; [reflexivity|].
  cbn [map fold_left]. rewrite IH. rewrite !toupper_upper, upper_idem. reflexivity.
Qed.

(** ** The table holds the dictionary *)
Definition ev (o : wop) : event := match o with WDefine n t => Add n t | WUndefine n t => Remove n t end.
Record holds (tb : table) (d : list (list Z * Z)) : Prop := {
  h_in : forall h w, In w (t_words tb h) <-> hashString (w_name w) = h /\ In (w_name w, w_token w) d;
  h_nodup : NoDup (map fst d);
  h_bucket : forall h, NoDup (map w_name (t_words tb h));
  h_low : forall n t, In (n, t) d -> existsb islower n = false;
  h_max : forall n t, In (n, t) d -> zlen n <= t_max tb }.

Lemma holds_init : holds lex_ConstantsInit [].
Proof. constructor; cbn; intros; try tauto; constructor. Qed.
Lemma in_fst : forall (d : list (list Z * Z)) n, In n (map fst d) <-> exists t, In (n, t) d.
Proof.
  intros d n. rewrite in_map_iff. split.
  - intros ((m, t) & E & H). cbn in E. subst m. eauto.
  - intros (t & H). exists (n, t). auto.
Qed.
Lemma holds_define : forall n t tb tb' d, holds tb d -> lex_ConstantsDefineWord n t tb = Ok tb' ->
  holds tb' ((n, t) :: d) /\ t_max tb' = Z.max (t_max tb) (zlen n).
Proof.
  intros n t tb tb' d H E. unfold lex_ConstantsDefineWord in E.
  destruct (existsb islower n) eqn:EL; [discriminate E|].
  destruct (existsb (fun w => beq n (w_name w)) (t_words tb (hashString n))) eqn:EX; [discriminate E|].
  injection E as <-. split; [|reflexivity]. destruct H as [Hin Hnd Hb Hl Hm].
  assert (FR : forall w, In w (t_words tb (hashString n)) -> w_name w <> n).
  { intros w W EQ. assert (C : existsb (fun w => beq n (w_name w)) (t_words tb (hashString n)) = true).
    { apply existsb_exists. exists w. split; [exact W|apply beq_true; auto]. }
    congruence. }
  constructor; cbn [t_words t_max].
  - intros h w. unfold setBucket. destruct (Z.eqb_spec h (hashString n)) as [->|NE]; cbn [In].
    + rewrite Hin. split.
      * intros [<-|(A & B)]; cbn; auto.
      * intros (A & [B|B]); [|auto]. left. destruct w as [wn wt]; cbn in *. congruence.
    + rewrite Hin. split; [tauto|]. intros (A & [B|B]); [|auto]. congruence.
  - cbn [map fst]. constructor; [|exact Hnd]. rewrite in_fst. intros (t' & I).
    apply (FR (Word n t')); [|reflexivity]. apply Hin. auto.
  - intro h. unfold setBucket. destruct (Z.eqb_spec h (hashString n)) as [->|NE]; [|apply Hb].
    cbn [map w_name]. constructor; [|apply Hb]. rewrite in_map_iff. intros (w & EW & W). exact (FR w W EW).
  - intros m t' [I|I]; [congruence|eauto].
  - intros m t' [I|I]; [injection I as -> ->; lia|]. specialize (Hm m t' I). lia.
Qed.
Lemma forget_in : forall n d m t, In (m, t) (forget n d) <-> In (m, t) d /\ m <> n.
Proof.
  intros n d m t. induction d as [|(a, b) d IH]; cbn [forget In]; [tauto|].
  destruct (beq a n) eqn:E.
  - apply beq_true in E. subst a. rewrite IH. split; [tauto|]. intros ([I|I] & N); [congruence|tauto].
  - assert (a <> n) by (intro; subst; rewrite (proj2 (beq_true n n) eq_refl) in E; discriminate).
    cbn [In]. rewrite IH. split; [|tauto]. intros [I|(I & N)]; [|tauto]. split; [tauto|congruence].
Qed.
Lemma forget_nodup : forall n d, NoDup (map fst d) -> NoDup (map fst (forget n d)).
Proof.
  intros n. induction d as [|(a, b) d IH]; intro H; cbn [forget map fst] in *; [constructor|].
  inversion H as [|? ? A B]; subst. destruct (beq a n); [auto|]. cbn [map fst]. constructor; [|auto].
  rewrite in_fst in *. intros (t & I). apply forget_in in I. apply A. destruct I. eauto.
Qed.
Lemma removeWord_spec : forall n t l l', removeWord n t l = Some l' ->
  exists a b, l = a ++ Word n t :: b /\ l' = a ++ b.
Proof.
  intros n t. induction l as [|w l IH]; intros l' H; cbn [removeWord] in H; [discriminate H|].
  destruct ((w_token w =? t) && beq (w_name w) n) eqn:E.
  - injection H as <-. apply andb_prop in E. destruct E as (A & B). apply Z.eqb_eq in A. apply beq_true in B.
    exists [], l. destruct w; cbn in *; subst; auto.
  - destruct (removeWord n t l) as [r|] eqn:ER; [|discriminate H]. injection H as <-.
    destruct (IH r eq_refl) as (a & b & -> & ->). exists (w :: a), b. auto.
Qed.
Lemma holds_undefine : forall n t tb tb' d, holds tb d -> lex_ConstantsUndefineWord n t tb = Ok tb' ->
  holds tb' (forget n d) /\ t_max tb' = t_max tb.
Proof.
  intros n t tb tb' d H E. unfold lex_ConstantsUndefineWord in E.
  destruct (removeWord n t (t_words tb (hashString n))) as [l|] eqn:ER; [|discriminate E].
  injection E as <-. split; [|reflexivity]. destruct H as [Hin Hnd Hb Hl Hm].
  destruct (removeWord_spec _ _ _ _ ER) as (a & b & EB & ->).
  pose proof (Hb (hashString n)) as NB. rewrite EB, map_app in NB. cbn [map w_name] in NB.
  apply NoDup_remove in NB. destruct NB as (NB & NI). rewrite <- map_app in NB, NI.
  constructor; cbn [t_words t_max].
  - intros h w. unfold setBucket. rewrite forget_in.
    destruct (Z.eqb_spec h (hashString n)) as [->|NE].
    + pose proof (Hin (hashString n) w) as W. rewrite EB in W. rewrite in_app_iff in *. cbn [In] in W.
      assert (NN : In w a \/ In w b -> w_name w <> n).
      { intros I C. apply NI. rewrite <- C. apply in_map. apply in_app_iff. exact I. }
      split; [intro I; specialize (NN I); tauto|]. intros (A & B & C).
      destruct (proj2 W (conj A B)) as [I|[I|I]]; auto. subst w. cbn in C. congruence.
    + rewrite Hin. split; [|tauto]. intros (A & B). repeat split; auto. congruence.
  - apply forget_nodup. exact Hnd.
  - intro h. unfold setBucket. destruct (Z.eqb_spec h (hashString n)); [exact NB|apply Hb].
  - intros m t' I. apply forget_in in I. destruct I. eauto.
  - intros m t' I. apply forget_in in I. destruct I. eauto.
Qed.
Lemma holds_run : forall ops tb tb' d, holds tb d -> wrun ops tb = Ok tb' -> holds tb' (dictionary (map ev ops) d).
Proof.
  induction ops as [|o ops IH]; intros tb tb' d H E; cbn [wrun map dictionary] in *; [congruence|].
  destruct (wstep o tb) as [tb1| |] eqn:E1; cbn [bind] in E; try discriminate E.
  destruct o as [n t|n t]; cbn [wstep ev] in *.
  - apply (IH tb1); [|exact E]. apply (holds_define n t tb tb1 d H E1).
  - apply (IH tb1); [|exact E]. apply (holds_undefine n t tb tb1 d H E1).
Qed.
Lemma max_run : forall ops tb tb' k, t_max tb <= k -> wrun ops tb = Ok tb' ->
  (forall n t, In (WDefine n t) ops -> zlen n <= k) -> t_max tb' <= k.
Proof.
  induction ops as [|o ops IH]; intros tb tb' k H E L; cbn [wrun] in *; [injection E as <-; exact H|].
  destruct (wstep o tb) as [tb1| |] eqn:E1; cbn [bind] in E; try discriminate E.
  apply (IH tb1 tb' k); [|exact E|intros; apply (L n t); right; assumption].
  destruct o as [n t|n t]; cbn [wstep] in E1.
  - unfold lex_ConstantsDefineWord in E1. destruct (existsb islower n); [discriminate E1|].
    destruct (existsb _ _); [discriminate E1|]. injection E1 as <-. cbn [t_max].
    specialize (L n t (or_introl eq_refl)). lia.
  - unfold lex_ConstantsUndefineWord in E1. destruct (removeWord _ _ _); [|discriminate E1]. injection E1 as <-. exact H.
Qed.
Lemma entry_in : forall d n t, NoDup (map fst d) -> (entry d n = Some t <-> In (n, t) d).
Proof.
  induction d as [|(m, x) d IH]; intros n t H; cbn [entry In]; [split; [discriminate|tauto]|].
  cbn [map fst] in H. inversion H as [|? ? A B]; subst.
  destruct (beq m n) eqn:E.
  - apply beq_true in E. subst m. split; [intro; left; congruence|]. intros [I|I]; [congruence|].
    exfalso. apply A. rewrite in_fst. eauto.
  - rewrite IH by exact B. split; [tauto|]. intros [I|I]; [|exact I]. injection I as -> ->.
    rewrite (proj2 (beq_true n n) eq_refl) in E. discriminate.
Qed.
Lemma lookup : forall tb d s, holds tb d ->
  match find (isCandidate s) (t_words tb (hashString s)) with
  | Some w => keyword d s = Some (w_token w) /\ length (w_name w) = length s
  | None => keyword d s = None
  end.
Proof.
  intros tb d s H. destruct H as [Hin Hnd Hb Hl Hm].
  destruct (find (isCandidate s) (t_words tb (hashString s))) as [w|] eqn:F.
  - apply find_some in F. destruct F as (I & C). apply Hin in I. destruct I as (_ & I).
    unfold isCandidate in C. apply andb_prop in C. destruct C as (A & B). apply beq_true in B.
    change toupper with upper in B. rewrite (upper_id (w_name w)) in B by eauto.
    split; [|unfold zlen in A; lia]. unfold keyword. rewrite B. apply entry_in; auto.
  - unfold keyword. destruct (entry d (map upper s)) as [t|] eqn:E; [|reflexivity].
    apply entry_in in E; [|exact Hnd].
    assert (I : In (Word (map upper s) t) (t_words tb (hashString s))).
    { apply Hin. cbn [w_name w_token]. split; [apply hash_upper|exact E]. }
    apply (find_none _ _ F) in I. unfold isCandidate in I. cbn [w_name] in I.
    change toupper with upper in I. rewrite (upper_id (map upper s)) in I by eauto.
    rewrite (proj2 (beq_true _ _) eq_refl) in I. unfold zlen in I. rewrite map_length in I. lia.
Qed.

(** ** Reading and putting back *)
Lemma get : forall b c l, delivers b (c :: l) -> c <> 0 -> c <> 92 ->
  exists b', getChar b = Ok (c, b') /\ delivers b' l /\ (length (b_stack b') <= pred (length (b_stack b)))%nat.
Proof.
  intros b c l D C0 C92. destruct (getChar_delivers b c l D C0 C92) as (b1 & G & D1 & L1 & L2).
  exists b1. split; [exact G|]. split; [exact D1|].
  destruct (b_stack b) as [|x s]; [exact L1|]. specialize (L2 ltac:(discriminate)). cbn [length pred] in *. lia.
Qed.
Lemma unputAll_ok : forall s b l, delivers b l -> (length s + length (b_stack b) <= 256)%nat ->
  exists b', unputAll s b = Ok b' /\ delivers b' (s ++ l) /\ (length (b_stack b') = length s + length (b_stack b))%nat.
Proof.
  induction s as [|c s IH]; intros b l D L; cbn [unputAll]; [exists b; auto|].
  cbn [length] in L. destruct (IH b l D ltac:(lia)) as (b1 & -> & D1 & L1). cbn [bind].
  destruct (unput_delivers b1 c (s ++ l) D1 ltac:(lia)) as (b2 & E & D2 & L2). exists b2.
  split; [exact E|]. split; [exact D2|]. cbn [length]. lia.
Qed.
Lemma app_split : forall (a b c d : list Z), a ++ b = c ++ d ->
  (exists q, a = c ++ q) \/ (exists x q, c = a ++ x :: q /\ b = (x :: q) ++ d).
Proof.
  induction a as [|y a IH]; intros b c d E.
  - destruct c as [|x c]; [left; exists []; reflexivity|]. right. exists x, c. auto.
  - destruct c as [|x c]; [left; exists (y :: a); reflexivity|].
    cbn [app] in E. injection E as -> E. destruct (IH b c d E) as [(q & ->)|(z & q & -> & ->)].
    + left. exists q. reflexivity.
    + right. exists z, q. auto.
Qed.
Lemma white_app : forall a b, existsb white (a ++ b) = existsb white a || existsb white b.
Proof. intros. apply existsb_app. Qed.
Lemma hash_snoc : forall s c, hashString (s ++ [c]) = HASH (hashString s) (toupper c).
Proof. intros. unfold hashString. rewrite fold_left_app. reflexivity. Qed.

Definition best (d : list (list Z * Z)) (line : list Z) (m : nat) (res : option word) : Prop :=
  match res with
  | Some w => exists p r, line = p ++ r /\ p <> [] /\ existsb white p = false /\ length (w_name w) = length p /\
      keyword d p = Some (w_token w) /\
      forall p' r', line = p' ++ r' -> existsb white p' = false -> p' <> [] -> (length p' <= m)%nat ->
        keyword d p' <> None -> (length p' <= length p)%nat
  | None => forall p r, line = p ++ r -> existsb white p = false -> p <> [] -> (length p <= m)%nat -> keyword d p = None
  end.

Lemma best_more : forall d line m m' res, best d line m res ->
  (forall p r, line = p ++ r -> existsb white p = false -> p <> [] -> (length p <= m')%nat -> keyword d p <> None -> (length p <= m)%nat) ->
  best d line m' res.
Proof.
  intros d line m m' [w|] B H; cbn [best] in *.
  - destruct B as (p & r & E & N & W & L & K & M). exists p, r. repeat split; auto.
    intros p' r' E' W' N' L' K'. apply (M p' r'); auto. eapply H; eauto.
  - intros p r E W N L. destruct (keyword d p) eqn:K; [|reflexivity]. exfalso.
    assert (L' : (length p <= m)%nat) by (eapply H; eauto; congruence). rewrite (B p r E W N L') in K. discriminate K.
Qed.
(** One character further. *)
Lemma best_step : forall tb d text c l res, holds tb d -> isspace c = false -> existsb white text = false ->
  best d (text ++ c :: l) (length text) res ->
  best d (text ++ c :: l) (length (text ++ [c]))
    (match find (isCandidate (text ++ [c])) (t_words tb (HASH (hashString text) (toupper c))) with Some w => Some w | None => res end).
Proof.
  intros tb d text c l res H HC HW B. rewrite <- hash_snoc. pose proof (lookup tb d (text ++ [c]) H) as LK.
  destruct (find (isCandidate (text ++ [c])) (t_words tb (hashString (text ++ [c])))) as [w|].
  - destruct LK as (K & L). exists (text ++ [c]), l. rewrite <- app_assoc. cbn [app]. repeat split; auto.
    + destruct text; discriminate.
    + rewrite white_app, HW. cbn [existsb]. unfold isspace in HC. unfold white. rewrite HC. reflexivity.
  - apply (best_more d _ (length text)); [exact B|].
    intros p r E W N L K. rewrite app_length in L. cbn [length] in L.
    destruct (Nat.le_gt_cases (length p) (length text)) as [|G]; [assumption|]. exfalso.
    assert (p = text ++ [c]).
    { destruct (app_split text (c :: l) p r E) as [(q & Q)|(x & q & Q & Q2)].
      - rewrite Q, app_length in G. lia.
      - subst p. rewrite app_length in L. cbn [length] in L. destruct q; [|cbn in L; lia].
        cbn [app] in Q2. injection Q2 as -> _. reflexivity. }
    subst p. congruence.
Qed.
Lemma best_white : forall d text c l m res, white c = true ->
  best d (text ++ c :: l) (length text) res -> best d (text ++ c :: l) m res.
Proof.
  intros d text c l m res HC B. apply (best_more d _ (length text)); [exact B|].
  intros p r E W N _ _. destruct (app_split text (c :: l) p r E) as [(q & Q)|(x & q & Q & Q2)].
  - rewrite Q, app_length. lia.
  - subst p. cbn [app] in Q2. injection Q2 as -> _. rewrite white_app in W. cbn [existsb] in W.
    rewrite HC in W. rewrite orb_true_r in W. discriminate W.
Qed.
Lemma best_end : forall d text m res, best d text (length text) res -> best d text m res.
Proof.
  intros d text m res B. apply (best_more d _ (length text)); [exact B|].
  intros p r E _ _ _ _. rewrite E, app_length. lia.
Qed.

Lemma matchLoop_ok : forall tb d rest, holds tb d -> forall n text l res b,
  delivers b (l ++ 10 :: rest) -> line_ok l -> existsb white text = false -> (length text + n <= 256)%nat ->
  best d (text ++ l) (length text) res ->
  exists res' more q b', matchLoop tb n (hashString text) text res b = Ok (res', text ++ more, b') /\
    l ++ 10 :: rest = more ++ q /\ delivers b' q /\
    (length (b_stack b') <= length (b_stack b) - length more)%nat /\ (length more <= n)%nat /\
    (forall w, res' = Some w -> (exists w0, res = Some w0 /\ w = w0) \/ (length (w_name w) <= length text + length more)%nat) /\
    best d (text ++ l) (length text + n) res'.
Proof.
  intros tb d rest H. induction n as [|n IH]; intros text l res b D LO W L B; cbn [matchLoop].
  - exists res, [], (l ++ 10 :: rest), b. rewrite app_nil_r. cbn [length]. repeat split; auto; try lia.
    + intros w ->. left. eauto.
    + rewrite Nat.add_0_r. exact B.
  - destruct l as [|c l].
    + cbn [app] in D. destruct (get b 10 rest D ltac:(lia) ltac:(lia)) as (b1 & -> & D1 & L1). cbn [bind].
      change (10 =? 0) with false. cbv iota. destruct (Nat.leb_spec 257 (length text)); [lia|].
      change (isspace 10) with true. cbv iota. exists res, [10], rest, b1. cbn [length app]. repeat split; auto; try lia.
      * intros w ->. left. eauto.
      * rewrite app_nil_r in *. apply best_end. exact B.
    + inversion LO as [|? ? (C10 & C0 & C92) LO']; subst. cbn [app] in D.
      destruct (get b c (l ++ 10 :: rest) D C0 C92) as (b1 & -> & D1 & L1). cbn [bind].
      destruct (Z.eqb_spec c 0) as [|_]; [contradiction|].
      destruct (Nat.leb_spec 257 (length text)); [lia|].
      destruct (isspace c) eqn:SP.
      * exists res, [c], (l ++ 10 :: rest), b1. cbn [length app]. repeat split; auto; try lia.
        -- intros w ->. left. eauto.
        -- apply best_white; [exact SP|exact B].
      * pose proof (best_step tb d text c l res H SP W B) as B1.
        set (r1 := match find _ _ with Some w => Some w | None => res end) in *.
        assert (W1 : existsb white (text ++ [c]) = false).
        { rewrite white_app, W. cbn [existsb]. unfold isspace in SP. unfold white. rewrite SP. reflexivity. }
        assert (LN : length (text ++ [c]) = S (length text)) by (rewrite app_length; cbn; lia).
        assert (EQ : (text ++ [c]) ++ l = text ++ c :: l) by (rewrite <- app_assoc; reflexivity).
        destruct (IH (text ++ [c]) l r1 b1 D1 LO' W1 ltac:(lia) ltac:(rewrite EQ; exact B1)) as (res' & more & q & b' & E & Q & D' & S' & M' & RW & B').
        rewrite hash_snoc in E. rewrite E.
        exists res', (c :: more), q, b'. rewrite <- app_assoc. cbn [app length]. repeat split; auto; try lia.
        -- rewrite Q. reflexivity.
        -- intros w Ew. destruct (RW w Ew) as [(w0 & E0 & ->)|R]; [|right; lia].
           unfold r1 in E0. rewrite <- hash_snoc in E0. pose proof (lookup tb d (text ++ [c]) H) as LK.
           destruct (find (isCandidate (text ++ [c])) (t_words tb (hashString (text ++ [c])))) as [w1|]; [|left; eauto].
           injection E0 as <-. right. lia.
        -- rewrite EQ in B'. rewrite LN in B'. replace (length text + S n)%nat with (S (length text) + n)%nat by lia. exact B'.
Qed.

Lemma firstn_prefix : forall (p a b c : list Z), p ++ a = b ++ c -> (length p <= length b)%nat ->
  firstn (length p) b = p /\ skipn (length p) b ++ c = a.
Proof.
  induction p as [|x p IH]; intros a b c E L; [cbn; auto|].
  destruct b as [|y b]; [cbn in L; lia|]. cbn [app length firstn skipn] in *. injection E as -> E.
  destruct (IH a b c E ltac:(lia)) as (A & B). rewrite A. auto.
Qed.

Lemma matchWord_ok : forall tb d line rest b, holds tb d -> t_max tb <= 255 -> 0 <= t_max tb ->
  delivers b (line ++ 10 :: rest) -> room b -> line_ok line ->
  exists r b', lex_ConstantsMatchWord tb b = Ok (r, b') /\ room b' /\
    match r with
    | Some (t, p) => longest_keyword d line p t /\ exists l, line = p ++ l /\ delivers b' (l ++ 10 :: rest)
    | None => no_keyword d line /\ delivers b' (line ++ 10 :: rest)
    end.
Proof.
  intros tb d line rest b H M M0 D R LO. unfold lex_ConstantsMatchWord.
  assert (B0 : best d ([] ++ line) (length (@nil Z)) None).
  { intros p r _ _ N L. destruct p; [congruence|cbn in L; lia]. }
  destruct (matchLoop_ok tb d rest H (Z.to_nat (t_max tb)) [] line None b D LO eq_refl ltac:(cbn; lia) B0)
    as (res & more & q & b1 & E & Q & D1 & S1 & M1 & RW & B).
  change (hashString []) with 0 in E. rewrite E. cbn [bind app].
  cbn [app length Nat.add] in B, RW. unfold room in *.
  assert (KM : forall p, keyword d p <> None -> (length p <= Z.to_nat (t_max tb))%nat).
  { intros p K. destruct (keyword d p) as [t|] eqn:EK; [|congruence]. unfold keyword in EK. apply entry_in in EK; [|apply H].
    apply (h_max tb d H) in EK. unfold zlen in EK. rewrite map_length in EK. lia. }
  destruct res as [w|].
  - cbn [best] in B. destruct B as (p & r & EL & N & W & LW & K & MX).
    assert (LM : (length p <= length more)%nat).
    { destruct (RW w eq_refl) as [(w0 & C & _)|L]; [discriminate C|lia]. }
    rewrite LW.
    assert (Q' : p ++ r ++ 10 :: rest = more ++ q) by (rewrite app_assoc, <- EL; exact Q).
    destruct (firstn_prefix p (r ++ 10 :: rest) more q Q' LM) as (F & S2).
    pose proof (skipn_length (length p) more) as SL.
    destruct (unputAll_ok (skipn (length p) more) b1 q D1 ltac:(lia)) as (b2 & -> & D2 & L2). cbn [bind].
    rewrite F. exists (Some (w_token w, p)), b2. split; [reflexivity|]. split; [lia|]. split.
    + split; [exists r; exact EL|]. repeat split; auto. intros p' r' E' W' N' K'. apply (MX p' r'); auto.
    + exists r. split; [exact EL|]. rewrite S2 in D2. exact D2.
  - cbn [skipn]. destruct (unputAll_ok more b1 q D1 ltac:(lia)) as (b2 & -> & D2 & L2). cbn [bind].
    exists None, b2. split; [reflexivity|]. split; [lia|]. rewrite <- Q in D2. split; [|exact D2].
    intros p r E' W N. destruct (keyword d p) eqn:K; [|reflexivity].
    cbn [best] in B. rewrite <- K. apply (B p r); auto. apply KM. congruence.
Qed.

(** ** Names *)
Lemma next_ok : forall l rest, line_ok l -> exists q, l ++ 10 :: rest = next l :: q /\ next l <> 0 /\ next l <> 92.
Proof.
  intros [|c l] rest H; cbn; [eexists; repeat split; lia|]. inversion H as [|? ? (A & B & C) _]; subst. eexists. auto.
Qed.
Lemma of_name_def : forall c, isSymbolCharacter c = of_name c. Proof. reflexivity. Qed.
Lemma first_def : forall c, isStartSymbolCharacter c = first_of_name c. Proof. reflexivity. Qed.
Lemma line_ok_app : forall a b, line_ok (a ++ b) -> line_ok a /\ line_ok b.
Proof. intros a b H. apply Forall_app in H. exact H. Qed.

Lemma symbolTail_ok : forall l n text b rest, delivers b (l ++ 10 :: rest) -> line_ok l ->
  (length text + length (while of_name l) <= 257)%nat -> (length l < n)%nat ->
  exists l' b', l = while of_name l ++ l' /\ of_name (next l') = false /\
    symbolTail n text b = Ok (text ++ while of_name l, next l', b') /\
    (forall q, l' ++ 10 :: rest = next l' :: q -> delivers b' q) /\ (length (b_stack b') <= pred (length (b_stack b)))%nat.
Proof.
  induction l as [|c l IH]; intros n text b rest D LO L N; (destruct n as [|n]; [lia|]); cbn [symbolTail while].
  - cbn [app] in D. destruct (get b 10 rest D ltac:(lia) ltac:(lia)) as (b1 & -> & D1 & L1). cbn [bind].
    change (isSymbolCharacter 10) with false. cbv iota. exists [], b1. cbn [next hd app]. rewrite ?app_nil_r.
    split; [reflexivity|]. split; [reflexivity|]. split; [reflexivity|].
    split; [intros q Q; injection Q as <-; exact D1|exact L1].
  - inversion LO as [|? ? (C10 & C0 & C92) LO']; subst. cbn [app] in D.
    destruct (get b c (l ++ 10 :: rest) D C0 C92) as (b1 & -> & D1 & L1). cbn [bind]. change isSymbolCharacter with of_name.
    cbn [while] in L. destruct (of_name c) eqn:F.
    + cbn [length] in L, N. unfold store. destruct (Nat.leb_spec 257 (length text)); [lia|]. cbn [bind].
      destruct (IH n (text ++ [c]) b1 rest D1 LO' ltac:(rewrite app_length; cbn; lia) ltac:(lia)) as (l' & b' & E & F' & G & D' & L').
      exists l', b'. rewrite G, <- app_assoc. cbn [app]. split; [congruence|]. split; [exact F'|]. split; [reflexivity|].
      split; [exact D'|lia].
    + exists (c :: l), b1. cbn [next hd app]. rewrite ?app_nil_r.
      split; [reflexivity|]. split; [exact F|]. split; [reflexivity|].
      split; [intros q Q; injection Q as <-; exact D1|exact L1].
Qed.

Lemma name_digits : forall c r, first_of_name c = true -> forallb isdigit (c :: r) = false.
Proof.
  intros c r F. cbn [forallb]. unfold first_of_name, letter, isdigit in *.
  destruct ((48 <=? c) && (c <=? 57)) eqn:E; [|reflexivity]. exfalso. lia.
Qed.

Section Label.
Variable sym : list Z -> option (list Z).

(** The name is read, from its first letter on. *)
Lemma labelTail_ok : forall n pre c l b rest, (pre = [] \/ pre = [46]) -> first_of_name c = true ->
  delivers b (l ++ 10 :: rest) -> line_ok l -> room b -> (S (length pre) + length (while of_name l) <= 256)%nat -> (length l < n)%nat ->
  exists l', l = while of_name l ++ l' /\ of_name (next l') = false /\
  let name := pre ++ c :: while of_name l in
  let run := (let! (t, c1, b2) := symbolTail n (pre ++ [c]) b in
        let! (t1, b3) :=
          if c1 =? 36 then if forallb isdigit t then let! t1 := store t c1 in Ok (t1, b2) else Err
          else let! b3 := unput b2 c1 in Ok (t, b3) in
        if (257 <=? length t1)%nat then UB else
        let! (c2, b4) := getChar b3 in
        let plain := let! b5 := unput b4 c2 in Ok (Some t1, b5) in
        if c2 =? 35 then
          match sym t1 with
          | Some v => let! b5 := unputAll v b4 in acceptLabel sym n b5
          | None => plain
          end
        else plain) in
  (next l' = 36 -> run = Err) /\
  (next l' <> 36 -> (next l' = 35 -> sym name = None) ->
     exists b', run = Ok (Some name, b') /\ delivers b' (l' ++ 10 :: rest) /\ room b') /\
  (next l' = 35 -> forall v, sym name = Some v -> (length v <= 128)%nat -> (length (b_stack b) <= 128)%nat ->
     exists b', run = acceptLabel sym n b' /\ delivers b' (v ++ tl l' ++ 10 :: rest) /\ (length (b_stack b') <= length (b_stack b) + length v)%nat).
Proof.
  intros n pre c l b rest HP F D LO R L N.
  destruct (symbolTail_ok l n (pre ++ [c]) b rest D LO ltac:(rewrite app_length; cbn; lia) N) as (l' & b2 & E & NF & ES & D2 & L2).
  exists l'. split; [exact E|]. split; [exact NF|]. cbv zeta. rewrite ES. cbn [bind].
  rewrite <- app_assoc. cbn [app].
  assert (LO' : line_ok l') by (rewrite E in LO; apply line_ok_app in LO; tauto).
  destruct (next_ok l' rest LO') as (q & EQ & N0 & N92). specialize (D2 q EQ). unfold room in *.
  assert (DG : forallb isdigit (pre ++ c :: while of_name l) = false).
  { destruct HP as [->| ->]; [apply name_digits; exact F|reflexivity]. }
  rewrite DG.
  assert (LN : (length (pre ++ c :: while of_name l) <= 256)%nat) by (rewrite app_length; cbn [length]; lia).
  split; [intros ->; reflexivity|].
  assert (ST : next l' <> 36 -> exists b3 b4, unput b2 (next l') = Ok b3 /\ getChar b3 = Ok (next l', b4) /\ delivers b4 q /\ (length (b_stack b4) <= length (b_stack b2))%nat).
  { intros _. destruct (unput_delivers b2 (next l') q D2 ltac:(lia)) as (b3 & U & D3 & L3).
    destruct (get b3 (next l') q D3 N0 N92) as (b4 & G & D4 & L4). exists b3, b4. repeat split; auto. lia. }
  split.
  - intros N36 N35. destruct (ST N36) as (b3 & b4 & U & G & D4 & L4).
    destruct (Z.eqb_spec (next l') 36); [contradiction|]. rewrite U. cbn [bind].
    destruct (Nat.leb_spec 257 (length (pre ++ c :: while of_name l))); [lia|]. rewrite G. cbn [bind].
    destruct (unput_delivers b4 (next l') q D4 ltac:(lia)) as (b5 & U5 & D5 & L5). rewrite U5. cbn [bind].
    exists b5. rewrite EQ. split; [|split; [exact D5|rewrite L5; destruct (b_stack b) eqn:EB; cbn [length pred] in *; lia]].
    destruct (Z.eqb_spec (next l') 35) as [E35|]; [|reflexivity]. rewrite (N35 E35). reflexivity.
  - intros E35 v EV LV LB. destruct (ST ltac:(lia)) as (b3 & b4 & U & G & D4 & L4).
    rewrite E35 in *. change (35 =? 36) with false. cbv iota. rewrite U. cbn [bind].
    destruct (Nat.leb_spec 257 (length (pre ++ c :: while of_name l))); [lia|]. rewrite G. cbn [bind].
    change (35 =? 35) with true. cbv iota. rewrite EV.
    destruct (unputAll_ok v b4 q D4 ltac:(lia)) as (b5 & U5 & D5 & L5). rewrite U5. cbn [bind].
    exists b5. split; [reflexivity|]. split; [|lia].
    destruct l' as [|x l']; cbn [next hd] in E35; [discriminate E35|]. cbn [app] in EQ. injection EQ as _ <-. exact D5.
Qed.

Lemma acceptLabel_none : forall n b line rest, delivers b (line ++ 10 :: rest) -> room b -> line_ok line ->
  name_at line = [] -> exists b', acceptLabel sym (S n) b = Ok (None, b') /\ delivers b' (line ++ 10 :: rest) /\ room b'.
Proof.
  intros n b line rest D R LO E. cbn [acceptLabel]. unfold room in *.
  destruct (next_ok line rest LO) as (q & EQ & N0 & N92). rewrite EQ in D.
  destruct (get b (next line) q D N0 N92) as (b1 & -> & D1 & L1). cbn [bind].
  destruct (Z.eqb_spec (next line) 46) as [E46|NE46].
  - destruct line as [|c l]; [discriminate E46|]. cbn [next hd] in *. subst c. cbn [app] in EQ. injection EQ as <-.
    inversion LO as [|? ? _ LO']; subst. destruct (next_ok l rest LO') as (q & EQ & N0' & N92'). rewrite EQ in D1.
    destruct (get b1 (next l) q D1 N0' N92') as (b2 & -> & D2 & L2). cbn [bind].
    assert (F : first_of_name (next l) = false).
    { cbn [name_at] in E. change (first_of_name 46) with false in E. cbv iota in E. change (46 =? 46) with true in E. cbv iota in E.
      destruct l as [|c2 l2]; [reflexivity|]. cbn [next hd]. destruct (first_of_name c2); [discriminate E|reflexivity]. }
    change isStartSymbolCharacter with first_of_name; rewrite F.
    destruct (unputAll_ok [46; next l] b2 q D2 ltac:(cbn [length]; destruct (b_stack b) ; cbn [length pred] in *; lia)) as (b3 & U & D3 & L3).
    rewrite U. cbn [bind]. exists b3. split; [reflexivity|]. cbn [app]. rewrite EQ. split; [exact D3|].
    rewrite L3. cbn [length]. destruct (b_stack b) as [|? ?]; cbn [length pred] in *; [lia|].
    destruct (b_stack b1) ; cbn [length pred] in *; lia.
  - cbn [bind]. assert (F : first_of_name (next line) = false).
    { destruct line as [|c l]; [reflexivity|]. cbn [next hd name_at] in *. destruct (first_of_name c); [discriminate E|reflexivity]. }
    change isStartSymbolCharacter with first_of_name; rewrite F.
    destruct (unputAll_ok [next line] b1 q D1 ltac:(cbn [length]; destruct (b_stack b) ; cbn [length pred] in *; lia)) as (b3 & U & D3 & L3).
    rewrite U. cbn [bind]. exists b3. split; [reflexivity|]. rewrite EQ. split; [exact D3|].
    rewrite L3. cbn [length]. destruct (b_stack b) as [|? ?]; cbn [length pred] in *; lia.
Qed.

Lemma acceptLabel_cases : forall n b line rest, delivers b (line ++ 10 :: rest) -> room b -> line_ok line ->
  name_at line <> [] -> (length (name_at line) <= 256)%nat -> (length line < n)%nat ->
  exists l', line = name_at line ++ l' /\ of_name (next l') = false /\
  (next l' = 36 -> acceptLabel sym (S n) b = Err) /\
  (next l' <> 36 -> (next l' = 35 -> sym (name_at line) = None) ->
     exists b', acceptLabel sym (S n) b = Ok (Some (name_at line), b') /\ delivers b' (l' ++ 10 :: rest) /\ room b') /\
  (next l' = 35 -> forall v, sym (name_at line) = Some v -> (length v <= 128)%nat -> (length (b_stack b) <= 128)%nat ->
     exists b', acceptLabel sym (S n) b = acceptLabel sym n b' /\ delivers b' (v ++ tl l' ++ 10 :: rest) /\
       (length (b_stack b') <= length (b_stack b) + length v)%nat).
Proof.
  intros n b line rest D R LO NE L N. destruct line as [|c l]; [cbn in NE; congruence|].
  inversion LO as [|? ? (C10 & C0 & C92) LO']; subst. cbn [app] in D. cbn [acceptLabel]. unfold room in *.
  destruct (get b c (l ++ 10 :: rest) D C0 C92) as (b1 & -> & D1 & L1). cbn [bind].
  cbn [name_at] in *. destruct (first_of_name c) eqn:F.
  - assert (N46 : (c =? 46) = false).
    { destruct (Z.eqb_spec c 46) as [->|]; [discriminate F|reflexivity]. }
    rewrite N46. cbn [bind]. change isStartSymbolCharacter with first_of_name; rewrite F.
    cbn [length] in L, N. destruct (labelTail_ok n [] c l b1 rest (or_introl eq_refl) F D1 LO' ltac:(unfold room; lia) ltac:(cbn; lia) ltac:(lia))
      as (l' & E & NF & A & B & C). exists l'. cbn [app] in *. split; [rewrite E at 1; reflexivity|]. split; [exact NF|].
    split; [exact A|]. split; [exact B|]. intros E35 v EV LV LB. destruct (C E35 v EV LV ltac:(lia)) as (b' & C1 & C2 & C3).
    exists b'. split; [exact C1|]. split; [exact C2|lia].
  - destruct (Z.eqb_spec c 46) as [->|]; [|congruence]. destruct l as [|c2 l2]; [congruence|].
    destruct (first_of_name c2) eqn:F2; [|congruence].
    inversion LO' as [|? ? (C10' & C0' & C92') LO'']; subst. cbn [app] in D1.
    destruct (get b1 c2 (l2 ++ 10 :: rest) D1 C0' C92') as (b2 & -> & D2 & L2). cbn [bind]. change isStartSymbolCharacter with first_of_name; rewrite F2.
    cbn [length] in L, N. destruct (labelTail_ok n [46] c2 l2 b2 rest (or_intror eq_refl) F2 D2 LO'' ltac:(unfold room; lia) ltac:(cbn; lia) ltac:(lia))
      as (l' & E & NF & A & B & C). exists l'. cbn [app] in *. split; [rewrite E at 1; reflexivity|]. split; [exact NF|].
    split; [exact A|]. split; [exact B|]. intros E35 v EV LV LB. destruct (C E35 v EV LV ltac:(lia)) as (b' & C1 & C2 & C3).
    exists b'. split; [exact C1|]. split; [exact C2|lia].
Qed.
End Label.

(** ** Whole tokens *)
Lemma get_unput : forall b line rest, delivers b (line ++ 10 :: rest) -> room b -> line_ok line ->
  exists b1 b2 q, line ++ 10 :: rest = next line :: q /\ getChar b = Ok (next line, b1) /\ delivers b1 q /\ room b1 /\
    unput b1 (next line) = Ok b2 /\ delivers b2 (line ++ 10 :: rest) /\ room b2 /\ next line <> 0.
Proof.
  intros b line rest D R LO. destruct (next_ok line rest LO) as (q & EQ & N0 & N92). rewrite EQ in *.
  destruct (get1 b (next line) q D N0 N92 R) as (b1 & b2 & G & D1 & R1 & U & D2 & R2).
  exists b1, b2, q. repeat split; auto.
Qed.
Lemma skip_ok : forall ws n sk b body rest, delivers b (ws ++ body ++ 10 :: rest) -> room b -> line_ok ws -> line_ok body ->
  blanks ws -> (next body = 10 \/ white (next body) = false) -> (length ws < n)%nat ->
  exists b', skipWhitespace n sk b = Ok (sk || negb (match ws with [] => true | _ => false end), b') /\
    delivers b' (body ++ 10 :: rest) /\ room b'.
Proof.
  induction ws as [|w ws IH]; intros n sk b body rest D R LW LB BW HN N; (destruct n as [|n]; [lia|]); cbn [skipWhitespace].
  - cbn [app] in D. destruct (get_unput b body rest D R LB) as (b1 & b2 & q & EQ & G & D1 & R1 & U & D2 & R2 & N0).
    rewrite G. cbn [bind]. change isspace with white.
    replace (negb (next body =? 10) && negb (next body =? 0) && white (next body)) with false.
    + destruct (Z.eqb_spec (next body) 0); [contradiction|]. rewrite U. cbn [bind negb]. rewrite orb_false_r. eauto.
    + destruct HN as [->| ->]; [reflexivity|rewrite andb_false_r; reflexivity].
  - inversion LW as [|? ? (W10 & W0 & W92) LW']; subst. cbn [app] in D.
    destruct (get1 b w (ws ++ body ++ 10 :: rest) D W0 W92 R) as (b1 & _ & -> & D1 & R1 & _). cbn [bind].
    unfold blanks in BW. cbn [forallb] in BW. apply andb_prop in BW. destruct BW as (BW1 & BW2). change isspace with white. rewrite BW1.
    destruct (Z.eqb_spec w 10); [contradiction|]. destruct (Z.eqb_spec w 0); [contradiction|]. cbn [negb andb].
    cbn [length] in N. destruct (IH n true b1 body rest D1 R1 LW' LB BW2 HN ltac:(lia)) as (b' & -> & D' & R').
    exists b'. cbn [orb negb]. rewrite orb_true_r. auto.
Qed.
Lemma lineEnd_ok : forall t n b rest, delivers b (t ++ 10 :: rest) -> room b -> line_ok t -> (length t < n)%nat ->
  exists b1 b2, toLineEnd1 n b = Ok (10, b1) /\ unput b1 10 = Ok b2 /\ delivers b2 (10 :: rest) /\ room b2.
Proof.
  induction t as [|c t IH]; intros n b rest D R LO N; (destruct n as [|n]; [lia|]); cbn [toLineEnd1].
  - cbn [app] in D. destruct (get1 b 10 rest D ltac:(lia) ltac:(lia) R) as (b1 & b2 & -> & D1 & R1 & U & D2 & R2). cbn [bind].
    exists b1, b2. auto.
  - inversion LO as [|? ? (C10 & C0 & C92) LO']; subst. cbn [app] in D.
    destruct (get1 b c (t ++ 10 :: rest) D C0 C92 R) as (b1 & _ & -> & D1 & R1 & _). cbn [bind].
    destruct (Z.eqb_spec c 10); [contradiction|]. destruct (Z.eqb_spec c 0); [contradiction|]. cbn [orb].
    cbn [length] in N. apply (IH n b1 rest D1 R1 LO'). lia.
Qed.
Lemma comment_none : forall n ws ls b line rest, delivers b (line ++ 10 :: rest) -> room b -> line_ok line ->
  next line <> 59 -> (next line = 42 -> ws = false /\ ls = false) ->
  exists b', consumeComment n ws ls b = Ok (ws, b') /\ delivers b' (line ++ 10 :: rest) /\ room b'.
Proof.
  intros n ws ls b line rest D R LO N59 N42.
  destruct (get_unput b line rest D R LO) as (b1 & b2 & q & EQ & G & D1 & R1 & U & D2 & R2 & N0).
  unfold consumeComment. rewrite G. cbn [bind].
  destruct (Z.eqb_spec (next line) 59); [contradiction|]. cbn [orb].
  destruct (Z.eqb_spec (next line) 42) as [E|]; cbn [andb]; [destruct (N42 E) as (-> & ->); cbn [orb]|]; rewrite U; cbn [bind]; eauto.
Qed.
Lemma comment_some : forall n ws ls b c t rest, delivers b (c :: t ++ 10 :: rest) -> room b -> line_ok t ->
  (c = 59 \/ c = 42 /\ (ws = true \/ ls = true)) -> (length t < n)%nat ->
  exists b', consumeComment n ws ls b = Ok (false, b') /\ delivers b' (10 :: rest) /\ room b'.
Proof.
  intros n ws ls b c t rest D R LO HC N. unfold consumeComment.
  destruct (get1 b c (t ++ 10 :: rest) D ltac:(lia) ltac:(lia) R) as (b1 & _ & -> & D1 & R1 & _). cbn [bind].
  assert (E : (c =? 59) || ((c =? 42) && (ws || ls)) = true).
  { destruct HC as [->|(-> & [->| ->])]; try reflexivity. cbn. apply orb_true_r. }
  rewrite E. destruct (lineEnd_ok t n b1 rest D1 R1 LO N) as (b2 & b3 & -> & U & D3 & R3). cbn [bind]. rewrite U. cbn [bind]. eauto.
Qed.
Lemma variadic_none : forall o f n b line rest, delivers b (line ++ 10 :: rest) -> room b -> line_ok line ->
  literal_start (next line) = false ->
  exists b', acceptVariadic o f n b = Ok (None, b') /\ delivers b' (line ++ 10 :: rest) /\ room b'.
Proof.
  intros o f n b line rest D R LO HL.
  destruct (get_unput b line rest D R LO) as (b1 & b2 & q & EQ & G & D1 & R1 & U & D2 & R2 & N0).
  unfold acceptVariadic. rewrite G. cbn [bind]. unfold literal_start in HL.
  apply orb_false_iff in HL. destruct HL as (HL & HD). apply orb_false_iff in HL. destruct HL as (HL & H96).
  apply orb_false_iff in HL. destruct HL as (H36 & H37). rewrite H36, H37, H96, U. cbn [bind]. unfold isdigit. rewrite HD. eauto.
Qed.

Lemma longest_fun : forall d line p t p' t', longest_keyword d line p t -> longest_keyword d line p' t' -> length p = length p'.
Proof.
  intros d line p t p' t' (E & N & K & W & M) (E' & N' & K' & W' & M').
  destruct E as (r & E). destruct E' as (r' & E').
  assert ((length p <= length p')%nat) by (eapply M'; eauto; congruence).
  assert ((length p' <= length p)%nat) by (eapply M; eauto; congruence). lia.
Qed.
Lemma no_longest : forall d line p t, no_keyword d line -> longest_keyword d line p t -> False.
Proof. intros d line p t H ((r & E) & N & K & W & _). rewrite (H p r E W N) in K. discriminate K. Qed.

Lemma acceptRest_ok : forall sym tb d n b c l rest, let line := c :: l in holds tb d -> 0 <= t_max tb <= 255 ->
  delivers b (line ++ 10 :: rest) -> room b -> line_ok line -> (length (name_at line) <= 256)%nat -> (length line < n)%nat ->
  c <> 34 -> c <> 39 ->
  (forall l', line = name_at line ++ l' -> name_at line <> [] -> next l' <> 36 /\ (next l' = 35 -> sym (name_at line) = None)) ->
  exists tok b' taken left, acceptRest sym tb (S n) b = Ok (Some tok, b') /\ line = taken ++ left /\ reads d line taken tok /\
    delivers b' (left ++ 10 :: rest) /\ room b'.
Proof.
  intros sym tb d n b c l rest line H M D R LO L N Q1 Q2 HN. unfold acceptRest.
  destruct (matchWord_ok tb d line rest b H ltac:(lia) ltac:(lia) D R LO) as (r & b1 & -> & R1 & HR). cbn [bind].
  destruct (name_at line) as [|x nm] eqn:EN.
  - destruct (acceptLabel_none sym n b line rest D R LO EN) as (b2 & -> & D2 & R2). cbn [bind].
    destruct r as [(t, p)|].
    + destruct HR as (LK & l' & E & D1). exists (TWord t p), b1, p, l'. split; [reflexivity|]. split; [exact E|]. split; [|auto].
      apply R_keyword; [exact LK|rewrite EN; cbn; lia].
    + destruct HR as (NK & _). unfold acceptString. subst line. cbn [app] in D2.
      inversion LO as [|? ? (C10 & C0 & C92) LO']; subst.
      destruct (get1 b2 c (l ++ 10 :: rest) D2 C0 C92 R2) as (b3 & b4 & G & D3 & R3 & U & D4 & R4). rewrite G. cbn [bind].
      destruct (Z.eqb_spec c 34); [contradiction|]. destruct (Z.eqb_spec c 39); [contradiction|]. cbn [orb]. rewrite U. cbn [bind].
      destruct (get1 b4 c (l ++ 10 :: rest) D4 C0 C92 R4) as (b5 & _ & G5 & D5 & R5 & _). rewrite G5. cbn [bind].
      destruct (Z.eqb_spec c 0); [contradiction|]. exists (TChar c), b5, [c], l. split; [reflexivity|]. split; [reflexivity|].
      split; [|auto]. apply (R_char d (c :: l) c l); auto.
  - rewrite <- EN in *.
    destruct (acceptLabel_cases sym n b line rest D R LO ltac:(rewrite EN; discriminate) L N) as (l' & E & NF & _ & B & _).
    destruct (HN l' E ltac:(rewrite EN; discriminate)) as (H36 & H35).
    destruct (B H36 H35) as (b2 & -> & D2 & R2). cbn [bind].
    assert (ID : (forall p t, longest_keyword d line p t -> (length p < length (name_at line))%nat) ->
      reads d line (name_at line) (TId (name_at line))) by (intro; apply R_name; [rewrite EN; discriminate|assumption]).
    destruct r as [(t, p)|].
    + destruct HR as (LK & lk & EK & D1). destruct (Nat.ltb_spec (length p) (length (name_at line))) as [LT|GE].
      * exists (TId (name_at line)), b2, (name_at line), l'. split; [reflexivity|]. split; [exact E|]. split; [|auto].
        apply ID. intros p' t' LK'. rewrite (longest_fun d line p' t' p t LK' LK). exact LT.
      * exists (TWord t p), b1, p, lk. split; [reflexivity|]. split; [exact EK|]. split; [|auto]. apply R_keyword; auto.
    + destruct HR as (NK & _). replace ((0 <? length (name_at line))%nat) with true by (rewrite EN; reflexivity).
      exists (TId (name_at line)), b2, (name_at line), l'. split; [reflexivity|]. split; [exact E|]. split; [|auto].
      apply ID. intros p' t' LK'. exfalso. exact (no_longest _ _ _ _ NK LK').
Qed.

(** A newline is a token of its own. *)
Lemma newline_ok : forall sym tb d o f n ls b rest, holds tb d -> 0 <= t_max tb <= 255 -> delivers b (10 :: rest) -> room b ->
  exists b', acceptAfterLabel sym tb o f (S n) ls b = Ok (Some (TChar 10), b') /\ delivers b' rest /\ room b'.
Proof.
  intros sym tb d o f n ls b rest H M D R. unfold acceptAfterLabel.
  destruct (skip_ok [] (S n) false b [] rest D R ltac:(constructor) ltac:(constructor) eq_refl (or_introl eq_refl) ltac:(cbn; lia))
    as (b1 & -> & D1 & R1). cbn [bind orb negb].
  destruct (comment_none (S n) false (ls && true) b1 [] rest D1 R1 ltac:(constructor) ltac:(cbn; lia) ltac:(cbn; lia)) as (b2 & -> & D2 & R2). cbn [bind].
  destruct (variadic_none o f (S n) b2 [] rest D2 R2 ltac:(constructor) eq_refl) as (b3 & -> & D3 & R3). cbn [bind].
  unfold acceptRest.
  destruct (matchWord_ok tb d [] rest b3 H ltac:(lia) ltac:(lia) D3 R3 ltac:(constructor)) as (r & b4 & -> & R4 & HR). cbn [bind].
  destruct (acceptLabel_none sym n b3 [] rest D3 R3 ltac:(constructor) eq_refl) as (b5 & -> & D5 & R5). cbn [bind].
  assert (r = None) as ->.
  { destruct r as [(t, p)|]; [|reflexivity]. destruct HR as (((r & E) & N & _) & _). destruct p; [congruence|discriminate E]. }
  unfold acceptString. cbn [app] in D5.
  destruct (get1 b5 10 rest D5 ltac:(lia) ltac:(lia) R5) as (b6 & b7 & -> & D6 & R6 & U & D7 & R7). cbn [bind].
  change ((10 =? 34) || (10 =? 39)) with false. cbv iota. rewrite U. cbn [bind].
  destruct (get1 b7 10 rest D7 ltac:(lia) ltac:(lia) R7) as (b8 & _ & -> & D8 & R8 & _). cbn [bind]. exists b8. auto.
Qed.

(** ** Strings *)
Lemma getq : forall b c l, delivers b (c :: l) -> c <> 0 ->
  (c = 92 -> exists d r, l = d :: r /\ d <> 0 /\ is_ref d = false) ->
  exists b', getChar b = Ok (c, b') /\ delivers b' l /\ (length (b_stack b') <= pred (length (b_stack b)))%nat.
Proof.
  intros b c l D C0 H. destruct (Z.eq_dec c 92) as [->|N]; [|apply get; auto].
  destruct (H eq_refl) as (d & r & -> & D0 & RF). destruct b as [st tx ar un]. unfold delivers in D. cbn [b_stack b_text] in *.
  unfold is_ref in RF. apply orb_false_iff in RF. destruct RF as (RF1 & RF2).
  unfold getChar, nextChar, fromText, peekChar. cbn [b_stack b_text b_args b_unique].
  destruct st as [|x st].
  - cbn [app] in D. subst tx. change (92 =? 92) with true. cbv iota. cbn [b_stack b_text]. rewrite RF1, RF2.
    eexists. split; [reflexivity|]. split; [reflexivity|]. cbn. lia.
  - cbn [app] in D. injection D as -> D. change (92 =? 0) with false. change (92 =? 92) with true. cbv iota. cbn [b_stack b_text].
    destruct st as [|y st].
    + cbn [app] in D. subst tx. rewrite RF1, RF2. eexists. split; [reflexivity|]. split; [reflexivity|]. cbn. lia.
    + cbn [app] in D. injection D as -> D. destruct (Z.eqb_spec d 0); [contradiction|]. rewrite RF1, RF2.
      eexists. split; [reflexivity|]. split; [unfold delivers; cbn; congruence|]. cbn. lia.
Qed.

Scheme string_body_mut := Induction for string_body Sort Prop
  with string_code_mut := Induction for string_code Sort Prop.
Combined Scheme string_mutind from string_body_mut, string_code_mut.

Lemma body_nonzero : forall val,
  (forall q s v, string_body val q s v -> q <> 0 -> Forall (fun c => c <> 0) s) /\
  (forall l, string_code val l -> Forall (fun c => c <> 0) l).
Proof.
  intro val. apply (string_mutind val
    (fun q s v _ => q <> 0 -> Forall (fun c => c <> 0) s) (fun l _ => Forall (fun c => c <> 0) l)); intros.
  - constructor.
  - constructor; auto.
  - constructor; [lia|]. constructor; auto.
  - constructor; [lia|]. apply Forall_app. split; [auto|]. constructor; [lia|auto].
  - constructor.
  - constructor; auto.
  - constructor; [lia|]. apply Forall_app. split; [apply H; lia|]. constructor; [lia|auto].
Qed.


Lemma store_ok : forall t c, (length t < 257)%nat -> store t c = Ok (t ++ [c]).
Proof. intros t c L. unfold store. destruct (Nat.leb_spec 257 (length t)); [lia|reflexivity]. Qed.

Lemma quoted_end : forall n q text b rest, quote q -> delivers b (q :: rest) -> (length text < 257)%nat -> (0 < n)%nat ->
  exists b', acceptQuotedStringUntil n q text b = Ok (Some (text ++ [q]), b') /\ delivers b' rest /\
    (length (b_stack b') <= length (b_stack b))%nat.
Proof.
  intros n q text b rest Q D L N. destruct n as [|n]; [lia|]. cbn [acceptQuotedStringUntil].
  destruct (get b q rest D ltac:(unfold quote in Q; lia) ltac:(unfold quote in Q; lia)) as (b1 & -> & D1 & L1). cbn [bind].
  rewrite Z.eqb_refl. destruct (Z.eqb_spec q 0); [unfold quote in Q; lia|]. cbn [negb andb].
  rewrite store_ok by exact L. cbn [bind]. exists b1. split; [reflexivity|]. split; [exact D1|lia].
Qed.

(** Reading past a string's text, or past code. *)
Definition passes (q : Z) (s : list Z) : Prop :=
  forall n text b x rest, quote q -> x <> 0 -> is_ref x = false -> delivers b (s ++ x :: rest) ->
    (length text + length s <= 257)%nat -> (length s < n)%nat ->
    exists n' b', acceptQuotedStringUntil n q text b = acceptQuotedStringUntil n' q (text ++ s) b' /\
      delivers b' (x :: rest) /\ (n <= n' + length s)%nat /\ (length (b_stack b') <= length (b_stack b))%nat.
Definition passes_code (code : list Z) : Prop :=
  forall n text b rest, delivers b (code ++ 125 :: rest) ->
    (length text + length code < 257)%nat -> (length code < n)%nat ->
    exists b', acceptStringInterpolation n text b = Ok (Some (text ++ code ++ [125]), b') /\ delivers b' rest /\
      (length (b_stack b') <= length (b_stack b))%nat.

Lemma all_pass : forall val,
  (forall q s v, string_body val q s v -> passes q s) /\ (forall l, string_code val l -> passes_code l).
Proof.
  intro val. apply (string_mutind val (fun q s v _ => passes q s) (fun l _ => passes_code l)).
  - intros q n text b x rest Q X0 XR D L N. cbn [app length] in *. exists n, b. rewrite app_nil_r. split; [reflexivity|]. split; [exact D|]. lia.
  - intros q c s v Nq N92 N123 N10 N0 SB IH n text b x rest Q X0 XR D L N. cbn [app length] in *.
    destruct n as [|n]; [lia|]. cbn [acceptQuotedStringUntil].
    destruct (get b c (s ++ x :: rest) D N0 N92) as (b1 & -> & D1 & L1). cbn [bind].
    destruct (Z.eqb_spec c q); [contradiction|]. cbn [andb]. rewrite store_ok by lia. cbn [bind].
    destruct (Z.eqb_spec c 92); [contradiction|]. destruct (Z.eqb_spec c 123); [contradiction|]. destruct (Z.eqb_spec c 10); [contradiction|].
    destruct (IH n (text ++ [c]) b1 x rest Q X0 XR D1 ltac:(rewrite app_length; cbn; lia) ltac:(lia)) as (n' & b' & E & D' & N' & L').
    exists n', b'. rewrite E, <- app_assoc. cbn [app]. split; [reflexivity|]. split; [exact D'|]. lia.
  - intros q c s v N0 RF RS SB IH n text b x rest Q X0 XR D L N. cbn [app length] in *.
    destruct n as [|n]; [lia|]. cbn [acceptQuotedStringUntil].
    destruct (getq b 92 (c :: s ++ x :: rest) D ltac:(lia) ltac:(intros _; eauto)) as (b1 & -> & D1 & L1). cbn [bind].
    destruct (Z.eqb_spec 92 q); [unfold quote in Q; lia|]. cbn [andb]. rewrite store_ok by lia. cbn [bind].
    change (92 =? 92) with true. cbv iota.
    assert (H2 : c = 92 -> exists d r, s ++ x :: rest = d :: r /\ d <> 0 /\ is_ref d = false).
    { intros ->. pose proof (proj1 (body_nonzero val) q s v SB ltac:(unfold quote in Q; lia)) as NZ. destruct s as [|d s].
      - exists x, rest. auto.
      - exists d, (s ++ x :: rest). inversion NZ; subst. split; [reflexivity|]. split; [assumption|].
        cbn [app refers] in RS. exact RS. }
    destruct (getq b1 c (s ++ x :: rest) D1 N0 H2) as (b2 & -> & D2 & L2). cbn [bind].
    destruct (Z.eqb_spec c 0); [contradiction|]. rewrite store_ok by (rewrite app_length; cbn; lia). cbn [bind].
    destruct (IH n ((text ++ [92]) ++ [c]) b2 x rest Q X0 XR D2 ltac:(rewrite !app_length; cbn; lia) ltac:(lia)) as (n' & b' & E & D' & N' & L').
    exists n', b'. rewrite E, <- !app_assoc. cbn [app]. split; [reflexivity|]. split; [exact D'|]. lia.
  - intros q code s v SC IHc SB IH n text b x rest Q X0 XR D L N. cbn [app length] in *.
    rewrite app_length in L, N. cbn [length] in L, N.
    destruct n as [|n]; [lia|]. cbn [acceptQuotedStringUntil]. rewrite <- app_assoc in D. cbn [app] in D.
    destruct (get b 123 (code ++ 125 :: s ++ x :: rest) D ltac:(lia) ltac:(lia)) as (b1 & -> & D1 & L1). cbn [bind].
    destruct (Z.eqb_spec 123 q); [unfold quote in Q; lia|]. cbn [andb]. rewrite store_ok by lia. cbn [bind].
    change (123 =? 92) with false. change (123 =? 123) with true. cbv iota.
    destruct (IHc n (text ++ [123]) b1 (s ++ x :: rest) D1 ltac:(rewrite app_length; cbn; lia) ltac:(lia)) as (b2 & -> & D2 & L2). cbn [bind].
    destruct (IH n ((text ++ [123]) ++ code ++ [125]) b2 x rest Q X0 XR D2 ltac:(rewrite !app_length; cbn; lia) ltac:(lia)) as (n' & b' & E & D' & N' & L').
    exists n', b'. rewrite E, app_length, <- !app_assoc. cbn [app length]. rewrite <- ?app_assoc. cbn [app]. split; [reflexivity|]. split; [exact D'|]. lia.
  - intros n text b rest D L N. cbn [app length] in *. destruct n as [|n]; [lia|]. cbn [acceptStringInterpolation].
    destruct (get b 125 rest D ltac:(lia) ltac:(lia)) as (b1 & -> & D1 & L1). cbn [bind].
    change ((125 =? 125) && negb (125 =? 0)) with true. cbv iota. rewrite store_ok by lia. cbn [bind].
    exists b1. split; [reflexivity|]. split; [exact D1|lia].
  - intros c l N125 N34 N39 N92 N0 SC IH n text b rest D L N. cbn [app length] in *. destruct n as [|n]; [lia|]. cbn [acceptStringInterpolation].
    destruct (get b c (l ++ 125 :: rest) D N0 N92) as (b1 & -> & D1 & L1). cbn [bind].
    destruct (Z.eqb_spec c 125); [contradiction|]. cbn [andb]. rewrite store_ok by lia. cbn [bind].
    destruct (Z.eqb_spec c 39); [contradiction|]. destruct (Z.eqb_spec c 34); [contradiction|]. cbn [orb].
    destruct (IH n (text ++ [c]) b1 rest D1 ltac:(rewrite app_length; cbn; lia) ltac:(lia)) as (b' & E & D' & L').
    exists b'. rewrite E, <- app_assoc. cbn [app]. split; [reflexivity|]. split; [exact D'|lia].
  - intros q s v l Q SB IH SC IHc n text b rest D L N. cbn [app length] in *. rewrite app_length in L, N. cbn [length] in L, N.
    rewrite <- app_assoc in D. cbn [app] in D.
    destruct n as [|n]; [lia|]. cbn [acceptStringInterpolation].
    destruct (get b q (s ++ q :: l ++ 125 :: rest) D ltac:(lia) ltac:(lia)) as (b1 & -> & D1 & L1). cbn [bind].
    destruct (Z.eqb_spec q 125); [lia|]. cbn [andb]. rewrite store_ok by lia. cbn [bind].
    replace ((q =? 39) || (q =? 34)) with true by lia.
    destruct (IH n (text ++ [q]) b1 q (l ++ 125 :: rest) Q ltac:(lia) ltac:(destruct Q as [-> | ->]; reflexivity) D1 ltac:(rewrite app_length; cbn; lia) ltac:(lia))
      as (n' & b2 & E & D2 & N2 & L2). rewrite E.
    destruct (quoted_end n' q ((text ++ [q]) ++ s) b2 (l ++ 125 :: rest) Q D2 ltac:(rewrite !app_length; cbn; lia) ltac:(lia)) as (b3 & -> & D3 & L3). cbn [bind].
    destruct (IHc n (((text ++ [q]) ++ s) ++ [q]) b3 rest D3 ltac:(rewrite !app_length; cbn; lia) ltac:(lia)) as (b' & E' & D' & L').
    exists b'. rewrite E', <- !app_assoc. cbn [app]. rewrite <- ?app_assoc. cbn [app]. split; [reflexivity|]. split; [exact D'|lia].
Qed.

(** The ends that the parser finds, and the value. *)
Definition ends (q : Z) (s : list Z) : Prop :=
  quote q -> forall n r, (length s < n)%nat -> determineStringEnd n q (s ++ q :: r) = Ok (q :: r).
Definition ends_code (code : list Z) : Prop :=
  forall n r, (length code < n)%nat -> determineCodeEnd n (code ++ 125 :: r) = Ok (125 :: r).
Lemma string_end_step : forall n q c r, r <> [] -> c <> q -> c <> 92 -> c <> 123 ->
  determineStringEnd (S n) q (c :: r) = determineStringEnd n q r.
Proof.
  intros n q c r N Q A B. cbn [determineStringEnd]. destruct (Z.eqb_spec c q); [contradiction|].
  destruct r; [congruence|]. destruct (Z.eqb_spec c 92); [contradiction|]. destruct (Z.eqb_spec c 123); [contradiction|]. reflexivity.
Qed.
Lemma all_end : forall val,
  (forall q s v, string_body val q s v -> ends q s) /\ (forall l, string_code val l -> ends_code l).
Proof.
  intro val. apply (string_mutind val (fun q s v _ => ends q s) (fun l _ => ends_code l)).
  - intros q Q n r N. destruct n as [|n]; [lia|]. cbn [app determineStringEnd]. rewrite Z.eqb_refl. reflexivity.
  - intros q c s v Nq N92 N123 N10 N0 SB IH Q n r N. destruct n as [|n]; [lia|]. cbn [app length] in *.
    rewrite string_end_step; auto; [apply IH; auto; lia|]. destruct s; discriminate.
  - intros q c s v N0 RF RS SB IH Q n r N. destruct n as [|n]; [lia|]. cbn [app length determineStringEnd] in *.
    destruct (Z.eqb_spec 92 q); [unfold quote in Q; lia|]. change (92 =? 92) with true. cbv iota. apply IH; auto. lia.
  - intros q code s v SC IHc SB IH Q n r N. destruct n as [|n]; [lia|]. cbn [app length] in *. rewrite app_length in N. cbn [length] in N.
    rewrite <- app_assoc. cbn [app determineStringEnd].
    destruct (Z.eqb_spec 123 q); [unfold quote in Q; lia|]. change (123 =? 92) with false. change (123 =? 123) with true. cbv iota.
    destruct (code ++ 125 :: s ++ q :: r) as [|x y] eqn:E; [destruct code; discriminate E|]. rewrite <- E.
    rewrite (IHc n (s ++ q :: r)) by lia. cbn [bind]. apply IH; auto. lia.
  - intros n r N. destruct n as [|n]; [lia|]. reflexivity.
  - intros c l N125 N34 N39 N92 N0 SC IH n r N. destruct n as [|n]; [lia|]. cbn [app length determineCodeEnd] in *.
    destruct (Z.eqb_spec c 125); [contradiction|]. destruct (Z.eqb_spec c 39); [contradiction|]. destruct (Z.eqb_spec c 34); [contradiction|].
    cbn [orb]. apply IH. lia.
  - intros q s v l Q SB IH SC IHc n r N. destruct n as [|n]; [lia|]. cbn [app length determineCodeEnd] in *. rewrite app_length in N. cbn [length] in N.
    rewrite <- app_assoc. cbn [app]. destruct (Z.eqb_spec q 125); [lia|]. replace ((q =? 39) || (q =? 34)) with true by lia.
    rewrite (IH Q n (l ++ 125 :: r)) by lia. cbn [bind]. apply IHc. lia.
Qed.

Lemma value_ok : forall val emb q s v, (forall code, string_code val code -> emb (code ++ [125]) = Ok (val code)) ->
  string_body val q s v -> q <> 0 -> forall n, (length s < n)%nat -> interpolateString emb n s = Ok v.
Proof.
  intros val emb q s v HE SB Q. induction SB as [q|q c s v Nq N92 N123 N10 N0 SB IH|q c s v N0 RF RS SB IH|q code s v SC SB IH];
    intros n N; (destruct n as [|n]; [lia|]); cbn [interpolateString app length] in *.
  - reflexivity.
  - destruct (Z.eqb_spec c 92); [contradiction|]. destruct (Z.eqb_spec c 123); [contradiction|]. rewrite IH by (auto; lia). reflexivity.
  - change (92 =? 92) with true. cbv iota. rewrite IH by (auto; lia). reflexivity.
  - rewrite app_length in N. cbn [length] in N. change (123 =? 92) with false. change (123 =? 123) with true. cbv iota.
    rewrite (proj2 (all_end val) code SC n s) by lia. cbn [bind].
    assert (F : firstn (length (code ++ 125 :: s) - length s) (code ++ 125 :: s) = code ++ [125]).
    { replace (length (code ++ 125%Z :: s) - length s)%nat with (length (code ++ [125])) by (rewrite !app_length; cbn; lia).
      change (125 :: s) with ([125] ++ s). rewrite app_assoc. rewrite firstn_app, firstn_all, Nat.sub_diag. cbn. apply app_nil_r. }
    rewrite F, HE by exact SC. cbn [bind]. rewrite IH by (auto; lia). reflexivity.
Qed.
