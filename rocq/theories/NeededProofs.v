(** Proofs about missing symbols and about smart linking followed by resolution. *)
From Coq Require Import ZArith List Bool Lia ZifyBool ZifyNat.
From Verif Require Import Base BaseFacts AssignModel Arith LinkExprModel LinkModel LinkSpec ResolveProofs PatchProofs SmartProofs.
Import ListNotations.
Open Scope Z_scope.

(** An expression that evaluates to the end asked for all its symbols. *)
Lemma calc_mentions : forall F c bs id, mentions bs id -> forall st e, calc F c bs st = Ok (Some e) ->
  (exists v, c_symbol c id = Ok v) \/ (exists b, c_bank c id = Ok (Some b)).
Proof.
  intros F c bs id H. induction H as [b b0 b1 b2 b3 r Hb|b b0 b1 b2 b3 r id Hb HM IH|b r id N1 N2 N3 HM IH]; intros st e E.
  - cbn [calc] in E. destruct Hb as [-> | ->]; cbn [Z.eqb Pos.eqb] in E.
    + destruct (push_symbol c (word b0 b1 b2 b3) st) as [st'| |] eqn:P; try discriminate. unfold push_symbol in P.
      destruct (c_symbol c (word b0 b1 b2 b3)) as [v| |]; try discriminate. left. eauto.
    + destruct (c_bank c (word b0 b1 b2 b3)) as [[v|]| |]; try discriminate. right. eauto.
  - cbn [calc] in E. destruct Hb as [-> |[-> | ->]]; cbn [Z.eqb Pos.eqb] in E.
    + destruct (pushInt _ st) as [st'| |]; try discriminate. eapply IH; exact E.
    + destruct (push_symbol c (word b0 b1 b2 b3) st) as [st'| |]; try discriminate. eapply IH; exact E.
    + destruct (c_bank c (word b0 b1 b2 b3)) as [[v|]| |]; try discriminate. cbn [bind] in E.
      destruct (pushInt v st) as [st'| |]; try discriminate. eapply IH; exact E.
  - cbn [calc] in E. rewrite (proj2 (Z.eqb_neq b 30) N1), (proj2 (Z.eqb_neq b 31) N2), (proj2 (Z.eqb_neq b 33) N3) in E.
    destruct (step F c b st) as [st'| |]; try discriminate. eapply IH; exact E.
Qed.

(** A section that was patched: the evaluation of each of its patches did not fail. *)
Lemma patchAll_evals : forall ar osr eval qs data r, patchAll ar osr eval data qs = Ok r ->
  forall q, In q qs -> exists oe, eval q = Ok oe.
Proof.
  intros ar osr eval. induction qs as [|a qs IH]; intros data r H q Hq; [destruct Hq|]. cbn [patchAll] in H.
  destruct (onePatch ar osr eval data a) as [[d1 q1]| |] eqn:O; try discriminate. cbn [bind] in H.
  destruct (patchAll ar osr eval d1 qs) as [[d2 r2]| |] eqn:PA; try discriminate.
  destruct Hq as [<-|Hq]; [|eauto]. unfold onePatch in O. destruct (eval a) as [oe| |]; try discriminate. eauto.
Qed.
Lemma patchSections_at : forall F ar osr lv gp ai p ss i r k s, patchSections F ar osr lv gp ai p i ss = Ok r ->
  nth_error ss k = Some s ->
  exists s', nth_error r k = Some s' /\
    (if sc_used s then patchSection F ar osr lv gp ai p (i + k) s = Ok s' else s' = s).
Proof.
  intros F ar osr lv gp ai p. induction ss as [|a ss IH]; intros i r k s H N; [destruct k; discriminate|].
  cbn [patchSections] in H. destruct (if sc_used a then _ else _) as [a'| |] eqn:E in H; try discriminate. cbn [bind] in H.
  destruct (patchSections F ar osr lv gp ai p (S i) ss) as [r'| |] eqn:R; try discriminate. cbn [bind] in H. injection H as <-.
  destruct k as [|k].
  - cbn in N. injection N as ->. exists a'. split; [reflexivity|]. rewrite PeanoNat.Nat.add_0_r.
    destruct (sc_used s); [exact E|congruence].
  - cbn in N. destruct (IH _ _ _ _ R N) as (s' & N' & HS). exists s'. split; [exact N'|].
    replace (i + S k)%nat with (S i + k)%nat by lia. exact HS.
Qed.
Lemma patchSections_len : forall F ar osr lv gp ai p ss i r, patchSections F ar osr lv gp ai p i ss = Ok r -> length r = length ss.
Proof.
  intros F ar osr lv gp ai p. induction ss as [|a ss IH]; intros i r H; cbn [patchSections] in H; [injection H as <-; reflexivity|].
  destruct (if sc_used a then _ else _) as [a'| |] in H; try discriminate. cbn [bind] in H.
  destruct (patchSections F ar osr lv gp ai p (S i) ss) as [r'| |] eqn:R; try discriminate. cbn [bind] in H. injection H as <-.
  cbn. f_equal. eauto.
Qed.

(** After smart linking, what a section in use imports is defined. *)
Lemma marked_nth : forall p0 p k s, marked p0 p -> nth_error p k = Some s -> exists s0, nth_error p0 k = Some s0 /\ sameu s0 s.
Proof. intros p0 p k s H N. eapply Forall2_nth in N; [|exact H]. exact N. Qed.
Lemma first_in_split : forall A (P : A -> Prop) l k d, nth_error l k = Some d ->
  (forall k' d', (k' < k)%nat -> nth_error l k' = Some d' -> ~ P d') ->
  exists l1 l2, l = l1 ++ d :: l2 /\ length l1 = k /\ forall d', In d' l1 -> ~ P d'.
Proof.
  intros A P l k d N HF. destruct (nth_error_split l k N) as (l1 & l2 & -> & L). exists l1, l2. split; [reflexivity|]. split; [assumption|].
  intros d' Hd. destruct (In_nth_error l1 d' Hd) as [k' N']. apply (HF k').
  - rewrite <- L. apply nth_error_Some. congruence.
  - rewrite nth_error_app1; [assumption|]. apply nth_error_Some. congruence.
Qed.
Lemma import_defined : forall p0 p', fresh p0 -> marked p0 p' ->
  forall s y m d x k, named SYM_EXPORT (ls_name y) d x -> first_section (has_symbol SYM_EXPORT (ls_name y)) p0 m d ->
  home p0 m d x k -> is_used p' k -> ls_type y = SYM_IMPORT ->
  exists d', defines p' s y d' x /\ sameu d d'.
Proof.
  intros p0 p' Hf HM s y m d x k Hn (N & C & HF) HH HU T.
  destruct (Forall2_nth_l _ _ _ _ _ _ _ HM N) as (d' & N' & Hs). destruct (sameu_static _ _ Hs) as (ES & _ & _ & EQ & _).
  exists d'. split; [|assumption]. apply def_import; [assumption|].
  destruct (first_in_split _ (has_symbol SYM_EXPORT (ls_name y)) p' m d' N') as (p1 & p2 & E & _ & HP).
  { intros k' e' Hk Ne He. destruct (Forall2_nth _ _ _ _ _ _ _ HM Ne) as (e & Ne0 & Hse). apply (HF k' e Hk Ne0).
    destruct (sameu_static _ _ Hse) as (ESe & _). unfold has_symbol in *. rewrite ESe in He. exact He. }
  destruct Hn as (ys1 & ys2 & Ey & Tx & Nx & Hx). exists p1, p2, ys1, ys2. split; [assumption|].
  split; [rewrite ES; assumption|]. split.
  - inversion HH as [HG|k' t HG _]; subst.
    + left. destruct HU as (sk & Nk & Uk). congruence.
    + right. destruct Hs as [->| ->]; exact HG.
  - split; [auto|]. split; [exact Hx|]. intros e x' He _ Hx' Hf'. apply (HP e He). exists x'. tauto.
Qed.
