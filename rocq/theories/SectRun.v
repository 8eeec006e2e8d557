(** Proofs about runs of directives. *)
From Coq Require Import ZArith List Bool Lia Permutation.
From Verif Require Import Base BaseFacts Arith ExprModel ObjWriteModel OptModel SectModel SectSpec SectProofs SectTouch.
Import ListNotations.
Open Scope Z_scope.

Fixpoint last_options (o : options) (l : list directive) : options :=
  match l with [] => o | DOptions o1 :: r => last_options o1 r | _ :: r => last_options o r end.

Lemma same_identity_trans : forall a b c, same_identity a b -> same_identity b c -> same_identity a c.
Proof. unfold same_identity. intros a b c A B. destruct A as (?&?&?&?&?&?), B as (?&?&?&?&?&?). repeat split; congruence. Qed.
Lemma same_identity_refl : forall a, same_identity a a.
Proof. unfold same_identity. repeat split; reflexivity. Qed.
Lemma rest_same_trans : forall k a b c, rest_same k a b -> rest_same k b c -> rest_same k a c.
Proof.
  intros k a b c (A1&A2&A3&A4&A5) (B1&B2&B3&B4&B5). split; [|repeat split; congruence].
  intros j J. rewrite B1, A1 by exact J. reflexivity.
Qed.

Lemma run_app : forall a b st, run (a ++ b) st = let! st1 := run a st in run b st1.
Proof.
  induction a as [|d a IH]; intros b st; [reflexivity|]. cbn [app run].
  destruct (step d st); cbn [bind]; [apply IH|reflexivity|reflexivity].
Qed.

(** What a run of data directives establishes. *)
Definition ran (ds : list directive) (k : nat) (st st' : xstate) (m m' : msect) (bs : list Z) (ps : list apatch) : Prop :=
  run ds st = Ok st' /\ current_section st' k m' GText /\ section_fine GText m' /\
  m_data m' = m_data m ++ bs /\ Permutation (m_patches m') (m_patches m ++ ps) /\
  m_pc m' = u32 (m_pc m + zlen bs / x_wordSize st) /\ same_identity m m' /\ rest_same k st st' /\
  x_wordSize st' = x_wordSize st /\ x_groups st' = x_groups st /\ x_banks st' = x_banks st /\
  x_opts st' = last_options (x_opts st) ds /\ (x_wordSize st | m_used m') /\
  length (x_sections st') = length (x_sections st).

Lemma replace_length : forall A k (x : A) l, length (replace_nth k x l) = length l.
Proof. intros A k. induction k as [|k IH]; intros x [|a l]; cbn; auto. Qed.
Lemma grows_rest : forall k st st' bs ps, grows k st st' bs ps ->
  rest_same k st st' /\ length (x_sections st') = length (x_sections st).
Proof.
  intros k st st' bs ps G. split.
  - apply grows_fields in G. destruct G as (?&?&?&?&?&?&?&?&?). unfold rest_same. repeat split; assumption.
  - destruct G as (m & m' & _ & -> & _). cbn. apply replace_length.
Qed.

Lemma run_data : forall ds st k m limit,
  current_section st k m GText -> section_fine GText m ->
  x_wordSize st = 1 \/ x_wordSize st = 2 -> is_byte (o_fill (x_opts st)) -> (x_wordSize st | m_used m) ->
  Forall (data_ok (x_wordSize st) limit) ds ->
  m_used m + zlen (emitted_all (x_opts st) (m_used m) ds) <= limit -> limit <= max_size ->
  exists st' m', ran ds k st st' m m' (emitted_all (x_opts st) (m_used m) ds) (patches_all (x_opts st) (m_used m) ds).
Proof.
  induction ds as [|d ds IH]; intros st k m limit C F W B V O L M.
  - exists st, m. unfold ran. cbn [run emitted_all patches_all last_options]. rewrite !app_nil_r.
    cbn [zlen length Z.of_nat]. rewrite Zdiv_0_l, Z.add_0_r.
    destruct F as (F1 & F2 & F3 & F4). split; [reflexivity|]. split; [exact C|].
    split; [split; [exact F1|]; split; [exact F2|]; split; [exact F3|exact F4]|].
    split; [reflexivity|]. split; [reflexivity|]. split; [symmetry; apply u32_id, F1|].
    split; [apply same_identity_refl|]. split; [unfold rest_same; repeat split|]. repeat split; assumption.
  - inversion O as [|? ? O1 O2]; subst.
    destruct (match d with DOptions _ => true | DPosition _ _ => true | _ => false end) eqn:K.
    + destruct d; try discriminate.
      * cbn [emitted_all patches_all] in *.
        destruct (IH (with_options o st) k m limit) as (st' & m' & R); try assumption.
        exists st', m'. unfold ran in *. cbn [run step bind last_options]. exact R.
      * cbn [emitted_all patches_all emitted new_patches app zlen length Z.of_nat] in *. rewrite Z.add_0_r in *.
        destruct (IH (with_position file line st) k m limit) as (st' & m' & R); try assumption.
        exists st', m'. unfold ran in *. cbn [run step bind last_options]. exact R.
    + assert (E : emitted_all (x_opts st) (m_used m) (d :: ds) =
        emitted (x_opts st) (m_used m) d ++ emitted_all (x_opts st) (m_used m + zlen (emitted (x_opts st) (m_used m) d)) ds)
        by (destruct d; try discriminate; reflexivity).
      assert (P : patches_all (x_opts st) (m_used m) (d :: ds) =
        new_patches (x_opts st) (m_used m) d ++ patches_all (x_opts st) (m_used m + zlen (emitted (x_opts st) (m_used m) d)) ds)
        by (destruct d; try discriminate; reflexivity).
      assert (LO : last_options (x_opts st) (d :: ds) = last_options (x_opts st) ds)
        by (destruct d; try discriminate; reflexivity).
      set (bs := emitted (x_opts st) (m_used m) d) in *. set (ps := new_patches (x_opts st) (m_used m) d) in *.
      rewrite E, zlen_app in L.
      pose proof (zlen_nonneg _ bs). pose proof (zlen_nonneg _ (emitted_all (x_opts st) (m_used m + zlen bs) ds)).
      assert (SD : does (step d) k st bs ps /\ (x_wordSize st | zlen bs)).
      { pose proof (step_does d k st m (x_wordSize st) limit (proj1 (proj2 C)) eq_refl W B V) as S.
        assert (S1 : m_used m <= limit <= max_size) by lia. specialize (S S1 O1). destruct d; try discriminate; exact S. }
      destruct SD as [SD DV]. assert (W0 : 0 < x_wordSize st) by lia.
      destruct (SD m C F W0) as [PC PR]. destruct PR as [st1 R1]; [lia|].
      pose proof (PC st1 R1) as G.
      destruct (grows_current _ _ _ _ _ _ G (proj1 (proj2 C))) as (m1 & N1 & D1 & P1 & C1 & F1 & I1 & _ & U1).
      assert (U0 : m_used m = zlen (m_data m)) by apply F.
      destruct (grows_rest _ _ _ _ _ G) as [RS LN].
      pose proof (grows_fields _ _ _ _ _ G) as (G1 & G2 & G3 & G4 & G5 & G6 & _).
      assert (U2 : m_used m1 = m_used m + zlen bs) by lia.
      assert (CS1 : current_section st1 k m1 GText).
      { destruct C as (Ca & Cb & Cc). unfold current_section. split; [congruence|]. split; [exact N1|].
        rewrite G2. destruct I1 as (_ & I2 & _). rewrite I2. exact Cc. }
      destruct (IH st1 k m1 limit CS1 F1) as (st' & m' & R).
      * rewrite G1. exact W.
      * rewrite G3. exact B.
      * rewrite G1, U2. apply Z.divide_add_r; assumption.
      * rewrite G1. exact O2.
      * rewrite G3, U2. lia.
      * exact M.
      * exists st', m'. rewrite E, P. unfold ran in *. rewrite U2, G1, G2, G3, G6, LN in R.
        destruct R as (Q1 & Q2 & Q3 & Q4 & Q5 & Q6 & Q7 & Q8 & Q9 & Q10 & Q11 & Q12 & Q13 & Q14).
        split; [cbn [run]; rewrite R1; exact Q1|]. split; [exact Q2|]. split; [exact Q3|].
        split; [rewrite Q4, D1, app_assoc; reflexivity|].
        split; [rewrite Q5, P1, app_assoc; reflexivity|].
        split.
        { rewrite Q6, C1, u32_add, zlen_app. destruct DV as [z Z1]. rewrite Z1.
          rewrite Z.div_add_l, Z.div_mul by lia. f_equal. lia. }
        split; [eapply same_identity_trans; eassumption|].
        split; [eapply rest_same_trans; eassumption|]. rewrite LO. repeat split; assumption.
Qed.

(** ** Any directive *)

Definition safe (sw : bool) (st st' : xstate) : Prop :=
  x_wordSize st' = x_wordSize st /\ x_groups st' = x_groups st /\ state_fine st' /\
  forall j m, nth_error (x_sections st) j = Some m ->
    exists m', nth_error (x_sections st') j = Some m' /\ extended m m' /\
      (x_current st <> Some j \/ sw = true -> m' = m).

Lemma fine_same_sections : forall st st', state_fine st -> x_sections st' = x_sections st ->
  x_wordSize st' = x_wordSize st -> x_groups st' = x_groups st -> state_fine st'.
Proof. intros st st' F A B C k m N. rewrite A in N. rewrite B, C. apply F with (1 := N). Qed.
Lemma safe_same : forall sw st st', state_fine st -> x_sections st' = x_sections st ->
  x_wordSize st' = x_wordSize st -> x_groups st' = x_groups st -> safe sw st st'.
Proof.
  intros sw st st' F A B C. split; [exact B|]. split; [exact C|].
  split; [eapply fine_same_sections; eassumption|].
  intros j m N. exists m. rewrite A. split; [exact N|]. split; [apply extended_refl|auto].
Qed.
Lemma create_safe : forall sw name g a i al pg st, state_fine st -> x_groups st g <> None -> a_pc a = 0 ->
  safe sw st (createSection name g a i al pg st).
Proof.
  intros sw name g a i al pg st F G A. unfold createSection. split; [reflexivity|]. split; [reflexivity|].
  split.
  - intros k m N. cbn in N.
    destruct (Nat.lt_ge_cases k (length (x_sections st))) as [L|L].
    + rewrite nth_error_app1 in N by exact L. exact (F k m N).
    + rewrite nth_error_app2 in N by exact L. destruct (k - length (x_sections st))%nat as [|n]; [|destruct n; discriminate].
      inversion N; subst m. cbn. destruct (x_groups st g) as [t|]; [|congruence]. exists t. split; [reflexivity|].
      split.
      * unfold section_fine, m_pc, m_used, m_data. cbn. rewrite A. unfold is_u32, max_size.
        split; [lia|]. split; [lia|]. split; [lia|]. destruct t; [split; [reflexivity|lia]|reflexivity].
      * intros _. unfold m_pc, m_used. cbn. exact A.
  - intros j m N. exists m. cbn. rewrite nth_error_app1 by (apply nth_error_Some; congruence).
    split; [exact N|]. split; [apply extended_refl|auto].
Qed.

Lemma create_safe_error : forall sw (b : bool) n name g a i al pg st, state_fine st -> x_groups st g <> None -> a_pc a = 0 ->
  safe sw st (createSection name g a i al pg (if b then err_Error n st else st)).
Proof.
  intros sw b n name g a i al pg st F G A. destruct b; [|apply create_safe; assumption].
  exact (create_safe sw name g a i al pg (err_Error n st) F G A).
Qed.

Lemma step_safe : forall d st st', step d st = Ok st' -> 0 < x_wordSize st -> state_fine st ->
  safe (match d with DSection _ _ _ | DSectionName _ | DPushs | DPops => true | _ => false end) st st'.
Proof.
  intros d st st' H W F. destruct (writing d) eqn:K.
  - destruct (writing_touches d st K st' H W F) as [(T1 & T2 & T3 & T4 & T5 & T6 & T7) T8].
    split; [exact T1|]. split; [exact T2|]. split; [exact T8|]. intros j m N.
    destruct (T7 j m N) as (m' & A & B & C). exists m'. split; [exact A|]. split; [exact B|].
    intros [D|D]; [apply C, D|]. destruct d; discriminate.
  - destruct d; try discriminate; cbn [step] in H.
    + unfold handleSection in H. destruct (x_groups st group) as [t|] eqn:G.
      2:{ inversion H; subst. apply safe_same; auto. }
      destruct (match (match k_load d with Some z => _ | None => None end) with Some z => _ | None => _ end)
        as [al| |]; try discriminate. cbn [bind] in H.
      match type of H with (if ?b then _ else _) = _ => destruct b end.
      * unfold sect_SwitchTo_KIND in H. cbn [k_bank k_load k_align k_page k_root] in H.
        match type of H with (if ?b then _ else _) = _ => destruct b; [discriminate|] end.
        destruct (findSection name (Some group) (x_sections st) 0) as [[k|] e].
        -- destruct (nth_error (x_sections st) k) as [m|]; [|discriminate].
           match type of H with (if ?b then _ else _) = _ => destruct b end; inversion H; subst; apply safe_same; auto.
        -- injection H as <-. apply create_safe_error; [exact F|congruence|reflexivity].
      * inversion H; subst. unfold sect_SwitchTo.
        destruct (findSection name (Some group) (x_sections st) 0) as [[k|] e].
        -- apply safe_same; auto.
        -- apply create_safe_error; [exact F|congruence|reflexivity].
    + inversion H; subst. unfold sect_SwitchTo_NAMEONLY.
      destruct (findSection name None (x_sections st) 0) as [[k|] e]; apply safe_same; auto.
    + inversion H; subst. apply safe_same; auto.
    + inversion H; subst. unfold handlePops, sect_Pop.
      destruct (x_stack st) as [|[c s] r]; apply safe_same; auto.
    + inversion H; subst. apply safe_same; auto.
    + inversion H; subst. apply safe_same; auto.
    + inversion H; subst. apply safe_same; auto.
Qed.

Definition keeps (st st' : xstate) : Prop :=
  x_wordSize st' = x_wordSize st /\ x_groups st' = x_groups st /\ state_fine st' /\
  forall j m, nth_error (x_sections st) j = Some m ->
    exists m', nth_error (x_sections st') j = Some m' /\ extended m m'.
Lemma run_keeps : forall l st st', run l st = Ok st' -> 0 < x_wordSize st -> state_fine st -> keeps st st'.
Proof.
  induction l as [|d l IH]; intros st st' H W F.
  - inversion H; subst. split; [reflexivity|]. split; [reflexivity|]. split; [exact F|].
    intros j m N. exists m. split; [exact N|apply extended_refl].
  - cbn [run] in H. destruct (step d st) as [st1| |] eqn:S; try discriminate. cbn [bind] in H.
    destruct (step_safe _ _ _ S W F) as (A1 & A2 & A3 & A4).
    assert (W1 : 0 < x_wordSize st1) by (rewrite A1; exact W).
    destruct (IH st1 st' H W1 A3) as (B1 & B2 & B3 & B4).
    split; [congruence|]. split; [congruence|]. split; [exact B3|].
    intros j m N. destruct (A4 j m N) as (m1 & N1 & E1 & _). destruct (B4 j m1 N1) as (m2 & N2 & E2).
    exists m2. split; [exact N2|]. eapply extended_trans; eassumption.
Qed.

(** ** The section stack *)

Lemma step_stack : forall d st st', step d st = Ok st' -> 0 < x_wordSize st -> state_fine st ->
  d <> DPushs -> d <> DPops -> x_stack st' = x_stack st.
Proof.
  intros d st st' H W F N1 N2. destruct (writing d) eqn:K.
  - destruct (writing_touches d st K st' H W F) as [(T1 & T2 & T3 & T4 & T5 & T6 & T7) T8]. exact T6.
  - destruct d; try discriminate; try congruence; cbn [step] in H.
    + unfold handleSection in H. destruct (x_groups st group) as [t|] eqn:G.
      2:{ inversion H; subst. reflexivity. }
      destruct (match (match k_load d with Some z => _ | None => None end) with Some z => _ | None => _ end)
        as [al| |]; try discriminate. cbn [bind] in H.
      match type of H with (if ?b then _ else _) = _ => destruct b end.
      * unfold sect_SwitchTo_KIND in H. cbn [k_bank k_load k_align k_page k_root] in H.
        match type of H with (if ?b then _ else _) = _ => destruct b; [discriminate|] end.
        destruct (findSection name (Some group) (x_sections st) 0) as [[k|] e].
        -- destruct (nth_error (x_sections st) k) as [m|]; [|discriminate].
           match type of H with (if ?b then _ else _) = _ => destruct b end; inversion H; subst; reflexivity.
        -- injection H as <-. destruct e; reflexivity.
      * inversion H; subst. unfold sect_SwitchTo.
        destruct (findSection name (Some group) (x_sections st) 0) as [[k|] e]; [reflexivity|destruct e; reflexivity].
    + inversion H; subst. unfold sect_SwitchTo_NAMEONLY.
      destruct (findSection name None (x_sections st) 0) as [[k|] e]; reflexivity.
    + inversion H; subst. reflexivity.
    + inversion H; subst. reflexivity.
    + inversion H; subst. reflexivity.
Qed.

Lemma nested_stack : forall l, nested l -> forall st st', run l st = Ok st' -> 0 < x_wordSize st -> state_fine st ->
  x_stack st' = x_stack st.
Proof.
  intros l N. induction N as [|d l N1 N2 N IH|a l NA IHa NL IHl]; intros st st' H W F.
  - inversion H; subst. reflexivity.
  - cbn [run] in H. destruct (step d st) as [st1| |] eqn:S; try discriminate. cbn [bind] in H.
    destruct (step_safe _ _ _ S W F) as (A1 & A2 & A3 & A4).
    rewrite (IH st1 st' H) by (try rewrite A1; assumption). eapply step_stack; eassumption.
  - cbn [run step bind] in H. rewrite run_app in H.
    destruct (run a (sect_Push st)) as [st1| |] eqn:R; try discriminate. cbn [bind run step] in H.
    assert (W1 : 0 < x_wordSize (sect_Push st)) by exact W.
    assert (F1 : state_fine (sect_Push st)) by exact F.
    destruct (run_keeps _ _ _ R W1 F1) as (K1 & K2 & K3 & K4).
    pose proof (IHa _ _ R W1 F1) as Q. cbn in Q.
    unfold handlePops, sect_Pop in H. rewrite Q in H.
    assert (Z1 := IHl _ _ H). cbn in Z1. rewrite Z1; [reflexivity|rewrite K1; exact W|].
    eapply fine_same_sections; [exact K3|reflexivity..].
Qed.

(** ** Sections by name *)

Lemma beq_refl : forall a, beq a a = true.
Proof. intro a. apply beq_eq. reflexivity. Qed.

Lemma find_some : forall name g l k0, (forall m, In m l -> ws_group (m_w m) = g) ->
  In name (map (fun m => ws_name (m_w m)) l) ->
  exists k m, findSection name (Some g) l k0 = (Some (k0 + k)%nat, false) /\ nth_error l k = Some m /\ ws_name (m_w m) = name.
Proof.
  intros name g l; induction l as [|m l IH]; intros k0 G I; [contradiction|]. cbn [findSection].
  destruct (beq (ws_name (m_w m)) name) eqn:B.
  - rewrite (G m) by (left; reflexivity). rewrite Nat.eqb_refl. exists 0%nat, m. rewrite Nat.add_0_r.
    apply beq_eq in B. auto.
  - destruct I as [I|I]. { cbn beta in I. rewrite I, beq_refl in B. discriminate. }
    destruct (IH (S k0)) as (k & m' & A & B' & C); [intros x X; apply G; right; exact X|exact I|].
    exists (S k), m'. rewrite A. split; [do 2 f_equal; lia|]. auto.
Qed.
Lemma find_none : forall name g l k0, ~ In name (map (fun m => ws_name (m_w m)) l) ->
  findSection name g l k0 = (None, false).
Proof.
  intros name g l; induction l as [|m l IH]; intros k0 I; [reflexivity|]. cbn [findSection].
  destruct (beq (ws_name (m_w m)) name) eqn:B.
  - apply beq_eq in B. destruct I. left. exact B.
  - apply IH. intro H. apply I. right. exact H.
Qed.

Lemma emitted_all_app : forall a b o off, Forall no_options a ->
  emitted_all o off (a ++ b) = emitted_all o off a ++ emitted_all o (off + zlen (emitted_all o off a)) b.
Proof.
  induction a as [|d a IH]; intros b o off N.
  - cbn [app emitted_all zlen length Z.of_nat]. rewrite Z.add_0_r. reflexivity.
  - inversion N as [|? ? N1 N2]; subst.
    assert (E : forall l, emitted_all o off (d :: l) = emitted o off d ++ emitted_all o (off + zlen (emitted o off d)) l)
      by (intro l; destruct d; try contradiction; reflexivity).
    cbn [app]. rewrite !E, IH by exact N2. rewrite app_assoc, zlen_app, Z.add_assoc. reflexivity.
Qed.
Lemma patches_all_app : forall a b o off, Forall no_options a ->
  patches_all o off (a ++ b) = patches_all o off a ++ patches_all o (off + zlen (emitted_all o off a)) b.
Proof.
  induction a as [|d a IH]; intros b o off N.
  - cbn [app emitted_all patches_all zlen length Z.of_nat]. rewrite Z.add_0_r. reflexivity.
  - inversion N as [|? ? N1 N2]; subst.
    assert (E : forall l, patches_all o off (d :: l) = new_patches o off d ++ patches_all o (off + zlen (emitted o off d)) l)
      by (intro l; destruct d; try contradiction; reflexivity).
    assert (E2 : emitted_all o off (d :: a) = emitted o off d ++ emitted_all o (off + zlen (emitted o off d)) a)
      by (destruct d; try contradiction; reflexivity).
    cbn [app]. rewrite !E, E2, IH by exact N2. rewrite app_assoc, zlen_app, Z.add_assoc. reflexivity.
Qed.
Lemma last_options_same : forall l o, Forall no_options l -> last_options o l = o.
Proof.
  induction l as [|d l IH]; intros o N; [reflexivity|]. inversion N; subst.
  destruct d; try contradiction; cbn [last_options]; apply IH; assumption.
Qed.

Lemma NoDup_app_snoc_ : forall (A : Type) (l : list A) x, NoDup l -> ~ In x l -> NoDup (l ++ [x]).
Proof.
  intros A l x N I. induction N as [|y l H N IH]; cbn [app].
  - constructor; [exact (fun f => f)|constructor].
  - constructor.
    + rewrite in_app_iff. cbn. intros [Q|[Q|Q]]; [exact (H Q)| |exact Q]. apply I. left. symmetry. exact Q.
    + apply IH. intro Q. apply I. right. exact Q.
Qed.

Section Blocks.
Variables (w limit : Z) (banks : bool) (groups : nat -> option gtype) (o : options) (g : nat).
Hypothesis Hg : groups g = Some GText.
Hypothesis Hw : w = 1 \/ w = 2.
Hypothesis Hfill : is_byte (o_fill o).
Hypothesis Hlimit : limit <= max_size.

Definition holds (blocks : list (list Z * list directive)) (m : msect) : Prop :=
  let l := of_name (ws_name (m_w m)) blocks in
  ws_group (m_w m) = g /\ section_fine GText m /\ (w | m_used m) /\
  m_data m = emitted_all o 0 l /\ Permutation (m_patches m) (patches_all o 0 l) /\
  m_pc m * w = m_used m.
Definition holds_all (blocks : list (list Z * list directive)) (st : xstate) : Prop :=
  x_wordSize st = w /\ x_groups st = groups /\ x_opts st = o /\ x_errors st = [] /\
  NoDup (map (fun m => ws_name (m_w m)) (x_sections st)) /\
  (forall n, In n (map (fun m => ws_name (m_w m)) (x_sections st)) <-> In n (map fst blocks)) /\
  Forall (holds blocks) (x_sections st).

Lemma of_name_snoc : forall n blocks b,
  of_name n (blocks ++ [b]) = of_name n blocks ++ (if beq (fst b) n then snd b else []).
Proof. intros. unfold of_name. rewrite flat_map_app. cbn [flat_map]. rewrite app_nil_r. reflexivity. Qed.
Lemma of_name_forall : forall (P : directive -> Prop) n blocks, Forall (fun b => Forall P (snd b)) blocks -> Forall P (of_name n blocks).
Proof.
  intros P n blocks H. induction H as [|b l H1 H2 IH]; [constructor|]. cbn [of_name flat_map].
  apply Forall_app. split; [|exact IH]. destruct (beq (fst b) n); [exact H1|constructor].
Qed.
Lemma of_name_absent : forall n blocks, ~ In n (map fst blocks) -> of_name n blocks = [].
Proof.
  intros n blocks; induction blocks as [|b l IH]; intro H; [reflexivity|]. cbn [of_name flat_map].
  destruct (beq (fst b) n) eqn:B; [|apply IH; intro; apply H; right; assumption].
  apply beq_eq in B. destruct H. left. exact B.
Qed.

Lemma replace_names : forall k m m' l, nth_error l k = Some m -> ws_name (m_w m') = ws_name (m_w m) ->
  map (fun m => ws_name (m_w m)) (replace_nth k m' l) = map (fun m => ws_name (m_w m)) l.
Proof.
  induction k as [|k IH]; intros m m' [|a l] H E; try discriminate.
  - inversion H; subst. cbn. congruence.
  - cbn [replace_nth map]. f_equal. eapply IH; eassumption.
Qed.
Lemma names_ext : forall l l', length l = length l' ->
  (forall j m m', nth_error l j = Some m -> nth_error l' j = Some m' -> ws_name (m_w m') = ws_name (m_w m)) ->
  map (fun m => ws_name (m_w m)) l' = map (fun m => ws_name (m_w m)) l.
Proof.
  induction l as [|a l IH]; intros [|b l'] L H; try discriminate; [reflexivity|].
  cbn [map]. f_equal; [apply (H 0%nat); reflexivity|]. apply IH; [inversion L; reflexivity|].
  intros j m m' A B. apply (H (S j)); assumption.
Qed.

(** The state with section [k] current, ready for the directives of a block. *)
Lemma open_block : forall blocks n st, holds_all blocks st ->
  exists k m st1, step (DSection n g plain) st = Ok st1 /\ current_section st1 k m GText /\ ws_name (m_w m) = n /\
    holds_all (blocks ++ [(n, [])]) st1.
Proof.
  intros blocks n st (A1 & A2 & A3 & A4 & A5 & A6 & A7). cbn [step]. unfold handleSection. rewrite A2, Hg.
  cbn [k_load k_align k_bank k_page k_root plain given bind orb].
  assert (HE : forall m, holds blocks m -> holds (blocks ++ [(n, [])]) m).
  { unfold holds. intros m H. rewrite of_name_snoc. cbn [fst snd]. destruct (beq n (ws_name (m_w m))); rewrite app_nil_r; exact H. }
  destruct (in_dec (list_eq_dec Z.eq_dec) n (map (fun m => ws_name (m_w m)) (x_sections st))) as [I|I].
  - destruct (find_some n g (x_sections st) 0) as (k & m & F1 & F2 & F3); [|exact I|].
    { intros m M. rewrite Forall_forall in A7. apply A7, M. }
    exists k, m, (with_current (Some k) st). unfold sect_SwitchTo. rewrite F1. split; [reflexivity|].
    split.
    { split; [reflexivity|]. split; [exact F2|]. cbn. rewrite A2. rewrite Forall_forall in A7.
      destruct (A7 m) as (G1 & _); [eapply nth_error_In; exact F2|]. rewrite G1. exact Hg. }
    split; [exact F3|].
    unfold holds_all. cbn. repeat match goal with |- _ /\ _ => split end; try assumption.
    + intro x. rewrite A6, map_app, in_app_iff. cbn. split; [tauto|]. intros [X|[X|X]]; [exact X| |contradiction].
      rewrite <- X. apply A6, I.
    + eapply Forall_impl; [|exact A7]. exact HE.
  - exists (length (x_sections st)), (MSect (WSect no_flags n g 0 0 0 [] 0 [] []) 0),
      (createSection n g no_flags 0 0 0 st).
    unfold sect_SwitchTo. rewrite find_none by exact I. split; [reflexivity|].
    split.
    { split; [reflexivity|]. cbn. split; [rewrite nth_error_app2, Nat.sub_diag by lia; reflexivity|].
      rewrite A2. exact Hg. }
    split; [reflexivity|].
    unfold holds_all. cbn. repeat match goal with |- _ /\ _ => split end; try assumption.
    + rewrite map_app. cbn [map]. apply NoDup_app_snoc_; assumption.
    + intro x. rewrite !map_app, !in_app_iff. cbn. rewrite A6. tauto.
    + apply Forall_app. split; [eapply Forall_impl; [|exact A7]; exact HE|].
      constructor; [|constructor]. unfold holds. cbn [m_w ws_name ws_group].
      rewrite of_name_snoc. cbn [fst snd]. rewrite beq_refl, app_nil_r.
      rewrite of_name_absent by (rewrite <- A6; exact I).
      unfold section_fine, m_pc, m_used, m_data, m_patches. cbn. unfold is_u32, max_size.
      repeat split; try lia; try reflexivity. apply Z.divide_0_r.
Qed.
Lemma fill_block : forall blocks n ds st k m, holds_all (blocks ++ [(n, [])]) st ->
  current_section st k m GText -> ws_name (m_w m) = n ->
  Forall (fun b => Forall no_options (snd b)) blocks -> Forall no_options ds -> Forall (data_ok w limit) ds ->
  zlen (emitted_all o 0 (of_name n (blocks ++ [(n, ds)]))) <= limit ->
  exists st', run ds st = Ok st' /\ holds_all (blocks ++ [(n, ds)]) st'.
Proof.
  intros blocks n ds st k m (A1 & A2 & A3 & A4 & A5 & A6 & A7) C En NB ND OK L.
  assert (HM : holds (blocks ++ [(n, [])]) m).
  { rewrite Forall_forall in A7. apply A7. eapply nth_error_In. apply C. }
  destruct HM as (G & F & V & D & P & PC). rewrite En in D, P.
  rewrite of_name_snoc in D, P, L. cbn [fst snd] in D, P, L. rewrite beq_refl in D, P, L. rewrite app_nil_r in D, P.
  assert (NO : Forall no_options (of_name n blocks)) by (apply of_name_forall; exact NB).
  assert (U : m_used m = zlen (emitted_all o 0 (of_name n blocks))) by (rewrite <- D; apply F).
  rewrite emitted_all_app, zlen_app, Z.add_0_l, <- U in L by exact NO.
  destruct (run_data ds st k m limit C F) as (st' & m' & R); rewrite ?A1, ?A3; try assumption.
  destruct R as (R1 & R2 & R3 & R4 & R5 & R6 & R7 & R8 & R9 & R10 & R11 & R12 & R13 & R14).
  rewrite A1, A3 in *. exists st'. split; [exact R1|].
  destruct R8 as (S1 & S2 & S3 & S4 & S5).
  assert (NM : map (fun m => ws_name (m_w m)) (x_sections st') = map (fun m => ws_name (m_w m)) (x_sections st)).
  { apply names_ext; [symmetry; exact R14|]. intros j x x' X X'. destruct (Nat.eq_dec j k) as [->|J].
    - destruct C as (_ & C & _), R2 as (_ & R2 & _). rewrite C in X. rewrite R2 in X'. inversion X; inversion X'; subst. apply R7.
    - rewrite S1, X in X' by exact J. inversion X'; subst; reflexivity. }
  unfold holds_all. split; [congruence|]. split; [congruence|].
  split; [rewrite R12; apply last_options_same; exact ND|]. split; [congruence|].
  split; [rewrite NM; exact A5|].
  split. { intro x. rewrite NM, A6, !map_app. reflexivity. }
  apply Forall_forall. intros x X. apply In_nth_error in X as [j X].
  destruct (Nat.eq_dec j k) as [->|J].
  - destruct R2 as (_ & R2 & _). rewrite R2 in X. inversion X; subst x.
    destruct R7 as (I1 & I2 & _). unfold holds. rewrite I1, I2, En, of_name_snoc. cbn [fst snd]. rewrite beq_refl.
    split; [exact G|]. split; [exact R3|]. split; [exact R13|].
    rewrite emitted_all_app, patches_all_app, Z.add_0_l, <- U by exact NO.
    split; [rewrite R4, D; reflexivity|]. split; [rewrite R5, P; reflexivity|].
    set (bs := emitted_all o (m_used m) ds) in *.
    assert (U1 : m_used m' = m_used m + zlen bs).
    { destruct R3 as (_ & _ & _ & R3 & _). rewrite R3, R4, zlen_app. f_equal. symmetry. apply F. }
    rewrite U1 in R13. assert (DB : (w | zlen bs)) by exact (Z.divide_add_cancel_r _ _ _ V R13).
    destruct DB as [z Z1]. rewrite R6, U1, Z1, Z.div_mul by lia.
    assert (PU : 0 <= m_pc m) by apply F. pose proof (zlen_nonneg _ bs). unfold max_size in *.
    rewrite u32_id; [lia|]. unfold is_u32. nia.
  - rewrite S1 in X by exact J. rewrite Forall_forall in A7. specialize (A7 x (nth_error_In _ _ X)).
    unfold holds in *. rewrite of_name_snoc in *. cbn [fst snd] in *.
    destruct (beq n (ws_name (m_w x))) eqn:B; [|exact A7].
    exfalso. apply J. apply beq_eq in B.
    apply (proj1 (NoDup_nth_error _) A5); [rewrite map_length; apply nth_error_Some; congruence|].
    rewrite !nth_error_map, X. destruct C as (_ & C & _). rewrite C. cbn. congruence.
Qed.

Lemma run_blocks : forall blocks,
  Forall (fun b => Forall (data_ok w limit) (snd b)) blocks ->
  Forall (fun b => Forall no_options (snd b)) blocks ->
  (forall n, zlen (emitted_all o 0 (of_name n blocks)) <= limit) ->
  exists st, run (program g blocks) (initial w banks groups o) = Ok st /\ holds_all blocks st.
Proof.
  intro blocks. induction blocks as [|[n ds] blocks IH] using rev_ind; intros OK NO L.
  - exists (initial w banks groups o). split; [reflexivity|]. unfold holds_all. cbn. repeat split; auto; constructor.
  - apply Forall_app in OK as [OK1 OK2]. apply Forall_app in NO as [NO1 NO2].
    inversion OK2 as [|? ? OKd _]; subst. inversion NO2 as [|? ? NOd _]; subst. cbn [snd] in *.
    destruct IH as (st & R & H); try assumption.
    { intro x. specialize (L x). rewrite of_name_snoc in L.
      rewrite emitted_all_app, zlen_app in L by (apply of_name_forall; exact NO1).
      match type of L with _ + zlen ?x <= _ => pose proof (zlen_nonneg _ x) end. lia. }
    destruct (open_block _ n _ H) as (k & m & st1 & S1 & C1 & E1 & H1).
    destruct (fill_block blocks n ds st1 k m H1 C1 E1 NO1 NOd OKd (L n)) as (st2 & R2 & H2).
    exists st2. split; [|exact H2].
    unfold program in *. rewrite flat_map_app. cbn [flat_map fst snd]. rewrite app_nil_r, run_app, R. cbn [bind run].
    rewrite S1. cbn [bind]. exact R2.
Qed.
End Blocks.
