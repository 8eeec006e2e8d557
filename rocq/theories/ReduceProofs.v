(** Proofs about the reduction of expressions once the file has been read. *)
From Coq Require Import ZArith List Bool Lia ZifyBool.
From Verif Require Import Base BaseFacts Arith ExprSpec ExprModel ExprLayout ExprTree ArithProofs ExprProofs.
Import ListNotations.
Open Scope Z_scope.

Section Env.
Variable F : fmath.
Variable w : world.
Variable base : nat -> Z.
Variable E : env.
Hypothesis HF : fmath_ok F.
Hypothesis HE : env_ok w base E.

Lemma opf_split : forall o c v s l r, opf (ENode TOperation c o v s l r) ->
  c = false /\
  ((o = OpBank /\ l = ENull /\ r = ENull) \/
   (o <> OpBank /\ o <> OpNone /\ un o = true /\ l = ENull /\ opf r) \/
   (o <> OpBank /\ o <> OpNone /\ un o = false /\ opf l /\ opf r)).
Proof.
  intros o c v s l r [Hc H]. split; [assumption|].
  destruct o; cbn in H; try tauto;
    try (right; right; repeat split; try discriminate; tauto);
    try (right; left; repeat split; try discriminate; tauto).
Qed.

Lemma den_un : forall o v s l r, un o = true ->
  den F E (ENode TOperation false o v s l r) =
  match den F E r with Some x => un_meaning F o x | None => None end.
Proof. intros o v s l r H. destruct o; try discriminate; reflexivity. Qed.
Lemma den_bin : forall o v s l r, un o = false -> o <> OpBank ->
  den F E (ENode TOperation false o v s l r) =
  match den F E l, den F E r with Some a, Some b => op_meaning F o a b | _, _ => None end.
Proof. intros o v s l r H Hb. destruct o; try discriminate; try congruence; reflexivity. Qed.

Lemma den_s32 : forall e v, opf e -> den F E e = Some v -> is_s32 v.
Proof.
  pose proof HE as (He1 & He2 & _).
  induction e as [|t c o v s l IHl r IHr]; [intros ? []|]. intros x Ho Hd.
  destruct t.
  - apply opf_split in Ho as [-> [(-> & -> & ->)|[(Hnb & Hnn & Hu & -> & Br)|(Hnb & Hnn & Hu & Bl & Br)]]].
    + injection Hd as <-. apply He2.
    + rewrite den_un in Hd by assumption. destruct (den F E r); [|discriminate].
      eapply un_meaning_s32; eauto.
    + rewrite den_bin in Hd by assumption. destruct (den F E l) eqn:D1; [|discriminate].
      destruct (den F E r) eqn:D2; [|discriminate].
      eapply op_meaning_s32; [exact HF| | |exact Hd]; auto.
  - cbn in Ho. destruct Ho as (-> & _). cbn [den] in Hd.
    destruct (den F E l); [|discriminate]. destruct (den F E r); [|discriminate].
    unfold pcrel_meaning in Hd. destruct (inr _); [|discriminate]. destruct (inr _); [|discriminate].
    apply inr_s32 in Hd. tauto.
  - cbn in Ho. destruct Ho as (-> & Hv & _). injection Hd as <-. assumption.
  - cbn in Ho. destruct Ho as (-> & _). injection Hd as <-. apply He1.
  - destruct Ho.
Qed.

Lemma u32_sub : forall a b c d, u32 a = u32 b -> u32 c = u32 d -> u32 (a - c) = u32 (b - d).
Proof.
  unfold u32. intros a b c d H1 H2. rewrite Zminus_mod, H1, H2, <- Zminus_mod. reflexivity.
Qed.
Lemma u32_add : forall a b c d, u32 a = u32 b -> u32 c = u32 d -> u32 (a + c) = u32 (b + d).
Proof.
  unfold u32. intros a b c d H1 H2. rewrite Zplus_mod, H1, H2, <- Zplus_mod. reflexivity.
Qed.
Lemma u32_idem : forall a, u32 (u32 a) = u32 a.
Proof. intros. unfold u32. apply Zmod_mod. Qed.

Lemma section_offset_ok : forall e k a off x, opf e -> nth_error (w_sections w) k = Some a ->
  expr_GetSectionOffset w e k a = Some off -> den F E e = Some x -> off = u32 (x - base k).
Proof.
  pose proof HE as (He1 & He2 & Hc & Hq & Hl & Hs & Hb).
  induction e as [|t c o v s l IHl r IHr]; [intros ? ? ? ? []|].
  intros k a off x Ho Hn Hg Hd. destruct t.
  - apply opf_split in Ho as [-> [(-> & -> & ->)|[(Hnb & Hnn & Hu & -> & Br)|(Hnb & Hnn & Hu & Bl & Br)]]].
    + discriminate.
    + destruct o; discriminate.
    + rewrite den_bin in Hd by assumption.
      destruct (den F E l) as [dl|] eqn:D1; [|discriminate].
      destruct (den F E r) as [dr|] eqn:D2; [|discriminate].
      destruct o; try discriminate; cbn [expr_GetSectionOffset] in Hg; cbn [op_meaning] in Hd;
        apply inr_s32 in Hd as [_ ->].
      * (* subtraction *)
        destruct (expr_GetSectionOffset w l k a) as [ol|] eqn:GL; [|discriminate].
        destruct (expr_IsConstant r) eqn:C; [|discriminate]. injection Hg as <-.
        specialize (IHl k a ol dl Bl Hn GL eq_refl).
        rewrite (den_const F E r C) in D2. injection D2 as <-.
        replace (dl - e_v r - base k) with (dl - base k - e_v r) by lia.
        apply u32_sub; [|reflexivity]. subst ol. apply u32_idem.
      * assert (HR : forall q, match expr_GetSectionOffset w r k a with
                  | Some off => if expr_IsConstant l then Some (u32 (e_v l + off)) else None
                  | None => None end = Some q -> q = u32 (dl + dr - base k)).
        { intros q Hq'. destruct (expr_GetSectionOffset w r k a) as [o_r|] eqn:GR; [|discriminate].
          destruct (expr_IsConstant l) eqn:C; [|discriminate]. injection Hq' as <-.
          specialize (IHr k a o_r dr Br Hn GR eq_refl).
          rewrite (den_const F E l C) in D1. injection D1 as <-.
          replace (e_v l + dr - base k) with (e_v l + (dr - base k)) by lia.
          apply u32_add; [reflexivity|]. subst o_r. apply u32_idem. }
        destruct (expr_GetSectionOffset w l k a) as [ol|] eqn:GL.
        -- destruct (expr_IsConstant r) eqn:C.
           ++ injection Hg as <-. specialize (IHl k a ol dl Bl Hn GL eq_refl).
              rewrite (den_const F E r C) in D2. injection D2 as <-.
              replace (dl + e_v r - base k) with (dl - base k + e_v r) by lia.
              apply u32_add; [|reflexivity]. subst ol. apply u32_idem.
           ++ apply HR, Hg.
        -- apply HR, Hg.
  - discriminate.
  - cbn in Ho. destruct Ho as (-> & _). injection Hd as <-. cbn in Hg.
    destruct (a_loadfixed a) eqn:LF; [|discriminate]. injection Hg as <-. rewrite (Hb k a Hn LF). reflexivity.
  - cbn in Ho. destruct Ho as (-> & _). injection Hd as <-. cbn in Hg. unfold getSymbolSectionOffset in Hg.
    destruct (symtype_eqb (y_type (w_symbol w s)) SymEqu && a_loadfixed a) eqn:C1.
    + apply andb_prop in C1 as [C1 LF]. injection Hg as <-.
      rewrite (Hc s (Hq s (symtype_eqb_eq _ _ C1))), (Hb k a Hn LF). reflexivity.
    + destruct (osect_eqb (y_section (w_symbol w s)) (Some k)) eqn:C2; [|discriminate].
      apply osect_eqb_eq in C2.
      destruct (y_constant (w_symbol w s) && a_loadfixed a) eqn:C3.
      * apply andb_prop in C3 as [C3 LF]. injection Hg as <-.
        rewrite (Hc s C3), (Hb k a Hn LF). reflexivity.
      * destruct (y_reloc (w_symbol w s) && flags_zero a) eqn:C4; [|discriminate].
        apply andb_prop in C4 as [C4 _]. injection Hg as <-.
        destruct (Hs s k C2) as (a' & _ & V & _). rewrite (V C4). f_equal. lia.
  - destruct Ho.
Qed.

Lemma section_and_offset_ok : forall e k ss kk off x, opf e ->
  (forall i a, nth_error ss i = Some a -> nth_error (w_sections w) (k + i) = Some a) ->
  sectionAndOffset w e k ss = Some (kk, off) -> den F E e = Some x -> off = u32 (x - base kk).
Proof.
  intros e k ss. revert k. induction ss as [|a ss IH]; cbn; intros k kk off x Ho Hi Hg Hd; [discriminate|].
  destruct (expr_GetSectionOffset w e k a) as [o'|] eqn:G.
  - injection Hg as <- <-. eapply section_offset_ok; eauto.
    specialize (Hi 0%nat a eq_refl). rewrite PeanoNat.Nat.add_0_r in Hi. assumption.
  - eapply IH; eauto. intros i b Hb. specialize (Hi (S i) b Hb).
    rewrite PeanoNat.Nat.add_succ_r in Hi. exact Hi.
Qed.

Variable k : nat.
Variable a : asect.
Variable off : Z.
Hypothesis Hplace : at_place w base k a off E.

Definition red_good (e e' : expr) : Prop :=
  opf e' /\ depth e' <= depth e /\ incl (svals e') (svals e) /\ incl (sbanks e') (sbanks e).

Lemma opf_depth_pos : forall e, opf e -> 1 <= depth e.
Proof.
  induction e as [|t c o v s l IHl r IHr]; [intros []|]. intros H. destruct t; cbn [depth]; try lia.
  - apply opf_split in H as [-> [(-> & -> & ->)|[(Hnb & Hnn & Hu & -> & Br)|(Hnb & Hnn & Hu & Bl & Br)]]].
    + lia.
    + rewrite Hu. specialize (IHr Br). destruct o; try lia.
    + rewrite Hu. specialize (IHr Br). destruct o; try lia.
  - cbn in H. destruct H as (_ & Hl & _). specialize (IHl Hl). lia.
  - destruct H.
Qed.

Lemma red_const : forall e o v s, opf e -> is_s32 v -> red_good e (constNode o v s).
Proof.
  intros e o v s He Hv. unfold red_good, constNode. cbn.
  split; [auto|]. split; [apply opf_depth_pos, He|]. split; intros ? [].
Qed.
Lemma red_refl : forall e, opf e -> red_good e e.
Proof. intros e H. unfold red_good. split; [assumption|]. split; [lia|]. split; apply incl_refl. Qed.

Lemma red_un : forall o v s r r', un o = true -> opf (ENode TOperation false o v s ENull r) ->
  red_good r r' -> red_good (ENode TOperation false o v s ENull r) (ENode TOperation false o v s ENull r').
Proof.
  intros o v s r r' Hu Ho (O & P & S1 & K).
  apply opf_split in Ho as [_ [(-> & _)|[(Hnb & Hnn & _)|(_ & _ & Hu' & _)]]];
    [discriminate| |congruence].
  unfold red_good. split; [|split; [|split]].
  - cbn [opf]. split; [reflexivity|]. rewrite Hu. destruct o; try congruence; auto.
  - cbn [depth]. rewrite Hu. destruct o; try congruence; lia.
  - cbn. assumption.
  - cbn. destruct o; try congruence; assumption.
Qed.
Lemma red_bin : forall o v s l r l' r', un o = false -> opf (ENode TOperation false o v s l r) ->
  o <> OpBank -> red_good l l' -> red_good r r' ->
  red_good (ENode TOperation false o v s l r) (ENode TOperation false o v s l' r').
Proof.
  intros o v s l r l' r' Hu Ho Hb (O & P & S1 & K) (O2 & P2 & S2 & K2).
  apply opf_split in Ho as [_ [(-> & _)|[(_ & _ & Hu' & _)|(Hnb & Hnn & _)]]];
    [congruence|congruence|].
  unfold red_good. split; [|split; [|split]].
  - cbn [opf]. split; [reflexivity|]. rewrite Hu. destruct o; try congruence; auto.
  - cbn [depth]. rewrite Hu. destruct o; try congruence; lia.
  - cbn. apply incl_app; [apply incl_appl|apply incl_appr]; assumption.
  - cbn. destruct o; try congruence; (apply incl_app; [apply incl_appl|apply incl_appr]; assumption).
Qed.

Definition red_spec (e : expr) (v : Z) (R : res (option Z * expr)) : Prop :=
  exists ov e', R = Ok (ov, e') /\ (forall x, ov = Some x -> x = v) /\
    den F E e' = Some v /\ red_good e e'.

Notation reduce := (reduceExpression F w k a off).

(** The binary case. *)
Definition binaryR (o : op) (v : Z) (s : nat) (l r : expr) : res (option Z * expr) :=
  let! (lv, l') := reduce l in
  match lv with
  | None => Ok (None, ENode TOperation false o v s l' r)
  | Some x =>
      let! (rv, r') := reduce r in
      match rv with
      | None => Ok (None, ENode TOperation false o v s l' r')
      | Some y => let! z := reduce_value F o x y in Ok (Some z, constNode o z s)
      end
  end.
Definition limitR (o : op) (good : Z -> Z -> bool) (v : Z) (s : nat) (l r : expr) : res (option Z * expr) :=
  let! (rv, r') := reduce r in
  match rv with
  | None => Ok (None, ENode TOperation false o v s l r')
  | Some y =>
      let! (lv, l') := reduce l in
      match lv with
      | None => Ok (None, ENode TOperation false o v s l' r')
      | Some x => if good x y then Ok (Some x, constNode o x s) else Err
      end
  end.

Lemma binaryR_ok : forall o v s l r x y z,
  un o = false -> o <> OpBank -> limit_op o = false -> opf (ENode TOperation false o v s l r) ->
  den F E l = Some x -> den F E r = Some y -> op_meaning F o x y = Some z ->
  red_spec l x (reduce l) -> red_spec r y (reduce r) ->
  red_spec (ENode TOperation false o v s l r) z (binaryR o v s l r).
Proof.
  intros o v s l r x y z Hu Hb Hl Ho Dl Dr Hm (lv & l' & EL & VL & DL & GL) (rv & r' & ER & VR & DR & GR).
  assert (Ho' := Ho).
  apply opf_split in Ho' as [_ [(-> & _)|[(_ & _ & Hu' & _)|(Hnb & Hnn & _ & Ol & Or)]]]; [congruence|congruence|].
  assert (Hx : is_s32 x) by exact (den_s32 l x Ol Dl).
  assert (Hy : is_s32 y) by exact (den_s32 r y Or Dr).
  assert (Hz : is_s32 z) by (eapply op_meaning_s32; [exact HF|exact Hx|exact Hy|exact Hm]).
  unfold binaryR. rewrite EL. cbn [bind]. destruct lv as [x'|].
  - rewrite ER. cbn [bind]. destruct rv as [y'|].
    + rewrite (VL x' eq_refl), (VR y' eq_refl). rewrite (reduce_value_ok F o x y z) by assumption.
      cbn [bind]. exists (Some z), (constNode o z s). split; [reflexivity|].
      split; [congruence|]. split; [reflexivity|]. apply red_const; assumption.
    + exists None, (ENode TOperation false o v s l' r'). split; [reflexivity|].
      split; [congruence|]. split; [|apply red_bin; assumption].
      rewrite den_bin by assumption. rewrite DL, DR. assumption.
  - exists None, (ENode TOperation false o v s l' r). split; [reflexivity|].
    split; [congruence|]. split; [|apply red_bin; try assumption; apply red_refl; assumption].
    rewrite den_bin by assumption. rewrite DL, Dr. assumption.
Qed.

Lemma limitR_ok : forall o gd v s l r x y z,
  un o = false -> o <> OpBank -> opf (ENode TOperation false o v s l r) ->
  den F E l = Some x -> den F E r = Some y -> op_meaning F o x y = Some z ->
  gd x y = true -> z = x ->
  red_spec l x (reduce l) -> red_spec r y (reduce r) ->
  red_spec (ENode TOperation false o v s l r) z (limitR o gd v s l r).
Proof.
  intros o gd v s l r x y z Hu Hb Ho Dl Dr Hm Hg -> (lv & l' & EL & VL & DL & GL) (rv & r' & ER & VR & DR & GR).
  assert (Ho' := Ho).
  apply opf_split in Ho' as [_ [(-> & _)|[(_ & _ & Hu' & _)|(Hnb & Hnn & _ & Ol & Or)]]]; [congruence|congruence|].
  assert (Hx : is_s32 x) by exact (den_s32 l x Ol Dl).
  unfold limitR. rewrite ER. cbn [bind]. destruct rv as [y'|].
  - rewrite EL. cbn [bind]. destruct lv as [x'|].
    + rewrite (VL x' eq_refl), (VR y' eq_refl), Hg.
      exists (Some x), (constNode o x s). split; [reflexivity|].
      split; [congruence|]. split; [reflexivity|]. apply red_const; assumption.
    + exists None, (ENode TOperation false o v s l' r'). split; [reflexivity|].
      split; [congruence|]. split; [|apply red_bin; assumption].
      rewrite den_bin by assumption. rewrite DL, DR. assumption.
  - exists None, (ENode TOperation false o v s l r'). split; [reflexivity|].
    split; [congruence|]. split; [|apply red_bin; try assumption; apply red_refl; assumption].
    rewrite den_bin by assumption. rewrite Dl, DR. assumption.
Qed.

Lemma reduce_ok : forall e v, opf e ->
  (forall s, In s (svals e) -> y_type (w_symbol w s) <> SymUndefined) ->
  den F E e = Some v -> red_spec e v (reduce e).
Proof.
  pose proof HE as (He1 & He2 & Hc & Hq & Hl & Hs & Hb). pose proof Hplace as [Hn Hpc].
  induction e as [|t c o v s l IHl r IHr]; [intros ? []|].
  intros z Ho Hdef Hd. destruct t.
  - pose proof Ho as Ho'.
    apply opf_split in Ho' as [-> [(-> & -> & ->)|[(Hnb & Hnn & Hu & -> & Or)|(Hnb & Hnn & Hu & Ol & Or)]]].
    + (* BANK *)
      cbn [reduceExpression]. destruct (y_section (w_symbol w s)) as [j|] eqn:SJ.
      * destruct (Hs s j SJ) as (b & NB & _ & HB). rewrite NB.
        destruct (a_bankfixed b) eqn:BF.
        -- exists (Some (s32 (a_bank b))), (ENode TOperation false OpBank v s ENull ENull).
           split; [reflexivity|]. cbn in Hd. injection Hd as <-. split.
           ++ intros x Hx. injection Hx as <-. symmetry. apply HB. reflexivity.
           ++ split; [reflexivity|]. apply red_refl; assumption.
        -- eexists None, _. split; [reflexivity|]. split; [congruence|]. split; [assumption|].
           apply red_refl; assumption.
      * eexists None, _. split; [reflexivity|]. split; [congruence|]. split; [assumption|].
        apply red_refl; assumption.
    + (* unary *)
      rewrite den_un in Hd by assumption. destruct (den F E r) as [y|] eqn:DR; [|discriminate].
      destruct (IHr y Or Hdef eq_refl) as (rv & r' & ER & VR & DR' & GR).
      assert (Hz : is_s32 z) by (eapply un_meaning_s32; eauto).
      assert (HR : reduce (ENode TOperation false o v s ENull r) =
        let! (rv, r') := reduce r in
        match rv with
        | None => Ok (None, ENode TOperation false o v s ENull r')
        | Some x =>
            match o with
            | OpBit => if isPowerOfTwo (u32 x) then Ok (Some (log2n (u32 x)), ENode TConst true o (log2n (u32 x)) s ENull ENull) else Err
            | _ => let! z := reduce_value F o 0 x in Ok (Some z, ENode TConst true o z s ENull ENull)
            end
        end).
      { destruct o; try discriminate; reflexivity. }
      rewrite HR, ER. cbn [bind]. destruct rv as [y'|].
      * rewrite (VR y' eq_refl).
        assert (Hcst : red_spec (ENode TOperation false o v s ENull r) z
                  (Ok (Some z, ENode TConst true o z s ENull ENull))).
        { exists (Some z), (constNode o z s). split; [reflexivity|]. split; [congruence|].
          split; [reflexivity|]. apply red_const; assumption. }
        destruct (is_unary o) eqn:U.
        -- assert (HV : reduce_value F o 0 y = Ok z) by (apply reduce_unary_ok; assumption).
           rewrite HV. cbn [bind]. destruct o; try discriminate; exact Hcst.
        -- destruct o; try discriminate. unfold un_meaning in Hd. cbv zeta in Hd. fold (u32 y) in Hd.
           unfold isPowerOfTwo, log2n. destruct ((0 <? u32 y) && (2 ^ Z.log2 (u32 y) =? u32 y)); [|discriminate].
           injection Hd as Hd. rewrite Hd. exact Hcst.
      * eexists None, _. split; [reflexivity|]. split; [congruence|]. split; [|apply red_un; assumption].
        rewrite den_un by assumption. rewrite DR'. assumption.
    + (* binary *)
      rewrite den_bin in Hd by assumption.
      destruct (den F E l) as [x|] eqn:DL; [|discriminate].
      destruct (den F E r) as [y|] eqn:DR; [|discriminate].
      assert (HdL : forall s, In s (svals l) -> y_type (w_symbol w s) <> SymUndefined).
      { intros q Hq'. apply Hdef. cbn. apply in_or_app. auto. }
      assert (HdR : forall s, In s (svals r) -> y_type (w_symbol w s) <> SymUndefined).
      { intros q Hq'. apply Hdef. cbn. apply in_or_app. auto. }
      specialize (IHl x Ol HdL eq_refl). specialize (IHr y Or HdR eq_refl).
      destruct o; try discriminate; try congruence;
        try (change (red_spec (ENode TOperation false OpAdd v s l r) z (binaryR OpAdd v s l r)));
        match goal with
        | |- red_spec (ENode _ _ OpSub _ _ _ _) _ _ => idtac
        | |- red_spec (ENode _ _ OpLowLimit _ _ _ _) _ _ => idtac
        | |- red_spec (ENode _ _ OpHighLimit _ _ _ _) _ _ => idtac
        | |- red_spec (ENode _ _ OpAssert _ _ _ _) _ _ => idtac
        | |- red_spec (ENode _ _ ?o _ _ _ _) _ _ =>
            apply (binaryR_ok o v s l r x y z); auto
        end.
      * cbn [reduceExpression].
        assert (HB : red_spec (ENode TOperation false OpSub v s l r) z (binaryR OpSub v s l r)).
        { apply (binaryR_ok OpSub v s l r x y z); auto. }
        destruct (expr_GetSectionAndOffset w l) as [[kl ol]|] eqn:GL; [|exact HB].
        destruct (expr_GetSectionAndOffset w r) as [[kr o_r]|] eqn:GR; [|exact HB].
        destruct (Nat.eqb kl kr) eqn:EQ; [|exact HB].
        apply PeanoNat.Nat.eqb_eq in EQ. subst kr.
        unfold expr_GetSectionAndOffset in GL, GR.
        apply (section_and_offset_ok l 0 (w_sections w) kl ol x) in GL; auto.
        apply (section_and_offset_ok r 0 (w_sections w) kl o_r y) in GR; auto.
        cbn [op_meaning] in Hd. apply inr_s32 in Hd as [Hz ->].
        assert (HZ : s32 (ol - o_r) = x - y).
        { rewrite <- (s32_id (x - y)) by assumption. apply s32_eq. subst ol o_r.
          replace (x - y) with ((x - base kl) - (y - base kl)) by lia.
          apply u32_sub; apply u32_idem. }
        rewrite HZ. exists (Some (x - y)), (constNode OpSub (x - y) s). split; [reflexivity|].
        split; [congruence|]. split; [reflexivity|]. apply red_const; assumption.
      * apply (limitR_ok OpLowLimit (fun x y => x >=? y) v s l r x y z); auto;
          cbn in Hd; destruct (y <=? x) eqn:C; try discriminate; [lia|congruence].
      * apply (limitR_ok OpHighLimit (fun x y => x <=? y) v s l r x y z); auto;
          cbn in Hd; destruct (x <=? y) eqn:C; try discriminate; [reflexivity|congruence].
      * apply (limitR_ok OpAssert (fun _ y => truth y) v s l r x y z); auto;
          cbn in Hd; unfold truth; destruct (y =? 0) eqn:C; try discriminate; [reflexivity|congruence].
  - (* pc-relative *)
    pose proof Ho as Ho'. cbn in Ho'. destruct Ho' as (-> & Ol & Or). cbn [den] in Hd.
    destruct (den F E l) as [x|] eqn:DL; [|discriminate].
    destruct (den F E r) as [y|] eqn:DR; [|discriminate].
    assert (Hnone : forall l', red_good l l' -> den F E l' = Some x ->
       red_spec (ENode TPcRelative false o v s l r) z (Ok (None, ENode TPcRelative false o v s l' r))).
    { intros l' (O & P & S1 & K) D'. eexists None, _. split; [reflexivity|]. split; [congruence|].
      split; [cbn [den]; rewrite D', DR; assumption|].
      unfold red_good. cbn. split; [auto|]. split; [cbn [depth]; lia|].
      split; (apply incl_app; [apply incl_appl; assumption|apply incl_appr, incl_refl]). }
    cbn [reduceExpression]. destruct (expr_GetSectionOffset w r k a) as [ro|] eqn:G.
    2:{ apply Hnone; [apply red_refl; assumption|assumption]. }
    assert (HdL : forall s, In s (svals l) -> y_type (w_symbol w s) <> SymUndefined).
    { intros q Hq'. apply Hdef. cbn. apply in_or_app. auto. }
    destruct (IHl x Ol HdL eq_refl) as (lv & l' & EL & VL & DL' & GL). rewrite EL. cbn [bind].
    destruct lv as [adj|]; [|apply Hnone; assumption].
    rewrite (VL adj eq_refl). apply (section_offset_ok r k a ro y) in G; auto.
    unfold pcrel_meaning in Hd. destruct (inr (y + x)) as [q|] eqn:Q; [|discriminate].
    destruct (inr (x - e_pc E)); [|discriminate].
    apply inr_s32 in Q as [_ ->]. apply inr_s32 in Hd as [Hz ->].
    assert (HZ : s32 (ro + x - off) = y + x - e_pc E).
    { rewrite <- (s32_id (y + x - e_pc E)) by assumption. apply s32_eq. subst ro. rewrite Hpc.
      replace (y + x - (base k + off)) with ((y - base k) + (x - off)) by lia.
      replace (u32 (y - base k) + x - off) with (u32 (y - base k) + (x - off)) by lia.
      apply u32_add; [apply u32_idem|reflexivity]. }
    rewrite HZ. exists (Some (y + x - e_pc E)), (constNode o (y + x - e_pc E) s). split; [reflexivity|].
    split; [congruence|]. split; [reflexivity|]. apply red_const; assumption.
  - pose proof Ho as Ho'. cbn in Ho'. destruct Ho' as (-> & Hv & -> & ->). injection Hd as <-.
    eexists (Some v), _. split; [reflexivity|]. split; [congruence|]. split; [reflexivity|].
    apply red_refl; assumption.
  - pose proof Ho as Ho'. cbn in Ho'. destruct Ho' as (-> & -> & ->). injection Hd as <-.
    cbn [reduceExpression]. destruct (y_constant (w_symbol w s)) eqn:C.
    + eexists (Some _), _. split; [reflexivity|]. split; [intros x Hx; injection Hx as <-; symmetry; apply Hc, C|].
      split; [reflexivity|]. apply red_refl; assumption.
    + specialize (Hdef s (or_introl eq_refl)).
      destruct (y_type (w_symbol w s)); try congruence;
        (eexists None, _; split; [reflexivity|]; split; [congruence|]; split; [reflexivity|apply red_refl; assumption]).
  - destruct Ho.
Qed.
End Env.
