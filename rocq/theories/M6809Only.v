(** Proofs about the 6809 instruction parser: only what the manual describes is accepted. *)
From Coq Require Import ZArith List Bool Lia ZifyBool String.
From Verif Require Import Base BaseFacts Arith ArithProofs ExprSpec ExprModel ExprLayout ObjWriteModel OptModel
  SectModel SectSpec SectErrors InstrSpec InstrProofs.
From Verif Require X65Spec X65Only X65Range Z80Range.
From Verif Require Import M6809Model M6809Spec M6809Proofs M6809Range.
Import ListNotations.
Open Scope string_scope.
Open Scope list_scope.
Open Scope Z_scope.

(** ** Numbers and what follows them *)
Definition sized (x d : bool) : list token := (if x then [TGt] else []) ++ (if d then [TLt] else []).
Definition plain_mode (al : Z) (x d : bool) : Z :=
  if has al MODE_EXTENDED && x then MODE_EXTENDED else if has al MODE_DIRECT && d then MODE_DIRECT else MODE_ADDRESS.
(** How a number was read: alone, before a comma, with an index register, with PCR. *)
Inductive followed : Type := Alone | Trailing | WithReg (r : index) | WithPcr.
Definition follow_tokens (w : followed) : list token :=
  match w with Alone => [] | Trailing => [TComma] | WithReg r => [TComma; TId (idx_token r)] | WithPcr => [TComma; TId REG_PCR] end.
Definition INDEX_BITS : Z := MODE_INDEXED_R_5BIT + MODE_INDEXED_R + MODE_INDEXED_R_8BIT + MODE_INDEXED_R_16BIT + MODE_INDEXED_PC_8BIT + MODE_INDEXED_PC_16BIT.
Definition number_read (al : Z) (a' : amode) (ts r : list token) : Prop :=
  (isNull (am_expr a') = true /\ In (am_mode a') [MODE_EXTENDED; MODE_DIRECT; MODE_INDEXED_R_8BIT; MODE_INDEXED_R_16BIT; MODE_INDEXED_PC_8BIT; MODE_INDEXED_PC_16BIT] /\
   has al (am_mode a') = true) \/
  exists x d e w, ts = sized x d ++ TExpr e :: follow_tokens w ++ r /\
    match w with
    | Alone => am_mode a' = plain_mode al x d /\ has al (MODE_ADDRESS + MODE_EXTENDED + MODE_DIRECT) = true
    | Trailing => am_mode a' = plain_mode al x d /\ has al (MODE_ADDRESS + MODE_EXTENDED + MODE_DIRECT) = true /\ has al OFFSETS = true
    | WithReg _ | WithPcr => has (am_mode a') INDEX_BITS = true /\ has (am_mode a') (MODE_ADDRESS + MODE_EXTENDED) = false /\ has al OFFSETS = true
    end.
Lemma index_is : forall ts n r, index_register ts = Some (n, r) -> exists q, ts = TId (idx_token q) :: r /\ n = index_number q.
Proof.
  intros [|[t| | | | | | | | | |] ts] n r H; try discriminate. unfold index_register in H.
  destruct ((0 <=? t - REG_X) && (t - REG_X <=? 3)) eqn:E; [|discriminate]. injection H as <- <-.
  assert (J : t - REG_X = 0 \/ t - REG_X = 1 \/ t - REG_X = 2 \/ t - REG_X = 3) by lia. unfold idx_token.
  destruct J as [J|[J|[J|J]]]; [exists IX|exists IY|exists IU|exists IS]; cbn [index_number]; (split; [f_equal; f_equal; lia|lia]).
Qed.
Lemma plain_sound : forall a al d x start ts st a' r st', has al MODE_NONE = false ->
  parse_plain a al d x start ts st = (true, a', r, st') ->
  st' = st /\ r = ts /\ am_expr a' = am_expr a /\ has al (MODE_ADDRESS + MODE_EXTENDED + MODE_DIRECT) = true /\
  am_mode a' = plain_mode al x d /\ (isNull (am_expr a) = true -> plain_mode al x d <> MODE_ADDRESS).
Proof.
  intros a al d x start ts st a' r st' Nn H. unfold parse_plain in H. unfold plain_mode.
  assert (Hs : forall m, In m [MODE_ADDRESS; MODE_EXTENDED; MODE_DIRECT] -> has al m = true -> has al (MODE_ADDRESS + MODE_EXTENDED + MODE_DIRECT) = true).
  { intros m I Hm. unfold has in *. apply negb_true_iff, Z.eqb_neq. apply negb_true_iff, Z.eqb_neq in Hm. intro Z0. apply Hm.
    assert (W : Z.land m (MODE_ADDRESS + MODE_EXTENDED + MODE_DIRECT) = m) by (cbn [In] in I; decompose [or] I; try contradiction; subst m; reflexivity).
    rewrite <- W, (Z.land_comm m), Z.land_assoc, Z0. apply Z.land_0_l. }
  destruct (has al MODE_EXTENDED) eqn:E1, x; cbn [andb] in *; try (injection H as <- <- <-; repeat split; try reflexivity; try (apply (Hs MODE_EXTENDED); [cbn; tauto|exact E1]); discriminate).
  all: destruct (has al MODE_DIRECT) eqn:E2, d; cbn [andb] in *; try (injection H as <- <- <-; repeat split; try reflexivity; try (apply (Hs MODE_DIRECT); [cbn; tauto|exact E2]); discriminate).
  all: destruct (has al MODE_ADDRESS) eqn:E3, (isNull (am_expr a)) eqn:E4; cbn [andb negb] in *; try (rewrite Nn in H; discriminate H);
    injection H as <- <- <-; repeat split; try reflexivity; try (apply (Hs MODE_ADDRESS); [cbn; tauto|exact E3]); discriminate.
Qed.
Lemma sign_split : forall ts, exists x d r2, ts = sized x d ++ r2 /\
  forall (R : Type) (K : bool -> bool -> list token -> R),
    (let (ext, r1) := match ts with TGt :: r => (true, r) | _ => (false, ts) end in
     let (dir, r2) := match r1 with TLt :: r => (true, r) | _ => (false, r1) end in K ext dir r2) = K x d r2.
Proof.
  intros [|[] ts]; try (eexists false, false, _; split; reflexivity).
  - destruct ts as [|[] ts]; try (eexists true, false, _; split; reflexivity). eexists true, true, _; split; reflexivity.
  - eexists false, true, _; split; reflexivity.
Qed.
Lemma offset_sound : forall a al d x ts st a' r st', parse_offset a al d x ts st = Some (true, a', r, st') ->
  st' = st /\ am_expr a' = am_expr a /\ exists q, ts = TId (idx_token q) :: r /\
  In (am_mode a') [MODE_INDEXED_R; MODE_INDEXED_R_5BIT; MODE_INDEXED_R_8BIT; MODE_INDEXED_R_16BIT] /\
  (isNull (am_expr a) = true -> In (am_mode a') [MODE_INDEXED_R_8BIT; MODE_INDEXED_R_16BIT] /\ has al (am_mode a') = true).
Proof.
  intros a al d x ts st a' r st' H. unfold parse_offset in H. destruct (index_register ts) as [[n r1]|] eqn:E; [|discriminate].
  destruct (index_is _ _ _ E) as (q & -> & ->).
  assert (Nf : isNull (am_expr a) = true -> (negb d && negb x && expr_IsConstant (am_expr a)) && (-16 <=? e_v (am_expr a)) && (e_v (am_expr a) <=? 15) = false).
  { intro N. destruct (am_expr a); [|discriminate N]. cbn [expr_IsConstant]. rewrite andb_false_r. reflexivity. }
  set (f5 := (negb d && negb x && expr_IsConstant (am_expr a)) && (-16 <=? e_v (am_expr a)) && (e_v (am_expr a) <=? 15)) in *. clearbody f5.
  destruct (has al MODE_INDEXED_R_5BIT && f5) eqn:B5.
  { apply andb_prop in B5. destruct B5 as (_ & B5). destruct (e_v (am_expr a) =? 0); injection H as <- <- <-; (split; [reflexivity|split; [reflexivity|]]);
      exists q; cbn [am_mode]; (split; [reflexivity|split; [cbn; tauto|intro N; rewrite (Nf N) in B5; discriminate]]). }
  destruct (has al MODE_INDEXED_R_8BIT) eqn:H8; cbn [andb] in H.
  - destruct (_ || f5).
    + injection H as <- <- <-. split; [reflexivity|split; [reflexivity|]]. exists q. cbn [am_mode]. split; [reflexivity|split; [cbn; tauto|intros _; split; [cbn; tauto|exact H8]]].
    + destruct (has al MODE_INDEXED_R_16BIT) eqn:H16; cbn [andb] in H; [|discriminate]. destruct (_ || f5); [|discriminate].
      injection H as <- <- <-. split; [reflexivity|split; [reflexivity|]]. exists q. cbn [am_mode]. split; [reflexivity|split; [cbn; tauto|intros _; split; [cbn; tauto|exact H16]]].
  - destruct (has al MODE_INDEXED_R_16BIT) eqn:H16; cbn [andb] in H; [|discriminate]. destruct (_ || f5); [|discriminate].
    injection H as <- <- <-. split; [reflexivity|split; [reflexivity|]]. exists q. cbn [am_mode]. split; [reflexivity|split; [cbn; tauto|intros _; split; [cbn; tauto|exact H16]]].
Qed.
(** [parse_expr] after the signs. *)
Definition after_signs (a : amode) (allowed : Z) (ts : list token) (st : xstate) (extended direct : bool) (r2 : list token) : parsed :=
  let (e, r3) := parse_Expression r2 in
  let a1 := set_expr e a in
  match r3 with
  | TComma :: r4 =>
      if has allowed OFFSETS then
        match r4 with
        | TId t :: r5 =>
            if t =? REG_PCR then
              if has allowed MODE_INDEXED_PC_8BIT && direct then (true, AMode MODE_INDEXED_PC_8BIT 0x8C e, r5, st)
              else if has allowed MODE_INDEXED_PC_16BIT then (true, AMode MODE_INDEXED_PC_16BIT 0x8D e, r5, st)
              else (false, a1, r4, st)
            else
              match parse_offset a1 allowed direct extended r4 st with
              | Some p => p
              | None => parse_plain a1 allowed direct extended ts r4 st
              end
        | _ => parse_plain a1 allowed direct extended ts r4 st
        end
      else parse_plain a1 allowed direct extended ts r3 st
  | _ => parse_plain a1 allowed direct extended ts r3 st
  end.
Lemma signs_first : forall a al ts st, parse_expr a al ts st =
  let (ext, r1) := match ts with TGt :: r => (true, r) | _ => (false, ts) end in
  let (dir, r2) := match r1 with TLt :: r => (true, r) | _ => (false, r1) end in after_signs a al ts st ext dir r2.
Proof. reflexivity. Qed.
Lemma parse_expr_sound : forall a al ts st a' r st', has al MODE_NONE = false ->
  parse_expr a al ts st = (true, a', r, st') -> st' = st /\ number_read al a' ts r.
Proof.
  intros a al ts st a' r st' Nn H. rewrite signs_first in H. destruct (sign_split ts) as (x & d & r2 & Et & Ek).
  rewrite (Ek _ (after_signs a al ts st)) in H. unfold after_signs in H.
  assert (Pe : exists e r3, parse_Expression r2 = (e, r3) /\ (isNull e = true \/ r2 = TExpr e :: r3)).
  { destruct r2 as [|[] r2]; cbn [parse_Expression]; eauto. }
  destruct Pe as (e & r3 & Ep & Cs). rewrite Ep in H.
  assert (Nul : isNull e = true -> am_expr a' = e -> In (am_mode a') [MODE_EXTENDED; MODE_DIRECT; MODE_INDEXED_R_8BIT; MODE_INDEXED_R_16BIT; MODE_INDEXED_PC_8BIT; MODE_INDEXED_PC_16BIT] ->
    has al (am_mode a') = true -> number_read al a' ts r) by (intros N Ea I Hm; left; rewrite Ea; tauto).
  assert (Pl : forall tail, parse_plain (set_expr e a) al d x ts tail st = (true, a', r, st') -> st' = st /\ r = tail /\ am_expr a' = e /\
    has al (MODE_ADDRESS + MODE_EXTENDED + MODE_DIRECT) = true /\ am_mode a' = plain_mode al x d /\
    (isNull e = true -> number_read al a' ts r)).
  { intros tail W. destruct (plain_sound _ _ _ _ _ _ _ _ _ _ Nn W) as (W1 & W2 & W3 & W4 & W5 & W6). cbn [am_expr set_expr] in *.
    repeat split; try assumption. intro N. specialize (W6 N). unfold plain_mode in *.
    destruct (has al MODE_EXTENDED && x) eqn:B1; [|destruct (has al MODE_DIRECT && d) eqn:B2; [|congruence]]; (apply Nul; [exact N|exact W3| |]); rewrite W5;
      try (cbn; tauto); [apply andb_prop in B1|apply andb_prop in B2]; tauto. }
  assert (Al : r3 = r -> am_mode a' = plain_mode al x d -> has al (MODE_ADDRESS + MODE_EXTENDED + MODE_DIRECT) = true -> r2 = TExpr e :: r3 -> number_read al a' ts r).
  { intros -> W1 W2 W3. right. exists x, d, e, Alone. rewrite Et, W3. split; [reflexivity|]. split; assumption. }
  assert (Done : forall tail, parse_plain (set_expr e a) al d x ts tail st = (true, a', r, st') -> r3 = tail \/ (r3 = TComma :: tail /\ has al OFFSETS = true) ->
    st' = st /\ number_read al a' ts r).
  { intros tail W Cr. destruct (Pl _ W) as (W1 & W2 & W3 & W4 & W5 & W6). split; [exact W1|]. destruct Cs as [N|E2]; [exact (W6 N)|].
    destruct Cr as [Cr|(Cr & Ho)]; [apply Al; congruence|]. right. exists x, d, e, Trailing. rewrite Et, E2, Cr, W2.
    split; [reflexivity|]. split; [exact W5|split; assumption]. }
  destruct r3 as [|[] r4]; try (apply (Done _ H); left; reflexivity).
  destruct (has al OFFSETS) eqn:Ho; [|apply (Done _ H); left; reflexivity].
  destruct r4 as [|t4 r5]; [apply (Done _ H); right; split; reflexivity|].
  destruct t4 as [t| | | | | | | | | |]; try (apply (Done _ H); right; split; reflexivity).
  destruct (t =? REG_PCR) eqn:Ep2.
  { apply Z.eqb_eq in Ep2. subst t. 
    assert (Pc : forall m, In m [MODE_INDEXED_PC_8BIT; MODE_INDEXED_PC_16BIT] -> has al m = true -> forall post, (true, AMode m post e, r5, st) = (true, a', r, st') -> st' = st /\ number_read al a' ts r).
    { intros m I Hm post W. injection W as <- <- <-. split; [reflexivity|]. destruct Cs as [N|E2].
      - apply Nul; [exact N|reflexivity| |exact Hm]. cbn [am_mode In] in *. tauto.
      - right. exists x, d, e, WithPcr. rewrite Et, E2. split; [reflexivity|]. cbn [am_mode].
        destruct I as [<-|[<-|[]]]; (split; [reflexivity|split; [reflexivity|exact Ho]]). }
    destruct (has al MODE_INDEXED_PC_8BIT && d) eqn:B8; [apply (Pc MODE_INDEXED_PC_8BIT) in H; [exact H|cbn; tauto|apply andb_prop in B8; tauto]|].
    destruct (has al MODE_INDEXED_PC_16BIT) eqn:B16; [apply (Pc MODE_INDEXED_PC_16BIT) in H; [exact H|cbn; tauto|exact B16]|discriminate]. }
  destruct (parse_offset (set_expr e a) al d x (TId t :: r5) st) as [p|] eqn:Eo; [|apply (Done _ H); right; split; reflexivity].
  subst p. destruct (offset_sound _ _ _ _ _ _ _ _ _ Eo) as (W1 & W2 & q & W3 & W4 & W5). split; [exact W1|]. cbn [am_expr set_expr] in *.
  destruct Cs as [N|E2]; [apply Nul; [exact N|exact W2|destruct (W5 N) as (W5' & _); cbn [In] in *; tauto|exact (proj2 (W5 N))]|].
  right. exists x, d, e, (WithReg q). rewrite Et, E2, W3. split; [reflexivity|].
  cbn [In] in W4. decompose [or] W4; try contradiction;
    match goal with E : _ = am_mode a' |- _ => rewrite <- E end; (split; [reflexivity|split; [reflexivity|exact Ho]]).
Qed.

(** ** Steps *)
Lemma minuses_are : forall ts n r, minuses ts = (n, r) -> 0 <= n /\ ts = repeat TMinus (Z.to_nat n) ++ r.
Proof.
  induction ts as [|t ts IH]; intros n r H; cbn [minuses] in H; [injection H as <- <-; split; [lia|reflexivity]|].
  destruct t; try (injection H as <- <-; split; [lia|reflexivity]).
  destruct (minuses ts) as [m r1]. injection H as <- <-. destruct (IH _ _ eq_refl) as (P & E). split; [lia|].
  replace (Z.to_nat (m + 1)) with (Datatypes.S (Z.to_nat m)) by lia. cbn [repeat app]. rewrite E at 1. reflexivity.
Qed.
Lemma pluses_are : forall ts n r, pluses ts = (n, r) -> 0 <= n /\ ts = repeat TPlus (Z.to_nat n) ++ r.
Proof.
  induction ts as [|t ts IH]; intros n r H; cbn [pluses] in H; [injection H as <- <-; split; [lia|reflexivity]|].
  destruct t; try (injection H as <- <-; split; [lia|reflexivity]).
  destruct (pluses ts) as [m r1]. injection H as <- <-. destruct (IH _ _ eq_refl) as (P & E). split; [lia|].
  replace (Z.to_nat (m + 1)) with (Datatypes.S (Z.to_nat m)) by lia. cbn [repeat app]. rewrite E at 1. reflexivity.
Qed.
Definition place_read_as (al : Z) (a' : amode) (ts r : list token) : Prop :=
  exists p m b, step_of p = Some (m, b) /\ am_mode a' = m /\ has al m = true /\ ts = lex (place_text p) ++ r.
Lemma step_sound : forall a al ts st a' r st', parse_step a al ts st = (true, a', r, st') -> st' = st /\ place_read_as al a' (TComma :: ts) r.
Proof.
  intros a al ts st a' r st' H. unfold parse_step in H. destruct (minuses ts) as [mi r0] eqn:Em. destruct (minuses_are _ _ _ Em) as (P0 & E0).
  destruct (index_register r0) as [[n r1]|] eqn:Ei; [|discriminate]. destruct (index_is _ _ _ Ei) as (q & E1 & _).
  destruct (pluses r1) as [pl r2] eqn:Ep. destruct (pluses_are _ _ _ Ep) as (P1 & E2). cbv zeta in H.
  assert (Go : forall p m b, step_of p = Some (m, b) -> has al m = true -> TComma :: ts = lex (place_text p) ++ r2 ->
    forall post, (true, AMode m post (am_expr a), r2, st) = (true, a', r, st') -> st' = st /\ place_read_as al a' (TComma :: ts) r).
  { intros p m b S1 S2 S3 post W. injection W as <- <- <-. split; [reflexivity|]. exists p, m, b. auto. }
  destruct ((mi =? 0) && (pl =? 1) && has al MODE_INDEXED_R_INC1) eqn:C1.
  { apply andb_prop in C1. destruct C1 as (C1 & C2). assert (mi = 0 /\ pl = 1) as (-> & ->) by lia.
    apply (Go (Inc1 q) _ _ eq_refl C2) in H; [exact H|]. rewrite E0, E1, E2. cbn [place_text lex map app]. rewrite lex_index. reflexivity. }
  destruct ((mi =? 0) && (pl =? 2) && has al MODE_INDEXED_R_INC2) eqn:C2.
  { apply andb_prop in C2. destruct C2 as (C2 & C3). assert (mi = 0 /\ pl = 2) as (-> & ->) by lia.
    apply (Go (Inc2 q) _ _ eq_refl C3) in H; [exact H|]. rewrite E0, E1, E2. cbn [place_text lex map app]. rewrite lex_index. reflexivity. }
  destruct ((mi =? 1) && (pl =? 0) && has al MODE_INDEXED_R_DEC1) eqn:C3.
  { apply andb_prop in C3. destruct C3 as (C3 & C4). assert (mi = 1 /\ pl = 0) as (-> & ->) by lia.
    apply (Go (Dec1 q) _ _ eq_refl C4) in H; [exact H|]. rewrite E0, E1, E2. cbn [place_text lex map app]. rewrite lex_index. reflexivity. }
  destruct ((mi =? 2) && (pl =? 0) && has al MODE_INDEXED_R_DEC2) eqn:C4.
  { apply andb_prop in C4. destruct C4 as (C4 & C5). assert (mi = 2 /\ pl = 0) as (-> & ->) by lia.
    apply (Go (Dec2 q) _ _ eq_refl C5) in H; [exact H|]. rewrite E0, E1, E2. cbn [place_text lex map app]. rewrite lex_index. reflexivity. }
  destruct ((mi =? 0) && (pl =? 0) && has al MODE_INDEXED_R) eqn:C5; [|discriminate].
  apply andb_prop in C5. destruct C5 as (C5 & C6). assert (mi = 0 /\ pl = 0) as (-> & ->) by lia.
  apply (Go (At q) _ _ eq_refl C6) in H; [exact H|]. rewrite E0, E1, E2. cbn [place_text lex map app]. rewrite lex_index. reflexivity.
Qed.
Lemma acc_sound : forall a al c m b ts st a' r st', step_of (Acc c IX) = Some (m, b) -> has al m = true ->
  parseRegisterIndexed a m b ts st = (true, a', r, st') ->
  st' = st /\ place_read_as al a' (lex1 (Word (acc_name c)) :: ts) r.
Proof.
  intros a al c m b ts st a' r st' S1 S2 H. unfold parseRegisterIndexed in H. destruct ts as [|[] ts]; try discriminate.
  destruct (index_register ts) as [[n r1]|] eqn:Ei; [|discriminate]. destruct (index_is _ _ _ Ei) as (q & E1 & _). injection H as <- <- <-.
  split; [reflexivity|]. exists (Acc c q), m, b. split; [destruct c; exact S1|]. split; [reflexivity|]. split; [exact S2|].
  cbn [place_text lex map app]. rewrite lex_index, E1. reflexivity.
Qed.
(** An operand in memory, without the brackets. *)
Lemma memory_sound : forall a al ts st a' r st', In al memory_modes -> quiet st st' -> parse_mode a al ts st = (true, a', r, st') ->
  st' = st /\ (number_read al a' ts r \/ place_read_as al a' ts r \/
    (has al MODE_IMMEDIATE = true /\ am_mode a' = MODE_IMMEDIATE /\ exists e, ts = THash :: TExpr e :: r)).
Proof.
  intros a al ts st a' r st' I Q H. destruct (memory_has al I) as (H0 & _). unfold parse_mode in H. fold LISTS in H. rewrite H0 in H.
  assert (Nn : has al MODE_NONE = false) by (repeat (destruct I as [<-|I]; [reflexivity|]); destruct I).
  assert (Ex : parse_expr a al ts st = (true, a', r, st') -> st' = st /\ (number_read al a' ts r \/ place_read_as al a' ts r \/
    (has al MODE_IMMEDIATE = true /\ am_mode a' = MODE_IMMEDIATE /\ exists e, ts = THash :: TExpr e :: r))).
  { intro W. destruct (parse_expr_sound _ _ _ _ _ _ _ Nn W). tauto. }
  destruct ts as [|[t| | | | | | | | | |] ts]; try exact (Ex H).
  - destruct (has al MODE_INDEXED_R_A && (t =? REG_A)) eqn:Ca.
    { apply andb_prop in Ca. destruct Ca as (Ca & Cb). apply Z.eqb_eq in Cb. subst t.
      destruct (acc_sound a al AccA _ _ _ _ _ _ _ eq_refl Ca H). tauto. }
    destruct (has al MODE_INDEXED_R_B && (t =? REG_B)) eqn:Cb.
    { apply andb_prop in Cb. destruct Cb as (Cb & Cc). apply Z.eqb_eq in Cc. subst t.
      destruct (acc_sound a al AccB _ _ _ _ _ _ _ eq_refl Cb H). tauto. }
    destruct (has al MODE_INDEXED_R_D && (t =? REG_D)) eqn:Cd; [|exact (Ex H)].
    apply andb_prop in Cd. destruct Cd as (Cd & Ce). apply Z.eqb_eq in Ce. subst t.
    destruct (acc_sound a al AccD _ _ _ _ _ _ _ eq_refl Cd H). tauto.
  - destruct (has al _) eqn:Hs; [|exact (Ex H)]. destruct (step_sound _ _ _ _ _ _ _ H). tauto.
  - destruct (has al MODE_IMMEDIATE) eqn:Hi; [|exact (Ex H)]. unfold parseExpressionMode in H.
    destruct (parse_Expression ts) as [e r1] eqn:Ep. destruct (isNull e) eqn:N; [discriminate|]. injection H as <- <- <-. split; [reflexivity|].
    right. right. split; [reflexivity|]. split; [reflexivity|]. exists e. destruct ts as [|[] ts]; cbn [parse_Expression] in Ep; injection Ep as <- <-; try discriminate N; reflexivity.
Qed.

(** ** Forms *)
Definition mk (e : expr) : arg := X65Spec.Arg (Num 0) e 0.
Definition classes (name : string) (ok : column -> Prop) (ts r : list token) : Prop :=
  (exists (g : form arg) c, belongs None g c = true /\ ok c /\ ts = lex (text (form_map g_expr g)) ++ r) \/
  (exists o, odd name o /\ ts = lex o ++ r).
Definition nullish (al m : Z) : Prop :=
  (In m [MODE_EXTENDED; MODE_DIRECT; MODE_INDEXED_R_8BIT; MODE_INDEXED_R_16BIT; MODE_INDEXED_PC_8BIT; MODE_INDEXED_PC_16BIT] /\ has al m = true) \/
  In m (map (Z.lor MODE_INDIRECT_MODIFIER) [MODE_EXTENDED_INDIRECT; MODE_INDEXED_R_8BIT; MODE_INDEXED_R_16BIT; MODE_INDEXED_PC_8BIT; MODE_INDEXED_PC_16BIT]).
Lemma with_reg : forall q, In [Comma; Word (index_name q)] indexes.
Proof. intros []; cbn; tauto. Qed.
Lemma lex_follow : forall q, lex [Comma; Word (index_name q)] = [TComma; TId (idx_token q)].
Proof. intro q. cbn [lex map]. rewrite lex_index. reflexivity. Qed.
Section Class.
Variable name : string.
Variable ok : column -> Prop.
Variable al : Z.
Hypothesis al_is : In al [MODE_P; MODE_Q; MODE_T].
Hypothesis ok_idx : ok Idx.
Hypothesis ok_mem : al <> MODE_T -> ok Dir /\ ok Ext.
Hypothesis ok_imm : al = MODE_P -> ok Imm8 \/ ok Imm16 \/ In name ["ROL"; "ROR"].
Lemma written_here : forall (g : form arg) c ts r, belongs None g c = true -> ok c -> ts = lex (text (form_map g_expr g)) ++ r -> classes name ok ts r.
Proof. intros. left. eauto. Qed.
Lemma odd_here : forall o ts r, odd name o -> ts = lex o ++ r -> classes name ok ts r.
Proof. intros. right. eauto. Qed.
Lemma number_class : forall a' ts r, number_read al a' ts r -> (isNull (am_expr a') = true /\ nullish al (am_mode a')) \/ classes name ok ts r.
Proof.
  intros a' ts r [(N & I & Hm)|(x & d & e & w & -> & W)]; [left; split; [exact N|left; tauto]|right].
  assert (Mem : has al (MODE_ADDRESS + MODE_EXTENDED + MODE_DIRECT) = true -> al <> MODE_T) by (intros W0 ->; discriminate W0).
  destruct w as [| |q|]; cbn [follow_tokens app].
  - destruct W as (_ & W). apply Mem in W. destruct (ok_mem W) as (O1 & O2).
    destruct x, d; unfold sized; cbn [app].
    + apply (odd_here ([Gt; Lt; Operand e] ++ [])); [apply odd_both; left; reflexivity|reflexivity].
    + apply (written_here (ExtendedTo (mk e)) Ext); [reflexivity|exact O2|reflexivity].
    + apply (written_here (DirectTo (mk e)) Dir); [reflexivity|exact O1|reflexivity].
    + apply (written_here (Address (mk e)) Ext); [reflexivity|exact O2|reflexivity].
  - destruct x, d; unfold sized; cbn [app].
    + apply (odd_here ([Gt; Lt] ++ [Operand e; Comma])); [apply odd_comma; cbn; tauto|reflexivity].
    + apply (odd_here ([Gt] ++ [Operand e; Comma])); [apply odd_comma; cbn; tauto|reflexivity].
    + apply (odd_here ([Lt] ++ [Operand e; Comma])); [apply odd_comma; cbn; tauto|reflexivity].
    + apply (odd_here ([] ++ [Operand e; Comma])); [apply odd_comma; cbn; tauto|reflexivity].
  - destruct x, d; unfold sized; cbn [app].
    + apply (odd_here ([Gt; Lt; Operand e] ++ [Comma; Word (index_name q)])); [apply odd_both, with_reg|cbn [app lex map]; rewrite lex_index; reflexivity].
    + apply (written_here (Indexed false (Off Long (mk e) q)) Idx); [reflexivity|exact ok_idx|destruct q; reflexivity].
    + apply (written_here (Indexed false (Off Short (mk e) q)) Idx); [reflexivity|exact ok_idx|destruct q; reflexivity].
    + apply (written_here (Indexed false (Off Auto (mk e) q)) Idx); [reflexivity|exact ok_idx|destruct q; reflexivity].
  - destruct x, d; unfold sized; cbn [app].
    + apply (odd_here ([Gt; Lt; Operand e] ++ [Comma; Word "PCR"])); [apply odd_both; cbn; tauto|reflexivity].
    + apply (written_here (Indexed false (Pcr Long (mk e))) Idx); [reflexivity|exact ok_idx|reflexivity].
    + apply (written_here (Indexed false (Pcr Short (mk e))) Idx); [reflexivity|exact ok_idx|reflexivity].
    + apply (written_here (Indexed false (Pcr Auto (mk e))) Idx); [reflexivity|exact ok_idx|reflexivity].
Qed.
Lemma bracket_class : forall a' ts r, number_read MODE_ALLOWED_INDIRECT a' ts (TRb :: r) ->
  (isNull (am_expr a') = true /\
   In (am_mode a') [MODE_EXTENDED; MODE_INDEXED_R_8BIT; MODE_INDEXED_R_16BIT; MODE_INDEXED_PC_8BIT; MODE_INDEXED_PC_16BIT]) \/ classes name ok (TLb :: ts) r.
Proof.
  intros a' ts r [(N & I & Hm)|(x & d & e & w & -> & W)].
  { left. split; [exact N|]. cbn [In] in *. destruct I as [I|[I|I]]; [tauto|rewrite <- I in Hm; discriminate Hm|tauto]. }
  right. destruct w as [| |q|]; cbn [follow_tokens app].
  - destruct x, d; unfold sized; cbn [app].
    + apply (odd_here ([Lb; Gt; Lt; Operand e] ++ [] ++ [Rb])); [apply odd_both_in; left; reflexivity|reflexivity].
    + apply (written_here (Indirect true (mk e)) Idx); [reflexivity|exact ok_idx|reflexivity].
    + apply (odd_here [Lb; Lt; Operand e; Rb]); [apply odd_direct_in|reflexivity].
    + apply (written_here (Indirect false (mk e)) Idx); [reflexivity|exact ok_idx|reflexivity].
  - destruct x, d; unfold sized; cbn [app].
    + apply (odd_here ([Lb] ++ [Gt; Lt] ++ [Operand e; Comma; Rb])); [apply odd_comma_in; cbn; tauto|reflexivity].
    + apply (odd_here ([Lb] ++ [Gt] ++ [Operand e; Comma; Rb])); [apply odd_comma_in; cbn; tauto|reflexivity].
    + apply (odd_here ([Lb] ++ [Lt] ++ [Operand e; Comma; Rb])); [apply odd_comma_in; cbn; tauto|reflexivity].
    + apply (odd_here ([Lb] ++ [] ++ [Operand e; Comma; Rb])); [apply odd_comma_in; cbn; tauto|reflexivity].
  - destruct x, d; unfold sized; cbn [app].
    + apply (odd_here ([Lb; Gt; Lt; Operand e] ++ [Comma; Word (index_name q)] ++ [Rb])); [apply odd_both_in, with_reg|cbn [app lex map]; rewrite lex_index; reflexivity].
    + apply (written_here (Indexed true (Off Long (mk e) q)) Idx); [reflexivity|exact ok_idx|destruct q; reflexivity].
    + apply (written_here (Indexed true (Off Short (mk e) q)) Idx); [reflexivity|exact ok_idx|destruct q; reflexivity].
    + apply (written_here (Indexed true (Off Auto (mk e) q)) Idx); [reflexivity|exact ok_idx|destruct q; reflexivity].
  - destruct x, d; unfold sized; cbn [app].
    + apply (odd_here ([Lb; Gt; Lt; Operand e] ++ [Comma; Word "PCR"] ++ [Rb])); [apply odd_both_in; cbn; tauto|reflexivity].
    + apply (written_here (Indexed true (Pcr Long (mk e))) Idx); [reflexivity|exact ok_idx|reflexivity].
    + apply (written_here (Indexed true (Pcr Short (mk e))) Idx); [reflexivity|exact ok_idx|reflexivity].
    + apply (written_here (Indexed true (Pcr Auto (mk e))) Idx); [reflexivity|exact ok_idx|reflexivity].
Qed.
Lemma place_again : forall p, step_of p <> None -> place_map g_expr (place_map mk p) = p.
Proof. intros [] H; try reflexivity; cbn in H; congruence. Qed.
Lemma memory_class : forall a ts st a' r st', quiet st st' -> m6809_ParseAddressingMode a al ts st = (true, a', r, st') ->
  st' = st /\ ((isNull (am_expr a') = true /\ nullish al (am_mode a')) \/ classes name ok ts r).
Proof.
  intros a ts st a' r st' Q H.
  assert (Im : In al memory_modes) by (unfold memory_modes; cbn [In] in *; tauto).
  assert (Hi : has al MODE_INDIRECT_MODIFIER = true) by (cbn [In] in al_is; decompose [or] al_is; try contradiction; match goal with E : _ = al |- _ => rewrite <- E end; reflexivity).
  assert (Pl : forall ts, parse_mode a al ts st = (true, a', r, st') -> st' = st /\ ((isNull (am_expr a') = true /\ nullish al (am_mode a')) \/ classes name ok ts r)).
  { intros ts0 W. destruct (memory_sound _ _ _ _ _ _ _ Im Q W) as (E & [C|[C|C]]); (split; [exact E|]).
    - exact (number_class _ _ _ C).
    - right. destruct C as (p & m & b & C1 & C2 & C3 & C4).
      apply (written_here (Indexed false (place_map mk p)) Idx); [reflexivity|exact ok_idx|]. cbn [form_map text]. rewrite place_again by congruence. exact C4.
    - right. destruct C as (C1 & _ & e & C2). assert (Pp : al = MODE_P) by (cbn [In] in al_is; decompose [or] al_is; try contradiction; subst al; [reflexivity|discriminate C1|discriminate C1]).
      destruct (ok_imm Pp) as [O|[O|O]].
      + apply (written_here (Immediate (mk e)) Imm8); [reflexivity|exact O|exact C2].
      + apply (written_here (Immediate (mk e)) Imm16); [reflexivity|exact O|exact C2].
      + apply (odd_here [Hash; Operand e]); [apply odd_immediate; cbn [In] in *; tauto|exact C2]. }
  destruct ts as [|[] ts]; try exact (Pl _ H). cbn [m6809_ParseAddressingMode] in H. rewrite Hi in H.
  destruct (parse_mode a MODE_ALLOWED_INDIRECT ts st) as [[[b a1] r1] st1] eqn:E. destruct b; [|discriminate].
  destruct r1 as [|[] r1]; try discriminate. injection H as <- <- <-.
  destruct (memory_sound a MODE_ALLOWED_INDIRECT ts st a1 (TRb :: r1) st1 ltac:(cbn; tauto) Q E) as (Es & [C|[C|C]]); (split; [exact Es|]).
  - destruct (bracket_class _ _ _ C) as [(N & I)|W]; [|right; exact W]. left.
    clear - N I. destruct a1 as [m0 p0 e0]. cbn [am_mode am_expr] in *. cbn [In] in I.
    destruct I as [<-|[<-|[<-|[<-|[<-|[]]]]]];
      (split; [exact N|right; vm_compute; tauto]).
  - right. destruct C as (p & m & b & C1 & C2 & C3 & C4).
    apply (written_here (Indexed true (place_map mk p)) Idx); [|exact ok_idx|].
    + destruct p as [| | | | |c|s n|s n]; try reflexivity; injection C1 as <- _; discriminate C3.
    + cbn [form_map text]. rewrite place_again by congruence. rewrite C4. cbn [lex map app]. f_equal.
      unfold lex. rewrite map_app, <- app_assoc. reflexivity.
  - destruct C as (C1 & _). discriminate C1.
Qed.
End Class.

(** ** A number that is missing is not accepted *)
Lemma null8 : forall e st, isNull e = true -> outputExpr8 e st = Err.
Proof. intros [] st H; [reflexivity|discriminate]. Qed.
Lemma null16 : forall e st, isNull e = true -> outputExpr16 e st = Err.
Proof. intros [] st H; [reflexivity|discriminate]. Qed.
Lemma null_pc : forall F e st, isNull e = true -> outputPc8 F e st = Err /\ outputPc16 F e st = Err.
Proof. intros F [] st H; [split; reflexivity|discriminate]. Qed.
Definition memory_handler (al : Z) (h : handler) : bool :=
  match h with HOpcodeQ | HOpcodeP8 | HOpcodeP16 | HOpcodeP16Page1 | HOpcodeP16Page2 => true | HOpcodeT16 => al =? MODE_T | _ => false end.
Lemma null_indexed : forall F a st r, isNull (am_expr a) = true ->
  has (am_mode a) (MODE_INDEXED_R_8BIT + MODE_INDEXED_R_16BIT + MODE_EXTENDED_INDIRECT + MODE_INDEXED_PC_8BIT + MODE_INDEXED_PC_16BIT) = true ->
  emitIndexed F a st = Ok r -> False.
Proof.
  intros F a st r N Hm H. unfold emitIndexed, done in H. destruct (sect_OutputConst8 _ st) as [s| |]; try discriminate. cbn [bind] in H.
  destruct (null_pc F _ s N) as (N1 & N2). rewrite (null8 _ s N), (null16 _ s N), N1, N2 in H.
  assert (D : forall x y, has (am_mode a) (Z.lor x y) = has (am_mode a) x || has (am_mode a) y).
  { intros x y. unfold has. rewrite Z.land_lor_distr_r. rewrite <- negb_andb. f_equal.
    destruct (Z.land (am_mode a) x =? 0) eqn:E1, (Z.land (am_mode a) y =? 0) eqn:E2; cbn [andb].
    - apply Z.eqb_eq in E1, E2. rewrite E1, E2. reflexivity.
    - apply Z.eqb_neq in E2. apply Z.eqb_neq. intro W. apply Z.lor_eq_0_iff in W. tauto.
    - apply Z.eqb_neq in E1. apply Z.eqb_neq. intro W. apply Z.lor_eq_0_iff in W. tauto.
    - apply Z.eqb_neq in E2. apply Z.eqb_neq. intro W. apply Z.lor_eq_0_iff in W. tauto. }
  replace (MODE_INDEXED_R_8BIT + MODE_INDEXED_R_16BIT + MODE_EXTENDED_INDIRECT + MODE_INDEXED_PC_8BIT + MODE_INDEXED_PC_16BIT)
    with (Z.lor (Z.lor (Z.lor MODE_INDEXED_R_8BIT (MODE_INDEXED_R_16BIT + MODE_EXTENDED_INDIRECT)) MODE_INDEXED_PC_8BIT) MODE_INDEXED_PC_16BIT) in Hm by reflexivity.
  rewrite !D in Hm.
  destruct (has (am_mode a) MODE_INDEXED_R_8BIT); [discriminate|]. destruct (has (am_mode a) (MODE_INDEXED_R_16BIT + MODE_EXTENDED_INDIRECT)); [discriminate|].
  destruct (has (am_mode a) MODE_INDEXED_PC_8BIT); [discriminate|]. destruct (has (am_mode a) MODE_INDEXED_PC_16BIT); discriminate.
Qed.
Lemma null_opcode : forall F base a d e i st r, isNull (am_expr a) = true ->
  (am_mode a = MODE_DIRECT \/ am_mode a = MODE_EXTENDED \/
   (am_mode a <> MODE_DIRECT /\ am_mode a <> MODE_EXTENDED /\ has (am_mode a) MODE_ALL_INDEXED = true /\
    has (am_mode a) (MODE_INDEXED_R_8BIT + MODE_INDEXED_R_16BIT + MODE_EXTENDED_INDIRECT + MODE_INDEXED_PC_8BIT + MODE_INDEXED_PC_16BIT) = true)) ->
  emitOpcode F base a d e i st = Ok r -> False.
Proof.
  intros F base a d e i st r N Hm H. unfold emitOpcode in H. destruct Hm as [E|[E|(E1 & E2 & E3 & E4)]].
  - rewrite E in H. change (MODE_DIRECT =? MODE_DIRECT) with true in H. cbv iota in H. destruct (sect_OutputConst8 _ st); try discriminate. cbn [bind] in H.
    unfold expr_Binary in H. rewrite N in H. discriminate.
  - rewrite E in H. change (MODE_EXTENDED =? MODE_DIRECT) with false in H. change (MODE_EXTENDED =? MODE_EXTENDED) with true in H. cbv iota in H.
    destruct (sect_OutputConst8 _ st) as [s| |]; try discriminate. cbn [bind] in H. unfold done in H. rewrite (null16 _ s N) in H. discriminate.
  - apply Z.eqb_neq in E1, E2. rewrite E1, E2, E3 in H. destruct (sect_OutputConst8 _ st) as [s| |]; try discriminate. cbn [bind] in H.
    destruct (emitIndexed F a s) as [x| |] eqn:E; try discriminate. exact (null_indexed _ _ _ _ N E4 E).
Qed.
Lemma null_refused : forall F h base dp a ts st r al, memory_handler al h = true -> isNull (am_expr a) = true -> nullish al (am_mode a) ->
  apply_handler F h base (chosen dp a) ts st = Ok r -> False.
Proof.
  intros F h base dp a ts st r al Hh N Nm H.
  assert (Na : am_mode a <> MODE_ADDRESS).
  { destruct Nm as [(I & _)|I]; cbn [map In] in I; decompose [or] I; try contradiction; match goal with E : _ = am_mode a |- _ => rewrite <- E end; discriminate. }
  rewrite (chosen_other dp a Na) in H.
  assert (Ni : am_mode a <> MODE_IMMEDIATE).
  { destruct Nm as [(I & _)|I]; cbn [map In] in I; decompose [or] I; try contradiction; match goal with E : _ = am_mode a |- _ => rewrite <- E end; discriminate. }
  apply Z.eqb_neq in Ni.
  assert (No : am_mode a = MODE_DIRECT \/ am_mode a = MODE_EXTENDED \/
   (am_mode a <> MODE_DIRECT /\ am_mode a <> MODE_EXTENDED /\ has (am_mode a) MODE_ALL_INDEXED = true /\
    has (am_mode a) (MODE_INDEXED_R_8BIT + MODE_INDEXED_R_16BIT + MODE_EXTENDED_INDIRECT + MODE_INDEXED_PC_8BIT + MODE_INDEXED_PC_16BIT) = true)).
  { destruct Nm as [(I & _)|I]; cbn [map In] in I; decompose [or] I; try contradiction; match goal with E : _ = am_mode a |- _ => rewrite <- E end;
      try tauto; right; right; repeat split; discriminate. }
  destruct h; cbn [memory_handler] in Hh; try discriminate; cbn [apply_handler] in H.
  - destruct (handleOpcodeQ F base a st) as [x| |] eqn:E; try discriminate. exact (null_opcode _ _ _ _ _ _ _ _ N No E).
  - unfold handleOpcodeP8 in H. rewrite Ni in H. destruct (emitOpcode _ _ _ _ _ _ st) as [x| |] eqn:E; try discriminate. exact (null_opcode _ _ _ _ _ _ _ _ N No E).
  - unfold handleOpcodeT16 in H. apply Z.eqb_eq in Hh. subst al. destruct (sect_OutputConst8 base st) as [s| |]; try discriminate. cbn [bind] in H.
    destruct (emitIndexed F a s) as [x| |] eqn:E; try discriminate. apply (null_indexed _ _ _ _ N) in E; [exact E|].
    destruct Nm as [(I & Hm)|I]; cbn [map In] in I; decompose [or] I; try contradiction; match goal with W : _ = am_mode a |- _ => rewrite <- W in * end; try reflexivity; discriminate Hm.
  - unfold handleOpcodeP16 in H. rewrite Ni in H. destruct (emitOpcode _ _ _ _ _ _ st) as [x| |] eqn:E; try discriminate. exact (null_opcode _ _ _ _ _ _ _ _ N No E).
  - unfold paged, handleOpcodeP16 in H. rewrite Ni in H. destruct (sect_OutputConst8 PAGE1 st) as [s| |]; try discriminate. cbn [bind] in H.
    destruct (emitOpcode _ _ _ _ _ _ s) as [x| |] eqn:E; try discriminate. exact (null_opcode _ _ _ _ _ _ _ _ N No E).
  - unfold paged, handleOpcodeP16 in H. rewrite Ni in H. destruct (sect_OutputConst8 PAGE2 st) as [s| |]; try discriminate. cbn [bind] in H.
    destruct (emitOpcode _ _ _ _ _ _ s) as [x| |] eqn:E; try discriminate. exact (null_opcode _ _ _ _ _ _ _ _ N No E).
Qed.

(** ** Reports are kept *)
Lemma plain_state : forall a al d x s ts st, snd (parse_plain a al d x s ts st) = st.
Proof. intros. unfold parse_plain. destruct (_ && _); [reflexivity|]. destruct (_ && _); [reflexivity|]. destruct (_ && _); reflexivity. Qed.
Lemma expr_state : forall a al ts st, snd (parse_expr a al ts st) = st.
Proof.
  intros a al ts st. rewrite signs_first. destruct (sign_split ts) as (x & d & r2 & _ & Ek). rewrite (Ek _ (after_signs a al ts st)).
  unfold after_signs. destruct (parse_Expression r2) as [e r3]. destruct r3 as [|[] r4]; try apply plain_state.
  destruct (has al OFFSETS); [|apply plain_state]. destruct r4 as [|[t| | | | | | | | | |] r5]; try apply plain_state.
  destruct (t =? REG_PCR).
  - destruct (has al MODE_INDEXED_PC_8BIT && d); [reflexivity|]. destruct (has al MODE_INDEXED_PC_16BIT); reflexivity.
  - unfold parse_offset. destruct (index_register _) as [[n r]|]; [|apply plain_state].
    destruct (_ && _); [destruct (_ =? 0); reflexivity|]. destruct (_ && _); [reflexivity|]. destruct (_ && _); [reflexivity|apply plain_state].
Qed.
Lemma bit_more : forall al dis ts st, more st (snd (parseRegisterListBit al dis ts st)).
Proof.
  intros al dis [|[t| | | | | | | | | |] ts] st; try apply more_refl. unfold parseRegisterListBit.
  repeat (destruct (t =? _); [try apply more_refl; apply more_error|]). apply more_refl.
Qed.
Lemma list_more : forall al dis ts b st, more st (snd (register_list al dis b ts st)).
Proof.
  intros al dis. fix IH 1. intros ts b st. destruct ts as [|t ts]; cbn [register_list].
  - pose proof (bit_more al dis [] st) as M. destruct (parseRegisterListBit al dis [] st) as [bit st1]. cbn [snd] in M. destruct (bit =? 0); exact M.
  - pose proof (bit_more al dis (t :: ts) st) as M. destruct (parseRegisterListBit al dis (t :: ts) st) as [bit st1]. cbn [snd] in M. destruct (bit =? 0); [exact M|].
    destruct ts as [|[] ts]; try exact M. apply (more_trans _ _ _ M). apply IH.
Qed.
Lemma mode_more : forall a al ts st, more st (snd (parse_mode a al ts st)).
Proof.
  intros a al ts st. assert (Ex : more st (snd (parse_expr a al ts st))) by (rewrite expr_state; apply more_refl).
  assert (Pe : forall m r, more st (snd (parseExpressionMode a m r st))).
  { intros m r. unfold parseExpressionMode. destruct (parse_Expression r) as [e r1]. destruct (isNull e); [apply more_error|apply more_refl]. }
  assert (Pr : forall m b r, more st (snd (parseRegisterIndexed a m b r st))).
  { intros m b r. unfold parseRegisterIndexed. destruct r as [|[] r]; try apply more_refl. destruct (index_register r) as [[n r1]|]; apply more_refl. }
  unfold parse_mode. destruct (has al (MODE_REGISTER_LIST_S + MODE_REGISTER_LIST_U)).
  - assert (L : forall x y, more st (snd (let '(bits, r, st1) := register_list x y 0 ts st in (true, AMode (Z.land al (MODE_REGISTER_LIST_S + MODE_REGISTER_LIST_U)) bits (am_expr a), r, st1)))).
    { intros x y. pose proof (list_more x y ts 0 st) as M. destruct (register_list x y 0 ts st) as [[bits r] st1]. exact M. }
    destruct ts as [|[] ts]; try apply L. destruct (has al MODE_IMMEDIATE); [apply Pe|apply more_refl].
  - destruct ts as [|[t| | | | | | | | | |] ts]; try exact Ex.
    + destruct (_ && _); [apply Pr|]. destruct (_ && _); [apply Pr|]. destruct (_ && _); [apply Pr|exact Ex].
    + destruct (has al _); [|exact Ex]. unfold parse_step. destruct (minuses ts) as [mi r0]. destruct (index_register r0) as [[n r1]|]; [|apply more_refl].
      destruct (pluses r1) as [pl r2]. cbv zeta. repeat (destruct (_ && _); [apply more_refl|]). apply more_refl.
    + destruct (has al MODE_IMMEDIATE); [apply Pe|exact Ex].
Qed.
Lemma operand_more : forall a al ts st b a' r st', m6809_ParseAddressingMode a al ts st = (b, a', r, st') -> more st st'.
Proof.
  intros a al ts st b a' r st' H.
  assert (Pl : forall al ts, parse_mode a al ts st = (b, a', r, st') -> more st st') by (intros al0 ts0 W; pose proof (mode_more a al0 ts0 st) as M; rewrite W in M; exact M).
  destruct ts as [|[] ts]; try exact (Pl _ _ H). cbn [m6809_ParseAddressingMode] in H. destruct (has al MODE_INDIRECT_MODIFIER); [|exact (Pl _ _ H)].
  pose proof (mode_more a MODE_ALLOWED_INDIRECT ts st) as M. destruct (parse_mode a MODE_ALLOWED_INDIRECT ts st) as [[[b1 a1] r1] st1]. cbn [snd] in M.
  destruct b1; [|injection H as <- <- <- <-; exact M].
  destruct r1 as [|[] r1]; injection H as <- <- <- <-; try exact M; exact (more_trans _ _ _ M (more_error _ _)).
Qed.
Lemma emit_more : forall F base a d e i st b st', emitOpcode F base a d e i st = Ok (b, st') -> more st st'.
Proof.
  intros F base a d e i st b st' H. unfold emitOpcode, done in H. destruct (am_mode a =? MODE_DIRECT).
  { destruct (sect_OutputConst8 _ st) as [s| |] eqn:E; try discriminate. cbn [bind] in H. destruct (expr_Binary _ _ _ _) as [x| |]; try discriminate. cbn [bind] in H.
    destruct (outputExpr8 x s) as [s2| |] eqn:E2; try discriminate. injection H as _ <-. exact (more_trans _ _ _ (const8_keeps _ _ _ E) (out8_keeps _ _ _ E2)). }
  destruct (am_mode a =? MODE_EXTENDED).
  { destruct (sect_OutputConst8 _ st) as [s| |] eqn:E; try discriminate. cbn [bind] in H.
    destruct (outputExpr16 _ s) as [s2| |] eqn:E2; try discriminate. injection H as _ <-. exact (more_trans _ _ _ (const8_keeps _ _ _ E) (out16_keeps _ _ _ E2)). }
  destruct (has _ _); [|injection H as _ <-; apply more_refl].
  destruct (sect_OutputConst8 _ st) as [s| |] eqn:E; try discriminate. cbn [bind] in H.
  destruct (emitIndexed F a s) as [[y s2]| |] eqn:E2; try discriminate. injection H as _ <-. exact (more_trans _ _ _ (const8_keeps _ _ _ E) (indexed_keeps _ _ _ _ _ E2)).
Qed.
Lemma p16_more : forall F base a st b st', handleOpcodeP16 F base a st = Ok (b, st') -> more st st'.
Proof.
  intros F base a st b st' H. unfold handleOpcodeP16, done in H. destruct (_ =? _); [|exact (emit_more _ _ _ _ _ _ _ _ _ H)].
  destruct (sect_OutputConst8 _ st) as [s| |] eqn:E; try discriminate. cbn [bind] in H.
  destruct (outputExpr16 _ s) as [s2| |] eqn:E2; try discriminate. injection H as _ <-. exact (more_trans _ _ _ (const8_keeps _ _ _ E) (out16_keeps _ _ _ E2)).
Qed.
Lemma lbra_more : forall F base a st b st', handleLBRA F base a st = Ok (b, st') -> more st st'.
Proof.
  intros F base a st b st' H. unfold handleLBRA, done in H. destruct (sect_OutputConst8 _ st) as [s| |] eqn:E; try discriminate. cbn [bind] in H.
  destruct (outputPc16 _ _ s) as [s2| |] eqn:E2; try discriminate. injection H as _ <-. exact (more_trans _ _ _ (const8_keeps _ _ _ E) (pc16_keeps _ _ _ _ E2)).
Qed.
Lemma implied_more : forall base st b st', handleImplied base st = Ok (b, st') -> more st st'.
Proof.
  intros base st b st' H. unfold handleImplied, done in H. destruct (sect_OutputConst8 _ st) as [s| |] eqn:E; try discriminate.
  injection H as _ <-. exact (const8_keeps _ _ _ E).
Qed.
Lemma handler_more : forall F h base a ts st b ts' st', h <> HRegToReg -> apply_handler F h base a ts st = Ok (b, ts', st') -> ts' = ts /\ more st st'.
Proof.
  intros F h base a ts st b ts' st' Nh H.
  assert (Un : forall r : handled, (forall y s, r = Ok (y, s) -> more st s) -> (let! (b, s) := r in Ok (b, ts, s)) = Ok (b, ts', st') -> ts' = ts /\ more st st').
  { intros [[y s]| |] W E; try discriminate E. cbn [bind] in E. injection E as _ <- <-. split; [reflexivity|]. exact (W y s eq_refl). }
  assert (Pg : forall p g y s, (forall s0 y s, g s0 = Ok (y, s) -> more s0 s) -> paged p g st = Ok (y, s) -> more st s).
  { intros p g y s W E. unfold paged in E. destruct (sect_OutputConst8 p st) as [s0| |] eqn:E0; try discriminate. exact (more_trans _ _ _ (const8_keeps _ _ _ E0) (W _ _ _ E)). }
  destruct h; try congruence; cbn [apply_handler] in H; (eapply Un; [|exact H]); intros y s E.
  - exact (emit_more _ _ _ _ _ _ _ _ _ E).
  - unfold handleOpcodeP8, done in E. destruct (_ =? _); [|exact (emit_more _ _ _ _ _ _ _ _ _ E)].
    destruct (sect_OutputConst8 _ st) as [s1| |] eqn:E1; try discriminate. cbn [bind] in E.
    destruct (outputExpr8 _ s1) as [s2| |] eqn:E2; try discriminate. injection E as _ <-. exact (more_trans _ _ _ (const8_keeps _ _ _ E1) (out8_keeps _ _ _ E2)).
  - unfold handleOpcodeT16 in E. destruct (sect_OutputConst8 _ st) as [s1| |] eqn:E1; try discriminate. cbn [bind] in E.
    exact (more_trans _ _ _ (const8_keeps _ _ _ E1) (indexed_keeps _ _ _ _ _ E)).
  - exact (p16_more _ _ _ _ _ _ E).
  - apply (Pg _ _ _ _ (fun s0 y s W => p16_more _ _ _ _ _ _ W) E).
  - apply (Pg _ _ _ _ (fun s0 y s W => p16_more _ _ _ _ _ _ W) E).
  - exact (implied_more _ _ _ _ E).
  - apply (Pg _ _ _ _ (fun s0 y s W => implied_more _ _ _ _ W) E).
  - apply (Pg _ _ _ _ (fun s0 y s W => implied_more _ _ _ _ W) E).
  - unfold handleImm8, done in E. destruct (sect_OutputConst8 _ st) as [s1| |] eqn:E1; try discriminate. cbn [bind] in E.
    destruct (outputExpr8 _ s1) as [s2| |] eqn:E2; try discriminate. injection E as _ <-. exact (more_trans _ _ _ (const8_keeps _ _ _ E1) (out8_keeps _ _ _ E2)).
  - unfold handleBcc, done in E. destruct (sect_OutputConst8 _ st) as [s1| |] eqn:E1; try discriminate. cbn [bind] in E.
    destruct (outputPc8 _ _ s1) as [s2| |] eqn:E2; try discriminate. injection E as _ <-. exact (more_trans _ _ _ (const8_keeps _ _ _ E1) (pc8_keeps _ _ _ _ E2)).
  - apply (Pg _ _ _ _ (fun s0 y s W => lbra_more _ _ _ _ _ _ W) E).
  - exact (lbra_more _ _ _ _ _ _ E).
  - unfold handleStack, done in E. destruct (sect_OutputConst8 base st) as [s1| |] eqn:E1; try discriminate. cbn [bind] in E.
    destruct (sect_OutputConst8 _ s1) as [s2| |] eqn:E2; try discriminate. injection E as _ <-. exact (more_trans _ _ _ (const8_keeps _ _ _ E1) (const8_keeps _ _ _ E2)).
Qed.

(** ** The other operands *)
Lemma bit_sound : forall q ts st bit st1, (q = U \/ q = S) -> parseRegisterListBit (reg_token q) (other q) ts st = (bit, st1) -> quiet st st1 -> bit <> 0 ->
  st1 = st /\ exists r rest, ts = TId (reg_token r) :: rest /\ listed q r = true.
Proof.
  intros q [|[t| | | | | | | | | |] ts] st bit st1 Q H Qu Nb; try (injection H as <- <-; congruence). unfold parseRegisterListBit in H.
  assert (Go : forall r b, t =? reg_token r = true -> listed q r = true -> (b, st) = (bit, st1) -> st1 = st /\ exists r rest, TId t :: ts = TId (reg_token r) :: rest /\ listed q r = true).
  { intros r b E L W. apply Z.eqb_eq in E. injection W as _ <-. split; [reflexivity|]. exists r, ts. split; [rewrite E; reflexivity|exact L]. }
  destruct (t =? REG_CCR) eqn:E0; [exact (Go CC _ E0 ltac:(destruct Q as [-> | ->]; reflexivity) H)|].
  destruct (t =? REG_A) eqn:E1; [exact (Go A _ E1 ltac:(destruct Q as [-> | ->]; reflexivity) H)|].
  destruct (t =? REG_B) eqn:E2; [exact (Go B _ E2 ltac:(destruct Q as [-> | ->]; reflexivity) H)|].
  destruct (t =? REG_DPR) eqn:E3; [exact (Go DP _ E3 ltac:(destruct Q as [-> | ->]; reflexivity) H)|].
  destruct (t =? REG_X) eqn:E4; [exact (Go X _ E4 ltac:(destruct Q as [-> | ->]; reflexivity) H)|].
  destruct (t =? REG_Y) eqn:E5; [exact (Go Y _ E5 ltac:(destruct Q as [-> | ->]; reflexivity) H)|].
  destruct (t =? REG_PCR) eqn:E6; [exact (Go PC _ E6 ltac:(destruct Q as [-> | ->]; reflexivity) H)|].
  destruct (t =? reg_token q) eqn:E7; [exact (Go q _ E7 ltac:(destruct Q as [-> | ->]; reflexivity) H)|].
  destruct (t =? other q); injection H as <- <-; congruence.
Qed.
Lemma list_sound : forall q, (q = U \/ q = S) -> forall ts b st bits r st1,
  register_list (reg_token q) (other q) b ts st = (bits, r, st1) -> quiet st st1 ->
  st1 = st /\ (ts = r \/ exists l, l <> [] /\ forallb (listed q) l = true /\ (ts = lex (regs_text l) ++ r \/ ts = lex (regs_text l ++ [Comma]) ++ r)).
Proof.
  intros q Q. fix IH 1. intros ts b st bits r st1 H Qu.
  assert (Zero : forall t bit s, parseRegisterListBit (reg_token q) (other q) t st = (bit, s) -> quiet st s -> s = st).
  { intros t bit s W Wq. unfold parseRegisterListBit in W. destruct t as [|[t0| | | | | | | | | |] t1]; try (injection W as _ <-; reflexivity).
    repeat (destruct (t0 =? _); [injection W as _ <-; try reflexivity; destruct (X65Only.loud _ _ _ (more_refl st) Wq)|]). injection W as _ <-. reflexivity. }
  destruct ts as [|t ts]; cbn [register_list] in H.
  - destruct (parseRegisterListBit _ _ [] st) as [bit s] eqn:E. destruct (bit =? 0); injection H as <- <- <-; (split; [exact (Zero _ _ _ E Qu)|left; reflexivity]).
  - destruct (parseRegisterListBit _ _ (t :: ts) st) as [bit s] eqn:E. destruct (Z.eqb_spec bit 0) as [B0|B0].
    { injection H as <- <- <-. split; [exact (Zero _ _ _ E Qu)|left; reflexivity]. }
    pose proof (bit_more (reg_token q) (other q) (t :: ts) st) as M. rewrite E in M. cbn [snd] in M.
    assert (One : (Z.lor b bit, ts, s) = (bits, r, st1) -> st1 = st /\ (t :: ts = r \/ exists l, l <> [] /\ forallb (listed q) l = true /\
      (t :: ts = lex (regs_text l) ++ r \/ t :: ts = lex (regs_text l ++ [Comma]) ++ r))).
    { intro W. injection W as <- <- <-. destruct (bit_sound _ _ _ _ _ Q E Qu B0) as (-> & g & rest & Et & Lg). injection Et as -> <-. split; [reflexivity|].
      right. exists [g]. split; [discriminate|]. split; [cbn [forallb]; rewrite Lg; reflexivity|]. left. cbn [regs_text lex map]. rewrite lex_reg. reflexivity. }
    destruct ts as [|[] ts]; try exact (One H).
    pose proof (list_more (reg_token q) (other q) ts (Z.lor b bit) s) as M2. rewrite H in M2. cbn [snd] in M2.
    destruct (X65Only.more_quiet _ _ _ M M2 Qu) as (Q1 & Q2).
    destruct (bit_sound _ _ _ _ _ Q E Q1 B0) as (-> & g & rest & Et & Lg). injection Et as -> <-.
    destruct (IH ts (Z.lor b bit) st bits r st1 H Q2) as (E2 & C). split; [exact E2|]. right. destruct C as [->|(l & Nl & Ll & C)].
    + exists [g]. split; [discriminate|]. split; [cbn [forallb]; rewrite Lg; reflexivity|]. right. cbn [regs_text lex map app]. rewrite lex_reg. reflexivity.
    + exists (g :: l). split; [discriminate|]. split; [cbn [forallb]; rewrite Lg, Ll; reflexivity|]. destruct l as [|g' l]; [congruence|].
      destruct C as [->| ->]; [left|right]; cbn [regs_text lex map app]; rewrite lex_reg; reflexivity.
Qed.
Lemma none_read : forall a ts st, m6809_ParseAddressingMode a MODE_NONE ts st = (true, set_expr (am_expr (snd (fst (fst (m6809_ParseAddressingMode a MODE_NONE ts st))))) a, ts, st).
Proof.
  intros a ts st.
  assert (Pl : forall x d e t, parse_plain (set_expr e a) MODE_NONE d x ts t st = (true, set_expr e a, ts, st)) by reflexivity.
  assert (Ex : exists e, parse_expr a MODE_NONE ts st = (true, set_expr e a, ts, st)).
  { rewrite signs_first. destruct (sign_split ts) as (x & d & r2 & _ & Ek). rewrite (Ek _ (after_signs a MODE_NONE ts st)).
    unfold after_signs. destruct (parse_Expression r2) as [e r3]. change (has MODE_NONE OFFSETS) with false.
    exists e. destruct r3 as [|[] r3]; apply Pl. }
  destruct Ex as (e & Ex).
  assert (Em : m6809_ParseAddressingMode a MODE_NONE ts st = parse_expr a MODE_NONE ts st) by (destruct ts as [|[] ts]; reflexivity).
  rewrite Em, Ex. reflexivity.
Qed.

Lemma exg_sound : forall ts, parseExgRegister ts <> 0xF -> exists r rest, ts = TId (reg_token r) :: rest /\ parseExgRegister ts = transfer_code r.
Proof.
  intros [|[t| | | | | | | | | |] ts] H; try (cbn in H; congruence). unfold parseExgRegister in *.
  assert (Go : forall r, t =? reg_token r = true -> exists r' rest, TId t :: ts = TId (reg_token r') :: rest /\ transfer_code r = transfer_code r').
  { intros r E. apply Z.eqb_eq in E. exists r, ts. rewrite E. split; reflexivity. }
  destruct (t =? REG_D) eqn:E0; [exact (Go D E0)|]. destruct (t =? REG_X) eqn:E1; [exact (Go X E1)|]. destruct (t =? REG_Y) eqn:E2; [exact (Go Y E2)|].
  destruct (t =? REG_U) eqn:E3; [exact (Go U E3)|]. destruct (t =? REG_S) eqn:E4; [exact (Go S E4)|]. destruct (t =? REG_PCR) eqn:E5; [exact (Go PC E5)|].
  destruct (t =? REG_A) eqn:E6; [exact (Go A E6)|]. destruct (t =? REG_B) eqn:E7; [exact (Go B E7)|]. destruct (t =? REG_CCR) eqn:E8; [exact (Go CC E8)|].
  destruct (t =? REG_DPR) eqn:E9; [exact (Go DP E9)|]. congruence.
Qed.
Lemma transfer_sound : forall base ts st b r st', handleRegToReg base ts st = Ok (b, r, st') -> quiet st st' ->
  b = true /\ exists x y, belongs None (@Pair arg x y) Transfer = true /\ ts = lex (text (@Pair expr x y)) ++ r.
Proof.
  intros base ts st b r st' H Q. unfold handleRegToReg in H. destruct (sect_OutputConst8 base st) as [s| |] eqn:E; try discriminate. cbn [bind] in H.
  pose proof (const8_keeps _ _ _ E) as M.
  destruct (Z.eqb_spec (parseExgRegister ts) 0xF) as [B0|B0]; [injection H as _ _ <-; destruct (X65Only.loud _ _ _ M Q)|].
  destruct (exg_sound ts B0) as (x & rest & -> & Ex).
  destruct rest as [|[] rest]; try (injection H as _ _ <-; destruct (X65Only.loud _ _ _ M Q)).
  destruct (Z.eqb_spec (parseExgRegister rest) 0xF) as [B1|B1]; [injection H as _ _ <-; destruct (X65Only.loud _ _ _ M Q)|].
  destruct (exg_sound rest B1) as (y & rest1 & -> & Ey). rewrite Ex, Ey in H.
  destruct (Z.land (transfer_code x) 8 =? Z.land (transfer_code y) 8) eqn:Es; [|injection H as _ _ <-; destruct (X65Only.loud _ _ _ M Q)].
  destruct (sect_OutputConst8 _ s) as [s2| |]; try discriminate. injection H as <- <- _. split; [reflexivity|].
  exists x, y. split; [destruct x, y; try reflexivity; discriminate Es|]. cbn [text lex map app]. rewrite !lex_reg. reflexivity.
Qed.

(** ** The table *)
Definition has_col (f : column -> bool) (cols : list (column * list Z)) : bool := existsb (fun x => f (fst x)) cols.
Definition rel_col (c : column) : bool := match c with Rel8 | Rel16 => true | _ => false end.
Definition imm_col (c : column) : bool := match c with Imm8 | Imm16 => true | _ => false end.
Definition consistent (name : string) (al : Z) (h : handler) (cols : list (column * list Z)) : bool :=
  let mem := has_col (fun c => match c with Idx => true | _ => false end) cols && memory_handler al h in
  let far := has_col (fun c => match c with Dir => true | _ => false end) cols && has_col (fun c => match c with Ext => true | _ => false end) cols in
  if al =? MODE_NONE then
    match h with HRegToReg => has_col (fun c => match c with Transfer => true | _ => false end) cols
               | _ => has_col (fun c => match c with Inherent => true | _ => false end) cols end
  else if al =? MODE_IMMEDIATE then match h with HImm8 => has_col (fun c => match c with Imm8 => true | _ => false end) cols | _ => false end
  else if al =? MODE_ADDRESS then match h with HBcc | HLBcc | HLBRA => has_col rel_col cols | _ => false end
  else if al =? MODE_P then mem && far && (has_col imm_col cols || existsb (String.eqb name) ["ROL"; "ROR"])
  else if al =? MODE_Q then mem && far
  else if al =? MODE_T then mem
  else if al =? MODE_IMMEDIATE + MODE_REGISTER_LIST_U then
    match h with HStack => has_col (fun c => match c with Stack U => true | _ => false end) cols | _ => false end && existsb (String.eqb name) ["PSHS"; "PULS"; "PSHU"; "PULU"]
  else if al =? MODE_IMMEDIATE + MODE_REGISTER_LIST_S then
    match h with HStack => has_col (fun c => match c with Stack S => true | _ => false end) cols | _ => false end && existsb (String.eqb name) ["PSHS"; "PULS"; "PSHU"; "PULU"]
  else false.
Definition row_of (name : string) : list (column * list Z) := match find (fun r => String.eqb (fst r) name) table with Some r => snd r | None => [] end.
Definition word_ok (w : string * Z) : bool :=
  match entry (fst w) with Some (base, al, h) => consistent (fst w) al h (row_of (fst w)) | None => true end.
Lemma words_ok : forallb word_ok g_tokens = true. Proof. vm_compute. reflexivity. Qed.
Lemma setdp_only : forallb (fun w => negb (snd w =? T_6809_SETDP) || String.eqb (fst w) "SETDP") g_tokens = true. Proof. vm_compute. reflexivity. Qed.
Lemma assoc_in : forall s l t, assoc s l = TId t -> In (s, t) l.
Proof.
  intros s. induction l as [|[k v] l IH]; intros t H; [discriminate|]. cbn [assoc] in H. destruct (String.eqb_spec s k) as [->|]; [injection H as ->; left; reflexivity|].
  right. apply IH, H.
Qed.
Lemma col_in : forall name f, has_col f (row_of name) = true -> exists cols c code, In (name, cols) table /\ In (c, code) cols /\ f c = true.
Proof.
  intros name f H. unfold row_of in H. destruct (find (fun r => String.eqb (fst r) name) table) as [[n cols]|] eqn:F; [|discriminate].
  destruct (find_some _ _ F) as (I & E). cbn [fst] in E. apply String.eqb_eq in E. subst n. cbn [snd] in H.
  unfold has_col in H. apply existsb_exists in H. destruct H as ([c code] & Ic & Fc). exists cols, c, code. auto.
Qed.
Definition columns (name : string) (c : column) : Prop := exists cols code, In (name, cols) table /\ In (c, code) cols.
Ltac column H c := destruct (col_in _ _ H) as (?cols & c & ?code & ?It & ?Ic & ?Fc).
Lemma no_setdp : forall l, ~ In (Word "SETDP") l -> ~ In (TId T_6809_SETDP) (lex l).
Proof.
  intros l N I. apply in_map_iff in I. destruct I as (p & Ep & Ip). destruct p as [s| | | | | | | | |]; try discriminate Ep. cbn [lex1] in Ep.
  apply assoc_in in Ep. pose proof (proj1 (forallb_forall _ _) setdp_only _ Ep) as G. cbn [fst snd] in G. rewrite Z.eqb_refl in G. cbn [negb orb] in G.
  apply String.eqb_eq in G. subst s. exact (N Ip).
Qed.
Theorem only_these : forall F dp junk name pieces st b dp' ts st',
  m6809_ParseInstruction F dp junk (lex (Word name :: pieces)) st = Ok (b, dp', ts, st') -> x_errors st' = x_errors st ->
  ~ In (Word "SETDP") (Word name :: pieces) ->
  dp' = dp /\ (ts = lex (Word name :: pieces) \/ classes name (columns name) (lex pieces) ts).
Proof.
  intros F dp junk name pieces st b dp' ts st' H Q Ns. fold (quiet st st') in Q. pose proof (no_setdp _ Ns) as Nd.
  assert (Dir_ : forall ts0 s, ~ In (TId T_6809_SETDP) ts0 -> m6809_ParseDirective dp ts0 s = (false, dp, ts0, s)).
  { intros [|[t| | | | | | | | | |] ts0] s W; try reflexivity. cbn [m6809_ParseDirective].
    destruct (Z.eqb_spec t T_6809_SETDP) as [->|]; [destruct W; left; reflexivity|reflexivity]. }
  unfold m6809_ParseInstruction in H. cbn [lex map] in H, Nd |- *. fold (lex pieces) in H, Nd |- *.
  destruct (lex1 (Word name)) as [t| | | | | | | | | |] eqn:Ew; cbn [m6809_ParseIntegerInstruction bind] in H;
    try (injection H as <- <- <- <-; split; [reflexivity|left; reflexivity]).
  cbn [m6809_ParseIntegerInstruction] in H.
  destruct ((T_6809_ABX <=? t) && (t <=? T_6809_NOP)) eqn:Rt.
  2: { cbn [bind] in H. rewrite (Dir_ _ _ Nd) in H. injection H as _ <- <- _. split; [reflexivity|left; reflexivity]. }
  cbn [lex1] in Ew. pose proof (proj1 (forallb_forall _ _) words_ok _ (assoc_in _ _ _ Ew)) as G. unfold word_ok, entry in G. cbn [fst] in G.
  rewrite Ew, Rt in G. destruct (nth_error g_instructionHandlers _) as [[[base al] h]|]; [|discriminate].
  destruct (m6809_ParseAddressingMode junk al (lex pieces) st) as [[[ok a] r1] st1] eqn:Ea. pose proof (operand_more _ _ _ _ _ _ _ _ Ea) as M1.
  assert (Md : forall ts0 s0 bb dd tt, m6809_ParseDirective dp ts0 s0 = (bb, dd, tt, st') -> more s0 st').
  { intros ts0 s0 bb dd tt W. unfold m6809_ParseDirective in W. destruct ts0 as [|[t0| | | | | | | | | |] ts0]; try (injection W as _ _ _ <-; apply more_refl).
    destruct (t0 =? T_6809_SETDP); [|injection W as _ _ _ <-; apply more_refl].
    destruct (parse_Expression ts0) as [e q1]. destruct (isNull e); [injection W as _ _ _ <-; apply more_refl|].
    destruct (expr_IsConstant e); [|injection W as _ _ _ <-; apply more_error].
    destruct ((0 <=? e_v e) && (e_v e <=? 255)); [injection W as _ _ _ <-; apply more_refl|injection W as _ _ _ <-; apply more_error]. }
  destruct ok; cbn [bind] in H.
  2: { injection H as H. pose proof (Md _ _ _ _ _ H) as M2.
       destruct (X65Only.more_quiet _ _ _ (more_trans _ _ _ M1 (more_error st1 MERROR_ILLEGAL_ADDRMODE)) M2 Q) as (Q1 & _). destruct (X65Only.loud _ _ _ M1 Q1). }
  destruct (apply_handler F h base (chosen dp a) r1 st1) as [[[b2 r2] st2]| |] eqn:Eh; try discriminate. cbn [bind] in H.
  (* What remains when the operand is known to have been read. *)
  assert (Fin : more st1 st2 -> (quiet st st1 -> quiet st1 st2 -> classes name (columns name) (lex pieces) r2) -> (dp' = dp /\ (ts = TId t :: lex pieces \/ classes name (columns name) (lex pieces) ts))).
  { intros M2 W. assert (M3 : more st2 st') by (destruct b2; [injection H as _ _ _ <-; apply more_refl|injection H as H; exact (Md _ _ _ _ _ H)]).
    destruct (X65Only.more_quiet _ _ _ (more_trans _ _ _ M1 M2) M3 Q) as (Q12 & _). destruct (X65Only.more_quiet _ _ _ M1 M2 Q12) as (Q1 & Q2).
    specialize (W Q1 Q2). destruct b2; [injection H as _ <- <- _; split; [reflexivity|right; exact W]|]. injection H as H. rewrite Dir_ in H; [injection H as _ <- <- _; split; [reflexivity|right; exact W]|].
    intro I2. apply Nd. right. destruct W as [(g & c & _ & _ & E)|(o & _ & E)]; rewrite E; apply in_or_app; right; exact I2. }
  assert (Gen : h <> HRegToReg -> (quiet st st1 -> st1 = st -> classes name (columns name) (lex pieces) r1) ->
    (quiet st st1 -> st1 = st) -> (dp' = dp /\ (ts = TId t :: lex pieces \/ classes name (columns name) (lex pieces) ts))).
  { intros Nh W Ws. destruct (handler_more _ _ _ _ _ _ _ _ _ Nh Eh) as (Er & M2). apply Fin; [exact M2|]. intros Q1 _. rewrite Er. apply W; [exact Q1|exact (Ws Q1)]. }
  assert (Mem : In al [MODE_P; MODE_Q; MODE_T] -> memory_handler al h = true -> columns name Idx -> (al <> MODE_T -> columns name Dir /\ columns name Ext) ->
    (al = MODE_P -> columns name Imm8 \/ columns name Imm16 \/ In name ["ROL"; "ROR"]) -> (dp' = dp /\ (ts = TId t :: lex pieces \/ classes name (columns name) (lex pieces) ts))).
  { intros Ia Hh O1 O2 O3. assert (Nh : h <> HRegToReg) by (intros ->; discriminate Hh).
    assert (W : quiet st st1 -> st1 = st /\ classes name (columns name) (lex pieces) r1).
    { intro Q1. destruct (memory_class name (columns name) al Ia O1 O2 O3 _ _ _ _ _ _ Q1 Ea) as (E & [(N & Nm)|C]); [|split; assumption].
      destruct (null_refused _ _ _ _ _ _ _ _ _ Hh N Nm Eh). }
    apply (Gen Nh); intro Q1; [intros _; exact (proj2 (W Q1))|exact (proj1 (W Q1))]. }
  unfold consistent in G. cbv zeta in G.
  destruct (Z.eqb_spec al MODE_NONE) as [->|_].
  { rewrite none_read in Ea. injection Ea as _ <- <-.
    destruct h; try (column G c; apply Gen; [discriminate| |reflexivity]; intros _ _; left; exists Nothing, c; destruct c; try discriminate;
      split; [reflexivity|]; split; [exists cols, code; split; assumption|reflexivity]).
    column G c. destruct c; try discriminate. cbn [apply_handler] in Eh.
    assert (M2 : more st st2).
    { clear - Eh. unfold handleRegToReg in Eh. destruct (sect_OutputConst8 base st) as [s| |] eqn:E; try discriminate. cbn [bind] in Eh. pose proof (const8_keeps _ _ _ E) as M.
      assert (Me : forall n, more st (err_Error n s)) by (intro n; exact (more_trans _ _ _ M (more_error _ _))).
      destruct (_ =? 15); [injection Eh as _ _ <-; apply Me|]. destruct (lex pieces) as [|u [|[] us]]; try (injection Eh as _ _ <-; first [exact M|apply Me]).
      destruct (_ =? 15); [injection Eh as _ _ <-; apply Me|]. destruct us as [|u2 us]; [injection Eh as _ _ <-; exact M|].
      destruct (_ =? _); [|injection Eh as _ _ <-; apply Me]. destruct (sect_OutputConst8 _ s) as [s2| |] eqn:E2; try discriminate. injection Eh as _ _ <-.
      exact (more_trans _ _ _ M (const8_keeps _ _ _ E2)). }
    apply Fin; [exact M2|]. intros _ Q2. destruct (transfer_sound _ _ _ _ _ _ Eh Q2) as (_ & x & y & B0 & E). left. exists (Pair x y), Transfer.
    split; [exact B0|]. split; [exists cols, code; split; assumption|exact E]. }
  destruct (Z.eqb_spec al MODE_IMMEDIATE) as [->|_].
  { destruct h; try discriminate. column G c. destruct c; try discriminate.
    assert (W : quiet st st1 -> st1 = st /\ exists e, lex pieces = THash :: TExpr e :: r1).
    { intro Q1. assert (Ex : parse_expr junk MODE_IMMEDIATE (lex pieces) st = (true, a, r1, st1) -> False).
      { intro W. destruct (parse_expr_sound _ MODE_IMMEDIATE _ _ _ _ _ eq_refl W) as (_ & [(_ & I & Hm)|(x & d & e & w & _ & C)]).
        - cbn [In] in I. decompose [or] I; try contradiction; match goal with E : _ = am_mode a |- _ => rewrite <- E in Hm end; discriminate Hm.
        - destruct w; [destruct C as (_ & C)|destruct C as (_ & C & _)|destruct C as (_ & _ & C)|destruct C as (_ & _ & C)]; discriminate C. }
      destruct (lex pieces) as [|[] l]; try (destruct (Ex Ea)). change (m6809_ParseAddressingMode junk MODE_IMMEDIATE (THash :: l) st)
        with (parseExpressionMode junk MODE_IMMEDIATE l st) in Ea. unfold parseExpressionMode in Ea. destruct (parse_Expression l) as [e q1] eqn:Ep.
      destruct (isNull e) eqn:N; [discriminate|]. injection Ea as _ <- <-. split; [reflexivity|]. exists e.
      destruct l as [|[] l]; cbn [parse_Expression] in Ep; injection Ep as <- <-; try discriminate N; reflexivity. }
    apply Gen; [discriminate| |intro Q1; exact (proj1 (W Q1))]. intros Q1 _. destruct (W Q1) as (_ & e & E). left. exists (Immediate (mk e)), Imm8.
    split; [reflexivity|]. split; [exists cols, code; split; assumption|exact E]. }
  destruct (Z.eqb_spec al MODE_ADDRESS) as [->|_].
  { assert (Nh : h <> HRegToReg) by (intros ->; discriminate). assert (G' : has_col rel_col (row_of name) = true) by (destruct h; try discriminate; exact G). clear G.
    column G' c. 
    assert (Em : m6809_ParseAddressingMode junk MODE_ADDRESS (lex pieces) st = parse_expr junk MODE_ADDRESS (lex pieces) st) by (destruct (lex pieces) as [|[] l]; reflexivity).
    rewrite Em in Ea. destruct (parse_expr_sound _ MODE_ADDRESS _ _ _ _ _ eq_refl Ea) as (E & [(_ & I & Hm)|(x & d & e & w & E2 & C)]).
    { exfalso. cbn [In] in I. decompose [or] I; try contradiction; match goal with E : _ = am_mode a |- _ => rewrite <- E in Hm end; discriminate Hm. }
    apply (Gen Nh); [|intros _; exact E]. intros _ _. destruct w; [|destruct C as (_ & _ & C); discriminate C|destruct C as (_ & _ & C); discriminate C|destruct C as (_ & _ & C); discriminate C].
    cbn [follow_tokens app] in E2. assert (Rc : c = Rel8 \/ c = Rel16) by (destruct c; try discriminate; tauto).
    destruct x, d; unfold sized in E2; cbn [app] in E2.
    + right. exists ([Gt; Lt] ++ [Operand e]). split; [eapply odd_branch; [cbn; tauto|exact It|exact Ic|exact Rc]|exact E2].
    + right. exists ([Gt] ++ [Operand e]). split; [eapply odd_branch; [cbn; tauto|exact It|exact Ic|exact Rc]|exact E2].
    + right. exists ([Lt] ++ [Operand e]). split; [eapply odd_branch; [cbn; tauto|exact It|exact Ic|exact Rc]|exact E2].
    + left. exists (Address (mk e)), c. split; [destruct Rc as [-> | ->]; reflexivity|]. split; [exists cols, code; split; assumption|exact E2]. }
  assert (Idx_ : has_col (fun c => match c with Idx => true | _ => false end) (row_of name) = true -> columns name Idx)
    by (intro W; column W c; destruct c; try discriminate; exists cols, code; split; assumption).
  assert (Far_ : has_col (fun c => match c with Dir => true | _ => false end) (row_of name) && has_col (fun c => match c with Ext => true | _ => false end) (row_of name) = true ->
    columns name Dir /\ columns name Ext).
  { intro W. apply andb_prop in W. destruct W as (W1 & W2). split; [column W1 c|column W2 c]; destruct c; try discriminate; exists cols, code; split; assumption. }
  destruct (Z.eqb_spec al MODE_P) as [->|_].
  { apply andb_prop in G. destruct G as (G & G3). apply andb_prop in G. destruct G as (G1 & G2). apply andb_prop in G1. destruct G1 as (G0 & G1).
    apply Mem; [cbn; tauto|exact G1|exact (Idx_ G0)|intros _; exact (Far_ G2)|]. intros _. apply orb_true_iff in G3. destruct G3 as [G3|G3].
    - column G3 c. destruct c; try discriminate; [left|right; left]; exists cols, code; split; assumption.
    - right. right. apply existsb_exists in G3. destruct G3 as (n & In_ & En). apply String.eqb_eq in En. subst n. exact In_. }
  destruct (Z.eqb_spec al MODE_Q) as [->|_].
  { apply andb_prop in G. destruct G as (G1 & G2). apply andb_prop in G1. destruct G1 as (G0 & G1).
    apply Mem; [cbn; tauto|exact G1|exact (Idx_ G0)|intros _; exact (Far_ G2)|discriminate]. }
  destruct (Z.eqb_spec al MODE_T) as [->|_].
  { apply andb_prop in G. destruct G as (G0 & G1). apply Mem; [cbn; tauto|exact G1|exact (Idx_ G0)|congruence|discriminate]. }
  assert (St : forall q, q = U \/ q = S -> al = MODE_IMMEDIATE + (if match q with U => true | _ => false end then MODE_REGISTER_LIST_U else MODE_REGISTER_LIST_S) ->
    columns name (Stack q) -> h = HStack -> existsb (String.eqb name) ["PSHS"; "PULS"; "PSHU"; "PULU"] = true -> (dp' = dp /\ (ts = TId t :: lex pieces \/ classes name (columns name) (lex pieces) ts))).
  { intros q Qq Ea0 Cq -> Nm.
    assert (Nm' : In name ["PSHS"; "PULS"; "PSHU"; "PULU"]) by (apply existsb_exists in Nm; destruct Nm as (n & In_ & En); apply String.eqb_eq in En; subst n; exact In_).
    assert (Cs : (exists l, lex pieces = THash :: l /\ m6809_ParseAddressingMode junk al (lex pieces) st = parseExpressionMode junk MODE_IMMEDIATE l st) \/
      (exists m, m6809_ParseAddressingMode junk al (lex pieces) st =
         let '(bits, r, st1) := register_list (reg_token q) (other q) 0 (lex pieces) st in (true, AMode m bits (am_expr junk), r, st1))).
    { subst al. destruct Qq as [-> | ->].
      - destruct (lex pieces) as [|[] l]; try (right; eexists; reflexivity). left. eexists. split; reflexivity.
      - destruct (lex pieces) as [|[] l]; try (right; eexists; reflexivity). left. eexists. split; reflexivity. }
    assert (W : quiet st st1 -> st1 = st /\ classes name (columns name) (lex pieces) r1).
    { intro Q1. destruct Cs as [(l & El & Em)|(m & Em)]; rewrite Em in Ea.
      - unfold parseExpressionMode in Ea. destruct (parse_Expression l) as [e q1] eqn:Ep. destruct (isNull e) eqn:N; [discriminate|].
        injection Ea as _ <- <-. split; [reflexivity|]. right. exists [Hash; Operand e]. split; [apply odd_immediate; cbn [In] in *; tauto|]. rewrite El.
        destruct l as [|[] l]; cbn [parse_Expression] in Ep; injection Ep as <- <-; try discriminate N; reflexivity.
      - destruct (register_list _ _ 0 (lex pieces) st) as [[bits r] s] eqn:El. injection Ea as _ <- <-.
        destruct (list_sound q Qq _ _ _ _ _ _ El Q1) as (E & C). split; [exact E|]. destruct C as [C|(l & Nl & Ll & [C|C])].
        + right. exists []. split; [exact (odd_list name [] Nm')|exact C].
        + left. exists (Registers l), (Stack q). split; [|split; [exact Cq|exact C]]. cbn [belongs]. apply andb_true_intro. split; [destruct l; [congruence|reflexivity]|exact Ll].
        + right. exists (regs_text l ++ [Comma]). split; [|exact C]. pose proof (odd_list name l Nm') as O. destruct l; [congruence|exact O]. }
    apply Gen; [discriminate| |]; intro Q1; [intros _; exact (proj2 (W Q1))|exact (proj1 (W Q1))]. }
  destruct (Z.eqb_spec al (MODE_IMMEDIATE + MODE_REGISTER_LIST_U)) as [E1|_].
  { apply andb_prop in G. destruct G as (G & Gn). destruct h; try discriminate. column G c. destruct c as [| | | | | | | |q|]; try discriminate. destruct q; try discriminate.
    apply (St U); [tauto|exact E1|exists cols, code; split; assumption|reflexivity|exact Gn]. }
  destruct (Z.eqb_spec al (MODE_IMMEDIATE + MODE_REGISTER_LIST_S)) as [E1|_]; [|discriminate].
  apply andb_prop in G. destruct G as (G & Gn). destruct h; try discriminate. column G c. destruct c as [| | | | | | | |q|]; try discriminate. destruct q; try discriminate.
  apply (St M6809Spec.S); [tauto|exact E1|exists cols, code; split; assumption|reflexivity|exact Gn].
Qed.
