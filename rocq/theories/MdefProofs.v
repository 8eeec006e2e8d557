(** Proofs about the machine definition file reader. *)
From Coq Require Import ZArith List Bool String Ascii Lia ZifyBool ZifyNat.
From Verif Require Import Base BaseFacts Arith ExprSpec LinkExprModel LinkExprProofs AssignModel ImageModel MdefModel MdefSpec.
Import ListNotations.
Open Scope Z_scope.

(** ** Tokens *)
Lemma blank_is : forall c, isBlank c = true <-> blank c.
Proof. intros c. unfold isBlank, blank. lia. Qed.
Lemma punct_is : forall c, isPunct c = true <-> punct c.
Proof.
  intros c. unfold isPunct, punct. rewrite existsb_exists. split.
  - intros (x & H & E). apply Z.eqb_eq in E. subst. exact H.
  - intros H. exists c. split; [exact H|apply Z.eqb_refl].
Qed.
Lemma delim_is : forall c, (c =? 0) || isDelimiter c = false <-> word_char c.
Proof.
  intros c. unfold isDelimiter, word_char. rewrite !orb_false_iff, <- blank_is, <- punct_is, <- !not_true_iff_false.
  rewrite !Z.eqb_eq. tauto.
Qed.
Lemma punct_other : forall c, punct c -> isBlank c = false /\ (c =? 0) || (c =? 59) = false /\ isPunct c = true.
Proof.
  intros c H. assert (P : isPunct c = true) by (apply punct_is; exact H). unfold punct in H. cbn [In] in H.
  split; [|split; [|exact P]]; unfold isBlank; lia.
Qed.
Lemma takeWord_ok : forall w t, Forall word_char w -> match t with [] => True | c :: _ => ~ word_char c end ->
  takeWord (w ++ t) = (w, t).
Proof.
  induction w as [|c w IH]; intros t H T; cbn [app].
  - destruct t as [|c t]; [reflexivity|]. cbn [takeWord]. destruct ((c =? 0) || isDelimiter c) eqn:E; [reflexivity|].
    apply delim_is in E. contradiction.
  - inversion H as [|? ? Hc Hw]; subst. cbn [takeWord]. apply delim_is in Hc. rewrite Hc. rewrite IH by auto. reflexivity.
Qed.
Lemma nextToken_word : forall w t, is_word w -> match t with [] => True | c :: _ => ~ word_char c end ->
  nextToken (w ++ t) = (w, t).
Proof.
  intros w t (N & H) T. destruct w as [|c w]; [contradiction|].
  assert (E : nextToken ((c :: w) ++ t) = takeWord ((c :: w) ++ t)).
  { inversion H as [|? ? (B & P & C & D & Z0) ?]; subst. cbn [app nextToken].
    rewrite <- blank_is in B. rewrite <- punct_is in P. apply not_true_iff_false in B, P. rewrite B, P.
    destruct (Z.eqb_spec c 0); [lia|]. destruct (Z.eqb_spec c 59); [lia|]. reflexivity. }
  rewrite E. apply takeWord_ok; auto.
Qed.
Lemma nextToken_spelled : forall ts t, spelled ts t ->
  match ts with
  | [] => fst (nextToken t) = [] /\ spelled [] (snd (nextToken t))
  | w :: r => fst (nextToken t) = w /\ spelled r (snd (nextToken t))
  end.
Proof.
  induction 1 as [|t|c ts t B S IH|c ts t P S IH|w ts t W T S IH].
  - split; [reflexivity|constructor].
  - split; [reflexivity|constructor].
  - apply blank_is in B. cbn [nextToken]. rewrite B. exact IH.
  - destruct (punct_other c P) as (A & B & C). cbn [nextToken]. rewrite A, B, C. cbn [fst snd]. auto.
  - rewrite nextToken_word by auto. cbn [fst snd]. auto.
Qed.
Lemma spelled_length : forall ts t, spelled ts t -> (List.length ts <= List.length t)%nat.
Proof.
  induction 1 as [|t|c ts t B S IH|c ts t P S IH|w ts t (W & _) T S IH]; cbn [List.length]; try lia.
  rewrite app_length. destruct w; [contradiction|]. cbn [List.length]. lia.
Qed.

(** The reader is at the tokens [ts]. *)
Definition at_ (p : pos) (ts : list (list Z)) : Prop :=
  match ts with [] => fst p = [] /\ spelled [] (snd p) | w :: r => fst p = w /\ spelled r (snd p) end.
Lemma next_at : forall t ts, spelled ts t -> at_ (nextToken t) ts.
Proof. intros t ts H. apply nextToken_spelled in H. destruct ts; exact H. Qed.
Lemma step_end : forall p, at_ p [] -> at_ (step p) [].
Proof. intros p (_ & H). apply next_at, H. Qed.
Lemma step_at : forall p w r, at_ p (w :: r) -> at_ (step p) r.
Proof. intros p w r (_ & H). apply next_at, H. Qed.
Definition st_at (s : pst) (ts : list (list Z)) (o : list Z) : Prop := at_ (fst s) ts /\ out s = o.
Lemma st_next : forall s w r o, st_at s (w :: r) o -> st_at (next s) r o.
Proof. intros s w r o (A & B). split; [|exact B]. apply (step_at (fst s) w r A). Qed.
Lemma st_emit : forall s ts o bs, st_at s ts o -> st_at (emit bs s) ts (o ++ bs).
Proof. intros s ts o bs (A & B). split; [exact A|]. unfold emit, out in *. cbn [snd]. congruence. Qed.
Lemma tok_at : forall s w r o, st_at s (w :: r) o -> tk s = w.
Proof. intros s w r o ((A & _) & _). exact A. Qed.
Lemma ch_at : forall s w r o c, st_at s (w :: r) o -> ch c s = beq [c] w.
Proof. intros. unfold ch, tokenIs. rewrite (tok_at _ _ _ _ H). reflexivity. Qed.
Lemma ch_end : forall s o c, st_at s [] o -> ch c s = false.
Proof. intros s o c ((A & _) & _). unfold ch, tokenIs, tk. rewrite A. reflexivity. Qed.

(** ** Literals *)
Lemma digits_exact : forall base w v n (digit : Z -> option Z),
  (forall c d, digit c = Some d -> digitValue c = Some d /\ 0 <= d < base) ->
  number_from digit base v w = Some n -> digitsValue base (u32 v) w = Some (u32 n).
Proof.
  intros base w. induction w as [|c w IH]; intros v n digit H N; cbn [number_from digitsValue] in *.
  - injection N as <-. reflexivity.
  - destruct (digit c) as [d|] eqn:D; [|discriminate]. destruct (H c d D) as (-> & R).
    destruct (Z.geb_spec d base); [lia|].
    rewrite <- (IH (v * base + d) n digit H N). f_equal. unfold u32.
    rewrite (Z.add_mod (v mod 2 ^ 32 * base)), (Z.mul_mod (v mod 2 ^ 32)) by lia. rewrite Z.mod_mod by lia.
    rewrite <- Z.mul_mod, <- Z.add_mod by lia. reflexivity.
Qed.
Lemma dec_ok : forall c d, dec_digit c = Some d -> digitValue c = Some d /\ 0 <= d < 10.
Proof. intros c d H. unfold dec_digit, digitValue in *. destruct ((48 <=? c) && (c <=? 57)) eqn:E; [|discriminate]. injection H as <-. split; [reflexivity|lia]. Qed.
Lemma hex_ok : forall c d, hex_digit c = Some d -> digitValue c = Some d /\ 0 <= d < 16.
Proof.
  intros c d H. unfold hex_digit, digitValue in *. destruct ((48 <=? c) && (c <=? 57)) eqn:E.
  - injection H as <-. split; [reflexivity|lia].
  - destruct ((65 <=? c) && (c <=? 70)) eqn:E1.
    + injection H as <-. assert (X : (65 <=? c) && (c <=? 90) = true) by lia. rewrite X. split; [reflexivity|lia].
    + destruct ((97 <=? c) && (c <=? 102)) eqn:E2; [|discriminate]. injection H as <-.
      assert (X : (65 <=? c) && (c <=? 90) = false) by lia. assert (Y : (97 <=? c) && (c <=? 122) = true) by lia. rewrite X, Y. split; [reflexivity|lia].
Qed.
Lemma dec_none : forall w v v', number_from dec_digit 10 v w = None -> digitsValue 10 v' w = None.
Proof.
  induction w as [|c w IH]; intros v v' H; cbn [number_from digitsValue] in *; [discriminate|].
  unfold dec_digit, digitValue in *. destruct ((48 <=? c) && (c <=? 57)) eqn:E.
  - destruct (Z.geb_spec (c - 48) 10); [reflexivity|]. eapply IH, H.
  - destruct ((65 <=? c) && (c <=? 90)) eqn:E1; [destruct (Z.geb_spec (c - 55) 10); [reflexivity|lia]|].
    destruct ((97 <=? c) && (c <=? 122)) eqn:E2; [destruct (Z.geb_spec (c - 87) 10); [reflexivity|lia]|]. reflexivity.
Qed.
Lemma constant_u32 : forall v, constant (u32 v) = constant v.
Proof. intros v. unfold constant. rewrite (u32_id (u32 v)) by apply u32_range. reflexivity. Qed.
Lemma constant_s32 : forall v, constant (s32 v) = constant v.
Proof. intros v. unfold constant. rewrite u32_s32. reflexivity. Qed.
Lemma literal_inv : forall n v, literal n = Some v -> exists z, n = Some z /\ v = s32 z.
Proof. intros [z|] v H; [|discriminate]. cbn in H. destruct (z <? 4294967296); [|discriminate]. injection H as <-. eauto. Qed.

(** ** Expressions *)
Definition op_byte (o : op) : Z := match o with OpAdd => 1 | OpSub => 0 | OpMul => 7 | _ => 8 end.
Section Code.
Variable i : option Z.
Fixpoint code (e : mexp) : list Z :=
  match e with
  | EDec _ | EHex _ | EBinary _ | EAt => match mvalue i e with Some v => constant v | None => [] end
  | EParen a | EPlus a => code a
  | ENeg a => constant 0 ++ code a ++ [0]
  | EBin o a b => code a ++ code b ++ [op_byte o]
  end.
Fixpoint sz (e : mexp) : nat :=
  match e with
  | EDec _ | EHex _ | EBinary _ | EAt => 1
  | EParen a | ENeg a | EPlus a => S (sz a)
  | EBin _ a b => S (sz a + sz b)
  end.

Lemma calc_const : forall F c v r st, is_s32 v -> zlen st + 1 <= 256 ->
  calc F c (constant v ++ r) st = calc F c r (Entry None v :: st).
Proof.
  intros F c v r st S L. unfold constant. destruct (word_le32 (u32 v) (u32_range _)) as (a & b & d & e & HW & HV).
  rewrite HW. cbn [app calc]. change (30 =? 30) with true. cbv iota. rewrite HV, s32_u32, s32_id by assumption.
  rewrite push_ok by lia. reflexivity.
Qed.
Lemma inr_some : forall z v, inr z = Some v -> v = z /\ is_s32 z.
Proof. intros z v H. unfold inr in H. destruct ((- 2 ^ 31 <=? z) && (z <? 2 ^ 31)) eqn:E; [|discriminate]. injection H as <-. unfold is_s32. split; [reflexivity|lia]. Qed.
Lemma chk_ok : forall z, is_s32 z -> chk z = Ok z.
Proof. intros z H. unfold chk, is_s32 in *. destruct ((- 2 ^ 31 <=? z) && (z <? 2 ^ 31)) eqn:E; [reflexivity|lia]. Qed.
Lemma mvalue_s32 : forall e v, mvalue i e = Some v -> is_s32 v.
Proof.
  induction e; cbn [mvalue obind]; intros v H; auto.
  - apply literal_inv in H as (z & _ & ->). apply s32_range.
  - apply literal_inv in H as (z & _ & ->). apply s32_range.
  - apply literal_inv in H as (z & _ & ->). apply s32_range.
  - destruct i; [|discriminate]. injection H as <-. apply s32_range.
  - destruct (mvalue i e) as [x|]; [|discriminate]. cbn in H. apply inr_some in H as (-> & H). exact H.
  - destruct (mvalue i e1) as [x|]; [|discriminate]. destruct (mvalue i e2) as [y|]; [|discriminate]. cbn in H.
    destruct o; try discriminate; try (apply inr_some in H as (-> & H); exact H).
    destruct (y =? 0); [discriminate|]. apply inr_some in H as (-> & H); exact H.
Qed.
Lemma calc_code : forall F c e v r st, mvalue i e = Some v -> zlen st + mdepth e <= 256 ->
  calc F c (code e ++ r) st = calc F c r (Entry None v :: st).
Proof.
  intros F c e. induction e as [ds|ds|ds| |a IH|a IH|a IH|o a IHa b IHb]; intros v r st M L; cbn [code mdepth] in *.
  - rewrite M. apply calc_const; [eapply mvalue_s32, M|lia].
  - rewrite M. apply calc_const; [eapply mvalue_s32, M|lia].
  - rewrite M. apply calc_const; [eapply mvalue_s32, M|lia].
  - rewrite M. apply calc_const; [eapply mvalue_s32, M|lia].
  - apply IH; auto.
  - cbn [mvalue] in M. destruct (mvalue i a) as [x|] eqn:A; [|discriminate]. cbn in M. apply inr_some in M as (-> & S).
    assert (D : 1 <= mdepth a) by (clear; induction a; cbn [mdepth]; lia).
    rewrite <- !app_assoc. rewrite calc_const; [|unfold is_s32; lia|lia].
    rewrite (IH x); [|reflexivity|rewrite zlen_cons; lia]. cbn [app calc].
    change (0 =? 30) with false. change (0 =? 31) with false. change (0 =? 33) with false. cbv iota.
    unfold LinkExprModel.step, op_sub, popIntPair, popInt. cbn [bind en_symbol en_value].
    unfold c_sub. rewrite chk_ok; [|exact S]. cbn [bind]. rewrite push_ok by lia. reflexivity.
  - apply IH; auto.
  - cbn [mvalue] in M. destruct (mvalue i a) as [x|] eqn:A; [|discriminate]. destruct (mvalue i b) as [y|] eqn:B; [|discriminate]. cbn [obind] in M.
    assert (D : 1 <= mdepth b) by (clear; induction b; cbn [mdepth]; lia).
    rewrite <- !app_assoc. rewrite (IHa x); [|reflexivity|lia].
    rewrite (IHb y); [|reflexivity|rewrite zlen_cons; lia]. cbn [app].
    destruct o; try discriminate; cbn [op_byte calc];
      [change (0 =? 30) with false; change (0 =? 31) with false; change (0 =? 33) with false
      |change (1 =? 30) with false; change (1 =? 31) with false; change (1 =? 33) with false
      |change (7 =? 30) with false; change (7 =? 31) with false; change (7 =? 33) with false
      |change (8 =? 30) with false; change (8 =? 31) with false; change (8 =? 33) with false]; cbv iota;
      unfold LinkExprModel.step, op_sub, op_add, combine, popIntPair, popInt; cbn [bind en_symbol en_value noSymbol andb].
    + apply inr_some in M as (-> & S). unfold c_sub. rewrite chk_ok by exact S. cbn [bind]. rewrite push_ok by lia. reflexivity.
    + apply inr_some in M as (-> & S). unfold c_add. rewrite chk_ok by exact S. cbn [bind]. rewrite push_ok by lia. reflexivity.
    + apply inr_some in M as (-> & S). unfold c_mul. rewrite chk_ok by exact S. cbn [bind]. rewrite push_ok by lia. reflexivity.
    + destruct (y =? 0) eqn:Y; [discriminate|]. apply inr_some in M as (-> & S). unfold c_div. rewrite Y, chk_ok by exact S. cbn [bind]. rewrite push_ok by lia. reflexivity.
Qed.
End Code.

(** ** Parsing *)
Lemma digits_word : forall (digit : Z -> option Z) base ds v z,
  (forall c d, digit c = Some d -> digitValue c = Some d /\ 0 <= d < base) ->
  number_from digit base v ds = Some z -> forall c, In c ds -> exists d, digitValue c = Some d.
Proof.
  intros digit base ds. induction ds as [|x ds IH]; intros v z H N c I; [destruct I|].
  cbn [number_from] in N. destruct (digit x) as [d|] eqn:D; [|discriminate]. destruct I as [<-|I].
  - exists d. apply H, D.
  - eapply IH; eauto.
Qed.
Lemma word_not_punct : forall ds c, (forall x, In x ds -> exists d, digitValue x = Some d) -> digitValue c = None -> beq [c] ds = false.
Proof.
  intros ds c H D. apply beq_neq. intros E. subst ds. destruct (H c (or_introl eq_refl)) as (d & X). congruence.
Qed.

(** [i] is the index of @, [x] the parser's globals. *)
Definition agree (i : option Z) (x : pctx) : Prop :=
  match i with Some z => x_pool x = true /\ x_index x = z | None => True end.

Lemma parse4_literal : forall i x e s ts o v, agree i x -> no_binary e -> mvalue i e = Some v ->
  match e with EDec _ | EHex _ | EAt => True | _ => False end ->
  st_at s (mshow e ++ ts) o -> exists s', parseExpression_4 x s = Ok (true, s') /\ st_at s' ts (o ++ code i e).
Proof.
  intros i x e s ts o v A NB M K S. destruct e; try contradiction; cbn [mshow app code] in *; rewrite M.
  - cbn [mvalue] in M. apply literal_inv in M as (z & N & ->). unfold number in N.
    destruct digits as [|c0 ds]; [discriminate|]. set (w := c0 :: ds) in *.
    pose proof (digits_word dec_digit 10 w 0 z dec_ok N) as W.
    unfold parseExpression_4. rewrite (ch_at s w ts o 64 S). rewrite (word_not_punct w 64 W eq_refl), andb_false_r.
    unfold parseInteger. rewrite (tok_at _ _ _ _ S). subst w. cbv iota. set (w := c0 :: ds) in *.
    rewrite (ch_at s w ts o 36 S), (word_not_punct w 36 W eq_refl).
    assert (T : tokenIs [37; 37] s = false).
    { unfold tokenIs. rewrite (tok_at _ _ _ _ S). apply beq_neq. intros E. destruct (W 37) as (d & X); [rewrite <- E; left; reflexivity|discriminate X]. }
    rewrite T, (tok_at _ _ _ _ S).
    pose proof (digits_exact 10 w 0 z dec_digit dec_ok N) as X. change (u32 0) with 0 in X. rewrite X.
    eexists. split; [reflexivity|]. rewrite constant_s32, constant_u32. apply st_next with w, st_emit, S.
  - cbn [mvalue] in M. apply literal_inv in M as (z & N & ->). unfold number in N.
    destruct digits as [|c0 ds]; [discriminate|]. set (w := c0 :: ds) in *.
    unfold parseExpression_4. rewrite (ch_at s [36] (w :: ts) o 64 S). change (beq [64] [36]) with false. rewrite andb_false_r.
    unfold parseInteger. rewrite (tok_at _ _ _ _ S). cbv iota. rewrite (ch_at s [36] (w :: ts) o 36 S). change (beq [36] [36]) with true. cbv iota.
    pose proof (st_next _ _ _ _ S) as S1. rewrite (tok_at _ _ _ _ S1).
    pose proof (digits_exact 16 w 0 z hex_digit hex_ok N) as X. change (u32 0) with 0 in X. rewrite X.
    eexists. split; [reflexivity|]. rewrite constant_s32, constant_u32. apply st_next with w, st_emit, S1.
  - cbn [mvalue] in M. destruct i as [z|]; [|discriminate]. injection M as <-. destruct A as (A1 & A2).
    unfold parseExpression_4. rewrite A1, (ch_at s [64] ts o 64 S). change (beq [64] [64]) with true. cbn [andb].
    eexists. split; [reflexivity|]. rewrite A2, constant_s32. apply st_emit, st_next with [64], S.
Qed.

(** The token that follows is not one of these characters. *)
Definition not_next (cs : list Z) (ts : list (list Z)) : Prop :=
  match ts with [] => True | w :: _ => forall c, In c cs -> w <> [c] end.
Lemma not_next_ch : forall cs c s ts o, not_next cs ts -> In c cs -> st_at s ts o -> ch c s = false.
Proof.
  intros cs c s [|w ts] o N I S; [apply ch_end with o, S|]. rewrite (ch_at _ _ _ _ c S). apply beq_neq.
  intros E. apply (N c I). congruence.
Qed.

Lemma first_literal : forall i e v, mvalue i e = Some v -> no_binary e ->
  match e with EDec _ | EHex _ | EAt => True | _ => False end ->
  forall ts, exists w r, mshow e ++ ts = w :: r /\ w <> [43] /\ w <> [45] /\ w <> [40].
Proof.
  intros i e v M NB K ts. destruct e; try contradiction; cbn [mshow app].
  - exists digits, ts. split; [reflexivity|]. cbn [mvalue] in M. apply literal_inv in M as (z & N & _).
    unfold number in N. destruct digits as [|c ds]; [discriminate|].
    pose proof (digits_word dec_digit 10 (c :: ds) 0 z dec_ok N c (or_introl eq_refl)) as (d & D).
    repeat split; intros E; injection E as -> _; discriminate D.
  - eexists _, _. split; [reflexivity|]. repeat split; discriminate.
  - eexists _, _. split; [reflexivity|]. repeat split; discriminate.
Qed.

Section Parse.
Variable i : option Z.
Variable x : pctx.
Hypothesis A : agree i x.

Definition Q3 (e : mexp) : Prop := mgrouped 3 e -> forall n s ts o, (8 * sz e <= n + 4)%nat -> st_at s (mshow e ++ ts) o ->
  exists s', parse3 n x s = Ok (true, s') /\ st_at s' ts (o ++ code i e).
Definition Q2 (e : mexp) : Prop := mgrouped 2 e -> forall n s ts o, (8 * sz e <= n + 3)%nat -> st_at s (mshow e ++ ts) o ->
  exists m s', (n + 5 <= m + 8 * sz e)%nat /\ parse2 n x s = loop2 m x s' /\ st_at s' ts (o ++ code i e).
Definition Q1 (e : mexp) : Prop := mgrouped 1 e -> forall n s ts o, not_next [42; 47] ts -> (8 * sz e <= n + 2)%nat ->
  st_at s (mshow e ++ ts) o ->
  exists m s', (n + 5 <= m + 8 * sz e)%nat /\ parse1 n x s = loop1 m x s' /\ st_at s' ts (o ++ code i e).

Lemma sz_pos : forall e, (1 <= sz e)%nat.
Proof. destruct e; cbn [sz]; lia. Qed.
Lemma Q3_Q2 : forall e, (mgrouped 2 e -> mgrouped 3 e) -> Q3 e -> Q2 e.
Proof.
  intros e G H G2 n s ts o L S. pose proof (sz_pos e). destruct n as [|n]; [lia|].
  destruct (H (G G2) n s ts o ltac:(lia) S) as (s' & E & S'). exists n, s'. split; [lia|]. split; [|exact S'].
  cbn [parse2]. rewrite E. reflexivity.
Qed.
Lemma P2 : forall e, Q2 e -> mgrouped 2 e -> forall n s ts o, not_next [42; 47] ts -> (8 * sz e <= n + 3)%nat -> st_at s (mshow e ++ ts) o ->
  exists s', parse2 n x s = Ok (true, s') /\ st_at s' ts (o ++ code i e).
Proof.
  intros e H G n s ts o N L S. destruct (H G n s ts o L S) as (m & s' & Lm & -> & S'). exists s'. split; [|exact S'].
  destruct m as [|m]; [lia|]. cbn [loop2].
  rewrite (not_next_ch _ 42 _ _ _ N ltac:(cbn; auto) S'), (not_next_ch _ 47 _ _ _ N ltac:(cbn; auto) S'). reflexivity.
Qed.
Lemma Q2_Q1 : forall e, (mgrouped 1 e -> mgrouped 2 e) -> Q2 e -> Q1 e.
Proof.
  intros e G H G1 n s ts o N L S. pose proof (sz_pos e). destruct n as [|n]; [lia|].
  destruct (P2 e H (G G1) n s ts o N ltac:(lia) S) as (s' & E & S'). exists n, s'. split; [lia|]. split; [|exact S'].
  cbn [parse1]. rewrite E. reflexivity.
Qed.
Lemma P1 : forall e, Q1 e -> mgrouped 1 e -> forall n s ts o, not_next [43; 45; 42; 47] ts -> (8 * sz e <= n + 2)%nat -> st_at s (mshow e ++ ts) o ->
  exists s', parse1 n x s = Ok (true, s') /\ st_at s' ts (o ++ code i e).
Proof.
  intros e H G n s ts o N L S.
  assert (N' : not_next [42; 47] ts) by (destruct ts; [exact I|intros c Hc; apply N; cbn in *; tauto]).
  destruct (H G n s ts o N' L S) as (m & s' & Lm & -> & S'). exists s'. split; [|exact S'].
  destruct m as [|m]; [lia|]. cbn [loop1].
  rewrite (not_next_ch _ 43 _ _ _ N ltac:(cbn; auto) S'), (not_next_ch _ 45 _ _ _ N ltac:(cbn; auto) S'). reflexivity.
Qed.

Lemma mgrouped_mono : forall e l k, (l <= k)%nat -> mgrouped k e -> mgrouped l e.
Proof.
  destruct e; cbn [mgrouped]; auto. intros l k L H. destruct (mlevel o); [|exact H]. destruct H as (H1 & H2). split; [lia|exact H2].
Qed.

Lemma parsed : forall e v, no_binary e -> mvalue i e = Some v -> Q3 e /\ Q2 e /\ Q1 e.
Proof.
  induction e as [ds|ds|ds| |a IH|a IH|a IH|o a IHa b IHb]; intros v NB M.
  1,2,3,4,5,6,7:
    match goal with |- Q3 ?e /\ _ =>
      assert (H3 : Q3 e); [|split; [exact H3|]; assert (H2 : Q2 e) by (apply Q3_Q2; [intros H; exact H|exact H3]);
        split; [exact H2|apply Q2_Q1; [intros H; exact H|exact H2]]] end.
  - intros _ n s ts o L S. destruct n as [|n]; [cbn in L; lia|].
    destruct (first_literal i (EDec ds) v M I I ts) as (w & r & E & N1 & N2 & N3).
    destruct (parse4_literal i x (EDec ds) s ts o v A I M I S) as (s' & P & S'). exists s'. split; [|exact S'].
    rewrite E in S. cbn [parse3]. rewrite !(ch_at _ _ _ _ _ S).
    rewrite (proj2 (beq_neq [43] w)), (proj2 (beq_neq [45] w)), (proj2 (beq_neq [40] w)) by congruence. exact P.
  - intros _ n s ts o L S. destruct n as [|n]; [cbn in L; lia|].
    destruct (first_literal i (EHex ds) v M I I ts) as (w & r & E & N1 & N2 & N3).
    destruct (parse4_literal i x (EHex ds) s ts o v A I M I S) as (s' & P & S'). exists s'. split; [|exact S'].
    rewrite E in S. cbn [parse3]. rewrite !(ch_at _ _ _ _ _ S).
    rewrite (proj2 (beq_neq [43] w)), (proj2 (beq_neq [45] w)), (proj2 (beq_neq [40] w)) by congruence. exact P.
  - destruct NB.
  - intros _ n s ts o L S. destruct n as [|n]; [cbn in L; lia|].
    destruct (first_literal i EAt v M I I ts) as (w & r & E & N1 & N2 & N3).
    destruct (parse4_literal i x EAt s ts o v A I M I S) as (s' & P & S'). exists s'. split; [|exact S'].
    rewrite E in S. cbn [parse3]. rewrite !(ch_at _ _ _ _ _ S).
    rewrite (proj2 (beq_neq [43] w)), (proj2 (beq_neq [45] w)), (proj2 (beq_neq [40] w)) by congruence. exact P.
  - intros G n s ts o L S. destruct n as [|n]; [cbn in L; lia|]. cbn [sz] in L. cbn [mshow app code] in *.
    rewrite <- app_assoc in S. cbn [app] in S.
    destruct (IH v NB M) as (_ & _ & H1).
    destruct (P1 a H1 G n (next s) ([41] :: ts) o) as (s1 & P & S1).
    { intros c Hc E. injection E as <-. cbn in Hc. lia. }
    { lia. }
    { apply st_next with [40], S. }
    cbn [parse3]. rewrite !(ch_at _ _ _ _ _ S). change (beq [43] [40]) with false. change (beq [45] [40]) with false. change (beq [40] [40]) with true. cbv iota.
    rewrite P. cbn [bind andb]. rewrite (ch_at _ _ _ _ _ S1). change (beq [41] [41]) with true. cbv iota.
    eexists. split; [reflexivity|]. apply st_next with [41], S1.
  - intros G n s ts o L S. destruct n as [|n]; [cbn in L; lia|]. cbn [sz] in L. cbn [mshow app code] in *.
    cbn [mvalue] in M. destruct (mvalue i a) as [y|]; [|discriminate]. destruct (IH y NB eq_refl) as (H3 & _).
    destruct (H3 G n (emit (constant 0) (next s)) ts (o ++ constant 0)) as (s1 & P & S1).
    { lia. }
    { apply st_emit, st_next with [45], S. }
    cbn [parse3]. rewrite !(ch_at _ _ _ _ _ S). change (beq [43] [45]) with false. change (beq [45] [45]) with true. cbv iota.
    rewrite P. cbn [bind]. cbv iota. eexists. split; [reflexivity|]. rewrite !app_assoc. apply st_emit. rewrite <- app_assoc in S1 |- *. exact S1.
  - intros G n s ts o L S. destruct n as [|n]; [cbn in L; lia|]. cbn [sz] in L. cbn [mshow app code] in *.
    destruct (IH v NB M) as (H3 & _).
    destruct (H3 G n (next s) ts o) as (s1 & P & S1).
    { lia. }
    { apply st_next with [43], S. }
    cbn [parse3]. rewrite !(ch_at _ _ _ _ _ S). change (beq [43] [43]) with true. cbv iota. eauto.
  - cbn [mvalue] in M. destruct (mvalue i a) as [va|]; [|discriminate]. destruct (mvalue i b) as [vb|]; [|discriminate].
    destruct NB as (NBa & NBb). destruct (IHa va NBa eq_refl) as (_ & Ha2 & Ha1). destruct (IHb vb NBb eq_refl) as (Hb3 & Hb2 & _).
    clear IHa IHb M. destruct (mlevel o) as [p|] eqn:LV.
    2:{ repeat split; intros G; cbn [mgrouped] in G; rewrite LV in G; destruct G. }
    assert (B3 : Q3 (EBin o a b)).
    { intros G. cbn [mgrouped] in G. rewrite LV in G. destruct G as (G & _). destruct o; cbn in LV; try discriminate; injection LV as <-; lia. }
    assert (Cases : (p = 2%nat /\ (op_char o = 42 \/ op_char o = 47) /\ op_byte o = (if op_char o =? 42 then 7 else 8)) \/
                    (p = 1%nat /\ (op_char o = 43 \/ op_char o = 45) /\ op_byte o = (if op_char o =? 43 then 1 else 0))).
    { destruct o; cbn in LV; try discriminate; injection LV as <-; [right|right|left|left]; repeat split; auto. }
    destruct Cases as [(-> & OC & OB)|(-> & OC & OB)].
    + assert (B2 : Q2 (EBin o a b)).
      { intros G n s ts out0 L S. cbn [mgrouped] in G. rewrite LV in G. destruct G as (_ & Ga & Gb).
        cbn [mshow sz code] in *. rewrite <- app_assoc in S. cbn [app] in S.
        destruct (Ha2 Ga n s ([op_char o] :: mshow b ++ ts) out0 ltac:(lia) S) as (m & s1 & Lm & -> & S1).
        destruct m as [|m]; [lia|].
        destruct (Hb3 Gb m (next s1) ts (out0 ++ code i a) ltac:(lia)) as (s2 & P & S2).
        { apply st_next with [op_char o], S1. }
        exists m, (emit [op_byte o] s2). split; [lia|]. split.
        - cbn [loop2]. rewrite !(ch_at _ _ _ _ _ S1).
          assert (E : beq [42] [op_char o] || beq [47] [op_char o] = true) by (destruct OC as [-> | ->]; reflexivity).
          rewrite E, P. cbn [bind]. cbv iota. rewrite OB. f_equal. f_equal. f_equal. destruct OC as [-> | ->]; reflexivity.
        - rewrite !app_assoc. apply st_emit, S2. }
      split; [exact B3|]. split; [exact B2|]. apply Q2_Q1; [|exact B2].
      intros G. cbn [mgrouped] in *. rewrite LV in *. destruct G as (_ & G). split; [lia|exact G].
    + split; [exact B3|]. split.
      { intros G. cbn [mgrouped] in G. rewrite LV in G. destruct G as (G & _). lia. }
      intros G n s ts out0 N L S. cbn [mgrouped] in G. rewrite LV in G. destruct G as (_ & Ga & Gb).
      cbn [mshow sz code] in *. rewrite <- app_assoc in S. cbn [app] in S.
      destruct (Ha1 Ga n s ([op_char o] :: mshow b ++ ts) out0) as (m & s1 & Lm & -> & S1).
      { intros c Hc E. injection E as E. cbn in Hc. lia. }
      { lia. }
      { exact S. }
      destruct m as [|m]; [lia|].
      destruct (P2 b Hb2 Gb m (next s1) ts (out0 ++ code i a) N ltac:(lia)) as (s2 & P & S2).
      { apply st_next with [op_char o], S1. }
      exists m, (emit [op_byte o] s2). split; [lia|]. split.
      * cbn [loop1]. rewrite !(ch_at _ _ _ _ _ S1).
        assert (E : beq [43] [op_char o] || beq [45] [op_char o] = true) by (destruct OC as [-> | ->]; reflexivity).
        rewrite E, P. cbn [bind]. cbv iota. rewrite OB. f_equal. f_equal. f_equal. destruct OC as [-> | ->]; reflexivity.
      * rewrite !app_assoc. apply st_emit, S2.
Qed.

Lemma sz_tokens : forall e, (sz e <= List.length (mshow e))%nat.
Proof.
  induction e; cbn [sz mshow List.length]; rewrite ?app_length; cbn [List.length]; lia.
Qed.
Lemma at_length : forall p ts, at_ p ts -> Forall (fun w => w <> []) ts -> (List.length ts <= List.length (fst p) + List.length (snd p))%nat.
Proof.
  intros p [|w r] H NE; [cbn; lia|]. destruct H as (H1 & H2). apply spelled_length in H2. inversion NE; subst.
  destruct (fst p); [contradiction|]. cbn [List.length]. lia.
Qed.
End Parse.

Lemma mshow_nonempty : forall i e v, mvalue i e = Some v -> Forall (fun w => w <> []) (mshow e).
Proof.
  intros i e. induction e as [ds|ds|ds| |a IH|a IH|a IH|o a IHa b IHb]; intros v M; cbn [mshow mvalue] in *;
    repeat constructor; try discriminate.
  1,2,3: apply literal_inv in M as (z & N & _); unfold number in N; destruct ds; discriminate.
  - apply Forall_app. split; [eauto|repeat constructor; discriminate].
  - destruct (mvalue i a); [eauto|discriminate].
  - eauto.
  - destruct (mvalue i a); [|discriminate]. destruct (mvalue i b); [|discriminate].
    apply Forall_app. split; [eauto|constructor; [discriminate|eauto]].
Qed.

Lemma parseExpression1_ok : forall i x e v s ts o, agree i x -> no_binary e -> mgrouped 1 e -> mvalue i e = Some v ->
  not_next [43; 45; 42; 47] ts -> st_at s (mshow e ++ ts) o ->
  exists s', parseExpression_1 x s = Ok (true, s') /\ st_at s' ts (o ++ code i e).
Proof.
  intros i x e v s ts o A NB G M N S. destruct (parsed i x A e v NB M) as (_ & _ & H1). unfold parseExpression_1.
  apply (P1 i x e H1 G); auto.
  destruct S as (S & _). destruct (mshow e) as [|w r] eqn:E.
  - pose proof (sz_tokens e) as H. rewrite E in H. pose proof (sz_pos e). cbn in H. lia.
  - pose proof (sz_tokens e) as H. rewrite E in H. cbn [app at_] in S. destruct S as (S1 & S2).
    apply spelled_length in S2. rewrite app_length in S2. cbn [List.length] in H.
    pose proof (mshow_nonempty i e v M) as NE. rewrite E in NE. inversion NE; subst.
    unfold tk, rest. destruct (fst (fst s)) as [|z l]; [contradiction|]. cbn [List.length] in *. lia.
Qed.
