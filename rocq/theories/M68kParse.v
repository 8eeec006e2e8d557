(** Proofs about the 680x0 instruction parser: reading an operand. *)
From Coq Require Import String ZArith List Bool Lia ZifyBool.
From Verif Require Import Base BaseFacts Arith ExprSpec ExprModel ExprLayout ObjWriteModel OptModel SectModel SectSpec InstrSpec.
From Verif Require Import X65Spec M68kModel M68kSpec M68kProofs M68kEa.
Import ListNotations.
Open Scope string_scope.
Open Scope list_scope.
Open Scope Z_scope.

Lemma reg_cases : forall n, reg_ok n = true -> n = 0 \/ n = 1 \/ n = 2 \/ n = 3 \/ n = 4 \/ n = 5 \/ n = 6 \/ n = 7.
Proof. intros n H. unfold reg_ok in H. lia. Qed.
Ltac each_reg n H := destruct (reg_cases n H) as [->|[->|[->|[->|[->|[->|[->| ->]]]]]]].
Lemma lex_d : forall n, reg_ok n = true -> lex1 (Word (String.append "D" (digit n))) = TD n.
Proof. intros n H. each_reg n H; reflexivity. Qed.
Lemma lex_a : forall n, reg_ok n = true -> lex1 (Word (String.append "A" (digit n))) = TA n.
Proof. intros n H. each_reg n H; reflexivity. Qed.
Lemma lex_ind : forall n, reg_ok n = true -> lex1 (Word (String.append "(A" (String.append (digit n) ")"))) = TInd n.
Proof. intros n H. each_reg n H; reflexivity. Qed.
Lemma lex_inc : forall n, reg_ok n = true -> lex1 (Word (String.append "(A" (String.append (digit n) ")+"))) = TInc n.
Proof. intros n H. each_reg n H; reflexivity. Qed.
Lemma lex_dec : forall n, reg_ok n = true -> lex1 (Word (String.append "-(A" (String.append (digit n) ")"))) = TDec n.
Proof. intros n H. each_reg n H; reflexivity. Qed.

(** ** Parts *)
Definition size_code (s : option size) : Z := match s with None => 0 | Some SB => 1 | Some SW => 2 | Some SL => 4 end.
Definition disp_e (d : option disp) : expr := match d with None => ENull | Some (a, _) => g_expr a end.
Definition disp_z (d : option disp) : Z := match d with None => 0 | Some (_, s) => size_code s end.
Definition base_code (b : option base) : Z := match b with None => REG_NONE | Some (BaseA n) => REG_A0 + n | Some BasePc => REG_PC end.
Definition index_code (x : option index) : Z :=
  match x with None => REG_NONE | Some x => if x_addr x then REG_A0 + x_n x else x_n x end.
Definition index_size (x : option index) : Z := match x with None => 0 | Some x => match x_size x with Some SL => SIZE_LONG | _ => SIZE_WORD end end.
Definition index_scale (x : option index) : expr :=
  match x with Some x => match x_scale x with None => ENull | Some c => scale_expr c end | None => ENull end.
Definition raw (d : option disp) (b : option base) (x : option index) : regs :=
  Regs (base_code b) (index_code x) (index_size x) (index_scale x) (disp_e d) (disp_z d).
Definition sep (ts : list token) : Prop := match ts with TComma :: _ | TRp :: _ | TRb :: _ => True | _ => False end.
Lemma sep_cases : forall ts, sep ts -> exists r, ts = TComma :: r \/ ts = TRp :: r \/ ts = TRb :: r.
Proof. intros [|[] ts] H; try destruct H; exists ts; tauto. Qed.
Definition part (r : regs) (p : list piece) (r' : regs) : Prop :=
  (exists h t, lex p = h :: t /\ h <> TLb) /\
  forall ts st, sep ts -> singleModePart r (lex p ++ ts) st = Ok (true, r', ts, st).
Lemma size_read : forall s z ts, sep ts \/ (exists r, ts = TMul :: r) ->
  m68k_GetSizeSpecifier z (lex (size_text s) ++ ts) = (match s with None => z | Some _ => size_code s end, ts).
Proof.
  intros [[]|] z ts H; try reflexivity. cbn [size_text lex map app].
  destruct H as [H|(r & ->)]; [|reflexivity]. destruct (sep_cases ts H) as (r & [->|[->| ->]]); reflexivity.
Qed.
Lemma part_disp : forall r a s, isNull (g_expr a) = false -> r_disp r = ENull ->
  part r (disp_text (a, s)) (set_dsize (size_code s) (set_disp (g_expr a) r)).
Proof.
  intros r a s N D. split; [exists (TExpr (g_expr a)), (lex (size_text s)); split; [reflexivity|discriminate]|].
  intros ts st H. cbn [disp_text fst snd lex map app lex1]. unfold singleModePart. cbn [parse_Expression]. rewrite N, D. cbn [isNull negb].
  fold (lex (size_text s)). rewrite size_read by (left; exact H). destruct s; reflexivity.
Qed.
Lemma part_base : forall r b, base_ok (Some b) = true -> r_base r = REG_NONE -> part r (base_text b) (set_base (base_code (Some b)) r).
Proof.
  intros r [n|] B H.
  - cbn [base_ok] in B. unfold part, base_text, lex. cbn [map]. rewrite lex_a by exact B.
    split; [exists (TA n), []; split; [reflexivity|discriminate]|].
    intros ts st Hs. cbn [app]. unfold singleModePart. rewrite H. cbn [Z.eqb REG_NONE Pos.eqb negb].
    pose proof (size_read None SIZE_DEFAULT ts (or_introl Hs)) as Sr. cbn [size_text lex map app] in Sr. rewrite Sr. reflexivity.
  - split; [exists TPc, []; split; [reflexivity|discriminate]|]. intros ts st _. unfold base_text, lex. cbn [map app].
    change (lex1 (Word "PC")) with TPc. unfold singleModePart. rewrite H. reflexivity.
Qed.
Lemma scale_read : forall c st, c = 1 \/ c = 2 \/ c = 4 \/ c = 8 ->
  exists e1, range_checked (expr_Const c) 1 8 st = Ok (e1, st) /\ expr_Bit e1 = Ok (scale_expr c).
Proof. intros c st [->|[->|[->| ->]]]; (eexists; split; reflexivity). Qed.
Lemma index_read_reg : forall new x reg r ts st, index_ok new (Some x) = true -> r_scale r = ENull -> sep ts ->
  getIndexReg reg r (lex (size_text (x_size x) ++ match x_scale x with None => [] | Some c => [Star; Operand (expr_Const c)] end) ++ ts) st =
  Ok (true, set_index reg (index_size (Some x)) (index_scale (Some x)) r, ts, st).
Proof.
  intros new x reg r ts st X R H. unfold getIndexReg, lex. rewrite map_app, <- app_assoc.
  fold (lex (size_text (x_size x))). cbn [index_ok] in X. apply andb_prop in X. destruct X as (X & Xc). apply andb_prop in X. destruct X as (_ & Xs).
  rewrite size_read.
  2:{ destruct (x_scale x); [right; eexists; reflexivity|left; exact H]. }
  assert (Z0 : match x_size x with None => SIZE_WORD | Some _ => size_code (x_size x) end = index_size (Some x))
    by (unfold index_size, size_code; destruct (x_size x) as [[]|]; try reflexivity; discriminate Xs).
  rewrite Z0. replace (negb (index_size (Some x) =? SIZE_WORD) && negb (index_size (Some x) =? SIZE_LONG)) with false
    by (unfold index_size; destruct (x_size x) as [[]|]; reflexivity).
  unfold index_scale. destruct (x_scale x) as [c|].
  - cbn [map app lex1 parse_Expression]. change (isNull (expr_Const c)) with false. cbv iota.
    destruct (scale_read c st) as (e1 & E1 & E2); [destruct new; cbn [andb] in Xc; lia|].
    rewrite E1. cbn [bind]. rewrite E2. reflexivity.
  - cbn [map app]. rewrite R. destruct (sep_cases ts H) as (t & [->|[->| ->]]); reflexivity.
Qed.
Lemma part_index : forall new r x, index_ok new (Some x) = true -> r_index r = REG_NONE -> r_scale r = ENull ->
  (r_base r <> REG_NONE \/ x_addr x = false \/ x_size x = Some SW /\ x_scale x = None) ->
  part r (index_text x) (set_index (index_code (Some x)) (index_size (Some x)) (index_scale (Some x)) r).
Proof.
  intros new r x X I Sc B. assert (Rx : reg_ok (x_n x) = true) by (cbn [index_ok] in X; destruct (reg_ok (x_n x)); [reflexivity|discriminate X]).
  unfold index_text, index_code. destruct (x_addr x) eqn:A.
  - split; [exists (TA (x_n x)); eexists; cbn [lex map]; rewrite lex_a by exact Rx; split; [reflexivity|discriminate]|].
    intros ts st H. unfold lex. cbn [map]. rewrite lex_a by exact Rx.
    match goal with |- context [map lex1 ?l] => fold (lex l) end. cbn [app].
    unfold singleModePart. destruct (r_base r =? REG_NONE) eqn:Br; cbn [negb].
    + destruct B as [B|[B|(B1 & B2)]]; [unfold REG_NONE in *; lia|discriminate B|].
      rewrite B1, B2. unfold size_text, lex. cbn [map app]. change (lex1 (Word ".W")) with (TSize SIZE_WORD). cbn [m68k_GetSizeSpecifier].
      rewrite I. cbn [Z.eqb REG_NONE Pos.eqb SIZE_WORD]. unfold index_size, index_scale. rewrite B1, B2, Sc. reflexivity.
    + rewrite I. cbn [Z.eqb REG_NONE Pos.eqb negb]. apply (index_read_reg new); assumption.
  - split; [exists (TD (x_n x)); eexists; cbn [lex map]; rewrite lex_d by exact Rx; split; [reflexivity|discriminate]|].
    intros ts st H. unfold lex. cbn [map]. rewrite lex_d by exact Rx.
    match goal with |- context [map lex1 ?l] => fold (lex l) end. cbn [app].
    unfold singleModePart. rewrite I. cbn [Z.eqb REG_NONE Pos.eqb negb]. apply (index_read_reg new); assumption.
Qed.
Fixpoint chain (r : regs) (l : list (list piece)) (r' : regs) : Prop :=
  match l with [] => r' = r | p :: ps => exists r1, part r p r1 /\ chain r1 ps r' end.
Lemma lex_app : forall a b, lex (a ++ b) = lex a ++ lex b.
Proof. intros. apply map_app. Qed.
Lemma outer_chain : forall l n cpu a rest st r', l <> [] -> chain (a_outer a) l r' -> (List.length l <= n)%nat ->
  getOuterMode n cpu a (lex (commas l) ++ TRp :: rest) st = Ok (true, set_outer r' a, rest, st).
Proof.
  induction l as [|p l IH]; intros n cpu a rest st r' Ne Ch Le; [destruct (Ne eq_refl)|].
  destruct n as [|n]; [cbn in Le; lia|]. destruct Ch as (r1 & ((h & t & Hp & Nb) & P) & Ch).
  assert (Go : forall ts, sep ts -> getOuterPart cpu a (lex p ++ ts) st = Ok (true, set_outer r1 a, ts, st)).
  { intros ts H. unfold getOuterPart. rewrite (P ts st H). cbn [bind]. rewrite Hp. cbn [app]. destruct h; try reflexivity. destruct (Nb eq_refl). }
  destruct l as [|q l].
  - cbn [chain] in Ch. subst r'. cbn [commas getOuterMode]. rewrite Go by exact Logic.I. reflexivity.
  - change (commas (p :: q :: l)) with (p ++ Comma :: commas (q :: l)). rewrite lex_app, <- app_assoc. cbn [getOuterMode].
    rewrite Go by exact Logic.I. cbn [bind negb lex map lex1 app].
    fold (lex (commas (q :: l))).
    specialize (IH n cpu (set_outer r1 a) rest st r' ltac:(discriminate) Ch ltac:(cbn in *; lia)).
    unfold lex in *. rewrite IH. destruct a. reflexivity.
Qed.
Lemma inner_chain : forall l n a rest st r', l <> [] -> chain (a_inner a) l r' -> (List.length l <= n)%nat ->
  getInnerMode n a (lex (commas l) ++ TRb :: rest) st = Ok (true, set_inner r' a, rest, st).
Proof.
  induction l as [|p l IH]; intros n a rest st r' Ne Ch Le; [destruct (Ne eq_refl)|].
  destruct n as [|n]; [cbn in Le; lia|]. destruct Ch as (r1 & (_ & P) & Ch).
  destruct l as [|q l].
  - cbn [chain] in Ch. subst r'. cbn [commas getInnerMode]. rewrite P by exact Logic.I. reflexivity.
  - change (commas (p :: q :: l)) with (p ++ Comma :: commas (q :: l)). rewrite lex_app, <- app_assoc. cbn [getInnerMode].
    rewrite P by exact Logic.I. cbn [bind negb lex map lex1 app].
    specialize (IH n (set_inner r1 a) rest st r' ltac:(discriminate) Ch ltac:(cbn in *; lia)).
    unfold lex in *. rewrite IH. destruct a. reflexivity.
Qed.
Definition dnull (d : option disp) : Prop := match d with Some (a, _) => isNull (g_expr a) = false | None => True end.
Lemma tail_chain : forall new b x r, base_ok b = true -> index_ok new x = true -> (b = None -> alone x) ->
  r_base r = REG_NONE -> r_index r = REG_NONE -> r_scale r = ENull -> r_isize r = 0 ->
  chain r (maybe base_text b ++ maybe index_text x) (Regs (base_code b) (index_code x) (index_size x) (index_scale x) (r_disp r) (r_dsize r)).
Proof.
  intros new b x r B X Al Rb Ri Rs Rz.
    assert (Hx : forall r1, r_index r1 = REG_NONE -> r_scale r1 = ENull -> r_isize r1 = 0 -> r_base r1 = base_code b ->
      chain r1 (maybe index_text x) (Regs (base_code b) (index_code x) (index_size x) (index_scale x) (r_disp r1) (r_dsize r1))).
    { intros r1 Ri1 Rs1 Rz1 Rb1. destruct x as [x|]; cbn [maybe chain].
      - eexists. split; [apply (part_index new)|].
        + exact X. + exact Ri1. + exact Rs1.
        + destruct b as [b|].
          * left. rewrite Rb1. destruct b as [n|]; cbn [base_code]; [|discriminate]. cbn [base_ok] in B. unfold reg_ok in B. unfold REG_A0, REG_NONE. lia.
          * right. specialize (Al eq_refl). unfold alone in Al. destruct (x_addr x); [right; apply Al; reflexivity|left; reflexivity].
        + unfold set_index. rewrite Rb1. reflexivity.
      - cbn [index_code index_size index_scale]. rewrite <- Ri1, <- Rs1, <- Rb1, <- Rz1. destruct r1; reflexivity. }
    destruct b as [b|]; cbn [maybe chain app].
    - eexists. split; [apply part_base; assumption|]. apply (Hx (set_base (base_code (Some b)) r)); assumption || reflexivity.
    - apply Hx; assumption || (rewrite Rb; reflexivity).
Qed.
Lemma parts_chain : forall new d b x, dnull d -> base_ok b = true -> index_ok new x = true -> (b = None -> alone x) ->
  chain no_regs (maybe disp_text d ++ maybe base_text b ++ maybe index_text x) (raw d b x).
Proof.
  intros new d b x D B X Al.
  assert (Hb : forall r, r_base r = REG_NONE -> r_index r = REG_NONE -> r_scale r = ENull -> r_isize r = 0 ->
    chain r (maybe base_text b ++ maybe index_text x) (Regs (base_code b) (index_code x) (index_size x) (index_scale x) (r_disp r) (r_dsize r))).
  { intros r. apply (tail_chain new); assumption. }
  destruct d as [(a, s)|]; cbn [maybe app chain].
  - eexists. split; [apply part_disp; [exact D|reflexivity]|].
    refine (Hb _ _ _ _ _); reflexivity.
  - apply (Hb no_regs); reflexivity.
Qed.
Lemma outer_parts_chain : forall new x d, dnull d -> index_ok new x = true -> alone x ->
  chain no_regs (maybe index_text x ++ maybe disp_text d) (raw d None x).
Proof.
  intros new x d D X Al.
  assert (Hd : forall r, r_disp r = ENull -> r_dsize r = 0 -> chain r (maybe disp_text d) (Regs (r_base r) (r_index r) (r_isize r) (r_scale r) (disp_e d) (disp_z d))).
  { intros r R1 R2. destruct d as [(a, s)|]; cbn [maybe chain].
    - eexists. split; [apply part_disp; assumption|]. reflexivity.
    - cbn [disp_e disp_z]. rewrite <- R1, <- R2. destruct r; reflexivity. }
  destruct x as [x|]; cbn [maybe app chain].
  - eexists. split; [apply (part_index new)|].
    + exact X. + reflexivity. + reflexivity.
    + unfold alone in Al. right. destruct (x_addr x); [right; apply Al; reflexivity|left; reflexivity].
    + refine (Hd _ _ _); reflexivity.
  - apply (Hd no_regs); reflexivity.
Qed.
