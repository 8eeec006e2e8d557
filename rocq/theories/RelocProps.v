(** C52: expressions in links that leave the sections without addresses. *)
From Coq Require Import ZArith List Bool Lia ZifyBool.
From Verif Require Import Base BaseFacts Arith ExprSpec ExprModel LinkExprModel ExprLayout ExprTree ArithProofs
  ExprProofs ReduceProofs LinkExprProofs ExprProps RelocSpec RelocProofs LinkModel LinkSpec AssignModel FileModel HunkModel HunkSpec HunkProps.
Import ListNotations.
Open Scope Z_scope.

(** What the linker makes of an expression, a number or a section plus a number, is
    the expression's value wherever the sections are loaded. *)
Theorem C52_relocatable : forall F c id addr E t v e,
  fmath_ok F -> (forall s, is_s32 (e_sym E s)) -> (forall s, is_s32 (e_bank E s)) ->
  term_ok t -> coded t -> tidy t -> loaded c id addr E t -> meaning F E t = Some v ->
  calculateExpressionValue F c (object_code id t) = Ok (Some e) -> entry_value addr e = Some v.
Proof.
  intros F c id addr E t v e HF HS HB O C T L M H. unfold calculateExpressionValue in H.
  rewrite <- (app_nil_r (object_code id t)) in H.
  destruct (calc_reloc F E c id addr HF HS HB t v O C T L M _ _ _ H) as (e' & S1 & _ & _ & _ & R).
  cbn in R. injection R as ->. exact S1.
Qed.
Print Assumptions C52_relocatable.

(** In a loaded Amiga executable, the longword at a patch is the value of its
    expression with every section where it was loaded. *)
Theorem C52_hunk_pointers : forall F linkerValue groupProperty p p' i s d g q id t E addr v y z n own h start,
  patch_Process F true true linkerValue groupProperty false p = Ok p' -> hunk_program p' ->
  nth_error p i = Some s -> s_group (sc_place s) = Some g -> og_type g = 0 -> sc_data s = Some d ->
  Forall (inside d) (sc_patches s) -> ForallOrdPairs disjoint (sc_patches s) -> Forall (fun q => pt_section q = None) (sc_patches s) ->
  In q (sc_patches s) -> pt_type q = 4 -> pt_expr q = object_code id t ->
  let c := patch_ctx linkerValue groupProperty p i false s (pt_offset q) in
  fmath_ok F -> (forall s, is_s32 (e_sym E s)) -> (forall s, is_s32 (e_bank E s)) ->
  term_ok t -> coded t -> tidy t -> loaded c id addr E t -> meaning F E t = Some v ->
  calculateExpressionValue F c (object_code id t) = Ok (Some (Entry (Some y) z)) -> v_section y = Some n ->
  hunk_number p' (s_id (sc_place s)) own -> hunk_number p' (Z.of_nat n) h -> addr n = start h ->
  exists bytes hs k, amiga_WriteExecutable p' None = Ok bytes /\ hunk_load bytes = Some hs /\
    nth_error hs (Z.to_nat own) = Some k /\ long_at (relocate start k) (pt_offset q) = v mod 2 ^ 32.
Proof.
  intros F lv gp p p' i s d g q id t E addr v y z n own h start PP HP NI G GT D IN DJ NS IQ TQ XQ c HF HS HB O C T L M CV SY OWN HN AD.
  pose proof (C52_relocatable F c id addr E t v _ HF HS HB O C T L M CV) as R. unfold entry_value in R. cbn in R. rewrite SY in R. injection R as R.
  destruct (C29_pointers F lv gp p p' i s d g q y z n own h start PP HP NI G GT D IN DJ NS IQ TQ) as (bytes & hs & k & W & LD & NH & LA);
    [rewrite XQ; exact CV|exact SY|exact OWN|exact HN|].
  exists bytes, hs, k. split; [exact W|]. split; [exact LD|]. split; [exact NH|]. rewrite LA. f_equal. rewrite <- R, AD. lia.
Qed.
Print Assumptions C52_hunk_pointers.

(** A label at 4 of section 0, one at 9 of section 0, one at 2 of section 1. *)
Definition rlCtx : linkctx :=
  LinkCtx (fun id => if id =? 0 then Ok (SymView 4 (Some 0%nat) false true) else if id =? 1 then Ok (SymView 9 (Some 0%nat) false true)
                     else if id =? 2 then Ok (SymView 2 (Some 1%nat) false true) else if id <? 5 then Ok (SymView 0 None false false) else Err)
    (fun _ => Ok None) (fun _ _ => Err) 0 (-1) 0.
Definition rlAddr (k : nat) : Z := match k with O => 4096 | _ => 8192 end.
Definition rlEnv : env := Env (fun s => match s with O => 4100 | 1%nat => 4105 | _ => 8194 end) (fun _ => 0) (-1).
Definition rlTerm : term := Bin OpAdd (Bin OpMul (Paren (Bin OpSub (Sym 1) (Sym 0))) (Num 3)) (Bin OpSub (Sym 2) (Num 1)).
Example C52_example :
  fmath_ok exF /\ (forall s, is_s32 (e_sym rlEnv s)) /\ (forall s, is_s32 (e_bank rlEnv s)) /\
  term_ok rlTerm /\ coded rlTerm /\ tidy rlTerm /\ loaded rlCtx Z.of_nat rlAddr rlEnv rlTerm /\ meaning exF rlEnv rlTerm = Some 8208 /\
  calculateExpressionValue exF rlCtx (object_code Z.of_nat rlTerm) = Ok (Some (Entry (Some (SymView 2 (Some 1%nat) false true)) 14)).
Proof.
  split; [exact ex_fmath_ok|]. split; [intros [|[|s]]; unfold is_s32; cbn; lia|]. split; [intros s; unfold is_s32; cbn; lia|].
  split; [cbn; unfold is_s32; lia|]. split; [cbn; auto|].
  split; [cbn; repeat split; auto; intros; try discriminate; auto|].
  split; [|split; reflexivity]. split; [|split; [|reflexivity]].
  - intros s [<-|[<-|[<-|[]]]]; (eexists; split; [reflexivity|reflexivity]).
  - intros s [].
Qed.

(** A difference between sections is refused, whatever is added to the labels. *)
Theorem C52_between_sections : forall F c id s1 s2 y1 y2 k1 k2,
  c_symbol c (u32 (id s1)) = Ok y1 -> c_symbol c (u32 (id s2)) = Ok y2 -> v_placed y1 = false -> v_placed y2 = false ->
  v_section y1 = Some k1 -> v_section y2 = Some k2 -> k1 <> k2 ->
  calculateExpressionValue F c (object_code id (Bin OpSub (Sym s1) (Sym s2))) = Err /\
  forall x, is_s32 x -> calculateExpressionValue F c (object_code id (Bin OpSub (Bin OpAdd (Sym s1) (Num x)) (Sym s2))) = Err.
Proof.
  intros F c id s1 s2 y1 y2 k1 k2 Y1 Y2 P1 P2 S1 S2 N.
  assert (NE : Nat.eqb k1 k2 = false) by (apply Nat.eqb_neq; exact N).
  destruct (word_le32 (u32 (id s1)) (u32_range _)) as (a & b & d & e & HW & HV).
  destruct (word_le32 (u32 (id s2)) (u32_range _)) as (a' & b' & d' & e' & HW' & HV').
  assert (PS1 : forall st, zlen st + 1 <= 256 -> push_symbol c (u32 (id s1)) st = Ok (Entry (Some y1) 0 :: st)).
  { intros st X. unfold push_symbol. rewrite Y1. cbn [bind]. rewrite P1. unfold push, STACKSIZE. destruct (zlen st >=? 256) eqn:Q; [lia|reflexivity]. }
  assert (PS2 : forall st, zlen st + 1 <= 256 -> push_symbol c (u32 (id s2)) st = Ok (Entry (Some y2) 0 :: st)).
  { intros st X. unfold push_symbol. rewrite Y2. cbn [bind]. rewrite P2. unfold push, STACKSIZE. destruct (zlen st >=? 256) eqn:Q; [lia|reflexivity]. }
  split.
  - unfold calculateExpressionValue. cbn [object_code op_code]. rewrite HW, HW'. cbn [app calc].
    change (31 =? 30) with false. change (31 =? 31) with true. cbv iota. rewrite HV, HV'.
    rewrite PS1 by (cbn; lia). cbn [bind]. rewrite PS2 by (cbn; lia). cbn. unfold same_section. rewrite S1, S2, NE. reflexivity.
  - intros x X. destruct (word_le32 (u32 x) (u32_range _)) as (xa & xb & xd & xe & XW & XV).
    unfold calculateExpressionValue. cbn [object_code op_code]. rewrite HW, HW', XW. cbn [app calc].
    change (31 =? 30) with false. change (31 =? 31) with true. change (30 =? 30) with true. cbv iota. rewrite HV, HV', XV, s32_u32, s32_id by exact X.
    rewrite PS1 by (cbn; lia). cbn [bind]. rewrite push_ok by (cbn; lia). cbn [bind].
    change (1 =? 30) with false. change (1 =? 31) with false. change (1 =? 33) with false. cbv iota.
    cbn [step op_add popIntPair popInt bind en_symbol en_value]. unfold c_add, chk. unfold is_s32 in X. rewrite Z.add_0_l.
    replace ((- 2 ^ 31 <=? x) && (x <? 2 ^ 31)) with true by lia. cbn [bind].
    unfold push, STACKSIZE. cbn [zlen length]. change (zlen [] >=? 256) with false. cbv iota. cbn [bind].
    rewrite PS2 by (cbn; lia). cbn. unfold same_section. rewrite S1, S2, NE. reflexivity.
Qed.
Print Assumptions C52_between_sections.

(** In a difference of labels of one section, the numbers added to them are lost. *)
Theorem C52_difference_refuted :
  let t := Bin OpSub (Bin OpAdd (Sym 1) (Num 100)) (Sym 0) in
  loaded rlCtx Z.of_nat rlAddr rlEnv t /\ meaning exF rlEnv t = Some 105 /\
  calculateExpressionValue exF rlCtx (object_code Z.of_nat t) = Ok (Some (Entry None 5)).
Proof.
  split; [|split; reflexivity]. split; [|split; [|reflexivity]].
  - intros s [<-|[<-|[]]]; (eexists; split; [reflexivity|reflexivity]).
  - intros s [].
Qed.
Print Assumptions C52_difference_refuted.

(** The difference of two imported symbols is always 0. *)
Theorem C52_imports_refuted : forall id1 id2, (id1 = 3 \/ id1 = 4) -> (id2 = 3 \/ id2 = 4) ->
  calculateExpressionValue exF rlCtx (object_code (fun s => match s with O => id1 | _ => id2 end) (Bin OpSub (Sym 0) (Sym 1))) =
  Ok (Some (Entry None 0)).
Proof. intros id1 id2 [-> | ->] [-> | ->]; reflexivity. Qed.
Print Assumptions C52_imports_refuted.
