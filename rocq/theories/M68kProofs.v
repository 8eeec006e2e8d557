(** Proofs about the 680x0 instruction parser: what is stored for an operand. *)
From Coq Require Import String ZArith List Bool Lia ZifyBool.
From Verif Require Import Base BaseFacts Arith ArithProofs ExprSpec ExprModel ExprLayout ExprTree ExprProofs ObjWriteModel OptModel
  SectModel SectSpec SectProofs InstrSpec InstrProofs.
From Verif Require X65Proofs X65Run Z80Run M6809Proofs.
From Verif Require Import X65Spec M68kModel M68kSpec.
Import ListNotations.
Open Scope string_scope.
Open Scope list_scope.
Open Scope Z_scope.
Notation held := Z80Run.held.
Ltac num := unfold is_s32; lia.

(** ** Expressions *)
Definition now (N : Z) (S : setting) (cur : option asect) (t : term) (e : expr) (v : Z) : Prop :=
  exists T, operand S cur T e v /\ tdepth T <= N /\ symbols_within T t /\ (known (s_world S) t -> known (s_world S) T).
Lemma now_checked : forall N S cur t e v lo hi st, setting_ok S cur -> now N S cur t e v -> 1 <= N -> is_s32 lo -> is_s32 hi ->
  lo <= v <= hi -> exists e1, range_checked e lo hi st = Ok (e1, st) /\ now (N + 2) S cur t e1 v.
Proof.
  intros N S cur t e v lo hi st SO (T & O & D & W & K) HN L H R.
  destruct (operand_checked S cur T e v lo hi st SO O L H R) as (e1 & C & O1). exists e1. split; [exact C|].
  exists (limited T lo hi). split; [exact O1|]. unfold limited. split; [cbn [tdepth]; lia|].
  split; [apply within_limited, W|]. cbn. tauto.
Qed.
Lemma now_bin : forall N S cur op t e v c w, setting_ok S cur -> now N S cur t e v -> 1 <= N -> is_s32 c ->
  In op [OpAnd; OpOr; OpAsl; OpNe] -> op_meaning (s_F S) op v c = Some w ->
  exists e1, expr_Binary (s_F S) op e (expr_Const c) = Ok e1 /\ now (N + 1) S cur t e1 w.
Proof.
  intros N S cur op t e v c w SO (T & O & D & W & K) HN C Po M.
  destruct (operand_bin S cur op T (Num c) e (expr_Const c) v c w SO O (operand_num _ _ _ C) M) as (e1 & B & O1).
  { destruct Po as [<-|[<-|[<-|[<-|[]]]]]; exact Logic.I. }
  assert (B' : expr_Binary (s_F S) op e (expr_Const c) = Ok e1) by (destruct Po as [<-|[<-|[<-|[<-|[]]]]]; exact B).
  exists e1. split; [exact B'|]. exists (Bin op T (Num c)).
  split; [exact O1|]. split; [cbn [tdepth]; lia|]. split; [apply within_bin; [exact W|apply within_num]|].
  cbn [known]. tauto.
Qed.
Lemma now_or : forall N S cur t e v c w, setting_ok S cur -> now N S cur t e v -> 1 <= N -> is_s32 c -> Z.lor c v = w ->
  exists e1, expr_Binary (s_F S) OpOr (expr_Const c) e = Ok e1 /\ now (N + 1) S cur t e1 w.
Proof.
  intros N S cur t e v c w SO (T & O & D & W & K) HN C M.
  destruct (operand_bin S cur OpOr (Num c) T (expr_Const c) e c v w SO (operand_num _ _ _ C) O) as (e1 & B & O1);
    [cbn; congruence|exact Logic.I|].
  exists e1. split; [exact B|]. exists (Bin OpOr (Num c) T).
  split; [exact O1|]. split; [cbn [tdepth]; lia|]. split; [apply within_bin; [apply within_num|exact W]|].
  cbn [known]. tauto.
Qed.
Lemma now_facts : forall N S cur t e v, setting_ok S cur -> now N S cur t e v ->
  isNull e = false /\ (expr_IsConstant e = true -> e_v e = v) /\ is_s32 v.
Proof.
  intros N S cur t e v SO (T & O & _). destruct (operand_facts _ _ _ _ _ SO O) as (A & B & _).
  split; [exact A|]. split; [exact B|]. exact (operand_s32 _ _ _ _ _ SO O).
Qed.
Lemma held_now : forall N b S cur t e v, held N b S cur t e v -> now N S cur t e v.
Proof. intros N b S cur t e v (T & O & D & W & K & _). exists T. tauto. Qed.
(** An operand of the source, wherever it is entered. *)
Definition argh (S : setting) (a : arg) : Prop := held 240 true S None (g_term a) (g_expr a) (g_value a).
Lemma argh_of : forall S cur a, arg_ok S cur a -> argh S a.
Proof.
  intros S cur a (O & So & D & P). unfold argh. rewrite <- (M6809Proofs.moved_0 S).
  apply (Z80Run.held_moved 240 true S cur). apply M6809Proofs.held_arg; tauto.
Qed.
Lemma argh_moved : forall S d a, argh S a -> argh (moved d S) a.
Proof. intros S d a. apply Z80Run.held_moved. Qed.
Lemma argh_now : forall S cur a, argh S a -> now 240 S cur (g_term a) (g_expr a) (g_value a).
Proof.
  intros S cur a H. apply (held_now 240 true). rewrite <- (M6809Proofs.moved_0 S). apply (Z80Run.held_moved 240 true S None), H.
Qed.
Lemma now_pcrel : forall S cur adj a, setting_ok S cur -> argh S a -> 0 <= g_value a < 2 ^ 31 - 2 \/ 0 <= g_value a < 2 ^ 31 /\ adj <= 0 -> -4 <= adj <= 2 ->
  let pc := e_pc (s_env S) in 0 <= pc < 2 ^ 31 - 16 ->
  exists e1, expr_PcRelative (s_F S) cur (g_expr a) adj = Ok e1 /\
    now 241 S cur (PcRel adj (g_term a)) e1 (g_value a + adj - pc).
Proof.
  intros S cur adj a SO H V A pc P.
  assert (H' : held 240 true S cur (g_term a) (g_expr a) (g_value a))
    by (rewrite <- (M6809Proofs.moved_0 S); apply (Z80Run.held_moved 240 true S None), H).
  destruct H' as (T & O & D & W & K & So & Pa). specialize (Pa eq_refl).
  destruct (operand_pcrel S cur adj T (g_expr a) (g_value a) (g_value a + adj - pc) SO O) as (e1 & E1 & O1).
  { num. } { exact Pa. }
  { unfold pcrel_meaning, inr. fold pc.
    replace ((- 2 ^ 31 <=? g_value a + adj) && (g_value a + adj <? 2 ^ 31)) with true by lia.
    replace ((- 2 ^ 31 <=? adj - pc) && (adj - pc <? 2 ^ 31)) with true by lia.
    replace ((- 2 ^ 31 <=? g_value a + adj - pc) && (g_value a + adj - pc <? 2 ^ 31)) with true by lia. reflexivity. }
  exists e1. split; [exact E1|]. exists (PcRel adj T). split; [exact O1|]. split; [cbn [tdepth]; lia|].
  split; [exact W|]. intros [].
Qed.

(** ** Storing *)
(** The state is ready to store, in a section whose address is not fixed if [fl]. *)
Definition good (fl : bool) (S : setting) (k : nat) (st : xstate) (m : msect) (room : Z) : Prop :=
  setting_ok S (here m) /\ ready st k m room /\ (fl = true -> floating (here m)).
Lemma good_next : forall fl S k st st1 m n t v room, good fl S k st m (Z.of_nat n + room) -> emits S k st st1 [(n, t, v)] ->
  exists m1, good fl (moved (Z.of_nat n) S) k st1 m1 room.
Proof.
  intros fl S k st st1 m n t v room (SO & R & Fl) Em.
  destruct (X65Proofs.next_place S k st st1 m n t v room SO R Em) as (m1 & R1 & S1).
  exists m1. split; [exact S1|]. split; [exact R1|]. intro E. specialize (Fl E).
  destruct Em as (m0 & m2 & _ & _ & N0 & N2 & _ & _ & _ & _ & _ & _ & I & _).
  destruct R as ((_ & N & _) & _), R1 as ((_ & N1 & _) & _). rewrite N in N0. rewrite N1 in N2. injection N0 as <-. injection N2 as <-.
  destruct I as (_ & _ & _ & _ & _ & I). unfold floating, here in *.
  apply (f_equal (fun s => (a_loadfixed s, a_orgfixed s))) in I. unfold set_pc in I. cbn in I. injection I as I1 I2.
  rewrite I1, I2. exact Fl.
Qed.
Lemma good_less : forall fl S k st m n p, good fl S k st m n -> p <= n -> good fl S k st m p.
Proof. intros fl S k st m n p (A & B & C) L. split; [exact A|]. split; [exact (X65Run.ready_less _ _ _ _ _ B L)|exact C]. Qed.
Lemma good_current : forall fl S k st m n, good fl S k st m n -> sect_Current st = here m.
Proof. intros fl S k st m n (_ & ((C & N & _) & _) & _). unfold sect_Current, here. rewrite C, N. reflexivity. Qed.
Lemma good_16 : forall fl S k st m w t room, good fl S k st m (2 + room) -> 0 <= room ->
  exists st1 m1, sect_OutputConst16 w st = Ok st1 /\ emits S k st st1 [(2%nat, t, w)] /\ good fl (moved 2 S) k st1 m1 room.
Proof.
  intros fl S k st m w t room G Ro. destruct (out_const16 S w t k st m) as (st1 & E & Em).
  { destruct G as (_ & R & _). apply (X65Run.ready_less _ _ _ _ _ R). lia. }
  destruct (good_next fl S k st st1 m 2 t w room G Em) as (m1 & G1). exists st1, m1. split; [exact E|]. split; [exact Em|exact G1].
Qed.
Lemma good_expr : forall (n : nat) fl S k st m N t e v room, sizes n -> good fl S k st m (Z.of_nat n + room) -> 0 <= room ->
  now N S (here m) t e v -> N <= 256 ->
  exists st1 m1, sect_OutputExpr n e st = Ok st1 /\ emits S k st st1 [(n, t, v)] /\ good fl (moved (Z.of_nat n) S) k st1 m1 room.
Proof.
  intros n fl S k st m N t e v room Si G Ro (T & O & D & W & K) L. pose proof G as (SO & R & _).
  destruct (out_expr S (here m) n T t e v k st m Si SO O) as (st1 & E & Em); try assumption.
  { lia. } { apply (X65Run.ready_less _ _ _ _ _ R). lia. }
  destruct (good_next fl S k st st1 m n t v room G Em) as (m1 & G1). exists st1, m1. tauto.
Qed.
Lemma good_expr16 : forall fl S k st m N t e v room, good fl S k st m (2 + room) -> 0 <= room ->
  now N S (here m) t e v -> N <= 256 ->
  exists st1 m1, sect_OutputExpr16 e st = Ok st1 /\ emits S k st st1 [(2%nat, t, v)] /\ good fl (moved 2 S) k st1 m1 room.
Proof. intros fl S k st m N t e v room. apply (good_expr 2). right. left. reflexivity. Qed.
Lemma good_expr32 : forall fl S k st m N t e v room, good fl S k st m (4 + room) -> 0 <= room ->
  now N S (here m) t e v -> N <= 256 ->
  exists st1 m1, sect_OutputExpr32 e st = Ok st1 /\ emits S k st st1 [(4%nat, t, v)] /\ good fl (moved 4 S) k st1 m1 room.
Proof. intros fl S k st m N t e v room. apply (good_expr 4). right. right. reflexivity. Qed.
(** An expression that is a number. *)
Lemma good_number16 : forall fl S k st m t e room, good fl S k st m (2 + room) -> 0 <= room -> expr_IsConstant e = true ->
  exists st1 m1, sect_OutputExpr16 e st = Ok st1 /\ emits S k st st1 [(2%nat, t, e_v e)] /\ good fl (moved 2 S) k st1 m1 room.
Proof.
  intros fl S k st m t e room G Ro C. pose proof G as (SO & R & _).
  destruct (appends_emits S (sect_OutputExpr16 e) k st m [(2%nat, t, e_v e)]) as (st1 & E & Em).
  { apply (X65Run.ready_less _ _ _ _ _ R). unfold width. cbn [map sum fst]. lia. }
  { apply appends_const. pose proof (expr_does 2 e k st m (or_intror (or_introl eq_refl))) as D. rewrite C in D. apply D.
    - destruct e; [discriminate C|reflexivity].
    - apply R.
    - apply R. }
  destruct (good_next fl S k st st1 m 2 t (e_v e) room G Em) as (m1 & G1). exists st1, m1. tauto.
Qed.

(** Cells one after the other. *)
Definition sent (fl : bool) (S : setting) (k : nat) (st : xstate) (cells : list (nat * term * Z)) (st1 : xstate) (m1 : msect) (room : Z) : Prop :=
  emits_seq S k st st1 cells /\ good fl (moved (width cells) S) k st1 m1 room.
Lemma width_cons : forall n t v l, width ((n, t, v) :: l) = Z.of_nat n + width l.
Proof. reflexivity. Qed.
Lemma width_app : forall a b, width (a ++ b) = width a + width b.
Proof. induction a as [|[[n t] v] a IH]; intro b; cbn [app]; rewrite ?width_cons, ?IH; [reflexivity|lia]. Qed.
Lemma seq_app : forall c1 S k st st1 st2 c2, emits_seq S k st st1 c1 -> emits_seq (moved (width c1) S) k st1 st2 c2 ->
  emits_seq S k st st2 (c1 ++ c2).
Proof.
  induction c1 as [|[[n t] v] c1 IH]; intros S k st st1 st2 c2 A B.
  - cbn in A. subst st1. change (width []) with 0 in B. rewrite M6809Proofs.moved_0 in B. exact B.
  - cbn [emits_seq app fst] in *. destruct A as (st0 & E & A). exists st0. split; [exact E|].
    apply (IH _ _ _ st1); [exact A|]. rewrite M6809Proofs.moved_moved. rewrite width_cons in B. exact B.
Qed.
Lemma sent_nil : forall fl S k st m room, good fl S k st m room -> sent fl S k st [] st m room.
Proof. intros. split; [reflexivity|]. change (width []) with 0. rewrite M6809Proofs.moved_0. assumption. Qed.
Lemma sent_one : forall fl S k st n t v st1 m1 room, emits S k st st1 [(n, t, v)] -> good fl (moved (Z.of_nat n) S) k st1 m1 room ->
  sent fl S k st [(n, t, v)] st1 m1 room.
Proof.
  intros fl S k st n t v st1 m1 room E G. split.
  - exists st1. split; [exact E|reflexivity].
  - rewrite width_cons. change (width []) with 0. rewrite Z.add_0_r. exact G.
Qed.
Lemma sent_app : forall fl S k st c1 st1 m1 r1 c2 st2 m2 r2, sent fl S k st c1 st1 m1 r1 -> sent fl (moved (width c1) S) k st1 c2 st2 m2 r2 ->
  sent fl S k st (c1 ++ c2) st2 m2 r2.
Proof.
  intros fl S k st c1 st1 m1 r1 c2 st2 m2 r2 (A & _) (B & G). split; [eapply seq_app; eassumption|].
  rewrite width_app, <- M6809Proofs.moved_moved. exact G.
Qed.
Lemma words_app : forall a b, words (a ++ b) = words a ++ words b.
Proof. induction a as [|[[n t] v] a IH]; intro b; cbn [app words]; [reflexivity|]. rewrite IH, app_assoc. reflexivity. Qed.
Lemma words_width : forall args l, stored_from args l -> width l = 2 * zlen (words l).
Proof.
  intros args l H. induction H as [|[[n t] v] l (N & _) _ IH]; [reflexivity|]. rewrite width_cons. cbn [words].
  unfold zlen in *. rewrite app_length, Nat2Z.inj_add. destruct N as [-> | ->]; cbn [Nat.eqb List.length]; lia.
Qed.

(** ** Fields *)
Lemma lor_sum : forall a b, Z.land a b = 0 -> Z.lor a b = a + b.
Proof. intros a b H. rewrite <- Z.lxor_lor by exact H. symmetry. apply Z.add_nocarry_lxor. exact H. Qed.
Lemma sum_lor : forall a b k, 0 <= k -> 0 <= b < 2 ^ k -> a mod 2 ^ k = 0 -> Z.lor a b = a + b.
Proof.
  intros a b k K B A. apply lor_sum. apply Z.bits_inj_0. intro n. rewrite Z.land_spec.
  destruct (Z_lt_le_dec n 0) as [N|N]; [rewrite !Z.testbit_neg_r by exact N; reflexivity|].
  destruct (Z_lt_le_dec n k) as [L|L].
  - replace (Z.testbit a n) with false; [reflexivity|]. symmetry.
    assert (E : Z.testbit (a mod 2 ^ k) n = Z.testbit a n) by (apply Z.mod_pow2_bits_low; exact L).
    rewrite A, Z.bits_0 in E. congruence.
  - replace (Z.testbit b n) with false; [apply andb_false_r|]. symmetry.
    rewrite <- (Z.mod_small b (2 ^ k)) by exact B. apply Z.mod_pow2_bits_high. lia.
Qed.
Lemma land_255 : forall v, Z.land v 255 = v mod 256.
Proof. intro v. apply (Z.land_ones v 8). lia. Qed.
Lemma land_7 : forall v, Z.land v 7 = v mod 8.
Proof. intro v. apply (Z.land_ones v 3). lia. Qed.
Lemma signed_8 : forall v, s8 v -> forall w, w mod 256 = v mod 256 -> signed 8 w = v.
Proof.
  unfold s8, signed. intros v H w E. change (2 ^ (8 - 1)) with 128. change (2 ^ 8) with 256.
  rewrite Z.add_mod, E, <- Z.add_mod by lia. rewrite Z.mod_small by lia. lia.
Qed.
Lemma signed_16 : forall v, s16 v -> signed 16 (word v) = v.
Proof.
  unfold s16, signed, word. intros v H. change (2 ^ (16 - 1)) with 32768. change (2 ^ 16) with 65536.
  rewrite Z.add_mod, Z.mod_mod, <- Z.add_mod by lia. rewrite Z.mod_small by lia. lia.
Qed.
Lemma word_small : forall v, 0 <= v < 65536 -> word v = v.
Proof. intros. apply Z.mod_small. assumption. Qed.
Lemma two_words : forall v, word (v / 65536) * 65536 + word v = v mod 2 ^ 32.
Proof. intro v. unfold word. change (2 ^ 32) with 4294967296. Z.div_mod_to_equations. lia. Qed.
Lemma addr_mod : forall a b, addr (a + b mod 2 ^ 32) = addr (a + b).
Proof. intros a b. unfold addr. rewrite Z.add_mod_idemp_r by lia. reflexivity. Qed.
Lemma addr_id : forall b, addr (b mod 2 ^ 32) = addr b.
Proof. intro b. unfold addr. apply Z.mod_mod. lia. Qed.
(** The scale of an index register. *)
Definition scale_expr (c : Z) : expr :=
  match expr_CheckRange (expr_Const c) 1 8 with Ok e => match expr_Bit e with Ok x => x | _ => ENull end | _ => ENull end.
Definition scales : list (expr * Z) := [(ENull, 0); (scale_expr 2, 1); (scale_expr 4, 2); (scale_expr 8, 3)].
