(** Proofs about the 680x0 instruction parser: the words of an instruction. *)
From Coq Require Import String ZArith List Bool Lia ZifyBool.
From Verif Require Import Base BaseFacts Arith ArithProofs ExprSpec ExprModel ExprLayout ExprTree ExprProofs ObjWriteModel OptModel
  SectModel SectSpec SectProofs InstrSpec InstrProofs.
From Verif Require X65Proofs X65Run Z80Run M6809Proofs.
From Verif Require Import X65Spec M68kModel M68kSpec M68kProofs M68kEa M68kFull M68kParse M68kModes M68kShapes M68kParen M68kOperand.
Import ListNotations.
Open Scope string_scope.
Open Scope list_scope.
Open Scope Z_scope.

(** ** Operands as they are given to a handler *)
Definition opd0 (new : bool) (s : size) (S0 : setting) (o : opnd) (md : amode) : Prop :=
  opnd_ok new o = true /\ direct_facts o md /\ In (a_mode md) (kinds o) /\ Forall (a_good S0) (opnd_args o) /\
  (forall v, o = OImm v -> imm_fits s (g_value v)).
Definition opd (new : bool) (s : size) (S0 : setting) (fl : bool) (o : opnd) (md : amode) : Prop :=
  opd0 new s S0 o md /\ given new s S0 fl (opnd_args o) o md.
Definition is_dreg (o : opnd) : bool := match o with ODreg _ => true | _ => false end.
Definition is_areg (o : opnd) : bool := match o with OAreg _ => true | _ => false end.
Definition is_inc (o : opnd) : bool := match o with OInc _ => true | _ => false end.
Definition is_dec (o : opnd) : bool := match o with ODec _ => true | _ => false end.
Lemma kind_tests : forall o z, In z (kinds o) ->
  (z =? AM_DREG) = is_dreg o /\ (z =? AM_AREG) = is_areg o /\ (z =? AM_IMM) = immediate o /\ (z =? AM_AINC) = is_inc o /\ (z =? AM_ADEC) = is_dec o /\
  (z =? AM_EMPTY) = false.
Proof.
  intros o z H.
  assert (X : forall l, In z l -> forall d a i n c : bool,
    forallb (fun z => Bool.eqb (z =? AM_DREG) d && Bool.eqb (z =? AM_AREG) a && Bool.eqb (z =? AM_IMM) i && Bool.eqb (z =? AM_AINC) n && Bool.eqb (z =? AM_ADEC) c &&
                      negb (z =? AM_EMPTY)) l = true ->
    (z =? AM_DREG) = d /\ (z =? AM_AREG) = a /\ (z =? AM_IMM) = i /\ (z =? AM_AINC) = n /\ (z =? AM_ADEC) = c /\ (z =? AM_EMPTY) = false).
  { intros l I d a i n c K. rewrite forallb_forall in K. specialize (K z I). rewrite !andb_true_iff, !eqb_true_iff, negb_true_iff in K. tauto. }
  apply (X _ H). destruct o as [n|n|n|n|n|a n|a|a s0|a|outside d b x|bd b x post od]; try reflexivity; cbn [kinds is_dreg is_areg is_inc is_dec immediate].
  - destruct (is_pc b); [reflexivity|]. destruct (simple _); reflexivity.
  - destruct (is_pc b); reflexivity.
Qed.
(** Fields for each class. *)
Definition mode_set (l : list Z) (sevens : list Z) (mode reg : Z) : Prop := In mode l \/ mode = 7 /\ In reg sevens.
Lemma fields_any : forall o mode reg, fields o mode reg -> mode_set [0; 1; 2; 3; 4; 5; 6] [0; 1; 2; 3; 4] mode reg.
Proof.
  unfold mode_set. cbn [In]. intros o mode reg. unfold fields. destruct o; try lia; destruct (through_pc _); lia.
Qed.
Lemma fields_noreg : forall o mode reg, fields o mode reg -> is_areg o = false -> mode_set [0; 2; 3; 4; 5; 6] [0; 1; 2; 3; 4] mode reg.
Proof.
  unfold mode_set. cbn [In]. intros o mode reg. unfold fields. destruct o; cbn [is_areg]; try discriminate; try lia; destruct (through_pc _); lia.
Qed.
Lemma fields_noimm : forall o mode reg, fields o mode reg -> is_areg o = false -> immediate o = false -> mode_set [0; 2; 3; 4; 5; 6] [0; 1; 2; 3] mode reg.
Proof.
  unfold mode_set. cbn [In]. intros o mode reg. unfold fields. destruct o; cbn [is_areg immediate]; try discriminate; try lia; destruct (through_pc _); lia.
Qed.
Lemma fields_dalt : forall o mode reg, fields o mode reg -> data_alterable o = true -> mode_set [0; 2; 3; 4; 5; 6] [0; 1] mode reg.
Proof.
  unfold mode_set. cbn [In]. intros o mode reg. unfold fields, data_alterable. destruct o; try discriminate; try lia; destruct (through_pc _); try discriminate; lia.
Qed.
Lemma fields_malt : forall o mode reg, fields o mode reg -> data_alterable o = true -> plain_reg o = false -> mode_set [2; 3; 4; 5; 6] [0; 1] mode reg.
Proof.
  unfold mode_set. cbn [In]. intros o mode reg. unfold fields, data_alterable. destruct o; try discriminate; try lia; destruct (through_pc _); try discriminate; lia.
Qed.
Lemma fields_control : forall o mode reg new s, fields o mode reg -> in_class new s CControl o = true -> mode_set [2; 5; 6] [0; 1; 2; 3] mode reg.
Proof.
  unfold mode_set. cbn [In]. intros o mode reg new s. unfold fields, in_class. intros F C. apply andb_true_iff in C. destruct C as (_ & C).
  destruct o; try discriminate C; try lia; destruct (through_pc _); lia.
Qed.
(** The size matters to an immediate operand only. *)
Lemma effective_size : forall new mc s s' mode reg pc ws, (mode =? 7) && (reg =? 4) = false ->
  effective new mc s mode reg pc ws = effective new mc s' mode reg pc ws.
Proof. intros new mc s s' mode reg pc ws H. unfold effective. rewrite H. reflexivity. Qed.
Lemma place_size : forall mc s s' o, immediate o = false -> opnd_place mc s o = opnd_place mc s' o.
Proof. intros mc s s' o H. destruct o; try reflexivity. discriminate H. Qed.
Lemma fields_imm : forall o mode reg, fields o mode reg -> immediate o = false -> 0 <= reg <= 7 -> (mode =? 7) && (reg =? 4) = false.
Proof.
  intros o mode reg. unfold fields. destruct o; cbn [immediate]; try discriminate; try lia; destruct (through_pc _); lia.
Qed.
Lemma given_size : forall new s s' S0 fl args o md, given new s S0 fl args o md -> immediate o = false -> given new s' S0 fl args o md.
Proof.
  intros new s s' S0 fl args o md (K & N & mode & reg & F & Sh) I. split; [exact K|]. split; [exact N|]. exists mode, reg. split; [exact F|].
  destruct Sh as (A & B & C & D). split; [exact A|]. split; [exact B|]. split; [exact C|].
  intros q k st m room Q G Ro. destruct (D q k st m room Q G Ro) as (st1 & m1 & cells & D1 & D2 & D3 & D4 & D5).
  exists st1, m1, cells. split; [exact D1|]. split; [exact D2|]. split; [exact D3|]. split; [exact D4|].
  intros mc rest. rewrite (effective_size new mc s' s) by (apply (fields_imm o); assumption).
  rewrite (place_size mc s' s o I). apply D5.
Qed.

(** ** What a handler does *)
Definition done (new : bool) (S0 : setting) (fl : bool) (k : nat) (st : xstate) (args : list arg) (ans : res (bool * xstate)) (act : machine -> action) : Prop :=
  exists st1 m1 cells, ans = Ok (true, st1) /\ sent fl S0 k st cells st1 m1 0 /\ stored_from args cells /\
    forall mc more, decode new mc (e_pc (s_env S0)) (words cells ++ more) = Some (act mc, more).
Lemma orl_app : forall l f, orl (l ++ [f]) = Z.lor (orl l) f.
Proof. intros l f. unfold orl. rewrite fold_left_app. reflexivity. Qed.
Lemma split_word : forall h r m mode reg, 0 <= h < 16 -> 0 <= r < 8 -> 0 <= m < 8 -> 0 <= mode <= 7 -> 0 <= reg <= 7 ->
  let w := h * 4096 + r * 512 + m * 64 + (mode * 8 + reg) in
  0 <= w < 65536 /\ w / 4096 = h /\ (w / 512) mod 8 = r /\ (w / 64) mod 8 = m /\ (w / 8) mod 8 = mode /\ w mod 8 = reg.
Proof.
  intros h r m mode reg H R M Mo Re w. subst w. split; [lia|]. repeat split; Z.div_mod_to_equations; lia.
Qed.
Lemma decode_word : forall new mc pc h r m mode reg ws, 0 <= h < 16 -> 0 <= r < 8 -> 0 <= m < 8 -> 0 <= mode <= 7 -> 0 <= reg <= 7 ->
  decode new mc pc (word (h * 4096 + r * 512 + m * 64 + (mode * 8 + reg)) :: ws) = decode_fields new mc pc r m mode reg ws h.
Proof.
  intros new mc pc h r m mode reg ws H R M Mo Re. destruct (split_word h r m mode reg H R M Mo Re) as (W & E1 & E2 & E3 & E4 & E5).
  rewrite word_small by exact W. cbn [decode]. rewrite E1, E2, E3, E4, E5. reflexivity.
Qed.
Lemma join_word : forall c f, c mod 64 = 0 -> 0 <= f < 64 -> Z.lor c f = c + f.
Proof. intros c f C F. apply (sum_lor c f 6); [lia|exact F|exact C]. Qed.
Lemma word_head : forall l h r m mode reg, orl l = h * 4096 + r * 512 + m * 64 -> 0 <= mode <= 7 -> 0 <= reg <= 7 ->
  orl (l ++ [mode * 8 + reg]) = h * 4096 + r * 512 + m * 64 + (mode * 8 + reg).
Proof.
  intros l h r m mode reg E Mo Re. rewrite orl_app, E. apply join_word; [|lia]. Z.div_mod_to_equations. lia.
Qed.
Lemma after_first : forall pc ws, after pc ws ws = pc + 2.
Proof. intros. unfold after. lia. Qed.
(** The first word and one operand. *)
Lemma done_first : forall new S0 fl k st h r m s p args o md mode reg pl act st1 m1 t W ans,
  shaped new s S0 fl p args md mode reg pl -> ans = m68k_OutputExtensionWords (s_F S0) md st1 -> emits S0 k st st1 [(2%nat, t, W)] ->
  good fl (moved 2 S0) k st1 m1 22 -> t = Num W \/ src o t -> W = h * 4096 + r * 512 + m * 64 + (mode * 8 + reg) -> 0 <= h < 16 -> 0 <= r < 8 -> 0 <= m < 8 ->
  (forall mc ws rest, effective new mc s mode reg (e_pc (s_env S0) + 2) ws = Some (pl mc, rest) ->
     decode_fields new mc (e_pc (s_env S0)) r m mode reg ws h = Some (act mc, rest)) -> incl args o ->
  done new S0 fl k st o ans act.
Proof.
  intros new S0 fl k st h r m s p args o md mode reg pl act st1 m1 t W ans (A & B & C & D) Ea Em G1 Ts Ew H R M Dec I.
  destruct (D 2 k st1 m1 12) as (st2 & m2 & cells & D1 & D2 & D3 & D4 & D5); [split; [lia|intros _; left; reflexivity]|exact G1|lia|].
  exists st2, m2, ((2%nat, t, W) :: cells). split; [|split; [|split]].
  - rewrite Ea. exact D1.
  - pose proof (sent_one fl S0 k st 2 t W st1 m1 22 Em G1) as X.
    pose proof (sent_app _ _ _ _ _ _ _ _ _ _ _ _ X D2) as (Y1 & Y2). split; [exact Y1|]. apply (good_less _ _ _ _ _ _ _ Y2). lia.
  - apply (stored_app o [_]); [destruct Ts as [-> | Ts]; [apply stored_num|apply stored_src; [|exact Ts]]; left; reflexivity|].
    apply (stored_more args); assumption.
  - intros mc more. cbn [words Nat.eqb app]. rewrite Ew, decode_word by assumption. apply Dec. apply D5.
Qed.
Lemma done_ea : forall new S0 fl k st m0 h r m l s p args o md mode reg pl act,
  good fl S0 k st m0 24 -> shaped new s S0 fl p args md mode reg pl -> orl l = h * 4096 + r * 512 + m * 64 -> 0 <= h < 16 -> 0 <= r < 8 -> 0 <= m < 8 ->
  (forall mc ws rest, effective new mc s mode reg (e_pc (s_env S0) + 2) ws = Some (pl mc, rest) ->
     decode_fields new mc (e_pc (s_env S0)) r m mode reg ws h = Some (act mc, rest)) -> incl args o ->
  done new S0 fl k st o (outputOpcode (s_F S0) l md st) act.
Proof.
  intros new S0 fl k st m0 h r m l s p args o md mode reg pl act G Sh El H R M Dec I. pose proof Sh as (A & B & C & D).
  set (W := orl (l ++ [mode * 8 + reg])).
  destruct (good_16 fl S0 k st m0 W (Num W) 22) as (st1 & m1 & E1 & Em & G1); [exact G|lia|].
  apply (done_first new S0 fl k st h r m s p args o md mode reg pl act st1 m1 (Num W) W); try assumption; [|left; reflexivity|].
  - unfold outputOpcode, opword. rewrite A. fold W. rewrite E1. reflexivity.
  - apply word_head; assumption.
Qed.
(** The first word, a cell and one operand. *)
Lemma done_mid : forall new S0 fl k st m0 h r m l s p args o md mode reg pl act K n t v,
  good fl S0 k st m0 24 -> shaped new s S0 fl p args md mode reg pl -> orl l = h * 4096 + r * 512 + m * 64 -> 0 <= h < 16 -> 0 <= r < 8 -> 0 <= m < 8 ->
  (forall st1 m1, good fl (moved 2 S0) k st1 m1 22 -> exists st2 m2, K st1 = m68k_OutputExtensionWords (s_F S0) md st2 /\
     emits (moved 2 S0) k st1 st2 [(n, t, v)] /\ good fl (moved (Z.of_nat n) (moved 2 S0)) k st2 m2 18) ->
  (n = 2 \/ n = 4)%nat -> t = Num v \/ src o t ->
  (forall mc ws rest, effective new mc s mode reg (e_pc (s_env S0) + 2 + Z.of_nat n) ws = Some (pl mc, rest) ->
     decode_fields new mc (e_pc (s_env S0)) r m mode reg (words [(n, t, v)] ++ ws) h = Some (act mc, rest)) -> incl args o ->
  done new S0 fl k st o (let! st1 := opword l md st in K st1) act.
Proof.
  intros new S0 fl k st m0 h r m l s p args o md mode reg pl act K n t v G (A & B & C & D) El H R M Mid N Ts Dec I.
  set (W := orl (l ++ [mode * 8 + reg])).
  destruct (good_16 fl S0 k st m0 W (Num W) 22) as (st1 & m1 & E1 & Em & G1); [exact G|lia|].
  destruct (Mid st1 m1 G1) as (st2 & m2 & E2 & Em2 & G2).
  rewrite M6809Proofs.moved_moved in G2.
  destruct (D (2 + Z.of_nat n) k st2 m2 8) as (st3 & m3 & cells & D1 & D2 & D3 & D4 & D5); [split; [lia|intros _; destruct N as [-> | ->]; cbn; tauto]|exact G2|lia|].
  exists st3, m3, ((2%nat, Num W, W) :: (n, t, v) :: cells). split; [|split; [|split]].
  - unfold opword. rewrite A. fold W. rewrite E1. cbn [bind]. rewrite E2. exact D1.
  - pose proof (sent_one fl S0 k st 2 (Num W) W st1 m1 22 Em G1) as X.
    assert (X2 : sent fl (moved (width [(2%nat, Num W, W)]) S0) k st1 [(n, t, v)] st2 m2 18).
    { change (width [(2%nat, Num W, W)]) with 2. apply sent_one; [exact Em2|]. rewrite M6809Proofs.moved_moved. exact G2. }
    pose proof (sent_app _ _ _ _ _ _ _ _ _ _ _ _ X X2) as Y. cbn [app] in Y.
    assert (Wd : width [(2%nat, Num W, W); (n, t, v)] = 2 + Z.of_nat n) by (rewrite !width_cons; change (width []) with 0; lia).
    rewrite <- Wd in D2. pose proof (sent_app _ _ _ _ _ _ _ _ _ _ _ _ Y D2) as (Y1 & Y2). split; [exact Y1|]. apply (good_less _ _ _ _ _ _ _ Y2). lia.
  - apply (stored_app o [_]); [apply stored_num; left; reflexivity|]. apply (stored_app o [_]); [|apply (stored_more args); assumption].
    destruct Ts as [-> | Ts]; [apply stored_num|apply stored_src; [|exact Ts]]; exact N.
  - intros mc more. change (words ((2%nat, Num W, W) :: (n, t, v) :: cells)) with (word W :: words ([(n, t, v)] ++ cells)).
    rewrite words_app. cbn [app]. rewrite <- app_assoc. unfold W. rewrite (word_head l h r m) by assumption. rewrite decode_word by assumption.
    apply Dec. rewrite <- Z.add_assoc. apply D5.
Qed.
(** One word. *)
Lemma done_word : forall new S0 fl k st m0 W args act, good fl S0 k st m0 24 ->
  (forall mc more, decode new mc (e_pc (s_env S0)) (word W :: more) = Some (act mc, more)) ->
  done new S0 fl k st args (let! st1 := sect_OutputConst16 W st in Ok (true, st1)) act.
Proof.
  intros new S0 fl k st m0 W args act G Dec.
  destruct (good_16 fl S0 k st m0 W (Num W) 22) as (st1 & m1 & E1 & Em & G1); [exact G|lia|].
  exists st1, m1, [(2%nat, Num W, W)]. rewrite E1. split; [reflexivity|]. split; [|split; [apply stored_num; left; reflexivity|]].
  - destruct (sent_one fl S0 k st 2 (Num W) W st1 m1 22 Em G1) as (X1 & X2). split; [exact X1|]. apply (good_less _ _ _ _ _ _ _ X2). lia.
  - intros mc more. apply Dec.
Qed.
Lemma done_fields : forall new S0 fl k st m0 W h r m mode reg args act, good fl S0 k st m0 24 ->
  W = h * 4096 + r * 512 + m * 64 + (mode * 8 + reg) -> 0 <= h < 16 -> 0 <= r < 8 -> 0 <= m < 8 -> 0 <= mode <= 7 -> 0 <= reg <= 7 ->
  (forall mc more, decode_fields new mc (e_pc (s_env S0)) r m mode reg more h = Some (act mc, more)) ->
  done new S0 fl k st args (let! st1 := sect_OutputConst16 W st in Ok (true, st1)) act.
Proof.
  intros. subst W. eapply done_word; [eassumption|]. intros mc more. rewrite decode_word by assumption. auto.
Qed.
(** A word that depends on an expression, then perhaps an operand. *)
Lemma done_expr16 : forall new S0 fl k st m0 N t e v args act, good fl S0 k st m0 24 -> now N S0 (here m0) t e v -> N <= 256 -> src args t ->
  (forall mc more, decode new mc (e_pc (s_env S0)) (word v :: more) = Some (act mc, more)) ->
  done new S0 fl k st args (let! st1 := sect_OutputExpr16 e st in Ok (true, st1)) act.
Proof.
  intros new S0 fl k st m0 N t e v args act G Nw L Sr Dec.
  destruct (good_expr16 fl S0 k st m0 N t e v 22) as (st1 & m1 & E1 & Em & G1); [exact G|lia|exact Nw|exact L|].
  exists st1, m1, [(2%nat, t, v)]. rewrite E1. split; [reflexivity|]. split; [|split; [apply stored_src; [left; reflexivity|exact Sr]|]].
  - destruct (sent_one fl S0 k st 2 t v st1 m1 22 Em G1) as (X1 & X2). split; [exact X1|]. apply (good_less _ _ _ _ _ _ _ X2). lia.
  - intros mc more. apply Dec.
Qed.
