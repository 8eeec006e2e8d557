(** C70: RC811 instructions, synthesized ones included, do what is written. *)
From Coq Require Import ZArith List Bool String Lia ZifyBool.
From Verif Require Import Base BaseFacts Arith ExprSpec ExprModel ExprLayout ExprProps ObjWriteModel OptModel SectModel SectSpec SectProps
  InstrSpec InstrProofs Rc8Model Rc8Spec Rc8Run Rc8Imm Rc8Proofs.
From Verif Require ChipProps.
Import ListNotations.
Open Scope string_scope.
Open Scope list_scope.
Open Scope Z_scope.

(** Every instruction of the language in [valid], whether the processor has it or not, and
    whether its number is known or not, is accepted without a report and appends bytes to
    the current section that, when the processor runs them, do what the instruction says
    to the registers, memory, ports and stacks and nothing else, whatever these hold.  The
    number is the one it has in the final program.  Missing: shifts, CMP, TST, PICK,
    SYS, LCO, LCR, the flags, and what is refuted below. *)
Theorem C70_instructions_partial : forall S target i st k m rest,
  ready st k m 8 -> setting_ok S (here m) -> args_known S (here m) i -> valid (imap g_value i) -> ends rest ->
  exists vs st',
    rc8_ParseInstruction (s_F S) true target (lex (text (imap g_expr i)) ++ rest) st = Ok (Some (false, rest, st')) /\
    emits S k st st' (map (fun v => (1%nat, term_of i, v)) vs) /\ (List.length vs <= 8)%nat /\
    forall s, sound s -> exists s', run (map (fun v => v mod 256) vs) s = Some s' /\ same s' (meaning (imap g_value i) s).
Proof. exact assembled. Qed.
Print Assumptions C70_instructions_partial.

(** The order in which registers are pushed, popped or swapped makes no difference, so the
    shorter code for three of them is right. *)
Theorem C70_any_order : forall op l l', registers l -> registers l' -> (forall p, In p l <-> In p l') ->
  In op [Push; Pop; Swap] -> forall s, same (meaning (op l) s) (meaning (op l') s).
Proof.
  intros op l l' R R' Eq Op s.
  assert (P : forall f : pair -> machine -> machine, (f = push \/ f = pop \/ f = swap) ->
    forall l, registers l -> each f l s = each f (filter (fun p => existsb (pair_eqb p) l) all) s).
  { intros f Hf. apply every_list.
    let ls := eval vm_compute in (tl (lists_upto 4)) in change (tl (lists_upto 4)) with ls.
    destruct s as [f0 t b c d e h l0 me po s1 s2 s3 s4].
    repeat (apply Forall_cons; [destruct Hf as [-> | [-> | ->]]; reflexivity|]). apply Forall_nil. }
  assert (E : filter (fun p => existsb (pair_eqb p) l) all = filter (fun p => existsb (pair_eqb p) l') all).
  { apply filter_ext. intro p. apply eq_true_iff_eq. rewrite !existsb_exists.
    assert (Q : forall a b, pair_eqb a b = true <-> a = b) by (intros [] []; cbn; split; congruence).
    split; intros (x & X & Y); apply Q in Y; subst x; exists p; (split; [apply Eq, X|apply Q; reflexivity]). }
  assert (X : meaning (op l) s = meaning (op l') s).
  { destruct Op as [<- | [<- | [<- | []]]]; cbn [meaning].
    - rewrite (P push (or_introl eq_refl) l R), (P push (or_introl eq_refl) l' R'), E. reflexivity.
    - rewrite (P pop (or_intror (or_introl eq_refl)) l R), (P pop (or_intror (or_introl eq_refl)) l' R'), E. reflexivity.
    - rewrite (P swap (or_intror (or_intror eq_refl)) l R), (P swap (or_intror (or_intror eq_refl)) l' R'), E. reflexivity. }
  rewrite X. repeat split.
Qed.
Print Assumptions C70_any_order.

(** ** Cases *)
Definition exBytes (i : instr expr) : option (list Z) :=
  match rc8_ParseInstruction exF true ENull (lex (text i)) ChipProps.started with
  | Ok (Some (false, [], st)) => match x_sections st, x_errors st with [m], [] => Some (m_data m) | _, _ => None end
  | _ => None
  end.
(** "ADD HL,label2-label1" with 5, and "LD DE,imported-4000" with 1000. *)
Example C70_case : exists m,
  ready ChipProps.started 0 m 8 /\ setting_ok ChipProps.exSetting (here m) /\
  (let i := AddImm16 HL (Arg ChipProps.exDiff (ChipProps.built ChipProps.exDiff) 5) in
   args_known ChipProps.exSetting (here m) i /\ valid (imap g_value i) /\ exBytes (imap g_expr i) = Some [0xBF; 5]) /\
  (let i := LdImm16 DE (Arg ChipProps.exFar (ChipProps.built ChipProps.exFar) 1000) in
   args_known ChipProps.exSetting (here m) i /\ valid (imap g_value i) /\ exBytes (imap g_expr i) = Some [0x84; 0; 0x85; 0]) /\
  exBytes (GetW HL) = Some [0x07; 0xBF; 1; 0x10; 0x07; 0xBF; 255; 0x10] /\
  exBytes (Push [HL; FT; DE]) = Some [0xF8; 0xC5] /\
  exBytes (LdImm16 FT (expr_Const 0xFFF0)) = Some [0x81; 0xF0; 0x49] /\
  exBytes (AddImm16 BC (expr_Const 0x1234)) = Some [0xBD; 0x34; 0xA2; 0x12] /\
  exBytes (AddImm16 BC (expr_Const 0x12FF)) = Some [0xBD; 0xFF; 0xA2; 0x13].
Proof.
  destruct ChipProps.started_ready as (m & (A & B & C & D) & E). exists m. split; [|split; [exact E|]].
  { repeat split; try apply A; try apply B; try exact C. unfold max_size in *. lia. }
  split; [|split; [|vm_compute; repeat split]].
  - cbv zeta. split; [|split; [cbn; lia|vm_compute; reflexivity]].
    intros a Ha. inversion Ha; subst a. split; [|cbn; lia].
    split; [reflexivity|]. split; [cbn; tauto|]. split.
    { intros s H. repeat (destruct H as [<-|H]; [split; [reflexivity|discriminate]|]). destruct H. }
    split; [cbn; tauto|]. split; [cbn; tauto|reflexivity].
  - cbv zeta. split; [|split; [cbn; lia|vm_compute; reflexivity]].
    intros a Ha. inversion Ha; subst a. split; [|cbn; lia].
    split; [reflexivity|]. split; [cbn; unfold is_s32; lia|]. split.
    { intros s H. repeat (destruct H as [<-|H]; [split; [reflexivity|discriminate]|]). destruct H. }
    split; [cbn; tauto|]. split; [cbn; tauto|reflexivity].
Qed.
Definition exMachine : machine :=
  Machine 1 2 3 4 5 6 7 8 (fun a => a mod 251) (fun a => a mod 7) (fun n => Z.of_nat n mod 9) (fun _ => 77) (fun _ => 5) (fun _ => 65535).
Example C70_sound_case : sound exMachine /\ registers [HL; BC; FT] /\ registers [FT; HL; BC].
Proof.
  split; [|repeat split; try discriminate; repeat constructor; cbn; intuition discriminate].
  split; [|split].
  - intros []; cbv; split; congruence.
  - intro a. unfold byte. cbn [memory exMachine]. pose proof (Z.mod_pos_bound a 251). lia.
  - intros [] n; unfold word; cbn [stack_of stack_FT stack_BC stack_DE stack_HL exMachine]; lia.
Qed.

(** ** What does not hold *)
Section Refuted.
Variables (F : fmath) (target : expr).
Notation parse i := (rc8_ParseIntegerInstruction F true target (lex (text i))).
Notation assembles i bs := (parse i = Ok (Some (map Byte bs, [], false))).

(** LIO (DE+),T and LIO (-DE),T write to the port in HL. *)
Theorem C70_port_refuted : forall x, x = Post DE \/ x = Pre DE -> exists bs,
  assembles (Put Ports x) bs /\ exists s s', sound s /\ run (map (fun z => z mod 256) bs) s = Some s' /\
  ports s' (get16 HL s mod 65536) = get rT s /\ ports (meaning (Put Ports x) s) (get16 HL s mod 65536) <> get rT s.
Proof.
  intros x [-> | ->].
  - exists [0x33; 0xBE; 1]. split; [reflexivity|]. exists exMachine. eexists. split; [apply C70_sound_case|]. split; [vm_compute; reflexivity|].
    split; [vm_compute; reflexivity|vm_compute; discriminate].
  - exists [0xBE; -1; 0x33]. split; [reflexivity|]. exists exMachine. eexists. split; [apply C70_sound_case|]. split; [vm_compute; reflexivity|].
    split; [vm_compute; reflexivity|vm_compute; discriminate].
Qed.
(** SUB T,T negates T instead of clearing it. *)
Theorem C70_sub_refuted : assembles (SubT rT) [0x51] /\
  exists s s', sound s /\ run [0x51] s = Some s' /\ get rT s' = 254 /\ get rT (meaning (SubT rT) s) = 0.
Proof.
  split; [reflexivity|]. exists exMachine. eexists. split; [apply C70_sound_case|]. split; [vm_compute; reflexivity|]. split; reflexivity.
Qed.
(** EXG B,B exchanges T and B. *)
Theorem C70_exchange_refuted : assembles (ExgR rB rB) [0x12; 0x12; 0x12] /\
  exists s s', sound s /\ run [0x12; 0x12; 0x12] s = Some s' /\ get rT s' = get rB s /\ get rB s' = get rT s /\
  same (meaning (ExgR rB rB) s) s /\ get rT s <> get rB s.
Proof.
  split; [reflexivity|]. exists exMachine. eexists. split; [apply C70_sound_case|]. split; [vm_compute; reflexivity|].
  split; [reflexivity|]. split; [reflexivity|]. split; [repeat split; intros []; reflexivity|]. vm_compute. discriminate.
Qed.
Definition reported (i : instr expr) : bool :=
  match parse i with
  | Ok (Some (l, _, _)) => existsb (fun x => match x with Error e => e =? ERROR_OPERAND_RANGE | _ => false end) l
  | _ => false
  end.
Lemma reported_is : forall i, reported i = true -> exists l r b, parse i = Ok (Some (l, r, b)) /\ In (Error ERROR_OPERAND_RANGE) l.
Proof.
  intros i A. unfold reported in A. destruct (parse i) as [[[[l r] b]|]| |]; try discriminate A.
  exists l, r, b. split; [reflexivity|]. apply existsb_exists in A. destruct A as (x & I1 & I2). destruct x; try discriminate I2.
  apply Z.eqb_eq in I2. subst. exact I1.
Qed.
Lemma each_from : forall (f : Z -> instr expr) a n, forallb (fun k => reported (f (a + Z.of_nat k))) (seq 0 n) = true ->
  forall x, a <= x < a + Z.of_nat n -> reported (f x) = true.
Proof.
  intros f a n A x B. rewrite forallb_forall in A. specialize (A (Z.to_nat (x - a))).
  rewrite Z2Nat.id in A by lia. replace (a + (x - a)) with x in A by lia. apply A. apply in_seq. lia.
Qed.
(** ADD rr,n reports numbers from $7F80 to $7FFF as out of range. *)
Theorem C70_add_refuted : forall p n, 0x7F80 <= n <= 0x7FFF ->
  exists l r b, parse (AddImm16 p (expr_Const n)) = Ok (Some (l, r, b)) /\ In (Error ERROR_OPERAND_RANGE) l.
Proof.
  intros p n B. apply reported_is. apply (each_from (fun n => AddImm16 p (expr_Const n)) 0x7F80 128); [destruct p; vm_compute; reflexivity|lia].
Qed.
(** SUB r,n reports numbers from 129 to 255, which ADD r,n and LD r,n take. *)
Theorem C70_sub_number_refuted : forall r n, 129 <= n <= 255 ->
  exists l t b, parse (SubImm r (expr_Const n)) = Ok (Some (l, t, b)) /\ In (Error ERROR_OPERAND_RANGE) l.
Proof.
  intros r n B. apply reported_is. apply (each_from (fun n => SubImm r (expr_Const n)) 129 127); [destruct r; vm_compute; reflexivity|lia].
Qed.
Notation parsed l := (rc8_ParseIntegerInstruction F true target (lex l)).
(** LD (HL+),FT stores two bytes and adds one to HL, so a second one writes over the first. *)
Theorem C70_word_step_refuted : parsed (two "LD" "(HL+)" "FT") = Ok (Some (map Byte [0x03; 0xBF; 1; 0x10; 0x03; 0x10], [], false)) /\
  exists s s', sound s /\ run [0x03; 0xBF; 1; 0x10; 0x03; 0x10] s = Some s' /\ get16 HL s' = get16 HL s + 1 /\
  memory s' (get16 HL s) = get rT s /\ memory s' (get16 HL s + 1) = get rF s.
Proof.
  split; [reflexivity|]. exists exMachine. eexists. split; [apply C70_sound_case|]. split; [vm_compute; reflexivity|]. repeat split.
Qed.
(** LCO FT,(HL) is taken for LCO T,(HL). *)
Theorem C70_lco_refuted : forall p, parsed (two "LCO" "FT" (place_name (At p))) = parsed (two "LCO" "T" (place_name (At p))).
Proof. intros []; reflexivity. Qed.
(** PUSH FT/FT, a list with one register named twice, is not handled: the code asserts. *)
Theorem C70_list_refuted : forall p, parsed [Word "PUSH"; Word (pair_name p); Slash; Word (pair_name p)] = UB.
Proof. intros []; reflexivity. Qed.
End Refuted.
Print Assumptions C70_port_refuted.
Print Assumptions C70_sub_refuted.
Print Assumptions C70_exchange_refuted.
Print Assumptions C70_add_refuted.
Print Assumptions C70_sub_number_refuted.
Print Assumptions C70_word_step_refuted.
Print Assumptions C70_lco_refuted.
Print Assumptions C70_list_refuted.
(** CMP T,300 compares with 44, without a report. *)
Theorem C70_cmp_refuted :
  match rc8_ParseInstruction exF true ENull (lex [Word "CMP"; Word "T"; Comma; Operand (expr_Const 300)]) ChipProps.started with
  | Ok (Some (_, _, st)) => map m_data (x_sections st) = [[0xA9; 44]] /\ x_errors st = []
  | _ => False
  end.
Proof. vm_compute. split; reflexivity. Qed.
Print Assumptions C70_cmp_refuted.
