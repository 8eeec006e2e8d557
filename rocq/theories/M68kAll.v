(** Proofs about the 680x0 instruction parser: every instruction. *)
From Coq Require Import String ZArith List Bool Lia ZifyBool.
From Verif Require Import Base BaseFacts Arith ArithProofs ExprSpec ExprModel ExprLayout ExprTree ExprProofs ObjWriteModel OptModel
  SectModel SectSpec SectProofs InstrSpec InstrProofs.
From Verif Require X65Proofs X65Run Z80Run M6809Proofs.
From Verif Require Import X65Spec M68kModel M68kSpec M68kProofs M68kEa M68kFull M68kParse M68kModes M68kShapes M68kParen M68kOperand M68kHandlers M68kInstr M68kInstr2 M68kInstr3 M68kInstr4 M68kInstr5 M68kFront M68kRuns.
Import ListNotations.
Open Scope string_scope.
Open Scope list_scope.
Open Scope Z_scope.

Ltac each_form H := unfold forms, both, condition_names in H;
  repeat (apply in_app_iff in H; destruct H as [H|H]);
  cbn [flat_map map app In conditions skipn fst snd] in H;
  repeat match type of H with _ \/ _ => destruct H as [H|H] end; try contradiction; subst.
Definition code_of (i : instruction) (name : Z -> string) (op : string) : Prop := In (i_data i) codes /\ op = name (i_data i).
Definition target_ok (f : form) (i : instruction) : Prop :=
  match f_classes f with
  | [CTarget] => i_handler i = HBcc /\ code_of i branch_name (f_op f) /\ f_default f = Some SW /\ f_new f = [SL] /\ f_op f <> "EXG" /\ f_op f <> "LINK"
  | [c; CTarget] => c = CDn /\ i_handler i = HDBcc /\ code_of i (fun c => String.append "DB" (condition c)) (f_op f) /\ f_default f = None /\ f_op f <> "EXG" /\ f_op f <> "LINK"
  | _ => True
  end.
Lemma targets : forall f i, In f forms -> entry f i -> target_ok f i.
Proof.
  intros f i H E. unfold entry in E. each_form H; unfold target_ok; try exact Logic.I; vm_compute in E; injection E as <-;
    (split; [reflexivity|]); unfold code_of; repeat split; try discriminate; cbn; tauto.
Qed.
Section All.
Variables (new : bool) (S0 : setting) (fl : bool) (k : nat) (st : xstate) (m0 : msect) (cpu : Z).
Hypothesis G : good fl S0 k st m0 24.
Hypothesis Hcpu : (cpu <? CPUF_68020) = negb new.
Notation runs := (runs new S0 fl k st cpu).
Ltac side := first [reflexivity | eassumption | cbn; tauto].
Lemma all_none : forall f i sz, In f forms -> entry f i -> f_classes f = [] -> runs f i sz [] no_mode no_mode.
Proof.
  intros f i sz H E C. unfold entry in E. each_form H; try discriminate C; vm_compute in E; injection E as <-; eapply (r_fixed new S0 fl k st m0 cpu G); side.
Qed.
Lemma all_one : forall f i c sz o1 src, In f forms -> entry f i -> f_classes f = [c] -> c <> CTarget -> sz_ok new f sz -> opd new sz S0 fl o1 src -> in_class new sz c o1 = true ->
  runs f i sz [o1] src no_mode.
Proof.
  intros f i c sz o1 src H E C Nt (Sz & Sn) O1 C1. unfold entry in E.
  each_form H; try discriminate C; injection C as <-; try congruence; vm_compute in E; injection E as <-; cbn [f_default f_sizes f_new bwl wl only unsized all] in Sz, Sn;
  first [ eapply (r_clr new S0 fl k st m0 cpu G); side
        | eapply (r_tst new S0 fl k st m0 cpu G); side
        | destruct Sz as [<-|[]]; first [ eapply (r_one new S0 fl k st m0 cpu G); side | eapply (r_scc new S0 fl k st m0 cpu G); side | eapply (r_control new S0 fl k st m0 cpu G); side
            | eapply (r_swap new S0 fl k st m0 cpu G); side | eapply (r_extb new S0 fl k st m0 cpu G); [side|side|side|side|apply Sn; cbn; tauto|side|side]
            | eapply (r_shift_mem new S0 fl k st m0 cpu G); [side|cbn; tauto|side|side|side] ]
        | eapply (r_ext new S0 fl k st m0 cpu G); side
        | subst sz; first [ eapply (r_control new S0 fl k st m0 cpu G); side | eapply (r_unlk new S0 fl k st m0 cpu G); side | eapply (r_trap new S0 fl k st m0 cpu G); side | eapply (r_stop new S0 fl k st m0 cpu G); side ]
        ].
Qed.
Lemma all_two : forall f i c1 c2 sz o1 o2 src dest, In f forms -> entry f i -> f_classes f = [c1; c2] -> c2 <> CTarget -> sz_ok new f sz ->
  (f_name f = "LINK" -> forall a, o2 = OImm a -> sz = SW -> s16 (g_value a)) ->
  opd new sz S0 fl o1 src -> second_ok new S0 fl sz o2 dest -> two new sz c1 c2 o1 o2 ->
  runs f i sz [o1; o2] src dest.
Proof.
  intros f i c1 c2 sz o1 o2 src dest H E C Nt (Sz & Sn) Lk O1 O2 C12. unfold entry in E.
  each_form H; try discriminate C; injection C as <- <-; try congruence; vm_compute in E; injection E as <-; cbn [f_default f_sizes f_new bwl wl only unsized all] in Sz, Sn;
  first [ eapply (r_arith new S0 fl k st m0 cpu G); [side|side|side| |side|side|side]; cbn; tauto
        | eapply (r_arith_a new S0 fl k st m0 cpu G) with (h := 9); side
        | eapply (r_arith_i new S0 fl k st m0 cpu G) with (r := 3); side
        | eapply (r_arith_i new S0 fl k st m0 cpu G) with (r := 2); side
        | eapply (r_bitwise_i new S0 fl k st m0 cpu G) with (r := 0); side
        | eapply (r_bitwise_i new S0 fl k st m0 cpu G) with (r := 1); side
        | eapply (r_bitwise_i new S0 fl k st m0 cpu G) with (r := 5); side
        | eapply (r_quick new S0 fl k st m0 cpu G); side
        | eapply (r_logical new S0 fl k st m0 cpu G); [side|side|side| |side|side|side]; cbn; tauto
        | eapply (r_eor new S0 fl k st m0 cpu G); [side|side|side| |side|side|side]; tauto
        | eapply (r_cmp new S0 fl k st m0 cpu G); [side|side|side| |side|side|side]; cbn; tauto
        | eapply (r_cmpa new S0 fl k st m0 cpu G); side
        | eapply (r_cmpi new S0 fl k st m0 cpu G); side
        | eapply (r_cmpm new S0 fl k st m0 cpu G); side
        | eapply (r_move new S0 fl k st m0 cpu G); [side|side|side| |side|side|side]; tauto
        | eapply (r_movea new S0 fl k st m0 cpu G); side
        | destruct Sz as [<-|[]]; first [ eapply (r_moveq new S0 fl k st m0 cpu G); side
            | eapply (r_exg new S0 fl k st m0 cpu G); [side|side|side| |side|side|side]; cbn; tauto
            | eapply (r_xbcd new S0 fl k st m0 cpu G); [side|side|side| | |side|side|side]; cbn; tauto ]
        | eapply (r_xbcd new S0 fl k st m0 cpu G); [side|side|side| | |side|side|side]; [intros [X|X]; discriminate X|cbn; tauto]
        | eapply (r_muldiv new S0 fl k st m0 cpu G Hcpu); [side|side|side| |side|side|side];
            first [ left; eexists; split; [|reflexivity]; cbn; tauto | right; left; eexists; split; [|reflexivity]; cbn; tauto | right; right; split; reflexivity ]
        | eapply (r_shift new S0 fl k st m0 cpu G); [side|cbn; tauto|side| |side|side|side]; tauto
        | subst sz; first [ eapply (r_bit new S0 fl k st m0 cpu G); [side|cbn; tauto|side| |side|side|side]; cbn; tauto | eapply (r_lea new S0 fl k st m0 cpu G); side ]
        | eapply (r_link new S0 fl k st m0 cpu G Hcpu); [side|side|side|side|side|apply Lk; reflexivity|side|side|side]
        ].
Qed.
End All.
