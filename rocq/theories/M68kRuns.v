(** Proofs about the 680x0 instruction parser: the handler of every instruction. *)
From Coq Require Import String ZArith List Bool Lia ZifyBool.
From Verif Require Import Base BaseFacts Arith ArithProofs ExprSpec ExprModel ExprLayout ExprTree ExprProofs ObjWriteModel OptModel
  SectModel SectSpec SectProofs InstrSpec InstrProofs.
From Verif Require X65Proofs X65Run Z80Run M6809Proofs.
From Verif Require Import X65Spec M68kModel M68kSpec M68kProofs M68kEa M68kFull M68kParse M68kModes M68kShapes M68kParen M68kOperand M68kHandlers M68kInstr M68kInstr2 M68kInstr3 M68kInstr4 M68kInstr5 M68kFront.
Import ListNotations.
Open Scope string_scope.
Open Scope list_scope.
Open Scope Z_scope.

Lemma done_ext : forall new S0 fl k st A X act act', done new S0 fl k st A X act -> (forall mc, act mc = act' mc) -> done new S0 fl k st A X act'.
Proof.
  intros new S0 fl k st A X act act' (st1 & m1 & cells & E & Se & So & D) H. exists st1, m1, cells. split; [exact E|]. split; [exact Se|]. split; [exact So|].
  intros mc more. rewrite D, H. reflexivity.
Qed.
Definition entry (f : form) (i : instruction) : Prop := assoc (f_name f) g_integerInstructions = Some i.
Section Runs.
Variables (new : bool) (S0 : setting) (fl : bool) (k : nat) (st : xstate) (m0 : msect) (cpu : Z).
Hypothesis G : good fl S0 k st m0 24.
Hypothesis Hcpu : (cpu <? CPUF_68020) = negb new.
Notation F := (s_F S0).
Notation pc := (e_pc (s_env S0)).
Definition sz_ok (f : form) (sz : size) : Prop :=
  match f_default f with None => sz = SW | Some _ => In sz (f_sizes f) end /\ (In sz (f_new f) -> new = true).
Definition sz_code (f : form) (sz : size) : Z := match f_default f with None => 0 | Some _ => code sz end.
Definition sz_shown (f : form) (sz : size) : option size := match f_default f with None => None | Some _ => Some sz end.
Definition runs (f : form) (i : instruction) (sz : size) (ops : list opnd) (src dest : amode) : Prop :=
  forall rest, exists X, run_handler F (s_garbage S0) cpu (i_handler i) (sz_code f sz) src dest (i_data i) rest st = with_text rest X /\
    done new S0 fl k st (flat_map opnd_args ops) X (fun mc => Act (f_op f) (sz_shown f sz) (places mc f sz ops)).
(** The result of a handler that reads no further text. *)
Definition gives (f : form) (sz : size) (ops : list opnd) (X : res (bool * xstate)) : Prop :=
  done new S0 fl k st (flat_map opnd_args ops) X (fun mc => Act (f_op f) (sz_shown f sz) (places mc f sz ops)).
Lemma inclA1 : forall o1 o2, incl (opnd_args o1) (flat_map opnd_args [o1; o2]).
Proof. intros. cbn [flat_map]. rewrite app_nil_r. apply incl_appl, incl_refl. Qed.
Lemma inclA2 : forall o1 o2, incl (opnd_args o2) (flat_map opnd_args [o1; o2]).
Proof. intros. cbn [flat_map]. rewrite app_nil_r. apply incl_appr, incl_refl. Qed.
Lemma inclAi : forall a o2, incl [a] (flat_map opnd_args [OImm a; o2]).
Proof. intros. exact (inclA1 (OImm a) o2). Qed.
Lemma inclAl : forall o1 a, incl [a] (flat_map opnd_args [o1; OImm a]).
Proof. intros. exact (inclA2 o1 (OImm a)). Qed.
Lemma inclA0 : forall o1, incl (opnd_args o1) (flat_map opnd_args [o1]).
Proof. intros. cbn [flat_map]. rewrite app_nil_r. apply incl_refl. Qed.
Definition plain_form (f : form) : bool := negb (String.eqb (f_op f) "EXG") && negb (String.eqb (f_op f) "LINK").
Lemma places_map : forall mc f sz ops, plain_form f = true -> places mc f sz ops = map (opnd_place mc sz) ops.
Proof.
  intros mc f sz ops H. unfold plain_form in H. apply andb_true_iff in H. destruct H as (H1 & H2). apply negb_true_iff in H1, H2.
  unfold places. rewrite H1, H2. destruct ops as [|[] [|[] [|]]]; reflexivity.
Qed.
Lemma gives_two : forall f sz o1 o2 X name d, plain_form f = true -> f_op f = name -> f_default f = Some d ->
  done new S0 fl k st (flat_map opnd_args [o1; o2]) X (fun mc => Act name (Some sz) [opnd_place mc sz o1; opnd_place mc sz o2]) -> gives f sz [o1; o2] X.
Proof.
  intros f sz o1 o2 X name d P E D H. apply (done_ext _ _ _ _ _ _ _ _ _ H). intro mc. rewrite (places_map _ _ _ _ P), E. unfold sz_shown. rewrite D. reflexivity.
Qed.
Lemma gives_two_none : forall f sz o1 o2 X name, plain_form f = true -> f_op f = name -> f_default f = None ->
  done new S0 fl k st (flat_map opnd_args [o1; o2]) X (fun mc => Act name None [opnd_place mc sz o1; opnd_place mc sz o2]) -> gives f sz [o1; o2] X.
Proof.
  intros f sz o1 o2 X name P E D H. apply (done_ext _ _ _ _ _ _ _ _ _ H). intro mc. rewrite (places_map _ _ _ _ P), E. unfold sz_shown. rewrite D. reflexivity.
Qed.
Lemma gives_one : forall f sz o1 X act, plain_form f = true -> (forall p, act p = Act (f_op f) (sz_shown f sz) [p]) ->
  done new S0 fl k st (flat_map opnd_args [o1]) X (fun mc => act (opnd_place mc sz o1)) -> gives f sz [o1] X.
Proof.
  intros f sz o1 X act P E H. apply (done_ext _ _ _ _ _ _ _ _ _ H). intro mc. rewrite (places_map _ _ _ _ P), E. reflexivity.
Qed.
Definition second_ok (sz : size) (o2 : opnd) (dest : amode) : Prop := opd0 new sz S0 o2 dest /\ (immediate o2 = false -> opd new sz S0 fl o2 dest).
Lemma second_opd : forall sz o2 dest c, second_ok sz o2 dest -> in_class new sz c o2 = true -> In c [CDn; CAn; CDataAlt; CMemAlt; CAlt; CSimple; CCmpi; CPreDec; CPostInc] -> opd new sz S0 fl o2 dest.
Proof.
  intros sz o2 dest c (_ & H) C I. apply H. unfold in_class in C. apply andb_true_iff in C. destruct C as (_ & C).
  cbn [In] in I. destruct I as [<-|[<-|[<-|[<-|[<-|[<-|[<-|[<-|[<-|[]]]]]]]]]]; destruct o2; try reflexivity; discriminate C.
Qed.
Ltac starts Hh D := rewrite Hh; unfold sz_code; rewrite D; eexists; split; [reflexivity|].
Ltac pairs H := cbn [In] in H; repeat match type of H with _ \/ _ => destruct H as [H|H] end; try contradiction; injection H; clear H; intros; subst.
Lemma old : forall sz, (In sz [SL] -> new = true) -> old_sizes new cpu sz.
Proof. intros sz H ->. rewrite (H (or_introl eq_refl)) in *. rewrite Hcpu. split; reflexivity. Qed.
Lemma not_byte : forall sz, In sz [SW; SL] -> sz <> SB.
Proof. intros sz [<-|[<-|[]]]; discriminate. Qed.

(** *** Two operands *)
Lemma r_arith : forall f i sz o1 o2 src dest c1 c2 quick opi op, i_handler i = HArithmetic quick opi op ->
  In (quick, opi, op, f_op f) [(0x5000, 0x0600, 0xD000, "ADD"); (0x5100, 0x0400, 0x9000, "SUB")] -> f_default f = Some SW ->
  In (c1, c2) [(CAny, CDn); (CDn, CMemAlt); (CImm, CDataAlt); (CAny, CAn)] ->
  opd new sz S0 fl o1 src -> second_ok sz o2 dest -> two new sz c1 c2 o1 o2 -> runs f i sz [o1; o2] src dest.
Proof.
  intros f i sz o1 o2 src dest c1 c2 quick opi op Hh Ho D Hc O1 O2 C rest. pose proof (proj2 C) as C2.
  assert (O2' : opd new sz S0 fl o2 dest) by (apply (second_opd _ _ _ _ O2 C2); cbn [In] in *; destruct Hc as [E|[E|[E|[E|[]]]]]; injection E as _ <-; tauto).
  rewrite Hh. unfold sz_code. rewrite D. eexists. split; [reflexivity|].
  apply (gives_two f sz o1 o2 _ (f_op f) SW); [|reflexivity|exact D|].
  - unfold plain_form. destruct Ho as [E|[E|[]]]; injection E as _ _ _ <-; reflexivity.
  - apply (h_arith new S0 fl k st m0 G); [exact Ho|exact O1|exact O2'| |apply inclA1|apply inclA2].
    destruct Hc as [E|[E|[E|[E|[]]]]]; injection E as <- <-; tauto.
Qed.

Lemma r_arith_a : forall f i sz o1 o2 src dest quick up h, i_handler i = HArithmeticA quick (h * 4096) ->
  In (quick, up, h, f_op f) [(0x5000, 0, 13, "ADD"); (0x5100, 4, 9, "SUB")] -> f_default f = Some SW ->
  opd new sz S0 fl o1 src -> second_ok sz o2 dest -> two new sz CAny CAn o1 o2 -> runs f i sz [o1; o2] src dest.
Proof.
  intros f i sz o1 o2 src dest quick up h Hh Ho D O1 O2 C rest. pose proof (second_opd _ _ _ _ O2 (proj2 C) ltac:(cbn; tauto)) as O2'. starts Hh D.
  apply (gives_two f sz o1 o2 _ (f_op f) SW); [|reflexivity|exact D|].
  - unfold plain_form. destruct Ho as [E|[E|[]]]; injection E as _ _ _ <-; reflexivity.
  - destruct (class_an _ _ _ (proj2 C)) as (n & -> & _). apply (h_arith_a new S0 fl k st m0 G quick up h); try assumption. apply inclA1.
Qed.
Lemma r_arith_i : forall f i sz o1 o2 src dest quick up r, i_handler i = HArithmeticI quick (r * 512) ->
  In (quick, up, r, f_op f) [(0x5000, 0, 3, "ADD"); (0x5100, 4, 2, "SUB")] -> f_default f = Some SW ->
  opd new sz S0 fl o1 src -> second_ok sz o2 dest -> two new sz CImm CDataAlt o1 o2 -> runs f i sz [o1; o2] src dest.
Proof.
  intros f i sz o1 o2 src dest quick up r Hh Ho D O1 O2 C rest. pose proof (second_opd _ _ _ _ O2 (proj2 C) ltac:(cbn; tauto)) as O2'. starts Hh D.
  apply (gives_two f sz o1 o2 _ (f_op f) SW); [|reflexivity|exact D|].
  - unfold plain_form. destruct Ho as [E|[E|[]]]; injection E as _ _ _ <-; reflexivity.
  - destruct C as (C1 & C2). destruct (class_imm _ _ _ C1) as (a & ->). apply (h_arith_i new S0 fl k st m0 G quick up r); try assumption; [apply O1|apply inclAi|apply inclA2].
Qed.
Lemma r_bitwise_i : forall f i sz o1 o2 src dest r, i_handler i = HBitwiseI (r * 512) ->
  In (r, f_op f) [(0, "OR"); (1, "AND"); (2, "SUB"); (3, "ADD"); (5, "EOR")] -> f_default f = Some SW ->
  opd new sz S0 fl o1 src -> second_ok sz o2 dest -> two new sz CImm CDataAlt o1 o2 -> runs f i sz [o1; o2] src dest.
Proof.
  intros f i sz o1 o2 src dest r Hh Ho D O1 O2 C rest. pose proof (second_opd _ _ _ _ O2 (proj2 C) ltac:(cbn; tauto)) as O2'. starts Hh D.
  apply (gives_two f sz o1 o2 _ (f_op f) SW); [|reflexivity|exact D|].
  - unfold plain_form. destruct Ho as [E|[E|[E|[E|[E|[]]]]]]; injection E as _ <-; reflexivity.
  - destruct C as (C1 & C2). destruct (class_imm _ _ _ C1) as (a & ->). destruct (class_dalt _ _ _ C2) as (C3 & _).
    apply (h_logical_i new S0 fl k st m0 G r); try assumption; [apply O1|apply inclAi|apply inclA2].
Qed.
Lemma r_quick : forall f i sz o1 o2 src dest op up, i_handler i = HQuick op ->
  In (op, up, f_op f) [(0x5000, 0, "ADD"); (0x5100, 4, "SUB")] -> f_default f = Some SW ->
  opd new sz S0 fl o1 src -> second_ok sz o2 dest -> two new sz (CRange 1 8) CAlt o1 o2 -> runs f i sz [o1; o2] src dest.
Proof.
  intros f i sz o1 o2 src dest op up Hh Ho D O1 O2 C rest. pose proof (second_opd _ _ _ _ O2 (proj2 C) ltac:(cbn; tauto)) as O2'. starts Hh D.
  apply (gives_two f sz o1 o2 _ (f_op f) SW); [|reflexivity|exact D|].
  - unfold plain_form. destruct Ho as [E|[E|[]]]; injection E as _ _ <-; reflexivity.
  - destruct C as (C1 & C2). destruct (class_range _ _ _ _ _ C1) as (a & -> & V). apply (h_quick new S0 fl k st m0 G op up); try assumption; [apply O1|apply inclAi|apply inclA2].
Qed.
Lemma r_logical : forall f i sz o1 o2 src dest c1 c2 opi op, i_handler i = HLogical opi op ->
  In (opi, op, f_op f) [(0x0200, 0xC000, "AND"); (0, 0x8000, "OR")] -> f_default f = Some SW ->
  In (c1, c2) [(CData, CDn); (CDn, CMemAlt); (CImm, CDataAlt)] ->
  opd new sz S0 fl o1 src -> second_ok sz o2 dest -> two new sz c1 c2 o1 o2 -> runs f i sz [o1; o2] src dest.
Proof.
  intros f i sz o1 o2 src dest c1 c2 opi op Hh Ho D Hc O1 O2 C rest. pose proof (proj2 C) as C2.
  assert (O2' : opd new sz S0 fl o2 dest) by (apply (second_opd _ _ _ _ O2 C2); cbn [In] in *; destruct Hc as [E|[E|[E|[]]]]; injection E as _ <-; tauto).
  starts Hh D. apply (gives_two f sz o1 o2 _ (f_op f) SW); [|reflexivity|exact D|].
  - unfold plain_form. destruct Ho as [E|[E|[]]]; injection E as _ _ <-; reflexivity.
  - apply (h_logical new S0 fl k st m0 G); [exact Ho|exact O1|exact O2'| |apply inclA1|apply inclA2].
    destruct Hc as [E|[E|[E|[]]]]; injection E as <- <-; tauto.
Qed.
Lemma r_eor : forall f i sz o1 o2 src dest c1, i_handler i = HEOR -> f_op f = "EOR" -> f_default f = Some SW -> c1 = CDn \/ c1 = CImm ->
  opd new sz S0 fl o1 src -> second_ok sz o2 dest -> two new sz c1 CDataAlt o1 o2 -> runs f i sz [o1; o2] src dest.
Proof.
  intros f i sz o1 o2 src dest c1 Hh Ho D Hc O1 O2 C rest. pose proof (second_opd _ _ _ _ O2 (proj2 C) ltac:(cbn; tauto)) as O2'. starts Hh D.
  apply (gives_two f sz o1 o2 _ (f_op f) SW); [unfold plain_form; rewrite Ho; reflexivity|reflexivity|exact D|]. rewrite Ho.
  destruct C as (C1 & C2). destruct (class_dalt _ _ _ C2) as (C3 & _). destruct Hc as [-> | ->].
  - destruct (class_dn _ _ _ C1) as (n & ->). apply (eor_from_dn new S0 fl k st m0 G); try assumption; [apply O1|apply inclA2].
  - destruct (class_imm _ _ _ C1) as (a & ->). pose proof (proj1 O1) as P1. destruct (kind_tests _ _ (proj1 (proj2 (proj2 P1)))) as (_ & _ & Ki & _). unfold handleEOR. rewrite Ki. cbn [immediate].
    apply (h_logical_i new S0 fl k st m0 G 5); try assumption; [cbn; tauto|apply inclAi|apply inclA2].
Qed.
Lemma r_cmp : forall f i sz o1 o2 src dest c1 c2, i_handler i = HCMP -> f_op f = "CMP" -> f_default f = Some SW ->
  In (c1, c2) [(CAny, CDn); (CAny, CAn); (CImm, CSimple); (CPostInc, CPostInc)] ->
  opd new sz S0 fl o1 src -> second_ok sz o2 dest -> two new sz c1 c2 o1 o2 -> runs f i sz [o1; o2] src dest.
Proof.
  intros f i sz o1 o2 src dest c1 c2 Hh Ho D Hc O1 O2 C rest. pose proof (proj2 C) as C2.
  assert (O2' : opd new sz S0 fl o2 dest) by (apply (second_opd _ _ _ _ O2 C2); cbn [In] in *; destruct Hc as [E|[E|[E|[E|[]]]]]; injection E as _ <-; tauto).
  starts Hh D. apply (gives_two f sz o1 o2 _ (f_op f) SW); [unfold plain_form; rewrite Ho; reflexivity|reflexivity|exact D|]. rewrite Ho.
  apply (h_cmp new S0 fl k st m0 G); [exact O1|exact O2'| |apply inclA1|apply inclA2].
  destruct Hc as [E|[E|[E|[E|[]]]]]; injection E as <- <-; tauto.
Qed.
Lemma r_cmpa : forall f i sz o1 o2 src dest, i_handler i = HCMPA -> f_op f = "CMP" -> f_default f = Some SW ->
  opd new sz S0 fl o1 src -> second_ok sz o2 dest -> two new sz CAny CAn o1 o2 -> runs f i sz [o1; o2] src dest.
Proof.
  intros f i sz o1 o2 src dest Hh Ho D O1 O2 C rest. pose proof (second_opd _ _ _ _ O2 (proj2 C) ltac:(cbn; tauto)) as O2'. starts Hh D.
  apply (gives_two f sz o1 o2 _ (f_op f) SW); [unfold plain_form; rewrite Ho; reflexivity|reflexivity|exact D|]. rewrite Ho.
  pose proof (h_cmp new S0 fl k st m0 G sz o1 o2 src dest _ O1 O2' (or_intror (or_introl C)) (inclA1 o1 o2) (inclA2 o1 o2)) as X.
  destruct (class_an _ _ _ (proj2 C)) as (n & -> & _). unfold handleCMP in X.
  destruct (kind_tests _ _ (proj1 (proj2 (proj2 (proj1 O2'))))) as (_ & Ka & _ & Kn & _). rewrite Ka, Kn in X. cbn [is_inc is_areg] in X. rewrite andb_false_r in X. exact X.
Qed.
Lemma r_cmpi : forall f i sz o1 o2 src dest, i_handler i = HCMPI -> f_op f = "CMP" -> f_default f = Some SW ->
  opd new sz S0 fl o1 src -> second_ok sz o2 dest -> two new sz CImm CCmpi o1 o2 -> runs f i sz [o1; o2] src dest.
Proof.
  intros f i sz o1 o2 src dest Hh Ho D O1 O2 C rest. pose proof (second_opd _ _ _ _ O2 (proj2 C) ltac:(cbn; tauto)) as O2'. starts Hh D.
  apply (gives_two f sz o1 o2 _ (f_op f) SW); [unfold plain_form; rewrite Ho; reflexivity|reflexivity|exact D|]. rewrite Ho.
  destruct C as (C1 & C2). destruct (class_imm _ _ _ C1) as (a & ->). apply (h_cmpi new S0 fl k st m0 G); try assumption; [apply O1|apply inclAi|apply inclA2].
Qed.
Lemma r_cmpm : forall f i sz o1 o2 src dest, i_handler i = HCMPM -> f_op f = "CMP" -> f_default f = Some SW ->
  opd new sz S0 fl o1 src -> second_ok sz o2 dest -> two new sz CPostInc CPostInc o1 o2 -> runs f i sz [o1; o2] src dest.
Proof.
  intros f i sz o1 o2 src dest Hh Ho D O1 O2 C rest. pose proof (second_opd _ _ _ _ O2 (proj2 C) ltac:(cbn; tauto)) as O2'. starts Hh D.
  apply (gives_two f sz o1 o2 _ (f_op f) SW); [unfold plain_form; rewrite Ho; reflexivity|reflexivity|exact D|]. rewrite Ho.
  assert (T : forall o, in_class new sz CPostInc o = true -> exists n, o = OInc n).
  { intros o H. unfold in_class in H. apply andb_true_iff in H. destruct H as (_ & H). destruct o; try discriminate H. eexists. reflexivity. }
  destruct (T _ (proj1 C)) as (n1 & ->). destruct (T _ (proj2 C)) as (n2 & ->). apply (h_cmpm new S0 fl k st m0 G); [apply O1|apply O2'].
Qed.
Lemma r_move : forall f i sz o1 o2 src dest c2, i_handler i = HMOVE -> f_op f = "MOVE" -> f_default f = Some SW -> c2 = CDataAlt \/ c2 = CAn ->
  opd new sz S0 fl o1 src -> second_ok sz o2 dest -> two new sz CAny c2 o1 o2 -> runs f i sz [o1; o2] src dest.
Proof.
  intros f i sz o1 o2 src dest c2 Hh Ho D Hc O1 O2 C rest. assert (O2' : opd new sz S0 fl o2 dest) by (apply (second_opd _ _ _ _ O2 (proj2 C)); destruct Hc as [-> | ->]; cbn; tauto). starts Hh D.
  apply (gives_two f sz o1 o2 _ (f_op f) SW); [unfold plain_form; rewrite Ho; reflexivity|reflexivity|exact D|]. rewrite Ho.
  apply (h_move new S0 fl k st m0 G); [exact O1|exact O2'| |apply inclA1|apply inclA2]. destruct Hc as [-> | ->]; tauto.
Qed.
Lemma r_movea : forall f i sz o1 o2 src dest, i_handler i = HMOVEA -> f_op f = "MOVE" -> f_default f = Some SW ->
  opd new sz S0 fl o1 src -> second_ok sz o2 dest -> two new sz CAny CAn o1 o2 -> runs f i sz [o1; o2] src dest.
Proof.
  intros f i sz o1 o2 src dest Hh Ho D O1 O2 C rest. pose proof (second_opd _ _ _ _ O2 (proj2 C) ltac:(cbn; tauto)) as O2'. starts Hh D.
  apply (gives_two f sz o1 o2 _ (f_op f) SW); [unfold plain_form; rewrite Ho; reflexivity|reflexivity|exact D|]. rewrite Ho.
  destruct (class_an _ _ _ (proj2 C)) as (n & -> & Ns). apply (h_movea new S0 fl k st m0 G); try assumption; [apply O2'|apply C|apply inclA1].
Qed.
Lemma r_moveq : forall f i o1 o2 src dest, i_handler i = HMOVEQ -> f_op f = "MOVE" -> f_default f = Some SL ->
  opd new SL S0 fl o1 src -> second_ok SL o2 dest -> two new SL (CRange (-128) 127) CDn o1 o2 -> runs f i SL [o1; o2] src dest.
Proof.
  intros f i o1 o2 src dest Hh Ho D O1 O2 C rest. pose proof (second_opd _ _ _ _ O2 (proj2 C) ltac:(cbn; tauto)) as O2'. starts Hh D.
  apply (gives_two f SL o1 o2 _ (f_op f) SL); [unfold plain_form; rewrite Ho; reflexivity|reflexivity|exact D|]. rewrite Ho.
  destruct (class_dn _ _ _ (proj2 C)) as (n & ->). destruct (class_range _ _ _ _ _ (proj1 C)) as (a & -> & V). apply (h_moveq new S0 fl k st m0 G); try assumption; [apply O1|apply O2'|apply inclAi].
Qed.
Lemma r_exg : forall f i o1 o2 src dest c1 c2, i_handler i = HEXG -> f_op f = "EXG" -> f_default f = Some SL ->
  In (c1, c2) [(CDn, CDn); (CAn, CAn); (CDn, CAn); (CAn, CDn)] ->
  opd new SL S0 fl o1 src -> second_ok SL o2 dest -> two new SL c1 c2 o1 o2 -> runs f i SL [o1; o2] src dest.
Proof.
  intros f i o1 o2 src dest c1 c2 Hh Ho D Hc O1 O2 (C1 & C2) rest.
  assert (O2' : opd new SL S0 fl o2 dest) by (apply (second_opd _ _ _ _ O2 C2); cbn [In] in *; destruct Hc as [E|[E|[E|[E|[]]]]]; injection E as _ <-; tauto).
  starts Hh D. unfold sz_shown. rewrite D, Ho. unfold places. rewrite Ho. cbn [String.eqb].
  destruct Hc as [E|[E|[E|[E|[]]]]]; injection E as <- <-.
  - destruct (class_dn _ _ _ C1) as (a & ->). destruct (class_dn _ _ _ C2) as (b & ->). apply (h_exg new S0 fl k st m0 G _ _ _ _ _ O1 O2'). left. split; assumption.
  - destruct (class_an _ _ _ C1) as (a & -> & _). destruct (class_an _ _ _ C2) as (b & -> & _). apply (h_exg new S0 fl k st m0 G _ _ _ _ _ O1 O2'). right. left. split; assumption.
  - destruct (class_dn _ _ _ C1) as (a & ->). destruct (class_an _ _ _ C2) as (b & -> & _). apply (h_exg new S0 fl k st m0 G _ _ _ _ _ O1 O2'). right. right. split; assumption.
  - destruct (class_an _ _ _ C1) as (a & -> & _). destruct (class_dn _ _ _ C2) as (b & ->). apply (h_exg new S0 fl k st m0 G _ _ _ _ (flat_map opnd_args [OAreg a; ODreg b]) O2' O1). right. right. split; assumption.
Qed.
Lemma r_muldiv : forall f i sz o1 o2 src dest, f_default f = Some SW -> In sz [SW; SL] -> (In sz [SL] -> new = true) ->
  (exists sign, In (sign, f_op f) [(0, "MULU"); (1, "MULS")] /\ i_handler i = HMUL sign) \/ (exists sign, In (sign, f_op f) [(0, "DIVU"); (1, "DIVS")] /\ i_handler i = HDIV sign) \/
    f_op f = "CHK" /\ i_handler i = HCHK ->
  opd new sz S0 fl o1 src -> second_ok sz o2 dest -> two new sz CData CDn o1 o2 -> runs f i sz [o1; o2] src dest.
Proof.
  intros f i sz o1 o2 src dest D Hs Hn Ho O1 O2 C rest. pose proof (second_opd _ _ _ _ O2 (proj2 C) ltac:(cbn; tauto)) as O2'. pose proof (not_byte _ Hs) as Nb. pose proof (old _ Hn) as Od.
  destruct Ho as [(sign & Ho & Hh)|[(sign & Ho & Hh)|(Ho & Hh)]]; starts Hh D; (apply (gives_two f sz o1 o2 _ (f_op f) SW); [|reflexivity|exact D|]).
  - unfold plain_form. destruct Ho as [E|[E|[]]]; injection E as _ <-; reflexivity.
  - apply (h_mul new S0 fl k st m0 G); try assumption. apply inclA1.
  - unfold plain_form. destruct Ho as [E|[E|[]]]; injection E as _ <-; reflexivity.
  - apply (h_div new S0 fl k st m0 G cpu); try assumption. apply inclA1.
  - unfold plain_form. rewrite Ho. reflexivity.
  - rewrite Ho. apply (h_chk new S0 fl k st m0 G); try assumption. apply inclA1.
Qed.
Lemma shift_plain : forall f op mem up kind, In (op, mem, up, kind, f_op f) shift_ops -> plain_form f = true.
Proof. intros f op mem up kind Ho. unfold plain_form. cbn [In shift_ops] in Ho. destruct Ho as [E|[E|[E|[E|[E|[E|[E|[E|[]]]]]]]]]; injection E as _ _ _ _ <-; reflexivity. Qed.
Lemma r_shift : forall f i sz o1 o2 src dest c1 op mem up kind, i_handler i = HShift op mem -> In (op, mem, up, kind, f_op f) shift_ops -> f_default f = Some SW -> c1 = CRange 1 8 \/ c1 = CDn ->
  opd new sz S0 fl o1 src -> second_ok sz o2 dest -> two new sz c1 CDn o1 o2 -> runs f i sz [o1; o2] src dest.
Proof.
  intros f i sz o1 o2 src dest c1 op mem up kind Hh Ho D Hc O1 O2 C rest. pose proof (second_opd _ _ _ _ O2 (proj2 C) ltac:(cbn; tauto)) as O2'. starts Hh D.
  apply (gives_two f sz o1 o2 _ (f_op f) SW); [apply (shift_plain f op mem up kind Ho)|reflexivity|exact D|].
  apply (h_shift new S0 fl k st m0 G op mem up kind); [exact Ho|exact O1|exact O2'| |apply inclA1]. destruct Hc as [-> | ->]; tauto.
Qed.
Lemma r_shift_mem : forall f i o1 src op mem up kind, i_handler i = HShift op mem -> In (op, mem, up, kind, f_op f) shift_ops -> f_default f = Some SW ->
  opd new SW S0 fl o1 src -> in_class new SW CMemAlt o1 = true -> runs f i SW [o1] src no_mode.
Proof.
  intros f i o1 src op mem up kind Hh Ho D O1 C rest. starts Hh D.
  apply (gives_one f SW o1 _ (fun p => Act (f_op f) (Some SW) [p])); [apply (shift_plain f op mem up kind Ho)|intro p; unfold sz_shown; rewrite D; reflexivity|].
  apply (h_shift_mem new S0 fl k st m0 G op mem up kind); [exact Ho|exact O1|exact C|apply inclA0].
Qed.
Lemma r_bit : forall f i o1 o2 src dest c1 c2, i_handler i = HBit -> In (i_data i, f_op f) bit_ops -> f_default f = None ->
  In (c1, c2) [(CDn, CDataAlt); (CRange 0 31, CDn); (CRange 0 7, CMemAlt)] ->
  opd new SW S0 fl o1 src -> second_ok SW o2 dest -> two new SW c1 c2 o1 o2 -> runs f i SW [o1; o2] src dest.
Proof.
  intros f i o1 o2 src dest c1 c2 Hh Ho D Hc O1 O2 C rest. pose proof (proj2 C) as C2.
  assert (O2' : opd new SW S0 fl o2 dest) by (apply (second_opd _ _ _ _ O2 C2); cbn [In] in *; destruct Hc as [E|[E|[E|[]]]]; injection E as _ <-; tauto).
  starts Hh D. apply (gives_two_none f SW o1 o2 _ (f_op f)); [|reflexivity|exact D|].
  - unfold plain_form. cbn [In bit_ops] in Ho. destruct Ho as [E|[E|[E|[E|[]]]]]; injection E as _ <-; reflexivity.
  - apply (h_bit new S0 fl k st m0 G); [exact Ho|exact O1|exact O2'| |apply inclA1|apply inclA2].
    destruct Hc as [E|[E|[E|[]]]]; injection E as <- <-; tauto.
Qed.
Lemma r_xbcd : forall f i sz o1 o2 src dest c op h d, i_handler i = HXBCD op -> In (op, h, f_op f) x_ops -> f_default f = Some d -> (h = 12 \/ h = 8 -> sz = SB) -> c = CDn \/ c = CPreDec ->
  opd new sz S0 fl o1 src -> second_ok sz o2 dest -> two new sz c c o1 o2 -> runs f i sz [o1; o2] src dest.
Proof.
  intros f i sz o1 o2 src dest c op h d Hh Ho D Hs Hc O1 O2 C rest. assert (O2' : opd new sz S0 fl o2 dest) by (apply (second_opd _ _ _ _ O2 (proj2 C)); destruct Hc as [-> | ->]; cbn; tauto). starts Hh D.
  apply (gives_two f sz o1 o2 _ (f_op f) d); [|reflexivity|exact D|].
  - unfold plain_form. cbn [In x_ops] in Ho. destruct Ho as [E|[E|[E|[E|[]]]]]; injection E as _ _ <-; reflexivity.
  - apply (h_xbcd new S0 fl k st m0 G op h); [exact Ho|exact Hs|exact O1|exact O2'|]. destruct Hc as [-> | ->]; tauto.
Qed.
Lemma r_lea : forall f i o1 o2 src dest, i_handler i = HLEA -> f_op f = "LEA" -> f_default f = None ->
  opd new SW S0 fl o1 src -> second_ok SW o2 dest -> two new SW CControl CAn o1 o2 -> runs f i SW [o1; o2] src dest.
Proof.
  intros f i o1 o2 src dest Hh Ho D O1 O2 C rest. pose proof (second_opd _ _ _ _ O2 (proj2 C) ltac:(cbn; tauto)) as O2'. starts Hh D.
  apply (gives_two_none f SW o1 o2 _ (f_op f)); [unfold plain_form; rewrite Ho; reflexivity|reflexivity|exact D|]. rewrite Ho.
  apply (h_lea new S0 fl k st m0 G); try assumption. apply inclA1.
Qed.
Lemma r_link : forall f i sz o1 o2 src dest, i_handler i = HLINK -> f_op f = "LINK" -> f_default f = Some SW -> In sz [SW; SL] -> (In sz [SL] -> new = true) ->
  (forall a, o2 = OImm a -> sz = SW -> s16 (g_value a)) ->
  opd new sz S0 fl o1 src -> second_ok sz o2 dest -> two new sz CAn CImm o1 o2 -> runs f i sz [o1; o2] src dest.
Proof.
  intros f i sz o1 o2 src dest Hh Ho D Hs Hn V O1 (O2 & _) (C1 & C2) rest. starts Hh D. unfold sz_shown. rewrite D, Ho. unfold places. rewrite Ho. cbn [String.eqb].
  destruct (class_an _ _ _ C1) as (n & -> & _). destruct (class_imm _ _ _ C2) as (a & ->).
  apply (h_link new S0 fl k st m0 G cpu sz (OAreg n) a src dest); try assumption; [apply not_byte, Hs|apply old, Hn|apply V; reflexivity|apply inclAl].
Qed.
(** *** One operand *)
Lemma r_sized : forall f i sz o1 src op c modes svs, i_handler i = HSized op -> f_default f = Some SW -> plain_form f = true ->
  one_ok new (op + field sz * 64) sz modes svs (fun p => Act (f_op f) (Some sz) [p]) -> orl [op; field sz * 64] = op + field sz * 64 ->
  opd new sz S0 fl o1 src -> in_class new sz c o1 = true -> (forall mode reg, fields o1 mode reg -> mode_set modes svs mode reg) -> runs f i sz [o1] src no_mode.
Proof.
  intros f i sz o1 src op c modes svs Hh D P Ok1 El (_ & G1) C Fm rest. starts Hh D.
  apply (gives_one f sz o1 _ (fun p => Act (f_op f) (Some sz) [p])); [exact P|intro p; unfold sz_shown; rewrite D; reflexivity|].
  unfold handleSized, outputOpcodeSize. rewrite size_field.
  apply (h_one new S0 fl k st m0 G _ (op + field sz * 64) sz modes svs (fun p => Act (f_op f) (Some sz) [p])); try assumption. apply inclA0.
Qed.
Lemma r_clr : forall f i sz o1 src op, i_handler i = HSized op -> In (op, f_op f) [(0x4200, "CLR"); (0x4400, "NEG"); (0x4000, "NEGX"); (0x4600, "NOT")] -> f_default f = Some SW ->
  opd new sz S0 fl o1 src -> in_class new sz CDataAlt o1 = true -> runs f i sz [o1] src no_mode.
Proof.
  intros f i sz o1 src op Hh Ho D O1 C. destruct (class_dalt _ _ _ C) as (C3 & _).
  apply (r_sized f i sz o1 src op CDataAlt dalt [0; 1]); try assumption.
  - unfold plain_form. destruct Ho as [E|[E|[E|[E|[]]]]]; injection E as _ <-; reflexivity.
  - apply one_clr, Ho.
  - destruct Ho as [E|[E|[E|[E|[]]]]]; injection E as <- _; destruct sz; reflexivity.
  - intros mode reg Fi. apply (fields_dalt o1); assumption.
Qed.
Lemma r_tst : forall f i sz o1 src, i_handler i = HSized 0x4A00 -> f_op f = "TST" -> f_default f = Some SW ->
  opd new sz S0 fl o1 src -> in_class new sz CTest o1 = true -> runs f i sz [o1] src no_mode.
Proof.
  intros f i sz o1 src Hh Ho D O1 C.
  apply (r_sized f i sz o1 src 0x4A00 CTest dalt (if new then [0; 1; 2; 3; 4] else [0; 1])); try assumption.
  - unfold plain_form. rewrite Ho. reflexivity.
  - rewrite Ho. apply one_tst.
  - destruct sz; reflexivity.
  - intros mode reg Fi. unfold in_class in C. apply andb_true_iff in C. destruct C as (_ & C). destruct new.
    + apply (fields_noreg o1 mode reg Fi). destruct o1; try reflexivity; discriminate C.
    + apply (fields_dalt o1 mode reg Fi). destruct o1; try discriminate C; exact C.
Qed.
Lemma r_one : forall f i sz o1 src op d, i_handler i = HOne op -> In (op, f_op f) [(0x4800, "NBCD"); (0x4AC0, "TAS")] -> f_default f = Some d -> sz = SB ->
  opd new sz S0 fl o1 src -> in_class new sz CDataAlt o1 = true -> runs f i sz [o1] src no_mode.
Proof.
  intros f i sz o1 src op d Hh Ho D -> (_ & G1) C rest. destruct (class_dalt _ _ _ C) as (C3 & _). starts Hh D.
  apply (gives_one f SB o1 _ (fun p => Act (f_op f) (Some SB) [p])); [|intro p; unfold sz_shown; rewrite D; reflexivity|].
  - unfold plain_form. destruct Ho as [E|[E|[]]]; injection E as _ <-; reflexivity.
  - apply (h_one new S0 fl k st m0 G _ op SB dalt [0; 1] (fun p => Act (f_op f) (Some SB) [p])); [reflexivity| |exact G1| |apply inclA0].
    + destruct Ho as [E|[E|[]]]; injection E as <- <-; [apply one_nbcd|apply one_tas].
    + intros mode reg Fi. apply (fields_dalt o1); assumption.
Qed.
Lemma r_scc : forall f i o1 src, i_handler i = HScc -> In (i_data i) codes -> f_op f = String.append "S" (condition (i_data i)) -> f_default f = Some SB ->
  opd new SB S0 fl o1 src -> in_class new SB CDataAlt o1 = true -> runs f i SB [o1] src no_mode.
Proof.
  intros f i o1 src Hh Hc Ho D (_ & G1) C rest. destruct (class_dalt _ _ _ C) as (C3 & _). starts Hh D.
  apply (gives_one f SB o1 _ (fun p => Act (f_op f) (Some SB) [p])); [|intro p; unfold sz_shown; rewrite D; reflexivity|].
  - unfold plain_form. rewrite Ho. clear -Hc. revert Hc. generalize (i_data i). intros z Hc. cbn [In codes] in Hc. repeat (destruct Hc as [<-|Hc]; [reflexivity|]). destruct Hc.
  - apply (h_one new S0 fl k st m0 G _ (0x50C0 + i_data i * 256) SB dalt [0; 1] (fun p => Act (f_op f) (Some SB) [p])); [| |exact G1| |apply inclA0].
    + clear -Hc. revert Hc. generalize (i_data i). intros z Hc. cbn [In codes] in Hc. repeat (destruct Hc as [<-|Hc]; [reflexivity|]). destruct Hc.
    + rewrite Ho. apply one_scc, Hc.
    + intros mode reg Fi. apply (fields_dalt o1); assumption.
Qed.
Lemma r_control : forall f i sz o1 src op, i_handler i = HOne op -> In (op, f_op f, f_default f, sz) [(0x4840, "PEA", Some SL, SL); (0x4EC0, "JMP", None, SW); (0x4E80, "JSR", None, SW)] ->
  opd new sz S0 fl o1 src -> in_class new sz CControl o1 = true -> runs f i sz [o1] src no_mode.
Proof.
  intros f i sz o1 src op Hh Ho O1 C rest. rewrite Hh. eexists. split; [reflexivity|].
  apply (gives_one f sz o1 _ (fun p => Act (f_op f) (sz_shown f sz) [p])); [|reflexivity|].
  - unfold plain_form. destruct Ho as [E|[E|[E|[]]]]; injection E as _ <- _ _; reflexivity.
  - apply (h_control new S0 fl k st m0 G sz _ op (fun p => Act (f_op f) (sz_shown f sz) [p])); [|reflexivity|exact O1|exact C|apply inclA0].
    unfold sz_shown. destruct Ho as [E|[E|[E|[]]]]; injection E as <- <- <- <-; [apply one_pea|apply one_jmp|apply one_jsr].
Qed.
Ltac table := intros x Hx; cbn [In regs8] in Hx; repeat (destruct Hx as [<-|Hx]; [reflexivity|]); destruct Hx.
Lemma r_swap : forall f i sz o1 src, i_handler i = HSWAP -> f_op f = "SWAP" -> f_default f = Some SW -> sz = SW ->
  opd new sz S0 fl o1 src -> in_class new sz CDn o1 = true -> runs f i sz [o1] src no_mode.
Proof.
  intros f i sz o1 src Hh Ho D -> (O1 & _) C rest. starts Hh D.
  apply (gives_one f SW o1 _ (fun p => Act (f_op f) (Some SW) [p])); [unfold plain_form; rewrite Ho; reflexivity|intro p; unfold sz_shown; rewrite D; reflexivity|]. rewrite Ho.
  destruct (class_dn _ _ _ C) as (n & ->).
  apply (dn_word new S0 fl k st m0 G 0x4840 4 4 1 0 SW n src _ _ (or_introl O1)) with (l := fun x => [0x4840; x]); try lia; [|table]. intros mc more. reflexivity.
Qed.
Lemma r_ext : forall f i sz o1 src, i_handler i = HEXT -> f_op f = "EXT" -> f_default f = Some SW -> In sz [SW; SL] ->
  opd new sz S0 fl o1 src -> in_class new sz CDn o1 = true -> runs f i sz [o1] src no_mode.
Proof.
  intros f i sz o1 src Hh Ho D Hs (O1 & _) C rest. starts Hh D.
  apply (gives_one f sz o1 _ (fun p => Act (f_op f) (Some sz) [p])); [unfold plain_form; rewrite Ho; reflexivity|intro p; unfold sz_shown; rewrite D; reflexivity|]. rewrite Ho.
  destruct (class_dn _ _ _ C) as (n & ->). destruct Hs as [<-|[<-|[]]].
  - apply (dn_word new S0 fl k st m0 G 0x4880 4 4 2 0 SW n src _ _ (or_introl O1)) with (l := fun x => [0x4800; x; 2 * 64]); try lia; [|table]. intros mc more. reflexivity.
  - apply (dn_word new S0 fl k st m0 G 0x48C0 4 4 3 0 SL n src _ _ (or_introl O1)) with (l := fun x => [0x4800; x; 3 * 64]); try lia; [|table]. intros mc more. reflexivity.
Qed.
Lemma r_extb : forall f i sz o1 src, i_handler i = HEXTB -> f_op f = "EXTB" -> f_default f = Some SL -> sz = SL -> new = true ->
  opd new sz S0 fl o1 src -> in_class new sz CDn o1 = true -> runs f i sz [o1] src no_mode.
Proof.
  intros f i sz o1 src Hh Ho D -> Hn (O1 & _) C rest. starts Hh D.
  apply (gives_one f SL o1 _ (fun p => Act (f_op f) (Some SL) [p])); [unfold plain_form; rewrite Ho; reflexivity|intro p; unfold sz_shown; rewrite D; reflexivity|]. rewrite Ho.
  destruct (class_dn _ _ _ C) as (n & ->).
  apply (dn_word new S0 fl k st m0 G 0x49C0 4 4 7 0 SL n src _ _ (or_introl O1)) with (l := fun x => [0x4800; x; 7 * 64]); try lia.
  - intros mc more. rewrite Hn. reflexivity.
  - table.
Qed.
Lemma r_unlk : forall f i sz o1 src, i_handler i = HUNLK -> f_op f = "UNLK" -> f_default f = None -> sz = SW ->
  opd new sz S0 fl o1 src -> in_class new sz CAn o1 = true -> runs f i sz [o1] src no_mode.
Proof.
  intros f i sz o1 src Hh Ho D -> (O1 & _) C rest. starts Hh D.
  apply (gives_one f SW o1 _ (fun p => Act (f_op f) None [p])); [unfold plain_form; rewrite Ho; reflexivity|intro p; unfold sz_shown; rewrite D; reflexivity|]. rewrite Ho.
  destruct (class_an _ _ _ C) as (n & -> & _).
  apply (dn_word new S0 fl k st m0 G 0x4E58 4 7 1 3 SW n src _ _ (or_intror O1)) with (l := fun x => [0x4E58; x]); try lia; [|table]. intros mc more. reflexivity.
Qed.
Lemma r_trap : forall f i sz o1 src, i_handler i = HTRAP -> f_op f = "TRAP" -> f_default f = None -> sz = SW ->
  opd new sz S0 fl o1 src -> in_class new sz (CRange 0 15) o1 = true -> runs f i sz [o1] src no_mode.
Proof.
  intros f i sz o1 src Hh Ho D -> O1 C rest. starts Hh D.
  apply (gives_one f SW o1 _ (fun p => Act (f_op f) None [p])); [unfold plain_form; rewrite Ho; reflexivity|intro p; unfold sz_shown; rewrite D; reflexivity|]. rewrite Ho.
  apply (h_trap new S0 fl k st m0 G); try assumption. apply inclA0.
Qed.
Lemma r_stop : forall f i sz o1 src, i_handler i = HFixedImm 0x4E72 -> f_op f = "STOP" -> f_default f = None -> sz = SW ->
  opd new sz S0 fl o1 src -> in_class new sz CImm o1 = true -> runs f i sz [o1] src no_mode.
Proof.
  intros f i sz o1 src Hh Ho D -> O1 C rest. starts Hh D.
  apply (gives_one f SW o1 _ (fun p => Act (f_op f) None [p])); [unfold plain_form; rewrite Ho; reflexivity|intro p; unfold sz_shown; rewrite D; reflexivity|]. rewrite Ho.
  apply (h_stop new S0 fl k st m0 G); try assumption. apply inclA0.
Qed.
(** *** No operand *)
Lemma r_fixed : forall f i sz op, i_handler i = HFixed op ->
  In (op, f_op f) [(0x4AFC, "ILLEGAL"); (0x4E71, "NOP"); (0x4E70, "RESET"); (0x4E73, "RTE"); (0x4E77, "RTR"); (0x4E75, "RTS"); (0x4E76, "TRAPV")] -> f_default f = None -> runs f i sz [] no_mode no_mode.
Proof.
  intros f i sz op Hh Ho D rest. starts Hh D. apply (done_ext _ _ _ _ _ _ _ (fun mc => Act (f_op f) None [])); [|intro mc; unfold sz_shown; rewrite D; reflexivity].
  apply (fixed_op new S0 fl k st m0 G), Ho.
Qed.
End Runs.
