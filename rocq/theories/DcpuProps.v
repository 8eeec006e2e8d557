(** C62: DCPU-16 instructions are encoded as the specification of the processor says. *)
From Coq Require Import ZArith List Bool Lia ZifyBool String.
From Verif Require Import Base BaseFacts Arith ExprSpec ExprModel ExprLayout ExprProps ObjWriteModel OptModel SectModel SectSpec SectErrors
  SectProps InstrSpec InstrProofs.
From Verif Require X65Spec X65Props ChipProps.
From Verif Require Import DcpuModel DcpuSpec DcpuProofs DcpuOnly.
Import ListNotations.
Open Scope string_scope.
Open Scope list_scope.
Open Scope Z_scope.

(** Every basic instruction with two operands whose numbers fit, known or not, is read up
    to the end of the line, with optimisation on or off.  What is appended to the current
    section is the instruction word of the specification and the words of the operands,
    with every number having the value it has in the final program, wherever the section
    is placed.  Missing: what [faulty] lists; see the faults below. *)
Theorem C62_encoding_partial : forall S k st m optimize name op a b rest,
  ready2 st k m 6 -> setting_ok S None -> numbers_known S a -> numbers_known S b -> In (name, op) basic ->
  well_named a -> well_named b -> fits a -> fits b -> faulty optimize name a b = false -> ends rest ->
  exists st', x10c_ParseInstruction (s_F S) (s_world S) optimize (lex (Word name :: text a ++ Comma :: text b) ++ rest) st = Ok (true, rest, st') /\
    appended S k st st' (basic_encoding optimize op a b).
Proof. exact encoded. Qed.
Print Assumptions C62_encoding_partial.
(** JSR, the instruction with one operand. *)
Theorem C62_jsr_partial : forall S k st m optimize a rest,
  ready2 st k m 4 -> setting_ok S None -> numbers_known S a -> well_named a -> fits a -> faulty optimize "JSR" a a = false -> ends rest ->
  exists st', x10c_ParseInstruction (s_F S) (s_world S) optimize (lex (Word "JSR" :: text a) ++ rest) st = Ok (true, rest, st') /\
    appended S k st st' (jsr_encoding optimize a).
Proof. exact encoded_jsr. Qed.
Print Assumptions C62_jsr_partial.

(** Whatever is read without a report is an instruction of the specification with its
    operands, if no minus sign stands outside the expressions. *)
Theorem C62_only_the_specification_partial : forall F w optimize name pieces st v ts st',
  x10c_ParseInstruction F w optimize (lex (Word name :: pieces)) st = Ok (v, ts, st') -> x_errors st' = x_errors st ->
  ts <> lex (Word name :: pieces) -> merged pieces -> ~ In Minus pieces ->
  (exists op a b, In (name, op) basic /\ well_named a /\ well_named b /\ lex pieces = lex (text a ++ Comma :: text b) ++ ts) \/
  (name = "JSR" /\ exists a, well_named a /\ lex pieces = lex (text a) ++ ts).
Proof. exact only_these. Qed.
Print Assumptions C62_only_the_specification_partial.

(** A known address or offset that does not fit is reported; literals are the exception. *)
Theorem C62_out_of_range_partial : forall S st optimize name op a b rest r v st',
  setting_ok S None -> numbers_known S a -> numbers_known S b -> In (name, op) basic -> well_named a -> well_named b ->
  (forall n, In n (numbers a ++ numbers b) -> known_now n = true) -> ends rest ->
  (~ fits a /\ (forall n, a <> Lit n)) \/ (~ fits b /\ (forall n, b <> Lit n)) ->
  x10c_ParseInstruction (s_F S) (s_world S) optimize (lex (Word name :: text a ++ Comma :: text b) ++ rest) st = Ok (v, r, st') ->
  x_errors st' <> x_errors st.
Proof.
  intros S st optimize name op a b rest r v st' SO Ka Kb Ib Wa Wb Kw En Bad H Q.
  destruct (reported S st optimize name op a b rest r v st' SO Ka Kb Ib Wa Wb Kw En H Q) as (La & Lb).
  assert (G : forall f, limits f -> (forall n, f <> Lit n) -> fits f).
  { intros f L N. destruct f; try exact L. destruct (N n eq_refl). }
  destruct Bad as [(X & N)|(X & N)]; apply X; apply G; assumption.
Qed.
Print Assumptions C62_out_of_range_partial.
Theorem C62_jsr_out_of_range_partial : forall S st optimize a rest r v st',
  setting_ok S None -> numbers_known S a -> (forall n, In n (numbers a) -> known_now n = true) -> ~ fits a -> (forall n, a <> Lit n) ->
  x10c_ParseInstruction (s_F S) (s_world S) optimize (lex (Word "JSR" :: text a) ++ rest) st = Ok (v, r, st') ->
  x_errors st' <> x_errors st.
Proof.
  intros S st optimize a rest r v st' SO Ka Kw X N H Q. apply X.
  pose proof (reported_jsr S st optimize a rest r v st' SO Ka Kw H Q) as L. destruct a; try exact L. destruct (N n eq_refl).
Qed.
Print Assumptions C62_jsr_out_of_range_partial.

(** -mo0 and -mo1 switch optimisation off and on; any other option is refused and
    changes nothing. *)
Theorem C62_option : forall optimize,
  x10c_ParseOption "o0" optimize = (false, true) /\ x10c_ParseOption "o1" optimize = (true, true) /\
  (forall s, s <> "o0" -> s <> "o1" -> x10c_ParseOption s optimize = (optimize, false)).
Proof.
  intro optimize. split; [reflexivity|]. split; [reflexivity|]. intros s N0 N1. unfold x10c_ParseOption.
  destruct (String.eqb_spec s "o0"); [contradiction|]. destruct (String.eqb_spec s "o1"); [contradiction|reflexivity].
Qed.
Print Assumptions C62_option.
(** Optimisation never makes an instruction longer, and only changes literals of 0 to 31. *)
Theorem C62_optimised_length : forall op a b,
  (List.length (basic_encoding true op a b) <= List.length (basic_encoding false op a b))%nat /\
  ((forall n, a = Lit n \/ b = Lit n -> known_now n = false \/ 31 < g_value n mod 65536) -> basic_encoding true op a b = basic_encoding false op a b).
Proof.
  intros op a b.
  assert (L : forall f, (List.length (words true f) <= List.length (words false f))%nat).
  { intros []; cbn [words]; try apply le_n. unfold short. cbn [andb]. destruct (known_now n && (g_value n mod 65536 <=? 31)); cbn; lia. }
  split; [unfold basic_encoding; cbn [List.length]; rewrite !app_length; pose proof (L a); pose proof (L b); lia|].
  intro H. assert (E : forall f, (f = a \/ f = b) -> words true f = words false f /\ bits true f = bits false f).
  { intros f Hf. destruct f; try (split; reflexivity). cbn [words bits]. unfold short. cbn [andb].
    replace (known_now n && (g_value n mod 65536 <=? 31)) with false; [split; reflexivity|].
    destruct (H n) as [X|X]; [destruct Hf as [<-|<-]; auto|rewrite X; reflexivity|].
    symmetry. apply andb_false_intro2. apply Z.leb_gt. exact X. }
  destruct (E a (or_introl eq_refl)) as (A1 & A2). destruct (E b (or_intror eq_refl)) as (B1 & B2).
  unfold basic_encoding. rewrite A1, A2, B1, B2. reflexivity.
Qed.
Print Assumptions C62_optimised_length.

(** ** Cases *)
Import ChipProps.
Open Scope list_scope.
Open Scope Z_scope.
Definition started : xstate :=
  match SectModel.run [DSection code 0 plain] (initial 2 false two_groups o_be) with Ok st => st | _ => initial 2 false two_groups o_be end.
Lemma started_ready : exists m, ready2 started 0 m 1000.
Proof.
  eexists. split; [repeat split|]. split.
  - unfold section_fine, m_pc, m_used, m_data, is_u32, max_size. cbn. repeat split; lia.
  - split; [reflexivity|]. unfold m_used, max_size. cbn. lia.
Qed.
Definition plain_arg (a : X65Spec.arg) : arg := Arg a None.
Definition num (v : Z) : arg := plain_arg (X65Props.a_num v).
Definition far : arg := plain_arg X65Props.a_far.
Definition label : arg := plain_arg X65Props.a_label.
Definition assembled (optimize : bool) (l : list piece) : option (list Z * nat * list Z) :=
  match x10c_ParseInstruction exF exWorld optimize (lex l) started with
  | Ok (_, [], st) => match x_sections st with [m] => Some (m_data m, List.length (m_patches m), x_errors st) | _ => None end
  | _ => None
  end.
Definition source (name : string) (a b : form arg) : list piece := Word name :: text a ++ Comma :: text b.
(** "SET A,$30", "SET [$1000],$20", "SUB A,[$1000]", "IFN A,$10" with optimisation, "SET
    PC,label", "SET [$2000+I],[A]", "SET A,[J-1+label]", "ADD PUSH,[X+$FFFF]", "MOD [SP++],imported-4000". *)
Definition exForms : list (bool * string * Z * form arg * form arg) :=
  [(true, "SET", 0x1, Reg RA, Lit (num 0x30)); (false, "SET", 0x1, Mem (num 0x1000), Lit (num 0x20)); (false, "SUB", 0x3, Reg RA, Mem (num 0x1000));
   (true, "IFN", 0xD, Reg RA, Lit (num 0x10)); (true, "SET", 0x1, Special "PC", Lit label); (false, "SET", 0x1, IndexL (num 0x2000) RI, At RA);
   (true, "SET", 0x1, Reg RA, IndexLR (num (-1)) RJ label); (true, "ADD", 0x2, Special "PUSH", Index RX (num 0xFFFF));
   (true, "MOD", 0x6, Special "[SP++]", Lit far)].
Example C62_encoding_case : exists m,
  ready2 started 0 m 6 /\ setting_ok exSetting None /\
  Forall (fun x => let '(o, name, op, a, b) := x in
    numbers_known exSetting a /\ numbers_known exSetting b /\ In (name, op) basic /\ well_named a /\ well_named b /\ fits a /\ fits b /\ faulty o name a b = false) exForms /\
  map (fun x => let '(o, name, op, a, b) := x in assembled o (source name a b)) exForms =
  [Some ([0x7C; 0x01; 0x00; 0x30], 0%nat, []); Some ([0x7D; 0xE1; 0x10; 0x00; 0x00; 0x20], 0%nat, []); Some ([0x78; 0x03; 0x10; 0x00], 0%nat, []);
   Some ([0xC0; 0x0D], 0%nat, []); Some ([0x7D; 0xC1; 0; 0], 1%nat, []); Some ([0x21; 0x61; 0x20; 0x00], 0%nat, []);
   Some ([0x5C; 0x01; 0; 0], 1%nat, []); Some ([0x4D; 0xA2; 0xFF; 0xFF], 0%nat, []); Some ([0x7D; 0x86; 0; 0], 1%nat, [])].
Proof.
  destruct started_ready as (m & HA & HB & HC & HD). exists m. split; [|split; [split; [exact ex_fmath_ok|split; [exact ex_env_ok|exact I]]|]].
  { repeat split; try apply HA; try apply HB; try exact HC. unfold max_size in *. lia. }
  assert (K : forall t v, In (t, v) [(exFar, 1000); (Sym 1, 1004); (Num 0x30, 0x30); (Num 0x20, 0x20); (Num 0x1000, 0x1000); (Num 0x10, 0x10); (Num 0x2000, 0x2000); (Num (-1), -1); (Num 0xFFFF, 0xFFFF)] ->
            operand exSetting None t (built t) v /\ X65Spec.source_term t /\ tdepth t <= 240).
  { intros t v In_. repeat (destruct In_ as [In_|In_]; [injection In_ as <- <-|]); [..|destruct In_]; (split; [|split; [cbn; tauto|cbn; lia]]);
      (split; [reflexivity|split; [cbn; unfold is_s32; try tauto; lia|split]]).
    all: try (intros s H; repeat (destruct H as [<-|H]; [split; [reflexivity|discriminate]|]); destruct H).
    all: split; [cbn; tauto|split; [cbn; tauto|reflexivity]]. }
  split.
  - unfold exForms. repeat (apply Forall_cons; [|]); [..|constructor]; cbv zeta iota beta.
    all: do 2 (split; [intros a Ia; repeat (destruct Ia as [<-|Ia]; [apply K; cbn; tauto|]); destruct Ia|]).
    all: (split; [vm_compute; tauto|]); (split; [vm_compute; tauto|]); (split; [vm_compute; tauto|]).
    all: (split; [vm_compute; try (split; congruence); exact I|]); (split; [vm_compute; try (split; congruence); exact I|]); reflexivity.
  - vm_compute. reflexivity.
Qed.
(** "JSR $1F" with and without optimisation, and "JSR label". *)
Example C62_jsr_case :
  fits (Lit (num 0x1F)) /\ faulty true "JSR" (Lit (num 0x1F)) (Lit (num 0x1F)) = false /\
  assembled true (Word "JSR" :: text (Lit (num 0x1F))) = Some ([0xFC; 0x10], 0%nat, []) /\
  assembled false (Word "JSR" :: text (Lit (num 0x1F))) = Some ([0x7C; 0x10; 0x00; 0x1F], 0%nat, []) /\
  assembled true (Word "JSR" :: text (Lit label)) = Some ([0x7C; 0x10; 0; 0], 1%nat, []).
Proof. vm_compute. repeat split; discriminate. Qed.
(** Two registers, a missing bracket and a missing operand are refused. *)
Example C62_only_case :
  let errors l := match x10c_ParseInstruction exF exWorld true (lex l) started with Ok (_, _, st) => x_errors st | _ => [] end in
  merged [Word "A"; Comma; Lb; Word "B"; Plus; number_text (num 5); Rb] /\
  assembled true [Word "SET"; Word "A"; Comma; Lb; Word "B"; Plus; number_text (num 5); Rb] = Some ([0x44; 0x01; 0x00; 0x05], 0%nat, []) /\
  errors [Word "SET"; Word "A"; Comma; Lb; Word "B"; Plus; Word "C"; Rb] = [MERROR_ADDRMODE_ONE_REGISTER] /\
  errors [Word "SET"; Word "A"; Comma; Lb; Word "B"] = [ERROR_CHAR_EXPECTED] /\
  errors [Word "SET"; Word "A"] = [ERROR_CHAR_EXPECTED] /\ errors [Word "SET"; Word "A"; Comma] = [MERROR_ILLEGAL_ADDRMODE].
Proof. vm_compute. repeat split. Qed.
(** "SET A,[70000]" and "SET [B+70000],1". *)
Example C62_out_of_range_case :
  ~ fits (Mem (num 70000)) /\ ~ fits (Index RB (num 70000)) /\ known_now (num 70000) = true /\
  assembled true (source "SET" (Reg RA) (Mem (num 70000))) = Some ([0x78; 0x01; 0; 0], 0%nat, [ERROR_OPERAND_RANGE]) /\
  assembled true (source "SET" (Index RB (num 70000)) (Lit (num 1))) = Some ([0x85; 0x11; 0; 0], 0%nat, [ERROR_OPERAND_RANGE]).
Proof. split; [cbn; lia|]. split; [cbn; unfold fits16; cbn; lia|]. vm_compute. repeat split. Qed.

(** ** Faults *)
(** [--SP], another name of PUSH, is taken to be PEEK. *)
Theorem C62_push_refuted : well_named (Special "[--SP]") /\ bits true (Special "[--SP]") = bits true (Special "PUSH") /\
  assembled true (source "SET" (Special "PUSH") (Reg RA)) = Some ([0x01; 0xA1], 0%nat, []) /\
  assembled true (source "SET" (Special "[--SP]") (Reg RA)) = Some ([0x01; 0x91], 0%nat, []) /\
  assembled true (source "SET" (Special "PEEK") (Reg RA)) = Some ([0x01; 0x91], 0%nat, []).
Proof. vm_compute. repeat split. tauto. Qed.
Print Assumptions C62_push_refuted.
(** "SET A,$12345" is stored as "SET A,$2345" without a report. *)
Theorem C62_literal_range_refuted : ~ fits (Lit (num 0x12345)) /\ known_now (num 0x12345) = true /\
  assembled false (source "SET" (Reg RA) (Lit (num 0x12345))) = Some ([0x7C; 0x01; 0x23; 0x45], 0%nat, []).
Proof. split; [cbn; unfold fits16; cbn; lia|]. vm_compute. repeat split. Qed.
Print Assumptions C62_literal_range_refuted.
(** An offset cannot be subtracted from a register: whatever the register and the
    number, [r-n] is refused. *)
Theorem C62_subtract_refuted : forall F w optimize r e st,
  x10c_ParseInstruction F w optimize (lex [Word "SET"; Word "A"; Comma; Lb; Word (reg_name r); Minus; Operand e None; Rb]) st =
    Ok (false, [TRb], err_Error MERROR_ILLEGAL_ADDRMODE st).
Proof. intros F w optimize [] e st; reflexivity. Qed.
Print Assumptions C62_subtract_refuted.
(** "SET A,[5+B-7+3]" is stored without a report as "SET A,[2+B]": the first token after
    the minus sign is skipped. *)
Theorem C62_skipped_token_refuted :
  assembled true [Word "SET"; Word "A"; Comma; Lb; number_text (num 5); Plus; Word "B"; Minus; Operand (expr_Const 10) (Some (expr_Const 3)); Rb] =
    assembled true (source "SET" (Reg RA) (IndexL (num 2) RB)) /\
  assembled true (source "SET" (Reg RA) (IndexL (num 2) RB)) = Some ([0x44; 0x01; 0x00; 0x02], 0%nat, []).
Proof. vm_compute. split; reflexivity. Qed.
Print Assumptions C62_skipped_token_refuted.
(** With optimisation, adding or subtracting a known literal of -31 to -1 uses freed
    memory, whatever the rest of the instruction. *)
Theorem C62_negative_literal_refuted : forall S k st m name op a n rest,
  ready2 st k m 6 -> setting_ok S None -> numbers_known S a -> numbers_known S (Lit n) -> In (name, op) [("ADD", 2); ("SUB", 3)] ->
  well_named a -> fits a -> (forall s, a = Special s -> s <> "[--SP]") -> known_now n = true -> -31 <= g_value n <= -1 -> ends rest ->
  x10c_ParseInstruction (s_F S) (s_world S) true (lex (Word name :: text a ++ Comma :: text (Lit n)) ++ rest) st = UB.
Proof.
  intros S k st m name op a n rest R SO Ka Kb Ib Wa Fa Na Kn Rv En.
  assert (Ib2 : In (name, op) basic) by (destruct Ib as [E|[E|[]]]; injection E as <- <-; cbn; tauto).
  destruct (basic_handler _ _ Ib2) as (t & p & Et & Ra & Nt & Pp & Ro).
  assert (El : lex (Word name :: text a ++ Comma :: text (Lit n)) ++ rest = TId t :: lex (text a) ++ TComma :: lex (text (Lit n)) ++ rest).
  { unfold lex. cbn [map]. rewrite Et, map_app. cbn [map lex1 app]. rewrite <- app_assoc. reflexivity. }
  rewrite El. unfold x10c_ParseInstruction. rewrite Ra, Nt.
  destruct (addressed S true a (TComma :: lex (text (Lit n)) ++ rest) st SO Ka Fa Wa Na I) as (m1 & E1 & M1). rewrite E1. cbn [bind].
  change (negb (ADDRF_ALL =? 0)) with true. cbn [parse_ExpectComma].
  destruct (addressed S true (Lit n) rest st SO Kb) as (m2 & E2 & M2 & _ & L2); [cbn; unfold fits16; lia|exact I|intros s X; discriminate X|exact (ends_over _ En)|].
  rewrite E2. cbn [bind].
  assert (Mv : g_value n mod 65536 = g_value n + 65536) by (symmetry; apply (Z.mod_unique _ _ (-1)); lia).
  assert (Sh : short true n = false) by (unfold short; rewrite Kn, Mv; cbn [andb]; lia).
  cbn [bits] in M2. rewrite Sh in M2. specialize (L2 n eq_refl Sh). destruct m2 as [mo ad]. cbn [am_mode am_addr] in *. subst mo ad.
  destruct (Kb n (or_introl eq_refl)) as (O & _). destruct (operand_facts _ _ _ _ _ SO O) as (_ & Co & _).
  assert (Run : forall other, addSubInstr true m1 (AMode 31 (Addr (g_expr n))) op other st = UB).
  { intro other. unfold addSubInstr. cbn [am_mode am_addr isConst addrValue]. unfold known_now in Kn. rewrite Kn, (Co Kn).
    replace (true && (31 =? ADDR_LITERAL) && true && (Z.land (u32 (g_value n)) 0xFFFF >=? 0xFFE1)) with true.
    2:{ cbn [andb]. change (31 =? ADDR_LITERAL) with true. cbn [andb]. unfold u32. change 0xFFFF with (Z.ones 16). rewrite Z.land_ones by lia. change (2 ^ 16) with 65536.
        rewrite <- (Znumtheory.Zmod_div_mod 65536 (2 ^ 32) (g_value n)) by first [lia | exists 65536; reflexivity]. lia. }
    unfold genericInstr. cbn [am_mode am_addr].
    match goal with |- context [sect_OutputConst16 ?v st] => destruct (const_out S v k st m (ready2_less _ _ _ _ 2 R ltac:(lia))) as (st1 & Es & Em); rewrite Es; cbn [bind];
      destruct (appended_ready S k st st1 m [code_cell v] 4 R Em) as (q1 & Q1) end.
    destruct (addr_out S _ _ k st1 q1 SO (proj1 (proj2 M1)) (ready2_less st1 k q1 4 2 Q1 ltac:(lia))) as (st2 & Ea & _). rewrite Ea. reflexivity. }
  destruct Ib as [E|[E|[]]]; injection E as <- <-; destruct Pp as [->|[(-> & X & _)|(-> & X & _)]]; try discriminate X; cbn [run].
  - exfalso. vm_compute in Et. injection Et as <-. discriminate Nt.
  - rewrite Run. reflexivity.
  - exfalso. vm_compute in Et. injection Et as <-. discriminate Nt.
  - rewrite Run. reflexivity.
Qed.
Print Assumptions C62_negative_literal_refuted.
Example C62_negative_literal_case :
  x10c_ParseInstruction exF exWorld true (lex (source "ADD" (Reg RA) (Lit (num (-1))))) started = UB /\
  assembled false (source "ADD" (Reg RA) (Lit (num (-1)))) = Some ([0x7C; 0x02; 0xFF; 0xFF], 0%nat, []).
Proof. vm_compute. split; reflexivity. Qed.
(** [r+0] keeps its offset word with optimisation on, though [r] is shorter. *)
Theorem C62_zero_offset_refuted :
  assembled true (source "SET" (Reg RA) (Index RB (num 0))) = Some ([0x44; 0x01; 0; 0], 0%nat, []) /\
  assembled true (source "SET" (Reg RA) (At RB)) = Some ([0x24; 0x01], 0%nat, []).
Proof. vm_compute. split; reflexivity. Qed.
Print Assumptions C62_zero_offset_refuted.
