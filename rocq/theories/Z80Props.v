(** C58: Z80 and Game Boy instructions are encoded as the manuals say. *)
From Coq Require Import ZArith List Bool Lia ZifyBool String.
From Verif Require Import Base BaseFacts Arith ExprSpec ExprModel ExprLayout ExprProps ObjWriteModel OptModel SectModel SectSpec SectErrors
  SectProps InstrSpec InstrProofs.
From Verif Require X65Spec X65Props ChipProps.
From Verif Require Import Z80Model Z80Spec Z80Check Z80Run Z80Parse Z80Only Z80Range.
Import ListNotations.
Open Scope string_scope.
Open Scope list_scope.
Open Scope Z_scope.
Notation emits_seq := X65Spec.emits_seq.

(** Every instruction of the selected processor that the options enable, with operands
    in range, known or not, is accepted.  What is appended to the current section is
    the code of the manual, with every operand having the value it has in the final
    program; what follows the instruction is left alone.  [junk1] and [junk2] are what
    the operand structures happen to hold before.
    Missing: what [faulty] lists; see the faults below. *)
Theorem C58_encoding_partial : forall S k st m g u s r (ops : list (opnd (bool * arg))) rest junk1 junk2,
  ready st k m 8 -> setting_ok S (here m) -> args_known S (here m) ops -> Forall (signed_well fst) ops ->
  In r table -> enabled g u s r = true -> faulty r = false ->
  map pattern_of ops = r_pats r -> holds ops (r_cond r) -> in_range ops (e_pc (s_env S)) (r_code r) -> ends rest ->
  exists st', z80_ParseInstruction (s_F S) (options_of g u s) junk1 junk2
      (lex (Word (r_name r) :: text (map (omap (fun a => (fst a, g_expr (snd a)))) ops)) ++ rest) st = Ok (true, rest, st') /\
    emits_seq S k st st' (stored ops (e_pc (s_env S)) (r_code r)).
Proof. intros. eapply encoded; eassumption. Qed.
Print Assumptions C58_encoding_partial.

(** Whatever is accepted without a report is a mnemonic with operands as the
    instruction set has them for the selected processor and options, with the first
    operand left out where it is A, or one of the instructions that [mistaken] lists. *)
Theorem C58_only_the_manual : forall F g u s junk1 junk2 pieces st ts st', bare (lex pieces) ->
  z80_ParseInstruction F (options_of g u s) junk1 junk2 (lex pieces) st = Ok (true, ts, st') -> x_errors st' = x_errors st ->
  exists name rest (l : list (opnd source)),
    pieces = Word name :: rest /\ lex rest = lex (text l) ++ ts /\ Forall (signed_well fst) l /\
    (described g u s name l \/ (may_omit name = true /\ exists p, l = [p] /\ described g u s name [OReg false A; p]) \/
     mistaken g name (map pattern_of l) = true).
Proof. exact only_these. Qed.
Print Assumptions C58_only_the_manual.

(** A constant operand that does not fit is reported.  Distances are not meant here,
    nor is ADD SP,n. *)
Theorem C58_out_of_range : forall S cur st g u s r (ops : list (opnd (bool * arg))) rest junk1 junk2 b ts st',
  setting_ok S cur -> args_known S cur ops -> Forall (signed_well fst) ops ->
  (forall p a, In p ops -> In a (carried p) -> expr_IsConstant (g_expr (snd a)) = true) ->
  In r table -> enabled g u s r = true -> faulty r = false -> adds_sp r = false ->
  map pattern_of ops = r_pats r -> holds ops (r_cond r) -> ~ Forall (fits_now ops) (r_code r) -> ends rest ->
  z80_ParseInstruction (s_F S) (options_of g u s) junk1 junk2
      (lex (Word (r_name r) :: text (map (omap (fun a => (fst a, g_expr (snd a)))) ops)) ++ rest) st = Ok (b, ts, st') ->
  x_errors st' <> x_errors st.
Proof. intros. eapply (reported S cur); eassumption. Qed.
Print Assumptions C58_out_of_range.

(** Options given on the command line or in the source: the last one of a kind counts.
    [99; 103] is "cg". *)
Definition given (l : list (list Z)) (o : mopts) : mopts := fold_left (fun o s => snd (z80_ParseOption s o)) l o.
Definition kind_of (k : Z) (s : list Z) : bool := match s with [k'; _] => k =? k' | _ => false end.
Lemma given_keeps : forall l o, (existsb (kind_of 99) l = false -> o_cpu (given l o) = o_cpu o) /\
  (existsb (kind_of 115) l = false -> o_synthesized (given l o) = o_synthesized o) /\
  (existsb (kind_of 117) l = false -> o_undocumented (given l o) = o_undocumented o).
Proof.
  induction l as [|s l IH]; intro o; [repeat split|]. unfold given. cbn [fold_left existsb]. fold (given l (snd (z80_ParseOption s o))).
  destruct (IH (snd (z80_ParseOption s o))) as (H1 & H2 & H3).
  assert (K : (kind_of 99 s = false -> o_cpu (snd (z80_ParseOption s o)) = o_cpu o) /\
    (kind_of 115 s = false -> o_synthesized (snd (z80_ParseOption s o)) = o_synthesized o) /\
    (kind_of 117 s = false -> o_undocumented (snd (z80_ParseOption s o)) = o_undocumented o)).
  { clear. unfold z80_ParseOption, kind_of.
    repeat match goal with |- context [match ?x with _ => _ end] => is_var x; destruct x end;
      cbn; repeat split; intros; reflexivity || discriminate. }
  destruct K as (K1 & K2 & K3).
  split; [|split]; intro W; apply orb_false_iff in W; destruct W as (W1 & W2); [rewrite H1, K1|rewrite H2, K2|rewrite H3, K3]; auto.
Qed.
Theorem C58_options : forall allocated l1 l2,
  let after s := given (l1 ++ [s] ++ l2) (z80_SetDefaultOptions allocated) in
  (existsb (kind_of 99) l2 = false -> o_cpu (after [99; 103]) = o_cpu (options_of true false false) /\
                                      o_cpu (after [99; 122]) = o_cpu (options_of false false false)) /\
  (existsb (kind_of 115) l2 = false -> forall x, o_synthesized (after [115; x]) = (x =? 49)) /\
  (existsb (kind_of 117) l2 = false -> forall x, o_undocumented (after [117; x]) = (x =? 49)) /\
  (existsb (kind_of 99) l2 = false -> o_cpu (given l2 (z80_SetDefaultOptions allocated)) = o_cpu (options_of false false false)) /\
  (existsb (kind_of 115) l2 = false -> o_synthesized (given l2 (z80_SetDefaultOptions allocated)) = false).
Proof.
  intros allocated l1 l2. cbv zeta. unfold given.
  assert (Sp : forall s, fold_left (fun o s => snd (z80_ParseOption s o)) (l1 ++ [s] ++ l2) (z80_SetDefaultOptions allocated) =
    given l2 (snd (z80_ParseOption s (given l1 (z80_SetDefaultOptions allocated))))) by (intro s; rewrite !fold_left_app; reflexivity).
  rewrite !Sp. fold (given l2 (z80_SetDefaultOptions allocated)).
  split; [intro W; rewrite !(proj1 (given_keeps l2 _) W); split; reflexivity|].
  split; [intros W x; rewrite Sp, (proj1 (proj2 (given_keeps l2 _)) W); reflexivity|].
  split; [intros W x; rewrite Sp, (proj2 (proj2 (given_keeps l2 _)) W); reflexivity|].
  split; [intro W; rewrite (proj1 (given_keeps l2 _) W); reflexivity|intro W; rewrite (proj1 (proj2 (given_keeps l2 _)) W); reflexivity].
Qed.
Print Assumptions C58_options.
Example C58_options_case : given [[99; 103]; [115; 49]; [99]; [117; 49]; [117; 48]] (z80_SetDefaultOptions (MOpts 0 false true)) = options_of true false true.
Proof. reflexivity. Qed.
(** Whether undocumented instructions are enabled when no option says so depends on
    what was in the memory of the options. *)
Theorem C58_undocumented_default_refuted :
  exists a b, o_undocumented (z80_SetDefaultOptions a) <> o_undocumented (z80_SetDefaultOptions b).
Proof. exists (MOpts 0 false true), (MOpts 0 false false). discriminate. Qed.
Print Assumptions C58_undocumented_default_refuted.

(** ** Cases *)
Import ChipProps.
Notation begun := X65Props.begun.
Definition junk : amode expr := AMode 0 XNull 0 0 0 0 0 0 0.
Definition assembled_with (junk1 junk2 : amode expr) (g u s : bool) (l : list piece) : option (list Z * nat * list Z) :=
  match z80_ParseInstruction exF (options_of g u s) junk1 junk2 (lex l) begun with
  | Ok (true, [], st) => match x_sections st with [m] => Some (m_data m, List.length (m_patches m), x_errors st) | _ => None end
  | _ => None
  end.
Definition assembled := assembled_with junk junk.
Definition num_ (v : Z) : bool * arg := (false, X65Props.a_num v).
Definition off (v : Z) : bool * arg := (true, X65Props.a_num v).
Definition far : bool * arg := (false, X65Props.a_far).
Definition label : bool * arg := (false, X65Props.a_label).
Definition row_of (name : string) (ps : list pat) : row :=
  match find (fun r => String.eqb (r_name r) name && pats_eqb ps (r_pats r)) table with Some r => r | None => Row "" [] ForBoth false false Always [] end.
Lemma row_in : forall name ps, r_name (row_of name ps) = name -> name <> "" -> In (row_of name ps) table.
Proof.
  intros name ps N E. unfold row_of in *. destruct (find _ table) as [r|] eqn:F; [exact (proj1 (find_some _ _ F))|]. cbn in N. congruence.
Qed.
(** "LD (IX+5),200", "JP NZ,imported-4000", "DJNZ label" and, synthesized, "LD BC,(IX-3)". *)
Example C58_encoding_case : exists m,
  ready begun 0 m 8 /\ setting_ok exSetting (here m) /\
  Forall (fun x => let '(name, ops, u, s) := x in let r := row_of name (map pattern_of ops) in
    args_known exSetting (here m) ops /\ Forall (signed_well fst) ops /\ In r table /\ enabled false u s r = true /\ faulty r = false /\
    map pattern_of ops = r_pats r /\ holds ops (r_cond r) /\ in_range ops 1006 (r_code r))
    [("LD", [OIndexD false X (off 5); OImm (num_ 200)], false, false); ("JP", [OReg false NZ; OImm far], false, false);
     ("DJNZ", [OImm label], false, false); ("LD", [OReg false BC; OIndexD true Y (off (-3))], false, true)] /\
  assembled false false false [Word "LD"; Lp; Word "IX"; Signed (expr_Const 5); Rp; Comma; Operand (expr_Const 200)] = Some ([0xDD; 0x36; 5; 200], 0%nat, []) /\
  assembled false false false [Word "JP"; Word "NZ"; Comma; Operand (built exFar)] = Some ([0xC2; 0; 0], 1%nat, []) /\
  assembled false false false [Word "DJNZ"; Operand (built (Sym 1))] = Some ([0x10; 0], 1%nat, []) /\
  assembled false false true [Word "LD"; Word "BC"; Comma; Lb; Word "IY"; Signed (expr_Const (-3)); Rb] =
    Some ([0xFD; 0x4E; 0xFD; 0xFD; 0x46; 0xFE], 0%nat, []) /\
  assembled true false false [Word "LD"; Word "A"; Comma; Lp; Operand (expr_Const 0xFF44); Rp] = Some ([0xF0; 0x44], 0%nat, []).
Proof.
  destruct X65Props.begun_ready as (m & (HA & HB & HC & HD) & HE). exists m. split; [|split; [exact HE|]].
  { repeat split; try apply HA; try apply HB; try exact HC. unfold max_size in *. lia. }
  assert (K : forall t v, In (t, v) [(exFar, 1000); (Sym 1, 1004); (Num 5, 5); (Num 200, 200); (Num (-3), -3)] ->
            operand exSetting (here m) t (built t) v /\ X65Spec.source_term t /\ ~ paren_head t /\ tdepth t <= 240).
  { intros t v In_. repeat (destruct In_ as [In_|In_]; [injection In_ as <- <-|]); [..|destruct In_]; (split; [|split; [cbn; tauto|split; [cbn; tauto|cbn; lia]]]);
      (split; [reflexivity|split; [cbn; unfold is_s32; try tauto; lia|split]]).
    all: try (intros s H; repeat (destruct H as [<-|H]; [split; [reflexivity|discriminate]|]); destruct H).
    all: split; [cbn; tauto|split; [cbn; tauto|reflexivity]]. }
  split.
  - repeat (apply Forall_cons; [|]); [..|constructor]; cbv zeta iota beta.
    all: (split; [intros p a Ip Ia; repeat (destruct Ip as [<-|Ip]; [repeat (destruct Ia as [<-|Ia]; [apply K; cbn; tauto|]); destruct Ia|]); destruct Ip|]).
    all: (split; [repeat constructor|]); (split; [apply row_in; [vm_compute; reflexivity|discriminate]|]).
    all: (split; [vm_compute; reflexivity|]); (split; [vm_compute; reflexivity|]); (split; [vm_compute; reflexivity|]).
    all: split; [vm_compute; repeat split|vm_compute; repeat split; intro; discriminate].
  - vm_compute. repeat split.
Qed.
(** "LD A,(HL+)" is an instruction of the Game Boy only; "INC (IX+1)" one of the Z80;
    "RST 9" is none. *)
Example C58_only_case :
  described true false false "LD" [OReg false A; OReg true HLinc] /\ bare (lex [Word "LD"; Word "A"; Comma; Word "[HL+]"]) /\
  assembled true false false [Word "LD"; Word "A"; Comma; Word "[HL+]"] = Some ([0x2A], 0%nat, []) /\
  assembled false false false [Word "LD"; Word "A"; Comma; Word "[HL+]"] = Some ([], 0%nat, [MERROR_INSTRUCTION_NOT_SUPPORTED_BY_CPU]) /\
  assembled false false false [Word "INC"; Lp; Word "IX"; Signed (expr_Const 1); Rp] = Some ([0xDD; 0x34; 1], 0%nat, []) /\
  assembled false false false [Word "RST"; Operand (expr_Const 8)] = Some ([0xCF], 0%nat, []) /\
  assembled false false false [Word "RST"; Operand (expr_Const 9)] = Some ([], 0%nat, [ERROR_OPERAND_RANGE]).
Proof.
  split; [apply (found_row _ _ _ _ _ Always); [vm_compute; reflexivity|exact Logic.I]|]. split; [exact Logic.I|].
  vm_compute. repeat split.
Qed.
(** "LD B,256", "LD A,(IX+128)" and "BIT 8,C". *)
Example C58_out_of_range_case :
  ~ Forall (fits_now [OReg false B; OImm (num_ 256)]) (r_code (row_of "LD" [Reg B; Imm])) /\
  adds_sp (row_of "LD" [Reg B; Imm]) = false /\ holds [OReg false B; OImm (num_ 256)] (r_cond (row_of "LD" [Reg B; Imm])) /\
  assembled false false false [Word "LD"; Word "B"; Comma; Operand (expr_Const 256)] = Some ([0x06; 0], 0%nat, [ERROR_OPERAND_RANGE]) /\
  assembled false false false [Word "LD"; Word "A"; Comma; Lp; Word "IX"; Signed (expr_Const 128); Rp] = Some ([0xDD; 0x7E; 0], 0%nat, [ERROR_OPERAND_RANGE]) /\
  assembled false false false [Word "BIT"; Operand (expr_Const 8); Comma; Word "C"] = Some ([0xCB; 0x41], 0%nat, [ERROR_OPERAND_RANGE]).
Proof.
  split; [|vm_compute; repeat split]. intro H. change (r_code (row_of "LD" [Reg B; Imm])) with [Byte 0x06; N 1] in H.
  inversion H as [|x y H1 H2]. subst. inversion H2 as [|x y H3 H4]. subst. cbn in H3. lia.
Qed.

(** ** Faults *)
(** "RLC (IX)" stores what the operand structure held before as the register number,
    so that it may be the undocumented instruction that also changes B. *)
Theorem C58_index_rotate_refuted : exists junk1,
  r_code (row_of "RLC" [Index X]) = [Byte 0xDD; Byte 0xCB; Byte 0; Byte 0x06] /\
  assembled_with junk1 junk false false false [Word "RLC"; Lp; Word "IX"; Rp] = Some ([0xDD; 0xCB; 0; 0x00], 0%nat, []).
Proof. exists junk. vm_compute. split; reflexivity. Qed.
Print Assumptions C58_index_rotate_refuted.
(** "DEC IXH" is refused though undocumented instructions are enabled and "INC IXH" is
    not refused. *)
Theorem C58_dec_half_refuted : enabled false true false (row_of "DEC" [Reg IXH]) = true /\
  r_code (row_of "DEC" [Reg IXH]) = [Byte 0xDD; Byte 0x25] /\
  match z80_ParseInstruction exF (options_of false true false) junk junk (lex [Word "DEC"; Word "IXH"]) begun with
  | Ok (_, _, st) => x_errors st <> [] | _ => False end /\
  assembled false true false [Word "INC"; Word "IXH"] = Some ([0xDD; 0x24], 0%nat, []).
Proof. vm_compute. repeat split. discriminate. Qed.
Print Assumptions C58_dec_half_refuted.
(** The Game Boy has no index registers, and yet shifts and INC and DEC of them are
    accepted. *)
Theorem C58_game_boy_index_refuted : (forall x l, ~ described true false false "INC" [OIndexD false x l]) /\
  assembled true false false [Word "INC"; Lp; Word "IX"; Signed (expr_Const 1); Rp] = Some ([0xDD; 0x34; 1], 0%nat, []) /\
  assembled true false false [Word "SLA"; Lp; Word "IY"; Signed (expr_Const 1); Rp] = Some ([0xFD; 0xCB; 1; 0x26], 0%nat, []).
Proof.
  split; [|vm_compute; repeat split]. intros x l (r & Ir & N & En & Ep & _). cbn [map pattern_of] in Ep.
  assert (W : forallb (fun r => negb (String.eqb (r_name r) "INC" && enabled true false false r &&
    match r_pats r with [IndexD _] => true | _ => false end)) table = true) by (vm_compute; reflexivity).
  pose proof (proj1 (forallb_forall _ _) W r Ir) as Q. cbv beta in Q. rewrite N, En, Ep in Q. discriminate Q.
Qed.
Print Assumptions C58_game_boy_index_refuted.
(** "LD H,IXL" becomes LD IXH,IXL, "LD IXH,L" the same, "LD IXH,(HL)" a load of H from
    memory at IX plus the next byte of the program, and "LD (IX+1),(HL)" HALT. *)
Theorem C58_mixed_halves_refuted :
  (forall l, map pattern_of l = [Reg H; Reg IXL] \/ map pattern_of l = [Reg IXH; Reg L] \/ map pattern_of l = [Reg IXH; Reg HLi] \/
     map pattern_of l = [IndexD X; Reg HLi] -> forall g u s, ~ described g u s "LD" l) /\
  r_code (row_of "LD" [Reg IXH; Reg IXL]) = [Byte 0xDD; Byte 0x65] /\
  assembled false true false [Word "LD"; Word "H"; Comma; Word "IXL"] = Some ([0xDD; 0x65], 0%nat, []) /\
  assembled false true false [Word "LD"; Word "IXH"; Comma; Word "L"] = Some ([0xDD; 0x65], 0%nat, []) /\
  r_code (row_of "LD" [Reg H; IndexD X]) = [Byte 0xDD; Byte 0x66; Disp 1] /\
  assembled false true false [Word "LD"; Word "IXH"; Comma; Word "(HL)"] = Some ([0xDD; 0x66], 0%nat, []) /\
  r_code (row_of "HALT" []) = [Byte 0x76] /\
  assembled false false false [Word "LD"; Lp; Word "IX"; Signed (expr_Const 1); Rp; Comma; Word "(HL)"] = Some ([0xDD; 0x76; 1], 0%nat, []).
Proof.
  split; [|vm_compute; repeat split]. intros l P g u s (r & Ir & N & En & Ep & _).
  assert (W : forallb (fun r => negb (String.eqb (r_name r) "LD" && existsb (fun ps => pats_eqb ps (r_pats r))
    [[Reg H; Reg IXL]; [Reg IXH; Reg L]; [Reg IXH; Reg HLi]; [IndexD X; Reg HLi]])) table = true) by (vm_compute; reflexivity).
  pose proof (proj1 (forallb_forall _ _) W r Ir) as Q. cbv beta in Q. rewrite N, Ep in Q. destruct P as [P|[P|[P|P]]]; rewrite P in Q; discriminate Q.
Qed.
Print Assumptions C58_mixed_halves_refuted.
(** "SLA SP", which there is not, is stored as CB FF, which is SET 7,A. *)
Theorem C58_shift_sp_refuted : forall g u s, (forall s l, map pattern_of l = [Reg SP] -> ~ described g u s "SLA" l) /\
  r_code (row_of "SET" [Imm; Reg A]) = [Byte 0xCB; Bit 0xC7 0] /\
  assembled g u s [Word "SLA"; Word "SP"] = Some ([0xCB; 0xFF], 0%nat, []).
Proof.
  intros g u s0. split; [|destruct g, u, s0; vm_compute; split; reflexivity]. intros s l P (r & Ir & N & En & Ep & _).
  assert (W : forallb (fun r => negb (String.eqb (r_name r) "SLA" && pats_eqb [Reg SP] (r_pats r))) table = true) by (vm_compute; reflexivity).
  pose proof (proj1 (forallb_forall _ _) W r Ir) as Q. cbv beta in Q. rewrite N, Ep, P in Q. discriminate Q.
Qed.
Print Assumptions C58_shift_sp_refuted.
(** "IN A,(BC)" becomes IN A,(C), and "OUT (BC),n" is stored with what the operand
    structure held before as the register. *)
Theorem C58_port_bc_refuted : exists junk2,
  assembled false false false [Word "IN"; Word "A"; Comma; Word "(BC)"] = Some ([0xED; 0x78], 0%nat, []) /\
  assembled_with junk junk2 false false false [Word "OUT"; Word "(BC)"; Comma; Operand (expr_Const 5)] = Some ([0xED; 0x41], 0%nat, []).
Proof. exists junk. vm_compute. split; reflexivity. Qed.
Print Assumptions C58_port_bc_refuted.
(** "ADD SP,200" on the Game Boy is stored without a report, and subtracts 56. *)
Theorem C58_add_sp_refuted : r_code (row_of "ADD" [Reg SP; Imm]) = [Byte 0xE8; Disp 1] /\
  ~ fits_now [OReg false SP; OImm (num_ 200)] (Disp 1) /\
  assembled true false false [Word "ADD"; Word "SP"; Comma; Operand (expr_Const 200)] = Some ([0xE8; 200], 0%nat, []).
Proof. split; [reflexivity|]. split; [|vm_compute; reflexivity]. cbn. lia. Qed.
Print Assumptions C58_add_sp_refuted.
(** "IN A" ends the assembler. *)
Theorem C58_in_a_refuted : forall u s, z80_ParseInstruction exF (options_of false u s) junk junk (lex [Word "IN"; Word "A"]) begun = Err.
Proof. intros [] []; vm_compute; reflexivity. Qed.
Print Assumptions C58_in_a_refuted.
