(** C61: 6809 instructions are encoded as the programming manual says. *)
From Coq Require Import ZArith List Bool Lia ZifyBool String.
From Verif Require Import Base BaseFacts Arith ExprSpec ExprModel ExprLayout ExprProps ObjWriteModel OptModel SectModel SectSpec SectErrors
  SectProps InstrSpec InstrProofs.
From Verif Require X65Spec X65Props ChipProps.
From Verif Require Import M6809Model M6809Spec M6809Proofs M6809Range M6809Only.
Import ListNotations.
Open Scope string_scope.
Open Scope list_scope.
Open Scope Z_scope.
Notation emits_seq := X65Spec.emits_seq.

(** Every instruction of the manual with an operand that fits, known or not, is read up
    to the end of the line.  What is appended to the current section is the code of the
    manual for the addressing mode of the operand, with every number having the value it
    has in the final program.  [p] is what SETDP has told of the direct page, [junk]
    what the operand structure happens to hold before.  The first result, which the
    parser of a line only uses to decide whether it goes on, is not fixed.
    Missing: what [faulty] lists; see the faults below. *)
Theorem C61_encoding_partial : forall S k st m p name cols c code f rest junk,
  ready st k m 8 -> setting_ok S (here m) -> numbers_known S (here m) f c ->
  In (name, cols) table -> In (c, code) cols -> belongs p f c = true -> faulty name f = false ->
  operand_fits f c (e_pc (s_env S) + zlen code) -> ends rest ->
  exists b st', m6809_ParseInstruction (s_F S) (page_base p) junk (lex (Word name :: text (form_map g_expr f)) ++ rest) st =
      Ok (b, page_base p, rest, st') /\
    emits_seq S k st st' (encoding f c code (e_pc (s_env S))).
Proof. exact encoded. Qed.
Print Assumptions C61_encoding_partial.

(** Whatever is read without a report is a mnemonic of the manual with an operand it
    may have, or with one of those that [odd] lists. *)
Theorem C61_only_the_manual : forall F dp junk name pieces st b dp' ts st',
  m6809_ParseInstruction F dp junk (lex (Word name :: pieces)) st = Ok (b, dp', ts, st') -> x_errors st' = x_errors st ->
  ts <> lex (Word name :: pieces) -> ~ In (Word "SETDP") (Word name :: pieces) ->
  (exists (f : form arg) c cols code, In (name, cols) table /\ In (c, code) cols /\ belongs None f c = true /\
     lex pieces = lex (text (form_map g_expr f)) ++ ts) \/
  (exists o, odd name o /\ lex pieces = lex o ++ ts).
Proof.
  intros F dp junk name pieces st b dp' ts st' H Q Nt Ns.
  destruct (only_these _ _ _ _ _ _ _ _ _ _ H Q Ns) as (_ & [E|[(f & c & B0 & (cols & code & It & Ic) & E)|C]]); [congruence|left|right; exact C].
  exists f, c, cols, code. auto.
Qed.
Print Assumptions C61_only_the_manual.

(** A known operand that does not fit is reported; [beyond] says of which operands this
    is meant. *)
Theorem C61_out_of_range : forall S cur st p name cols c code f rest junk b dp ts st',
  setting_ok S cur -> numbers_known S cur f c -> (forall n rel, In (n, rel) (numbers f c) -> known_now n = true) ->
  In (name, cols) table -> In (c, code) cols -> belongs p f c = true -> name <> "LSRA" -> name <> "LSRB" ->
  beyond f c -> ends rest ->
  m6809_ParseInstruction (s_F S) (page_base p) junk (lex (Word name :: text (form_map g_expr f)) ++ rest) st = Ok (b, dp, ts, st') ->
  x_errors st' <> x_errors st.
Proof. exact reported. Qed.
Print Assumptions C61_out_of_range.

(** SETDP n tells the direct page, SETDP alone makes it unknown, and a number that is no
    page or not known is reported and changes nothing.  Nothing else changes it. *)
Theorem C61_setdp : forall F dp junk st rest,
  (forall v e, Z80Range.is_num e v -> isNull e = false ->
     (0 <= v <= 255 -> m6809_ParseInstruction F dp junk (lex [Word "SETDP"; Operand e] ++ rest) st = Ok (true, page_base (Some v), rest, st)) /\
     (~ 0 <= v <= 255 -> exists st', m6809_ParseInstruction F dp junk (lex [Word "SETDP"; Operand e] ++ rest) st = Ok (false, dp, rest, st') /\
        x_errors st' <> x_errors st)) /\
  (forall e, expr_IsConstant e = false -> isNull e = false ->
     exists st', m6809_ParseInstruction F dp junk (lex [Word "SETDP"; Operand e] ++ rest) st = Ok (false, dp, rest, st') /\ x_errors st' <> x_errors st) /\
  (ends rest -> m6809_ParseInstruction F dp junk (lex [Word "SETDP"] ++ rest) st = Ok (true, page_base None, rest, st)) /\
  (forall name pieces st0 b dp' ts st', ~ In (Word "SETDP") (Word name :: pieces) -> x_errors st' = x_errors st0 ->
     m6809_ParseInstruction F dp junk (lex (Word name :: pieces)) st0 = Ok (b, dp', ts, st') -> dp' = dp).
Proof.
  intros F dp junk st rest.
  assert (Er : forall n, x_errors (err_Error n st) <> x_errors st).
  { intros n E. exact (X65Only.loud _ _ _ (more_refl st) E). }
  assert (Go : forall e, isNull e = false -> m6809_ParseInstruction F dp junk (lex [Word "SETDP"; Operand e] ++ rest) st =
    Ok (if expr_IsConstant e then if (0 <=? e_v e) && (e_v e <=? 0xFF) then (true, Some (Z.shiftl (e_v e) 8), rest, st)
          else (false, dp, rest, err_Error ERROR_OPERAND_RANGE st) else (false, dp, rest, err_Error ERROR_EXPR_CONST st))).
  { intros e N. change (lex [Word "SETDP"; Operand e] ++ rest) with (TId T_6809_SETDP :: TExpr e :: rest).
    unfold m6809_ParseInstruction. cbn [m6809_ParseIntegerInstruction]. change ((T_6809_ABX <=? T_6809_SETDP) && (T_6809_SETDP <=? T_6809_NOP)) with false.
    cbn [bind m6809_ParseDirective parse_Expression]. rewrite N. change (T_6809_SETDP =? T_6809_SETDP) with true. reflexivity. }
  split; [|split; [|split]].
  - intros v e (C & V) N. rewrite (Go e N), C, V. split; intro B0.
    + replace ((0 <=? v) && (v <=? 0xFF)) with true by lia. cbn [page_base option_map]. rewrite Z.shiftl_mul_pow2 by lia. change (2 ^ 8) with 256. rewrite Z.mul_comm. reflexivity.
    + replace ((0 <=? v) && (v <=? 0xFF)) with false by lia. eexists. split; [reflexivity|]. apply Er.
  - intros e C N. rewrite (Go e N), C. eexists. split; [reflexivity|]. apply Er.
  - intro En. unfold m6809_ParseInstruction. destruct rest as [|[] rest]; try destruct En; reflexivity.
  - intros name pieces st0 b dp' ts st' Ns Q H.
    exact (proj1 (only_these _ _ _ _ _ _ _ _ _ _ H Q Ns)).
Qed.
Print Assumptions C61_setdp.
(** An operand that is taken to be in direct page [p] is at 256 p plus the byte that is
    stored. *)
Theorem C61_direct_page : forall p n pc, 0 <= p <= 255 -> belongs (Some p) (Address n) Dir = true ->
  exists t b, operand_cells (Address n) Dir pc = [(1%nat, t, b)] /\ 0 <= b <= 255 /\ 256 * p + b = g_value n mod 65536.
Proof.
  intros p n pc Rp B0. cbn [belongs in_page] in B0. apply andb_prop in B0. destruct B0 as (_ & B0). apply Z.eqb_eq in B0.
  exists (g_term n), (g_value n mod 256). split; [reflexivity|]. pose proof (Z.mod_pos_bound (g_value n) 256 ltac:(lia)). split; [lia|].
  change 65536 with (256 * 256). rewrite (Z.rem_mul_r (g_value n) 256 256) by lia. lia.
Qed.
Print Assumptions C61_direct_page.

(** ** Cases *)
Import ChipProps.
Notation begun := started.
Notation a_num := X65Props.a_num.
Definition exJunk : amode := AMode 0 0 (expr_Const 0).
Definition assembled_with (junk : amode) (dp : option Z) (l : list piece) : option (list Z * nat * list Z) :=
  match m6809_ParseInstruction exF (page_base dp) junk (lex l) begun with
  | Ok (_, _, [], st) => match x_sections st with [m] => Some (m_data m, List.length (m_patches m), x_errors st) | _ => None end
  | _ => None
  end.
Definition assembled := assembled_with exJunk.
Definition number (v : Z) : piece := Operand (expr_Const v).
Definition listed_in (name : string) (c : column) (code : list Z) : Prop := exists cols, In (name, cols) table /\ In (c, code) cols.
Definition code_of (name : string) : list (column * list Z) :=
  match find (fun r => String.eqb (fst r) name) table with Some r => snd r | None => [] end.
Lemma listed_by : forall name c code, existsb (fun x => String.eqb name (fst x)) table = true -> In (c, code) (code_of name) -> listed_in name c code.
Proof.
  intros name c code _ I. unfold code_of in I. destruct (find (fun r => String.eqb (fst r) name) table) as [[n cols]|] eqn:F; [|destruct I].
  destruct (find_some _ _ F) as (It & E). cbn [fst snd] in *. apply String.eqb_eq in E. subst n. exists cols. split; assumption.
Qed.
(** "LDA $1520" with and without "SETDP $15", "LDX #imported-4000", "BNE label",
    "STD [-200,X]", "CMPY 7,U", "LEAX <label,PCR", "PSHS A,CCR,PCR", "TFR A,DPR". *)
Definition exForms : list (option Z * string * form arg * column * list Z) :=
  [(Some 0x15, "LDA", Address (a_num 0x1520), Dir, [0x96]); (None, "LDA", Address (a_num 0x1520), Ext, [0xB6]);
   (None, "LDX", Immediate X65Props.a_far, Imm16, [0x8E]); (None, "BNE", Address X65Props.a_label, Rel8, [0x26]);
   (None, "STD", Indexed true (Off Auto (a_num (-200)) IX), Idx, [0xED]); (None, "CMPY", Indexed false (Off Auto (a_num 7) IU), Idx, [0x10; 0xAC]);
   (None, "LEAX", Indexed false (Pcr Short X65Props.a_label), Idx, [0x30]); (None, "PSHS", Registers [A; CC; PC], Stack U, [0x34]);
   (None, "TFR", Pair A DP, Transfer, [0x1F])].
Example C61_encoding_case : exists m,
  ready begun 0 m 8 /\ setting_ok exSetting (here m) /\
  Forall (fun x => let '(p, name, f, c, code) := x in
    numbers_known exSetting (here m) f c /\ listed_in name c code /\ belongs p f c = true /\ faulty name f = false /\
    operand_fits f c (1006 + zlen code)) exForms /\
  map (fun x => let '(p, name, f, c, code) := x in assembled p (Word name :: text (form_map g_expr f))) exForms =
  [Some ([0x96; 0x20], 0%nat, []); Some ([0xB6; 0x15; 0x20], 0%nat, []); Some ([0x8E; 0; 0], 1%nat, []); Some ([0x26; 0], 1%nat, []);
   Some ([0xED; 0x99; 0xFF; 0x38], 0%nat, []); Some ([0x10; 0xAC; 0x47], 0%nat, []); Some ([0x30; 0x8C; 0], 1%nat, []);
   Some ([0x34; 0x83], 0%nat, []); Some ([0x1F; 0x8B], 0%nat, [])].
Proof.
  destruct started_ready as (m & (HA & HB & HC & HD) & HE). exists m. split; [|split; [exact HE|]].
  { repeat split; try apply HA; try apply HB; try exact HC. unfold max_size in *. lia. }
  assert (K : forall t v, In (t, v) [(exFar, 1000); (Sym 1, 1004); (Num 0x1520, 0x1520); (Num 7, 7); (Num (-200), -200)] ->
            operand exSetting (here m) t (built t) v /\ X65Spec.source_term t /\ tdepth t <= 240 /\ (true = true -> ~ paren_head t)).
  { intros t v In_. repeat (destruct In_ as [In_|In_]; [injection In_ as <- <-|]); [..|destruct In_]; (split; [|split; [cbn; tauto|split; [cbn; lia|cbn; tauto]]]);
      (split; [reflexivity|split; [cbn; unfold is_s32; try tauto; lia|split]]).
    all: try (intros s H; repeat (destruct H as [<-|H]; [split; [reflexivity|discriminate]|]); destruct H).
    all: split; [cbn; tauto|split; [cbn; tauto|reflexivity]]. }
  split.
  - unfold exForms. repeat (apply Forall_cons; [|]); [..|constructor]; cbv zeta iota beta.
    all: (split; [intros a rel Ia; repeat (destruct Ia as [Ia|Ia]; [injection Ia as <- <-; edestruct K as (K1 & K2 & K3 & K4);
      [|split; [exact K1|split; [exact K2|split; [exact K3|intro; apply K4; reflexivity]]]]; cbn; tauto|]); destruct Ia|]).
    all: (split; [apply listed_by; [vm_compute; reflexivity|vm_compute; tauto]|]); (split; [vm_compute; reflexivity|]); (split; [vm_compute; reflexivity|]).
    all: vm_compute; repeat split; intro; discriminate.
  - vm_compute. reflexivity.
Qed.
(** "LDA <5", "LDA A,X" and "LDA #5" are of the manual; "LDA A,PCR" is refused; "LDA >5,"
    is odd. *)
Example C61_only_case :
  belongs None (DirectTo (a_num 5)) Dir = true /\ listed_in "LDA" Dir [0x96] /\
  assembled None [Word "LDA"; Lt; number 5] = Some ([0x96; 5], 0%nat, []) /\
  assembled None [Word "LDA"; Word "A"; Comma; Word "X"] = Some ([0xA6; 0x86], 0%nat, []) /\
  match m6809_ParseInstruction exF None exJunk (lex [Word "LDA"; Word "A"; Comma; Word "PCR"]) begun with Ok (_, _, _, st) => x_errors st <> [] | _ => False end /\
  odd "LDA" [Gt; number 5; Comma] /\ assembled None [Word "LDA"; Gt; number 5; Comma] = Some ([0xB6; 0; 5], 0%nat, []).
Proof.
  split; [reflexivity|]. split; [apply listed_by; [vm_compute; reflexivity|vm_compute; tauto]|]. split; [vm_compute; reflexivity|]. split; [vm_compute; reflexivity|].
  split; [vm_compute; discriminate|]. split; [apply (odd_comma _ [Gt]); cbn; tauto|vm_compute; reflexivity].
Qed.
(** "LDA #256", "LDX >70000" and "LDA <300,X". *)
Example C61_out_of_range_case :
  beyond (Immediate (a_num 256)) Imm8 /\ listed_in "LDA" Imm8 [0x86] /\ beyond (ExtendedTo (a_num 70000)) Ext /\ beyond (Indexed false (Off Short (a_num 300) IX)) Idx /\
  known_now (a_num 256) = true /\
  assembled None [Word "LDA"; Hash; number 256] = Some ([0x86; 0], 0%nat, [ERROR_OPERAND_RANGE]) /\
  assembled None [Word "LDX"; Gt; number 70000] = Some ([0xBE; 0; 0], 0%nat, [ERROR_OPERAND_RANGE]) /\
  assembled None [Word "LDA"; Lt; number 300; Comma; Word "X"] = Some ([0xA6; 0x88; 0], 0%nat, [ERROR_OPERAND_RANGE]).
Proof.
  split; [cbn; unfold fits8; lia|]. split; [apply listed_by; [vm_compute; reflexivity|vm_compute; tauto]|]. split; [split; [reflexivity|cbn; unfold fits16; lia]|].
  split; [cbn; unfold fits8; lia|]. vm_compute. repeat split.
Qed.
(** "SETDP $15", after which $1520 is direct and $1620 is not. *)
Example C61_setdp_case :
  m6809_ParseInstruction exF None exJunk (lex [Word "SETDP"; number 0x15]) begun = Ok (true, page_base (Some 0x15), [], begun) /\
  belongs (Some 0x15) (Address (a_num 0x1520)) Dir = true /\ belongs (Some 0x15) (Address (a_num 0x1620)) Ext = true /\
  assembled (Some 0x15) [Word "LDA"; number 0x1520] = Some ([0x96; 0x20], 0%nat, []) /\
  assembled (Some 0x15) [Word "LDA"; number 0x1620] = Some ([0xB6; 0x16; 0x20], 0%nat, []).
Proof. vm_compute. repeat split. Qed.

(** ** Faults *)
(** LSRA and LSRB are no keywords. *)
Theorem C61_lsra_refuted : forall name, In name ["LSRA"; "LSRB"] ->
  listed_in name Inherent [if String.eqb name "LSRA" then 0x44 else 0x54] /\ belongs None (@Nothing arg) Inherent = true /\
  m6809_ParseInstruction exF None exJunk (lex [Word name]) begun = Ok (false, None, lex [Word name], begun).
Proof. intros name [<-|[<-|[]]]; (split; [apply listed_by; [vm_compute; reflexivity|vm_compute; tauto]|vm_compute; repeat split]). Qed.
Print Assumptions C61_lsra_refuted.
(** "LDA 100,Y" becomes LDA 100,X, and so do U and S, and 16 bit offsets. *)
Theorem C61_offset_register_refuted : forall r, In r [IY; IU; IS] ->
  belongs None (Indexed false (Off Auto (a_num 100) r)) Idx = true /\
  place_cells false (Off Auto (a_num 100) r) 1007 <> place_cells false (Off Auto (a_num 100) IX) 1007 /\
  assembled None [Word "LDA"; number 100; Comma; Word (index_name r)] = Some ([0xA6; 0x88; 100], 0%nat, []) /\
  assembled None [Word "LDA"; number 100; Comma; Word "X"] = Some ([0xA6; 0x88; 100], 0%nat, []) /\
  assembled None [Word "LDA"; number 1000; Comma; Word (index_name r)] = Some ([0xA6; 0x89; 0x03; 0xE8], 0%nat, []).
Proof. intros r [<-|[<-|[<-|[]]]]; vm_compute; repeat split; discriminate. Qed.
Print Assumptions C61_offset_register_refuted.
(** An offset that is not known yet needs < or >: "LDA label,X" is read as "LDA label,"
    and X is left over. *)
Theorem C61_forward_offset_refuted : belongs None (Indexed false (Off Auto X65Props.a_label IX)) Idx = true /\
  known_now X65Props.a_label = false /\
  match m6809_ParseInstruction exF None exJunk (lex [Word "LDA"; Operand (built (Sym 1)); Comma; Word "X"]) begun with
  | Ok (_, _, ts, st) => ts = lex [Word "X"] /\ x_errors st = [] /\ map m_data (x_sections st) = [[0xB6; 0; 0]]
  | _ => False end /\
  assembled None [Word "LDA"; Gt; Operand (built (Sym 1)); Comma; Word "X"] = Some ([0xA6; 0x89; 0; 0], 1%nat, []).
Proof. vm_compute. repeat split. Qed.
Print Assumptions C61_forward_offset_refuted.
(** "PSHS #5" stores what the operand structure held before. *)
Theorem C61_stack_immediate_refuted : exists junk1 junk2,
  assembled_with junk1 None [Word "PSHS"; Hash; number 5] = Some ([0x34; 0x12], 0%nat, []) /\
  assembled_with junk2 None [Word "PSHS"; Hash; number 5] = Some ([0x34; 0x34], 0%nat, []).
Proof. exists (AMode 0 0x12 (expr_Const 0)), (AMode 0 0x34 (expr_Const 0)). vm_compute. split; reflexivity. Qed.
Print Assumptions C61_stack_immediate_refuted.
(** "ROL #5" is read, reports nothing and stores nothing. *)
Theorem C61_rotate_immediate_refuted : assembled None [Word "ROL"; Hash; number 5] = Some ([], 0%nat, []) /\
  assembled None [Word "ROR"; Hash; number 5] = Some ([], 0%nat, []).
Proof. vm_compute. split; reflexivity. Qed.
Print Assumptions C61_rotate_immediate_refuted.
(** "LDA <200,X" is stored without a report, and the processor subtracts 56. *)
Theorem C61_short_offset_refuted : ~ operand_fits (Indexed false (Off Short (a_num 200) IX)) Idx 1007 /\
  assembled None [Word "LDA"; Lt; number 200; Comma; Word "X"] = Some ([0xA6; 0x88; 200], 0%nat, []).
Proof. split; [cbn; unfold near; lia|vm_compute; reflexivity]. Qed.
Print Assumptions C61_short_offset_refuted.
(** "TFR B,DP" of the manual and of the assembler's own documentation is refused: the
    register is called DPR. *)
Theorem C61_dp_name_refuted :
  match m6809_ParseInstruction exF None exJunk (lex [Word "TFR"; Word "B"; Comma; Word "DP"]) begun with
  | Ok (_, _, _, st) => x_errors st = [ERROR_SECOND_OPERAND] | _ => False end /\
  assembled None [Word "TFR"; Word "B"; Comma; Word "DPR"] = Some ([0x1F; 0x9B], 0%nat, []).
Proof. vm_compute. split; reflexivity. Qed.
Print Assumptions C61_dp_name_refuted.
