(** C44: CHIP-8 and SuperCHIP instructions are encoded as the manual says. *)
From Coq Require Import ZArith List Bool Lia ZifyBool String.
From Verif Require Import Base BaseFacts Arith ExprSpec ExprModel ExprLayout ExprProps OptModel SectModel SectSpec SectProps
  InstrSpec InstrProofs ChipModel ChipSpec ChipProofs ChipOnly.
Import ListNotations.
Open Scope string_scope.
Open Scope Z_scope.

(** Every instruction of the manual but SCD, with operands in range, known or not, is
    accepted, and appends to the current section the two bytes of its row in the
    opcode table; what follows the instruction is left alone.  The operand's value is
    the one it has in the final program.  Missing: SCD, see below. *)
Theorem C44_encoding_partial : forall S i cpu st k m rest,
  ready st k m 2 -> setting_ok S (here m) -> args_known S (here m) i -> valid (cmap g_value i) ->
  available cpu i -> no_plus rest -> (forall n, i <> Scd n) ->
  exists st', schip_ParseIntegerInstruction (s_F S) cpu (lex (text (cmap g_expr i)) ++ rest) st = Ok (true, rest, st') /\
    emits S k st st' [(2%nat, term_of i, encoding (cmap g_value i))].
Proof. exact encoded. Qed.
Print Assumptions C44_encoding_partial.

(** Instructions that differ, in more than the sign of a byte or the height 16 written
    as 0, have different encodings; an encoding fits two bytes. *)
Theorem C44_distinct : forall i j, valid i -> valid j -> encoding i = encoding j -> canonical i = canonical j.
Proof. exact distinct. Qed.
Print Assumptions C44_distinct.
Theorem C44_two_bytes : forall i, valid i -> 0 <= encoding i < 65536.
Proof. exact encoding_range. Qed.
Print Assumptions C44_two_bytes.

(** A mnemonic followed by as many operands as it has, of any kinds, is accepted only
    if the manual has that instruction for the machine selected, or if it moves RPL
    flags. *)
Theorem C44_only_the_manual : forall F cpu s l st ts st',
  cpu = CHIP8 \/ cpu = SCHIP -> List.length l = arity s -> Forall opnd_ok l ->
  schip_ParseIntegerInstruction F cpu (lex (Word s :: opnds_text l)) st = Ok (true, ts, st') ->
  ts = [] /\ exists i : cinstr expr, text i = Word s :: opnds_text l /\ (available cpu i \/ rpl_transfer i).
Proof. exact only_manual. Qed.
Print Assumptions C44_only_the_manual.

(** A constant operand out of range is reported, and the instruction is stored with a
    zero in its place. *)
Theorem C44_out_of_range : forall S F i cpu st k m rest,
  ready st k m 2 -> valid (cmap (fun _ => 0) i) -> ~ valid i -> available cpu i -> no_plus rest -> (forall n, i <> Scd n) ->
  exists st', schip_ParseIntegerInstruction F cpu (lex (text (cmap expr_Const i)) ++ rest) st = Ok (true, rest, st') /\
    emits S k (err_Error ERROR_OPERAND_RANGE st) st' [(2%nat, Num 0, encoding (cmap (fun _ => 0) i))].
Proof. exact too_big. Qed.
Print Assumptions C44_out_of_range.

(** ** Cases *)
Definition o_be : options := Options BigEndian [48; 49] [48; 49; 50; 51] 255 1 [] [] true false false.
Definition exSetting : setting := Setting exF exWorld exBase exEnv (fun _ => 0) 0.
Definition started : xstate :=
  match run [DSection code 0 plain] (initial 1 false two_groups o_be) with Ok st => st | _ => initial 1 false two_groups o_be end.
Lemma started_ready : exists m, ready started 0 m 1000 /\ setting_ok exSetting (here m).
Proof.
  eexists. split.
  - split; [repeat split|]. split.
    + unfold section_fine, m_pc, m_used, m_data, is_u32, max_size. cbn. repeat split; lia.
    + split; [reflexivity|]. unfold m_used, max_size. cbn. lia.
  - split; [exact ex_fmath_ok|]. split; [exact ex_env_ok|]. cbn. intros [|]; discriminate.
Qed.
(** "LD V10,label2-label1" and "CALL imported-4000". *)
Definition exDiff : term := Bin OpSub (Sym 2) (Sym 1).
Definition exFar : term := Bin OpSub (Sym 0) (Num 4000).
Definition built (t : term) : expr := match build exF (fun _ => 0) 0 exWorld None t with Ok e => e | _ => ENull end.
Example C44_encoding_case : exists m,
  ready started 0 m 2 /\ setting_ok exSetting (here m) /\
  (let i := LdImm 10 (Arg exDiff (built exDiff) 5) in
   args_known exSetting (here m) i /\ valid (cmap g_value i) /\ available CHIP8 i /\ encoding (cmap g_value i) = 0x6A05) /\
  (let i := Call (Arg exFar (built exFar) 1000) in
   args_known exSetting (here m) i /\ valid (cmap g_value i) /\ available CHIP8 i /\ encoding (cmap g_value i) = 0x23E8) /\
  match schip_ParseIntegerInstruction exF CHIP8 (lex [Word "LD"; Word "V10"; Comma; Operand (built exDiff)]) started with
  | Ok (true, [], st) => map m_data (x_sections st) = [[0x6A; 0x05]]
  | _ => False
  end /\
  match schip_ParseIntegerInstruction exF CHIP8 (lex [Word "CALL"; Operand (built exFar)]) started with
  | Ok (true, [], st) => map m_data (x_sections st) = [[0; 0]] /\ map (fun m => List.length (m_patches m)) (x_sections st) = [1%nat]
  | _ => False
  end.
Proof.
  destruct started_ready as (m & (A & B & C & D) & E). exists m. split; [|split; [exact E|]].
  { repeat split; try apply A; try apply B; try exact C. unfold max_size in *. lia. }
  split; [|split; [|split]].
  - cbv zeta. split; [|split; [cbn; unfold reg_ok; lia|split; [right; split; reflexivity|reflexivity]]].
    intros a Ha. inversion Ha; subst a. split; [|cbn; lia].
    split; [reflexivity|]. split; [cbn; tauto|]. split.
    { intros s H. repeat (destruct H as [<-|H]; [split; [reflexivity|discriminate]|]). destruct H. }
    split; [cbn; tauto|]. split; [cbn; tauto|reflexivity].
  - cbv zeta. split; [|split; [cbn; lia|split; [right; split; reflexivity|reflexivity]]].
    intros a Ha. inversion Ha; subst a. split; [|cbn; lia].
    split; [reflexivity|]. split; [cbn; unfold is_s32; lia|]. split.
    { intros s H. repeat (destruct H as [<-|H]; [split; [reflexivity|discriminate]|]). destruct H. }
    split; [cbn; tauto|]. split; [cbn; tauto|reflexivity].
  - vm_compute. reflexivity.
  - vm_compute. split; reflexivity.
Qed.
Example C44_distinct_case : valid (Drw 3 12 16) /\ valid (Drw 3 12 0) /\
  encoding (Drw 3 12 16) = 0xD3C0 /\ encoding (Drw 3 12 0) = 0xD3C0 /\ canonical (Drw 3 12 16) = Drw 3 12 0 /\
  encoding (Drw 3 12 5) <> encoding (Drw 12 3 5).
Proof. cbn. unfold reg_ok. repeat split; try lia; discriminate. Qed.
Lemma register_dt : forall x, register x <> Word "DT".
Proof.
  intros x H.
  assert (G : forall n, nth n ["V0"; "V1"; "V2"; "V3"; "V4"; "V5"; "V6"; "V7"; "V8"; "V9"; "VA"; "VB"; "VC"; "VD"; "VE"; "VF"] "" <> "DT").
  { intro n. do 17 (destruct n as [|n]; [discriminate|]). discriminate. }
  unfold register in H. apply (G (Z.to_nat x)). congruence.
Qed.
Example C44_only_case : forall e, isNull e = false ->
  List.length [ODT; OExpr e] = arity "LD" /\ Forall opnd_ok [ODT; OExpr e] /\
  forall i : cinstr expr, text i <> Word "LD" :: opnds_text [ODT; OExpr e].
Proof.
  intros e N. split; [reflexivity|]. split.
  - constructor; [exact I|]. constructor; [exact N|constructor].
  - intros [] H; try discriminate; exact (register_dt _ (f_equal (fun l => nth 1 l Comma) H)).
Qed.
Example C44_out_of_range_case : valid (cmap (fun _ => 0) (Jp 4096)) /\ ~ valid (Jp 4096) /\
  valid (cmap (fun _ => 0) (Rnd 3 256)) /\ ~ valid (Rnd 3 256) /\
  match schip_ParseIntegerInstruction exF CHIP8 (lex (text (cmap expr_Const (Rnd 3 256)))) started with
  | Ok (true, [], st) => x_errors st = [ERROR_OPERAND_RANGE] /\ map m_data (x_sections st) = [[0xC3; 0]]
  | _ => False
  end.
Proof. cbn [valid cmap]. unfold reg_ok. repeat split; try lia. Qed.

(** ** Faults *)
(** SCD is not accepted in any form: its operand is looked for in the wrong place. *)
Theorem C44_scd_refuted : forall F st ts st' n rest,
  schip_ParseIntegerInstruction F SCHIP (lex (text (Scd n)) ++ rest) st <> Ok (true, ts, st').
Proof. intros F st ts st' n rest H. discriminate. Qed.
Print Assumptions C44_scd_refuted.
(** The RPL transfers are accepted for a plain CHIP-8. *)
Theorem C44_rpl_refuted : exists i : cinstr expr, ~ available CHIP8 i /\
  match schip_ParseIntegerInstruction exF CHIP8 (lex (text i)) started with
  | Ok (true, [], st) => x_errors st = [] /\ map m_data (x_sections st) = [[0xF3; 0x75]]
  | _ => False
  end.
Proof. exists (StoreRPL 3). split; [intros [H|[_ H]]; discriminate|]. vm_compute. split; reflexivity. Qed.
Print Assumptions C44_rpl_refuted.
(** An instruction without its last operand is accepted, and nothing is reported. *)
Theorem C44_missing_operand_refuted :
  match schip_ParseIntegerInstruction exF CHIP8 (lex [Word "SHL"]) started with
  | Ok (true, [], st) => x_errors st = [] /\ map m_data (x_sections st) = [[0xFF; 0x0E]]
  | _ => False
  end /\
  match schip_ParseIntegerInstruction exF CHIP8 (lex [Word "AND"; Word "V1"; Comma]) started with
  | Ok (true, [], st) => x_errors st = [] /\ map m_data (x_sections st) = [[0x8F; 0xF2]]
  | _ => False
  end.
Proof. vm_compute. repeat split. Qed.
Print Assumptions C44_missing_operand_refuted.
