(** C68: 680x0 instructions assemble to words that the processor reads as written. *)
From Coq Require Import String ZArith List Bool Lia ZifyBool.
From Verif Require Import Base BaseFacts Arith ExprSpec ExprModel ExprLayout ExprProps OptModel SectModel SectSpec SectProps InstrSpec InstrProofs X65Spec.
From Verif Require ChipProps.
From Verif Require Import M68kModel M68kSpec M68kWhole.
Import ListNotations.
Open Scope string_scope.
Open Scope list_scope.
Open Scope Z_scope.

(** For every processor from the 68000 to the 68060, every instruction of the list
    [forms] with every operand it may have and every size, whether or not the values of
    the expressions in it are known yet: it is accepted, and what is appended to the
    current section is a row of words that the processor, in any state, decodes as
    the operation, the size and the places written, taking no word too many or too few.
    The places are those of the values in the final program.  Missing: MOVEM, MOVEP, the
    moves to and from special registers, what only the 68010 and later have, and the
    coprocessors; and the operands [instr_fits] leaves out, see below. *)
Theorem C68_encoding_partial : forall cpu S k st m f s ops rest,
  In cpu cpus -> In f forms -> ready st k m 24 -> setting_ok S (here m) -> Z.even (m_used m) = true -> 0 <= e_pc (s_env S) < 2 ^ 31 - 128 ->
  instr_ok (is_new cpu) f s ops = true -> instr_fits (is_new cpu) (here m) (e_pc (s_env S)) f s ops ->
  Forall (arg_ok S (here m)) (flat_map opnd_args ops) -> ends rest ->
  exists st' cells, m68k_IntegerInstruction (s_F S) (s_garbage S) cpu (lex (instr_text f s ops) ++ rest) st = Ok (true, rest, st') /\
    emits_seq S k st st' cells /\ stored_from (flat_map opnd_args ops) cells /\
    forall mc more, decode (is_new cpu) mc (e_pc (s_env S)) (words cells ++ more) = Some (instr_action mc f s ops, more).
Proof. exact encoded. Qed.
Print Assumptions C68_encoding_partial.

(** At an odd place in the section an instruction is reported, and nothing is stored. *)
Theorem C68_odd_place : forall cpu F g k st m f s ops rest,
  In cpu cpus -> In f forms -> ready st k m 24 -> Z.even (m_used m) = false -> instr_ok (is_new cpu) f s ops = true ->
  exists rest', m68k_IntegerInstruction F g cpu (lex (instr_text f s ops) ++ rest) st = Ok (true, rest', err_Error MERROR_WORD_ALIGN st).
Proof. exact odd_place. Qed.
Print Assumptions C68_odd_place.

(** ** Cases *)
Notation exS := ChipProps.exSetting.
Notation started := ChipProps.started.
Definition exDiff : arg := Arg (Bin OpSub (Sym 2) (Sym 1)) (ChipProps.built (Bin OpSub (Sym 2) (Sym 1))) 5.
Definition exNear : arg := Arg (Bin OpSub (Sym 0) (Num 5008)) (ChipProps.built (Bin OpSub (Sym 0) (Num 5008))) (-8).
Definition exLabel : arg := Arg (Sym 1) (ChipProps.built (Sym 1)) 1004.
Definition num (v : Z) : arg := Arg (Num v) (expr_Const v) v.
Definition exM : machine := Machine (fun n => 0x11223344 + n * 0x01010F0F) (fun n => 0x300000 + n * 0x10101) (fun a => (7 * a + 5) mod 2 ^ 32).
Definition named (n : string) (k : nat) : form := nth k (filter (fun f => String.eqb (f_name f) n) forms) (unsized "" []).
Definition stored (cpu : Z) (st : xstate) (l : list piece) : option (list Z * nat * list Z) :=
  match m68k_IntegerInstruction exF 0 cpu (lex l) st with
  | Ok (true, [], st) => match x_sections st with [m] => Some (m_data m, List.length (m_patches m), x_errors st) | _ => None end
  | _ => None
  end.
(** "MOVE.L ([imported-5008,A2,D1.L*4],label2-label1),D3", "ADDQ.B #label2-label1,
    -(A3)" and "BNE label". *)
Definition exMove : list opnd := [OMem (Some (exNear, None)) (Some (BaseA 2)) (Some (Index false 1 (Some SL) (Some 4))) false (Some (exDiff, None)); ODreg 3].
Example C68_encoding_case : exists m,
  ready started 0 m 24 /\ setting_ok exS (here m) /\ Z.even (m_used m) = true /\ 0 <= e_pc (s_env exS) < 2 ^ 31 - 128 /\
  (In (named "MOVE" 0) forms /\ instr_ok (is_new CPUF_68020) (named "MOVE" 0) (Some SL) exMove = true /\
   instr_fits (is_new CPUF_68020) (here m) 1006 (named "MOVE" 0) (Some SL) exMove /\ Forall (arg_ok exS (here m)) (flat_map opnd_args exMove) /\
   instr_action exM (named "MOVE" 0) (Some SL) exMove = Act "MOVE" (Some SL) [Mem ((7 * (0x320202 - 8 + (0x12234253 * 4)) + 5) mod 2 ^ 32 + 5); InD 3]) /\
  (In (named "ADDQ" 0) forms /\ instr_ok (is_new CPUF_68000) (named "ADDQ" 0) (Some SB) [OImm exDiff; ODec 3] = true /\
   instr_fits (is_new CPUF_68000) (here m) 1006 (named "ADDQ" 0) (Some SB) [OImm exDiff; ODec 3] /\
   instr_action exM (named "ADDQ" 0) (Some SB) [OImm exDiff; ODec 3] = Act "ADD" (Some SB) [Val 5; PreDec 3]) /\
  (In (named "BNE" 0) forms /\ instr_ok (is_new CPUF_68000) (named "BNE" 0) None [OAbs exLabel None] = true /\
   instr_fits (is_new CPUF_68000) (here m) 1006 (named "BNE" 0) None [OAbs exLabel None] /\ Forall (arg_ok exS (here m)) [exLabel] /\
   instr_action exM (named "BNE" 0) None [OAbs exLabel None] = Act "BNE" None [Mem 1004]) /\
  stored CPUF_68020 started (instr_text (named "MOVE" 0) (Some SL) exMove) = Some ([0x26; 0x32; 0x1D; 0x32; 0; 0; 0; 0; 0; 5], 1%nat, []) /\
  stored CPUF_68000 started (instr_text (named "ADDQ" 0) (Some SB) [OImm exDiff; ODec 3]) = Some ([0x5A; 0x23], 0%nat, []).
Proof.
  destruct ChipProps.started_ready as (m & (A & B & C & D) & E). exists m. split; [|split; [exact E|]].
  { repeat split; try apply A; try apply B; try exact C. unfold max_size in *. lia. }
  assert (Em : m_used m = 0) by (destruct A as (_ & N & _); vm_compute in N; injection N as <-; reflexivity).
  split; [rewrite Em; reflexivity|]. split; [cbn; lia|].
  assert (Arg1 : forall a, In a [exDiff; exNear; exLabel] -> arg_ok exS (here m) a).
  { intros a Ha. split; [|split; [|split]].
    - repeat (destruct Ha as [<-|Ha]; [split; [reflexivity|split; [cbn; unfold is_s32; (tauto || lia)|split; [|split; [cbn; tauto|split; [cbn; tauto|reflexivity]]]]]|]); [| | |destruct Ha];
        intros s H; repeat (destruct H as [<-|H]; [split; [reflexivity|discriminate]|]); destruct H.
    - repeat (destruct Ha as [<-|Ha]; [vm_compute; tauto|]). destruct Ha.
    - repeat (destruct Ha as [<-|Ha]; [vm_compute; discriminate|]). destruct Ha.
    - repeat (destruct Ha as [<-|Ha]; [vm_compute; tauto|]). destruct Ha. }
  split; [|split; [|split]].
  - split; [vm_compute; tauto|]. split; [vm_compute; reflexivity|]. split; [|split; [|vm_compute; reflexivity]].
    + split; [|exact Logic.I]. repeat constructor; cbn; try discriminate; intros [X|X]; discriminate X.
    + change (flat_map opnd_args exMove) with [exNear; exDiff]. apply Forall_forall. intros a Ha. apply Arg1. cbn in *. tauto.
  - split; [vm_compute; tauto|]. split; [vm_compute; reflexivity|]. split; [|vm_compute; reflexivity].
    split; [|exact Logic.I]. repeat constructor; cbn; lia.
  - split; [vm_compute; tauto|]. split; [vm_compute; reflexivity|]. split; [|split; [|vm_compute; reflexivity]].
    + split; [|exact Logic.I]. repeat constructor; cbn; unfold s16; lia.
    + apply Forall_forall. intros a Ha. apply Arg1. cbn in *. tauto.
  - split; vm_compute; reflexivity.
Qed.
(** One byte after the start of a section. *)
Definition odd_start : xstate :=
  match run [DSection code 0 plain; DDb [AExpr (expr_Const 7)]] (initial 1 false two_groups ChipProps.o_be) with Ok st => st | _ => started end.
Example C68_odd_place_case : match x_sections odd_start with [m] => m_used m = 1 | _ => False end /\
  stored CPUF_68000 odd_start (instr_text (named "ADDQ" 0) (Some SB) [OImm exDiff; ODec 3]) = None /\
  match m68k_IntegerInstruction exF 0 CPUF_68000 (lex (instr_text (named "NOP" 0) None [])) odd_start with
  | Ok (true, _, st) => map m_data (x_sections st) = [[7]] /\ x_errors st = [MERROR_WORD_ALIGN]
  | _ => False
  end.
Proof. vm_compute. repeat split. Qed.

(** ** Faults *)
(** A section at the address 1000. *)
Definition at1000 : xstate :=
  match run [DSection code 0 plain; DOrg 1000] (initial 1 false two_groups ChipProps.o_be) with Ok st => st | _ => started end.
Fixpoint pairs (l : list Z) : list Z := match l with a :: b :: r => (a * 256 + b) :: pairs r | _ => [] end.
(** Text that is accepted there without a report, with nothing left to fill in, and what
    its words say. *)
Definition says (cpu : Z) (l : list piece) : option (option (action * list Z)) :=
  match stored cpu at1000 l with Some (d, 0%nat, []) => Some (decode (is_new cpu) exM 1000 (pairs d)) | _ => None end.
(** An instruction of the list that is accepted there and says something else. *)
Definition wrong (cpu : Z) (f : form) (s : option size) (ops : list opnd) : Prop :=
  In f forms /\ instr_ok (is_new cpu) f s ops = true /\
  exists o, says cpu (instr_text f s ops) = Some o /\ o <> Some (instr_action exM f s ops, []).
Definition reported (cpu : Z) (l : list piece) : Prop :=
  match stored cpu at1000 l with Some (_, _, []) => False | Some _ => True | None => False end.
Ltac shown := split; [vm_compute; tauto|]; split; [vm_compute; reflexivity|]; eexists; split; [vm_compute; reflexivity|vm_compute; discriminate].
(** The section is where it is said to be: other instructions are right. *)
Example C68_there_case :
  says CPUF_68020 (instr_text (named "BRA" 0) None [OAbs (num 1100) None]) = Some (Some (instr_action exM (named "BRA" 0) None [OAbs (num 1100) None], [])) /\
  says CPUF_68000 (instr_text (named "LEA" 0) None [ODispPc (num 1100); OAreg 3]) = Some (Some (instr_action exM (named "LEA" 0) None [ODispPc (num 1100); OAreg 3], [])).
Proof. split; vm_compute; reflexivity. Qed.
(** A long branch in a section with an address goes two bytes too far, and so does an
    operand relative to PC with a long displacement. *)
Theorem C68_long_relative_refuted :
  wrong CPUF_68020 (named "BRA" 0) (Some SL) [OAbs (num 1100) None] /\
  says CPUF_68020 (instr_text (named "BRA" 0) (Some SL) [OAbs (num 1100) None]) = Some (Some (Act "BRA" None [Mem 1102], [])) /\
  wrong CPUF_68020 (named "LEA" 0) None [OParen false (Some (num 40000, None)) (Some BasePc) (Some (Index false 1 (Some SL) None)); OAreg 1].
Proof. split; [shown|]. split; [vm_compute; reflexivity|shown]. Qed.
Print Assumptions C68_long_relative_refuted.
(** On an instruction that has no size, a size takes the operand after it away: "LEA.L
    4(A0),A1" is "LEA (A0),A1". *)
Theorem C68_size_refuted :
  stored CPUF_68000 at1000 [Word "LEA"; Word ".L"; Operand (expr_Const 4); Word "(A0)"; Comma; Word "A1"] = stored CPUF_68000 at1000 [Word "LEA"; Word "(A0)"; Comma; Word "A1"] /\
  stored CPUF_68000 at1000 [Word "JMP"; Word ".L"; Operand (expr_Const 4); Word "(A0)"] = stored CPUF_68000 at1000 [Word "JMP"; Word "(A0)"] /\
  says CPUF_68000 [Word "JMP"; Word "(A0)"] = Some (Some (Act "JMP" None [Mem 0x300000], [])).
Proof. split; [|split]; vm_compute; reflexivity. Qed.
Print Assumptions C68_size_refuted.
(** Displacements that do not fit are taken and become negative: 40000(A0), 200(A0,D1.W),
    and on the 68000 also (100000,A0). *)
Theorem C68_displacement_refuted :
  wrong CPUF_68000 (named "LEA" 0) None [ODisp (num 40000) 0; OAreg 1] /\
  wrong CPUF_68000 (named "LEA" 0) None [OParen true (Some (num 200, None)) (Some (BaseA 0)) (Some (Index false 1 (Some SW) None)); OAreg 1] /\
  wrong CPUF_68000 (named "LEA" 0) None [OParen false (Some (num 100000, None)) (Some (BaseA 0)) None; OAreg 1].
Proof. split; [shown|]. split; shown. Qed.
Print Assumptions C68_displacement_refuted.
(** DBcc takes a target out of its reach, and goes elsewhere. *)
Theorem C68_loop_refuted : wrong CPUF_68000 (named "DBF" 0) None [ODreg 0; OAbs (num 60000) None].
Proof. shown. Qed.
Print Assumptions C68_loop_refuted.
(** BRA.B to the byte after its opcode has the opcode of a long branch, without the
    distance. *)
Theorem C68_short_branch_refuted : wrong CPUF_68020 (named "BRA" 0) (Some SB) [OAbs (num 1001) None] /\
  stored CPUF_68020 at1000 (instr_text (named "BRA" 0) (Some SB) [OAbs (num 1001) None]) = Some ([0x60; 0xFF], 0%nat, []).
Proof. split; [shown|vm_compute; reflexivity]. Qed.
Print Assumptions C68_short_branch_refuted.
(** "([0],D1.L)" is taken for "(D1.L)", without the load from memory. *)
Theorem C68_indirect_zero_refuted :
  wrong CPUF_68020 (named "LEA" 0) None [OMem (Some (num 0, None)) None (Some (Index false 1 (Some SL) None)) true None; OAreg 1] /\
  says CPUF_68020 (instr_text (named "LEA" 0) None [OMem (Some (num 0, None)) None (Some (Index false 1 (Some SL) None)) true None; OAreg 1]) =
  Some (Some (Act "LEA" None [Mem 0x12234253; InA 1], [])).
Proof. split; [shown|vm_compute; reflexivity]. Qed.
Print Assumptions C68_indirect_zero_refuted.
(** "( PC )", with a parenthesis on its own, is taken for "(A0)". *)
Theorem C68_bare_pc_refuted :
  stored CPUF_68020 at1000 [Word "LEA"; Lp; Word "PC"; Rp; Comma; Word "A1"] = stored CPUF_68020 at1000 [Word "LEA"; Word "(A0)"; Comma; Word "A1"].
Proof. vm_compute. reflexivity. Qed.
Print Assumptions C68_bare_pc_refuted.
(** Bytes in address registers, which no processor has, are taken as long words. *)
Theorem C68_address_byte_refuted :
  Forall (fun n => stored CPUF_68000 at1000 [Word n; Word ".B"; Word "D0"; Comma; Word "A1"] = stored CPUF_68000 at1000 [Word n; Word ".L"; Word "D0"; Comma; Word "A1"] /\
    exists a, says CPUF_68000 [Word n; Word ".B"; Word "D0"; Comma; Word "A1"] = Some (Some (a, [])) /\ a_size a = Some SL)
    ["ADD"; "SUB"; "CMP"; "CMPA"; "MOVE"].
Proof. repeat (apply Forall_cons; [split; [vm_compute; reflexivity|eexists; split; [vm_compute; reflexivity|vm_compute; reflexivity]]|]). apply Forall_nil. Qed.
Print Assumptions C68_address_byte_refuted.
(** What only the 68020 has is taken on the 68000: a scale, and DIVS.L; MULS.L is
    refused. *)
Theorem C68_processor_refuted :
  (exists d, stored CPUF_68000 at1000 (Word "LEA" :: opnd_text (OParen true (Some (num 20, None)) (Some (BaseA 0)) (Some (Index false 1 (Some SW) (Some 4)))) ++ [Comma; Word "A1"]) = Some (d, 0%nat, []) /\
     decode false exM 1000 (pairs d) = None) /\
  (exists d, stored CPUF_68000 at1000 [Word "DIVS"; Word ".L"; Word "D0"; Comma; Word "D1"] = Some (d, 0%nat, []) /\ decode false exM 1000 (pairs d) = None) /\
  reported CPUF_68000 [Word "MULS"; Word ".L"; Word "D0"; Comma; Word "D1"].
Proof. split; [|split]; [eexists; split; [vm_compute; reflexivity|vm_compute; reflexivity] ..|exact Logic.I]. Qed.
Print Assumptions C68_processor_refuted.
(** Instructions of the manual that are refused: BTST D0,1100(PC), and TST.L A1 and
    (20,PC,D1.L) when 20 is near 0 but not near the instruction, on the 68020. *)
Theorem C68_refused_refuted :
  decode false exM 1000 [0x013A; 98] = Some (Act "BTST" None [InD 0; Mem 1100], []) /\ reported CPUF_68000 [Word "BTST"; Word "D0"; Comma; Operand (expr_Const 1100); Word "(PC)"] /\
  decode true exM 1000 [0x4A89] = Some (Act "TST" (Some SL) [InA 1], []) /\ reported CPUF_68020 [Word "TST"; Word ".L"; Word "A1"] /\
  decode true exM 1000 [0x43FB; 0x1920; 0xFC2A] = Some (instr_action exM (named "LEA" 0) None [OParen false (Some (num 20, None)) (Some BasePc) (Some (Index false 1 (Some SL) None)); OAreg 1], []) /\
  reported CPUF_68020 (instr_text (named "LEA" 0) None [OParen false (Some (num 20, None)) (Some BasePc) (Some (Index false 1 (Some SL) None)); OAreg 1]).
Proof. repeat split; vm_compute; (reflexivity || exact Logic.I). Qed.
Print Assumptions C68_refused_refuted.

(** SP is another name for A7, in each of the places where A7 can be written. *)
Definition with_SP (p : piece) : piece :=
  match p with
  | Word s => Word (if String.eqb s "A7" then "SP" else if String.eqb s "(A7)" then "(SP)"
                    else if String.eqb s "-(A7)" then "-(SP)" else if String.eqb s "(A7)+" then "(SP)+" else s)
  | _ => p
  end.
Lemma C68_stack_pointer : forall l, lex (map with_SP l) = lex l.
Proof.
  intro l. unfold lex. rewrite map_map. apply map_ext. intros [s| | | | | | | |e]; try reflexivity. cbn [with_SP].
  destruct (String.eqb s "A7") eqn:E1; [apply String.eqb_eq in E1; subst s; reflexivity|].
  destruct (String.eqb s "(A7)") eqn:E2; [apply String.eqb_eq in E2; subst s; reflexivity|].
  destruct (String.eqb s "-(A7)") eqn:E3; [apply String.eqb_eq in E3; subst s; reflexivity|].
  destruct (String.eqb s "(A7)+") eqn:E4; [apply String.eqb_eq in E4; subst s; reflexivity|]. reflexivity.
Qed.
Print Assumptions C68_stack_pointer.
