(** C65: what the assembler's ELF files say. *)
From Coq Require Import String ZArith List Bool Lia ZifyBool ZifyNat Permutation Sorted.
From Verif Require Import Base BaseFacts Arith AssignModel LinkModel LinkSpec ExprSpec ExprTree ExprModel ObjWriteModel
  MdefModel ReportSpec ReportProps ElfModel ElfSpec ElfProofs ElfProofs2.
Import ListNotations.
Open Scope string_scope.
Open Scope list_scope.
Open Scope Z_scope.

(** If the assembler writes an ELF file for a program and reports no error, the file is a
    well-formed ELF object that says what was assembled: every section with its name, kind,
    address, alignment, size and data, every symbol that is exported, imported or used, with its
    value and place, and for every patch one relocation that means its value.  For programs whose
    patches are of 32 bits, highest byte first, and subtract no symbol: for the others the file
    is wrong, see below. *)
Theorem C65_elf_object_partial : forall F big arch alignment used sorter A f,
  sorts sorter -> writable A alignment used -> 0 <= arch < 2 ^ 16 ->
  elf_Write big arch alignment used sorter A = Ok (f, false) -> zlen f < 2 ^ 32 ->
  exists o, elf_says big arch f o /\ says_program F A alignment used o.
Proof.
  intros F big arch alignment used sorter A f SO W AR H L. apply (elf_Write_says F big arch alignment used sorter A SO f W AR H L).
Qed.
Print Assumptions C65_elf_object_partial.

(** ** Cases *)
Definition exCode : asym := ASym (chars "CODE") (Symbol SymGroup false false false None 0) false false false (Some 0) 1 GROUP_TEXT false false.
Definition exBss : asym := ASym (chars "BSS") (Symbol SymGroup false false false None 0) false false false (Some 0) 1 GROUP_BSS false false.
Definition exLabel : asym := ASym (chars "loop") (Symbol SymLabel false true false (Some 0%nat) 2) false true false (Some 0) 3 0 false false.
Definition exImport : asym := ASym (chars "ext") (Symbol SymImport false true false None 0) false false false (Some 0) 4 0 false false.
Definition exEqu : asym := ASym (chars "K") (Symbol SymEqu true false true None 42) true true false (Some 0) 5 0 false false.
Definition exBuf : asym := ASym (chars "buf") (Symbol SymLabel false true false (Some 1%nat) 8) true true false (Some 0) 6 0 false false.
Definition exSymbols : list asym := [exCode; exBss; exLabel; exImport; exEqu; exBuf].
Definition aPlain : asect := ASect false false false false false false 0 0 0 0.
Definition aAligned : asect := ASect false false false true false false 0 0 0 0.
Definition sym (s : nat) : expr := ENode TSymbol false OpNone 0 s ENull ENull.
Definition num (v : Z) : expr := ENode TConst true OpNone v 0 ENull ENull.
Definition plus (a b : expr) : expr := ENode TOperation false OpAdd 0 0 a b.
Definition minus (a b : expr) : expr := ENode TOperation false OpSub 0 0 a b.
Definition exProgram (aligned : bool) (data : list Z) (ps : list apatch) : astate :=
  AState 1 false false [([97; 46; 115], 0)] exSymbols
    [WSect (if aligned then aAligned else aPlain) (chars "text") 0 0 8 0 [] (zlen data) data ps;
     WSect aPlain (chars "vars") 1 0 0 0 [] 16 [] []].
Definition exUsed (s : nat) : bool := Nat.leb 2 s.
Definition exA : astate := exProgram true [1; 2; 3; 4; 5; 6; 7; 8; 9; 10] [APatch 6 PATCH_BE_32 (plus (sym 3) (num 6)); APatch 0 PATCH_BE_32 (sym 2)].

Lemma exA_writable : writable exA 4 exUsed.
Proof.
  split.
  - unfold exA, exProgram, exSymbols, as_symbols. repeat (constructor; [cbn; repeat (constructor; [lia|]); constructor|]). constructor.
  - unfold exA, exProgram. cbn [as_sections]. constructor; [|constructor; [|constructor]].
    + cbn [ws_name ws_imagePosition ws_align ws_usedSpace ws_data ws_patches ws_group]. unfold is_u32. split; [cbn; repeat (constructor; [lia|]); constructor|].
      split; [lia|]. split; [lia|]. split; [vm_compute; split; congruence|]. split; [reflexivity|].
      constructor; [|constructor; [|constructor]]; cbn [ap_offset ap_type ap_expr]; (split; [lia|]); (split; [reflexivity|]); cbn; unfold is_s32;
        (split; [repeat split; lia|]); (split; [tauto|]); intros s M; intuition subst; reflexivity.
    + cbn [ws_name ws_imagePosition ws_align ws_usedSpace ws_data ws_patches ws_group]. unfold is_u32. split; [cbn; repeat (constructor; [lia|]); constructor|].
      repeat (split; [lia|]). split; [|constructor]. intros g G. injection G as <-. discriminate.
  - lia.
  - split; vm_compute; reflexivity.
Qed.
Example C65_case : exists f, elf_Write true 4 4 exUsed isort exA = Ok (f, false) /\ zlen f < 2 ^ 32 /\
  writable exA 4 exUsed /\ sorts isort /\
  (* the code, with the patched bytes cleared, at the first multiple of 8 *)
  slice f 56 10 = [0; 0; 0; 0; 5; 6; 0; 0; 0; 0] /\
  (* symbols: loop is local, in section 3 *)
  slice f 84 16 = [0; 0; 0; 27; 0; 0; 0; 2; 0; 0; 0; 0; 0; 0; 0; 3].
Proof.
  eexists. split; [vm_compute; reflexivity|]. split; [vm_compute; reflexivity|]. split; [apply exA_writable|]. split; [apply isort_sorts|].
  split; vm_compute; reflexivity.
Qed.

(** A patch of another width is written as one of 32 bits: a word at offset 0 makes the two bytes
    after it zero, and the linker will write over them. *)
Definition exWord : astate := exProgram false [1; 2; 7; 8] [APatch 0 PATCH_BE_16 (sym 3)].
Ltac at_words := let i := fresh in intro i; do 10 (destruct i as [|i]; [let v := fresh in let E := fresh in intros v E; first [discriminate E|injection E as <-; split; [vm_compute; split; congruence|]; split; [vm_compute; congruence|]; vm_compute; reflexivity]|]);
  let v := fresh in let E := fresh in intros v E; destruct i; discriminate E.
Definition firstSection (A : astate) : wsect := nth 0 (as_sections A) (WSect aPlain [] 0 0 0 0 [] 0 [] []).
Theorem C65_width_refuted : exists f h, elf_Write true 4 4 exUsed isort exWord = Ok (f, false) /\
  ws_data (firstSection exWord) = [1; 2; 7; 8] /\
  (forall p, In p (ws_patches (firstSection exWord)) -> ap_offset p = 0 /\ ap_type p = PATCH_BE_16) /\
  word_at true f 32 212 /\ header_at true f (212 + 40 * 3) h /\ sh_type h = SHT_PROGBITS /\ contents f h = [0; 0; 0; 0].
Proof.
  eexists. exists (Shdr 17 1 6 0 52 4 0 0 4 0). split; [vm_compute; reflexivity|]. split; [reflexivity|]. split; [intros p [<-|[]]; auto|].
  split; [split; [lia|]; split; [lia|]; vm_compute; reflexivity|]. split; [at_words|]. split; [reflexivity|]. vm_compute. reflexivity.
Qed.
Print Assumptions C65_width_refuted.

(** A number less an imported symbol becomes the symbol plus the number. *)
Definition exMinus : astate := exProgram false [0; 0; 0; 0] [APatch 0 PATCH_BE_32 (minus (num 5) (sym 3))].
Theorem C65_difference_refuted : exists f, elf_Write true 4 4 exUsed isort exMinus = Ok (f, false) /\
  (forall p F E, In p (ws_patches (firstSection exMinus)) -> -2000000 < e_sym E 3 < 2000000 -> den F E (ap_expr p) = Some (5 - e_sym E 3)) /\
  reloc_at true f 136 (EReloc 0 1 false 5) /\
  symbol_at true f (slice f 148 64) [3; 4] (56 + 16 * (1 + 1)) (ESymbol (chars "ext") 0 true Undefined).
Proof.
  eexists. split; [vm_compute; reflexivity|]. split; [|split; [at_words|]].
  - intros p F E [<-|[]] R. cbn [ap_expr minus num sym den un op_meaning]. unfold inr. destruct (_ && _) eqn:Q; [reflexivity|lia].
  - unfold symbol_at. cbn [ey_name ey_value ey_global ey_where]. split.
    { exists 32. split; [split; [lia|]; split; [lia|]; vm_compute; reflexivity|]. split; [lia|]. split; [lia|]. split; [|vm_compute; reflexivity].
      cbn. repeat (constructor; [lia|]). constructor. }
    split; [split; [vm_compute; split; congruence|]; split; [lia|]; vm_compute; reflexivity|]. split.
    { exists 0. split; [lia|]. vm_compute. reflexivity. }
    exists 0. split; [|reflexivity]. split; [lia|]. split; [lia|]. vm_compute. reflexivity.
Qed.
Print Assumptions C65_difference_refuted.

(** A label of the program plus a number is refused, although a relocation can say it and an
    imported symbol plus a number is accepted. *)
Definition exOffset : astate := exProgram false [0; 0; 0; 0] [APatch 0 PATCH_BE_32 (plus (sym 2) (num 4))].
Theorem C65_label_refuted : elf_Write true 4 4 exUsed isort exOffset = Err /\
  forall F E p, In p (ws_patches (firstSection exOffset)) -> -2000000 < e_sym E 2 < 2000000 ->
    exists x, den F E (ap_expr p) = Some x /\ u32 x = u32 (e_sym E 2 + 4).
Proof.
  split; [vm_compute; reflexivity|]. intros F E p [<-|[]] R. cbn [ap_expr plus num sym den un op_meaning]. unfold inr.
  destruct (_ && _) eqn:Q; [eexists; split; reflexivity|lia].
Qed.
Print Assumptions C65_label_refuted.

(** A section loaded at address 0 is reported as an error. *)
Definition exZero : astate :=
  AState 1 false false [] exSymbols [WSect (ASect true false false false false false 0 0 0 0) (chars "text") 0 0 0 0 [] 1 [1] []].
Example C65_load_zero : exists f, elf_Write true 4 4 (fun _ => false) isort
  (AState 1 false false [] [exCode] (as_sections exZero)) = Ok (f, true).
Proof. eexists. vm_compute. reflexivity. Qed.
