(** C67: what the assembler's Amiga executables and objects hold. *)
From Coq Require Import String ZArith List Bool Lia ZifyBool ZifyNat.
From Verif Require Import Base BaseFacts Arith AssignModel LinkModel ExprSpec ExprTree ExprModel ExprLayout ObjWriteModel MdefModel
  HunkModel HunkSpec ElfModel ElfSpec ElfProps AmiModel AmiSpec AmiProofs5 AmiProofs4.
Import ListNotations.
Open Scope string_scope.
Open Scope list_scope.
Open Scope Z_scope.

(** An executable the assembler writes is one AmigaDOS can load, with one hunk for each section,
    of the section's kind, memory type and size; and wherever the hunks are loaded, every
    longword of an expression has the value of the expression there, and all other bytes are
    the section's.  For programs assembled without debug information: see below. *)
Theorem C67_executable_partial : forall F A f, hunkable A -> as_debug A = false -> ami_WriteExecutable true A = Ok f ->
  exists hs, hunk_load f = Some hs /\ Forall2 (loads F A) (as_sections A) hs.
Proof. intros F A f. apply executable_ok. Qed.
Print Assumptions C67_executable_partial.

(** It is written whenever every value to be completed is a longword, a label of the program
    plus or less constants. *)
Theorem C67_executable_written : forall A, hunkable A -> has_groups A ->
  Forall (fun w => Forall (fun p => ap_type p = PATCH_BE_32 /\ movable A (ap_expr p)) (ws_patches w)) (as_sections A) ->
  exists f, ami_WriteExecutable true A = Ok f.
Proof. apply executable_total. Qed.
Print Assumptions C67_executable_written.

(** An object the assembler writes is a unit with the source's name and one hunk for each
    section, of the section's name, kind and size, that defines the exported labels of the
    section and no others, and lists all its labels for debuggers; and wherever the hunks are
    placed, and whatever the values of the imported names, every longword of an expression has
    the value of the expression then, and all other bytes are the section's. *)
Theorem C67_object_partial : forall F A source f, hunkable A -> linkable A -> no_zero source -> zlen source < 2 ^ 31 -> ami_WriteObject true A source = Ok f ->
  exists us, object_load f = Some (source, us) /\ length us = length (as_sections A) /\
    forall k w u, nth_error (as_sections A) k = Some w -> nth_error us k = Some u -> links F A k w u.
Proof. intros F A source f. apply object_ok. Qed.
Print Assumptions C67_object_partial.

Theorem C67_object_written : forall A source, hunkable A -> has_groups A ->
  Forall (fun w => Forall (fun p => ap_type p = PATCH_BE_32 /\ (movable A (ap_expr p) \/ imported_sum A (ap_expr p))) (ws_patches w)) (as_sections A) ->
  exists f, ami_WriteObject true A source = Ok f.
Proof. apply object_total. Qed.
Print Assumptions C67_object_written.

(** ** Cases *)
Definition amLabel : asym := ASym (chars "loop") (Symbol SymLabel false true false (Some 0%nat) 2) true true false (Some 0) 3 0 false false.
Definition amChip : asym := ASym (chars "GFX") (Symbol SymGroup false false false None 0) false false false (Some 0) 1 GROUP_TEXT true true.
Definition amSymbols (data : asym) : list asym := [exCode; data; amLabel; exImport; exBuf].
(** Section 0 has code, section 1 data: exBuf is at 8 in it. *)
Definition amProgram (debug : bool) (data : asym) (ps : list apatch) : astate :=
  AState 1 debug false [([97; 46; 115], 0)] (amSymbols data)
    [WSect aPlain (chars "text") 0 0 0 0 [] 10 [1; 2; 3; 4; 5; 6; 7; 8; 9; 10] ps;
     WSect aPlain (chars "vars") 1 0 0 0 [] 9 [9; 8; 7; 6; 5; 4; 3; 2; 1] []].
Definition amPatches : list apatch := [APatch 6 PATCH_BE_32 (plus (num 6) (sym 4)); APatch 1 PATCH_BE_32 (minus (sym 2) (num 1))].
Definition amLinked : list apatch := [APatch 6 PATCH_BE_32 (plus (sym 3) (num 6)); APatch 1 PATCH_BE_32 (sym 4)].
Definition patches_fit (ps : list apatch) : Prop :=
  Forall (fun p => 0 <= ap_offset p /\ ap_offset p + 4 <= 10 /\ opf (ap_expr p)) ps /\ ForallOrdPairs (fun p q => 4 <= Z.abs (ap_offset p - ap_offset q)) ps /\ zlen ps < 2 ^ 32.
Lemma amProgram_hunkable : forall debug data ps, patches_fit ps -> hunkable (amProgram debug data ps).
Proof.
  intros debug data ps (P1 & P2 & P3). split; [reflexivity|]. cbn [as_sections amProgram]. constructor; [|constructor; [|constructor]]; cbn [ws_usedSpace ws_data ws_patches ws_group].
  - split; [lia|]. split; [intros; reflexivity|]. split; [exact P3|]. split; [exact P1|exact P2].
  - split; [lia|]. split; [intros; reflexivity|]. split; [reflexivity|]. split; constructor.
Qed.
Lemma amPatches_fit : patches_fit amPatches /\ patches_fit amLinked.
Proof.
  assert (X : is_s32 6 /\ is_s32 1) by (unfold is_s32; lia). destruct X as [X6 X1].
  split; (split; [|split; [|reflexivity]]).
  1, 3: constructor; [|constructor; [|constructor]]; (split; [cbn; lia|]); (split; [cbn; lia|]); cbn; auto 10.
  all: constructor; [constructor; [cbn; lia|constructor]|constructor; [constructor|constructor]].
Qed.
Lemma amProgram_linkable : forall debug data ps, good_name (ay_name data) -> Forall (fun p => adds_only (ap_expr p)) ps -> linkable (amProgram debug data ps).
Proof.
  intros debug data ps GN AO. split; cbn [as_symbols as_sections amProgram amSymbols].
  - constructor; [|constructor; [exact GN|]].
    { split; [cbn; repeat (constructor; [lia|]); constructor|cbn; lia]. }
    repeat (constructor; [split; [cbn; repeat (constructor; [lia|]); constructor|cbn; lia]|]). constructor.
  - repeat (constructor; [split; [cbn; repeat (constructor; [lia|]); constructor|split; [reflexivity|first [exact AO|constructor]]]|]). constructor.
Qed.
(** The sections at 1000 and 2000, and ext is 77. *)
Definition amBase (k : nat) : Z := match k with O => 1000 | _ => 2000 end.
Definition amE : env := Env (fun s => match s with 2%nat => 1002 | 3%nat => 77 | 4%nat => 2008 | _ => 0 end) (fun _ => 0) 0.
Definition amValue (name : list Z) : Z := 77.
Lemma amE_ok : forall debug ps, env_ok (worldOf (amProgram debug amChip ps)) amBase amE.
Proof.
  intros debug ps. unfold env_ok. split; [|split; [|split; [|split; [|split; [|split]]]]].
  - intros [|[|[|[|[|s]]]]]; cbn; unfold is_s32; lia.
  - intros s; cbn; unfold is_s32; lia.
  - intros [|[|[|[|[|s]]]]]; cbn; try congruence. unfold symbolOf. cbn. destruct s; discriminate.
  - intros [|[|[|[|[|s]]]]]; cbn; try congruence. unfold symbolOf. cbn. destruct s; discriminate.
  - intros [|[|[|[|[|s]]]]]; cbn; try discriminate; eauto. unfold symbolOf. cbn. destruct s; discriminate.
  - intros [|[|[|[|[|s]]]]] k; cbn; try discriminate; intros H; try (injection H as <-; exists aPlain; cbn; repeat split; (lia || discriminate)).
    unfold symbolOf in H. cbn in H. destruct s; discriminate.
  - intros [|[|k]] a; cbn; [| |destruct k; discriminate]; intros H; injection H as <-; cbn; discriminate.
Qed.
Definition amA : astate := amProgram false amChip amPatches.
Example C67_executable_case : exists f h0 h1, hunkable amA /\ has_groups amA /\ env_ok (worldOf amA) amBase amE /\
  Forall (fun w => Forall (fun p => ap_type p = PATCH_BE_32 /\ movable amA (ap_expr p)) (ws_patches w)) (as_sections amA) /\
  ami_WriteExecutable true amA = Ok f /\ hunk_load f = Some [h0; h1] /\
  h_kind h0 = Code /\ h_kind h1 = Data /\ h_chip h0 = false /\ h_chip h1 = true /\
  (* loop - 1 is 1001 and 6 + buf is 2014 *)
  relocate (fun t => amBase (Z.to_nat t)) h0 = [1; 0; 0; 3; 233; 6; 0; 0; 7; 222; 0; 0] /\
  relocate (fun t => amBase (Z.to_nat t)) h1 = [9; 8; 7; 6; 5; 4; 3; 2; 1; 0; 0; 0].
Proof.
  do 3 eexists. split; [apply amProgram_hunkable, amPatches_fit|]. split; [repeat constructor; discriminate|]. split; [apply amE_ok|]. split.
  { constructor; [|constructor; constructor]. constructor; [|constructor; [|constructor]]; (split; [reflexivity|]).
    - apply movable_plus'; [reflexivity|]. eapply movable_label; reflexivity.
    - apply movable_minus; [|reflexivity]. eapply movable_label; reflexivity. }
  split; [vm_compute; reflexivity|]. split; [vm_compute; reflexivity|]. repeat (split; [reflexivity|]). split; vm_compute; reflexivity.
Qed.
Definition amL : astate := amProgram false amChip amLinked.
Example C67_object_case : exists f u0 u1, hunkable amL /\ linkable amL /\ has_groups amL /\ no_zero (chars "a.s") /\
  Forall (fun w => Forall (fun p => ap_type p = PATCH_BE_32 /\ (movable amL (ap_expr p) \/ imported_sum amL (ap_expr p))) (ws_patches w)) (as_sections amL) /\
  env_ok (worldOf amL) amBase amE /\
  (forall s y, nth_error (as_symbols amL) s = Some y -> imported y = true -> e_sym amE s = amValue (ay_name y)) /\
  ami_WriteObject true amL (chars "a.s") = Ok f /\ object_load f = Some (chars "a.s", [u0; u1]) /\
  ou_name u0 = chars "text" /\ ou_refs u0 = [(chars "ext", 6)] /\ ou_defs u0 = [(chars "loop", 2)] /\
  ou_name u1 = chars "vars" /\ ou_defs u1 = [(chars "buf", 8)] /\
  (* buf is 2008 and ext + 6 is 83 *)
  linked (fun t => amBase (Z.to_nat t)) amValue u0 = [1; 0; 0; 7; 216; 6; 0; 0; 0; 83; 0; 0].
Proof.
  do 3 eexists. split; [apply amProgram_hunkable, amPatches_fit|]. split.
  { apply amProgram_linkable; [split; [cbn; repeat (constructor; [lia|]); constructor|cbn; lia]|]. constructor; [cbn; auto|constructor; [cbn; auto|constructor]]. }
  split; [repeat constructor; discriminate|]. split; [cbn; repeat (constructor; [lia|]); constructor|]. split.
  { constructor; [|constructor; constructor]. constructor; [|constructor; [|constructor]]; (split; [reflexivity|]).
    - right. apply sum_plus; [|reflexivity]. eapply sum_import; reflexivity.
    - left. eapply movable_label; reflexivity. }
  split; [apply amE_ok|]. split.
  { intros [|[|[|[|[|s]]]]] y; cbn; intro Y; try (injection Y as <-; cbn; try discriminate; reflexivity). destruct s; discriminate. }
  split; [vm_compute; reflexivity|]. split; [vm_compute; reflexivity|]. repeat (split; [reflexivity|]). vm_compute. reflexivity.
Qed.

(** ** What the files get wrong *)
(** With debug information, the names of the sections are written where the file names the
    libraries it needs, and the executable cannot be loaded. *)
Theorem C67_debug_executable_refuted : exists A f, hunkable A /\ has_groups A /\ as_debug A = true /\
  Forall (fun w => Forall (fun p => ap_type p = PATCH_BE_32 /\ movable A (ap_expr p)) (ws_patches w)) (as_sections A) /\
  ami_WriteExecutable true A = Ok f /\ hunk_load f = None.
Proof.
  exists (amProgram true amChip amPatches). eexists. split; [apply amProgram_hunkable, amPatches_fit|]. split; [repeat constructor; discriminate|]. split; [reflexivity|]. split.
  { constructor; [|constructor; constructor]. constructor; [|constructor; [|constructor]]; (split; [reflexivity|]).
    - apply movable_plus'; [reflexivity|]. eapply movable_label; reflexivity.
    - apply movable_minus; [|reflexivity]. eapply movable_label; reflexivity. }
  split; [vm_compute; reflexivity|]. vm_compute. reflexivity.
Qed.
Print Assumptions C67_debug_executable_refuted.

(** A section for chip memory is an ordinary one in an object: the hunk's type does not say so,
    and the files are the same. *)
Definition amFast : asym := ASym (chars "GFX") (Symbol SymGroup false false false None 0) false false false (Some 0) 1 GROUP_TEXT true false.
Theorem C67_object_chip_refuted : exists f us, ay_shared amChip = true /\ ay_shared amFast = false /\
  ami_WriteObject true (amProgram false amChip amLinked) (chars "a.s") = Ok f /\
  ami_WriteObject true (amProgram false amFast amLinked) (chars "a.s") = Ok f /\
  object_load f = Some (chars "a.s", us) /\ Forall (fun u => h_chip (ou_hunk u) = false) us.
Proof. do 2 eexists. do 2 (split; [reflexivity|]). do 3 (split; [vm_compute; reflexivity|]). repeat constructor. Qed.
Print Assumptions C67_object_chip_refuted.

(** A constant less an imported name is written as the constant plus the name. *)
Definition amMinus : astate := amProgram false amChip [APatch 6 PATCH_BE_32 (minus (num 5) (sym 3))].
Theorem C67_negated_import_refuted : exists f u0 u1, hunkable amMinus /\ env_ok (worldOf amMinus) amBase amE /\
  (forall s y, nth_error (as_symbols amMinus) s = Some y -> imported y = true -> e_sym amE s = amValue (ay_name y)) /\
  ami_WriteObject true amMinus (chars "a.s") = Ok f /\ object_load f = Some (chars "a.s", [u0; u1]) /\
  (forall F, den F amE (minus (num 5) (sym 3)) = Some (-72)) /\
  long_at (linked (fun t => amBase (Z.to_nat t)) amValue u0) 6 = 82.
Proof.
  do 3 eexists. split.
  { apply amProgram_hunkable. split; [|split; [|reflexivity]]; [|constructor; constructor]. constructor; [|constructor]. split; [cbn; lia|]. split; [cbn; lia|].
    assert (is_s32 5) by (unfold is_s32; lia). cbn. auto 10. }
  split; [apply amE_ok|]. split.
  { intros [|[|[|[|[|s]]]]] y; cbn; intro Y; try (injection Y as <-; cbn; try discriminate; reflexivity). destruct s; discriminate. }
  split; [vm_compute; reflexivity|]. split; [vm_compute; reflexivity|]. split; [reflexivity|]. vm_compute. reflexivity.
Qed.
Print Assumptions C67_negated_import_refuted.

(** An exported constant is not in the object: exporting it makes no difference. *)
Definition amConstant (export : bool) : asym := ASym (chars "K") (Symbol SymEqu true false true None 42) export true false (Some 0) 5 0 false false.
Definition amWith (y : asym) : astate := AState 1 false false [] [exCode; y] [WSect aPlain (chars "text") 0 0 0 0 [] 2 [1; 2] []].
Theorem C67_exported_constant_refuted : exists f u, ay_export (amConstant true) = true /\ hunkable (amWith (amConstant true)) /\ linkable (amWith (amConstant true)) /\
  ami_WriteObject true (amWith (amConstant true)) (chars "a.s") = Ok f /\ ami_WriteObject true (amWith (amConstant false)) (chars "a.s") = Ok f /\
  object_load f = Some (chars "a.s", [u]) /\ ou_defs u = [].
Proof.
  do 2 eexists. split; [reflexivity|]. split.
  { split; [reflexivity|]. constructor; [|constructor]. cbn [ws_usedSpace ws_data ws_patches]. split; [lia|]. split; [reflexivity|]. split; [reflexivity|]. split; constructor. }
  split.
  { split; cbn [as_symbols as_sections amWith]; repeat (constructor; [split; [cbn; repeat (constructor; [lia|]); constructor|first [cbn; lia|split; [reflexivity|constructor]]]|]); constructor. }
  do 3 (split; [vm_compute; reflexivity|]). reflexivity.
Qed.
Print Assumptions C67_exported_constant_refuted.

(** A value that is not a longword cannot be written, although the linker's objects have it. *)
Theorem C67_width_refused : exists A, hunkable A /\ ami_WriteExecutable true A = Err /\ ami_WriteObject true A (chars "a.s") = Err /\
  as_sections A <> [] /\ Forall (fun w => Forall (fun p => movable A (ap_expr p)) (ws_patches w)) (as_sections A).
Proof.
  exists (amProgram false amChip [APatch 6 PATCH_BE_16 (sym 4)]). split.
  { apply amProgram_hunkable. split; [|split; [|reflexivity]]; [|constructor; constructor]. constructor; [|constructor]. split; [cbn; lia|]. split; [cbn; lia|]. cbn. auto. }
  split; [vm_compute; reflexivity|]. split; [vm_compute; reflexivity|]. split; [discriminate|].
  constructor; [|constructor; constructor]. constructor; [|constructor]. eapply movable_label; reflexivity.
Qed.
Print Assumptions C67_width_refused.
