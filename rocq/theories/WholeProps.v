(** Property C57: from the source to the bytes of the linked file. *)
From Coq Require Import ZArith List Bool Lia ZifyBool ZifyNat Permutation.
From Verif Require Import Base BaseFacts PoolModel PoolSpec AssignModel AssignSpec Arith ExprSpec ExprModel ExprLayout LinkExprModel
  LinkLayout ExprProps LinkModel LinkSpec LinkProps FileModel ImageModel ImageSpec ImageProps WholeModel WholeSpec WholeProofs.
Import ListNotations.
Open Scope Z_scope.

(** C57. After a link that succeeds: the sections that are needed are in use, each
    has a place of its own that its group allows, and for every section in the image
    the file holds, at the place of the section, the bytes that were assembled and
    at every patch the value of the source expression for the final addresses and
    banks of the symbols' definitions, a value that fits.  Everything else is $FF. *)
Theorem C57_linked_program : forall F lv gp log2n cf entry p fs,
  fmath_ok F -> config_ok cf -> image_config_ok 0 cf -> loaded p ->
  linkBinary F lv gp log2n cf entry (-1) p = Ok fs ->
  exists p1 p2, chosen p entry p1 /\ laid_out cf p1 p2 /\
    (exists main, findFile fs MAIN = Some main) /\
    (forall o s, In s p2 -> imaged o s = true -> exists f, findFile fs o = Some f) /\
    forall o f, findFile fs o = Some f ->
      (forall i s, nth_error p2 i = Some s -> imaged o s = true -> section_in_file F p2 i s (f_data f)) /\
      (forall k, 0 <= k < zlen (f_data f) -> (forall s, In s p2 -> imaged o s = true -> ImageSpec.covers s k = false) ->
         at_ (f_data f) k = 255).
Proof. exact linked_ok. Qed.
Print Assumptions C57_linked_program.

(** *** An example.  File 1: main has dw f * 2 + BANK(f).  File 2: f, in bank 1, two
    bytes into its section.  A third section is not needed. *)
Definition wF : list Z := [102].
Definition wMain : list Z := [109].
Definition wText : option ogroup := Some (OGroup [67] GROUP_TEXT 0).
Definition wPlace (id bank size : Z) : section :=
  Section_ id wText (-1) bank (-1) (-1) (-1) 1 (-1) (-1) size false false None.
Definition wTerm : term := Bin OpAdd (Bin OpMul (Sym 0) (Num 2)) (BankOf 0).
Definition wBytes : list Z := [31; 0; 0; 0; 0; 30; 2; 0; 0; 0; 7; 33; 0; 0; 0; 0; 1].
Definition wPatch : lpatch := LPatch 1 1 wBytes None.
Definition wProg : program :=
  [LSect (wPlace 1 (-1) 4) 1 false [] [exSym wF SYM_IMPORT 0; exSym wMain SYM_EXPORT 0] [] (Some [1; 0; 0; 4]) [wPatch];
   LSect (wPlace 2 (-1) 2) 1 false [] [] [] (Some [7; 7]) [];
   LSect (wPlace 3 1 3) 2 false [] [exSym wF SYM_EXPORT 2] [] (Some [9; 8; 9]) []].
Definition wConfig : config := Config [Pool 0 MAIN 0 0 8 false; Pool 12 MAIN 64 1 8 false] [Group [67] [0; 1]%nat].
Lemma wProg_loaded : loaded wProg.
Proof.
  constructor.
  - intros s y Hs Hy. unfold wProg in Hs. in_cases; (split; [reflexivity|]; split; [left; reflexivity|discriminate]).
  - cbn. repeat constructor; cbn; lia.
  - intros s Hs. unfold wProg in Hs. in_cases; reflexivity.
  - repeat constructor; unfold section_ok; cbn; auto; lia.
  - intros s Hs. unfold wProg in Hs. in_cases; cbn; left; auto.
  - intros s Hs. unfold wProg in Hs. in_cases; left; reflexivity.
  - intros s Hs _. unfold wProg in Hs. in_cases; eexists; split; reflexivity.
  - intros s d Hs Hd. unfold wProg in Hs. in_cases; injection Hd as <-; split; repeat constructor; cbn; lia.
Qed.
Lemma wConfig_ok : config_ok wConfig /\ image_config_ok 0 wConfig.
Proof.
  split; [split; repeat constructor; cbn; lia|].
  split; [repeat (apply Forall_cons || apply Forall_nil); cbn; right; lia|].
  intros i j p q k N I J _ _ _ A B.
  destruct i as [|[|i]]; cbn in I; try (destruct i; discriminate); injection I as <-;
  destruct j as [|[|j]]; cbn in J; try (destruct j; discriminate); injection J as <-; cbn in *; lia.
Qed.
(** f ends up at 66, so the word is 133; section 2 is left out. *)
Example C57_example : exists fs f, linkBinary exFm exLv exGp Z.log2 wConfig (Some wMain) (-1) wProg = Ok fs /\
  findFile fs MAIN = Some f /\ f_data f = [1; 133; 0; 4; 255; 255; 255; 255; 255; 255; 255; 255; 9; 8; 9].
Proof. do 2 eexists. split; [vm_compute; reflexivity|]. split; [vm_compute; reflexivity|]. reflexivity. Qed.
(** The patch is what the assembler writes for the expression, and the layout of the
    linked program gives the expression its meaning. *)
Definition wWorld : world := World (fun _ => Symbol SymImport false true true None 0) [exSect0].
Definition wEnv : env := Env (fun _ => 66) (fun _ => 1) 1.
Definition wS (id loc bank image size : Z) (used : bool) (file : Z) (ys : list lsym) (d : list Z) (qs : list lpatch) (k : option nat) : lsect :=
  LSect (Section_ id wText (if used then loc else -1) (if used then bank else -1) (if used then loc else -1)
    (if used then image else -1) (if used then MAIN else -1) 1 (-1) (-1) size used used k) file false [] ys [] (Some d) qs.
Definition wFinal : program :=
  [wS 2 0 0 0 2 false 1 [] [7; 7] [] None;
   wS 1 0 0 0 4 true 1 [exSym wF SYM_IMPORT 0; exSym wMain SYM_EXPORT 0] [1; 0; 0; 4] [wPatch] (Some 0%nat);
   wS 3 64 1 12 3 true 2 [exSym wF SYM_EXPORT 2] [9; 8; 9] [] (Some 1%nat)].
Example C57_example_final : exists p1 out,
  smart_Process 4 wProg (Some wMain) = Ok p1 /\ assign_Process wConfig (map sc_place p1) = Ok out /\
  rejoin p1 out = Ok wFinal.
Proof. do 2 eexists. split; [vm_compute; reflexivity|]. split; [vm_compute; reflexivity|]. vm_compute. reflexivity. Qed.
Example C57_example_layout :
  assembled exFm wEnv Z.of_nat wTerm wBytes /\
  (exists s, nth_error wFinal 1 = Some s /\ imaged MAIN s = true /\ In wPatch (sc_patches s) /\
     layout wFinal 1 s wPatch Z.of_nat wEnv wTerm) /\
  meaning exFm wEnv wTerm = Some 133.
Proof.
  split; [|split].
  - split; [cbn; unfold is_s32; lia|]. split; [cbn; lia|].
    exists wWorld, (fun _ => 0), None, (fun _ => 0), 0, 0%nat, exSect0, 1. do 3 eexists.
    split; [|split; [exact I|split; [split; reflexivity|split; [|split; [|split]]]]].
    + unfold env_ok, wWorld, wEnv. cbn. split; [unfold is_s32; lia|]. split; [unfold is_s32; lia|].
      split; [discriminate|]. split; [discriminate|]. split; [discriminate|]. split; [discriminate|].
      intros [|[|k]] a H L; cbn in H; try discriminate. injection H as <-. discriminate.
    + intros s Hs. split; [reflexivity|discriminate].
    + vm_compute. reflexivity.
    + vm_compute. reflexivity.
    + vm_compute. reflexivity.
  - eexists. split; [reflexivity|]. split; [reflexivity|]. split; [left; reflexivity|].
    assert (D : means wFinal 1 (nth 1 wFinal (wS 0 0 0 0 0 false 0 [] [] [] None)) Z.of_nat 0 (nth 2 wFinal (wS 0 0 0 0 0 false 0 [] [] [] None)) (exSym wF SYM_EXPORT 2)).
    { exists (exSym wF SYM_IMPORT 0). split; [split; reflexivity|]. split; [|unfold is_s32; cbn; lia].
      apply def_import; [reflexivity|]. exists (firstn 2 wFinal), [], [], []. split; [reflexivity|]. split; [reflexivity|].
      split; [left; reflexivity|]. split; [split; reflexivity|]. split; [intros x' []|].
      intros d' x' Hd _ Hx. cbn in Hd. in_cases; cbn; intros [? ?]; discriminate. }
    constructor.
    + reflexivity.
    + intros n Hn. cbn in Hn. destruct Hn as [<-|[]]. do 2 eexists. split; [exact D|]. reflexivity.
    + intros n Hn. cbn in Hn. destruct Hn as [<-|[]]. do 2 eexists. split; [exact D|]. split; [reflexivity|discriminate].
  - reflexivity.
Qed.
