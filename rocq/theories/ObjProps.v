(** C04 libraries, C05 object files, C06 older object files. *)
From Coq Require Import ZArith List Bool Lia ZifyBool ZifyNat.
From Verif Require Import Base BaseFacts XlibModel AssignModel Arith ExprModel LinkModel ObjModel ObjSpec ObjProofs
  ObjWriteModel ObjWriteSpec ObjWriteProofs.
Import ListNotations.
Open Scope Z_scope.

(** ** C06 *)

(** An object file of any version is read as the module it represents, with the
    defaults for what the version lacks. *)
Theorem C06_older_versions_read : forall depth v m st, module_ok v m -> room v m st ->
  obj_Read depth st (Some (module_bytes v m)) = Ok (after_module v m st).
Proof. intros. now apply read_file. Qed.
Print Assumptions C06_older_versions_read.

(** The same as the current version with the defaults written out. *)
Theorem C06_older_versions_mean_defaults : forall v m st, 0 <= v <= 6 ->
  after_module v m st = after_module 6 (with_defaults v m) st.
Proof. exact after_module_defaults. Qed.
Print Assumptions C06_older_versions_mean_defaults.

Definition exCode : ogroup := OGroup [67; 79; 68; 69] GROUP_TEXT FLAG_SHARED.
Definition exBss : ogroup := OGroup [66; 83; 83] GROUP_BSS 0.
Definition exModule : omodule :=
  OModule 2 [([97; 46; 115], 77)] [exCode; exBss]
    [OSect None [] (-1) (-1) (-1) (-1) false (-1) [OSym [75] SYM_EXPORT (-5) (Some 0) 3] [] 0 [] [];
     OSect (Some 0%nat) [77] 3 512 256 16 true 256
       [OSym [109] SYM_EXPORT 2 (Some 0) 7; OSym [120] SYM_IMPORT 0 None 0] [OLine 0 7 2] 3 [1; 0; 2]
       [OPatch 1 0 [31; 1; 0; 0; 0]];
     OSect (Some 1%nat) [86] (-1) (-1) (-1) (-1) false (-1) [] [] 9 [] []].
Definition exStart : lstate := LState 1 [([122], 5)] [].
Lemma exName : forall l, cstr l -> zlen l < 256 -> name_ok l.
Proof. intros l F L. split; assumption. Qed.
Ltac obj_ok := repeat match goal with
  | |- _ /\ _ => split | |- Forall _ _ => constructor | |- name_ok _ => apply exName | |- _ -> _ => intro
  | |- True => exact I
  end; cbn in *; unfold is_u32, is_s32, is_byte, zlen, SYM_EXPORT, SYM_IMPORT, FLAG_SHARED, FLAG_DATA, cstr, GROUP_TEXT, GROUP_BSS in *; cbn in *; try lia;
  try discriminate; auto; repeat constructor; lia.
Example C06_example_hypotheses : forall v, 0 <= v <= 6 -> module_ok v exModule /\ room v exModule exStart.
Proof.
  intros v V. split; [|cbn; unfold room, zlen; cbn; lia]. unfold module_ok, sect_ok_v, sym_ok_v, group_ok, line_ok, patch_ok.
  cbn [exModule om_wordSize om_files om_groups om_sections os_group os_name]. obj_ok.
Qed.
Example C06_example :
  obj_Read 0 exStart (Some (module_bytes 2 exModule)) = Ok (after_module 2 exModule exStart) /\
  map sc_root (l_prog (after_module 2 exModule exStart)) = [false; false; false] /\
  map sc_root (l_prog (after_module 6 exModule exStart)) = [false; true; false] /\
  map (fun s => s_cpuLocation (sc_place s)) (l_prog (after_module 0 exModule exStart)) = [-1; 512; -1] /\
  map (fun s => map ls_file (sc_symbols s)) (l_prog (after_module 6 exModule exStart)) = [[1]; [1; 4294967295]; []].
Proof. vm_compute. repeat split. Qed.

(** ** C05 *)

(** The assembler writes a file for every program it can express, and the linker
    reads it as a module that describes the program. *)
Theorem C05_object_file_round_trip : forall A b depth st,
  astate_ok A -> obj_Write A = Ok b -> zlen (l_files st) + zlen (as_files A) < 2 ^ 32 - 1 ->
  exists m, describes A m /\ obj_Read depth st (Some b) = Ok (after_module 6 m st).
Proof.
  intros A b depth st HA W R. destruct (obj_Write_spec A b HA W) as (m & -> & M & D). exists m. split; auto.
  apply read_file; auto. unfold room. destruct D as (_ & -> & _). destruct (as_debug A); auto.
  change (zlen []) with 0. pose proof (zlen_nonneg _ (as_files A)). lia.
Qed.
Print Assumptions C05_object_file_round_trip.

Theorem C05_object_file_written : forall A, astate_ok A ->
  (forall w p, In w (as_sections A) -> In p (ws_patches w) -> has_code (ap_expr p)) ->
  exists b, obj_Write A = Ok b.
Proof. exact obj_Write_total. Qed.
Print Assumptions C05_object_file_written.

(** Two sections, a reference between them, an imported symbol and an exported
    constant. *)
Definition exState : astate :=
  AState 1 true true [([97; 46; 115], 77); ([98], 1)]
    [ASym [67; 79; 68; 69] (Symbol SymGroup false false false None 0) false false false (Some 0) 1 GROUP_TEXT false false;
     ASym [66; 83; 83] (Symbol SymGroup false false false None 0) false false false (Some 0) 1 GROUP_BSS false true;
     ASym [75] (Symbol SymEqu true false true None 42) true true false (Some 0) 2 0 false false;
     ASym [109] (Symbol SymLabel false true true (Some 0%nat) 0) true true false (Some 0) 4 0 false false;
     ASym [118] (Symbol SymLabel false true true (Some 1%nat) 6) false true false (Some 1) 9 0 false false;
     ASym [120] (Symbol SymImport false true true None 0) false false false (Some 0) 3 0 false false]
    [WSect (ASect true true false false true false 4096 3 0 2) [77] 0 4096 0 0 [ALine 0 4 0; ALine 0 5 1] 4 [62; 0; 0; 0]
       [APatch 1 1 (ENode TOperation false OpAdd 0 0 (ENode TSymbol false OpNone 0 4 ENull ENull)
                      (ENode TSymbol false OpNone 0 5 ENull ENull));
        APatch 3 0 (ENode TOperation false OpBank 0 4 ENull ENull)];
     WSect (ASect false false false true false false 0 8 0 0) [86] 1 0 4 0 [] 8 [] []].
Lemma exUses : forall ws, ws = as_sections exState ->
  forall w p s, In w ws -> In p (ws_patches w) -> uses (ap_expr p) s ->
  exists y, nth_error (as_symbols exState) s = Some y /\ y_type (ay_sym y) <> SymGroup.
Proof.
  intros ws -> w p s I J U.
  assert (s = 4 \/ s = 5)%nat as [-> | ->].
  { cbn in I. destruct I as [<-|[<-|[]]]; cbn in J; [|tauto]. destruct J as [<-|[<-|[]]]; cbn in U; intuition congruence. }
  all: eexists; split; [reflexivity|discriminate].
Qed.
Example C05_example_hypotheses : astate_ok exState /\
  (forall w p, In w (as_sections exState) -> In p (ws_patches w) -> has_code (ap_expr p)).
Proof.
  split.
  - unfold astate_ok. split; [cbn; unfold is_byte; lia|]. split; [obj_ok|]. split; [cbn; lia|].
    split; [|split; [cbn; lia|split; [|split; [cbn; lia|left; reflexivity]]]].
    + cbn [as_symbols exState]. repeat apply Forall_cons; try apply Forall_nil.
      all: split; [obj_ok|]; split; [cbn; unfold is_s32; lia|].
      all: split; [intros _; split; [cbn; unfold is_u32; lia|eexists; split; [reflexivity|cbn; lia]]|].
      all: cbn; try discriminate; intros _; split; auto.
    + assert (E : forall w p, In w (as_sections exState) -> In p (ws_patches w) ->
        forall ids bs, writeExpression ids (ap_expr p) = Ok bs -> is_u32 (zlen bs)).
      { intros w p I J ids bs W. cbn in I. destruct I as [<-|[<-|[]]]; cbn in J; [|tauto].
        destruct J as [<-|[<-|[]]]; cbn [ap_expr writeExpression bind op_code] in W; apply ok_inj in W; subst bs;
          unfold is_u32, zlen, le32; cbn [length app]; lia. }
      apply Forall_forall. intros w I. unfold wsect_ok.
      assert (Forall (fun p => is_u32 (ap_offset p) /\ is_u32 (ap_type p) /\
        (forall ids bs, writeExpression ids (ap_expr p) = Ok bs -> is_u32 (zlen bs)) /\
        forall s, uses (ap_expr p) s ->
          exists y, nth_error (as_symbols exState) s = Some y /\ y_type (ay_sym y) <> SymGroup) (ws_patches w)).
      { apply Forall_forall. intros p J. split; [|split; [|split]].
        - cbn in I. destruct I as [<-|[<-|[]]]; cbn in J; [|tauto]. destruct J as [<-|[<-|[]]]; cbn; unfold is_u32; lia.
        - cbn in I. destruct I as [<-|[<-|[]]]; cbn in J; [|tauto]. destruct J as [<-|[<-|[]]]; cbn; unfold is_u32; lia.
        - intros. eapply E; eauto.
        - intros. eapply exUses; eauto. }
      cbn in I. destruct I as [<-|[<-|[]]].
      all: split; [obj_ok|]; split; [eexists; split; reflexivity|]; split; [reflexivity|].
      all: split; [cbn; unfold is_u32; lia|]; split; [cbn; intros g [= <-]; cbn; unfold GROUP_TEXT, GROUP_BSS; (reflexivity || discriminate)|].
      all: split; [cbn; unfold is_u32, zlen; cbn; lia|]; split; [cbn; obj_ok|]; split; [cbn; lia|]; assumption.
  - intros w p I J. cbn in I. destruct I as [<-|[<-|[]]]; cbn in J; [|tauto].
    destruct J as [<-|[<-|[]]]; cbn; repeat split; discriminate.
Qed.
Example C05_example : exists b, obj_Write exState = Ok b /\ exists st, obj_Read 0 (LState 0 [] []) (Some b) = Ok st /\
  map (fun s => map (fun y => (ls_name y, ls_type y, ls_value y)) (sc_symbols s)) (l_prog st) =
    [[([75], SYM_EXPORT, 42)];
     [([109], SYM_EXPORT, 0); ([118], SYM_LOCALIMPORT, 0); ([120], SYM_IMPORT, 0)];
     [([118], SYM_LOCALEXPORT, 6)]].
Proof. eexists. split; [vm_compute; reflexivity|]. eexists. split; vm_compute; reflexivity. Qed.

(** ** C04 *)

(** A library of object files, of any versions and names, is read like the files
    one after the other. *)
Theorem C04_library_is_its_modules : forall depth names ms st,
  length names = length ms -> Forall cstr names -> zlen ms < 2 ^ 32 ->
  Forall (fun vm => module_ok (fst vm) (snd vm)) ms -> rooms ms st ->
  let files := map (fun vm => module_bytes (fst vm) (snd vm)) ms in
  exists st', read_files depth st files = Ok st' /\
    obj_Read (S depth) st (Some (lib_Write (map (fun nf => Module (fst nf) (snd nf)) (combine names files)))) = Ok st'.
Proof.
  intros depth names ms st L C U F R files. exists (after_modules ms st). split; [now apply read_files_modules|].
  rewrite <- (read_library depth names ms st) by auto. do 3 f_equal. unfold files.
  clear - L. revert ms L. induction names as [|n ns IH]; intros [|m ms] L; try discriminate; [reflexivity|].
  cbn [combine map fst snd]. f_equal. apply IH. now injection L.
Qed.
Print Assumptions C04_library_is_its_modules.
Example C04_example :
  let ms := [(6, exModule); (3, exModule)] in
  let lib := lib_Write [Module [97] (module_bytes 6 exModule); Module [98; 98] (module_bytes 3 exModule)] in
  Forall (fun vm => module_ok (fst vm) (snd vm)) ms /\ rooms ms exStart /\
  obj_Read 1 exStart (Some lib) = Ok (after_modules ms exStart) /\ zlen (l_prog (after_modules ms exStart)) = 6.
Proof.
  split; [|split; [|split]].
  - constructor; [|constructor; [|constructor]]; apply C06_example_hypotheses; cbn; lia.
  - cbn. unfold room, zlen. cbn. lia.
  - vm_compute. reflexivity.
  - reflexivity.
Qed.

(** An object file may consist of several modules; in a library it cannot. *)
Theorem C04_concatenated_modules_refuted : exists a b : list Z, exists st,
  read_files 0 exStart [a; b] = Ok st /\ obj_Read 1 exStart (Some (lib_Write [Module [97] a; Module [98] b])) <> Ok st.
Proof.
  exists (module_bytes 6 exModule ++ module_bytes 6 exModule), (module_bytes 6 exModule).
  exists (after_modules [(6, exModule); (6, exModule); (6, exModule)] exStart). split.
  - vm_compute. reflexivity.
  - vm_compute. discriminate.
Qed.
Print Assumptions C04_concatenated_modules_refuted.
