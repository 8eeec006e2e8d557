(** The map file (C63) and the listing (C64). *)
From Coq Require Import String ZArith List Bool Lia ZifyBool ZifyNat Permutation Sorted.
From Verif Require Import Base BaseFacts PoolModel PoolSpec AssignModel AssignSpec Arith ExprModel LinkExprModel LinkModel LinkSpec LinkProps
  MdefModel FileModel ImageModel ImageSpec ImageProps WholeModel WholeSpec WholeProofs WholeProps ReportModel ReportSpec ReportProofs.
From Verif Require SectModel SectSpec SectProps ChipProps ObjWriteModel.
Import ListNotations.
Open Scope string_scope.
Open Scope list_scope.
Open Scope Z_scope.

(** C63. After a link that succeeds, the map file has, for each section in use, one line
    for every symbol defined in it and no other lines, in order of their addresses: the
    final address, the name, and the place in the source when it is known. *)
Theorem C63_map_file_partial : forall sorter F lv gp cf entry p p4 names,
  sorts sorter -> config_ok cf -> loaded p -> linkProgram F lv gp cf entry p = Ok p4 ->
  exists p1 p2, chosen p entry p1 /\ laid_out cf p1 p2 /\
    (comparable p2 -> (forall s, In s p2 -> sc_used s = true -> known_places names s) ->
     exists t, map_Write sorter names p4 = Ok t /\ map_file names p2 t).
Proof.
  intros sorter F lv gp cf entry p p4 names SO CF L H. destruct (linked_program F lv gp cf entry p p4 CF L H) as (p1 & p2 & CH & LO & R & _).
  exists p1, p2. split; [exact CH|]. split; [exact LO|]. intros CM KP. exact (map_written sorter names p2 p4 SO R CM KP).
Qed.
Print Assumptions C63_map_file_partial.

(** C64. The listing of the linked program, whose bytes are the ones in the files, has
    for each section in use one line for every entry of its line table, in order: the
    address, the first bytes there, and the place in the source. *)
Theorem C64_listing_partial : forall sorter F lv gp log2n cf entry p fs names,
  sorts sorter -> config_ok cf -> image_config_ok 0 cf -> loaded p -> linkBinary F lv gp log2n cf entry (-1) p = Ok fs ->
  exists p1 p2 p4, chosen p entry p1 /\ laid_out cf p1 p2 /\ linkProgram F lv gp cf entry p = Ok p4 /\
    Forall2 (fun s s4 => sc_place s4 = sc_place s /\ sc_lines s4 = sc_lines s) p2 p4 /\
    (forall o f, findFile fs o = Some f -> image_holds o p4 (f_data f)) /\
    ((forall s, In s p4 -> sc_used s = true -> lines_fine names s /\ from_the_start s /\ forall d, sc_data s = Some d -> zlen d = s_size (sc_place s) /\ Forall (fun b => 0 <= b < 256) d) ->
     exists t, list_Write sorter names p4 = Ok t /\ list_file names p4 t).
Proof.
  intros sorter F lv gp log2n cf entry p fs names SO CF IC L H.
  assert (HP : exists p4, linkProgram F lv gp cf entry p = Ok p4 /\ image_WriteBinary log2n p4 (-1) = Ok fs).
  { unfold linkBinary in H. unfold linkProgram. destruct (smart_Process _ p entry) as [p1| |]; try discriminate. cbn [bind] in *.
    destruct (assign_Process cf (map sc_place p1)) as [out| |]; try discriminate. cbn [bind] in *.
    destruct (rejoin p1 out) as [p2| |]; try discriminate. cbn [bind] in *.
    destruct (sect_ResolveUnresolved lv p2) as [p3| |]; try discriminate. cbn [bind] in *.
    destruct (patch_Process F false false lv gp false p3) as [p4| |]; try discriminate. exists p4. auto. }
  destruct HP as (p4 & HP & HW). destruct (linked_program F lv gp cf entry p p4 CF L HP) as (p1 & p2 & CH & LO & R & PL & HC).
  exists p1, p2, p4. split; [exact CH|]. split; [exact LO|]. split; [exact HP|]. split.
  { clear - R. induction R as [|a b l l' (X1 & X2 & _) R IH]; constructor; auto. }
  split.
  - (* the files *)
    unfold linkProgram in HP. destruct (smart_Process _ p entry) as [q1| |] eqn:S1; try discriminate. cbn [bind] in HP.
    destruct (assign_Process cf (map sc_place q1)) as [out| |] eqn:A; try discriminate. cbn [bind] in HP.
    destruct (rejoin q1 out) as [q2| |] eqn:RJ; try discriminate. cbn [bind] in HP.
    destruct (sect_ResolveUnresolved lv q2) as [q3| |] eqn:RS; try discriminate. cbn [bind] in HP.
    destruct (linked_facts F lv gp cf entry p q1 out q2 q3 p4 CF L S1 A RJ RS HP) as ((_ & SO1 & _) & _ & _ & _ & M4 & HC4).
    destruct (C21_linked_image cf 0 _ out p4 CF IC (Z.le_refl 0) SO1 A M4 HC4) as [IO ID].
    destruct (C21_image_contents log2n [] p4 IO ID) as (fs' & main & d & W & FM & FD & IH & OV).
    unfold image_WriteBinary in HW. change emptyFile with (File [] (zlen (@nil Z))) in HW. rewrite W in HW. injection HW as <-. cbn [app] in FD.
    intros o f FF. destruct (Z.eq_dec o MAIN) as [->|NE]; [rewrite FM in FF; injection FF as <-; rewrite FD; exact IH|apply (proj1 (OV o NE) f FF)].
  - intros HL. apply list_written; [exact SO|]. intros s I U. destruct (HL s I U) as (L1 & L2 & L3).
    apply In_nth_error in I as (k & N). destruct (ResolveProofs.Forall2_nth _ _ _ _ _ _ _ R N) as (s2 & N2 & E & _).
    unfold sc_used in U. rewrite E in U. destruct (PL s2 (nth_error_In _ _ N2) U) as (P1 & P2 & P3). rewrite E. split; [exact P1|]. split; [exact P2|]. split; [exact P3|]. split; [exact L1|]. split; [exact L2|]. rewrite <- E. exact L3.
Qed.
Print Assumptions C64_listing_partial.

(** ** Cases *)
(** A sort as the theorems ask for: by insertion. *)
Fixpoint insert {A : Type} (c : A -> A -> Z) (x : A) (l : list A) : list A :=
  match l with [] => [x] | y :: r => if c x y <=? 0 then x :: l else y :: insert c x r end.
Definition isort (A : Type) (c : A -> A -> Z) (l : list A) : list A := fold_right (insert c) [] l.
Lemma insert_perm : forall A c (x : A) l, Permutation (insert c x l) (x :: l).
Proof.
  intros A c x. induction l as [|y r IH]; [apply Permutation_refl|]. cbn [insert]. destruct (c x y <=? 0); [apply Permutation_refl|].
  eapply perm_trans; [apply perm_skip, IH|apply perm_swap].
Qed.
Lemma isort_sorts : sorts isort.
Proof.
  intros A c l O. assert (P : Permutation (isort A c l) l).
  { clear O. induction l as [|x l IH]; [constructor|]. cbn [isort fold_right]. eapply perm_trans; [apply insert_perm|]. apply perm_skip, IH. }
  split; [exact P|].
  assert (G : forall m, incl m l -> StronglySorted (fun a b => c a b <= 0) (isort A c m)).
  { induction m as [|x m IH]; intro M; [constructor|]. cbn [isort fold_right]. change (fold_right (insert c) [] m) with (isort A c m).
    assert (PM : Permutation (isort A c m) m).
    { clear. induction m as [|x l IH]; [constructor|]. cbn [isort fold_right]. eapply perm_trans; [apply insert_perm|]. apply perm_skip, IH. }
    specialize (IH (fun z Z => M z (or_intror Z))). pose proof (M x (or_introl eq_refl)) as X.
    assert (IM : forall z, In z (isort A c m) -> In z l) by (intros z Z; apply M; right; apply (Permutation_in _ PM), Z).
    revert IH IM. generalize (isort A c m). clear - X O. intros k SK. induction SK as [|y k SK IH F]; intro IM; [repeat constructor|].
    cbn [insert]. destruct O as (O1 & O2). destruct (c x y <=? 0) eqn:E.
    - constructor; [constructor; assumption|]. constructor; [lia|]. rewrite Forall_forall in *. intros z Z. apply (O2 x y z); auto; [apply IM; left; reflexivity|apply IM; right; exact Z|lia].
    - constructor; [apply IH; intros z Z; apply IM; right; exact Z|].
      apply (Permutation_Forall (Permutation_sym (insert_perm A c x k))). constructor; [|exact F].
      destruct (O1 x y X (IM y (or_introl eq_refl))) as (_ & Q). destruct (O1 y x (IM y (or_introl eq_refl)) X) as ([?|?] & ?); lia. }
  apply G, incl_refl.
Qed.
(** The program of C57's example with line tables and places in the source. *)
Definition rSym (name : list Z) (type v file line : Z) : lsym := LSym name type v false file line None [].
Definition rProg : program :=
  [LSect (wPlace 1 (-1) 4) 1 false [] [rSym wF SYM_IMPORT 0 no_file 0; rSym (chars "loop") SYM_LOCAL 3 0 12; rSym wMain SYM_EXPORT 0 0 10]
     [LLine 0 10 0; LLine 0 12 3] (Some [1; 0; 0; 4]) [wPatch];
   LSect (wPlace 2 (-1) 2) 1 false [] [] [] (Some [7; 7]) [];
   LSect (wPlace 3 1 7) 2 false [] [rSym wF SYM_EXPORT 2 no_file 0] [LLine 1 7 0; LLine 1 8 2] (Some [9; 8; 9; 10; 11; 12; 13]) [];
   LSect (Section_ 4 None (-1) (-1) (-1) (-1) (-1) 1 (-1) (-1) 0 false false None) 2 true [] [rSym (chars "minus") SYM_EXPORT (-3) 1 1] [] None []].
Definition rNames : list (list Z) := [chars "a.asm"; chars "lib/b.asm"].
Definition newline : string := String (Ascii.ascii_of_nat 10) "".
Lemma rProg_loaded : loaded rProg.
Proof.
  constructor.
  - intros s y Hs Hy. unfold rProg in Hs. in_cases; (split; [reflexivity|]; split; [left; reflexivity|discriminate]).
  - cbn. repeat constructor; cbn; lia.
  - intros s Hs. unfold rProg in Hs. in_cases; reflexivity.
  - repeat constructor; unfold section_ok; cbn; auto; lia.
  - intros s Hs. unfold rProg in Hs. in_cases; cbn; auto.
  - intros s Hs. unfold rProg in Hs. in_cases; left; reflexivity.
  - intros s Hs B. unfold rProg in Hs. in_cases; try discriminate; eexists; split; reflexivity.
  - intros s d Hs Hd. unfold rProg in Hs. in_cases; try discriminate; injection Hd as <-; split; repeat constructor; cbn; lia.
Qed.
Example C63_case : exists p4, linkProgram exFm exLv exGp wConfig (Some wMain) rProg = Ok p4 /\
  map_Write isort rNames p4 = Ok (chars ("$0000 | m     | a.asm:10" ++ newline ++ "$0003 | loop  | a.asm:12" ++ newline ++
    "$FFFFFFFD | minus | lib/b.asm:1" ++ newline ++ "$0042 | f     |" ++ newline)%string) /\
  list_Write isort rNames p4 = Ok (chars (" 0000  01 85 00         | a.asm:10" ++ newline ++ " 0003  04               | a.asm:12" ++ newline ++
    " 0040  09 08            | lib/b.asm:7" ++ newline ++ " 0042  09 0A 0B 0C ...  | lib/b.asm:8" ++ newline)%string).
Proof. eexists. split; [vm_compute; reflexivity|]. split; vm_compute; reflexivity. Qed.
(** It meets the conditions of the theorems. *)
Definition rFinal : program :=
  match (let! p1 := smart_Process 5 rProg (Some wMain) in let! out := assign_Process wConfig (map sc_place p1) in rejoin p1 out) with Ok p => p | _ => [] end.
Lemma all_comparable : forall p lo, - 2 ^ 31 < lo <= 0 ->
  Forall (fun s => Forall (fun y => lo <= address s y < lo + 2 ^ 31 /\ (own y = false -> ls_value y = 0)) (sc_symbols s)) p -> comparable p.
Proof.
  intros p lo LO H. exists lo. split; [exact LO|]. rewrite Forall_forall in H.
  intros s y I _ Y. pose proof (H s I) as Hs. rewrite Forall_forall in Hs. split; [|apply Hs, Y]. intros d x D.
  assert (IN : In d p /\ In x (sc_symbols d)).
  { inversion D as [_ | d' x' _ (p1 & p2 & y1 & y2 & E1 & E2 & _) | d' x' _ (p1 & p2 & y1 & y2 & E1 & E2 & _)]; subst; [auto|..];
      (split; [apply in_elt|rewrite E2; apply in_elt]). }
  destruct IN as (Id & Ix). pose proof (H d Id) as Hd. rewrite Forall_forall in Hd. apply Hd, Ix.
Qed.
Example C63_case_met : exists p1 out, smart_Process 5 rProg (Some wMain) = Ok p1 /\ assign_Process wConfig (map sc_place p1) = Ok out /\ rejoin p1 out = Ok rFinal /\
  List.length (filter sc_used rFinal) = 3%nat /\ comparable rFinal /\ (forall s, In s rFinal -> sc_used s = true -> known_places rNames s).
Proof.
  do 2 eexists. split; [vm_compute; reflexivity|]. split; [vm_compute; reflexivity|]. split; [vm_compute; reflexivity|]. split; [vm_compute; reflexivity|]. split.
  - apply (all_comparable rFinal (-3)); [lia|].
    assert (E : forallb (fun s => forallb (fun y => (-3 <=? address s y) && (address s y <? -3 + 2 ^ 31) && (own y || (ls_value y =? 0))) (sc_symbols s)) rFinal = true) by (vm_compute; reflexivity).
    rewrite forallb_forall in E. apply Forall_forall. intros s I. pose proof (E s I) as E1. rewrite forallb_forall in E1. apply Forall_forall. intros y Y.
    pose proof (E1 y Y) as E2. rewrite !andb_true_iff, orb_true_iff in E2. destruct E2 as ((A & B) & C). split; [lia|]. intros O. destruct C as [C|C]; [congruence|lia].
  - intros s I _ y Y. unfold rFinal in I. vm_compute in I. repeat (destruct I as [<-|I]; [|]); try contradiction; vm_compute in Y;
      repeat (destruct Y as [<-|Y]; [|]); try contradiction; cbn; (split; [lia|]); (first [left; reflexivity | right; split; [eexists; reflexivity|lia]]).
Qed.
Example C64_case_met : exists fs p4, linkBinary exFm exLv exGp Z.log2 wConfig (Some wMain) (-1) rProg = Ok fs /\ linkProgram exFm exLv exGp wConfig (Some wMain) rProg = Ok p4 /\
  forall s, In s p4 -> sc_used s = true -> lines_fine rNames s /\ from_the_start s /\ forall d, sc_data s = Some d -> zlen d = s_size (sc_place s) /\ Forall (fun b => 0 <= b < 256) d.
Proof.
  do 2 eexists. split; [vm_compute; reflexivity|]. split; [vm_compute; reflexivity|]. intros s I U.
  repeat (destruct I as [<-|I]; [|]); try contradiction; try discriminate U.
  all: (split; [intros l Hl; cbn in Hl; repeat (destruct Hl as [<-|Hl]; [|]); try contradiction; cbn; (split; [lia|]); (split; [lia|]); eexists; reflexivity|]).
  all: (split; [intros M N; cbn in M, N; first [congruence | cbn; eexists; split; [left; reflexivity|reflexivity]]|]).
  all: intros d Hd; try discriminate Hd; injection Hd as <-; (split; [reflexivity|]); repeat (constructor; [lia|]); constructor.
Qed.

(** ** Faults *)
(** Values 2^31 or more apart in a section overflow when they are compared. *)
Theorem C63_overflow_refuted : exists p p4, loaded p /\ linkProgram exFm exLv exGp wConfig None p = Ok p4 /\
  (forall s y, In s p -> In y (sc_symbols s) -> is_s32 (ls_value y)) /\ forall sorter names, map_Write sorter names p4 = UB.
Proof.
  exists [LSect (Section_ 1 None (-1) (-1) (-1) (-1) (-1) 1 (-1) (-1) 0 false false None) 1 false []
            [rSym (chars "low") SYM_EXPORT (-2) no_file 0; rSym (chars "high") SYM_EXPORT 0x7FFFFFFF no_file 0] [] None []].
  eexists. split; [|split; [vm_compute; reflexivity|]].
  - constructor; cbn.
    + intros s y Hs Hy. in_cases; (split; [reflexivity|]; split; [left; reflexivity|discriminate]).
    + repeat constructor; cbn; lia.
    + intros s Hs. in_cases; reflexivity.
    + repeat constructor; unfold section_ok; cbn; auto; lia.
    + intros s Hs. in_cases; cbn; auto.
    + intros s Hs. in_cases; left; reflexivity.
    + intros s Hs B. in_cases; discriminate.
    + intros s d Hs Hd. in_cases; discriminate.
  - split; [intros s y Hs Hy; in_cases; unfold is_s32; cbn; lia|]. intros sorter names. reflexivity.
Qed.
Print Assumptions C63_overflow_refuted.
(** On a machine with words of two bytes the assembler counts words in its line table and
    the linker takes them to be bytes: two words, each on its own line, are listed as
    $0000: 12, and $0001: 34 56 78. *)
Theorem C64_words_refuted : exists st m,
  SectModel.run [SectModel.DSection SectProps.code 0 SectSpec.plain; SectModel.DPosition 0 1; SectModel.DDw [SectModel.AExpr (expr_Const 0x1234)];
                 SectModel.DPosition 0 2; SectModel.DDw [SectModel.AExpr (expr_Const 0x5678)]] (SectSpec.initial 2 false SectProps.two_groups ChipProps.o_be) = Ok st /\
  SectModel.x_sections st = [m] /\ SectModel.m_data m = [0x12; 0x34; 0x56; 0x78] /\
  SectModel.m_lines m = [ObjWriteModel.ALine 0 1 0; ObjWriteModel.ALine 0 2 1] /\
  forall id used, list_Write isort [chars "a.asm"]
    [LSect (Section_ id wText 0 0 0 0 MAIN 2 (-1) (-1) 4 true used (Some 0%nat)) 1 false [] []
       (map (fun l => LLine (ObjWriteModel.al_file l) (ObjWriteModel.al_line l) (ObjWriteModel.al_offset l)) (SectModel.m_lines m)) (Some (SectModel.m_data m)) []] =
  Ok (chars (" 0000  12               | a.asm:1" ++ newline ++ " 0001  34 56 78         | a.asm:2" ++ newline)%string).
Proof. do 2 eexists. split; [vm_compute; reflexivity|]. split; [reflexivity|]. split; [reflexivity|]. split; [reflexivity|]. intros. vm_compute. reflexivity. Qed.
Print Assumptions C64_words_refuted.
(** Without a line for its first byte a section's first line shows the bytes from the start
    of the section: $0001 has 02, not 01. *)
Theorem C64_first_line_refuted : forall id, list_Write isort [chars "a.asm"]
    [LSect (Section_ id wText 0 0 0 0 MAIN 1 (-1) (-1) 2 true true (Some 0%nat)) 1 false [] [] [LLine 0 5 1] (Some [1; 2]) []] =
  Ok (chars (" 0001  01               | a.asm:5" ++ newline)%string).
Proof. intros. vm_compute. reflexivity. Qed.
Print Assumptions C64_first_line_refuted.
