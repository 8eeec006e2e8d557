(** Data directives (C31) and sections (C32) in the assembler. *)
From Coq Require Import ZArith List Bool Lia ZifyBool Permutation.
From Verif Require Import Base BaseFacts Arith ExprModel ObjWriteModel OptModel SectModel SectSpec SectProofs SectTouch SectErrors
  SectRun SectBss.
Import ListNotations.
Open Scope Z_scope.

(** ** C31 *)

(** Data directives in a section with data append exactly their bytes, in the byte
    order selected, record a patch for each value not yet known, advance the program
    counter by the number of words, report no error and change nothing else. *)
Theorem C31_data : forall ds st k m limit,
  current_section st k m GText -> section_fine GText m ->
  x_wordSize st = 1 \/ x_wordSize st = 2 -> is_byte (o_fill (x_opts st)) -> (x_wordSize st | m_used m) ->
  Forall (data_ok (x_wordSize st) limit) ds ->
  m_used m + zlen (emitted_all (x_opts st) (m_used m) ds) <= limit -> limit <= max_size ->
  exists st' m', run ds st = Ok st' /\ nth_error (x_sections st') k = Some m' /\
    m_data m' = m_data m ++ emitted_all (x_opts st) (m_used m) ds /\
    m_used m' = zlen (m_data m') /\
    Permutation (m_patches m') (m_patches m ++ patches_all (x_opts st) (m_used m) ds) /\
    m_pc m' = u32 (m_pc m + zlen (emitted_all (x_opts st) (m_used m) ds) / x_wordSize st) /\
    same_identity m m' /\ rest_same k st st'.
Proof.
  intros ds st k m limit C F W B V O L M.
  destruct (run_data ds st k m limit C F W B V O L M) as (st' & m' & R).
  destruct R as (R1 & R2 & R3 & R4 & R5 & R6 & R7 & R8 & R9 & R10 & R11 & R12 & R13 & R14).
  exists st', m'. split; [exact R1|]. split; [apply R2|]. split; [exact R4|]. split; [apply R3|].
  split; [exact R5|]. split; [exact R6|]. split; assumption.
Qed.
Print Assumptions C31_data.

(** Reserving space in a section without data: it grows by the same amount, and no
    bytes are stored. *)
Theorem C31_reserve : forall ds st k m limit,
  current_section st k m GBss -> section_fine GBss m ->
  x_wordSize st = 1 \/ x_wordSize st = 2 -> (x_wordSize st | m_used m) ->
  Forall (reserve_ok (x_wordSize st) limit) ds ->
  m_used m + zlen (emitted_all (x_opts st) (m_used m) ds) <= limit -> limit < 2 ^ 32 ->
  exists st' m', run ds st = Ok st' /\ nth_error (x_sections st') k = Some m' /\
    m_used m' = m_used m + zlen (emitted_all (x_opts st) (m_used m) ds) /\
    m_pc m' = u32 (m_pc m + zlen (emitted_all (x_opts st) (m_used m) ds) / x_wordSize st) /\
    m_data m' = [] /\ m_patches m' = m_patches m /\ same_identity m m' /\ rest_same k st st'.
Proof.
  intros ds st k m limit C F W V O L M.
  destruct (run_reserves ds st k m limit C F W V O L M) as (st' & m' & R & (B1&B2&B3&B4&B5&B6&B7&B8&B9)).
  exists st', m'. split; [exact R|]. split; [apply B1|]. split; [exact B5|]. split; [exact B6|].
  split; [apply B2|]. split; [exact B4|]. split; assumption.
Qed.
Print Assumptions C31_reserve.

(** A number in a section without data is reported and stores nothing. *)
Theorem C31_no_data_in_bss : forall st k m n v,
  current_section st k m GBss -> (n = 1%nat /\ x_wordSize st = 1) \/ n = 2%nat \/ n = 4%nat ->
  x_wordSize st = 1 \/ x_wordSize st = 2 -> -128 <= v <= 127 ->
  step (match n with 1%nat => DDb | 2%nat => DDw | _ => DDl end [AExpr (expr_Const v)]) st =
  Ok (err_Error ERROR_SECTION_DATA st).
Proof.
  intros st k m n v (C1 & C2 & C3) N W V.
  assert (R : forall low high, low <= -128 -> 127 <= high ->
    exists e, expr_CheckRange (expr_Const v) low high = Ok e /\ isNull e = false /\ expr_IsConstant e = true).
  { intros low high A B. unfold expr_CheckRange, expr_LowLimit, expr_HighLimit. cbn.
    replace (v <? low) with false by lia. cbn. replace (v >? high) with false by lia.
    eexists. split; [reflexivity|]. split; reflexivity. }
  assert (G : forall bs f st1, x_wordSize st <= zlen bs -> zlen bs <> 0 ->
    f (err_Error ERROR_SECTION_DATA st) = Ok st1 -> output bs None f st = Ok st1).
  { intros bs f st1 A B E. unfold output. replace (x_wordSize st >? zlen bs) with false by lia.
    unfold checkAvailableSpace. replace (zlen bs =? 0) with false by lia. replace (x_wordSize st >? zlen bs) with false by lia.
    rewrite C1. unfold currentSectionType. rewrite C1, C2, C3. cbn [bind]. rewrite C1, C2, C3. exact E. }
  destruct N as [[-> W1]|[-> | ->]]; cbn [step handleArgs].
  - cbn [handleDb]. destruct (R (-128) 255) as (e & E1 & E2 & E3); try lia.
    unfold range_checked. cbn [isNull expr_Const]. fold (expr_Const v). rewrite E1. cbn [bind].
    unfold sect_OutputExpr8. replace (x_wordSize st >? 1) with false by lia. rewrite E2, E3.
    unfold sect_OutputConst8. rewrite (G _ _ (err_Error ERROR_SECTION_DATA st)); try reflexivity; cbn; lia.
  - cbn [handleDw]. destruct (R (-32768) 65535) as (e & E1 & E2 & E3); try lia.
    unfold range_checked. cbn [isNull expr_Const]. fold (expr_Const v). rewrite E1. cbn [bind].
    unfold sect_OutputExpr16. replace (x_wordSize st >? 2) with false by lia. rewrite E2, E3.
    unfold sect_OutputConst16. rewrite (G _ _ (err_Error ERROR_SECTION_DATA st)); try reflexivity;
      destruct (o_endianness (x_opts st)); cbn; lia.
  - cbn [handleDl]. unfold sect_OutputExpr32. replace (x_wordSize st >? 4) with false by lia.
    cbn [isNull expr_IsConstant expr_Const]. unfold sect_OutputConst32. rewrite (G _ _ (err_Error ERROR_SECTION_DATA st)); try reflexivity;
      destruct (o_endianness (x_opts st)); cbn; lia.
Qed.
Print Assumptions C31_no_data_in_bss.

(** A known number that does not fit the cell is reported, and never stored. *)
Theorem C31_out_of_range : forall st n e st',
  (n = 1%nat /\ (e_v e < -128 \/ 255 < e_v e)) \/ (n = 2%nat /\ (e_v e < -32768 \/ 65535 < e_v e)) ->
  e <> ENull -> expr_IsConstant e = true ->
  step (match n with 1%nat => DDb | _ => DDw end [AExpr e]) st = Ok st' ->
  In ERROR_OPERAND_RANGE (x_errors st') /\
  step (match n with 1%nat => DDb | _ => DDw end [AExpr (expr_Const 0)]) (err_Error ERROR_OPERAND_RANGE st) = Ok st'.
Proof.
  intros st n e st' N NE C H.
  assert (R : forall low high st1, low <= high -> e_v e < low \/ high < e_v e ->
    range_checked e low high st1 = Ok (expr_Const 0, err_Error ERROR_OPERAND_RANGE st1)).
  { intros low high st1 A B. unfold range_checked, expr_CheckRange, expr_LowLimit, expr_HighLimit.
    replace (isNull e) with false by (destruct e; [congruence|reflexivity]).
    rewrite C. cbn [isNull orb andb expr_IsConstant expr_Const e_v].
    destruct (Z.ltb_spec (e_v e) low) as [L|L]; cbn [bind]; [reflexivity|].
    cbn [isNull orb andb expr_IsConstant expr_Const e_v node2].
    rewrite C. cbn [andb]. replace (e_v e >? high) with true by lia. reflexivity. }
  split; cycle 1.
  - destruct N as [[-> N]|[-> N]]; cbn [step handleArgs handleDb handleDw] in *;
      rewrite R in H by lia; cbn [bind] in H;
      unfold range_checked; cbn -[sect_OutputExpr8 sect_OutputExpr16 err_Error expr_Const].
    + exact H.
    + exact H.
  - destruct N as [[-> N]|[-> N]]; cbn [step handleArgs handleDb handleDw] in H;
      rewrite R in H by lia; cbn [bind] in H.
    all: match type of H with (let! s := ?x in _) = _ => destruct x as [s1| |] eqn:E; try discriminate end.
    all: cbn [bind handleArgs] in H; injection H as <-.
    + destruct (expr8_keeps _ _ _ E) as [l ->]. cbn. rewrite <- app_assoc. apply in_or_app. right. left. reflexivity.
    + destruct (expr16_keeps _ _ _ E) as [l ->]. cbn. rewrite <- app_assoc. apply in_or_app. right. left. reflexivity.
Qed.
Print Assumptions C31_out_of_range.

(** Nothing reported is forgotten: the errors of a source are those of its beginning
    and further ones. *)
Theorem C31_errors_stay : forall before after st mid st',
  run before st = Ok mid -> run (before ++ after) st = Ok st' ->
  exists l, x_errors st' = x_errors mid ++ l.
Proof.
  intros before after st mid st' H. revert st H. induction before as [|d l IH]; intros st H H1.
  - cbn in H. inversion H; subst. exact (run_errors after mid st' H1).
  - cbn [run app] in *. destruct (step d st) as [s| |]; try discriminate. exact (IH s H H1).
Qed.
Print Assumptions C31_errors_stay.

(** Whatever the source, in any state the assembler reaches every section's size is
    the number of bytes stored in it, sections without data hold none, and with one
    byte words the program counter equals the size. *)
Theorem C31_bookkeeping : forall ds w banks groups o st, 0 < w ->
  run ds (initial w banks groups o) = Ok st ->
  forall k m, nth_error (x_sections st) k = Some m ->
  exists t, groups (ws_group (m_w m)) = Some t /\
    (t = GText -> m_used m = zlen (m_data m)) /\ (t = GBss -> m_data m = []) /\
    (w = 1 -> m_pc m = m_used m).
Proof.
  intros ds w banks groups o st W R k m N.
  assert (F0 : state_fine (initial w banks groups o)) by (intros [|j] x X; discriminate).
  destruct (run_keeps _ _ _ R W F0) as (A & B & F & _). cbn in A, B.
  destruct (F k m N) as (t & T & S & P). rewrite A in P. rewrite B in T. exists t.
  split; [exact T|]. destruct S as (_ & _ & _ & S). split; [intros ->; apply S|]. split; [intros ->; exact S|exact P].
Qed.
Print Assumptions C31_bookkeeping.

(** ** C32 *)

(** Section opened again and again: each section ends up with the bytes of its own
    directives, in the order of the source. *)
Theorem C32_blocks : forall w limit banks groups o g blocks,
  groups g = Some GText -> w = 1 \/ w = 2 -> is_byte (o_fill o) -> limit <= max_size ->
  Forall (fun b => Forall (data_ok w limit) (snd b)) blocks ->
  Forall (fun b => Forall no_options (snd b)) blocks ->
  (forall n, zlen (emitted_all o 0 (of_name n blocks)) <= limit) ->
  exists st, run (program g blocks) (initial w banks groups o) = Ok st /\ x_errors st = [] /\
    NoDup (map (fun m => ws_name (m_w m)) (x_sections st)) /\
    (forall n, In n (map (fun m => ws_name (m_w m)) (x_sections st)) <-> In n (map fst blocks)) /\
    (forall m, In m (x_sections st) ->
       let own := of_name (ws_name (m_w m)) blocks in
       ws_group (m_w m) = g /\ m_data m = emitted_all o 0 own /\
       Permutation (m_patches m) (patches_all o 0 own) /\ m_pc m * w = m_used m).
Proof.
  intros w limit banks groups o g blocks Hg Hw Hf Hl O N L.
  destruct (run_blocks w limit banks groups o g Hg Hw Hf Hl blocks O N L) as (st & R & H).
  destruct H as (A1 & A2 & A3 & A4 & A5 & A6 & A7). exists st.
  split; [exact R|]. split; [exact A4|]. split; [exact A5|]. split; [exact A6|].
  intros m M. rewrite Forall_forall in A7. destruct (A7 m M) as (B1 & B2 & B3 & B4 & B5 & B6).
  split; [exact B1|]. split; [exact B4|]. split; assumption.
Qed.
Print Assumptions C32_blocks.

(** A directive changes no section but the current one, and never removes or changes
    bytes or patches already there; a directive that selects a section changes none. *)
Theorem C32_other_sections : forall d st st', step d st = Ok st' -> 0 < x_wordSize st -> state_fine st ->
  forall j m, nth_error (x_sections st) j = Some m ->
  exists m', nth_error (x_sections st') j = Some m' /\ extended m m' /\
    (x_current st <> Some j -> m' = m) /\ (switching d -> m' = m).
Proof.
  intros d st st' H W F j m N. destruct (step_safe d st st' H W F) as (_ & _ & _ & A).
  destruct (A j m N) as (m' & B & C & D). exists m'. split; [exact B|]. split; [exact C|].
  split; [intro Q; apply D; left; exact Q|]. intro Q. apply D. right. destruct d; try contradiction; reflexivity.
Qed.
Print Assumptions C32_other_sections.

(** Whatever happens between, a section keeps what it holds. *)
Theorem C32_extended : forall ds st st', run ds st = Ok st' -> 0 < x_wordSize st -> state_fine st ->
  forall j m, nth_error (x_sections st) j = Some m ->
  exists m', nth_error (x_sections st') j = Some m' /\ extended m m'.
Proof. intros ds st st' H W F. exact (proj2 (proj2 (proj2 (run_keeps ds st st' H W F)))). Qed.
Print Assumptions C32_extended.

(** Between PUSHS and the matching POPS anything may happen, including other pairs:
    afterwards the current section, the scope of local labels and the stack are what
    they were. *)
Theorem C32_stack : forall ds st st', nested ds -> 0 < x_wordSize st -> state_fine st ->
  run (DPushs :: ds ++ [DPops]) st = Ok st' ->
  x_current st' = x_current st /\ x_scope st' = x_scope st /\ x_stack st' = x_stack st.
Proof.
  intros ds st st' N W F H. cbn [run step bind] in H. rewrite run_app in H.
  destruct (run ds (sect_Push st)) as [st1| |] eqn:R; try discriminate. cbn [bind run step] in H.
  pose proof (nested_stack _ N _ _ R W F) as Q. cbn in Q. unfold handlePops, sect_Pop in H. rewrite Q in H.
  inversion H; subst. cbn. auto.
Qed.
Print Assumptions C32_stack.

(** POPS without PUSHS is reported and does nothing else. *)
Theorem C32_unmatched : forall st, x_stack st = [] -> step DPops st = Ok (err_Error ERROR_SECTION_MISSING st).
Proof. intros st E. cbn [step]. unfold handlePops, sect_Pop. rewrite E. reflexivity. Qed.
Print Assumptions C32_unmatched.

(** ** Cases *)

Definition o_le : options := Options LittleEndian [48; 49] [48; 49; 50; 51] 255 1 [] [] true false false.
Definition two_groups (n : nat) : option gtype := match n with 0%nat => Some GText | 1%nat => Some GBss | _ => None end.
Definition code : list Z := [67]. Definition data : list Z := [68]. Definition ram : list Z := [66].

Example C32_blocks_case :
  let blocks := [(code, [DDb [AExpr (expr_Const 1); AString [65; 66]]; DEven]);
                 (data, [DDw [AExpr (expr_Const 4660)]]);
                 (code, [DDl [AExpr (expr_Const (-2))]; DCnop 1 4])] in
  Forall (fun b => Forall (data_ok 1 100) (snd b)) blocks /\
  Forall (fun b => Forall no_options (snd b)) blocks /\
  (forall n, zlen (emitted_all o_le 0 (of_name n blocks)) <= 100) /\
  emitted_all o_le 0 (of_name code blocks) = [1; 65; 66; 255; 254; 255; 255; 255; 255] /\
  emitted_all o_le 0 (of_name data blocks) = [52; 18] /\
  match run (program 0 blocks) (initial 1 false two_groups o_le) with
  | Ok st => map (fun m => (ws_name (m_w m), m_data m)) (x_sections st) =
      [(code, [1; 65; 66; 255; 254; 255; 255; 255; 255]); (data, [52; 18])]
  | _ => False
  end.
Proof.
  cbv zeta. split; [|split; [|split; [|split; [|split]]]].
  - repeat constructor; cbn; try lia; try discriminate; try (intros _; cbn; lia);
      try (exists 1; lia); try (exists 4; lia); unfold is_byte; lia.
  - repeat constructor.
  - intro n. unfold of_name. cbn [flat_map fst snd].
    destruct (beq code n), (beq data n); vm_compute; discriminate.
  - vm_compute. reflexivity.
  - vm_compute. reflexivity.
  - vm_compute. reflexivity.
Qed.

Example C31_data_case : exists st k m, run [DSection code 0 plain; DDb [AExpr (expr_Const 7)]] (initial 1 false two_groups o_le) = Ok st /\
  current_section st k m GText /\ section_fine GText m /\ is_byte (o_fill (x_opts st)) /\ (1 | m_used m) /\ m_used m = 1 /\
  Forall (data_ok 1 64) [DDw [AExpr (expr_Const 258)]; DSpace 2 3] /\
  emitted_all (x_opts st) (m_used m) [DDw [AExpr (expr_Const 258)]; DSpace 2 3] = [2; 1; 255; 255; 255; 255; 255; 255].
Proof.
  eexists. exists 0%nat. eexists. split; [vm_compute; reflexivity|].
  split; [repeat split|]. split.
  { unfold section_fine, m_pc, m_used, m_data, is_u32, max_size. cbn. repeat split; lia. }
  split; [cbn; unfold is_byte; lia|]. split; [exists 1; reflexivity|]. split; [reflexivity|]. split.
  - repeat constructor; cbn; try lia; try discriminate. exists 6. lia.
  - reflexivity.
Qed.

Example C31_out_of_range_case : exists st,
  run [DSection code 0 plain; DDb [AExpr (expr_Const 256); AExpr (expr_Const 7)]]
    (initial 1 false two_groups o_le) = Ok st /\
  x_errors st = [ERROR_OPERAND_RANGE] /\ map m_data (x_sections st) = [[0; 7]].
Proof. eexists. vm_compute. repeat split. Qed.
Example C31_reserve_case : exists st k m, run [DSection ram 1 plain; DSpace 1 3] (initial 1 false two_groups o_le) = Ok st /\
  current_section st k m GBss /\ section_fine GBss m /\ m_used m = 3 /\
  Forall (reserve_ok 1 64) [DEven; DSpace 2 3; DCnop 2 16] /\
  zlen (emitted_all (x_opts st) (m_used m) [DEven; DSpace 2 3; DCnop 2 16]) = 15.
Proof.
  eexists. exists 0%nat. eexists. split; [vm_compute; reflexivity|].
  split; [repeat split|]. split.
  { unfold section_fine, m_pc, m_used, m_data, is_u32, max_size. cbn. repeat split; lia. }
  split; [reflexivity|]. split.
  - repeat constructor; cbn; try lia; try discriminate; [exists 6; lia|exists 2; lia|exists 16; lia].
  - reflexivity.
Qed.

Example C32_stack_case :
  let st := initial 1 false two_groups o_le in
  nested [DSection data 0 plain; DPushs; DSection code 0 plain; DPops; DDb [AExpr (expr_Const 3)]] /\
  match run [DSection code 0 plain; DPushs; DSection data 0 plain; DPushs; DSection code 0 plain; DPops;
             DDb [AExpr (expr_Const 3)]; DPops; DDb [AExpr (expr_Const 4)]] st with
  | Ok st1 => x_current st1 = Some 0%nat /\ map m_data (x_sections st1) = [[4]; [3]]
  | _ => False
  end.
Proof.
  split.
  - apply nested_other; [discriminate|discriminate|].
    apply (nested_block [DSection code 0 plain] [DDb [AExpr (expr_Const 3)]]).
    + apply nested_other; [discriminate|discriminate|constructor].
    + apply nested_other; [discriminate|discriminate|constructor].
  - vm_compute. auto.
Qed.

(** ** Where the code departs from the documentation *)

(** OrganisingCode.md: "it is also possible to use the DB, DW and DL commands without
    any arguments".  The space is reserved, but DW and DL report an error. *)
Theorem C31_empty_word_refuted : exists st,
  run [DSection ram 1 plain; DDw [AEmpty]] (initial 1 false two_groups o_le) = Ok st /\
  map m_used (x_sections st) = [2] /\ x_errors st = [ERROR_EXPECT_EXPR].
Proof. eexists. split; [vm_compute; reflexivity|]. split; reflexivity. Qed.
Print Assumptions C31_empty_word_refuted.

(** Reserving 2^30 long words reserves nothing, without an error. *)
Theorem C31_reserve_refuted : exists st,
  run [DSection ram 1 plain; DSpace 4 1073741824] (initial 1 false two_groups o_le) = Ok st /\
  map m_used (x_sections st) = [0] /\ x_errors st = [].
Proof. eexists. split; [vm_compute; reflexivity|]. split; reflexivity. Qed.
Print Assumptions C31_reserve_refuted.

(** Aligning before any section is opened reads through a null pointer; CNOP with
    alignment zero divides by zero or fails an assertion. *)
Theorem C31_align_refuted :
  run [DEven] (initial 1 false two_groups o_le) = UB /\
  run [DSection code 0 plain; DCnop 0 0] (initial 1 false two_groups o_le) = UB.
Proof. split; vm_compute; reflexivity. Qed.
Print Assumptions C31_align_refuted.

(** A section opened with attributes cannot be opened again with the same attributes
    after an ORG in it: the error leaves the other section current, and the bytes
    that follow go there. *)
Theorem C32_reopen_refuted :
  let fixed := Kind (Some 256) None None None false in
  exists st, run [DSection code 0 fixed; DOrg 512; DSection data 0 plain; DSection code 0 fixed; DDb [AExpr (expr_Const 1)]]
      (initial 1 false two_groups o_le) = Ok st /\
    x_errors st = [ERROR_SECT_EXISTS_DIFFERENT_KIND] /\
    map (fun m => (ws_name (m_w m), m_data m)) (x_sections st) = [(code, []); (data, [1])].
Proof. eexists. split; [vm_compute; reflexivity|]. split; reflexivity. Qed.
Print Assumptions C32_reopen_refuted.
