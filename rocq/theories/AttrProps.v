(** Section attributes (C59) and the line table (C60). *)
From Coq Require Import ZArith List Bool Lia ZifyBool Permutation.
From Verif Require Import Base BaseFacts Arith ExprModel ObjWriteModel OptModel SectModel SectSpec SectProofs SectTouch SectErrors SectRun SectProps
  AttrSpec AttrProofs LineProofs.
Import ListNotations.
Open Scope Z_scope.

(** ** C59 *)

(** In a source assembled without errors, whatever comes before and after: a SECTION
    directive selects the one section of its name and group, and at the end that section
    has the attributes the directive gives.  So all directives that give attributes for a
    name agree.  A directive without attributes says so of a section it is the first to
    mention. *)
Theorem C59_attributes : forall before n g d after w banks groups o st1 st2 st3,
  run before (initial w banks groups o) = Ok st1 -> step (DSection n g d) st1 = Ok st2 -> run after st2 = Ok st3 ->
  x_errors st3 = [] ->
  exists k m, x_current st2 = Some k /\ nth_error (x_sections st3) k = Some m /\ ws_name (m_w m) = n /\ ws_group (m_w m) = g /\
    (forall j m', nth_error (x_sections st3) j = Some m' -> ws_name (m_w m') = n -> j = k) /\
    (has_attributes d \/ existsb (opens n) before = false -> attributes w d m).
Proof.
  intros before n g d after w banks groups o st1 st2 st3 R1 R2 R3 E.
  pose proof (run_errors before _ _ R1) as M1. pose proof (step_keeps _ _ _ R2) as M2. pose proof (run_errors _ _ _ R3) as M3.
  destruct (more_same_both (initial w banks groups o) st2 st3 (more_trans _ _ _ M1 M2) M3 E) as (Q2 & Q3).
  destruct (more_same_both _ _ _ M1 M2 Q2) as (Q1 & Q12).
  destruct (run_fresh before _ _ R1 Q1 (initial_distinct w banks groups o)) as (D1 & W1 & _).
  destruct (section_opened n g d st1 st2 R2 Q12 D1) as ((D2 & W2 & _) & k & m & C & N & E1 & E2 & A).
  destruct (run_fresh after _ _ R3 Q3 D2) as (D3 & W3 & K3).
  destruct (K3 k m N) as (m3 & N3 & I). pose proof I as (I1 & I2 & _).
  exists k, m3. split; [exact C|]. split; [exact N3|]. split; [congruence|]. split; [congruence|]. split.
  - intros j m' J Nm. eapply (proj1 D3); [exact J|exact N3|congruence].
  - intros H. eapply kept_attributes; [exact I|]. rewrite W1 in A. apply A. destruct H as [H|H]; [left; exact H|right].
    intros x X Nx. destruct (names_opened before _ _ R1 x X) as [O|(y & [] & _)]. rewrite Nx, H in O. discriminate.
Qed.
Print Assumptions C59_attributes.

(** Opening a section again is accepted, and continues it, if the directive repeats its
    attributes or gives none.  The former needs that there was no ORG in the section;
    see [C32_reopen_refuted]. *)
Theorem C59_reopen : forall st k m n g d,
  nth_error (x_sections st) k = Some m -> ws_name (m_w m) = n -> ws_group (m_w m) = g -> x_groups st g <> None ->
  (forall j m', nth_error (x_sections st) j = Some m' -> ws_name (m_w m') = n -> j = k) ->
  ~ has_attributes d \/
  (attributes (x_wordSize st) d m /\ a_orgfixed (ws_sect (m_w m)) = false /\ k_align d <> Some 0 /\ (k_bank d <> None -> x_banks st = true)) ->
  step (DSection n g d) st = Ok (with_current (Some k) st).
Proof.
  intros st k m n g d N E1 E2 G U H. cbn [step]. unfold handleSection. destruct (x_groups st g) as [t|]; [|congruence].
  assert (FS : findSection n (Some g) (x_sections st) 0 = (Some k, false)).
  { pose proof (find_cases n g (x_sections st) 0) as FC. destruct (findSection n (Some g) (x_sections st) 0) as [[j|] e] eqn:F.
    - destruct FC as (-> & _ & x & X & Y & _). rewrite Nat.sub_0_r in X. rewrite (U j x X Y). reflexivity.
    - exfalso. destruct e.
      + clear FC. revert F. generalize 0%nat as k0. pose proof U as U0. clear U. 
        assert (UU : forall j m', nth_error (x_sections st) j = Some m' -> ws_name (m_w m') = n -> ws_group (m_w m') = g).
        { intros j m' J Nm. rewrite (U0 j m' J Nm) in J. congruence. }
        clear U0 N. induction (x_sections st) as [|x l IH]; intros k0 F; cbn [findSection] in F; [discriminate|].
        destruct (beq (ws_name (m_w x)) n) eqn:B.
        * apply beq_true in B. rewrite (UU 0%nat x eq_refl B), Nat.eqb_refl in F. discriminate.
        * apply (IH (fun j m' J Nm => UU (S j) m' J Nm) (S k0) F).
      + apply nth_error_In in N. exact (FC m N E1). }
  change (match k_load d with Some z => if z =? UINT32_MAX then None else Some z | None => None end) with (wanted_address d).
  destruct H as [H|(A & O & Z0 & B)].
  - unfold has_attributes in H.
    destruct (wanted_address d); [exfalso; apply H; left; discriminate|].
    destruct (k_bank d); [exfalso; apply H; right; left; discriminate|].
    destruct (k_page d); [exfalso; apply H; right; right; left; discriminate|].
    destruct (k_align d); [exfalso; apply H; right; right; right; left; discriminate|].
    destruct (k_root d); [exfalso; apply H; right; right; right; right; reflexivity|].
    cbn [bind SectModel.given orb]. unfold sect_SwitchTo. rewrite FS. reflexivity.
  - destruct A as (A1 & A2 & A3 & A4 & A5).
    match goal with |- bind ?x _ = _ => assert (AL : exists al, x = Ok al /\ eqb (a_aligned (ws_sect (m_w m))) (SectModel.given al) = true /\
        match al with None => true | Some z => ws_align (m_w m) =? z end = true) end.
    { destruct (wanted_address d) as [z|], (k_align d) as [a|].
      - destruct A4 as (A4 & V). exists None. rewrite (proj2 (Z.eqb_neq a 0)) by congruence.
        rewrite (proj2 (Z.eqb_eq _ _)) by (apply Z.mod_divide; [congruence|exact V]). rewrite A4. auto.
      - exists None. rewrite A4. auto.
      - destruct A4 as (A4 & V). exists (Some a). rewrite A4, V, Z.eqb_refl. auto.
      - exists None. rewrite A4. auto. }
    destruct AL as (al & AL & AL1 & AL2). rewrite AL. cbn [bind].
    destruct (SectModel.given (wanted_address d) || SectModel.given (k_bank d) || SectModel.given al || SectModel.given (k_page d) || k_root d).
    + unfold sect_SwitchTo_KIND. cbn [k_bank].
      replace (SectModel.given (k_bank d) && negb (x_banks st)) with false
        by (destruct (k_bank d); [rewrite B by discriminate|]; reflexivity).
      rewrite FS, N. replace (same_kind m _) with true; [reflexivity|]. symmetry.
      unfold same_kind. cbn [k_load k_bank k_align k_page k_root]. rewrite AL1, AL2, O, A5.
      assert (EB : forall b : bool, eqb b b = true) by (intros []; reflexivity). rewrite !EB.
      destruct (wanted_address d) as [z|].
      1: destruct A1 as (A1 & A6 & _); rewrite A6, Z.eqb_refl.
      all: rewrite A1; destruct (k_bank d); [destruct A2 as (A2 & A7); rewrite A7, Z.eqb_refl|]; rewrite A2;
        (destruct (k_page d); [destruct A3 as (A3 & A8); rewrite A8, Z.eqb_refl|]; rewrite A3); reflexivity.
    + unfold sect_SwitchTo. rewrite FS. reflexivity.
Qed.
Print Assumptions C59_reopen.

(** A name alone selects the section of that name, or is reported. *)
Theorem C59_name_only : forall st n,
  match x_current (sect_SwitchTo_NAMEONLY n st) with
  | Some k => exists m, nth_error (x_sections st) k = Some m /\ ws_name (m_w m) = n /\ x_errors (sect_SwitchTo_NAMEONLY n st) = x_errors st
  | None => (forall m, In m (x_sections st) -> ws_name (m_w m) <> n) /\ x_errors (sect_SwitchTo_NAMEONLY n st) <> x_errors st
  end /\ step (DSectionName n) st = Ok (sect_SwitchTo_NAMEONLY n st) /\ x_sections (sect_SwitchTo_NAMEONLY n st) = x_sections st.
Proof.
  intros st n.
  assert (F : forall l k0, match findSection n None l k0 with
    | (Some k, _) => (k0 <= k)%nat /\ exists m, nth_error l (k - k0) = Some m /\ ws_name (m_w m) = n
    | (None, _) => forall m, In m l -> ws_name (m_w m) <> n end).
  { induction l as [|x l IH]; intro k0; cbn [findSection]; [intros m []|].
    destruct (beq (ws_name (m_w x)) n) eqn:B.
    - apply beq_true in B. split; [lia|]. exists x. rewrite Nat.sub_diag. auto.
    - assert (B' : ws_name (m_w x) <> n) by (intro E; apply beq_true in E; congruence).
      specialize (IH (S k0)). destruct (findSection n None l (S k0)) as [[k|] e].
      + destruct IH as (L & m & N & R). split; [lia|]. exists m. replace (k - k0)%nat with (S (k - S k0)) by lia. auto.
      + intros m [<-|I]; [exact B'|exact (IH m I)]. }
  specialize (F (x_sections st) 0%nat). unfold sect_SwitchTo_NAMEONLY. cbn [step]. unfold sect_SwitchTo_NAMEONLY.
  destruct (findSection n None (x_sections st) 0) as [[k|] e]; cbn [x_current with_current err_Error x_errors x_sections].
  - destruct F as (_ & m & N & E). rewrite Nat.sub_0_r in N. split; [exists m; auto|auto].
  - split; [|auto]. split; [exact F|]. intro E. apply (f_equal (@length Z)) in E. rewrite app_length in E. cbn in E. lia.
Qed.
Print Assumptions C59_name_only.

(** After ORG z, and any data, the address here is z plus the words since. *)
Theorem C59_org : forall z ds st k m limit,
  current_section st k m GText -> section_fine GText m ->
  x_wordSize st = 1 \/ x_wordSize st = 2 -> is_byte (o_fill (x_opts st)) -> (x_wordSize st | m_used m) ->
  Forall (data_ok (x_wordSize st) limit) ds ->
  m_used m + zlen (emitted_all (x_opts st) (m_used m) ds) <= limit -> limit <= max_size ->
  exists st' m', run (DOrg z :: ds) st = Ok st' /\ nth_error (x_sections st') k = Some m' /\
    address m' = (z + zlen (emitted_all (x_opts st) (m_used m) ds) / x_wordSize st) mod 2 ^ 32 /\
    m_data m' = m_data m ++ emitted_all (x_opts st) (m_used m) ds /\ x_errors st' = x_errors st.
Proof.
  intros z ds st k m limit (C1 & C2 & C3) F W B V O L M.
  set (st1 := with_sections (replace_nth k (set_origin (u32 z) m) (x_sections st)) st).
  assert (R : step (DOrg z) st = Ok st1).
  { cbn [step]. unfold sect_SetOriginAddress. rewrite C1. unfold the_current. rewrite C1, C2. reflexivity. }
  assert (N1 : nth_error (x_sections st1) k = Some (set_origin (u32 z) m)) by (apply (nth_replace_same _ _ _ _ _ C2)).
  destruct (C31_data ds st1 k (set_origin (u32 z) m) limit) as (st' & m' & P1 & P2 & P3 & P4 & P5 & P6 & P7 & P8);
    try assumption; [split; [exact C1|split; [exact N1|exact C3]]|].
  exists st', m'. split; [cbn [run]; rewrite R; exact P1|]. split; [exact P2|]. split; [|split; [exact P3|apply P8]].
  destruct P7 as (_ & _ & _ & _ & _ & P7). unfold address.
  assert (A1 : a_cpuOrigin (ws_sect (m_w m')) = a_cpuOrigin (ws_sect (m_w m))) by (apply (f_equal a_cpuOrigin) in P7; exact P7).
  assert (A2 : a_cpuAdjust (ws_sect (m_w m')) = u32 (u32 z - u32 (m_pc m + a_cpuOrigin (ws_sect (m_w m))))) by (apply (f_equal a_cpuAdjust) in P7; exact P7).
  rewrite A1, A2. change (a_pc (ws_sect (m_w m'))) with (m_pc m'). rewrite P6.
  change (m_pc (set_origin (u32 z) m)) with (m_pc m). change (m_used (set_origin (u32 z) m)) with (m_used m).
  change (x_opts st1) with (x_opts st). change (x_wordSize st1) with (x_wordSize st).
  generalize (zlen (emitted_all (x_opts st) (m_used m) ds) / x_wordSize st) as q. intro q. unfold u32.
  rewrite <- (Zplus_mod_idemp_r q (z mod 2 ^ 32)) || idtac.
  generalize (m_pc m) (a_cpuOrigin (ws_sect (m_w m))). intros p c. clear.
  assert (M : 2 ^ 32 <> 0) by lia. 
  rewrite Zplus_mod_idemp_r. rewrite <- Z.add_assoc, Zplus_mod_idemp_l.
  replace (p + q + (c + (z mod 2 ^ 32 - (p + c) mod 2 ^ 32))) with ((p + q + c + z mod 2 ^ 32) - (p + c) mod 2 ^ 32) by lia.
  rewrite Zminus_mod_idemp_r. replace (p + q + c + z mod 2 ^ 32 - (p + c)) with (q + z mod 2 ^ 32) by lia.
  rewrite Zplus_mod_idemp_r. f_equal. lia.
Qed.
Print Assumptions C59_org.

(** ** C60 *)

(** The table of a section leads from every position to the line that wrote there: the
    position in the source when the directive was read.  Whatever the source is, and
    whether or not errors are reported. *)
Theorem C60_lines : forall before d after w banks groups o st1 st2 st3 k m1 m2 m3 q, 0 < w ->
  run before (initial w banks groups o) = Ok st1 -> step d st1 = Ok st2 -> run after st2 = Ok st3 ->
  nth_error (x_sections st1) k = Some m1 -> nth_error (x_sections st2) k = Some m2 -> nth_error (x_sections st3) k = Some m3 ->
  groups (ws_group (m_w m1)) = Some GText -> m_pc m1 <= q < m_pc m2 ->
  line_at (m_lines m3) q = Some (x_file st1, x_line st1).
Proof.
  intros before d after w banks groups o st1 st2 st3 k m1 m2 m3 q W R1 R2 R3 N1 N2 N3 G Q.
  destruct (run_marks before _ _ R1 W (initial_marked w banks groups o)) as (M1 & W1 & G1 & _).
  change (x_wordSize (initial w banks groups o)) with w in W1. change (x_groups (initial w banks groups o)) with groups in G1.
  destruct (step_marks d st1 st2 R2 ltac:(lia) M1) as (M2 & W2 & G2 & S2).
  destruct (run_marks after st2 st3 R3 ltac:(lia) M2) as (M3 & W3 & G3 & S3).
  destruct (S2 k m1 N1) as (x & X1 & X2 & X3). rewrite N2 in X1. injection X1 as <-. rewrite G1 in X3. specialize (X3 G).
  destruct (S3 k m2 N2) as (y & Y1 & Y2 & Y3). rewrite N3 in Y1. injection Y1 as <-. rewrite G2, G1, X2 in Y3.
  destruct (Y3 G) as (_ & ls & E & F). rewrite E.
  assert (A1 : forall l, Forall (fun e => m_pc m2 <= al_offset e) l -> line_at l q = None).
  { induction 1 as [|e l P Q0 IH]; [reflexivity|]. cbn [line_at]. rewrite IH. destruct (al_offset e <=? q) eqn:B; [lia|reflexivity]. }
  assert (A2 : forall l1 f l o' l2, o' <= q -> Forall (fun e => m_pc m2 <= al_offset e) l2 -> line_at ((l1 ++ [ALine f l o']) ++ l2) q = Some (f, l)).
  { intros l1 f l o' l2 P F2. induction l1 as [|e l1 IH]; cbn [app line_at].
    - rewrite (A1 l2 F2). cbn [al_offset]. destruct (o' <=? q) eqn:B; [reflexivity|lia].
    - rewrite IH. reflexivity. }
  destruct X3 as (P & [(X3 & X4)|X3]); [lia|]. rewrite X3.
  destruct (addEntry_form (x_file st1) (x_line st1) (m_pc m1) (m_lines m1)) as [(E1 & l1 & o1 & E2)|E1]; rewrite E1.
  - rewrite E2. apply A2; [|exact F]. pose proof (proj2 M1 k m1 N1) as B. rewrite G1 in B. specialize (B G). rewrite E2 in B.
    apply Forall_app in B as (_ & B). inversion B; subst. cbn in *. lia.
  - apply A2; [lia|exact F].
Qed.
Print Assumptions C60_lines.

(** ** Cases *)

Definition there : kind := Kind (Some 0x2000) None (Some 0x100) None true.
Definition paged : kind := Kind None (Some 3) (Some 16) (Some 0x400) false.
Definition before_ : list directive := [DPosition 1 10; DSection code 0 there; DDb [AExpr (expr_Const 7)]; DPosition 1 11; DSection data 0 paged].
Definition after_ : list directive := [DPosition 2 5; DDw [AExpr (expr_Const 7)]; DPosition 1 12; DOrg 0x8000; DDb [AExpr (expr_Const 9)]; DSection data 0 paged; DDb [AExpr (expr_Const 1)]].
Example C59_attributes_case : exists st1 st2 st3 m,
  run before_ (initial 1 true two_groups o_le) = Ok st1 /\ step (DSection code 0 there) st1 = Ok st2 /\ run after_ st2 = Ok st3 /\ x_errors st3 = [] /\
  has_attributes there /\ x_current st2 = Some 0%nat /\ nth_error (x_sections st3) 0 = Some m /\ m_data m = [7; 7; 0; 9] /\ address m = 0x8001.
Proof.
  eexists _, _, _, _. split; [vm_compute; reflexivity|]. split; [vm_compute; reflexivity|]. split; [vm_compute; reflexivity|].
  split; [reflexivity|]. split; [left; discriminate|]. split; [reflexivity|]. split; [reflexivity|]. split; reflexivity.
Qed.
Example C59_conflict_case : exists st, run (before_ ++ [DSection data 0 (Kind None (Some 4) (Some 16) (Some 0x400) false)]) (initial 1 true two_groups o_le) = Ok st /\
  x_errors st = [ERROR_SECT_EXISTS_DIFFERENT_KIND] /\ run [DSection code 0 (Kind (Some 0x2001) None (Some 2) None false)] (initial 1 true two_groups o_le) = Err.
Proof. eexists. split; [vm_compute; reflexivity|]. split; reflexivity. Qed.
Example C59_reopen_case : exists st m, run before_ (initial 1 true two_groups o_le) = Ok st /\ nth_error (x_sections st) 0 = Some m /\
  ws_name (m_w m) = code /\ ws_group (m_w m) = 0%nat /\ x_current st = Some 1%nat /\ attributes 1 there m /\ a_orgfixed (ws_sect (m_w m)) = false.
Proof.
  eexists _, _. split; [vm_compute; reflexivity|]. repeat (split; [reflexivity|]). split; [|reflexivity].
  unfold attributes. cbn. repeat split. exists 32. reflexivity.
Qed.
Example C60_lines_case : exists st1 st2 st3 m1 m2 m3,
  run (before_ ++ [DSection code 0 there; DPosition 2 5]) (initial 1 true two_groups o_le) = Ok st1 /\ step (DDw [AExpr (expr_Const 7)]) st1 = Ok st2 /\
  run (skipn 2 after_) st2 = Ok st3 /\ nth_error (x_sections st1) 0 = Some m1 /\ nth_error (x_sections st2) 0 = Some m2 /\
  nth_error (x_sections st3) 0 = Some m3 /\ m_pc m1 = 1 /\ m_pc m2 = 3 /\ m_pc m3 = 4 /\
  map (line_at (m_lines m3)) [0; 1; 2; 3] = [Some (1, 10); Some (2, 5); Some (2, 5); Some (1, 12)].
Proof.
  eexists _, _, _, _, _, _. split; [vm_compute; reflexivity|]. split; [vm_compute; reflexivity|]. split; [vm_compute; reflexivity|].
  repeat (split; [reflexivity|]). reflexivity.
Qed.
