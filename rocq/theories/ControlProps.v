(** C39 and C40: REPT, IF, MACRO and INCLUDE. *)
From Coq Require Import ZArith List Bool Lia ZifyBool ZifyNat.
From Verif Require Import Base BaseFacts ControlModel ControlSpec ControlProofs ControlComplete.
Import ListNotations.
Open Scope Z_scope.

(** A properly nested source, whatever its conditions, counts, macros and
    included files, does exactly what the structured program does: if and only if
    the program can be carried out does the assembler get to the end of the
    source without an error, and then it has assembled the same statements in the
    same order, each with the same \@ and the same arguments. *)
Theorem C40_structured : forall files p trace,
  (exists n s, run (texts files) n (start (flatten p)) = Ok s /\ m_trace s = trace) <->
  (exists a w, exec files InFile 0 [] world0 p ONext a w /\ w_trace w = trace).
Proof.
  intros files p trace. split.
  - intros (n & s & R & T).
    assert (R' : run (texts files) n (state world0 (Ctx KFile (flatten p ++ []) 0 [] :: [])) = Ok s)
      by (rewrite app_nil_r; exact R).
    destruct (complete files n p n world0 0 [] InFile KFile [] [] s ltac:(lia) I I I R') as (o & a & w & X & E).
    destruct o; cbn [ended reargs] in E.
    + destruct E as (m & _ & E). exists a, w. split; [exact X|].
      destruct m as [|m]; [discriminate E|]. cbn in E. injection E as <-. exact T.
    + contradiction.
    + destruct E as (E & _). discriminate E.
  - intros (a & w & X & T).
    destruct (sim files) as (S1 & _ & _).
    pose proof (S1 _ _ _ _ _ _ _ _ X KFile [] [] I I) as L. cbn [leaves reargs] in L. rewrite app_nil_r in L.
    destruct (steps_run files _ _ L eq_refl) as (n & R).
    exists n. eexists. split; [exact R|exact T].
Qed.
Print Assumptions C40_structured.

(** A skipped branch ends at the ELSE or ENDC, a skipped block at the ENDR or ENDM
    that belongs to it, whatever blocks are nested inside. *)
Theorem C40_skips_to_match : forall p rest,
  skipPast isFalseBranch (flatten p ++ LElse :: rest) = Ok (Some rest) /\
  skipPast isFalseBranch (flatten p ++ LEndc :: rest) = Ok (Some rest) /\
  skipPast isEndc (flatten p ++ LEndc :: rest) = Ok (Some rest) /\
  skipPast isEndr (flatten p ++ LEndr :: rest) = Ok (Some rest) /\
  skipPast isEndm (flatten p ++ LEndm :: rest) = Ok (Some rest).
Proof.
  intros p rest.
  repeat apply conj; (apply found_skipPast; [reflexivity|]; apply found_prog; [unfold ends; auto|]; apply found_hit; reflexivity).
Qed.
Print Assumptions C40_skips_to_match.

(** REPT n assembles its statements n times, in order, each pass with its own \@;
    what follows the block has the \@ it would have had without it. *)
Theorem C39_rept : forall files n ks after, 0 <= n ->
  exists fuel s, run (texts files) fuel (start (flatten (PSeq (PRept (fun _ => n) (stmts ks)) (stmts after)))) = Ok s /\
    m_trace s = flat_map (fun pass => map (fun k => EStmt k (1 + Z.of_nat pass) []) ks) (seq 0 (Z.to_nat n)) ++
                map (fun k => EStmt k 0 []) after.
Proof.
  intros files n ks after Hn. apply C40_structured. eexists _, _. split.
  - eapply XSeq; [|apply exec_stmts].
    apply XRept; [exact Hn|]. exact (passes_stmts files InFile [] ks (Z.to_nat n) world0).
  - reflexivity.
Qed.
Print Assumptions C39_rept.

(** REXIT in the middle of a pass: what was assembled before it stays, nothing
    else of the block is assembled, and assembly goes on after ENDR. *)
Theorem C39_rexit : forall files n ks more after, 0 < n ->
  exists fuel s, run (texts files) fuel (start (flatten
      (PSeq (PRept (fun _ => n) (fold_right (fun k p => PSeq (PStmt k) p) (PSeq PRexit more) ks)) (stmts after)))) = Ok s /\
    m_trace s = map (fun k => EStmt k 1 []) ks ++ map (fun k => EStmt k 0 []) after.
Proof.
  intros files n ks more after Hn. apply C40_structured.
  assert (X : forall ks w, exec files (InRept InFile) 1 [] w (fold_right (fun k p => PSeq (PStmt k) p) (PSeq PRexit more) ks) ORexit []
     (World (w_macros w) (w_next w) (w_trace w ++ map (fun k => EStmt k 1 []) ks))).
  { clear. induction ks as [|k ks IH]; intros w; cbn [fold_right map].
    - rewrite app_nil_r. destruct w. eapply XStop; [constructor|discriminate].
    - eapply XSeq; [constructor|]. specialize (IH (log w (EStmt k 1 []))). cbn [log w_macros w_next w_trace] in IH.
      rewrite <- app_assoc in IH. exact IH. }
  eexists _, _. split.
  - eapply XSeq; [|apply exec_stmts].
    apply XRept; [lia|]. destruct (Z.to_nat n) as [|m] eqn:E; [lia|].
    eapply XExit. apply (X ks (fresh world0)).
  - reflexivity.
Qed.
Print Assumptions C39_rexit.

(** Blocks inside blocks: the passes multiply. *)
Theorem C39_nested : forall files n m k, 0 <= n -> 0 <= m ->
  exists fuel s, run (texts files) fuel (start (flatten
      (PSeq (PRept (fun _ => n) (PSeq (PRept (fun _ => m) (stmts [k])) PNil)) PNil))) = Ok s /\
    zlen (m_trace s) = n * m.
Proof.
  intros files n m k Hn Hm.
  assert (P : forall j w, exists w', passes files InFile j [] w (PSeq (PRept (fun _ => m) (stmts [k])) PNil) [] w' /\
     zlen (w_trace w') = zlen (w_trace w) + Z.of_nat j * m).
  { induction j as [|j IH]; intros w.
    - exists w. split; [constructor|lia].
    - destruct (IH (World (w_macros (fresh w)) (w_next (fresh w) + Z.of_nat (Z.to_nat m))
          (w_trace (fresh w) ++ flat_map (fun i => map (fun x => EStmt x (w_next (fresh w) + Z.of_nat i) []) [k]) (seq 0 (Z.to_nat m)))))
        as (w' & X & L).
      exists w'. split.
      + eapply XPass; [|exact X]. eapply XSeq; [|constructor]. apply XRept; [exact Hm|].
        exact (passes_stmts files (InRept InFile) [] [k] (Z.to_nat m) (fresh w)).
      + rewrite L. cbn [w_trace fresh map]. unfold zlen. rewrite app_length.
        assert (EL : forall l, length (flat_map (fun i => [EStmt k (w_next w + 1 + Z.of_nat i) []]) l) = length l)
          by (induction l; cbn; auto).
        cbn [fresh w_next]. rewrite EL, seq_length. lia. }
  destruct (P (Z.to_nat n) world0) as (w' & X & L).
  destruct (proj2 (C40_structured files (PSeq (PRept (fun _ => n) (PSeq (PRept (fun _ => m) (stmts [k])) PNil)) PNil) (w_trace w')))
    as (fuel & s & R & T).
  - exists [], w'. split; [|reflexivity]. eapply XSeq; [|constructor]. apply XRept; [exact Hn|exact X].
  - exists fuel, s. split; [exact R|]. rewrite T, L. cbn [world0 w_trace]. unfold zlen. cbn [length]. lia.
Qed.
Print Assumptions C39_nested.

(** ** Where it goes wrong *)

(** An IF without ENDC is not noticed if its skipped branch ends in a nested IF
    with ENDC... *)
Theorem C40_missing_endc_refuted : forall no_files,
  let no := fun _ : view => false in
  exists s, run no_files 9 (start [LIf true no; LStmt 1; LIf true no; LStmt 2; LEndc]) = Ok s.
Proof. intros. eexists. reflexivity. Qed.
(** ...and if the nested one has none either, the assembler recurses for ever. *)
Theorem C40_missing_two_endc_refuted : forall n,
  let no := fun _ : view => false in
  skipTo n isFalseBranch (LStmt 0) [LStmt 1; LIf true no] = UB.
Proof.
  intros [|[|n]] no; try reflexivity. cbn [skipTo isFalseBranch opens].
  exact (skipTo_stale n isFalseBranch (LIf true no) isEndc eq_refl eq_refl).
Qed.
(** IFC, IFNC, IFD and IFND do not insist on ENDC at all, nor ELSE, nor REXIT on ENDR. *)
Theorem C40_unchecked_refuted : forall no_files,
  let no := fun _ : view => false in
  (exists s, run no_files 9 (start [LIf false no; LStmt 1]) = Ok s) /\
  (exists s, run no_files 9 (start [LIf true (fun _ => true); LStmt 1; LElse; LStmt 2]) = Ok s) /\
  (exists s, run no_files 9 (start [LRept (fun _ => 5); LStmt 1; LRexit; LStmt 2]) = Ok s).
Proof. intros. repeat apply conj; eexists; reflexivity. Qed.

(** MEXIT in a repeat block in a macro neither leaves the macro nor is it
    ignored, as its warning says: the assembler never gets past it. *)
Theorem C39_mexit_in_rept_refuted : forall no_files n,
  run no_files n (start [LMacro 7; LRept (fun _ => 2); LMexit; LEndr; LEndm; LCall 7 (fun _ => [])]) = UB.
Proof.
  intros fl n.
  assert (Hang : forall n k ls u a outer mc nx tr, k <> KMacro ->
    run fl n (MSt (Ctx k (LMexit :: ls) u a :: outer) mc nx tr) = UB).
  { clear. induction n as [|n IH]; intros k ls u a outer mc nx tr K; [reflexivity|].
    destruct k; [|contradiction|]; cbn [run step m_stack bind]; apply IH; discriminate. }
  do 3 (destruct n as [|n]; [reflexivity|]).
  change (run fl n (MSt [Ctx (KRept 1) [LMexit; LEndr; LEndm] 2 []; Ctx KMacro [LMexit; LEndr; LEndm] 1 []; Ctx KFile [] 0 []]
    [(7, [LRept (fun _ => 2); LMexit; LEndr; LEndm])] 3 []) = UB).
  apply Hang. discriminate.
Qed.

(** *** Example: a macro called in a repeat block, with a condition on the pass
    number and SHIFT. *)
Example C40_ex_program : prog :=
  PSeq (PMacro 1 (PSeq (PStmt 10) (PSeq (PShift (fun _ => 1)) (PSeq (PIf true (fun v => match v_args v with [] => true | _ => false end)
     (PSeq PMexit PNil)) (PSeq (PStmt 11) PNil)))))
  (PSeq (PRept (fun _ => 3) (PSeq (PIfElse true (fun v => 2 <=? zlen (v_trace v)) (PSeq (PCall 1 (fun v => [v_unique v])) (PSeq PRexit PNil))
      (PSeq (PCall 1 (fun v => [5; 6])) PNil)) PNil))
  (PSeq (PStmt 12) PNil)).
Example C40_ex_run : exists s, run (texts (fun _ => None)) 60 (start (flatten C40_ex_program)) = Ok s /\
  m_trace s = [EStmt 10 2 [5; 6]; EStmt 11 2 [6]; EStmt 10 4 [3]; EStmt 12 0 []].
Proof. eexists. vm_compute. split; reflexivity. Qed.
