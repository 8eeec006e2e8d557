(** C30: raw binary output by the assembler. *)
From Coq Require Import ZArith List Bool Lia ZifyBool Znumtheory.
From Verif Require Import Base BaseFacts Arith ExprSpec ExprModel ExprProps ObjWriteModel SectModel BinModel BinSpec BinProofs BinImage.
Import ListNotations.
Open Scope Z_scope.

Lemma patches_kept : forall ws c align l pos l', place ws c align pos l = Ok (Some l') ->
  Forall2 (fun m m' => m_patches m' = m_patches m) l l'.
Proof.
  intros ws c align l; induction l as [|m l IH]; intros pos l' H; cbn [place] in H; [inversion H; constructor|].
  destruct (assign_same c m) as (_ & _ & _ & A4 & _). cbn zeta in H.
  repeat match type of H with
         | (if ?b then _ else _) = _ => destruct b; try discriminate
         | (let! _ := ?x in _) = _ => let E := fresh "E" in destruct x as [[?|]| |] eqn:E; try discriminate; cbn [bind] in H
         end; injection H as <-; (constructor; [exact A4|eapply IH; eassumption]).
Qed.
Lemma patches_placed : forall ws c align l pos l', place ws c align pos l = Ok (Some l') ->
  Forall (fun m => patches_apart (m_patches m)) l -> Forall (fun m => patches_apart (m_patches m)) l'.
Proof.
  intros ws c align l pos l' H G. apply patches_kept in H. induction H as [|m m' l l' E H IH]; inversion G; subst; constructor; auto.
  rewrite E. assumption.
Qed.

(** Everything known about a run that writes a file. *)
Lemma run_facts : forall f F st l' out, assembled st -> internalWrite f F st = Ok (Some (l', out)) ->
  exists l ys first r,
    Forall2 (fun m m' => placed_as (b_wordSize st) (b_machine st) (b_align st) m m' /\ m_data m' = m_data m /\
      m_patches m' = m_patches m /\ a_loadfixed (m_sect m') = true) (b_sections st) l /\
    ordered 0 l /\ Forall (fun m' => 0 <= m_position m' /\ m_position m' + m_used m' < 2 ^ 32) l /\
    relocate_all l (b_symbols st) = Ok ys /\
    patch_BackPatch F (World (fun r => nth r ys no_symbol) (map m_sect l)) 0 l = Ok l' /\
    l' = first :: r /\ out = writeSections f (m_position first) l' /\
    Forall (fun m => patches_apart (m_patches m)) l.
Proof.
  intros f F st l' out (W & G & (limit & L0 & L1 & L2) & PA) H.
  destruct (write_inv _ _ _ _ _ H) as (l & ys & first & r & P & Y & B & E & O).
  destruct (place_ok _ _ _ _ _ _ W G (Z.le_refl 0) limit (conj L0 (conj L0 (conj L1 L2))) P) as (P1 & P2 & P3).
  exists l, ys, first, r. split; [exact P1|]. split; [exact P2|]. split; [exact P3|]. split; [exact Y|]. split; [exact B|].
  split; [exact E|]. split; [exact O|]. eapply patches_placed; eassumption.
Qed.
Lemma placed_final : forall ws c align m m1 m',
  (placed_as ws c align m m1 /\ m_data m1 = m_data m /\ m_patches m1 = m_patches m /\ a_loadfixed (m_sect m1) = true) ->
  (m_used m' = m_used m1 /\ m_alloc m' = m_alloc m1 /\ m_position m' = m_position m1 /\ m_sect m' = m_sect m1 /\
    zlen (m_data m') = zlen (m_data m1) /\ (bytes (m_data m1) -> bytes (m_data m'))) -> placed_as ws c align m m'.
Proof.
  intros ws c align m m1 m' ((A1 & A2 & A3 & A4 & A5) & _) (B1 & B2 & B3 & B4 & B5 & _).
  unfold placed_as. rewrite B1, B2, B3, B4, B5. auto.
Qed.
Lemma ordered_same : forall l l' a, Forall2 (fun m m' => m_used m' = m_used m /\ m_alloc m' = m_alloc m /\
    m_position m' = m_position m /\ m_sect m' = m_sect m /\
    zlen (m_data m') = zlen (m_data m) /\ (bytes (m_data m) -> bytes (m_data m'))) l l' -> ordered a l -> ordered a l'.
Proof.
  intros l l' a H; revert a; induction H as [|m m' l l' (E1 & _ & E2 & _) H IH]; intros a O; [exact I|].
  cbn [ordered] in *. rewrite E1, E2. destruct O; auto.
Qed.
Lemma apart_offsets : forall l, Forall (fun m => patches_apart (m_patches m)) l ->
  Forall (fun m => Forall (fun p => 0 <= ap_offset p) (m_patches m)) l.
Proof. intros l H. eapply Forall_impl; [|exact H]. intros m [X _]. exact X. Qed.

Lemma final_facts : forall f F st l' out, assembled st -> internalWrite f F st = Ok (Some (l', out)) ->
  Forall2 (placed_as (b_wordSize st) (b_machine st) (b_align st)) (b_sections st) l' /\
  ordered 0 l' /\ Forall sound l' /\
  (Forall (fun m => bytes (m_data m)) (b_sections st) -> Forall (fun m => bytes (m_data m)) l').
Proof.
  intros f F st l' out A H. pose proof A as (W & G & _ & _).
  destruct (run_facts _ _ _ _ _ A H) as (l & ys & first & r & P1 & P2 & P3 & Y & B & E & O & PA).
  pose proof (patched_place _ _ _ _ _ B (apart_offsets _ PA)) as Q.
  split; [eapply Forall2_trans3; [exact P1|exact Q|apply placed_final]|].
  split; [eapply ordered_same; eassumption|]. clear - P1 P3 Q G. revert P3 G. revert l' Q. 
  induction P1 as [|m m1 ms l ((U & AL & LD & _) & D & _) H IH]; intros l' Q P3 G; inversion Q as [|? m' ? l2 (E1 & E2 & E3 & E4 & E5 & E6) Q2]; subst.
  - split; [constructor|auto].
  - inversion P3 as [|? ? [X1 X2] P4]; subst. inversion G as [|? ? (G1 & G2 & _) GL]; subst. destruct (IH l2 Q2 P4 GL) as [I1 I2]. split.
    + constructor; [|exact I1]. unfold sound. rewrite E1, E3, E5, LD. unfold has_data in *. rewrite E2, AL, U in *.
      split; [exact G1|]. split; [exact X1|]. split; [exact X2|exact G2].
    + intros BY. inversion BY; subst. constructor; [|auto]. apply E6. rewrite D. assumption.
Qed.

(** ** C30: sections go where the source says, in order and without overlap, and
    the file holds their bytes, from the first section on, with zeros between. *)
Theorem C30_image : forall F st l' out, assembled st -> bin_Write F st = Ok (Some (l', out)) ->
  Forall2 (placed_as (b_wordSize st) (b_machine st) (b_align st)) (b_sections st) l' /\ ordered 0 l' /\
  exists first, hd_error l' = Some first /\ image_of (m_position first) l' out.
Proof.
  intros F st l' out A H. destruct (final_facts _ _ _ _ _ A H) as (P & O & S1 & _).
  destruct (run_facts _ _ _ _ _ A H) as (l & ys & first & r & _ & _ & _ & _ & _ & E & W & _).
  split; [exact P|]. split; [exact O|]. exists first. rewrite E. split; [reflexivity|]. rewrite <- E. rewrite W.
  apply write_image; [exact S1|]. rewrite E in *. cbn [ordered] in *. split; [lia|apply O].
Qed.
Print Assumptions C30_image.

(** The Verilog file lists the bytes of the binary file. *)
Theorem C30_verilog : forall F st l' out, Forall (fun m => bytes (m_data m)) (b_sections st) -> assembled st ->
  bin_Write F st = Ok (Some (l', out)) ->
  exists text, bin_WriteVerilog F st = Ok (Some (l', text)) /\ readmemh text = Some out.
Proof.
  intros F st l' out B A H. destruct (final_facts _ _ _ _ _ A H) as (_ & _ & _ & BY). specialize (BY B).
  unfold bin_Write, bin_WriteVerilog, internalWrite in *. destruct (commonPatch F st) as [[[|f r]|]| |]; try discriminate. cbn [bind] in *.
  injection H as <- <-. eexists. split; [reflexivity|]. rewrite write_verilog. apply verilog_reads. exact (write_bytes (f :: r) _ BY).
Qed.
Print Assumptions C30_verilog.

(** Bytes that no patch goes to are those the source gave. *)
Theorem C30_unpatched : forall F st l' out k m m', assembled st -> bin_Write F st = Ok (Some (l', out)) ->
  nth_error (b_sections st) k = Some m -> nth_error l' k = Some m' ->
  forall i, 0 <= i -> (forall p, In p (m_patches m) -> ~ touches p i) -> byte (m_data m') i = byte (m_data m) i.
Proof.
  intros F st l' out k m m' A H N N' i I T.
  destruct (run_facts _ _ _ _ _ A H) as (l & ys & first & r & P1 & _ & _ & _ & B & _ & _ & PA).
  destruct (Forall2_nth _ _ _ _ _ P1 k m N) as (m1 & N1 & _ & D & PP & _).
  destruct (BackPatch_nth _ _ _ _ _ B) as [_ BN]. specialize (BN k m1 m' N1 N').
  rewrite Forall_forall in PA. destruct (PA m1 (nth_error_In _ _ N1)) as [OF _].
  destruct (backPatch_ok _ _ _ _ _ _ _ _ BN OF) as (_ & X & _). rewrite <- D. apply X; [exact I|]. rewrite PP. exact T.
Qed.
Print Assumptions C30_unpatched.

Lemma backPatch_each : forall F w k a ps d d' q p, backPatch F w k a ps d = Ok (d', q) -> In p ps ->
  exists v, reduceExpression F w k a (ap_offset p) (ap_expr p) = Ok v.
Proof.
  intros F w k a ps; induction ps as [|x ps IH]; [intros ? ? ? ? ? []|]; intros d d' q p H [<-|X]; cbn [backPatch] in H.
  - destruct (reduceExpression F w k a (ap_offset x) (ap_expr x)); try discriminate. eauto.
  - destruct (reduceExpression F w k a (ap_offset x) (ap_expr x)) as [[[z|] e]| |]; try discriminate; cbn [bind] in H.
    + destruct (patch_bytes (ap_type x) z) as [bs| |]; try discriminate; cbn [bind] in H.
      destruct (ap_offset x + zlen bs >? zlen d); [discriminate|]. eapply IH; eassumption.
    + destruct (backPatch F w k a ps d) as [[d1 q1]| |] eqn:BP; try discriminate. eapply IH; eassumption.
Qed.

(** A reference to a label, plus a number, becomes the address the label's section
    was given plus the label's place in it, in the file. *)
Theorem C30_label : forall F st l' out k m m' first p r c y j mj,
  assembled st -> bin_Write F st = Ok (Some (l', out)) ->
  nth_error (b_sections st) k = Some m -> nth_error l' k = Some m' -> hd_error l' = Some first -> has_data m = true ->
  In p (m_patches m) -> symbol_plus (ap_expr p) r c ->
  nth_error (b_symbols st) r = Some (y, true) -> y_reloc y = true -> y_section y = Some j -> nth_error l' j = Some mj ->
  let address := y_value y + a_cpuOrigin (m_sect mj) in
  is_s32 address ->
  holds_number out (m_position m' - m_position first + ap_offset p) (ap_type p) (address + c).
Proof.
  intros F st l' out k m m' first p r c y j mj A H N N' HF D IP SP YS YR YJ NJ address SA.
  destruct (C30_image F st l' out A H) as (FP & _ & first' & HF' & IM). rewrite HF in HF'. injection HF' as <-.
  destruct (Forall2_nth _ _ _ _ _ FP k m N) as (m'' & N'' & (U & AL & ZL & _)). rewrite N' in N''. injection N'' as <-.
  destruct (final_facts _ _ _ _ _ A H) as (_ & _ & SO & _). rewrite Forall_forall in SO.
  destruct (SO m' (nth_error_In _ _ N')) as (S1 & S2 & S3 & S4).
  destruct (run_facts _ _ _ _ _ A H) as (l & ys & ff & rr & P1 & _ & _ & Y & B & _ & _ & PA).
  destruct (Forall2_nth _ _ _ _ _ P1 k m N) as (m1 & N1 & _ & DD & PP & _).
  destruct (BackPatch_nth _ _ _ _ _ B) as [BF BN]. specialize (BN k m1 m' N1 N').
  rewrite Forall_forall in PA. destruct (PA m1 (nth_error_In _ _ N1)) as [OF DJ].
  destruct (backPatch_ok _ _ _ _ _ _ _ _ BN OF) as (_ & _ & X & _). specialize (X DJ p).
  assert (SJ : exists j1, nth_error l j = Some j1 /\ m_sect j1 = m_sect mj).
  { clear - BF NJ. revert j NJ. induction BF as [|a b l l' (d & ps & ->) BF IH]; intros [|j] NJ; cbn in *; try discriminate; [|eauto].
    injection NJ as <-. exists a. split; [reflexivity|]. symmetry. apply (set_data_same d ps a). }
  destruct SJ as (j1 & NJ1 & SJ).
  destruct (relocate_nth _ _ _ _ _ Y YS) as (s & NS & RS). unfold relocate in RS.
  assert (SV : y_constant s = true /\ y_value s = address).
  { rewrite YR, YJ, NJ1, SJ in RS. destruct (y_type y); try discriminate; injection RS as <-; cbn; split; try reflexivity; apply s32_id; exact SA. }
  destruct SV as [SC SV].
  assert (WS : nth r ys no_symbol = s) by (apply nth_error_nth; exact NS).
  set (w := World (fun r => nth r ys no_symbol) (map m_sect l)) in *.
  assert (RD : (exists e, reduceExpression F w (0 + k) (m_sect m1) (ap_offset p) (ap_expr p) = Ok (Some (address + c), e))).
  { assert (SY : forall v, reduceExpression F w (0 + k) (m_sect m1) (ap_offset p) (ENode TSymbol false OpNone v r ENull ENull) =
        Ok (Some address, ENode TSymbol false OpNone v r ENull ENull)).
    { intros v. cbn [reduceExpression]. unfold w at 1. cbn [w_symbol]. rewrite WS, SC. cbn match. unfold w. cbn [w_symbol]. rewrite WS, SV. reflexivity. }
    destruct SP as [(v & -> & ->)|(v & SP)].
    - rewrite Z.add_0_r. eexists. apply SY.
    - (* a sum out of range is undefined behaviour, which this run did not have *)
      assert (IP1 : In p (m_patches m1)) by (rewrite PP; exact IP).
      destruct (backPatch_each _ _ _ _ _ _ _ _ p BN IP1) as [v1 RV]. rewrite SP in RV |- *.
      cbn [reduceExpression] in RV |- *. fold reduceExpression in RV |- *. specialize (SY v). cbn [reduceExpression] in SY. rewrite SY in RV |- *.
      cbn [bind expr_Const reduceExpression reduce_value] in RV |- *. change (is_unary OpAdd) with false in *. cbn match in RV |- *. unfold c_add, chk in RV |- *.
      destruct ((- 2 ^ 31 <=? address + c) && (address + c <? 2 ^ 31)); [cbn [bind]; eauto|discriminate]. }
  destruct RD as [e RD]. rewrite PP in X. destruct (X _ _ IP RD) as [XL [XR XF]].
  split; [exact XR|]. rewrite <- XF. apply fetch_ext. intros x XX. destruct IM as (IM & _).
  assert (HD' : has_data m' = true) by (unfold has_data in *; rewrite AL; exact D).
  rewrite Forall_forall in OF. rewrite <- PP in IP. specialize (OF p IP). rewrite DD in XL.
  destruct (IM m' (ap_offset p + x) (nth_error_In _ _ N') HD' ltac:(rewrite <- (S4 HD'), ZL; lia)) as [_ IB].
  rewrite <- IB. f_equal. lia.
Qed.
Print Assumptions C30_label.

(** A program of three sections: one at 16 with a label three bytes in and a
    reference to a label of the last section, one without an address and a last one
    aligned to 8 and held within a page of 16. *)
Definition sect_ (fixed bank aligned paged : bool) (position origin bankno align page used : Z) (data : list Z) (ps : list apatch) : msect :=
  MSect (WSect (ASect fixed bank false aligned false paged origin used 0 bankno) [] 0 position align page [] used data ps) used.
Definition label_ (k : nat) (v : Z) : symbol := Symbol SymLabel false true true (Some k) v.
Definition exBin : bstate :=
  BState 1 MPlain 1 [(label_ 0 3, true); (label_ 2 1, true)]
    [sect_ true false false false 16 16 0 0 0 5 [1; 0; 0; 4; 5]
       [APatch 1 1 (ENode TOperation false OpAdd 0 0 (ENode TSymbol false OpNone 0 1 ENull ENull) (expr_Const 256))];
     sect_ false false false false 0 0 0 0 0 4 [9; 9; 9; 9] [];
     sect_ false false true true 0 0 0 8 16 10 [7; 7; 7; 7; 7; 7; 7; 0; 7; 7]
       [APatch 7 0 (ENode TSymbol false OpNone 0 0 ENull ENull)]].
Example C30_example :
  assembled exBin /\ Forall (fun m => bytes (m_data m)) (b_sections exBin) /\
  match bin_Write exF exBin with
  | Ok (Some (l, out)) => map m_position l = [16; 21; 32] /\
      out = [1; 33; 1; 4; 5; 9; 9; 9; 9; 0; 0; 0; 0; 0; 0; 0; 7; 7; 7; 7; 7; 7; 7; 19; 7; 7]
  | _ => False
  end.
Proof.
  split; [|split].
  - unfold assembled, exBin; cbn [b_wordSize b_sections b_machine b_align]. split; [lia|]. split; [|split].
    + repeat constructor; cbn; try lia; intros; try reflexivity; try discriminate; lia.
    + exists 21. split; [lia|]. split; [cbn; lia|]. intros m [<-|[<-|[<-|[]]]]; cbn; intros X; try discriminate X; lia.
    + repeat constructor; cbn; lia.
  - repeat constructor; unfold is_byte; lia.
  - vm_compute. split; reflexivity.
Qed.

(** A program that refers to a symbol of another module is refused: no file is
    written, in either format. *)
Theorem C30_imports : forall f F st y, In (y, true) (b_symbols st) -> y_type y = SymImport \/ y_type y = SymGlobal ->
  forall l' out, internalWrite f F st <> Ok (Some (l', out)).
Proof.
  intros f F st y I T l' out H. unfold internalWrite, commonPatch in H.
  destruct (b_sections st) as [|first r]; [discriminate|].
  destruct (needsOrg (first :: r) && negb (a_loadfixed (m_sect first) || a_bankfixed (m_sect first))); [discriminate|].
  destruct (place (b_wordSize st) (b_machine st) (b_align st) 0 (first :: r)) as [[l|]| |]; try discriminate. cbn [bind] in H.
  assert (E : forall ys, relocate_all l (b_symbols st) <> Ok ys).
  { clear H. revert I. generalize (b_symbols st). induction l0 as [|x l0 IH]; intros I ys; [destruct I|]. cbn [relocate_all].
    destruct I as [->|I].
    - unfold relocate. destruct T as [-> | ->]; discriminate.
    - destruct (relocate l x); try discriminate. cbn [bind]. destruct (relocate_all l l0) as [ys'| |] eqn:E; try discriminate.
      now destruct (IH I ys'). }
  destruct (relocate_all l (b_symbols st)) as [ys| |]; try discriminate. now destruct (E ys).
Qed.
Print Assumptions C30_imports.
Example C30_imports_case : let y := Symbol SymImport false false false None 0 in
  let st := BState 1 MPlain 1 [(label_ 0 0, true); (y, true)] [sect_ true false false false 16 16 0 0 0 1 [1] []] in
  In (y, true) (b_symbols st) /\ bin_Write exF st = Err.
Proof. split; [cbn; auto|reflexivity]. Qed.

(** A branch to a label of another section, both sections without an address: the
    distance is never filled in, and no error is reported. *)
Definition exBranch : bstate :=
  BState 1 MPlain 1 [(label_ 2 1, true)]
    [sect_ true false false false 16 16 0 0 0 1 [1] [];
     sect_ false false false false 0 0 0 0 0 2 [32; 0]
       [APatch 1 0 (ENode TPcRelative false OpNone 0 0 (expr_Const (-1)) (ENode TSymbol false OpNone 0 0 ENull ENull))];
     sect_ false false false false 0 0 0 0 0 2 [7; 8] []].
Theorem C30_branch_refuted : assembled exBranch /\
  exists l', bin_Write exF exBranch = Ok (Some (l', [1; 32; 0; 7; 8])) /\
    (* the label is at 20 and the branch ends at 19 *)
    map (fun m => a_cpuOrigin (m_sect m)) l' = [16; 17; 19].
Proof.
  split.
  - unfold assembled, exBranch; cbn [b_wordSize b_sections b_machine b_align]. split; [lia|]. split; [|split].
    + repeat constructor; cbn; try lia; intros; try reflexivity; try discriminate; lia.
    + exists 18. split; [lia|]. split; [cbn; lia|]. intros m [<-|[<-|[<-|[]]]]; cbn; intros X; try discriminate X; lia.
    + repeat constructor; cbn; lia.
  - eexists. split; [vm_compute; reflexivity|reflexivity].
Qed.
Print Assumptions C30_branch_refuted.

(** A section both aligned and paged may lose its alignment. *)
Definition exPage : bstate :=
  BState 1 MPlain 1 []
    [sect_ true false false false 0 0 0 0 0 5 [1; 2; 3; 4; 5] [];
     sect_ false false true true 0 0 0 6 8 4 [7; 7; 7; 7] []].
Theorem C30_align_page_refuted : assembled exPage /\
  exists l' out, bin_Write exF exPage = Ok (Some (l', out)) /\ map m_position l' = [0; 8] /\ ~ (6 | 8).
Proof.
  split.
  - unfold assembled, exPage; cbn [b_wordSize b_sections b_machine b_align]. split; [lia|]. split; [|split].
    + repeat constructor; cbn; try lia; intros; try reflexivity; try discriminate; lia.
    + exists 6. split; [lia|]. split; [cbn; lia|]. intros m [<-|[<-|[]]]; cbn; intros X; try discriminate X; lia.
    + repeat constructor; cbn; lia.
  - eexists. eexists. split; [vm_compute; reflexivity|]. split; [reflexivity|]. intros [z Hz]. lia.
Qed.
Print Assumptions C30_align_page_refuted.

(** A section for address 16384 in bank 1 of a Z80 is given the address 32768. *)
Definition exBank : bstate :=
  BState 1 MZ80 1 [(label_ 0 0, true)]
    [sect_ true true false false 16384 16384 1 0 0 2 [0; 0] [APatch 0 1 (ENode TSymbol false OpNone 0 0 ENull ENull)]].
Theorem C30_bank_refuted : assembled exBank /\
  exists l', bin_Write exF exBank = Ok (Some (l', [0; 128])) /\ map (fun m => a_cpuOrigin (m_sect m)) l' = [32768].
Proof.
  split.
  - unfold assembled, exBank; cbn [b_wordSize b_sections b_machine b_align]. split; [lia|]. split; [|split].
    + repeat constructor; cbn; try lia; intros; try reflexivity; try discriminate; lia.
    + exists 40000. split; [lia|]. split; [cbn; lia|]. intros m [<-|[]]; cbn; intros X; lia.
    + repeat constructor; cbn; lia.
  - eexists. split; [vm_compute; reflexivity|reflexivity].
Qed.
Print Assumptions C30_bank_refuted.
