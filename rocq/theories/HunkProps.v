(** C29: Amiga executables and link objects. *)
From Coq Require Import ZArith List Bool Lia Permutation ZifyBool ZifyNat.
From Verif Require Import Base BaseFacts AssignModel Arith LinkExprModel LinkModel LinkSpec PatchProofs NeededProofs ImageModel FileModel FileProofs FormatModel FormatSpec HunkModel HunkSpec HunkProofs.
Import ListNotations.
Open Scope Z_scope.

(** ** C29 *)
(** A loader reading the executable gets one hunk for each section, with its kind,
    memory type, size, contents padded to longwords and one relocation for each
    relocated patch. *)
Theorem C29_hunks_load : forall p, hunk_program p ->
  exists d hs, amiga_WriteExecutable p None = Ok d /\ hunk_load d = Some hs /\ Forall2 (hunk_for p) (hunks_of p) hs.
Proof. intros p HP. now apply executable_written. Qed.
Print Assumptions C29_hunks_load.

(** Wherever the hunks are loaded, a relocated longword is what it was in the section
    plus the address of the hunk it refers to, and all other bytes are those of the
    section. *)
Theorem C29_relocated : forall p s h d start, hunk_program p -> hunk_for p s h -> h_kind h <> Bss -> sc_data s = Some d ->
  Forall (fun a => 0 <= snd a /\ snd a + 4 <= zlen d) (relocations s) ->
  ForallOrdPairs (fun a b => 4 <= Z.abs (snd a - snd b)) (relocations s) ->
  zlen (relocate start h) = 4 * h_longs h /\
  (forall k o t, In (k, o) (relocations s) -> hunk_number p k t -> long_at (relocate start h) o = (long_at d o + start t) mod 2 ^ 32) /\
  (forall i, 0 <= i -> (forall k o, In (k, o) (relocations s) -> ~ (o <= i < o + 4)) -> nth (Z.to_nat i) (relocate start h) 0 = nth (Z.to_nat i) d 0).
Proof. intros p s h d start HP HF NB D IN AP. now apply hunk_relocated. Qed.
Print Assumptions C29_relocated.

(** *** Patching and loading *)
Definition relocates (eval : lpatch -> res (option entry)) (q q' : lpatch) : Prop :=
  (eval q = Ok None /\ q' = q) \/
  exists e, eval q = Ok (Some e) /\ pt_type q' = 6 /\ pt_offset q' = pt_offset q /\
    pt_section q' = match en_symbol e with None => pt_section q | Some y => option_map Z.of_nat (v_section y) end.
Lemma patchAll_relocates : forall eval qs d d' qs', patchAll true true eval d qs = Ok (d', qs') -> Forall2 (relocates eval) qs qs'.
Proof.
  intros eval. induction qs as [|q qs IH]; intros d d' qs' H; cbn [patchAll] in H.
  - injection H as <- <-. constructor.
  - destruct (onePatch true true eval d q) as [[d1 q1]| |] eqn:O; try discriminate. cbn [bind] in H.
    destruct (patchAll true true eval d1 qs) as [[d2 r2]| |] eqn:PA; try discriminate. cbn [bind] in H. injection H as <- <-.
    constructor; [|eauto]. unfold onePatch in O. destruct (eval q) as [[e|]| |] eqn:E; try discriminate; cbn [bind] in O.
    + right. exists e. split; auto. destruct (en_symbol e) as [y|] eqn:Y.
      * cbn [negb orb] in O. destruct (c_add (en_value e) (v_value y)) as [v| |]; try discriminate. cbn [bind] in O.
        destruct (storePatch d (pt_type q) (pt_offset q) false v) as [d3| |]; try discriminate. cbn [bind] in O. injection O as <- <-. auto.
      * destruct (storePatch d (pt_type q) (pt_offset q) true (en_value e)) as [d3| |]; try discriminate. cbn [bind] in O. injection O as <- <-. auto.
    + injection O as <- <-. left. auto.
Qed.
(** The relocations after patching. *)
Lemma relocs_in : forall eval d qs qs' k o, Forall2 (relocates eval) qs qs' -> Forall (inside d) qs -> Forall (fun q => pt_section q = None) qs ->
  In (k, o) (relocs_of qs') -> exists q e y n, In q qs /\ eval q = Ok (Some e) /\ en_symbol e = Some y /\ v_section y = Some n /\ k = Z.of_nat n /\ o = pt_offset q.
Proof.
  intros eval d qs qs' k o F IN NS. induction F as [|q q' qs qs' R F IH]; intro I; [destruct I|].
  inversion IN as [|? ? I1 I2]; subst. inversion NS as [|? ? N1 N2]; subst. rewrite relocs_cons in I. apply in_app_or in I as [I|I].
  - unfold relocated in I. destruct R as [[E ->]|(e & E & T & O & SE)].
    + destruct I1 as [TY _]. unfold PATCH_RELOC in I. assert (pt_type q =? 6 = false) as X by lia. rewrite X in I. destruct I.
    + rewrite T in I. change (6 =? PATCH_RELOC) with true in I. cbn iota in I. rewrite SE in I. destruct (en_symbol e) as [y|] eqn:Y; [|rewrite N1 in I; destruct I].
      destruct (v_section y) as [n|] eqn:V; cbn [option_map] in I; [|destruct I]. destruct I as [I|[]]. injection I as <- <-. exists q, e, y, n. rewrite O. split; [left|]; auto 10.
  - destruct (IH I2 N2 I) as (q0 & X). exists q0. destruct X as (e & y & n & X & Y). exists e, y, n. split; [right|]; auto.
Qed.
Lemma relocs_from : forall eval d qs qs' q e y n, Forall2 (relocates eval) qs qs' -> Forall (inside d) qs -> In q qs -> eval q = Ok (Some e) -> en_symbol e = Some y ->
  v_section y = Some n -> In (Z.of_nat n, pt_offset q) (relocs_of qs').
Proof.
  intros eval d qs qs' q e y n F IN I E Y V. induction F as [|a a' qs qs' R F IH]; [destruct I|]. rewrite relocs_cons. apply in_or_app.
  inversion IN; subst. destruct I as [->|I]; [left|right; auto]. destruct R as [[E' _]|(e' & E' & T & O & SE)]; [congruence|].
  rewrite E in E'. injection E' as <-. unfold relocated. rewrite T. change (6 =? PATCH_RELOC) with true. cbn iota. rewrite SE, Y, V, O. left. reflexivity.
Qed.
(** Relocations come in the order of the patches and are apart. *)
Lemma relocs_apart : forall eval d qs qs', Forall2 (relocates eval) qs qs' -> Forall (inside d) qs -> Forall (fun q => pt_section q = None) qs ->
  ForallOrdPairs disjoint qs -> (forall q e, In q qs -> eval q = Ok (Some e) -> en_symbol e <> None -> width (pt_type q) = 4) ->
  ForallOrdPairs apart (relocs_of qs').
Proof.
  intros eval d qs qs' F. induction F as [|q q' qs qs' R F IH]; intros IN NS DJ W; [constructor|].
  inversion IN as [|? ? I1 I2]; subst. inversion NS as [|? ? N1 N2]; subst. inversion DJ as [|? ? D1 D2]; subst. rewrite relocs_cons.
  assert (REST : ForallOrdPairs apart (relocs_of qs')) by (apply IH; auto; intros; eapply W; eauto; right; auto).
  destruct (relocated q') as [k|] eqn:RL; [|exact REST]. cbn [app]. constructor; auto. apply Forall_forall. intros [k2 o2] I.
  assert (OW : pt_offset q' = pt_offset q /\ width (pt_type q) = 4).
  { destruct R as [[E ->]|(e & E & T & O & SE)].
    - unfold relocated, PATCH_RELOC in RL. destruct I1 as [TY _]. assert (pt_type q =? 6 = false) as X by lia. rewrite X in RL. discriminate.
    - split; auto. apply (W q e); [left; auto|auto|]. intro Y. unfold relocated in RL. rewrite SE, Y, N1 in RL. destruct (pt_type q' =? PATCH_RELOC); discriminate. }
  destruct OW as [O W1]. destruct (relocs_in eval d qs qs' k2 o2 F I2 N2 I) as (q2 & e2 & y2 & n2 & I2' & E2 & Y2 & _ & _ & ->).
  assert (W2 : width (pt_type q2) = 4) by (apply (W q2 e2); [right; auto|auto|congruence]).
  rewrite Forall_forall in D1. specialize (D1 q2 I2'). unfold apart. cbn [snd]. rewrite O.
  pose proof (D1 (pt_offset q)) as A. pose proof (D1 (pt_offset q2)) as B. unfold covered in A, B. rewrite W1, W2 in A, B. lia.
Qed.
Lemma long_slice : forall d o v, 0 <= o -> o + 4 <= zlen d -> slice d o 4 = rev (low_bytes 4 v) -> long_at d o = v mod 2 ^ 32.
Proof.
  intros d o v O0 O1 S. assert (N : forall j, (j < 4)%nat -> nth (Z.to_nat (o + Z.of_nat j)) d 0 = nth j (rev (low_bytes 4 v)) 0).
  { intros j J. rewrite <- S. unfold slice. change (Z.to_nat 4) with 4%nat. unfold zlen in O1.
    rewrite <- (firstn_skipn (Z.to_nat o) d) at 1. rewrite app_nth2 by (rewrite firstn_length; lia). rewrite firstn_length.
    replace (Z.to_nat (o + Z.of_nat j) - Nat.min (Z.to_nat o) (length d))%nat with j by lia.
    rewrite <- (firstn_skipn 4 (skipn (Z.to_nat o) d)) at 1. rewrite app_nth1; auto. rewrite firstn_length, skipn_length. lia. }
  unfold long_at. change 0 with (Z.of_nat 0) at 1. change 1 with (Z.of_nat 1) at 1. change 2 with (Z.of_nat 2) at 1. change 3 with (Z.of_nat 3) at 1.
  rewrite !N by lia. cbn [low_bytes rev app nth]. change (2 ^ 32) with 4294967296. Z.div_mod_to_equations. lia.
Qed.

(** After linking for this format and loading the executable anywhere, a longword
    defined as the address of a label (plus a constant) holds the address the label was
    loaded at (plus the constant): the start of the label's hunk plus the label's offset. *)
Theorem C29_pointers : forall F linkerValue groupProperty p p' i s d g q y v n own t start,
  patch_Process F true true linkerValue groupProperty false p = Ok p' -> hunk_program p' ->
  nth_error p i = Some s -> s_group (sc_place s) = Some g -> og_type g = 0 -> sc_data s = Some d ->
  Forall (inside d) (sc_patches s) -> ForallOrdPairs disjoint (sc_patches s) -> Forall (fun q => pt_section q = None) (sc_patches s) ->
  In q (sc_patches s) -> pt_type q = 4 ->
  calculateExpressionValue F (patch_ctx linkerValue groupProperty p i false s (pt_offset q)) (pt_expr q) = Ok (Some (Entry (Some y) v)) ->
  v_section y = Some n -> hunk_number p' (s_id (sc_place s)) own -> hunk_number p' (Z.of_nat n) t ->
  exists bytes hs h, amiga_WriteExecutable p' None = Ok bytes /\ hunk_load bytes = Some hs /\
    nth_error hs (Z.to_nat own) = Some h /\
    long_at (relocate start h) (pt_offset q) = (start t + v_value y + v) mod 2 ^ 32.
Proof.
  intros F lv gp p p' i s d g q y v n own t start PP HP NI G GT D IN DJ NS IQ TQ EV V OWN T.
  destruct (executable_written p' HP) as (bs & hs & W & L & F2). exists bs, hs.
  destruct OWN as (O0 & s' & NS' & ID).
  assert (exists h, nth_error hs (Z.to_nat own) = Some h /\ hunk_for p' s' h) as (h & NH & HF).
  { clear - F2 NS'. revert NS'. generalize (Z.to_nat own) as m. induction F2 as [|a b l m H F2 IH]; intros [|j] N; cbn [nth_error] in *; try discriminate; eauto.
    injection N as ->. eauto. }
  exists h. split; auto. split; auto. split; auto.
  unfold patch_Process in PP. destruct (patchSections_at _ _ _ _ _ _ _ _ _ _ _ _ PP NI) as (s2 & N2 & HS). cbn [Nat.add] in HS.
  assert (s2 = s') as ->.
  { apply nth_error_In in NS'. apply in_hunks in NS' as [IS' _]. apply nth_error_In in N2.
    assert (s_id (sc_place s2) = s_id (sc_place s)) as E2.
    { destruct (sc_used s); [|congruence]. unfold patchSection in HS. rewrite D in HS. destruct (patchAll _ _ _ _ _) as [[d' qs']| |]; try discriminate. cbn [bind] in HS. injection HS as <-. reflexivity. }
    rewrite <- ID in E2. pose proof (hp_ids p' HP) as ND. clear - IS' N2 E2 ND. induction p' as [|a l IH]; [destruct N2|]. cbn [map] in ND. inversion ND as [|? ? A B]; subst.
    destruct IS' as [->|IS']; destruct N2 as [->|N2]; auto.
    - exfalso. apply A. rewrite <- E2. apply in_map_iff. eauto.
    - exfalso. apply A. rewrite E2. apply in_map_iff. eauto. }
  assert (US : sc_used s = true).
  { apply nth_error_In in NS'. apply in_hunks in NS' as [_ IH]. rewrite in_hunk in IH. apply andb_prop in IH as [U _]. destruct (sc_used s) eqn:US; auto. subst s'. unfold sc_used in US. congruence. }
  rewrite US in HS. unfold patchSection in HS. rewrite D in HS.
  destruct (patchAll true true (fun q => calculateExpressionValue F (patch_ctx lv gp p i false s (pt_offset q)) (pt_expr q)) d (sc_patches s)) as [[d' qs']| |] eqn:PA; try discriminate.
  cbn [bind] in HS. injection HS as HS. pose proof (patchAll_relocates _ _ _ _ _ PA) as RL.
  destruct (patchAll_ok _ _ _ _ _ _ _ IN DJ PA) as (ZL & PQ & _).
  assert (WD : forall q e, In q (sc_patches s) -> calculateExpressionValue F (patch_ctx lv gp p i false s (pt_offset q)) (pt_expr q) = Ok (Some e) -> en_symbol e <> None -> width (pt_type q) = 4).
  { intros q0 e0 I0 E0 Y0. destruct (PQ q0 I0) as [X|(e & X & _ & Y & _)]; [congruence|]. rewrite E0 in X. injection X as <-. destruct (Y Y0) as [_ [-> | ->]]; reflexivity. }
  assert (RS : relocations s' = relocs_of qs') by (subst s'; reflexivity).
  destruct (hunk_relocated p' s' h d' start HP HF) as (_ & RR & _).
  - destruct (hf_kind p' s' h HF) as (g' & G' & -> & _). subst s'. cbn [sc_place] in G'. rewrite G in G'. injection G' as <-. unfold kind_for. rewrite GT. change (0 =? 0) with true. cbn iota. destruct (Z.testbit (og_flags g) 30); discriminate.
  - subst s'. reflexivity.
  - rewrite RS. apply Forall_forall. intros [k o] I. destruct (relocs_in _ d _ _ _ _ RL IN NS I) as (q0 & e0 & y0 & n0 & I0 & E0 & Y0 & _ & _ & ->).
    rewrite Forall_forall in IN. destruct (IN q0 I0) as (_ & A & B). rewrite (WD q0 e0 I0 E0 ltac:(congruence)) in B. cbn [snd]. lia.
  - rewrite RS. eapply relocs_apart; eauto.
  - assert (IR : In (Z.of_nat n, pt_offset q) (relocations s')) by (rewrite RS; exact (relocs_from _ d _ _ q (Entry (Some y) v) y n RL IN IQ EV eq_refl V)).
    rewrite (RR _ _ t IR T). destruct (PQ q IQ) as [X|(e & X & _ & _ & SL)]; [congruence|]. rewrite EV in X. injection X as <-. rewrite TQ in SL. cbn [width encoding stored en_symbol en_value orb] in SL.
    rewrite Forall_forall in IN. destruct (IN q IQ) as (_ & A & B). rewrite TQ in B. cbn [width] in B.
    rewrite (long_slice d' (pt_offset q) (v + v_value y) A ltac:(lia) SL). rewrite Zplus_mod_idemp_l. f_equal. lia.
Qed.
Print Assumptions C29_pointers.

Definition amCode : option ogroup := Some (OGroup [67] 0 0).
Definition amChip : option ogroup := Some (OGroup [68] 0 1610612736).
Definition amBss : option ogroup := Some (OGroup [66] 1 0).
Definition amSect (id : Z) (g : option ogroup) (size : Z) (ys : list lsym) (d : option (list Z)) (qs : list lpatch) : lsect :=
  LSect (Section_ id g (-1) (-1) (-1) (-1) UINT32_MAX 1 (-1) (-1) size true false None) 0 false [] ys [] d qs.
(** The code has longwords with the addresses of data+1 and of a local label at 4, and
    a constant. *)
Definition amProgram : program :=
  [amSect 0 None 0 [] None [];
   amSect 1 amCode 14 [LSym [100] SYM_LOCALIMPORT 0 false 0 0 None []; LSym [108] SYM_LOCAL 4 false 0 0 None []]
     (Some [1; 2; 0; 0; 0; 0; 3; 0; 0; 0; 0; 4; 0; 0])
     [LPatch 4 2 [31; 0; 0; 0; 0; 30; 1; 0; 0; 0; 1] None; LPatch 4 7 [31; 1; 0; 0; 0] None; LPatch 2 12 [30; 2; 1; 0; 0] None];
   amSect 2 amBss 9 [] None [];
   amSect 3 amChip 4 [LSym [100] SYM_LOCALEXPORT 2 false 0 0 None []] (Some [9; 8; 7; 6]) []].
Definition amF : fmath := FMath (fun _ _ => 0) (fun _ _ => 0) (fun _ _ => 0) (fun _ => 0) (fun _ => 0) (fun _ => 0) (fun _ => 0) (fun _ => 0) (fun _ => 0).
Definition amLv : program -> list Z -> res (Z * option Z) := fun _ _ => Err.
Definition amGp : program -> Z -> Z -> res Z := fun _ _ _ => Err.
Definition amPatched : program :=
  match patch_Process amF true true amLv amGp false amProgram with Ok p => p | _ => [] end.
Definition amCodePatched : lsect :=
  amSect 1 amCode 14 [LSym [100] SYM_LOCALIMPORT 0 false 0 0 None []; LSym [108] SYM_LOCAL 4 false 0 0 None []]
     (Some [1; 2; 0; 0; 0; 3; 3; 0; 0; 0; 4; 4; 1; 2]) [LPatch 6 2 [] (Some 3); LPatch 6 7 [] (Some 1); LPatch 6 12 [] None].
Lemma amPatched_is : patch_Process amF true true amLv amGp false amProgram = Ok amPatched /\
  amPatched = [nth 0 amProgram amCodePatched; amCodePatched; nth 2 amProgram amCodePatched; nth 3 amProgram amCodePatched].
Proof. split; reflexivity. Qed.
Lemma amPatched_fit : hunk_program amPatched.
Proof.
  destruct amPatched_is as [_ ->]. split.
  - cbn. repeat constructor; cbn; intuition lia.
  - cbn. lia.
  - repeat (apply Forall_cons || apply Forall_nil); cbn; (split; [lia|]); intros d E; try discriminate; injection E as <-; reflexivity.
  - repeat (apply Forall_cons || apply Forall_nil); cbn; intros g E; try discriminate; injection E as <-; cbn; (split; [lia|]); intro; discriminate.
  - repeat (apply Forall_cons || apply Forall_nil); cbn; lia.
  - intros s k o I R. cbn in I. destruct I as [<-|[<-|[<-|[<-|[]]]]]; cbn in R; try contradiction.
    destruct R as [R|[R|[]]]; injection R as <- <-; (split; [unfold is_u32; lia|]).
    + exists 2. split; [lia|]. eexists. split; reflexivity.
    + exists 0. split; [lia|]. eexists. split; reflexivity.
Qed.
Example C29_case : hunk_program amPatched /\ exists d, amiga_WriteExecutable amPatched None = Ok d /\ hunk_load d =
  Some [Hunk Code false 4 [1; 2; 0; 0; 0; 3; 3; 0; 0; 0; 4; 4; 1; 2; 0; 0] [(0, 7); (2, 2)]; Hunk Bss false 3 [] []; Hunk Data true 1 [9; 8; 7; 6] []].
Proof. split; [exact amPatched_fit|]. eexists. split; [reflexivity|]. vm_compute. reflexivity. Qed.
(** Loaded with the data at 2000, the first longword is 2003. *)
Example C29_pointers_case :
  exists i s d g q y v n own t, patch_Process amF true true amLv amGp false amProgram = Ok amPatched /\
  nth_error amProgram i = Some s /\ s_group (sc_place s) = Some g /\ og_type g = 0 /\ sc_data s = Some d /\
  Forall (inside d) (sc_patches s) /\ ForallOrdPairs disjoint (sc_patches s) /\ Forall (fun q => pt_section q = None) (sc_patches s) /\
  In q (sc_patches s) /\ pt_type q = 4 /\
  calculateExpressionValue amF (patch_ctx amLv amGp amProgram i false s (pt_offset q)) (pt_expr q) = Ok (Some (Entry (Some y) v)) /\
  v_section y = Some n /\ hunk_number amPatched (s_id (sc_place s)) own /\ hunk_number amPatched (Z.of_nat n) t /\
  (2000 + v_value y + v) = 2003.
Proof.
  exists 1%nat, (nth 1 amProgram amCodePatched), [1; 2; 0; 0; 0; 0; 3; 0; 0; 0; 0; 4; 0; 0], (OGroup [67] 0 0), (LPatch 4 2 [31; 0; 0; 0; 0; 30; 1; 0; 0; 0; 1] None),
    (SymView 2 (Some 3%nat) false true), 1, 3%nat, 0, 2.
  do 5 (split; [reflexivity|]). split.
  { cbn [nth amProgram amSect sc_patches]. repeat (apply Forall_cons || apply Forall_nil); unfold inside, zlen; cbn; lia. }
  split.
  { cbn [nth amProgram amSect sc_patches]. repeat (apply FOP_cons || apply FOP_nil || apply Forall_cons || apply Forall_nil); intros k; unfold covered; cbn; lia. }
  split; [cbn; repeat constructor|]. split; [left; reflexivity|]. split; [reflexivity|]. split; [reflexivity|]. split; [reflexivity|]. destruct amPatched_is as [_ ->].
  split; [split; [lia|]; eexists; split; reflexivity|]. split; [split; [lia|]; eexists; split; reflexivity|]. reflexivity.
Qed.

(** The executable format starts at the first byte of the first hunk, and an entry
    symbol defined there should be accepted.  It is refused in a program whose first
    section is the assembler's section of constants, which is in no hunk. *)
Definition amEntry : program :=
  [amSect 0 None 0 [] None [];
   amSect 1 amCode 4 [LSym [109] SYM_EXPORT 0 true 0 0 (Some 1) []] (Some [1; 2; 3; 4]) []].
Theorem C29_entry_refuted :
  hunk_program amEntry /\ (exists d hs, amiga_WriteExecutable amEntry None = Ok d /\ hunk_load d = Some hs /\ hunk_number amEntry 1 0) /\
  (exists y, exported amEntry [109] y /\ ls_section y = Some 1 /\ ls_value y = 0) /\ amiga_WriteExecutable amEntry (Some [109]) = Err.
Proof.
  split; [|split; [|split]].
  - split.
    + cbn. repeat constructor; cbn; intuition lia.
    + cbn. lia.
    + repeat (apply Forall_cons || apply Forall_nil); cbn; (split; [lia|]); intros d E; try discriminate; injection E as <-; reflexivity.
    + repeat (apply Forall_cons || apply Forall_nil); cbn; intros g E; try discriminate; injection E as <-; cbn; (split; [lia|]); intro; discriminate.
    + repeat (apply Forall_cons || apply Forall_nil); cbn; lia.
    + intros s k o I R. cbn in I. destruct I as [<-|[<-|[]]]; cbn in R; contradiction.
  - eexists. eexists. split; [reflexivity|]. split; [vm_compute; reflexivity|]. split; [lia|]. eexists. split; reflexivity.
  - exists (LSym [109] SYM_EXPORT 0 true 0 0 (Some 1) []). split; [|split; reflexivity]. exists (amSect 1 amCode 4 [LSym [109] SYM_EXPORT 0 true 0 0 (Some 1) []] (Some [1; 2; 3; 4]) []). cbn. auto 10.
  - reflexivity.
Qed.
Print Assumptions C29_entry_refuted.

(** A link object should say which symbol an unresolved longword needs.  It does not:
    programs that import different symbols give the same file. *)
Definition amImport (name : list Z) : program :=
  [amSect 0 amCode 4 [LSym name SYM_IMPORT 0 false 0 0 None []] (Some [0; 0; 0; 0]) [LPatch 4 0 [31; 0; 0; 0; 0] None]].
Theorem C29_link_object_refuted : forall name name', exists p p' d,
  patch_Process amF true false amLv amGp true (amImport name) = Ok p /\
  patch_Process amF true false amLv amGp true (amImport name') = Ok p' /\
  amiga_WriteLinkObject p = Ok d /\ amiga_WriteLinkObject p' = Ok d.
Proof.
  intros name name'.
  assert (R : forall name, patch_Process amF true false amLv amGp true (amImport name) =
    Ok [amSect 0 amCode 4 [LSym name SYM_IMPORT 0 false 0 0 None []] (Some [0; 0; 0; 0]) [LPatch 6 0 [] None]]).
  { intro m. unfold amImport, patch_Process. cbn. unfold beq. reflexivity. }
  rewrite !R. do 3 eexists. split; [reflexivity|]. split; [reflexivity|]. split; vm_compute; reflexivity.
Qed.
Print Assumptions C29_link_object_refuted.
