(** C26, C27, C28, C49, C50: executable files load as linked. *)
From Coq Require Import ZArith List Bool Lia ZifyBool ZifyNat.
From Verif Require Import Base BaseFacts AssignModel AssignSpec LinkModel FileModel FileProofs ImageModel ImageSpec ImageProofs
  FormatModel FormatSpec FormatProofs FormatPaint.
Import ListNotations.
Open Scope Z_scope.

(** ** C26 *)
(** C26: a .PRG file loads every section to its address, and its BASIC line starts
    the program.  The header addresses are $0801, $1C01 and $1001. *)
Theorem C26_prg_loads : forall log2n p entry header start,
  In header [2049; 7169; 4097] -> starts_at p entry start -> 1000 <= start < 65536 ->
  Forall (image_ok 15) p -> image_disjoint p -> Forall (image_from (header + 13)) p ->
  exists fs f, commodore_WritePrg log2n p entry header = Ok fs /\ findFile fs MAIN = Some f /\
    forall m, exists m', prg_load (f_data f) m = Some m' /\ memory_has m' p /\ basic_runs m' header [] start.
Proof.
  intros log2n p entry header start HI SA SR OK DJ IF. apply prg_written; auto; try lia.
  - now apply starts_start.
  - destruct HI as [<-|[<-|[<-|[]]]]; lia.
  - destruct HI as [<-|[<-|[<-|[]]]]; reflexivity.
Qed.
Print Assumptions C26_prg_loads.
(** C26 for the MEGA65: the line is BANK0:SYS. *)
Theorem C26_mega65_loads : forall log2n p entry start,
  starts_at p entry start -> 1000 <= start < 65536 ->
  Forall (image_ok 19) p -> image_disjoint p -> Forall (image_from (8193 + 17)) p ->
  exists fs f, commodore_WriteMega65Prg log2n p entry = Ok fs /\ findFile fs MAIN = Some f /\
    forall m, exists m', prg_load (f_data f) m = Some m' /\ memory_has m' p /\ basic_runs m' 8193 [254; 2; 48; 58] start.
Proof.
  intros log2n p entry start SA SR OK DJ IF. apply mega65_written; auto; try lia. now apply starts_start.
Qed.
Print Assumptions C26_mega65_loads.
(** Programs the linker has placed in a memory map whose image starts at [base]
    meet the hypotheses. *)
Theorem C26_linked : forall header base cf places out ss,
  config_ok cf -> image_config_ok header cf -> 0 <= header -> image_map base cf ss ->
  Forall section_ok places -> assign_Process cf places = Ok out -> map sc_place ss = out ->
  Forall data_ok ss -> Forall has_contents ss ->
  Forall (image_ok header) ss /\ image_disjoint ss /\ Forall (image_from base) ss.
Proof.
  intros header base cf places out ss CF IC HN IM SO A M DO HC.
  destruct (linked_image cf header places out ss CF IC HN SO A M HC) as [X Y]. split; [auto|]. split; [auto|].
  eapply linked_image_from; eauto.
Qed.
Print Assumptions C26_linked.

Definition CODE_ : option ogroup := Some (OGroup [67] GROUP_TEXT 0).
Definition fsect (id loc imageLoc : Z) (ys : list lsym) (d : list Z) : lsect :=
  LSect (Section_ id CODE_ loc 0 loc imageLoc MAIN 1 (-1) (-1) (zlen d) true true (Some 0%nat)) 0 false [] ys [] (Some d) [].
Definition fsym (v : Z) : lsym := LSym [77] SYM_EXPORT v true 0 0 None [].
Definition prg_case : program := [fsect 1 2062 0 [] [169; 0]; fsect 2 2064 2 [fsym 2064] [96]].
Ltac loads_cases := repeat match goal with
  | H : loads _ _ _ |- _ => unfold loads in H; cbn in H; try discriminate H; injection H; clear H; intros; subst end.
Ltac forall_cases := repeat (apply Forall_cons || apply Forall_nil || apply FOP_cons || apply FOP_nil).
Lemma fsect_from : forall base id loc imageLoc ys d, base <= loc -> imageLoc = loc - base -> image_from base (fsect id loc imageLoc ys d).
Proof.
  intros base id loc il ys d B ->. intros a e L. unfold loads, contents in L. cbn in L. injection L as <- <-.
  cbn. repeat split; auto. eexists. split; [reflexivity|]. cbn. discriminate.
Qed.
Lemma prg_case_starts : starts_at prg_case (Some [77]) 2064.
Proof.
  split.
  - exists (fsym 2064). exists (fsect 2 2064 2 [fsym 2064] [96]). cbn. auto 10.
  - intros y (s & I & IY & _). cbn in I. destruct I as [<-|[<-|[]]]; cbn in IY; [contradiction|]. destruct IY as [<-|[]]. reflexivity.
Qed.
Example C26_case : starts_at prg_case (Some [77]) 2064 /\ Forall (image_ok 15) prg_case /\ image_disjoint prg_case /\
  Forall (image_from (2049 + 13)) prg_case /\
  exists fs f, commodore_WritePrg (fun _ => 0) prg_case (Some [77]) 2049 = Ok fs /\ findFile fs MAIN = Some f /\
    f_data f = [1; 8; 12; 8; 10; 0; 158; 50; 48; 54; 52; 0; 0; 0; 0; 169; 0; 96].
Proof.
  split; [exact prg_case_starts|]. split; [|split; [|split]].
  - forall_cases; intros _; cbn; repeat split; try lia; eexists; split; reflexivity.
  - forall_cases; intros o k HA HB CA CB; unfold covers, img_end, img_start in *; cbn in CA, CB; lia.
  - forall_cases; apply fsect_from; lia.
  - do 2 eexists. split; [vm_compute; reflexivity|]. split; vm_compute; reflexivity.
Qed.

(** ** C27 *)
(** C27: a .BIN file loads exactly the sections, to their addresses, and starts the
    program; a start address of $8000 or more is refused. *)
Theorem C27_coco_loads : forall p entry start,
  Forall (addresses_below 65536) p -> memory_disjoint p -> starts_at p entry start -> 0 <= start ->
  if start <? 32768 then
    exists f, coco_WriteQuickloadBin p entry = Ok f /\
      forall m, exists m', coco_load (f_data f) m = Some (m', start) /\ memory_holds m m' p
  else coco_WriteQuickloadBin p entry = Err.
Proof.
  intros p entry start F D SA S0. apply starts_start in SA. destruct (start <? 32768) eqn:E.
  - destruct (coco_written p entry start F SA) as (f & W & L); [lia|]. exists f. split; auto. intro m.
    exists (writes (written p) m). split; auto. now apply writes_hold.
  - unfold coco_WriteQuickloadBin. rewrite SA. cbn [bind]. destruct (start >=? 32768) eqn:E2; [reflexivity|lia].
Qed.
Print Assumptions C27_coco_loads.
(** Programs the linker has placed in a memory map without overlapping pools meet
    the hypotheses. *)
Theorem C27_linked : forall limit cf places out ss,
  config_ok cf -> cpu_config_ok limit cf -> Forall section_ok places -> assign_Process cf places = Ok out ->
  map sc_place ss = out -> Forall data_ok ss ->
  Forall (addresses_below limit) ss /\ memory_disjoint ss.
Proof.
  intros limit cf places out ss CF CC SO A M DO. destruct (linked_memory limit cf places out ss CF CC SO A M DO) as [F D].
  split; auto. rewrite Forall_forall in *. intros s I a d L. destruct (F s I a d L) as (X1 & X2 & X3 & X4).
  pose proof (zlen_nonneg _ d). repeat split; auto; lia.
Qed.
Print Assumptions C27_linked.

Definition coco_case : program := [fsect 1 1536 0 [] [134; 1]; fsect 2 8192 1 [fsym 8192] [57]; fsect 3 1538 2 [] []].
Lemma coco_case_starts : starts_at coco_case (Some [77]) 8192.
Proof.
  split.
  - exists (fsym 8192). exists (fsect 2 8192 1 [fsym 8192] [57]). cbn. auto 10.
  - intros y (s & I & IY & _). cbn in I. destruct I as [<-|[<-|[<-|[]]]]; cbn in IY; try contradiction. destruct IY as [<-|[]]. reflexivity.
Qed.
Example C27_case : Forall (addresses_below 65536) coco_case /\ memory_disjoint coco_case /\ starts_at coco_case (Some [77]) 8192 /\
  exists f, coco_WriteQuickloadBin coco_case (Some [77]) = Ok f /\
    f_data f = [0; 0; 2; 6; 0; 134; 1; 0; 0; 1; 32; 0; 57; 0; 0; 0; 6; 2; 255; 0; 0; 32; 0].
Proof.
  split; [|split; [|split]].
  - forall_cases; intros a d L; unfold loads, contents in L; cbn in L; injection L as <- <-; cbn; repeat split; try lia; repeat constructor; unfold is_byte; lia.
  - forall_cases; intros a d b e x L1 L2; unfold loads, contents in L1, L2; cbn in L1, L2; injection L1 as <- <-; injection L2 as <- <-; cbn; lia.
  - exact coco_case_starts.
  - eexists. split; vm_compute; reflexivity.
Qed.

(** ** C28 *)
(** C28 in full, for one program. *)
Definition pgz_correct (p : program) (entry : option (list Z)) (start : Z) : Prop :=
  exists f, foenix_WriteExecutablePGZ p entry = Ok f /\
    forall m, exists m', pgz_load (f_data f) m = Some (m', start) /\ memory_holds m m' p.
(** A program starts at the end of its last section. *)
Definition starts_at_end (p : program) (start : Z) : Prop :=
  exists before s after a d, p = before ++ s :: after /\ loads s a d /\ (forall t b e, In t after -> ~ loads t b e) /\ a + zlen d = start.
(** C28, except programs with an empty section and programs that start at the end
    of the last section. *)
Theorem C28_pgz_loads_partial : forall p entry start,
  Forall (addresses_below (2 ^ 31)) p -> memory_disjoint p ->
  Forall (fun s => forall a d, loads s a d -> d <> [] /\ a + zlen d < 2 ^ 31) p -> ~ starts_at_end p start ->
  starts_at p entry start -> 0 <= start < 2 ^ 31 ->
  pgz_correct p entry start.
Proof.
  intros p entry start F D N NE SA SR.
  destruct (pgz_written p entry start F) as (f & bl & W & _ & _ & L); auto.
  - apply written_forall. intros s a d I LD. rewrite Forall_forall in F, N. destruct (F s I a d LD) as (X & _). destruct (N s I a d LD) as (Y1 & Y2).
    cbn [fst snd]. repeat split; auto; lia.
  - now apply starts_start.
  - intros a d E. destruct (written p) as [|w ws] eqn:EW; [cbn in E; injection E as <- <-; cbn; lia|].
    rewrite <- EW in E. destruct (last_written p (-1, [])) as (bf & s & af & a' & d' & EP & LD & NA & EL); [congruence|].
    rewrite E in EL. injection EL as <- <-. intro X. apply NE. exists bf, s, af, a, d. auto.
  - exists f. split; auto. intro m. exists (writes (written p) m). split; auto. now apply writes_hold.
Qed.
Print Assumptions C28_pgz_loads_partial.
(** The blocks of the file: sections that follow each other are one block. *)
Theorem C28_pgz_blocks_partial : forall p entry start,
  Forall (addresses_below (2 ^ 31)) p ->
  Forall (fun s => forall a d, loads s a d -> d <> [] /\ a + zlen d < 2 ^ 31) p -> ~ starts_at_end p start ->
  starts_at p entry start -> 0 <= start < 2 ^ 31 ->
  exists f blocks, foenix_WriteExecutablePGZ p entry = Ok f /\
    f_data f = [122] ++ concat (map (fun w => le32 (fst w) ++ le32 (zlen (snd w)) ++ snd w) blocks) ++ le32 start ++ le32 0 /\
    no_adjacent blocks /\ Forall (fun w => snd w <> []) blocks.
Proof.
  intros p entry start F N NE SA SR.
  destruct (pgz_written p entry start F) as (f & bl & W & FD & (_ & B1 & B2 & _) & L); auto.
  - apply written_forall. intros s a d I LD. rewrite Forall_forall in F, N. destruct (F s I a d LD) as (X & _). destruct (N s I a d LD) as (Y1 & Y2).
    cbn [fst snd]. repeat split; auto; lia.
  - now apply starts_start.
  - intros a d E. destruct (written p) as [|w ws] eqn:EW; [cbn in E; injection E as <- <-; cbn; lia|].
    rewrite <- EW in E. destruct (last_written p (-1, [])) as (bf & s & af & a' & d' & EP & LD & NA & EL); [congruence|].
    rewrite E in EL. injection EL as <- <-. intro X. apply NE. exists bf, s, af, a, d. auto.
  - exists f, bl. auto.
Qed.
Print Assumptions C28_pgz_blocks_partial.
Definition pgz_case : program := [fsect 1 8192 0 [] [134; 1]; fsect 2 8194 1 [fsym 8194] [57]; fsect 3 8448 2 [] [1]].
Lemma pgz_case_starts : starts_at pgz_case (Some [77]) 8194.
Proof.
  split.
  - exists (fsym 8194). exists (fsect 2 8194 1 [fsym 8194] [57]). cbn. auto 10.
  - intros y (s & I & IY & _). cbn in I. destruct I as [<-|[<-|[<-|[]]]]; cbn in IY; try contradiction. destruct IY as [<-|[]]. reflexivity.
Qed.
(** The second section, where the program starts, follows the first one. *)
Example C28_case : Forall (addresses_below (2 ^ 31)) pgz_case /\ memory_disjoint pgz_case /\
  Forall (fun s => forall a d, loads s a d -> d <> [] /\ a + zlen d < 2 ^ 31) pgz_case /\ ~ starts_at_end pgz_case 8194 /\
  starts_at pgz_case (Some [77]) 8194 /\
  exists f, foenix_WriteExecutablePGZ pgz_case (Some [77]) = Ok f /\
    f_data f = [122; 0; 32; 0; 0; 3; 0; 0; 0; 134; 1; 57; 0; 33; 0; 0; 1; 0; 0; 0; 1; 2; 32; 0; 0; 0; 0; 0; 0].
Proof.
  split; [|split; [|split; [|split; [|split]]]].
  - forall_cases; intros a d L; unfold loads, contents in L; cbn in L; injection L as <- <-; cbn; repeat split; try lia; repeat constructor; unfold is_byte; lia.
  - forall_cases; intros a d b e x L1 L2; unfold loads, contents in L1, L2; cbn in L1, L2; injection L1 as <- <-; injection L2 as <- <-; cbn; lia.
  - forall_cases; intros a d L; unfold loads, contents in L; cbn in L; injection L as <- <-; cbn; (split; [discriminate|lia]).
  - intros (bf & s & af & a & d & EP & LD & NA & E). unfold pgz_case in EP.
    destruct bf as [|s1 [|s2 [|s3 bf]]]; cbn in EP; try (injection EP; intros; subst).
    + apply (NA (fsect 2 8194 1 [fsym 8194] [57]) 8194 [57]); [left; auto|reflexivity].
    + apply (NA (fsect 3 8448 2 [] [1]) 8448 [1]); [left; auto|reflexivity].
    + unfold loads in LD. cbn in LD. injection LD as <- <-. discriminate.
    + destruct bf; discriminate.
  - exact pgz_case_starts.
  - eexists. split; vm_compute; reflexivity.
Qed.
(** C28 does not hold of a program with an empty section: the loader takes the empty
    block for the end of the file. *)
Definition pgz_empty : program := [fsect 1 8192 0 [fsym 8192] [134; 1]; fsect 2 8448 0 [] []; fsect 3 12288 0 [] [57]].
Theorem C28_empty_section_refuted :
  Forall (addresses_below (2 ^ 31)) pgz_empty /\ memory_disjoint pgz_empty /\ starts_at pgz_empty (Some [77]) 8192 /\
  ~ starts_at_end pgz_empty 8192 /\ ~ pgz_correct pgz_empty (Some [77]) 8192.
Proof.
  split; [|split; [|split; [|split]]].
  - forall_cases; intros a d L; unfold loads, contents in L; cbn in L; injection L as <- <-; cbn; repeat split; try lia; repeat constructor; unfold is_byte; lia.
  - forall_cases; intros a d b e x L1 L2; unfold loads, contents in L1, L2; cbn in L1, L2; injection L1 as <- <-; injection L2 as <- <-; cbn; lia.
  - split.
    + exists (fsym 8192). exists (fsect 1 8192 0 [fsym 8192] [134; 1]). cbn. auto 10.
    + intros y (s & I & IY & _). cbn in I. destruct I as [<-|[<-|[<-|[]]]]; cbn in IY; try contradiction. destruct IY as [<-|[]]. reflexivity.
  - intros (bf & s & af & a & d & EP & LD & NA & E). unfold pgz_empty in EP.
    destruct bf as [|s1 [|s2 [|s3 bf]]]; cbn in EP; try (injection EP; intros; subst).
    + apply (NA (fsect 3 12288 0 [] [57]) 12288 [57]); [right; left; auto|reflexivity].
    + apply (NA (fsect 3 12288 0 [] [57]) 12288 [57]); [left; auto|reflexivity].
    + unfold loads in LD. cbn in LD. injection LD as <- <-. discriminate.
    + destruct bf; discriminate.
  - intros (f & W & L). vm_compute in W. injection W as <-. destruct (L (fun _ => 0)) as (m' & L' & _).
    vm_compute in L'. discriminate.
Qed.
Print Assumptions C28_empty_section_refuted.
(** C28 does not hold of a program that starts at the end of its last section (an
    exported label there, for example): the file has no end block, and its last
    block has size 0. *)
Definition pgz_at_end : program := [fsect 1 8192 0 [fsym 8194] [134; 1]].
Theorem C28_start_at_end_refuted :
  Forall (addresses_below (2 ^ 31)) pgz_at_end /\ memory_disjoint pgz_at_end /\
  Forall (fun s => forall a d, loads s a d -> d <> [] /\ a + zlen d < 2 ^ 31) pgz_at_end /\
  starts_at pgz_at_end (Some [77]) 8194 /\ ~ pgz_correct pgz_at_end (Some [77]) 8194.
Proof.
  split; [|split; [|split; [|split]]].
  - forall_cases; intros a d L; unfold loads, contents in L; cbn in L; injection L as <- <-; cbn; repeat split; try lia; repeat constructor; unfold is_byte; lia.
  - forall_cases.
  - forall_cases; intros a d L; unfold loads, contents in L; cbn in L; injection L as <- <-; cbn; (split; [discriminate|lia]).
  - split.
    + exists (fsym 8194). exists (fsect 1 8192 0 [fsym 8194] [134; 1]). cbn. auto 10.
    + intros y (s & I & IY & _). cbn in I. destruct I as [<-|[]]; cbn in IY. destruct IY as [<-|[]]. reflexivity.
  - intros (f & W & L). vm_compute in W. injection W as <-. destruct (L (fun _ => 0)) as (m' & L' & _).
    vm_compute in L'. discriminate.
Qed.
Print Assumptions C28_start_at_end_refuted.

(** ** C49 *)
(** C49: when an F256 kernel user program is written, its slots hold every section at
    its address, its slot count covers them all, and it starts at the entry
    symbol. *)
Theorem C49_kup_loads : forall p name pad f, foenix_WriteExecutableKUP p (Some name) pad = Ok f ->
  f256_program p -> memory_disjoint p -> Forall (image_from 0) p ->
  exists y n slot, exported p name y /\ 1 <= n <= 4 /\ 1 <= slot /\ slot + n <= 8 /\
    (forall s a d, In s p -> loads s a d -> slot * 8192 + 10 <= a /\ a + zlen d <= (slot + n) * 8192) /\
    forall m, exists m', kup_load (f_data f) m = Some (m', n, slot, u16 (ls_value y)) /\ memory_has m' p.
Proof.
  intros p name pad f W F D IF. destruct (kup_written p name pad f W F D IF) as (y & n & slot & E & N & S1 & S2 & L & _ & M).
  exists y, n, slot. split; [now apply (proj1 (find_exported p name))|]. auto.
Qed.
Print Assumptions C49_kup_loads.
(** Without padding the file is no larger than its slots, with padding it is a whole
    number of slots. *)
Theorem C49_kup_size_partial : forall p name pad f, foenix_WriteExecutableKUP p (Some name) pad = Ok f ->
  f256_program p -> memory_disjoint p -> Forall (image_from 0) p ->
  if pad then zlen (f_data f) mod 8192 = 0
  else forall m m' n slot start, kup_load (f_data f) m = Some (m', n, slot, start) -> zlen (f_data f) <= n * 8192.
Proof.
  intros p name pad f W F D IF. destruct (kup_written p name pad f W F D IF) as (y & n & slot & E & N & S1 & S2 & L & SZ & M).
  destruct pad; [auto|]. intros m m' n' slot' start' K. destruct (M m) as (m2 & K2 & _). rewrite K in K2. injection K2 as -> -> -> ->. auto.
Qed.
Print Assumptions C49_kup_size_partial.
Definition kup_case : program := [fsect 1 8202 8202 [fsym 8204] [77; 0; 169; 0]; fsect 2 24574 24574 [] [1; 2; 3]].
Example C49_case : f256_program kup_case /\ memory_disjoint kup_case /\ Forall (image_from 0) kup_case /\
  exists f, foenix_WriteExecutableKUP kup_case (Some [77]) false = Ok f /\
    firstn 16 (f_data f) = [242; 86; 3; 1; 12; 32; 0; 0; 0; 0; 77; 0; 169; 0; 255; 255] /\ zlen (f_data f) = 16385.
Proof.
  split; [|split; [|split]].
  - split; [|split].
    + forall_cases; intros _ _; eexists; (split; [reflexivity|]); cbn; (split; [reflexivity|]); (split; [discriminate|]); lia.
    + forall_cases; intros _; eexists; (split; [reflexivity|reflexivity]).
    + forall_cases; intros a d b e L1 L2; unfold loads, contents in L1, L2; cbn in L1, L2; injection L1 as <- <-; injection L2 as <- <-; lia.
  - forall_cases; intros a d b e x L1 L2; unfold loads, contents in L1, L2; cbn in L1, L2; injection L1 as <- <-; injection L2 as <- <-; cbn; lia.
  - forall_cases; apply fsect_from; lia.
  - eexists. split; [vm_compute; reflexivity|]. split; vm_compute; reflexivity.
Qed.
(** C49 in full would have a padded file fill its slots exactly.  A program that
    already does gets one more slot. *)
Definition kup_full : program := [fsect 1 8202 8202 [fsym 8204] (repeat 1 8182)].
Theorem C49_pad_refuted :
  f256_program kup_full /\ memory_disjoint kup_full /\ Forall (image_from 0) kup_full /\
  exists f, foenix_WriteExecutableKUP kup_full (Some [77]) true = Ok f /\ zlen (f_data f) = 16384 /\
    exists m, kup_load (f_data f) (fun _ => 0) = Some (m, 1, 1, 8204).
Proof.
  assert (ZL : zlen (repeat 1 8182) = 8182) by (rewrite zlen_repeat; reflexivity).
  split; [|split; [|split]].
  - split; [|split].
    + forall_cases; intros _ _; eexists; (split; [reflexivity|]). cbn [sc_place fsect s_size s_cpuLocation s_cpuByteLocation]. rewrite !ZL.
      split; [reflexivity|]. split; [discriminate|]. split; [reflexivity|]. lia.
    + forall_cases; intros _; eexists; (split; [reflexivity|reflexivity]).
    + forall_cases.
  - forall_cases.
  - forall_cases; apply fsect_from; lia.
  - assert (T : match foenix_WriteExecutableKUP kup_full (Some [77]) true with
      | Ok f => (zlen (f_data f) =? 16384) && match kup_load (f_data f) (fun _ => 0) with
          | Some (_, n, slot, start) => (n =? 1) && (slot =? 1) && (start =? 8204) | None => false end
      | _ => false end = true) by (vm_compute; reflexivity).
    revert T. generalize (foenix_WriteExecutableKUP kup_full (Some [77]) true) as r. intros [f| |] T; try discriminate T.
    exists f. split; [reflexivity|]. apply andb_prop in T as [T1 T2]. split; [now apply Z.eqb_eq|].
    destruct (kup_load (f_data f) (fun _ => 0)) as [[[[m n] slot] start]|]; [|discriminate]. exists m.
    apply andb_prop in T2 as [T2 T4]. apply andb_prop in T2 as [T2 T3].
    apply Z.eqb_eq in T2, T3, T4. now subst.
Qed.
Print Assumptions C49_pad_refuted.

(** ** C50 *)
(** C50: an HC800 executable has the MMU registers, and one hunk for each bank with
    sections; each bank's hunk has the bank's sections at their offsets, zeros
    between them, and ends with the last section. *)
Theorem C50_hc800_loads : forall p configuration, hc800_program p -> zlen configuration = 9 ->
  exists f banks, hc800_WriteExecutable p configuration = Ok f /\ hc800_load (f_data f) = Some (configuration, banks) /\
    NoDup (map fst banks) /\
    (forall b d, In (b, d) banks -> 129 <= b <= 255 /\ bank_sections b p <> [] /\ painted 0 [] (bank_sections b p) d) /\
    (forall b, 129 <= b <= 255 -> bank_sections b p <> [] -> exists d, In (b, d) banks).
Proof.
  intros p conf HP CL. destruct (hc800_written p conf HP CL) as (f & W & L). exists f, (banks_of p).
  split; auto. split; auto. unfold banks_of.
  assert (G : forall n a, NoDup (zseq a n) /\ forall x, In x (zseq a n) <-> a <= x < a + Z.of_nat n).
  { induction n as [|n IH]; intro a; cbn [zseq In]; [split; [constructor|intro; lia]|]. destruct (IH (a + 1)) as [ND IN]. split.
    - constructor; auto. rewrite IN. lia.
    - intro x. rewrite IN. lia. }
  destruct (G 127%nat 129) as [ND IN]. split; [|split].
  - rewrite map_map. cbn [fst]. rewrite map_id. now apply NoDup_filter.
  - intros b d I. apply in_map_iff in I as (b' & E & I). injection E as -> <-. apply filter_In in I as [I FL]. apply IN in I.
    split; [lia|]. split; [destruct (bank_sections b p); discriminate|]. apply bank_data_painted; auto. lia.
  - intros b B NB. exists (bank_data b p). apply in_map_iff. exists b. split; auto. apply filter_In. split; [apply IN; lia|].
    destruct (bank_sections b p); [contradiction|reflexivity].
Qed.
Print Assumptions C50_hc800_loads.
Definition hsect (bank imageLoc : Z) (used : bool) (d : list Z) : lsect :=
  LSect (Section_ 1 CODE_ imageLoc bank imageLoc imageLoc MAIN 1 (-1) (-1) (zlen d) used used (Some 0%nat)) 0 false [] [] [] (Some d) [].
Definition hc_case : program := [hsect 129 2 true [1; 2]; hsect 129 6 true [3]; hsect 131 0 true [4; 5]].
Definition hc_conf : list Z := [0; 129; 130; 131; 132; 133; 134; 135; 136].
Example C50_case : hc800_program hc_case /\ zlen hc_conf = 9 /\
  exists f, hc800_WriteExecutable hc_case hc_conf = Ok f /\
    hc800_load (f_data f) = Some (hc_conf, [(129, [0; 0; 1; 2; 0; 0; 3]); (131, [4; 5])]).
Proof.
  split; [|split; [reflexivity|]].
  - split; [|split].
    + forall_cases; intros _; eexists; (split; [reflexivity|]); (split; [discriminate|]); intros _; eexists; (split; [reflexivity|]); cbn; lia.
    + forall_cases; cbn; lia.
    + forall_cases; intros d e x E1 E2 B; cbn in E1, E2, B; try discriminate; injection E1 as <-; injection E2 as <-; cbn; lia.
  - eexists. split; vm_compute; reflexivity.
Qed.
(** C50 does not hold of a program with an unused section for which a bank was
    requested: the section has no place in the bank, but is written, over the number of
    the bank.  Its bytes end up there and the used sections in another bank. *)
Definition hc_unused : program := [hsect 130 (-1) false [7; 8]; hsect 130 0 true [1; 2]].
Theorem C50_unused_refuted :
  exists f, hc800_WriteExecutable hc_unused hc_conf = Ok f /\ hc800_load (f_data f) = Some (hc_conf, [(7, [1; 2])]).
Proof. eexists. split; vm_compute; reflexivity. Qed.
Print Assumptions C50_unused_refuted.
