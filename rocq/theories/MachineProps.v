(** Property C51: the built-in memory maps. *)
From Coq Require Import ZArith List Bool String Lia ZifyBool ZifyNat Permutation.
From Verif Require Import Base BaseFacts PoolSpec AssignModel AssignSpec AssignProofs LinkModel ObjModel ImageModel ImageSpec ImageProofs
  FormatModel FormatSpec MachineModel MachineSpec MachineProofs.
Import ListNotations.
Open Scope string_scope.
Open Scope Z_scope.

(** C51 in full, for one map: whatever the sections, those the linker places in the
    same bank do not overlap. *)
Definition map_keeps_apart (cf : config) : Prop :=
  forall ss out, Forall section_ok ss -> assign_Process cf ss = Ok out -> no_overlap out.

Definition sound_maps : list string :=
  ["ngb"; "ngbs"; "smd"; "sms8"; "sms16"; "sms32"; "ms48"; "smsb"; "hc800b"; "hc8s"; "hc8sh"; "hc8m"; "hc8l"; "fxa2560x"; "coco"].
Ltac each_map H := repeat (destruct H as [<-|H]; [|]); [..|destruct H].
Lemma map_checked : forall (check : config -> bool) name,
  match memory_configuration name with Ok cf => pools_fine cf && check cf | _ => false end = true ->
  exists cf, memory_configuration name = Ok cf /\ config_ok cf /\ check cf = true.
Proof.
  intros check name H. destruct (memory_configuration name) as [cf| |]; try discriminate. apply andb_prop in H as [H1 H2].
  exists cf. split; auto. split; auto. now apply pools_fine_ok.
Qed.

(** C51, for 15 of the 25 maps.  Missing are those of the refutations below. *)
Theorem C51_no_overlap_partial : forall name, In name sound_maps ->
  exists cf, memory_configuration name = Ok cf /\ config_ok cf /\ map_keeps_apart cf.
Proof.
  intros name I. destruct (map_checked banks_apart name) as (cf & M & CF & B).
  - unfold sound_maps in I. each_map I; vm_compute; reflexivity.
  - exists cf. split; auto. split; auto. intros ss out SO A. eapply maps_no_overlap; eauto.
Qed.
Print Assumptions C51_no_overlap_partial.

(** C51, images: with the maps for consoles and computers that load images, the
    sections with contents have their own bytes in the image, as the image properties
    (C21) ask for.  On the Mega Drive the BSS group has no contents. *)
Definition image_maps : list string :=
  ["c128f"; "c128fl"; "c128fh"; "ngb"; "ngbs"; "smd"; "sms8"; "sms16"; "sms32"; "ms48"; "smsb"; "hc800b"; "fxa2560x"; "fxf256jrs"; "coco"].
Theorem C51_image : forall name, In name image_maps ->
  exists cf, memory_configuration name = Ok cf /\ forall places out ss,
    Forall section_ok places -> assign_Process cf places = Ok out -> map sc_place ss = out -> Forall has_contents ss ->
    (name = "smd" -> forall s g, In s ss -> isBss_ s = false -> s_group (sc_place s) = Some g -> og_name g <> str "BSS") ->
    Forall (image_ok 0) ss /\ image_disjoint ss.
Proof.
  intros name I.
  assert (H : name = "smd" \/ name <> "smd") by (destruct (string_dec name "smd"); auto). destruct H as [->|NE].
  - destruct (map_checked (images_apart (fun k => Nat.eqb k 0)) "smd") as (cf & M & CF & B); [vm_compute; reflexivity|].
    exists cf. split; auto. intros places out ss SO A E HC BS.
    apply (linked_image_for (fun k => Nat.eqb k 0 = true) cf 0 places out); auto; [now apply images_apart_ok|lia|].
    intros s g G k IS T SG F IK. specialize (BS eq_refl s g IS T SG). injection M as <-. cbn -[beq] in F.
    repeat match type of F with (if ?b then _ else _) = _ => destruct b eqn:?X in F; [injection F as <-; cbn in IK |] end; try discriminate F.
    + destruct IK as [<-|[]]. reflexivity.
    + destruct IK as [<-|[]]. reflexivity.
    + apply beq_eq in X1. now destruct BS.
  - destruct (map_checked (images_apart (fun _ => true)) name) as (cf & M & CF & B).
    + unfold image_maps in I. each_map I; try congruence; vm_compute; reflexivity.
    + exists cf. split; auto. intros places out ss SO A E HC _.
      apply (linked_image_for (fun k => true = true) cf 0 places out); auto; [now apply (images_apart_ok (fun _ => true))|lia|].
      intros s g G k _ _ _ _ _. reflexivity.
Qed.
Print Assumptions C51_image.

(** C51, HC800: a program linked without smart linking is as C50 asks for, and with
    three of the maps, banks taken as 16 KiB of memory each, sections do not overlap in
    memory. *)
Theorem C51_hc800 : forall name, In name ["hc8s"; "hc8sh"; "hc8m"; "hc8l"] ->
  exists cf, memory_configuration name = Ok cf /\ forall places out ss,
    Forall section_ok places -> Forall (fun s => s_used s = true) places -> assign_Process cf places = Ok out ->
    map sc_place ss = out -> Forall has_contents ss -> Forall (fun s => isBss_ s = true -> sc_data s = None) ss ->
    hc800_program ss.
Proof.
  intros name I. destruct (map_checked hc800_fine name) as (cf & M & CF & B).
  - each_map I; vm_compute; reflexivity.
  - exists cf. split; auto. intros. eapply linked_hc800; eauto.
Qed.
Print Assumptions C51_hc800.
Theorem C51_hc800_memory_partial : forall name, In name ["hc8s"; "hc8sh"; "hc8l"] ->
  exists cf, memory_configuration name = Ok cf /\ forall ss out,
    Forall section_ok ss -> assign_Process cf ss = Ok out -> hc800_no_overlap out.
Proof.
  intros name I. destruct (map_checked hc800_apart name) as (cf & M & CF & B).
  - each_map I; vm_compute; reflexivity.
  - exists cf. split; auto. intros. eapply hc800_memory_apart; eauto.
Qed.
Print Assumptions C51_hc800_memory_partial.

(** A section as read from an object file. *)
Definition msect (id : Z) (group : string) (type : Z) (org bank size : Z) : section :=
  Section_ id (Some (OGroup (str group) type 0)) org bank org 0 0 1 (-1) (-1) size true false None.
Lemma msect_ok : forall id group type org bank size, 0 <= size <= 2 ^ 30 -> org = -1 \/ 0 <= org < 2 ^ 31 ->
  section_ok (msect id group type org bank size).
Proof. intros. unfold section_ok. cbn. intuition auto; lia. Qed.
(** Switchable code, code in bank 0, RAM and high RAM on the Game Boy. *)
Example C51_case : exists cf out, memory_configuration "ngb" = Ok cf /\
  Forall section_ok [msect 1 "CODE" 0 (-1) 3 16000; msect 2 "CODE" 0 (-1) 3 300; msect 3 "HOME" 0 336 0 5; msect 4 "HRAM" 1 (-1) (-1) 127] /\
  assign_Process cf [msect 1 "CODE" 0 (-1) 3 16000; msect 2 "CODE" 0 (-1) 3 300; msect 3 "HOME" 0 336 0 5; msect 4 "HRAM" 1 (-1) (-1) 127] = Ok out /\
  map (fun s => (s_id s, s_cpuBank s, s_cpuByteLocation s, s_imageLocation s)) out =
    [(3, 0, 336, 336); (4, 0, 65408, -1); (1, 3, 16384, 49152); (2, 3, 32384, 65152)].
Proof.
  eexists; eexists. split; [reflexivity|]. split; [repeat (apply Forall_cons || apply Forall_nil); apply msect_ok; lia|].
  split; vm_compute; reflexivity.
Qed.

(** C51, regions: a section is placed within the memory its group may use on the
    machine, and its bytes are where the machine's image has that memory. *)
Lemma regions_checked : forall name t, In (name, t) machine_regions ->
  exists cf, memory_configuration name = Ok cf /\ config_ok cf /\ regions_check t cf = true.
Proof.
  intros name t I. apply (map_checked (regions_check t)).
  assert (H : forallb (fun e => match memory_configuration (fst e) with Ok cf => pools_fine cf && regions_check (snd e) cf | _ => false end)
    machine_regions = true) by (vm_compute; reflexivity).
  rewrite forallb_forall in H. exact (H _ I).
Qed.
Theorem C51_regions : forall name t, In (name, t) machine_regions ->
  exists cf, memory_configuration name = Ok cf /\ forall ss out s, Forall section_ok ss -> assign_Process cf ss = Ok out ->
    In s out -> s_used s = true -> forall g, s_group s = Some g ->
    exists group rs r, In (group, rs) t /\ og_name g = str group /\ In r rs /\ in_region r s.
Proof.
  intros name t I. destruct (regions_checked name t I) as (cf & M & CF & B). exists cf. split; auto.
  intros ss out s SO A IS U g SG. destruct (assign_sound cf ss out CF SO A) as (ss' & PP & F2 & _).
  assert (PW : exists s0, placed_well cf s0 s).
  { apply (Permutation_in _ (Permutation_sym PP)) in IS. clear - F2 IS. induction F2 as [|x y l l' H F IH]; [destruct IS|]. destruct IS as [<-|IS]; eauto. }
  destruct PW as (s0 & PW). destruct (pw_same _ _ _ PW) as (_ & E1 & _ & E2 & _).
  destruct (regions_in t cf s0 s g B PW) as ((group & rs) & r & H1 & H2 & H3 & H4); [congruence|congruence|].
  exists group, rs, r. auto.
Qed.
Print Assumptions C51_regions.
(** And all of that memory can be used: a section alone can be put at any address of
    any bank in it. *)
Theorem C51_usable : forall name t group rs r, In (name, t) machine_regions -> In (group, rs) t -> In r rs ->
  exists cf, memory_configuration name = Ok cf /\ forall s g, section_ok s -> group_kind_ok s -> s_used s = true ->
    s_group s = Some g -> og_name g = str group -> 0 < s_size s -> s_byteAlign s = -1 ->
    first r <= s_cpuBank s <= last r -> 0 <= s_cpuBank s -> 0 <= s_cpuByteLocation s ->
    low r <= s_cpuByteLocation s -> s_cpuByteLocation s + s_size s <= high r + 1 ->
    exists s', assign_Process cf [s] = Ok [s'] /\ s_cpuBank s' = s_cpuBank s /\ s_cpuByteLocation s' = s_cpuByteLocation s.
Proof.
  intros name t group rs r I IG IR. destruct (regions_checked name t I) as (cf & M & CF & B). exists cf. split; auto.
  intros s g SO GK U SG EN SZ AL FB BN LN LO HI.
  destruct (regions_usable t cf (group, rs) r s g) as (s' & A & PW); auto; try lia.
  exists s'. split; auto. split.
  - apply (pw_bank _ _ _ PW); auto; [congruence|lia].
  - apply (pw_org _ _ _ PW); auto; [congruence|lia].
Qed.
Print Assumptions C51_usable.
(** Bank 17 of a Game Boy cartridge, and its high RAM. *)
Example C51_regions_case : exists t, In ("ngb", t) machine_regions /\ In ("HRAM", [Region 0 0 65408 65534 None]) t /\
  In ("CODE", gameboy_rom) t /\ In (Region 1 255 16384 32767 (Some (16384, -16384))) gameboy_rom /\
  section_ok (msect 1 "CODE" 0 32767 17 1) /\ group_kind_ok (msect 1 "CODE" 0 32767 17 1).
Proof.
  eexists. split; [left; reflexivity|]. split; [cbn; tauto|]. split; [cbn; tauto|]. split; [cbn; tauto|].
  split; [apply msect_ok; lia|]. left. cbn. auto.
Qed.

(** ** Where C51 fails *)
(** doc/LinkerGameboy.md has $FFFF in HRAM: 128 bytes do not fit. *)
Theorem C51_hram_refuted : exists cf, memory_configuration "ngb" = Ok cf /\ section_ok (msect 1 "HRAM" 1 65408 0 128) /\
  assign_Process cf [msect 1 "HRAM" 1 65408 0 128] = Err.
Proof. eexists. split; [reflexivity|]. split; [apply msect_ok; lia|]. vm_compute. reflexivity. Qed.
Print Assumptions C51_hram_refuted.
(** It has the group CODE in $4000 to $7FFF: the first sections go to $0000. *)
Theorem C51_code_bank_refuted : exists cf out, memory_configuration "ngb" = Ok cf /\ section_ok (msect 1 "CODE" 0 (-1) (-1) 100) /\
  assign_Process cf [msect 1 "CODE" 0 (-1) (-1) 100] = Ok [out] /\ s_cpuByteLocation out = 0.
Proof. eexists. eexists. split; [reflexivity|]. split; [apply msect_ok; lia|]. split; [vm_compute; reflexivity|reflexivity]. Qed.
Print Assumptions C51_code_bank_refuted.
(** doc/LinkerMasterSystem.md has bank 1 unused, and the banks after the first at
    $8000: sections do go to bank 1, at $4000. *)
Theorem C51_sms_bank_refuted : exists cf out, memory_configuration "smsb" = Ok cf /\ section_ok (msect 1 "CODE" 0 (-1) (-1) 16000) /\
  assign_Process cf [msect 1 "CODE" 0 (-1) (-1) 16000] = Ok [out] /\ s_cpuBank out = 1 /\ s_cpuByteLocation out = 16384.
Proof. eexists. eexists. split; [reflexivity|]. split; [apply msect_ok; lia|]. split; [vm_compute; reflexivity|split; reflexivity]. Qed.
Print Assumptions C51_sms_bank_refuted.
(** doc/LinkerAmiga.md has FAST memory at $200000 and lets CODE use CHIP memory too:
    code goes to address 0, and nothing in CODE can be at an address its image places
    in CHIP memory. *)
Theorem C51_amiga_fast_refuted : exists cf out, memory_configuration "amiga" = Ok cf /\ section_ok (msect 1 "CODE" 0 (-1) (-1) 100) /\
  assign_Process cf [msect 1 "CODE" 0 (-1) (-1) 100] = Ok [out] /\ s_cpuByteLocation out = 0 /\ s_imageLocation out = 2097152.
Proof. eexists. eexists. split; [reflexivity|]. split; [apply msect_ok; lia|]. split; [vm_compute; reflexivity|split; reflexivity]. Qed.
Print Assumptions C51_amiga_fast_refuted.
(** Names of maps in the manual (LinkerHC800.md, LinkerCommodore.md) and in the linker's own help
    (main.c:104-129) that the linker does not know. *)
Theorem C51_names_refuted : forall name, In name ["hc800s"; "hc800sh"; "hc800m"; "hc800mh"; "hc800l"; "cc264"; "cbm64"; "cbm128"; "cbm128f";
    "cbm128fl"; "cbm128fh"; "cbm264"; "sms"; "hc8b"] -> memory_configuration name = Err.
Proof. intros name I. each_map I; reflexivity. Qed.
Print Assumptions C51_names_refuted.
Lemma overlapping : forall cf ss out a b x, Forall section_ok ss -> assign_Process cf ss = Ok out ->
  nth_error out 0 = Some a -> nth_error out 1 = Some b ->
  s_used a && s_used b && negb (isEqu a) && negb (isEqu b) && (s_cpuBank a =? s_cpuBank b) &&
  (s_cpuByteLocation a <=? x) && (x <? s_cpuByteLocation a + s_size a) &&
  (s_cpuByteLocation b <=? x) && (x <? s_cpuByteLocation b + s_size b) = true -> ~ map_keeps_apart cf.
Proof.
  intros cf ss out a b x SO A NA NB T H. unfold isEqu in T. rewrite !andb_true_iff in T.
  apply (H ss out SO A 0%nat 1%nat a b x); auto; try tauto; try lia.
  - destruct (s_group a); [discriminate|]. destruct T as ((((((((_ & _) & X) & _) & _) & _) & _) & _) & _). discriminate.
  - destruct (s_group b); [discriminate|]. destruct T as ((((((((_ & _) & _) & X) & _) & _) & _) & _) & _). discriminate.
Qed.
Ltac refute ss y := eapply (overlapping _ ss) with (x := y); [repeat (apply Forall_cons || apply Forall_nil); apply msect_ok; lia |
  vm_compute; reflexivity | reflexivity | reflexivity | reflexivity].

(** Setting up the C64, C128, C264 and MEGA65 writes beyond the end of the BSS group's
    array of pools. *)
Theorem C51_commodore_refuted : forall name, In name ["c64"; "c128"; "c264"; "mega65"] -> memory_configuration name = UB.
Proof. intros name I. each_map I; reflexivity. Qed.
Print Assumptions C51_commodore_refuted.
(** The C128 ROM maps place BSS on top of the ROM. *)
Theorem C51_c128_rom_refuted : forall name, In name ["c128f"; "c128fl"; "c128fh"] ->
  exists cf, memory_configuration name = Ok cf /\ ~ map_keeps_apart cf.
Proof.
  intros name I. each_map I; (eexists; split; [reflexivity|]).
  1,2: refute [msect 1 "CODE" 0 (-1) (-1) 16; msect 2 "BSS" 1 (-1) (-1) 32769] 32768.
  refute [msect 1 "CODE" 0 (-1) (-1) 16; msect 2 "BSS" 1 (-1) (-1) 49153] 49152.
Qed.
Print Assumptions C51_c128_rom_refuted.
(** The F256 map places zero page variables on top of code. *)
Theorem C51_f256_refuted : exists cf, memory_configuration "fxf256jrs" = Ok cf /\ ~ map_keeps_apart cf.
Proof.
  eexists; split; [reflexivity|]. refute [msect 1 "CODE" 0 (-1) (-1) 32; msect 2 "ZP" 1 (-1) (-1) 2] 16.
Qed.
Print Assumptions C51_f256_refuted.
(** The Amiga map, used for plain binaries, places the six groups on top of each
    other. *)
Theorem C51_amiga_refuted : exists cf, memory_configuration "amiga" = Ok cf /\ ~ map_keeps_apart cf.
Proof.
  eexists; split; [reflexivity|]. refute [msect 1 "CODE" 0 (-1) (-1) 32; msect 2 "BSS" 1 (-1) (-1) 2] 0.
Qed.
Print Assumptions C51_amiga_refuted.
(** With the HC800 medium Harvard map the first data section gets the address -1,
    which means "no address". *)
Theorem C51_medium_harvard_refuted : exists cf out, memory_configuration "hc8mh" = Ok cf /\
  section_ok (msect 1 "DATA" 0 (-1) (-1) 16) /\ assign_Process cf [msect 1 "DATA" 0 (-1) (-1) 16] = Ok [out] /\
  s_cpuByteLocation out = -1 /\ s_cpuLocation out = -1.
Proof. eexists; eexists. split; [reflexivity|]. split; [apply msect_ok; lia|]. split; [vm_compute; reflexivity|]. split; reflexivity. Qed.
Print Assumptions C51_medium_harvard_refuted.
(** With the HC800 medium map the shared 32 KiB overlap the first code bank. *)
Theorem C51_medium_refuted : exists cf, memory_configuration "hc8m" = Ok cf /\
  exists ss out, Forall section_ok ss /\ assign_Process cf ss = Ok out /\ ~ hc800_no_overlap out.
Proof.
  eexists; split; [reflexivity|]. exists [msect 1 "DATA_S" 0 (-1) (-1) 20000; msect 2 "CODE" 0 (-1) 131 100]. eexists.
  split; [repeat (apply Forall_cons || apply Forall_nil); apply msect_ok; lia|]. split; [vm_compute; reflexivity|].
  intro H. apply (H 0%nat 1%nat _ _ (16384 * 131) ltac:(discriminate) eq_refl eq_refl); unfold hc800_memory; cbn; auto; try discriminate; lia.
Qed.
Print Assumptions C51_medium_refuted.
(** With all HC800 maps no program with code or data in the group HOME can be linked:
    the linker reads such sections with bank 0, and the group has no memory in bank
    0. *)
Theorem C51_home_refuted :
  (forall gs w v fi n f id bs s rest g, readSection gs w v fi n f id bs = Ok (s, rest) ->
     s_group (sc_place s) = Some g -> og_name g = str "HOME" -> og_type g = GROUP_TEXT -> s_cpuBank (sc_place s) = 0) /\
  forall name, In name ["hc800b"; "hc8s"; "hc8sh"; "hc8m"; "hc8l"] -> exists cf, memory_configuration name = Ok cf /\
    forall ss s g, Forall section_ok ss -> In s ss -> s_used s = true -> s_group s = Some g -> og_name g = str "HOME" ->
      s_cpuBank s = 0 -> assign_Process cf ss = Err.
Proof.
  split.
  - intros gs w v fi n f id bs s rest g H SG N T. unfold readSection in H.
    repeat match type of H with bind ?x _ = _ => let E := fresh "E" in destruct x as [[? ?]| |] eqn:E; cbn [bind] in H; try discriminate H end.
    match type of H with context [let (_, _) := ?p in _] => destruct p end.
    injection H as <- _. cbn in SG |- *. rewrite SG, N, T. reflexivity.
  - intros name I.
    destruct (map_checked (fun cf => match find (fun G => beq (g_name G) (str "HOME")) (cf_groups cf) with
        | Some G => forallb (fun k => match nth_error (cf_pools cf) k with Some p => negb (p_bank p =? 0) | None => true end) (g_pools G)
        | None => true end) name) as (cf & M & CF & B).
    { each_map I; vm_compute; reflexivity. }
    exists cf. split; auto. intros ss s g SO IS U SG N BK. destruct (assign_Process cf ss) as [out| |] eqn:A; auto.
    2: now destruct (assign_no_UB cf ss CF SO).
    exfalso. destruct (assign_sound cf ss out CF SO A) as (ss' & _ & F2 & _).
    assert (PW : exists s', placed_well cf s s').
    { clear - F2 IS. induction F2 as [|x y l l' H F IH]; [destruct IS|]. destruct IS as [<-|IS]; eauto. }
    destruct PW as (s' & PW). destruct (pw_pool _ _ _ PW U g SG) as (G & k & p & FG & IK & NP & _ & _ & SB & _).
    rewrite N in FG. rewrite FG in B. rewrite forallb_forall in B. specialize (B k IK). rewrite NP in B.
    pose proof (pw_bank _ _ _ PW U) as X. rewrite BK in X. rewrite SG in X. rewrite SB in X.
    specialize (X ltac:(discriminate) ltac:(discriminate)). lia.
Qed.
Print Assumptions C51_home_refuted.
Example C51_home_case : section_ok (msect 1 "HOME" 0 (-1) 0 1).
Proof. apply msect_ok; lia. Qed.
