(** Properties C16 and C17: whole-program section placement. *)
From Coq Require Import ZArith List Bool Lia Permutation Sorted.
From Verif Require Import Base PoolModel PoolSpec AssignModel AssignSpec AssignProofs AssignFull.
Import ListNotations.
Open Scope Z_scope.

(** C16. When placement succeeds, every used section is placed as its
    attributes demand, inside a pool of its group and disjoint from every other
    section placed in that pool; the result is ordered by bank and address. *)
Theorem C16_placement_sound : forall cf ss out,
  config_ok cf -> Forall section_ok ss -> assign_Process cf ss = Ok out ->
  exists ss', Permutation ss' out /\ Forall2 (placed_well cf) ss ss' /\
    (forall k, disjoint (ranges_in k out)) /\
    StronglySorted section_le out.
Proof. exact assign_sound. Qed.
Print Assumptions C16_placement_sound.

(** C16. Placement never runs into undefined behaviour: it succeeds or stops
    with an error. *)
Theorem C16_placement_total : forall cf ss,
  config_ok cf -> Forall section_ok ss ->
  (exists out, assign_Process cf ss = Ok out) \/ assign_Process cf ss = Err.
Proof.
  intros cf ss CF SO. pose proof (assign_no_UB cf ss CF SO).
  destruct (assign_Process cf ss); eauto. congruence.
Qed.
Print Assumptions C16_placement_total.

(** A two-bank memory map with a code group that may use both banks and a data
    group in RAM. *)
Definition demo_config : config :=
  Config [Pool 0 (-1) 0 0 64 false; Pool 64 (-1) 64 1 64 false; Pool (-1) (-1) 128 2 32 false]
         [Group [67] [0%nat; 1%nat]; Group [66] [2%nat]].
Definition demo_code : ogroup := OGroup [67] GROUP_TEXT 0.
Definition demo_bss : ogroup := OGroup [66] GROUP_BSS 0.
Definition demo_sections : list section :=
  [Section_ 1 (Some demo_code) (-1) (-1) (-1) (-1) (-1) 1 (-1) (-1) 40 true false None;
   Section_ 2 (Some demo_code) 16 (-1) 16 (-1) (-1) 1 (-1) (-1) 8 true false None;
   Section_ 3 (Some demo_code) (-1) 1 (-1) (-1) (-1) 1 16 (-1) 10 true false None;
   Section_ 4 (Some demo_bss) (-1) (-1) (-1) (-1) (-1) 1 (-1) (-1) 32 true false None;
   Section_ 5 None (-1) (-1) (-1) (-1) (-1) 1 (-1) (-1) 0 true false None;
   Section_ 6 (Some demo_code) (-1) (-1) (-1) (-1) (-1) 1 (-1) (-1) 1000 false false None].

Example C16_case :
  config_ok demo_config /\ Forall section_ok demo_sections /\
  Forall group_kind_ok demo_sections /\
  exists out, assign_Process demo_config demo_sections = Ok out /\
    map (fun s => (s_id s, s_cpuByteLocation s, s_cpuBank s, s_imageLocation s)) out =
    [(6, -1, -1, -1); (5, 0, 0, -1); (2, 16, 0, 16); (1, 24, 0, 24); (3, 64, 1, 64); (4, 128, 2, -1)].
Proof.
  split; [|split; [|split]].
  - split; repeat constructor; cbn; lia.
  - unfold section_ok. repeat (apply Forall_cons; [cbn; repeat split; auto; try lia|]). constructor.
  - unfold group_kind_ok. repeat (apply Forall_cons; [cbn; auto|]). constructor.
  - eexists. split; vm_compute; reflexivity.
Qed.

(** C16. Placement fails only for want of room: when it stops with an error
    there is a used section [s] and a placement [mid] of some of the other
    sections such that no pool of [s]'s group and bank has room for [s] next to
    them (or the group is not in the memory map).  Sections must not be empty,
    and PAGE attributes are left out; C15_paged_refuted and
    C15_empty_section_refuted show that the claim is false for those. *)
Theorem C16_refused_only_if_full : forall cf ss,
  config_ok cf -> Forall section_ok ss -> Forall group_kind_ok ss ->
  Forall (fun s => s_used s = true -> s_group s <> None -> 0 < s_size s) ss ->
  Forall (fun s => s_page s = -1 \/ s_cpuByteLocation s <> -1) ss ->
  assign_Process cf ss = Err ->
  exists mid s g, In s ss /\ s_used s = true /\ s_group s = Some g /\
    Forall2 (fun a b => b = a \/ placed_well cf a b) ss mid /\ In s mid /\
    forall G k p, find (fun G => beq (g_name G) (og_name g)) (cf_groups cf) = Some G ->
      In k (g_pools G) -> nth_error (cf_pools cf) k = Some p ->
      s_cpuBank s = -1 \/ s_cpuBank s = p_bank p ->
      ~ room_for p (ranges_in k mid) s.
Proof. exact refused_full. Qed.
Print Assumptions C16_refused_only_if_full.

Example C16_refused_case :
  let ss := demo_sections ++
    [Section_ 7 (Some demo_code) (-1) (-1) (-1) (-1) (-1) 1 (-1) (-1) 60 true false None] in
  config_ok demo_config /\ Forall section_ok ss /\ Forall group_kind_ok ss /\
  Forall (fun s => s_used s = true -> s_group s <> None -> 0 < s_size s) ss /\
  Forall (fun s => s_page s = -1 \/ s_cpuByteLocation s <> -1) ss /\
  assign_Process demo_config ss = Err.
Proof.
  cbn [app demo_sections].
  split; [split; repeat constructor; cbn; lia|].
  split; [unfold section_ok; repeat (apply Forall_cons; [cbn; repeat split; auto; try lia|]); constructor|].
  split; [unfold group_kind_ok; repeat (apply Forall_cons; [cbn; auto|]); constructor|].
  split; [repeat (apply Forall_cons; [cbn; try congruence; lia|]); constructor|].
  split; [repeat (apply Forall_cons; [cbn; auto|]); constructor|].
  vm_compute. reflexivity.
Qed.

(** C16 needs [group_kind_ok] for fixed addresses: a section with an ORG in a
    BSS group that carries the DATA flag is silently placed elsewhere.  xasm
    does not write such groups, but the file format allows them. *)
Theorem C16_data_bss_org_refuted : exists cf s out,
  config_ok cf /\ section_ok s /\ s_used s = true /\ s_cpuByteLocation s = 140 /\
  assign_Process cf [s] = Ok [out] /\ s_cpuByteLocation out = 128.
Proof.
  exists demo_config,
    (Section_ 1 (Some (OGroup [66] GROUP_BSS FLAG_DATA)) 140 (-1) 140 (-1) (-1) 1 (-1) (-1) 4 true false None).
  eexists. split; [split; repeat constructor; cbn; lia|].
  split; [unfold section_ok; cbn; repeat split; auto; lia|].
  repeat (split; [reflexivity|]). split; vm_compute; reflexivity.
Qed.
Print Assumptions C16_data_bss_org_refuted.

(** C17. Unused sections have no influence: placing only the used sections
    gives the same result (including failure), restricted to the used ones. *)
Theorem C17_unused_no_influence : forall cf ss,
  assign_Process cf (filter s_used ss) =
  match assign_Process cf ss with
  | Ok out => Ok (filter s_used out)
  | Err => Err
  | UB => UB
  end.
Proof. intros cf ss. rewrite assign_filter. destruct (assign_Process cf ss); reflexivity. Qed.
Print Assumptions C17_unused_no_influence.

(** C17. Unused sections are left exactly as they were and take no memory. *)
Theorem C17_unused_unchanged : forall cf ss out,
  assign_Process cf ss = Ok out ->
  Permutation (filter (fun s => negb (s_used s)) ss) (filter (fun s => negb (s_used s)) out).
Proof. exact assign_unused. Qed.
Print Assumptions C17_unused_unchanged.

Example C17_case : exists out, assign_Process demo_config demo_sections = Ok out /\
  length (filter (fun s => negb (s_used s)) out) = 1%nat /\ length (filter s_used out) = 5%nat.
Proof. eexists. split; [|split]; vm_compute; reflexivity. Qed.
