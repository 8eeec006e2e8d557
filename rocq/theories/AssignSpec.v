(** What a user expects of section placement. *)
From Coq Require Import ZArith List Bool.
From Verif Require Import Base PoolModel PoolSpec AssignModel.
Import ListNotations.
Open Scope Z_scope.

(** Memory maps: pools below 2^31, groups that refer to existing pools. *)
Definition config_ok (cf : config) : Prop :=
  Forall (fun p => 0 <= p_loc p /\ 0 <= p_size p /\ p_loc p + p_size p < 2 ^ 31) (cf_pools cf) /\
  Forall (fun g => Forall (fun k => (k < length (cf_pools cf))%nat) (g_pools g)) (cf_groups cf).

(** Sections as the linker has them before placement: not yet placed, sizes and
    alignments up to 2^30, attributes absent (-1) or in range. *)
Definition section_ok (s : section) : Prop :=
  0 <= s_size s <= 2 ^ 30 /\
  (s_cpuByteLocation s = -1 \/ 0 <= s_cpuByteLocation s < 2 ^ 31) /\
  (s_byteAlign s = -1 \/ 0 < s_byteAlign s <= 2 ^ 30) /\
  (s_page s = -1 \/ 0 < s_page s < 2 ^ 31) /\
  0 < s_minimumWordSize s /\
  s_assigned s = false /\ s_pool s = None.

(** The group types xasm can write: TEXT or BSS, with SHARED and/or DATA flags,
    but no DATA flag on BSS. *)
Definition group_kind_ok (s : section) : Prop :=
  match s_group s with
  | None => True
  | Some g =>
      (og_type g = GROUP_TEXT /\
       (og_flags g = 0 \/ og_flags g = FLAG_SHARED \/ og_flags g = FLAG_DATA \/
        og_flags g = FLAG_DATA + FLAG_SHARED)) \/
      (og_type g = GROUP_BSS /\ (og_flags g = 0 \/ og_flags g = FLAG_SHARED))
  end.

(** [s'] is section [s] properly placed. *)
Record placed_well (cf : config) (s s' : section) : Prop := {
  pw_same : s_id s' = s_id s /\ s_group s' = s_group s /\ s_size s' = s_size s /\
            s_used s' = s_used s /\ s_minimumWordSize s' = s_minimumWordSize s /\
            s_byteAlign s' = s_byteAlign s /\ s_page s' = s_page s;
  pw_unused : s_used s = false -> s' = s;
  pw_assigned : s_used s = true -> s_assigned s' = true;
  pw_equ : s_used s = true -> s_group s = None ->
     s_cpuByteLocation s' = 0 /\ s_cpuLocation s' = 0 /\ s_cpuBank s' = 0 /\
     s_imageLocation s' = -1 /\ s_pool s' = None;
  pw_pool : s_used s = true -> forall g, s_group s = Some g ->
     exists G k p,
       find (fun G => beq (g_name G) (og_name g)) (cf_groups cf) = Some G /\
       In k (g_pools G) /\ nth_error (cf_pools cf) k = Some p /\
       s_pool s' = Some k /\
       within (s_cpuByteLocation s', s_size s') (p_loc p) (p_size p) /\
       s_cpuBank s' = p_bank p /\ s_overlay s' = p_overlay p /\
       s_imageLocation s' =
         (if p_image p =? -1 then -1
          else p_image p + (s_cpuByteLocation s' - p_loc p));
  pw_bank : s_used s = true -> s_group s <> None -> s_cpuBank s <> -1 ->
     s_cpuBank s' = s_cpuBank s;
  pw_org : s_used s = true -> s_group s <> None -> group_kind_ok s ->
     s_cpuByteLocation s <> -1 ->
     s_cpuByteLocation s' = s_cpuByteLocation s /\ s_cpuLocation s' = s_cpuLocation s;
  pw_floating : s_used s = true -> s_group s <> None -> s_cpuByteLocation s = -1 ->
     s_cpuLocation s' = s_cpuByteLocation s' / s_minimumWordSize s /\
     (s_byteAlign s <> -1 -> s_cpuByteLocation s' mod s_byteAlign s = 0) /\
     (s_page s <> -1 -> s_byteAlign s = -1 ->
        in_one_page (s_page s) (s_cpuByteLocation s') (s_size s)) }.

(** The ranges of the sections placed in pool [k]. *)
Definition ranges_in (k : nat) (ss : list section) : list (Z * Z) :=
  map (fun s => (s_cpuByteLocation s, s_size s))
    (filter (fun s => match s_pool s with Some j => Nat.eqb j k | None => false end) ss).

(** The order the linker leaves the sections in. *)
Definition section_le (a b : section) : Prop :=
  (s_used a = false /\ s_used b = true) \/
  (s_used a = s_used b /\
   (s_cpuBank a < s_cpuBank b \/
    (s_cpuBank a = s_cpuBank b /\ s_cpuLocation a <= s_cpuLocation b))).

(** Pool [p], with the ranges [taken] in use, has room for section [s] as [s]
    asks for it. *)
Definition room_for (p : pool) (taken : list (Z * Z)) (s : section) : Prop :=
  exists x, all_free (p_loc p) (p_size p) taken x (s_size s) /\
    (s_cpuByteLocation s <> -1 -> x = s_cpuByteLocation s) /\
    (s_cpuByteLocation s = -1 -> s_byteAlign s <> -1 -> x mod s_byteAlign s = 0).
