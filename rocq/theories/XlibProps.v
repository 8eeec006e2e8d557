(** Properties C01-C03: the librarian. *)
From Coq Require Import ZArith List Bool Lia.
From Verif Require Import Base XlibModel XlibSpec XlibProofs.
Import ListNotations.
Open Scope Z_scope.

(** C01. What lib_Write writes, lib_Read reads back: same modules, same order. *)
Theorem C01_library_round_trip : forall l,
  Forall module_ok l -> lib_Read (Some (lib_Write l)) = Ok l.
Proof. exact lib_round_trip. Qed.
Print Assumptions C01_library_round_trip.

(** C01. The count field is the number of modules. *)
Theorem C01_library_count : forall l,
  zlen l < 2 ^ 32 ->
  exists rest, lib_Write l = [88; 76; 66; 0] ++ le32 (zlen l) ++ rest.
Proof. exact count_field. Qed.
Print Assumptions C01_library_count.

Example C01_case :
  let l := [Module [97; 46; 111] [1; 2; 3]; Module [98] []] in
  Forall module_ok l /\ lib_Read (Some (lib_Write l)) = Ok l.
Proof.
  split; [|reflexivity].
  repeat constructor; cbn; lia.
Qed.

(** C02. Adding file [f] with content [d]: the module named by [f] has content
    [d], every other name keeps its content. *)
Theorem C02_add_updates_one_name : forall l f t d,
  base_name f t -> data_ok d ->
  lookup (lib_AddReplace l f (Some d)) (firstn 255 t) = Some d /\
  forall n, n <> firstn 255 t ->
    lookup (lib_AddReplace l f (Some d)) n = lookup l n.
Proof.
  intros l f t d B D. pose proof (truncate_base f t B) as E.
  split; [|intros n N]; rewrite add_lookup, E by assumption.
  - now rewrite BaseFacts.beq_refl.
  - destruct (beq (firstn 255 t) n) eqn:X; auto.
    apply BaseFacts.beq_eq in X. congruence.
Qed.
Print Assumptions C02_add_updates_one_name.

(** C02. Positions: an existing name stays where it is, a new one comes first;
    the other modules are the same list. *)
Theorem C02_add_positions : forall l f t d,
  base_name f t -> NoDup (map m_name l) ->
  let n := firstn 255 t in
  let l' := lib_AddReplace l f (Some d) in
  (In n (map m_name l) -> map m_name l' = map m_name l) /\
  (~ In n (map m_name l) -> map m_name l' = n :: map m_name l) /\
  filter (fun m => negb (beq (m_name m) n)) l' =
  filter (fun m => negb (beq (m_name m) n)) l /\
  NoDup (map m_name l').
Proof.
  intros l f t d B ND n l'. pose proof (truncate_base f t B) as E.
  subst n l'. rewrite <- E. repeat split.
  - intro I. rewrite add_names. destruct (in_dec _ _ _); tauto.
  - intro I. rewrite add_names. destruct (in_dec _ _ _); tauto.
  - now apply add_others.
  - now apply add_nodup.
Qed.
Print Assumptions C02_add_positions.

(** C02. Whole histories of xlib runs starting from no library file: whatever
    add/delete/extract/list commands were run (without a crash or an error
    message), extracting [p] afterwards yields exactly the content the
    map specification says, or an error if it says there is none. *)
Theorem C02_history_is_a_map : forall key h file,
  is_key key -> Forall cmd_ok h -> session None h = Ok file ->
  forall fs p,
    xlib fs file (Extract [p]) =
    match fold_left (spec_step key) h (fun _ => None) (key p) with
    | Some d => Ok (Effect file [(p, d)] [])
    | None => Err
    end.
Proof. exact session_map. Qed.
Print Assumptions C02_history_is_a_map.

(** C02. ... and the listing shows exactly the names of that map, each once. *)
Theorem C02_history_listing : forall h file,
  Forall cmd_ok h -> session None h = Ok file ->
  forall fs, exists lst, xlib fs file ListAll = Ok (Effect file [] lst) /\
    NoDup (map snd lst) /\
    forall key n, is_key key ->
      (In n (map snd lst) <-> fold_left (spec_step key) h (fun _ => None) n <> None).
Proof. exact session_list. Qed.
Print Assumptions C02_history_listing.

Example C02_case :
  let fs := fun p => if beq p [100; 47; 97] then Some [7; 8] else
                     if beq p [98] then Some [9] else None in
  exists file,
    session None [(fs, Add [[98]; [100; 47; 97]]); (fs, Add [[98]])] = Ok file /\
    xlib fs file (Extract [[97]]) = Ok (Effect file [([97], [7; 8])] []) /\
    xlib fs file ListAll = Ok (Effect file [] [(2, [97]); (1, [98])]).
Proof. eexists. vm_compute. repeat split. Qed.

Example C02_key_exists : is_key truncateFileName.
Proof. intros p t B. exact (truncate_base p t B). Qed.

(** C03. Deleting a module that is not the last one removes exactly it. *)
Theorem C03_delete_removes_one_partial : forall a m b f t,
  base_name f t -> m_name m = firstn 255 t ->
  NoDup (map m_name (a ++ m :: b)) -> b <> [] ->
  lib_DeleteModule (a ++ m :: b) f = Ok (a ++ b).
Proof.
  intros a m b f t B E ND NB. unfold lib_DeleteModule.
  rewrite (truncate_base f t B). rewrite deleteWalk_present; auto.
  rewrite map_app in ND. cbn in ND. apply NoDup_remove_2 in ND.
  rewrite in_app_iff in ND. rewrite E in ND. tauto.
Qed.
Print Assumptions C03_delete_removes_one_partial.

(** C03. An absent name is an error. *)
Theorem C03_delete_absent : forall l f t,
  base_name f t -> ~ In (firstn 255 t) (map m_name l) ->
  lib_DeleteModule l f = Err.
Proof.
  intros l f t B N. unfold lib_DeleteModule.
  rewrite (truncate_base f t B). rewrite deleteWalk_absent; auto.
Qed.
Print Assumptions C03_delete_absent.

(** C03 fails for the last module: the code dereferences NULL. *)
Theorem C03_delete_last_refuted : forall a m f t,
  base_name f t -> m_name m = firstn 255 t -> ~ In (m_name m) (map m_name a) ->
  lib_DeleteModule (a ++ [m]) f = UB.
Proof.
  intros a m f t B E N. unfold lib_DeleteModule.
  rewrite (truncate_base f t B). rewrite deleteWalk_last; auto. now rewrite <- E.
Qed.
Print Assumptions C03_delete_last_refuted.

(** C03. Whenever a delete succeeds, the result is the library without the
    modules of that name, in the same order. *)
Theorem C03_delete_ok : forall l f t l',
  base_name f t -> NoDup (map m_name l) -> lib_DeleteModule l f = Ok l' ->
  l' = filter (fun m => negb (beq (m_name m) (firstn 255 t))) l /\
  In (firstn 255 t) (map m_name l) /\ length l = S (length l').
Proof.
  intros l f t l' B ND H. rewrite <- (truncate_base f t B). split.
  - now apply delete_keeps.
  - destruct (delete_ok_inv _ _ _ H) as (a & m & b & -> & -> & _ & E & _).
    rewrite map_app, in_app_iff, !app_length. cbn. split; [auto|lia].
Qed.
Print Assumptions C03_delete_ok.

Example C03_case :
  let l := [Module [97] [1]; Module [98] [2]; Module [99] [3]] in
  lib_DeleteModule l [120; 47; 98] = Ok [Module [97] [1]; Module [99] [3]] /\
  lib_DeleteModule l [99] = UB /\ lib_DeleteModule l [100] = Err.
Proof. vm_compute. repeat split. Qed.
