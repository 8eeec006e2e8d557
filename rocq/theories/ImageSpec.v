(** Specification of binary images (C21, C22). *)
From Coq Require Import ZArith List Bool.
From Verif Require Import Base AssignModel LinkModel.
Import ListNotations.
Open Scope Z_scope.

(** Sections without an overlay are in the main file. *)
Definition MAIN : Z := 4294967295.
(** Sections that are part of the image file of an overlay. *)
Definition imaged (overlay : Z) (s : lsect) : bool :=
  let p := sc_place s in
  s_used p && s_assigned p && negb (s_imageLocation p =? -1) && (s_overlay p =? overlay) &&
  match s_group p with Some g => negb (og_type g =? GROUP_BSS) | None => false end.
Definition content (s : lsect) : list Z := match sc_data s with Some d => d | None => [] end.
Definition img_start (s : lsect) : Z := s_imageLocation (sc_place s).
Definition img_end (s : lsect) : Z := img_start s + s_size (sc_place s).
Definition covers (s : lsect) (k : Z) : bool := (img_start s <=? k) && (k <? img_end s).

(** Byte [k] of the image: from the last section that covers it, otherwise
    $FF. *)
Definition image_byte (overlay : Z) (ss : program) (k : Z) : Z :=
  fold_left (fun b s => if imaged overlay s && covers s k
                        then nth (Z.to_nat (k - img_start s)) (content s) 0 else b) ss 255.
(** The image ends where the last section ends. *)
Definition image_size (overlay : Z) (ss : program) : Z :=
  fold_left (fun n s => if imaged overlay s then Z.max n (img_end s) else n) ss 0.
Definition image (overlay : Z) (ss : program) : list Z :=
  map (image_byte overlay ss) (zseq 0 (Z.to_nat (image_size overlay ss))).

(** Sections have their data and a place below 2^31, header included. *)
Definition image_ok (header : Z) (s : lsect) : Prop :=
  (exists o, imaged o s = true) ->
  0 <= img_start s /\ 0 <= s_size (sc_place s) /\ header + img_end s < 2 ^ 31 /\
  (exists d, sc_data s = Some d /\ zlen d = s_size (sc_place s)).
(** No two sections share a byte of the image. *)
Definition image_disjoint (ss : program) : Prop :=
  ForallOrdPairs (fun a b => forall o k, imaged o a = true -> imaged o b = true -> covers a k = true ->
    covers b k = true -> False) ss.

(** ** What an image file contains, said without the functions above *)
Definition at_ (d : list Z) (k : Z) : Z := nth (Z.to_nat k) d 0.
Record image_holds (overlay : Z) (ss : program) (d : list Z) : Prop := {
  ih_section : forall s, In s ss -> imaged overlay s = true ->
    forall k, 0 <= k < s_size (sc_place s) -> at_ d (img_start s + k) = at_ (content s) k;
  ih_gap : forall k, 0 <= k < zlen d -> (forall s, In s ss -> imaged overlay s = true -> covers s k = false) ->
    at_ d k = 255;
  ih_inside : forall s, In s ss -> imaged overlay s = true -> img_end s <= zlen d;
  ih_end : zlen d = 0 \/ exists s, In s ss /\ imaged overlay s = true /\ img_end s = zlen d }.

(** A memory map whose pools do not share bytes of an image file. *)
Definition image_config_ok (header : Z) (cf : config) : Prop :=
  Forall (fun p => p_image p = -1 \/ (0 <= p_image p /\ header + p_image p + p_size p < 2 ^ 31)) (cf_pools cf) /\
  forall i j p q k, i <> j -> nth_error (cf_pools cf) i = Some p -> nth_error (cf_pools cf) j = Some q ->
    p_image p <> -1 -> p_image q <> -1 -> p_overlay p = p_overlay q ->
    p_image p <= k < p_image p + p_size p -> p_image q <= k < p_image q + p_size q -> False.
Definition isBss_ (s : lsect) : bool :=
  match s_group (sc_place s) with Some g => og_type g =? GROUP_BSS | None => true end.
(** The same for the pools in [T] only, and programs whose sections with contents
    belong to groups with pools in [T]. *)
Definition image_config_for (T : nat -> Prop) (header : Z) (cf : config) : Prop :=
  (forall k p, nth_error (cf_pools cf) k = Some p -> T k ->
     p_image p = -1 \/ (0 <= p_image p /\ header + p_image p + p_size p < 2 ^ 31)) /\
  forall i j p q k, i <> j -> T i -> T j -> nth_error (cf_pools cf) i = Some p -> nth_error (cf_pools cf) j = Some q ->
    p_image p <> -1 -> p_image q <> -1 -> p_overlay p = p_overlay q ->
    p_image p <= k < p_image p + p_size p -> p_image q <= k < p_image q + p_size q -> False.
Definition text_in (T : nat -> Prop) (cf : config) (ss : list lsect) : Prop :=
  forall s g G k, In s ss -> isBss_ s = false -> s_group (sc_place s) = Some g ->
    find (fun G => beq (g_name G) (og_name g)) (cf_groups cf) = Some G -> In k (g_pools G) -> T k.
(** Used sections with contents have as many bytes as their size says. *)
Definition has_contents (s : lsect) : Prop :=
  s_used (sc_place s) = true -> isBss_ s = false ->
  exists d, sc_data s = Some d /\ zlen d = s_size (sc_place s).

(** The integer logarithm the linker takes from its utility library. *)
Definition log2_spec (log2n : Z -> Z) : Prop :=
  forall n, 0 < n < 2 ^ 31 -> 0 <= log2n n /\ 2 ^ log2n n <= n < 2 ^ (log2n n + 1).
