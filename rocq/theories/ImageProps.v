(** Properties C21 and C22: binary images. *)
From Coq Require Import ZArith List Bool Lia ZifyBool ZifyNat.
From Verif Require Import Base BaseFacts AssignModel AssignSpec LinkModel FileModel FileProofs ImageModel ImageSpec ImageProofs.
Import ListNotations.
Open Scope Z_scope.

(** C21. Sections with disjoint places in the image: writing succeeds; the main
    file is what was there before ([hdr]), then an image that holds the sections,
    $FF elsewhere, up to the end of the last section; likewise the file of each
    overlay, which exists when the overlay has a section. *)
Theorem C21_image_contents : forall log2n hdr ss,
  Forall (image_ok (zlen hdr)) ss -> image_disjoint ss ->
  exists fs main d, image_WriteBinaryToFile log2n (File hdr (zlen hdr)) ss (-1) = Ok fs /\
    findFile fs MAIN = Some main /\ f_data main = hdr ++ d /\ image_holds MAIN ss d /\
    forall o, o <> MAIN ->
      (forall g, findFile fs o = Some g -> image_holds o ss (f_data g)) /\
      (findFile fs o = None <-> forall s, In s ss -> imaged o s = false).
Proof.
  intros log2n hdr ss OK D. destruct (image_written log2n hdr ss (-1) OK) as (fs & f & W & FD & FM & OV).
  exists fs, f, (image MAIN ss). split; auto. split; auto. split; auto. split; [eapply image_is_held; eauto|].
  intros o N. destruct (OV o N) as [O1 O2]. split; auto. intros g H. rewrite (O1 g H). eapply image_is_held; eauto.
Qed.
Print Assumptions C21_image_contents.

(** C21. Image contents are determined by the specification: two files that hold
    the same sections are equal. *)
Theorem C21_contents_unique : forall o ss a b, Forall (image_ok 0) ss ->
  image_holds o ss a -> image_holds o ss b -> a = b.
Proof.
  intros o ss a b OK HA HB.
  assert (L : zlen a = zlen b).
  { assert (forall x y, image_holds o ss x -> image_holds o ss y -> zlen x <= zlen y).
    { intros x y HX HY. destruct (ih_end _ _ _ HX) as [E|(s & I & M & E)].
      - pose proof (zlen_nonneg _ y). lia.
      - rewrite <- E. apply (ih_inside _ _ _ HY); auto. }
    apply Z.le_antisymm; auto. }
  apply byte_ext; [auto|]. intros k K.
  destruct (existsb (fun s => imaged o s && covers s k) ss) eqn:E.
  - apply existsb_exists in E as (s & I & E). apply andb_true_iff in E as [M C]. unfold covers, img_end in C.
    pose proof (ih_section _ _ _ HA s I M (k - img_start s)) as X.
    pose proof (ih_section _ _ _ HB s I M (k - img_start s)) as Y.
    replace (img_start s + (k - img_start s)) with k in * by lia.
    change at_ with byte in *. rewrite X, Y by lia. reflexivity.
  - assert (N : forall s, In s ss -> imaged o s = true -> covers s k = false).
    { intros s I M. destruct (covers s k) eqn:C; auto.
      assert (existsb (fun s => imaged o s && covers s k) ss = true); [|congruence].
      apply existsb_exists. exists s. split; auto. now rewrite M, C. }
    pose proof (ih_gap _ _ _ HA k K N) as X. rewrite L in K. pose proof (ih_gap _ _ _ HB k K N) as Y.
    change at_ with byte in *. congruence.
Qed.
Print Assumptions C21_contents_unique.

(** C21. Sections placed by the linker meet the conditions of
    [C21_image_contents], for any memory map whose pools do not share bytes of an
    image, whatever order the sections are in. *)
Theorem C21_linked_image : forall cf header places out ss,
  config_ok cf -> image_config_ok header cf -> 0 <= header ->
  Forall section_ok places -> assign_Process cf places = Ok out -> map sc_place ss = out -> Forall has_contents ss ->
  Forall (image_ok header) ss /\ image_disjoint ss.
Proof. exact linked_image. Qed.
Print Assumptions C21_linked_image.

Definition TEXT_ : option ogroup := Some (OGroup [67] GROUP_TEXT 0).
Definition img_sect (id loc imageLoc overlay : Z) (d : list Z) : lsect :=
  LSect (Section_ id TEXT_ loc 0 loc imageLoc overlay 1 (-1) (-1) (zlen d) true true (Some 0%nat)) 0 false [] [] [] (Some d) [].
Definition img_case : program :=
  [img_sect 1 100 6 MAIN [1; 2; 3]; img_sect 2 50 2 MAIN [4; 5]; img_sect 3 0 1 7 [8; 9]].
Example C21_case : Forall (image_ok 2) img_case /\ image_disjoint img_case /\
  exists fs m o, image_WriteBinaryToFile (fun _ => 0) (File [77; 78] 2) img_case (-1) = Ok fs /\
    findFile fs MAIN = Some m /\ f_data m = [77; 78; 255; 255; 4; 5; 255; 255; 1; 2; 3] /\
    findFile fs 7 = Some o /\ f_data o = [255; 8; 9].
Proof.
  split; [|split].
  - repeat constructor; cbn; try lia; eexists; split; reflexivity.
  - repeat constructor; intros o k HA HB CA CB; apply imaged_overlay in HA, HB; cbn in HA, HB; subst;
      try discriminate; unfold covers, img_end, img_start in *; cbn in CA, CB; lia.
  - do 3 eexists. repeat split; reflexivity.
Qed.
(** A memory map with two ROM pools next to each other in the image. *)
Example C21_linked_case : exists cf places out,
  config_ok cf /\ image_config_ok 0 cf /\ Forall section_ok places /\ assign_Process cf places = Ok out /\ length out = 3%nat.
Proof.
  exists (Config [Pool 0 MAIN 0 0 16 false; Pool 16 MAIN 64 1 16 false] [Group [67] [0; 1]%nat]),
    [Section_ 1 TEXT_ (-1) (-1) (-1) (-1) (-1) 1 (-1) (-1) 10 true false None;
     Section_ 2 TEXT_ (-1) (-1) (-1) (-1) (-1) 1 (-1) (-1) 8 true false None;
     Section_ 3 TEXT_ (-1) (-1) (-1) (-1) (-1) 1 (-1) (-1) 4 true false None].
  eexists. split; [split; repeat constructor; cbn; lia|]. split.
  - split; [repeat (apply Forall_cons || apply Forall_nil); cbn; right; lia|].
    intros i j p q k N I J _ _ _ A B.
    destruct i as [|[|i]]; cbn in I; try (destruct i; discriminate); injection I as <-;
    destruct j as [|[|j]]; cbn in J; try (destruct j; discriminate); injection J as <-; cbn in *; lia.
  - split; [repeat constructor; unfold section_ok; cbn; auto; lia|]. split; vm_compute; reflexivity.
Qed.

(** ** C22 *)
(** C22 in full, for one image length [n] and padding [p]: contents kept, $FF
    added, and the length the smallest multiple of the padding not below [n]. *)
Definition padded_to_multiple (p : Z) (content result : list Z) : Prop :=
  (exists k, result = content ++ repeat 255 k) /\ (zlen result) mod p = 0 /\
  forall m, m mod p = 0 -> zlen content <= m -> zlen result <= m.

(** C22, except lengths that are already a multiple: contents are kept, only $FF
    is added, and the length is the smallest multiple not below the content
    length. *)
Theorem C22_padding_partial : forall log2n ss p, 0 < p < 2 ^ 31 ->
  Forall (image_ok 0) ss -> image_size MAIN ss < 2 ^ 31 -> (image_size MAIN ss) mod p <> 0 ->
  exists fs main, image_WriteBinary log2n ss p = Ok fs /\ findFile fs MAIN = Some main /\
    padded_to_multiple p (image MAIN ss) (f_data main).
Proof.
  intros log2n ss p P OK L NM. destruct (image_written log2n [] ss p OK) as (fs & f & W & FD & FM & _).
  exists fs, (padImage log2n p f). split; auto. split; auto. cbn [app] in FD.
  pose proof (image_size_nonneg MAIN ss). pose proof (image_zlen MAIN ss) as Z0. set (n := image_size MAIN ss) in *.
  pose proof (Z.mod_pos_bound n p). pose proof (pad_multiple log2n p n P) as PM.
  rewrite padImage_data; rewrite ?FD, ?Z0, ?PM; try lia.
  split; [|split].
  - eexists. reflexivity.
  - rewrite zlen_app, zlen_repeat, Z0. rewrite Z2Nat.id by lia.
    replace (n + (p - n mod p)) with ((n / p + 1) * p) by (pose proof (Z.div_mod n p); lia). apply Z.mod_mul. lia.
  - intros m MM LM. rewrite Z0 in LM. rewrite zlen_app, zlen_repeat, Z0. rewrite Z2Nat.id by lia.
    pose proof (Z.div_mod n p). pose proof (Z.div_mod m p). rewrite MM in *.
    assert (n / p < m / p) by nia. nia.
Qed.
Print Assumptions C22_padding_partial.

(** C22, for all lengths: contents are kept, only $FF is added, at most [p] bytes,
    and the length becomes a multiple. *)
Theorem C22_padding_multiple_partial : forall log2n ss p, 0 < p < 2 ^ 31 ->
  Forall (image_ok 0) ss -> image_size MAIN ss < 2 ^ 31 ->
  exists fs main k, image_WriteBinary log2n ss p = Ok fs /\ findFile fs MAIN = Some main /\
    f_data main = image MAIN ss ++ repeat 255 (Z.to_nat k) /\ 0 < k <= p /\ zlen (f_data main) mod p = 0.
Proof.
  intros log2n ss p P OK L. destruct (image_written log2n [] ss p OK) as (fs & f & W & FD & FM & _).
  cbn [app] in FD. pose proof (image_size_nonneg MAIN ss). pose proof (image_zlen MAIN ss) as Z0. set (n := image_size MAIN ss) in *.
  pose proof (Z.mod_pos_bound n p). pose proof (pad_multiple log2n p n P) as PM.
  exists fs, (padImage log2n p f), (p - n mod p). split; auto. split; auto.
  rewrite padImage_data; rewrite ?FD, ?Z0, ?PM; try lia.
  split; [reflexivity|]. split; [lia|]. rewrite zlen_app, zlen_repeat, Z0. rewrite Z2Nat.id by lia.
  replace (n + (p - n mod p)) with ((n / p + 1) * p) by (pose proof (Z.div_mod n p); lia). apply Z.mod_mul. lia.
Qed.
Print Assumptions C22_padding_multiple_partial.

(** C22 fails for every image whose length is a multiple already: a whole block of
    $FF is added. *)
Theorem C22_exact_multiple_refuted : forall log2n ss p, 0 < p < 2 ^ 31 ->
  Forall (image_ok 0) ss -> image_size MAIN ss < 2 ^ 31 -> (image_size MAIN ss) mod p = 0 ->
  exists fs main, image_WriteBinary log2n ss p = Ok fs /\ findFile fs MAIN = Some main /\
    f_data main = image MAIN ss ++ repeat 255 (Z.to_nat p) /\ ~ padded_to_multiple p (image MAIN ss) (f_data main).
Proof.
  intros log2n ss p P OK L NM. destruct (image_written log2n [] ss p OK) as (fs & f & W & FD & FM & _).
  cbn [app] in FD. pose proof (image_size_nonneg MAIN ss). pose proof (image_zlen MAIN ss) as Z0.
  pose proof (pad_multiple log2n p (image_size MAIN ss) P) as PM. rewrite NM, Z.sub_0_r in PM.
  exists fs, (padImage log2n p f). split; auto. split; auto.
  assert (E : f_data (padImage log2n p f) = image MAIN ss ++ repeat 255 (Z.to_nat p)).
  { rewrite padImage_data; rewrite ?FD, ?Z0, ?PM; try lia. reflexivity. }
  split; auto. intros (_ & _ & M). specialize (M (image_size MAIN ss) NM). rewrite E, zlen_app, zlen_repeat, Z0 in M. lia.
Qed.
Print Assumptions C22_exact_multiple_refuted.

(** C22, padding 0: the length becomes the next power of two above the content
    length, given an integer logarithm. *)
Theorem C22_padding_power_partial : forall log2n ss, log2_spec log2n ->
  Forall (image_ok 0) ss -> 0 < image_size MAIN ss < 2 ^ 31 ->
  exists fs main k e, image_WriteBinary log2n ss 0 = Ok fs /\ findFile fs MAIN = Some main /\
    f_data main = image MAIN ss ++ repeat 255 k /\ 0 <= e /\ zlen (f_data main) = 2 ^ (e + 1) /\
    2 ^ e <= zlen (image MAIN ss) < 2 ^ (e + 1).
Proof.
  intros log2n ss LS OK L. destruct (image_written log2n [] ss 0 OK) as (fs & f & W & FD & FM & _).
  cbn [app] in FD. pose proof (image_zlen MAIN ss) as Z0.
  destruct (pad_power log2n (image_size MAIN ss) LS L) as [PM PB]. destruct (LS _ L) as (L0 & L1 & L2).
  exists fs, (padImage log2n 0 f), (Z.to_nat (2 ^ (log2n (image_size MAIN ss) + 1) - image_size MAIN ss)), (log2n (image_size MAIN ss)).
  split; auto. split; auto. rewrite padImage_data; rewrite ?FD, ?Z0, ?PM; try lia.
  split; [reflexivity|]. split; [auto|]. split; [|lia].
  rewrite zlen_app, zlen_repeat, Z0. lia.
Qed.
Print Assumptions C22_padding_power_partial.

Definition pad_case : program := [img_sect 1 0 0 MAIN [1; 2; 3]].
Example C22_case : Forall (image_ok 0) pad_case /\ image_size MAIN pad_case = 3 /\
  exists fs m, image_WriteBinary (fun _ => 0) pad_case 2 = Ok fs /\ findFile fs MAIN = Some m /\ f_data m = [1; 2; 3; 255].
Proof.
  split; [repeat constructor; cbn; try lia; eexists; split; reflexivity|]. split; [reflexivity|].
  do 2 eexists. repeat split; reflexivity.
Qed.
(** [Z.log2] is such a logarithm. *)
Example C22_log2 : log2_spec Z.log2 /\ exists fs m, image_WriteBinary Z.log2 pad_case 0 = Ok fs /\
  findFile fs MAIN = Some m /\ f_data m = [1; 2; 3; 255].
Proof.
  split; [intros n N; split; [apply Z.log2_nonneg|]; replace (Z.log2 n + 1) with (Z.succ (Z.log2 n)) by lia; apply Z.log2_spec; lia|].
  do 2 eexists. repeat split; reflexivity.
Qed.
Example C22_refuted_case : (image_size MAIN pad_case) mod 3 = 0 /\
  exists fs m, image_WriteBinary (fun _ => 0) pad_case 3 = Ok fs /\ findFile fs MAIN = Some m /\ f_data m = [1; 2; 3; 255; 255; 255].
Proof. split; [reflexivity|]. do 2 eexists. repeat split; reflexivity. Qed.
