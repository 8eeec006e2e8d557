(** Properties C11-C15: memory pools of the linker. *)
From Coq Require Import ZArith List Bool Lia.
From Verif Require Import Base PoolModel PoolSpec PoolProofs.
Import ListNotations.
Open Scope Z_scope.

(** C11. After any history of requests the placed ranges are pairwise disjoint
    and inside the pool; no request of the history is undefined behaviour. *)
Theorem C11_placements_disjoint : forall base size qs,
  pool_ok base size -> Forall (req_ok base size) qs ->
  exists free placed,
    serveAll (initChunks base size) [] qs = Ok (free, placed) /\
    disjoint placed /\ Forall (fun r => within r base size) placed.
Proof.
  intros base size qs P F. destruct (history_total base size qs P F) as (f & p & E).
  exists f, p. pose proof (history _ _ _ _ _ P F E) as I. repeat split; auto.
  - eapply inv_disjoint; eauto.
  - eapply Forall_impl; [|apply (inv_placed _ _ _ _ I)]. cbn. tauto.
Qed.
Print Assumptions C11_placements_disjoint.

Example C11_case :
  let qs := [Absolute 16 40; Aligned 8 16 NONE; Aligned 20 NONE NONE; Aligned 4 NONE 16] in
  pool_ok 4 100 /\ Forall (req_ok 4 100) qs /\
  serveAll (initChunks 4 100) [] qs =
    Ok ([Chunk 8 8; Chunk 24 16; Chunk 76 28], [(4, 4); (56, 20); (16, 8); (40, 16)]).
Proof.
  split; [unfold pool_ok; lia|]. split; [|vm_compute; reflexivity].
  repeat constructor; cbn; unfold NONE; lia.
Qed.

(** C11 does not hold when a fixed address plus the size wraps around 2^32:
    the section is placed outside the pool. *)
Theorem C11_wrap_refuted : exists base size q l free,
  pool_ok base size /\ q = Absolute 256 (2 ^ 32 - 256) /\
  serve (initChunks base size) q = Ok (Some (l, free)) /\
  ~ within (l, req_size q) base size.
Proof.
  exists 0, 32768, (Absolute 256 (2 ^ 32 - 256)). eexists _, _.
  split; [unfold pool_ok; lia|]. split; [reflexivity|]. split; [vm_compute; reflexivity|].
  unfold within. cbn. lia.
Qed.
Print Assumptions C11_wrap_refuted.

(** C12. At any time every byte of the pool is either in exactly one free chunk
    or in exactly one placed range, and no chunk or range has a byte outside. *)
Theorem C12_conservation : forall base size qs free placed,
  pool_ok base size -> Forall (req_ok base size) qs ->
  serveAll (initChunks base size) [] qs = Ok (free, placed) ->
  forall a,
    count (ranges free) a + count placed a =
    (if (base <=? a) && (a <? base + size) then 1 else 0).
Proof. intros base size qs free placed P F E. exact (inv_count _ _ _ _ (history _ _ _ _ _ P F E)). Qed.
Print Assumptions C12_conservation.

(** C12. A granted request takes exactly the returned range from the free
    memory; nothing else changes. *)
Theorem C12_step : forall base size qs free placed q l free',
  pool_ok base size -> Forall (req_ok base size) qs ->
  serveAll (initChunks base size) [] qs = Ok (free, placed) ->
  req_ok base size q -> serve free q = Ok (Some (l, free')) ->
  forall a, count (ranges free') a =
            count (ranges free) a - (if (l <=? a) && (a <? l + req_size q) then 1 else 0).
Proof.
  intros base size qs free placed q l free' P F E R S.
  eapply serve_only_change; eauto. apply (inv_free _ _ _ _ (history _ _ _ _ _ P F E)).
Qed.
Print Assumptions C12_step.

Example C12_case :
  count (ranges [Chunk 8 8; Chunk 24 16; Chunk 76 28]) 30 = 1 /\
  count [(4, 4); (56, 20); (16, 8); (40, 16)] 41 = 1.
Proof. vm_compute. auto. Qed.

(** C13. A fixed-address request is granted exactly at its address, and an
    aligned request at a multiple of the alignment. *)
Theorem C13_fixed_and_aligned : forall base size qs free placed q l free',
  pool_ok base size -> Forall (req_ok base size) qs ->
  serveAll (initChunks base size) [] qs = Ok (free, placed) ->
  req_ok base size q -> serve free q = Ok (Some (l, free')) ->
  match q with
  | Absolute _ loc => l = loc
  | Aligned _ align _ => align <> NONE -> l mod align = 0
  end.
Proof.
  intros base size qs free placed q l free' P F E R S.
  pose proof (inv_free _ _ _ _ (history _ _ _ _ _ P F E)) as I.
  destruct q as [n loc|n a ps]; cbn in S.
  - destruct (pool_AllocateAbsolute free n loc); congruence.
  - apply (aligned_result base size free n a ps l free' P I R S).
Qed.
Print Assumptions C13_fixed_and_aligned.

(** C14. A request with a page and no alignment is granted inside one page.
    Partial: the property as documented also covers ALIGN together with PAGE,
    see the refutation below. *)
Theorem C14_page_partial : forall base size qs free placed n ps l free',
  pool_ok base size -> Forall (req_ok base size) qs ->
  serveAll (initChunks base size) [] qs = Ok (free, placed) ->
  req_ok base size (Aligned n NONE ps) -> ps <> NONE ->
  serve free (Aligned n NONE ps) = Ok (Some (l, free')) ->
  in_one_page ps l n.
Proof.
  intros base size qs free placed n ps l free' P F E R N S.
  pose proof (inv_free _ _ _ _ (history _ _ _ _ _ P F E)) as I.
  apply (aligned_result base size free n NONE ps l free' P I R S); auto.
Qed.
Print Assumptions C14_page_partial.

(** C14. With both, the page is respected when the alignment divides the page
    and the section is no larger than the alignment. *)
Theorem C14_page_aligned_partial : forall base size qs free placed n a ps l free',
  pool_ok base size -> Forall (req_ok base size) qs ->
  serveAll (initChunks base size) [] qs = Ok (free, placed) ->
  req_ok base size (Aligned n a ps) -> a <> NONE -> ps <> NONE ->
  n <= a -> ps mod a = 0 ->
  serve free (Aligned n a ps) = Ok (Some (l, free')) ->
  in_one_page ps l n.
Proof.
  intros base size qs free placed n a ps l free' P F E R N1 N2 Hn Hd S.
  pose proof (inv_free _ _ _ _ (history _ _ _ _ _ P F E)) as I.
  destruct (aligned_result base size free n a ps l free' P I R S) as [A _].
  destruct R as (R1 & R2 & R3).
  eapply small_aligned_in_page with (a := a); auto; lia.
Qed.
Print Assumptions C14_page_aligned_partial.

(** C14 fails for ALIGN with PAGE: after a 16 byte section, a 144 byte section
    with ALIGN 128 and PAGE 256 is placed at 128..271. *)
Theorem C14_align_page_refuted : exists base size qs free placed n a ps l free',
  pool_ok base size /\ Forall (req_ok base size) qs /\
  serveAll (initChunks base size) [] qs = Ok (free, placed) /\
  req_ok base size (Aligned n a ps) /\ n <= ps /\ ps mod a = 0 /\
  serve free (Aligned n a ps) = Ok (Some (l, free')) /\
  ~ in_one_page ps l n.
Proof.
  exists 0, 32768, [Aligned 16 NONE NONE].
  exists [Chunk 16 32752], [(0, 16)], 144, 128, 256, 128.
  exists [Chunk 16 112; Chunk 272 32496].
  split; [unfold pool_ok; lia|].
  split; [repeat constructor; cbn; unfold NONE; lia|].
  split; [vm_compute; reflexivity|].
  split; [cbn; unfold NONE; lia|].
  split; [lia|]. split; [reflexivity|].
  split; [vm_compute; reflexivity|].
  intros (p & H1 & H2). lia.
Qed.
Print Assumptions C14_align_page_refuted.

(** C15. In any history of non-empty requests: a fixed-address request is
    refused only if some byte of its range is outside the pool or taken; a
    plain or aligned request is refused only if no suitable range is free, and
    is granted at the lowest suitable address. *)
Theorem C15_refused_only_if_full_partial : forall base size qs free placed q,
  pool_ok base size -> Forall (req_ok base size) qs -> Forall (fun q => 0 < req_size q) qs ->
  serveAll (initChunks base size) [] qs = Ok (free, placed) ->
  req_ok base size q -> 0 < req_size q ->
  match q with
  | Absolute n loc => serve free q = Ok None -> ~ all_free base size placed loc n
  | Aligned n align page =>
      page = NONE ->
      let suitable x := (align <> NONE -> x mod align = 0) /\ all_free base size placed x n in
      (serve free q = Ok None -> forall x, ~ suitable x) /\
      (forall l free', serve free q = Ok (Some (l, free')) ->
         suitable l /\ forall x, suitable x -> l <= x)
  end.
Proof.
  intros base size qs free placed q P F Zs E R Zq.
  destruct (history_separated _ _ _ _ _ P F Zs E) as [I SP].
  pose proof (inv_free _ _ _ _ I) as IF.
  destruct q as [n loc|n a ps]; cbn [req_size] in Zq.
  - intros H A. destruct (free_in_chunk _ _ _ _ _ _ I SP Zq A) as (c & Hc & B1 & B2).
    cbn in H. destruct (pool_AllocateAbsolute free n loc) eqn:E2; [discriminate|].
    cbn in R. eapply (absolute_complete base size); eauto; lia.
  - intros -> suitable.
    assert (SV : forall x, suitable x ->
      exists c, In c free /\ c_loc c <= x /\ x + n <= c_loc c + c_size c /\ (a <> NONE -> x mod a = 0)).
    { intros x [X1 X2]. destruct (free_in_chunk _ _ _ _ _ _ I SP Zq X2) as (c & Hc & B1 & B2).
      exists c. auto. }
    assert (Good : forall l free', serve free (Aligned n a NONE) = Ok (Some (l, free')) -> suitable l).
    { intros l free' H. split.
      - intro N. apply (aligned_result base size free n a NONE l free' P IF R H); auto.
      - destruct (serve_carved _ _ _ _ _ _ P IF R H) as (pre & c & post & Q1 & Q2 & Q3 & Q4).
        eapply chunk_is_free; eauto. rewrite Q1. apply in_app_iff. right. now left. }
    cbn [serve]. unfold pool_AllocateAligned. rewrite Z.eqb_refl. rewrite andb_true_r. cbn [negb].
    destruct R as (R1 & R2 & _).
    destruct (Z.eqb_spec a NONE) as [->|Na].
    + pose proof (memory_first_fit base size free n P IF SP Zq) as FF.
      destruct (pool_AllocateMemory free n) as [[l f]|] eqn:EM.
      * split; [discriminate|]. intros l1 f1 H1. inversion H1; subst. split.
        -- apply (Good l1 f1). cbn [serve]. unfold pool_AllocateAligned.
           rewrite Z.eqb_refl. cbn. now rewrite EM.
        -- intros x Hx. destruct (SV x Hx) as (c & Hc & B1 & B2 & _). eapply FF; eauto.
      * split; [|discriminate]. intros _ x Hx.
        destruct (SV x Hx) as (c & Hc & B1 & B2 & _). eapply FF; eauto.
    + destruct R2 as [R2|[R2 R3]]; [contradiction|].
      pose proof (aligned_first_fit base size free n a P IF SP Zq R2 R3) as FF.
      destruct free as [|c0 r0].
      { split; [|discriminate]. intros _ x Hx. destruct (SV x Hx) as (c & [] & _). }
      destruct (Z.eqb_spec a 0); [lia|].
      destruct (alignedLoop (c0 :: r0) n a) as [[l f]|] eqn:EM.
      * split; [discriminate|]. intros l1 f1 H1. inversion H1; subst. split.
        -- apply (Good l1 f1). cbn [serve]. unfold pool_AllocateAligned.
           rewrite Z.eqb_refl. rewrite andb_true_r. cbn [negb].
           destruct (Z.eqb_spec a NONE); [contradiction|].
           destruct (Z.eqb_spec a 0); [lia|]. now rewrite EM.
        -- intros x Hx. destruct (SV x Hx) as (c & Hc & B1 & B2 & B3). eapply FF; eauto.
      * split; [|discriminate]. intros _ x Hx.
        destruct (SV x Hx) as (c & Hc & B1 & B2 & B3). eapply FF; eauto.
Qed.
Print Assumptions C15_refused_only_if_full_partial.

(** C15. A paged request is granted at the lowest place of the first free chunk,
    and refused only if the first free chunk has no place.  Partial: the
    remaining chunks are not considered. *)
Theorem C15_paged_partial : forall base size qs free placed n ps c rest,
  pool_ok base size -> Forall (req_ok base size) qs ->
  serveAll (initChunks base size) [] qs = Ok (free, placed) ->
  free = c :: rest ->
  req_ok base size (Aligned n NONE ps) -> ps <> NONE -> 0 < n ->
  let suitable x := c_loc c <= x /\ x + n <= c_loc c + c_size c /\ in_one_page ps x n in
  (serve free (Aligned n NONE ps) = Ok None -> forall x, ~ suitable x) /\
  (forall l free', serve free (Aligned n NONE ps) = Ok (Some (l, free')) ->
     suitable l /\ forall x, suitable x -> l <= x).
Proof.
  intros base size qs free placed n ps c rest P F E -> R N Hn suitable.
  pose proof (inv_free _ _ _ _ (history _ _ _ _ _ P F E)) as IF.
  inversion IF as [|? ? Hc Hr]; subst.
  destruct R as (R1 & R2 & R3). assert (Hps : 0 < ps < NONE) by tauto.
  assert (CP := pageLoop_complete base size c n ps (pageFuel c ps) (c_loc c) P Hc Hps Hn
    (Z.le_refl _) (pageFuel_enough _ _ _ _ P Hc (proj1 Hps)) (or_introl eq_refl)).
  assert (CV := pageLoop_carved base size c n NONE ps (pageFuel c ps) (c_loc c)).
  cbn [serve]. unfold pool_AllocateAligned. rewrite Z.eqb_refl. cbn [andb].
  destruct (Z.eqb_spec ps NONE); [contradiction|]. cbn [negb].
  destruct (Z.ltb_spec ps n) as [L|L].
  - split; [|discriminate]. intros _ x (X1 & X2 & p & X3 & X4). nia.
  - destruct (Z.eqb_spec ps 0); [lia|].
    change (NONE =? 0) with false. cbn iota.
    destruct (pageLoop (pageFuel c ps) c n NONE ps (c_loc c)) as [[l cs]|].
    + split; [discriminate|]. intros l1 f1 H1. inversion H1; subst.
      destruct (CV l1 cs P Hc Hps R1 (or_introl eq_refl) (Z.le_refl _) eq_refl)
        as (_ & V1 & V2 & V3 & _).
      split; [repeat split; auto|]. intros x (X1 & X2 & X3). auto.
    + split; [|discriminate]. intros _ x (X1 & X2 & X3). eapply CP; eauto.
Qed.
Print Assumptions C15_paged_partial.

Example C15_case :
  let free := [Chunk 8 24; Chunk 48 208] in
  serveAll (initChunks 0 256) [] [Absolute 16 32; Aligned 8 NONE NONE]
    = Ok (free, [(0, 8); (32, 16)]) /\
  serve free (Aligned 8 64 NONE) = Ok (Some (64, [Chunk 8 24; Chunk 48 16; Chunk 72 184])) /\
  serve free (Aligned 209 NONE NONE) = Ok None /\
  serve free (Absolute 2 31) = Ok None /\
  serve free (Aligned 16 NONE 16) = Ok (Some (16, [Chunk 8 8; Chunk 32 0; Chunk 48 208])).
Proof. vm_compute. repeat split. Qed.

(** C15 fails for paged requests: only the first free chunk is searched. *)
Theorem C15_paged_refuted : exists base size qs free placed n ps x,
  pool_ok base size /\ Forall (req_ok base size) qs /\ Forall (fun q => 0 < req_size q) qs /\
  serveAll (initChunks base size) [] qs = Ok (free, placed) /\
  req_ok base size (Aligned n NONE ps) /\
  all_free base size placed x n /\ in_one_page ps x n /\
  serve free (Aligned n NONE ps) = Ok None.
Proof.
  exists 0, 4096, [Absolute 16 16], [Chunk 0 16; Chunk 32 4064], [(16, 16)], 17, 256, 32.
  split; [unfold pool_ok; lia|].
  split; [repeat constructor; cbn; lia|].
  split; [repeat constructor; cbn; lia|].
  split; [vm_compute; reflexivity|].
  split; [cbn; unfold NONE; lia|].
  split; [|split; [exists 0; lia|vm_compute; reflexivity]].
  unfold all_free. repeat split; try lia. intros a Ha r [<-|[]] C. unfold covers in C. cbn in C. lia.
Qed.
Print Assumptions C15_paged_refuted.

(** C15 fails after an empty aligned section: it splits a free chunk into two
    touching ones, and memory that is free as a whole is no longer found. *)
Theorem C15_empty_section_refuted : exists base size qs free placed n x,
  pool_ok base size /\ Forall (req_ok base size) qs /\
  serveAll (initChunks base size) [] qs = Ok (free, placed) /\
  all_free base size placed x n /\
  serve free (Aligned n NONE NONE) = Ok None.
Proof.
  exists 0, 256, [Aligned 1 NONE NONE; Aligned 0 128 NONE].
  exists [Chunk 1 127; Chunk 128 128], [(128, 0); (0, 1)], 200, 1.
  split; [unfold pool_ok; lia|].
  split; [repeat constructor; cbn; unfold NONE; lia|].
  split; [vm_compute; reflexivity|].
  split; [|vm_compute; reflexivity].
  unfold all_free. repeat split; try lia.
  intros a Ha r [<-|[<-|[]]] C; unfold covers in C; cbn in C; lia.
Qed.
Print Assumptions C15_empty_section_refuted.
