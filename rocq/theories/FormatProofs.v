(** Proofs about executable file formats. *)
From Coq Require Import ZArith List Bool Lia ZifyBool ZifyNat.
From Verif Require Import Base BaseFacts AssignModel AssignSpec LinkModel FileModel FileProofs ImageModel ImageSpec ImageProofs
  FormatModel FormatSpec.
Import ListNotations.
Open Scope Z_scope.

(** ** Memory *)
Lemma poke_out : forall bs m a x, ~ (a <= x < a + zlen bs) -> poke m a bs x = m x.
Proof.
  induction bs as [|b bs IH]; intros m a x H; [reflexivity|]. cbn [poke]. rewrite zlen_cons in H. pose proof (zlen_nonneg _ bs).
  rewrite IH by lia. unfold upd. destruct (x =? a) eqn:E; [lia|reflexivity].
Qed.
Lemma poke_in : forall bs m a k, 0 <= k < zlen bs -> poke m a bs (a + k) = nth (Z.to_nat k) bs 0.
Proof.
  induction bs as [|b bs IH]; intros m a k H; [cbn in H; lia|]. cbn [poke]. rewrite zlen_cons in H.
  destruct (Z.eq_dec k 0) as [->|N].
  - rewrite poke_out by lia. unfold upd. rewrite Z.add_0_r, Z.eqb_refl. reflexivity.
  - replace (a + k) with (a + 1 + (k - 1)) by lia. rewrite IH by lia.
    replace (Z.to_nat k) with (S (Z.to_nat (k - 1))) by lia. reflexivity.
Qed.
Definition writes (l : list (Z * list Z)) (m : memory) : memory := fold_left (fun m w => poke m (fst w) (snd w)) l m.
Definition cells_of (w : Z * list Z) : list (Z * Z) := combine (zseq (fst w) (length (snd w))) (snd w).
Definition cells (l : list (Z * list Z)) : list (Z * Z) := concat (map cells_of l).
Definition upds (l : list (Z * Z)) (m : memory) : memory := fold_left (fun m c => upd m (fst c) (snd c)) l m.
Lemma poke_cells : forall bs m a, poke m a bs = upds (cells_of (a, bs)) m.
Proof.
  induction bs as [|b bs IH]; intros m a; [reflexivity|]. cbn [poke]. rewrite IH. reflexivity.
Qed.
Lemma writes_cells : forall l m, writes l m = upds (cells l) m.
Proof.
  induction l as [|[a bs] l IH]; intro m; [reflexivity|]. cbn [writes fold_left fst snd].
  change (writes l (poke m a bs) = upds (cells ((a, bs) :: l)) m). rewrite IH.
  unfold cells. cbn [map concat]. unfold upds at 2. rewrite fold_left_app. now rewrite poke_cells.
Qed.
Lemma writes_out : forall l m x, (forall a bs, In (a, bs) l -> ~ (a <= x < a + zlen bs)) -> writes l m x = m x.
Proof.
  induction l as [|[a bs] l IH]; intros m x H; [reflexivity|]. cbn [writes fold_left fst snd].
  change (writes l (poke m a bs) x = m x). rewrite IH by (intros; apply H; right; auto).
  apply poke_out. apply H. left. reflexivity.
Qed.
Definition writes_disjoint (l : list (Z * list Z)) : Prop :=
  ForallOrdPairs (fun v w => forall x, fst v <= x < fst v + zlen (snd v) -> fst w <= x < fst w + zlen (snd w) -> False) l.
Lemma writes_in : forall l m a bs k, writes_disjoint l -> In (a, bs) l -> 0 <= k < zlen bs ->
  writes l m (a + k) = nth (Z.to_nat k) bs 0.
Proof.
  induction l as [|[a' bs'] l IH]; intros m a bs k D I K; [destruct I|].
  cbn [writes fold_left fst snd]. change (writes l (poke m a' bs') (a + k) = nth (Z.to_nat k) bs 0).
  inversion D as [|? ? D1 D2]; subst. destruct I as [E|I].
  - inversion E; subst. rewrite writes_out; [now apply poke_in|]. intros b e I X.
    rewrite Forall_forall in D1. apply (D1 (b, e) I (a + k)); cbn [fst snd]; lia.
  - now apply IH.
Qed.

(** The sections that are written. *)
Fixpoint written (p : program) : list (Z * list Z) :=
  match p with
  | [] => []
  | s :: r => match contents s with Some w => w :: written r | None => written r end
  end.
Lemma in_written : forall p a d, In (a, d) (written p) <-> exists s, In s p /\ loads s a d.
Proof.
  intros p a d. unfold loads. induction p as [|s p IH]; cbn [written].
  - split; [intros []|intros (s & [] & _)].
  - destruct (contents s) as [w|] eqn:E.
    + split.
      * intros [->|I]; [exists s; split; [left; auto|auto]|]. apply IH in I as (t & I & C). exists t. split; [right; auto|auto].
      * intros (t & [<-|I] & C); [left; congruence|right; apply IH; eauto].
    + rewrite IH. split.
      * intros (t & I & C). exists t. split; [right; auto|auto].
      * intros (t & [<-|I] & C); [congruence|eauto].
Qed.
Lemma written_disjoint : forall p, memory_disjoint p -> writes_disjoint (written p).
Proof.
  intros p D. induction D as [|s p F D IH]; [constructor|]. cbn [written]. destruct (contents s) as [w|] eqn:E; [|auto].
  constructor; [|auto]. apply Forall_forall. intros [b e] I x X Y. destruct w as [a d].
  apply in_written in I as (t & I & C). rewrite Forall_forall in F. eapply (F t I a d b e x); eauto.
Qed.
Lemma writes_hold : forall p m, memory_disjoint p -> memory_holds m (writes (written p) m) p.
Proof.
  intros p m D. split.
  - intros s a d I C k K. apply writes_in; auto; [now apply written_disjoint|]. apply in_written. eauto.
  - intros x H. apply writes_out. intros a bs I. apply in_written in I as (s & I & C). eapply H; eauto.
Qed.

(** ** Appending to a file *)
Definition at_end (f : file) (d : list Z) : Prop := f = File d (zlen d).
Lemma fwrite_end : forall f d bs, at_end f d -> at_end (fwrite f bs) (d ++ bs).
Proof. intros f d bs ->. unfold at_end, fwrite. cbn [f_data f_pos]. rewrite overwrite_end. now rewrite zlen_app. Qed.
Lemma fputc_end : forall f d c, at_end f d -> is_byte c -> at_end (fputc f c) (d ++ [c]).
Proof. intros f d c E B. unfold fputc. unfold u8, is_byte in *. rewrite Z.mod_small by lia. now apply fwrite_end. Qed.
Lemma fputbw_end : forall f d v, at_end f d -> 0 <= v < 65536 -> at_end (fputbw f v) (d ++ be16 v).
Proof. intros f d v E B. unfold fputbw. unfold u16. rewrite Z.mod_small by lia. now apply fwrite_end. Qed.
Lemma fputlw_end : forall f d v, at_end f d -> 0 <= v < 65536 -> at_end (fputlw f v) (d ++ le16 v).
Proof. intros f d v E B. unfold fputlw. unfold u16. rewrite Z.mod_small by lia. now apply fwrite_end. Qed.
Lemma fputl_end : forall f d v, at_end f d -> is_u32 v -> at_end (fputl_l f v) (d ++ le32 v).
Proof. intros f d v E B. unfold fputl_l. rewrite u32_id by auto. now apply fwrite_end. Qed.

Lemma firstn_zlen : forall (l : list Z), firstn (Z.to_nat (zlen l)) l = l.
Proof. intro l. unfold zlen. rewrite Nat2Z.id. apply firstn_all. Qed.
(** ** CoCo *)
Definition coco_record (w : Z * list Z) : list Z := [0] ++ be16 (zlen (snd w)) ++ be16 (fst w) ++ snd w.
Lemma be16_back : forall v, 0 <= v < 65536 -> exists a b, be16 v = [a; b] /\ a * 256 + b = v.
Proof. intros v V. exists (v / 256 mod 256), (v mod 256). split; [reflexivity|]. Z.div_mod_to_equations. lia. Qed.
Lemma coco_section_written : forall f d a bs, at_end f d -> 0 <= a < 65536 -> zlen bs < 65536 ->
  exists f', cocoSection f a (zlen bs) bs = Ok f' /\ at_end f' (d ++ coco_record (a, bs)).
Proof.
  intros f d a bs E A B. unfold cocoSection. pose proof (zlen_nonneg _ bs).
  assert (u16 (zlen bs) = zlen bs) as -> by (unfold u16; rewrite Z.mod_small; lia).
  assert (u16 a = a) as -> by (unfold u16; rewrite Z.mod_small; lia).
  assert (X : at_end (fputbw (fputbw (fputc f 0) (zlen bs)) a) (((d ++ [0]) ++ be16 (zlen bs)) ++ be16 a)).
  { apply fputbw_end; [|lia]. apply fputbw_end; [|lia]. apply fputc_end; auto. unfold is_byte. lia. }
  destruct (zlen bs =? 0) eqn:Z0.
  - eexists. split; [reflexivity|]. assert (bs = []) as -> by (destruct bs; auto; rewrite zlen_cons in Z0; pose proof (zlen_nonneg _ bs); lia).
    unfold coco_record. cbn [fst snd]. rewrite app_nil_r. rewrite !app_assoc. exact X.
  - destruct (zlen bs <? zlen bs) eqn:E2; [lia|]. eexists. split; [reflexivity|].
    rewrite firstn_zlen. unfold coco_record. cbn [fst snd]. rewrite !app_assoc. now apply fwrite_end.
Qed.
Lemma coco_sections_written : forall p f d, at_end f d -> Forall (addresses_below 65536) p ->
  exists f', cocoSections f p = Ok f' /\ at_end f' (d ++ concat (map coco_record (written p))).
Proof.
  induction p as [|s p IH]; intros f d E F.
  - exists f. split; [reflexivity|]. cbn. now rewrite app_nil_r.
  - inversion F as [|? ? F1 F2]; subst. cbn [cocoSections written]. unfold addresses_below, loads, contents in F1. unfold contents.
    change (sc_used s) with (s_used (sc_place s)).
    destruct (sc_data s) as [bs|]; [|apply IH; auto]. destruct (s_used (sc_place s)); [|apply IH; auto].
    destruct (F1 _ _ eq_refl) as (A & SZ & L & _). rewrite <- SZ.
    destruct (coco_section_written f d (s_cpuByteLocation (sc_place s)) bs E A L) as (f1 & W & E1). rewrite W. cbn [bind].
    destruct (IH f1 _ E1 F2) as (f2 & W2 & E2). exists f2. split; auto. cbn [map concat]. rewrite app_assoc. exact E2.
Qed.
Lemma coco_records_load : forall l fuel m start rest, 0 <= start < 65536 ->
  Forall (fun w => 0 <= fst w < 65536 /\ zlen (snd w) < 65536) l -> (length l < fuel)%nat ->
  coco_records fuel (concat (map coco_record l) ++ [255] ++ be16 0 ++ be16 start ++ rest) m = Some (writes l m, start).
Proof.
  induction l as [|[a bs] l IH]; intros fuel m start rest S0 F L.
  - destruct fuel as [|fuel]; [cbn in L; lia|]. destruct (be16_back start S0) as (x & y & E & V).
    cbn [map concat app]. rewrite E. cbn [app coco_records be16 Z.eqb]. cbn. now rewrite V.
  - destruct fuel as [|fuel]; [cbn in L; lia|]. inversion F as [|? ? F1 F2]; subst. cbn [fst snd] in F1. destruct F1 as [A B].
    pose proof (zlen_nonneg _ bs). cbn [map concat]. unfold coco_record at 1. cbn [fst snd].
    destruct (be16_back (zlen bs)) as (s1 & s0 & E1 & V1); [lia|]. destruct (be16_back a A) as (a1 & a0 & E2 & V2).
    rewrite E1, E2. cbn [app coco_records Z.eqb]. rewrite V1, V2. rewrite <- app_assoc.
    unfold zlen. rewrite Nat2Z.id. rewrite take_app. apply IH; auto. cbn in L. lia.
Qed.
Lemma concat_longer : forall {A B : Type} (f : A -> list B) l, (forall x, In x l -> (1 <= length (f x))%nat) -> (length l <= length (concat (map f l)))%nat.
Proof.
  intros A B f. induction l as [|x l IH]; intro H; [cbn; lia|]. cbn [map concat length]. rewrite app_length.
  specialize (IH (fun y I => H y (or_intror I))). specialize (H x (or_introl eq_refl)). lia.
Qed.
Lemma written_forall : forall (P : Z * list Z -> Prop) p, (forall s a d, In s p -> loads s a d -> P (a, d)) -> Forall P (written p).
Proof. intros P p H. apply Forall_forall. intros [a d] I. apply in_written in I as (s & I & C). eauto. Qed.
Lemma coco_written : forall p entry start, Forall (addresses_below 65536) p ->
  findStartAddress p entry = Ok start -> 0 <= start < 32768 ->
  exists f, coco_WriteQuickloadBin p entry = Ok f /\
    forall m, coco_load (f_data f) m = Some (writes (written p) m, start).
Proof.
  intros p entry start F S1 S2. unfold coco_WriteQuickloadBin. rewrite S1. cbn [bind].
  destruct (start >=? 32768) eqn:E; [lia|].
  destruct (coco_sections_written p emptyFile [] eq_refl F) as (f & W & E1). rewrite W. cbn [bind].
  eexists. split; [reflexivity|]. intro m. cbn [app] in E1.
  assert (E2 : at_end (fputbw (fputbw (fputc f 255) 0) start) (((concat (map coco_record (written p)) ++ [255]) ++ be16 0) ++ be16 start)).
  { apply fputbw_end; [|lia]. apply fputbw_end; [|lia]. apply fputc_end; auto. unfold is_byte. lia. }
  unfold coco_load. rewrite E2. cbn [f_data]. rewrite <- !app_assoc.
  replace (be16 start) with (be16 start ++ []) by apply app_nil_r. apply coco_records_load; [lia| |].
  - apply written_forall. intros s a d I C. rewrite Forall_forall in F. destruct (F s I a d C) as (X & _ & Y & _). auto.
  - rewrite app_nil_r. rewrite !app_length. cbn [length be16].
    pose proof (concat_longer coco_record (written p)) as CL. assert ((length (written p) <= length (concat (map coco_record (written p))))%nat).
    { apply CL. intros [a bs] _. unfold coco_record. cbn [app length]. lia. }
    lia.
Qed.

(** ** PGZ *)
Definition pgz_block (w : Z * list Z) : list Z := le32 (fst w) ++ le32 (zlen (snd w)) ++ snd w.
(** Closed blocks, then the block being written, whose size is still 0. *)
Record pgz_state (g : pgz) (closed : list (Z * list Z)) (cur : option (Z * list Z)) : Prop := {
  ps_file : at_end (g_file g) ([122] ++ concat (map pgz_block closed) ++
              match cur with Some (a, bs) => le32 a ++ le32 0 ++ bs | None => [] end);
  ps_cur : match cur with
           | Some (a, bs) => g_sizeLocation g = 1 + zlen (concat (map pgz_block closed)) + 4 /\
               g_sectionSize g = zlen bs /\ g_next g = a + zlen bs /\ 0 <= a /\ a + zlen bs < 2 ^ 31
           | None => g_sizeLocation g = -1 /\ g_next g = -1 /\ closed = []
           end }.
Definition blocks_of (closed : list (Z * list Z)) (cur : option (Z * list Z)) : list (Z * list Z) :=
  closed ++ match cur with Some w => [w] | None => [] end.
Lemma close_block : forall g closed a bs, pgz_state g closed (Some (a, bs)) ->
  at_end (fseek_end (fputl_l (fseek (g_file g) (g_sizeLocation g)) (g_sectionSize g)))
    ([122] ++ concat (map pgz_block (closed ++ [(a, bs)]))).
Proof.
  intros g closed a bs [PF (C1 & C2 & C3 & C4 & C5)]. rewrite C1, C2, PF. pose proof (zlen_nonneg _ bs).
  unfold fputl_l, fwrite, fseek, fseek_end, at_end. cbn [f_data f_pos]. rewrite u32_id by (unfold is_u32; lia).
  set (X := concat (map pgz_block closed)).
  replace ([122] ++ X ++ le32 a ++ le32 0 ++ bs) with (([122] ++ X ++ le32 a) ++ le32 0 ++ bs) by (rewrite <- !app_assoc; reflexivity).
  rewrite overwrite_middle; [|rewrite !zlen_app; change (zlen [122]) with 1; change (zlen (le32 a)) with 4; lia|reflexivity].
  rewrite map_app, concat_app. fold X. cbn [map concat]. unfold pgz_block. cbn [fst snd]. rewrite app_nil_r.
  assert (E : (([122] ++ X ++ le32 a) ++ le32 (zlen bs) ++ bs) = [122] ++ X ++ le32 a ++ le32 (zlen bs) ++ bs) by (rewrite <- !app_assoc; reflexivity).
  rewrite E. reflexivity.
Qed.
(** Starting a new block. *)
Lemma pgz_new : forall g closed cur a, pgz_state g closed cur -> 0 <= a < 2 ^ 31 -> g_next g <> a ->
  forall n data, 0 <= n -> n = zlen data -> a + n < 2 ^ 31 ->
  exists g', writePGZSection g a n data = Ok g' /\ pgz_state g' (blocks_of closed cur) (Some (a, data)).
Proof.
  intros g closed cur a PS A NE n data N EN L. unfold writePGZSection.
  destruct (a =? g_next g) eqn:E; [lia|]. cbn [negb].
  set (f0 := if negb (g_sizeLocation g =? -1) then _ else _).
  assert (F0 : at_end f0 ([122] ++ concat (map pgz_block (blocks_of closed cur)))).
  { unfold f0, blocks_of. destruct cur as [[b bs]|].
    - pose proof (close_block _ _ _ _ PS) as CB. destruct PS as [_ (C1 & _)]. pose proof (zlen_nonneg _ (concat (map pgz_block closed))).
      destruct (g_sizeLocation g =? -1) eqn:E1; [lia|]. exact CB.
    - destruct PS as [PF (C1 & C2 & C3)]. rewrite C1. cbn [Z.eqb negb]. rewrite app_nil_r. rewrite app_nil_r in PF. exact PF. }
  clearbody f0. set (D := [122] ++ concat (map pgz_block (blocks_of closed cur))) in *.
  assert (F1 : at_end (fputl_l f0 a) (D ++ le32 a)) by (apply fputl_end; auto; unfold is_u32; lia).
  assert (F2 : at_end (fputl_l (fputl_l f0 a) 0) ((D ++ le32 a) ++ le32 0)) by (apply fputl_end; auto; unfold is_u32; lia).
  cbn [g_file g_sizeLocation g_sectionSize g_next].
  destruct (negb (n =? 0) && (zlen data <? n)) eqn:E2; [lia|].
  eexists. split; [reflexivity|]. constructor; cbn [g_file g_sizeLocation g_sectionSize g_next].
  - assert (X : at_end (if negb (n =? 0) then fwrite (fputl_l (fputl_l f0 a) 0) (firstn (Z.to_nat n) data) else fputl_l (fputl_l f0 a) 0)
                  (((D ++ le32 a) ++ le32 0) ++ data)).
    { destruct (n =? 0) eqn:E3; cbn [negb].
      - assert (data = []) as -> by (destruct data; auto; rewrite zlen_cons in EN; pose proof (zlen_nonneg _ data); lia).
        now rewrite app_nil_r.
      - subst n. rewrite firstn_zlen. now apply fwrite_end. }
    rewrite <- !app_assoc in X. exact X.
  - split; [|split; [|split; [|split]]].
    + unfold ftell. rewrite F1. cbn [f_pos]. unfold D. rewrite !zlen_app. change (zlen [122]) with 1. change (zlen (le32 a)) with 4. lia.
    + rewrite s32_id by (unfold is_s32; lia). lia.
    + rewrite s32_id by (unfold is_s32; lia). lia.
    + lia.
    + lia.
Qed.
(** Continuing a block. *)
Lemma pgz_more : forall g closed b bs a, pgz_state g closed (Some (b, bs)) -> g_next g = a ->
  forall n data, 0 <= n -> n = zlen data -> a + n < 2 ^ 31 ->
  exists g', writePGZSection g a n data = Ok g' /\ pgz_state g' closed (Some (b, bs ++ data)).
Proof.
  intros g closed b bs a [PF (C1 & C2 & C3 & C4 & C5)] EA n data N EN L. unfold writePGZSection.
  pose proof (zlen_nonneg _ bs).
  destruct (a =? g_next g) eqn:E; [|lia]. cbn [negb]. destruct (negb (n =? 0) && (zlen data <? n)) eqn:E2; [lia|].
  eexists. split; [reflexivity|]. constructor; cbn [g_file g_sizeLocation g_sectionSize g_next].
  - assert (X : at_end (if negb (n =? 0) then fwrite (g_file g) (firstn (Z.to_nat n) data) else g_file g)
                  (([122] ++ concat (map pgz_block closed) ++ le32 b ++ le32 0 ++ bs) ++ data)).
    { destruct (n =? 0) eqn:E3; cbn [negb].
      - assert (data = []) as -> by (destruct data; auto; rewrite zlen_cons in EN; pose proof (zlen_nonneg _ data); lia).
        now rewrite app_nil_r.
      - subst n. rewrite firstn_zlen. now apply fwrite_end. }
    rewrite <- !app_assoc in X. exact X.
  - rewrite zlen_app. rewrite !s32_id by (unfold is_s32; lia). repeat split; lia.
Qed.
(** Blocks as the loader should find them: all the written bytes in order, no two
    blocks that could be one, none empty. *)
Fixpoint no_adjacent (l : list (Z * list Z)) : Prop :=
  match l with
  | (a, bs) :: (((b, _) :: _) as r) => b <> a + zlen bs /\ no_adjacent r
  | _ => True
  end.
Lemma no_adjacent_snoc : forall l a bs w, no_adjacent (l ++ [(a, bs)]) -> fst w <> a + zlen bs -> no_adjacent (l ++ [(a, bs); w]).
Proof.
  induction l as [|[b e] l IH]; intros a bs [c d] H N; [cbn in *; auto|].
  cbn [app]. destruct l as [|[b' e'] l].
  - cbn in *. tauto.
  - cbn [app no_adjacent] in *. destruct H as [H1 H2]. split; auto. apply (IH a bs (c, d)); auto.
Qed.
Lemma no_adjacent_grow : forall l a bs cs, no_adjacent (l ++ [(a, bs)]) -> no_adjacent (l ++ [(a, cs)]).
Proof.
  induction l as [|[b e] l IH]; intros a bs cs H; [exact I|]. cbn [app]. destruct l as [|[b' e'] l].
  - cbn in *. tauto.
  - cbn [app no_adjacent] in *. destruct H as [H1 H2]. split; auto. eapply (IH a bs cs); eauto.
Qed.
Lemma zseq_app : forall n m a, zseq a (n + m) = zseq a n ++ zseq (a + Z.of_nat n) m.
Proof.
  induction n as [|n IH]; intros m a; cbn [zseq Nat.add app]; [f_equal; lia|]. rewrite IH. do 2 f_equal. f_equal. lia.
Qed.
Lemma combine_app2 : forall {A B : Type} (a a' : list A) (b b' : list B), length a = length b ->
  combine (a ++ a') (b ++ b') = combine a b ++ combine a' b'.
Proof.
  induction a as [|x a IH]; intros a' [|y b] b' L; cbn in L; try discriminate; auto. cbn. f_equal. apply IH. lia.
Qed.
Lemma cells_grow : forall a bs cs, cells_of (a, bs ++ cs) = cells_of (a, bs) ++ cells_of (a + zlen bs, cs).
Proof.
  intros. unfold cells_of. cbn [fst snd]. rewrite app_length, zseq_app. apply combine_app2. now rewrite zseq_length.
Qed.
Lemma cells_app : forall l k, cells (l ++ k) = cells l ++ cells k.
Proof. intros. unfold cells. now rewrite map_app, concat_app. Qed.
Definition blocks_for (l blocks : list (Z * list Z)) : Prop :=
  cells blocks = cells l /\ no_adjacent blocks /\ Forall (fun w => snd w <> []) blocks /\
  Forall (fun w => 0 <= fst w /\ fst w + zlen (snd w) < 2 ^ 31) blocks.
Lemma pgz_sections_written : forall p g closed cur done, pgz_state g closed cur ->
  blocks_for done (blocks_of closed cur) ->
  Forall (fun w => 0 <= fst w /\ fst w + zlen (snd w) < 2 ^ 31 /\ snd w <> []) (written p) -> Forall (addresses_below (2 ^ 31)) p ->
  exists g' closed' cur', pgzSections g p = Ok g' /\ pgz_state g' closed' cur' /\
    blocks_for (done ++ written p) (blocks_of closed' cur') /\
    (cur' = None -> cur = None /\ written p = []) /\
    (forall a, (forall b bs, cur' = Some (b, bs) -> b + zlen bs <> a) -> cur' <> None -> g_next g' <> a).
Proof.
  induction p as [|s p IH]; intros g closed cur done PS B W F.
  - exists g, closed, cur. cbn [pgzSections written]. rewrite app_nil_r. split; [reflexivity|]. split; [auto|]. split; [auto|].
    split; [auto|]. intros a H N. destruct cur as [[b bs]|]; [|congruence]. destruct PS as [_ (_ & _ & C & _)]. rewrite C. eapply H; eauto.
  - inversion F as [|? ? F1 F2]; subst. cbn [pgzSections written] in *. unfold addresses_below, loads, contents in F1. unfold contents in *.
    change (sc_used s) with (s_used (sc_place s)).
    destruct (sc_data s) as [bs|]; [|eapply IH; eauto]. destruct (s_used (sc_place s)); [|eapply IH; eauto].
    destruct (F1 _ _ eq_refl) as (A & SZ & L & _). rewrite <- SZ. clear F1.
    inversion W as [|? ? W1 W2]; subst. cbn [fst snd] in W1. destruct W1 as (WA & WL & WN).
    set (a := s_cpuByteLocation (sc_place s)) in *. destruct B as (B1 & B2 & B3 & B4).
    assert (step : exists g1 closed1 b bs1, writePGZSection g a (zlen bs) bs = Ok g1 /\ pgz_state g1 closed1 (Some (b, bs1)) /\
      blocks_for (done ++ [(a, bs)]) (blocks_of closed1 (Some (b, bs1)))).
    { destruct (Z.eq_dec (g_next g) a) as [EN|NE].
      - destruct cur as [[b bs0]|]; [|destruct PS as [_ (_ & X & _)]; lia].
        destruct (pgz_more g closed b bs0 a PS EN (zlen bs) bs) as (g1 & W1 & P1); [apply zlen_nonneg|reflexivity|auto|].
        exists g1, closed, b, (bs0 ++ bs). split; auto. split; auto.
        assert (EB : a = b + zlen bs0) by (destruct PS as [_ (_ & _ & X & _)]; lia).
        unfold blocks_for, blocks_of in *. split; [|split; [|split]].
        + rewrite !cells_app in *. rewrite <- B1. rewrite <- app_assoc. f_equal. unfold cells. cbn [map concat].
          rewrite !app_nil_r. rewrite EB. apply cells_grow.
        + eapply no_adjacent_grow; eauto.
        + apply Forall_app in B3 as [B3 B3']. apply Forall_app. split; auto. constructor; [|constructor]. cbn [snd].
          inversion B3'; subst. cbn [snd] in *. destruct bs0; [contradiction|discriminate].
        + apply Forall_app in B4 as [B4 B4']. apply Forall_app. split; auto. constructor; [|constructor]. cbn [fst snd].
          inversion B4'; subst. cbn [fst snd] in *. rewrite zlen_app. lia.
      - destruct (pgz_new g closed cur a PS A NE (zlen bs) bs) as (g1 & W1 & P1); [apply zlen_nonneg|reflexivity|auto|].
        exists g1, (blocks_of closed cur), a, bs. split; auto. split; auto.
        unfold blocks_for. split; [|split; [|split]].
        + unfold blocks_of at 1. rewrite !cells_app. now rewrite B1.
        + unfold blocks_of at 1. unfold blocks_of in *. destruct cur as [[b bs0]|].
          * rewrite <- app_assoc. apply no_adjacent_snoc; auto. cbn [fst]. destruct PS as [_ (_ & _ & X & _)]. lia.
          * destruct PS as [_ (_ & _ & ->)]. exact I.
        + unfold blocks_of at 1. apply Forall_app. split; auto.
        + unfold blocks_of at 1. apply Forall_app. split; auto. }
    destruct step as (g1 & closed1 & b & bs1 & E1 & P1 & B').
    rewrite E1. cbn [bind]. destruct (IH g1 closed1 (Some (b, bs1)) (done ++ [(a, bs)]) P1 B' W2 F2) as (g2 & closed2 & cur2 & R1 & R2 & R3 & R4 & R5).
    exists g2, closed2, cur2. split; auto. split; auto. split; [now rewrite <- app_assoc in R3|]. split; [|auto].
    intro X. destruct (R4 X). discriminate.
Qed.
Lemma pgz_blocks_load : forall l fuel m start rest, 0 <= start < 2 ^ 31 ->
  Forall (fun w => snd w <> []) l -> Forall (fun w => 0 <= fst w /\ fst w + zlen (snd w) < 2 ^ 31) l -> (length l < fuel)%nat ->
  pgz_blocks fuel (concat (map pgz_block l) ++ le32 start ++ le32 0 ++ rest) m = Some (writes l m, start).
Proof.
  induction l as [|[a bs] l IH]; intros fuel m start rest S0 F1 F2 L.
  - destruct fuel as [|fuel]; [cbn in L; lia|]. cbn [map concat app pgz_blocks].
    rewrite get32_le32 by (unfold is_u32; lia). rewrite get32_le32 by (unfold is_u32; lia). reflexivity.
  - destruct fuel as [|fuel]; [cbn in L; lia|]. inversion F1 as [|? ? N1 N2]; subst. inversion F2 as [|? ? A1 A2]; subst.
    cbn [fst snd] in *. pose proof (zlen_nonneg _ bs). cbn [map concat]. unfold pgz_block at 1. cbn [fst snd]. rewrite <- !app_assoc.
    cbn [pgz_blocks]. rewrite get32_le32 by (unfold is_u32; lia). rewrite get32_le32 by (unfold is_u32; lia).
    destruct (zlen bs =? 0) eqn:Z0; [destruct bs; [contradiction|]; rewrite zlen_cons in Z0; pose proof (zlen_nonneg _ bs); lia|].
    unfold zlen at 1. rewrite Nat2Z.id. rewrite take_app. apply IH; auto. cbn in L. lia.
Qed.
Lemma pgz_written : forall p entry start, Forall (addresses_below (2 ^ 31)) p ->
  Forall (fun w => 0 <= fst w /\ fst w + zlen (snd w) < 2 ^ 31 /\ snd w <> []) (written p) ->
  findStartAddress p entry = Ok start -> 0 <= start < 2 ^ 31 ->
  (forall a d, last (written p) (-1, []) = (a, d) -> a + zlen d <> start) ->
  exists f blocks, foenix_WriteExecutablePGZ p entry = Ok f /\
    f_data f = [122] ++ concat (map pgz_block blocks) ++ le32 start ++ le32 0 /\
    blocks_for (written p) blocks /\
    forall m, pgz_load (f_data f) m = Some (writes (written p) m, start).
Proof.
  intros p entry start F W S1 S2 LS. unfold foenix_WriteExecutablePGZ.
  assert (P0 : pgz_state (Pgz (fputc emptyFile 122) (-1) (-1) (-1)) [] None).
  { constructor; [reflexivity|]. repeat split; reflexivity. }
  assert (B0 : blocks_for [] (blocks_of [] None)) by (repeat split; constructor).
  destruct (pgz_sections_written p _ [] None [] P0 B0 W F) as (g & closed & cur & E & PS & B & C1 & C2).
  rewrite E. cbn [bind]. rewrite S1. cbn [bind]. cbn [app] in B.
  assert (NN : g_next g <> start).
  { destruct cur as [[b bs]|].
    - apply C2; [|discriminate]. intros b' bs' X. injection X as <- <-.
      (* the end of the last block is the end of the last section *)
      destruct (rev (written p)) as [|[a d] r] eqn:R.
      + assert (W0 : written p = []) by (rewrite <- (rev_involutive (written p)), R; reflexivity).
        rewrite W0 in B. destruct B as (B1 & _ & B3 & _). unfold blocks_of in *. rewrite cells_app in B1. apply Forall_app in B3 as [_ B3].
        inversion B3; subst. cbn [snd] in *. apply app_eq_nil in B1 as [_ B1]. destruct bs; [contradiction|discriminate].
      + assert (W0 : written p = rev r ++ [(a, d)]) by (rewrite <- (rev_involutive (written p)), R; reflexivity).
        rewrite W0 in LS. specialize (LS a d). rewrite last_last in LS. specialize (LS eq_refl).
        assert (X : b + zlen bs = a + zlen d); [|lia].
        destruct B as (B1 & _ & B3 & _). rewrite W0 in B1. unfold blocks_of in *. rewrite !cells_app in B1.
        apply Forall_app in B3 as [_ B3]. assert (BN : bs <> []) by (inversion B3; subst; auto).
        assert (DN : d <> []) by (rewrite W0 in W; apply Forall_app in W as [_ W]; inversion W; subst; cbn in *; tauto).
        assert (LC : forall q e, e <> [] -> exists c x, cells [(q, e)] = c ++ [(q + zlen e - 1, x)]).
        { intros q e NE. destruct (exists_last NE) as (e' & x & ->). exists (cells_of (q, e')), x. unfold cells. cbn [map concat]. rewrite app_nil_r.
          rewrite cells_grow. f_equal. unfold cells_of. cbn. f_equal. f_equal. rewrite zlen_app. cbn. lia. }
        destruct (LC b bs BN) as (c1 & x1 & E1). destruct (LC a d DN) as (c2 & x2 & E2). rewrite E1, E2 in B1.
        rewrite !app_assoc in B1. apply app_inj_tail in B1 as [_ B1]. injection B1 as B1 _. lia.
    - destruct PS as [_ (_ & X & _)]. lia. }
  destruct (pgz_new g closed cur start PS S2 NN 0 []) as (g1 & E1 & P1); [lia|reflexivity|lia|].
  rewrite E1. cbn [bind]. destruct P1 as [PF _]. exists (g_file g1), (blocks_of closed cur). split; [reflexivity|].
  assert (D : f_data (g_file g1) = [122] ++ concat (map pgz_block (blocks_of closed cur)) ++ le32 start ++ le32 0).
  { rewrite PF. cbn [f_data]. now rewrite app_nil_r. }
  split; auto. split; auto. intro m. rewrite D. cbn [app pgz_load Z.eqb Pos.eqb].
  destruct B as (B1 & B2 & B3 & B4).
  replace (writes (written p) m) with (writes (blocks_of closed cur) m) by (rewrite !writes_cells, B1; reflexivity).
  replace (le32 0) with (le32 0 ++ []) by apply app_nil_r.
  apply pgz_blocks_load; auto. rewrite !app_length. cbn [length le32].
  assert ((length (blocks_of closed cur) <= length (concat (map pgz_block (blocks_of closed cur))))%nat).
  { apply concat_longer. intros [a bs] _. unfold pgz_block. rewrite app_length. cbn. lia. }
  lia.
Qed.

(** ** PRG *)
Lemma digits_S : forall k n, 10 <= n -> digits (S k) n = digits k (n / 10) ++ [48 + n mod 10].
Proof. intros k n N. cbn [digits]. destruct (n <? 10) eqn:E; [lia|reflexivity]. Qed.
Lemma digits_1 : forall k n, n < 10 -> digits (S k) n = [48 + n].
Proof. intros k n N. cbn [digits]. destruct (n <? 10) eqn:E; [reflexivity|lia]. Qed.
Lemma decimal_4 : forall n, 1000 <= n < 10000 ->
  decimal n = [48 + n / 10 / 10 / 10; 48 + n / 10 / 10 mod 10; 48 + n / 10 mod 10; 48 + n mod 10].
Proof.
  intros n N. unfold decimal. destruct (n <? 0) eqn:E; [lia|].
  assert (A1 : 100 <= n / 10 < 1000) by (Z.div_mod_to_equations; lia).
  assert (A2 : 10 <= n / 10 / 10 < 100) by (clear N; set (y := n / 10) in *; clearbody y; Z.div_mod_to_equations; lia).
  assert (A3 : n / 10 / 10 / 10 < 10) by (clear N A1; set (y := n / 10 / 10) in *; clearbody y; Z.div_mod_to_equations; lia).
  rewrite digits_S by lia. rewrite digits_S by lia. rewrite digits_S by lia. rewrite digits_1 by lia. reflexivity.
Qed.
Lemma decimal_5 : forall n, 10000 <= n < 100000 ->
  decimal n = [48 + n / 10 / 10 / 10 / 10; 48 + n / 10 / 10 / 10 mod 10; 48 + n / 10 / 10 mod 10; 48 + n / 10 mod 10; 48 + n mod 10].
Proof.
  intros n N. unfold decimal. destruct (n <? 0) eqn:E; [lia|].
  assert (A1 : 1000 <= n / 10 < 10000) by (Z.div_mod_to_equations; lia).
  assert (A2 : 100 <= n / 10 / 10 < 1000) by (clear N; set (y := n / 10) in *; clearbody y; Z.div_mod_to_equations; lia).
  assert (A3 : 10 <= n / 10 / 10 / 10 < 100) by (clear N A1; set (y := n / 10 / 10) in *; clearbody y; Z.div_mod_to_equations; lia).
  assert (A4 : n / 10 / 10 / 10 / 10 < 10) by (clear N A1 A2; set (y := n / 10 / 10 / 10) in *; clearbody y; Z.div_mod_to_equations; lia).
  rewrite digits_S by lia. rewrite digits_S by lia. rewrite digits_S by lia. rewrite digits_S by lia. rewrite digits_1 by lia. reflexivity.
Qed.
(** A decimal digit string is read back as its number. *)
Definition digit (c : Z) : bool := (48 <=? c) && (c <=? 57).
Lemma value_digits : forall ds fuel m a v, (length ds < fuel)%nat -> Forall (fun c => digit c = true) ds ->
  (forall k, 0 <= k < zlen ds -> m (a + k) = nth (Z.to_nat k) ds 0) -> digit (m (a + zlen ds)) = false ->
  decimal_value fuel m a v = Some (fold_left (fun v c => v * 10 + (c - 48)) ds v, a + zlen ds).
Proof.
  induction ds as [|c ds IH]; intros fuel m a v L F M E.
  - destruct fuel; [cbn in L; lia|]. cbn [decimal_value fold_left]. change (zlen (@nil Z)) with 0 in *. rewrite Z.add_0_r in *.
    unfold digit in E. rewrite E. reflexivity.
  - destruct fuel; [cbn in L; lia|]. inversion F as [|? ? F1 F2]; subst. pose proof (zlen_nonneg _ ds). rewrite zlen_cons in *.
    assert (MA : m a = c) by (replace a with (a + 0) by lia; rewrite M by lia; reflexivity).
    cbn [decimal_value fold_left]. rewrite MA. unfold digit in F1. rewrite F1.
    rewrite (IH fuel m (a + 1)); auto.
    + do 2 f_equal. lia.
    + cbn in L. lia.
    + intros k K. replace (a + 1 + k) with (a + (k + 1)) by lia. rewrite M by lia.
      replace (Z.to_nat (k + 1)) with (S (Z.to_nat k)) by lia. reflexivity.
    + replace (a + 1 + zlen ds) with (a + (1 + zlen ds)) by lia. exact E.
Qed.
Lemma digit_of : forall x, 0 <= x <= 9 -> digit (48 + x) = true.
Proof. intros x X. unfold digit. lia. Qed.
(** The decimal digits of a start address. *)
Lemma decimal_ok : forall n, 1000 <= n < 100000 ->
  Forall (fun c => digit c = true) (decimal n) /\ fold_left (fun v c => v * 10 + (c - 48)) (decimal n) 0 = n /\
  (zlen (decimal n) = 4 \/ zlen (decimal n) = 5).
Proof.
  intros n N. destruct (Z_lt_ge_dec n 10000) as [L|L].
  - rewrite decimal_4 by lia. cbn [fold_left].
    assert (A1 : n = 10 * (n / 10) + n mod 10) by (apply Z.div_mod; lia).
    set (y1 := n / 10) in *. assert (A2 : y1 = 10 * (y1 / 10) + y1 mod 10) by (apply Z.div_mod; lia).
    set (y2 := y1 / 10) in *. assert (A3 : y2 = 10 * (y2 / 10) + y2 mod 10) by (apply Z.div_mod; lia).
    set (y3 := y2 / 10) in *. pose proof (Z.mod_pos_bound n 10 eq_refl). pose proof (Z.mod_pos_bound y1 10 eq_refl).
    pose proof (Z.mod_pos_bound y2 10 eq_refl). split; [|split; [lia|left; reflexivity]].
    repeat (apply Forall_cons || apply Forall_nil); apply digit_of; lia.
  - rewrite decimal_5 by lia. cbn [fold_left].
    assert (A1 : n = 10 * (n / 10) + n mod 10) by (apply Z.div_mod; lia).
    set (y1 := n / 10) in *. assert (A2 : y1 = 10 * (y1 / 10) + y1 mod 10) by (apply Z.div_mod; lia).
    set (y2 := y1 / 10) in *. assert (A3 : y2 = 10 * (y2 / 10) + y2 mod 10) by (apply Z.div_mod; lia).
    set (y3 := y2 / 10) in *. assert (A4 : y3 = 10 * (y3 / 10) + y3 mod 10) by (apply Z.div_mod; lia).
    set (y4 := y3 / 10) in *. pose proof (Z.mod_pos_bound n 10 eq_refl). pose proof (Z.mod_pos_bound y1 10 eq_refl).
    pose proof (Z.mod_pos_bound y2 10 eq_refl). pose proof (Z.mod_pos_bound y3 10 eq_refl).
    split; [|split; [lia|right; reflexivity]].
    repeat (apply Forall_cons || apply Forall_nil); apply digit_of; lia.
Qed.
(** A stub: link, line number, prefix, SYS, digits and zeros to the end. *)
Lemma stub_runs : forall m a lo hi l0 l1 prefix ds zs rest start,
  let stub := [lo; hi; l0; l1] ++ prefix ++ [158] ++ ds ++ zs in
  lo + 256 * hi = a + zlen stub - 2 -> decimal start = ds -> 1000 <= start < 100000 ->
  Forall (fun z => z = 0) zs -> 3 <= zlen zs -> (zlen ds = 4 \/ zlen ds = 5) ->
  basic_runs (poke m a (stub ++ rest)) a prefix start.
Proof.
  intros m a lo hi l0 l1 prefix ds zs rest start stub LK DS ST ZS ZL DL.
  destruct (decimal_ok start ST) as (D1 & D2 & _). rewrite DS in D1, D2.
  pose proof (zlen_nonneg _ prefix). pose proof (zlen_nonneg _ rest).
  assert (SL : zlen stub = 4 + zlen prefix + 1 + zlen ds + zlen zs) by (unfold stub; rewrite !zlen_app; change (zlen [lo; hi; l0; l1]) with 4; change (zlen [158]) with 1; lia).
  assert (P : forall x k, a + k = x -> 0 <= k < zlen stub -> poke m a (stub ++ rest) x = byte stub k).
  { intros x k <- K. rewrite poke_in by (rewrite zlen_app; lia). change (nth (Z.to_nat k) (stub ++ rest) 0) with (byte (stub ++ rest) k).
    rewrite byte_app by lia. destruct (k <? zlen stub) eqn:E; [reflexivity|lia]. }
  set (M := poke m a (stub ++ rest)) in *.
  assert (S1 : forall k, 0 <= k < zlen prefix -> byte stub (4 + k) = byte prefix k).
  { intros k K. unfold stub. rewrite byte_app by lia. change (zlen [lo; hi; l0; l1]) with 4. destruct (4 + k <? 4) eqn:E; [lia|].
    rewrite byte_app by lia. replace (4 + k - 4) with k by lia. destruct (k <? zlen prefix) eqn:E2; [reflexivity|lia]. }
  assert (S2 : byte stub (4 + zlen prefix) = 158).
  { unfold stub. rewrite byte_app by lia. change (zlen [lo; hi; l0; l1]) with 4. destruct (4 + zlen prefix <? 4) eqn:E; [lia|].
    rewrite byte_app by lia. replace (4 + zlen prefix - 4) with (zlen prefix) by lia. destruct (zlen prefix <? zlen prefix) eqn:E2; [lia|].
    now rewrite Z.sub_diag. }
  assert (S3 : forall k, 0 <= k < zlen ds -> byte stub (5 + zlen prefix + k) = byte ds k).
  { intros k K. unfold stub. rewrite byte_app by lia. change (zlen [lo; hi; l0; l1]) with 4. destruct (5 + zlen prefix + k <? 4) eqn:E; [lia|].
    rewrite byte_app by lia. destruct (5 + zlen prefix + k - 4 <? zlen prefix) eqn:E2; [lia|].
    rewrite byte_app by lia. change (zlen [158]) with 1. destruct (5 + zlen prefix + k - 4 - zlen prefix <? 1) eqn:E3; [lia|].
    rewrite byte_app by lia. replace (5 + zlen prefix + k - 4 - zlen prefix - 1) with k by lia. destruct (k <? zlen ds) eqn:E4; [reflexivity|lia]. }
  assert (S4 : forall k, 0 <= k < zlen zs -> byte stub (5 + zlen prefix + zlen ds + k) = 0).
  { intros k K. unfold stub. rewrite byte_app by lia. change (zlen [lo; hi; l0; l1]) with 4. destruct (5 + zlen prefix + zlen ds + k <? 4) eqn:E; [lia|].
    rewrite byte_app by lia. destruct (5 + zlen prefix + zlen ds + k - 4 <? zlen prefix) eqn:E2; [lia|].
    rewrite byte_app by lia. change (zlen [158]) with 1. destruct (5 + zlen prefix + zlen ds + k - 4 - zlen prefix <? 1) eqn:E3; [lia|].
    rewrite byte_app by lia. replace (5 + zlen prefix + zlen ds + k - 4 - zlen prefix - 1) with (zlen ds + k) by lia. destruct (zlen ds + k <? zlen ds) eqn:E4; [lia|].
    replace (zlen ds + k - zlen ds) with k by lia. unfold byte. rewrite Forall_forall in ZS.
    destruct (nth_in_or_default (Z.to_nat k) zs 0) as [X|X]; auto. }
  exists (a + 4 + zlen prefix + 1 + zlen ds), (a + zlen stub - 2).
  split. { intros k K. rewrite (P _ (4 + k)) by lia. rewrite S1 by lia. reflexivity. }
  split. { rewrite (P _ (4 + zlen prefix)) by lia. auto. }
  split. { rewrite (value_digits ds); [now rewrite D2|unfold zlen in DL; lia|auto| |].
    - intros k K. rewrite (P _ (5 + zlen prefix + k)) by lia. rewrite S3 by lia. reflexivity.
    - rewrite (P _ (5 + zlen prefix + zlen ds + 0)) by lia. rewrite S4 by lia. reflexivity. }
  split. { rewrite (P _ (5 + zlen prefix + zlen ds + 0)) by lia. apply S4. lia. }
  split. { rewrite (P a 0) by lia. rewrite (P (a + 1) 1) by lia. unfold stub. exact LK. }
  split. { lia. }
  split. { intros x X. rewrite (P x (5 + zlen prefix + zlen ds + (x - a - 5 - zlen prefix - zlen ds))) by lia. apply S4. lia. }
  split. { rewrite (P _ (5 + zlen prefix + zlen ds + (zlen zs - 2))) by lia. apply S4. lia. }
  rewrite (P _ (5 + zlen prefix + zlen ds + (zlen zs - 1))) by lia. apply S4. lia.
Qed.
Lemma image_from_imaged : forall base s a d, image_from base s -> loads s a d ->
  imaged MAIN s = true /\ img_start s = a - base /\ base <= a /\ content s = d.
Proof.
  intros base s a d IF L. destruct (IF a d L) as (U & AS & OV & (g & G1 & G2) & B & I).
  unfold loads, contents in L. unfold imaged, content, img_start. rewrite U, AS, OV, G1, I.
  destruct (sc_data s) as [d'|]; [|discriminate]. rewrite U in L. injection L as <- <-.
  split; [|auto]. unfold MAIN. cbn [andb]. destruct (s_cpuByteLocation (sc_place s) - base =? -1) eqn:E; [lia|]. cbn.
  destruct (og_type g =? GROUP_BSS) eqn:E2; [|reflexivity]. exfalso. apply G2. lia.
Qed.
Lemma prg_sections_loaded : forall p m a stub d, Forall (image_ok (2 + zlen stub)) p -> Forall (image_from (a + zlen stub)) p ->
  image_holds MAIN p d -> memory_has (poke m a (stub ++ d)) p.
Proof.
  intros p m a stub d OK IF H s x e I L k K. rewrite Forall_forall in OK, IF.
  destruct (image_from_imaged _ _ _ _ (IF s I) L) as (IM & IS & B & C).
  destruct (OK s I (ex_intro _ MAIN IM)) as (_ & _ & _ & d' & D1 & D2). unfold content in C. rewrite D1 in C. subst d'.
  pose proof (ih_inside _ _ _ H s I IM) as IN. unfold img_end in IN. rewrite IS in IN.
  pose proof (zlen_nonneg _ stub).
  replace (x + k) with (a + (zlen stub + (x - (a + zlen stub) + k))) by lia.
  rewrite poke_in by (rewrite zlen_app; lia).
  change (byte (stub ++ d) (zlen stub + (x - (a + zlen stub) + k)) = byte e k).
  rewrite byte_app by lia. destruct (zlen stub + (x - (a + zlen stub) + k) <? zlen stub) eqn:E; [lia|].
  replace (zlen stub + (x - (a + zlen stub) + k) - zlen stub) with (img_start s + k) by lia.
  transitivity (at_ (content s) k); [apply (ih_section _ _ _ H); auto; lia|]. unfold content. rewrite D1. reflexivity.
Qed.
Definition zeros3or4 (ds : list Z) : list Z := if zlen ds =? 4 then [0; 0; 0; 0] else [0; 0; 0].
Lemma basic_stub : forall hi start, 1000 <= start < 100000 -> is_byte hi ->
  snprintf6 (overwrite basicSys 1 [hi]) 5 start = [12; hi; 10; 0] ++ [] ++ [158] ++ decimal start ++ zeros3or4 (decimal start).
Proof.
  intros hi start ST H. unfold snprintf6. destruct (Z_lt_ge_dec start 10000) as [L|L].
  - rewrite decimal_4 by lia. generalize (48 + start / 10 / 10 / 10) (48 + start / 10 / 10 mod 10) (48 + start / 10 mod 10) (48 + start mod 10).
    intros a b c d. reflexivity.
  - rewrite decimal_5 by lia. generalize (48 + start / 10 / 10 / 10 / 10) (48 + start / 10 / 10 / 10 mod 10) (48 + start / 10 / 10 mod 10) (48 + start / 10 mod 10) (48 + start mod 10).
    intros a b c d e. reflexivity.
Qed.
Lemma mega65_stub : forall start, 1000 <= start < 100000 ->
  snprintf6 mega65BasicSys 9 start = [16; 32; 10; 0] ++ [254; 2; 48; 58] ++ [158] ++ decimal start ++ zeros3or4 (decimal start).
Proof.
  intros start ST. unfold snprintf6. destruct (Z_lt_ge_dec start 10000) as [L|L].
  - rewrite decimal_4 by lia. generalize (48 + start / 10 / 10 / 10) (48 + start / 10 / 10 mod 10) (48 + start / 10 mod 10) (48 + start mod 10).
    intros a b c d. reflexivity.
  - rewrite decimal_5 by lia. generalize (48 + start / 10 / 10 / 10 / 10) (48 + start / 10 / 10 / 10 mod 10) (48 + start / 10 / 10 mod 10) (48 + start / 10 mod 10) (48 + start mod 10).
    intros a b c d e. reflexivity.
Qed.
Lemma stub_length : forall l prefix start, zlen l = 4 -> 1000 <= start < 100000 ->
  zlen (l ++ prefix ++ [158] ++ decimal start ++ zeros3or4 (decimal start)) = 13 + zlen prefix /\
  Forall (fun z => z = 0) (zeros3or4 (decimal start)) /\ 3 <= zlen (zeros3or4 (decimal start)).
Proof.
  intros l prefix start L ST. destruct (decimal_ok start ST) as (_ & _ & D). rewrite !zlen_app, L. change (zlen [158]) with 1.
  unfold zeros3or4. destruct D as [D|D]; rewrite D; cbn [Z.eqb Pos.eqb].
  - change (zlen [0; 0; 0; 0]) with 4. split; [lia|]. split; [repeat constructor|lia].
  - change (zlen [0; 0; 0]) with 3. split; [lia|]. split; [repeat constructor|lia].
Qed.
Lemma prg_any : forall log2n p a lo hi stub prefix start zs,
  stub = [lo; hi; 10; 0] ++ prefix ++ [158] ++ decimal start ++ zs ->
  lo + 256 * hi = a + zlen stub - 2 -> 1000 <= start < 100000 -> Forall (fun z => z = 0) zs -> 3 <= zlen zs ->
  Forall (image_ok (2 + zlen stub)) p -> image_disjoint p -> Forall (image_from (a + zlen stub)) p ->
  forall a0 a1, a0 + 256 * a1 = a ->
  exists fs f, image_WriteBinaryToFile log2n (File ([a0; a1] ++ stub) (zlen ([a0; a1] ++ stub))) p (-1) = Ok fs /\
    findFile fs MAIN = Some f /\
    forall m, exists m', prg_load (f_data f) m = Some m' /\ memory_has m' p /\ basic_runs m' a prefix start.
Proof.
  intros log2n p a lo hi stub prefix start zs ST LK SR ZS ZL OK DJ IF a0 a1 EA.
  assert (HL : zlen ([a0; a1] ++ stub) = 2 + zlen stub) by (rewrite zlen_app; reflexivity).
  destruct (image_written log2n ([a0; a1] ++ stub) p (-1)) as (fs & f & W & FD & FM & _); [now rewrite HL|].
  exists fs, f. split; auto. split; [exact FM|]. intro m. exists (poke m a (stub ++ image MAIN p)).
  split; [rewrite FD; cbn [app prg_load]; now rewrite EA|]. split.
  - eapply prg_sections_loaded; eauto. eapply image_is_held; eauto.
  - destruct (decimal_ok start SR) as (_ & _ & D). rewrite ST. eapply stub_runs; eauto. rewrite <- ST. exact LK.
Qed.
Lemma land255 : forall x, Z.land x 255 = x mod 256.
Proof. intro x. change 255 with (Z.ones 8). rewrite Z.land_ones by lia. reflexivity. Qed.
Lemma prg_written : forall log2n p entry header start, findStartAddress p entry = Ok start -> 1000 <= start < 100000 ->
  0 <= header < 65536 -> header mod 256 = 1 ->
  Forall (image_ok 15) p -> image_disjoint p -> Forall (image_from (header + 13)) p ->
  exists fs f, commodore_WritePrg log2n p entry header = Ok fs /\ findFile fs MAIN = Some f /\
    forall m, exists m', prg_load (f_data f) m = Some m' /\ memory_has m' p /\ basic_runs m' header [] start.
Proof.
  intros log2n p entry header start FS SR HB HM OK DJ IF. unfold commodore_WritePrg, writeHeader. rewrite FS. cbn [bind].
  rewrite !land255. rewrite Z.shiftr_div_pow2 by lia. change (2 ^ 8) with 256.
  set (hi := (header / 256) mod 256). set (lo := header mod 256) in *.
  assert (E : lo + 256 * hi = header) by (unfold lo, hi; Z.div_mod_to_equations; lia).
  assert (B1 : is_byte hi) by (unfold hi, is_byte; Z.div_mod_to_equations; lia).
  assert (B2 : is_byte lo) by (unfold lo, is_byte; Z.div_mod_to_equations; lia).
  assert (F : at_end (fputc (fputc emptyFile lo) hi) ([] ++ [lo] ++ [hi])).
  { apply (fputc_end _ ([] ++ [lo])); auto. now apply fputc_end. }
  clearbody lo hi.
  rewrite basic_stub by auto. set (stub := [12; hi; 10; 0] ++ [] ++ [158] ++ decimal start ++ zeros3or4 (decimal start)).
  assert (F2 : at_end (fwrite (fputc (fputc emptyFile lo) hi) stub) ([lo; hi] ++ stub)).
  { apply (fwrite_end _ ([] ++ [lo] ++ [hi]) stub F). }
  rewrite F2. destruct (stub_length [12; hi; 10; 0] [] start eq_refl SR) as (SL & ZS & ZL). fold stub in SL.
  change (13 + zlen (@nil Z)) with 13 in SL.
  eapply (prg_any log2n p header 12 hi stub [] start); try eassumption; try reflexivity; rewrite SL; auto. lia.
Qed.
Lemma mega65_written : forall log2n p entry start, findStartAddress p entry = Ok start -> 1000 <= start < 100000 ->
  Forall (image_ok 19) p -> image_disjoint p -> Forall (image_from (8193 + 17)) p ->
  exists fs f, commodore_WriteMega65Prg log2n p entry = Ok fs /\ findFile fs MAIN = Some f /\
    forall m, exists m', prg_load (f_data f) m = Some m' /\ memory_has m' p /\ basic_runs m' 8193 [254; 2; 48; 58] start.
Proof.
  intros log2n p entry start FS SR OK DJ IF. unfold commodore_WriteMega65Prg, writeMega65Header. rewrite FS. cbn [bind].
  rewrite mega65_stub by auto.
  set (stub := [16; 32; 10; 0] ++ [254; 2; 48; 58] ++ [158] ++ decimal start ++ zeros3or4 (decimal start)).
  assert (F2 : at_end (fwrite (fputc (fputc emptyFile 1) 32) stub) ([1; 32] ++ stub)).
  { apply (fwrite_end _ ([] ++ [1] ++ [32]) stub). reflexivity. }
  rewrite F2. destruct (stub_length [16; 32; 10; 0] [254; 2; 48; 58] start eq_refl SR) as (SL & ZS & ZL). fold stub in SL.
  change (13 + zlen [254; 2; 48; 58]) with 17 in SL.
  eapply (prg_any log2n p 8193 16 32 stub [254; 2; 48; 58] start); try eassumption; try reflexivity; rewrite SL; auto.
Qed.

(** ** Programs placed in a memory map *)
Lemma find_in : forall {A : Type} (f : A -> bool) l x, find f l = Some x -> In x l /\ f x = true.
Proof. intros A f l x H. apply find_some in H. exact H. Qed.
Lemma linked_loads : forall cf places out ss, config_ok cf -> Forall section_ok places -> assign_Process cf places = Ok out ->
  map sc_place ss = out -> Forall data_ok ss ->
  forall s a d, In s ss -> loads s a d -> exists g G k p, s_group (sc_place s) = Some g /\ In G (cf_groups cf) /\ g_name G = og_name g /\
    In k (g_pools G) /\ nth_error (cf_pools cf) k = Some p /\ s_pool (sc_place s) = Some k /\ s_assigned (sc_place s) = true /\
    s_used (sc_place s) = true /\ a = s_cpuByteLocation (sc_place s) /\ sc_data s = Some d /\
    zlen d = s_size (sc_place s) /\ bytes d /\ p_loc p <= a /\ a + zlen d <= p_loc p + p_size p /\ s_overlay (sc_place s) = p_overlay p /\
    s_imageLocation (sc_place s) = (if p_image p =? -1 then -1 else p_image p + (a - p_loc p)).
Proof.
  intros cf places out ss CF SO A M DO s a d I L.
  assert (J : In (sc_place s) out) by (rewrite <- M; now apply in_map).
  destruct (linked_placed cf places out _ CF SO A J) as (s0 & I0 & PW).
  unfold loads, contents in L. destruct (sc_data s) as [d'|] eqn:SD; [|discriminate].
  destruct (s_used (sc_place s)) eqn:U; [|discriminate]. injection L as <- <-.
  rewrite Forall_forall in DO. destruct (DO s I d' SD) as (NG & SZ & BY).
  destruct (s_group (sc_place s)) as [g|] eqn:EG; [|congruence].
  destruct (pw_same _ _ _ PW) as (_ & SG & SZ' & SU & _).
  destruct (pw_pool _ _ _ PW) with (g := g) as (G & k & p & FG & IK & NP & SP & W & _ & OV & IL); [congruence|congruence|].
  apply find_in in FG as [FG1 FG2]. apply beq_eq in FG2. unfold PoolSpec.within in W. cbn [fst snd] in W.
  exists g, G, k, p. rewrite SZ. repeat (split; [solve [auto|lia|congruence|apply (pw_assigned _ _ _ PW); congruence]|]). auto.
Qed.
Lemma linked_memory : forall limit cf places out ss, config_ok cf -> cpu_config_ok limit cf -> Forall section_ok places ->
  assign_Process cf places = Ok out -> map sc_place ss = out -> Forall data_ok ss ->
  Forall (fun s => forall a d, loads s a d -> 0 <= a /\ a + zlen d < limit /\ zlen d = s_size (sc_place s) /\ bytes d) ss /\
  memory_disjoint ss.
Proof.
  intros limit cf places out ss CF [CL CD] SO A M DO. pose proof (linked_loads cf places out ss CF SO A M DO) as LL. split.
  - apply Forall_forall. intros s I a d L. destruct (LL s a d I L) as (g & G & k & p & _ & _ & _ & _ & NP & _ & _ & _ & _ & _ & SZ & BY & P1 & P2 & _).
    rewrite Forall_forall in CL. specialize (CL p (nth_error_In _ _ NP)). destruct CF as [CF _]. rewrite Forall_forall in CF.
    specialize (CF p (nth_error_In _ _ NP)). repeat split; auto; lia.
  - destruct (AssignProofs.assign_sound cf places out CF SO A) as (ss' & PM & F2 & DJ & _).
    assert (F : ForallOrdPairs (fun a b => forall k, in_pool k (sc_place a) = true -> in_pool k (sc_place b) = true ->
       forall x, PoolSpec.covers (s_cpuByteLocation (sc_place a), s_size (sc_place a)) x ->
                 PoolSpec.covers (s_cpuByteLocation (sc_place b), s_size (sc_place b)) x -> False) ss).
    { apply FOP_all. intro k. specialize (DJ k). unfold AssignSpec.ranges_in in DJ. apply disjoint_pairs in DJ. rewrite <- M in DJ.
      apply (FOP_map sc_place) in DJ. exact DJ. }
    revert F. apply FOP_impl_in. intros s t IS IT FP a d b e x LS LT XS XT.
    destruct (LL s a d IS LS) as (_ & _ & k & p & _ & _ & _ & _ & NP & SP & _ & _ & EA & _ & SZ & _ & P1 & P2 & _).
    destruct (LL t b e IT LT) as (_ & _ & k' & p' & _ & _ & _ & _ & NP' & SP' & _ & _ & EB & _ & SZ' & _ & P1' & P2' & _).
    destruct (Nat.eq_dec k k') as [<-|NE].
    + apply (FP k) with (x := x); unfold in_pool; rewrite ?SP, ?SP', ?Nat.eqb_refl; auto; unfold PoolSpec.covers; cbn [fst snd]; lia.
    + apply (CD k k' p p' x NE NP NP'); lia.
Qed.
Lemma linked_image_from : forall base cf places out ss, config_ok cf -> image_map base cf ss -> Forall section_ok places ->
  assign_Process cf places = Ok out -> map sc_place ss = out -> Forall data_ok ss -> Forall (image_from base) ss.
Proof.
  intros base cf places out ss CF IM SO A M DO. apply Forall_forall. intros s I a d L.
  destruct (linked_loads cf places out ss CF SO A M DO s a d I L)
    as (g & G & k & p & EG & IG & NG & IK & NP & SP & AS & U & EA & SD & SZ & BY & P1 & P2 & OV & IL).
  destruct (IM s g I) as (NB & IP); [congruence|auto|]. destruct (IP G k p IG NG IK NP) as (B1 & B2 & B3).
  destruct CF as [CF _]. rewrite Forall_forall in CF. specialize (CF p (nth_error_In _ _ NP)).
  repeat split; auto; try congruence; try lia; [eauto|]. destruct (p_image p =? -1) eqn:E; lia.
Qed.

(** ** Start addresses *)
Lemma find_exported : forall p name,
  (forall y, sect_FindExportedSymbol p name = Some y -> exported p name y) /\
  (sect_FindExportedSymbol p name = None -> forall y, ~ exported p name y).
Proof.
  intros p name. induction p as [|s p [IH1 IH2]]; cbn [sect_FindExportedSymbol].
  - split; [discriminate|]. intros _ y (s & [] & _).
  - unfold sectionHasSymbol. destruct (find (fun y => (ls_type y =? SYM_EXPORT) && beq (ls_name y) name) (sc_symbols s)) as [x|] eqn:E1.
    + split; [|discriminate]. intros y H. injection H as <-. apply find_some in E1 as [I E]. apply andb_true_iff in E as [T N].
      apply beq_eq in N. exists s. repeat split; auto; [left; auto|left; lia].
    + destruct (find (fun y => (ls_type y =? SYM_LINKER) && beq (ls_name y) name) (sc_symbols s)) as [x|] eqn:E2.
      * split; [|discriminate]. intros y H. injection H as <-. apply find_some in E2 as [I E]. apply andb_true_iff in E as [T N].
        apply beq_eq in N. exists s. repeat split; auto; [left; auto|right; lia].
      * split.
        -- intros y H. destruct (IH1 y H) as (t & I & R). exists t. split; [right; auto|auto].
        -- intros H y (t & [<-|I] & IY & N & T); [|apply (IH2 H y); exists t; auto].
           subst name. destruct T as [T|T].
           ++ pose proof (find_none _ _ E1 y IY) as X. cbn beta in X. rewrite T, Z.eqb_refl, beq_refl in X. discriminate.
           ++ pose proof (find_none _ _ E2 y IY) as X. cbn beta in X. rewrite T, Z.eqb_refl, beq_refl in X. discriminate.
Qed.
Lemma code_section_spec : forall s, code_section s <-> sc_used s && isText s = true.
Proof.
  intro s. unfold code_section, isText. change (sc_used s) with (s_used (sc_place s)). rewrite andb_true_iff. split.
  - intros (U & g & G & T). rewrite G. split; auto. lia.
  - intros (U & T). destruct (s_group (sc_place s)) as [g|]; [|discriminate]. split; auto. exists g. split; auto. lia.
Qed.
Lemma starts_found : forall p entry start, starts_at p entry start <-> 
  match entry with
  | Some name => (exists y, exported p name y) /\ forall y, exported p name y -> ls_value y = start
  | None => sect_StartAddressOfFirstCodeSection p = Ok start
  end.
Proof.
  intros p [name|] start; [reflexivity|]. cbn [starts_at]. split.
  - intros (before & s & after & -> & C & E & N). induction before as [|t before IH]; cbn [app sect_StartAddressOfFirstCodeSection].
    + apply code_section_spec in C. rewrite C. f_equal. exact E.
    + destruct (sc_used t && isText t) eqn:T; [exfalso; apply (N t); [left; auto|now apply code_section_spec]|].
      apply IH. intros u I. apply N. right; auto.
  - induction p as [|t p IH]; intro H; [discriminate|]. cbn [sect_StartAddressOfFirstCodeSection] in H.
    destruct (sc_used t && isText t) eqn:T.
    + injection H as H. exists [], t, p. split; auto. split; [now apply code_section_spec|]. split; [exact H|intros ? []].
    + destruct (IH H) as (before & s & after & -> & C & E & N). exists (t :: before), s, after. split; auto. split; auto. split; auto.
      intros u [<-|I]; [|auto]. intro X. apply code_section_spec in X. congruence.
Qed.
Lemma starts_start : forall p entry start, starts_at p entry start -> findStartAddress p entry = Ok start.
Proof.
  intros p entry start H. unfold findStartAddress. destruct entry as [name|].
  - destruct H as [(y & E) U]. destruct (find_exported p name) as [F1 F2]. destruct (sect_FindExportedSymbol p name) as [x|].
    + f_equal. apply U. now apply F1.
    + exfalso. eapply F2; eauto.
  - now apply starts_found in H.
Qed.
Lemma written_app : forall p q, written (p ++ q) = written p ++ written q.
Proof.
  induction p as [|s p IH]; intro q; [reflexivity|]. cbn [app written]. destruct (contents s); rewrite IH; reflexivity.
Qed.
Lemma last_written : forall p w, written p <> [] ->
  exists before s after a d, p = before ++ s :: after /\ loads s a d /\ (forall t b e, In t after -> ~ loads t b e) /\ last (written p) w = (a, d).
Proof.
  intros p w N. induction p as [|s p IH] using rev_ind; [contradiction|]. rewrite written_app in *. cbn [written] in *.
  destruct (contents s) as [[a d]|] eqn:C.
  - exists p, s, [], a, d. split; auto. split; auto. split; [intros ? ? ? []|]. now rewrite last_last.
  - rewrite app_nil_r in *. destruct (IH N) as (b & t & af & a & d & -> & L & NA & E).
    exists b, t, (af ++ [s]), a, d. rewrite <- app_assoc. split; auto. split; auto. split; [|auto].
    intros u c e I. apply in_app_or in I as [I|[<-|[]]]; [eauto|]. unfold loads. congruence.
Qed.
