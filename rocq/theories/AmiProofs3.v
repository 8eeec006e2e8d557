(** Proofs about the assembler's Amiga output: sections and their memory. *)
From Coq Require Import ZArith List Bool Lia Permutation ZifyBool ZifyNat.
From Verif Require Import Base BaseFacts Arith ExprSpec ExprTree ExprModel ExprLayout ReduceProofs ObjWriteModel FileModel FileProofs AssignModel LinkModel HunkModel HunkSpec HunkProofs ElfModel ElfSpec ElfProofs AmiModel AmiSpec AmiProofs AmiProofs2.
Import ListNotations.
Open Scope Z_scope.

(** ** Memory *)
Definition adds (l : list (Z * Z)) (d : list Z) : list Z := fold_left (fun d x => put_long d (fst x) (long_at d (fst x) + snd x)) l d.
Definition far (a b : Z) : Prop := 4 <= Z.abs (a - b).
Lemma puts_done : forall l d, Forall (inside d) (map fst l) -> ForallOrdPairs far (map fst l) ->
  zlen (puts l d) = zlen d /\
  (forall o v, In (o, v) l -> long_at (puts l d) o = u32 v) /\
  (forall k, 0 <= k -> (forall o, In o (map fst l) -> ~ (o <= k < o + 4)) -> nth (Z.to_nat k) (puts l d) 0 = nth (Z.to_nat k) d 0) /\
  (forall x, 0 <= x -> (forall o, In o (map fst l) -> far o x) -> long_at (puts l d) x = long_at d x).
Proof.
  induction l as [|[o v] l IH]; intros d Fi FP.
  - split; [reflexivity|]. split; [intros ? ? []|]. split; reflexivity.
  - cbn [map fst] in *. inversion Fi as [|? ? [F0 F1] F2]; subst. inversion FP as [|? ? P1 P2]; subst. unfold puts. cbn [fold_left fst snd].
    set (d1 := put_long d o v). fold (puts l d1). assert (Z1 : zlen d1 = zlen d) by (apply put_long_length; auto).
    destruct (IH d1) as (A & B & C & E); [unfold inside in *; rewrite Z1; exact F2|exact P2|]. split; [lia|]. rewrite Forall_forall in P1. split; [|split].
    + intros o' v' [X|X]; [|apply (B _ _ X)]. injection X as <- <-. rewrite E; [unfold d1; now apply long_at_put|exact F0|].
      intros o2 I. specialize (P1 _ I). unfold far in *. lia.
    + intros k K N. rewrite C; [|exact K|intros o2 I; apply N; right; exact I]. unfold d1. rewrite nth_put_long by auto.
      specialize (N o (or_introl eq_refl)). assert ((o <=? k) && (k <? o + 4) = false) as -> by lia. reflexivity.
    + intros x X N. rewrite E; [|exact X|intros o2 I; apply N; right; exact I]. unfold d1. apply long_at_other; auto. apply (N o). left; auto.
Qed.
Lemma adds_done : forall l d, Forall (inside d) (map fst l) -> ForallOrdPairs far (map fst l) ->
  zlen (adds l d) = zlen d /\
  (forall o v, In (o, v) l -> long_at (adds l d) o = u32 (long_at d o + v)) /\
  (forall k, 0 <= k -> (forall o, In o (map fst l) -> ~ (o <= k < o + 4)) -> nth (Z.to_nat k) (adds l d) 0 = nth (Z.to_nat k) d 0) /\
  (forall x, 0 <= x -> (forall o, In o (map fst l) -> far o x) -> long_at (adds l d) x = long_at d x).
Proof.
  induction l as [|[o v] l IH]; intros d Fi FP.
  - split; [reflexivity|]. split; [intros ? ? []|]. split; reflexivity.
  - cbn [map fst] in *. inversion Fi as [|? ? [F0 F1] F2]; subst. inversion FP as [|? ? P1 P2]; subst. unfold adds. cbn [fold_left fst snd].
    set (d1 := put_long d o (long_at d o + v)). fold (adds l d1). assert (Z1 : zlen d1 = zlen d) by (apply put_long_length; auto).
    destruct (IH d1) as (A & B & C & E); [unfold inside in *; rewrite Z1; exact F2|exact P2|]. split; [lia|]. rewrite Forall_forall in P1, F2. split; [|split].
    + intros o' v' [X|X].
      * injection X as <- <-. rewrite E; [unfold d1; now apply long_at_put|exact F0|]. intros o2 I. specialize (P1 _ I). unfold far in *. lia.
      * rewrite (B _ _ X). f_equal. f_equal. unfold d1. assert (I : In o' (map fst l)) by (apply (in_map fst) in X; exact X). destruct (F2 _ I) as [X0 X1].
        apply long_at_other; auto. specialize (P1 _ I). unfold far in *. lia.
    + intros k K N. rewrite C; [|exact K|intros o2 I; apply N; right; exact I]. unfold d1. rewrite nth_put_long by auto.
      specialize (N o (or_introl eq_refl)). assert ((o <=? k) && (k <? o + 4) = false) as -> by lia. reflexivity.
    + intros x X N. rewrite E; [|exact X|intros o2 I; apply N; right; exact I]. unfold d1. apply long_at_other; auto. apply (N o). left; auto.
Qed.
Lemma FOP_map : forall {A B} (f : A -> B) (R : B -> B -> Prop) l, ForallOrdPairs (fun a b => R (f a) (f b)) l -> ForallOrdPairs R (map f l).
Proof. intros A B f R l H. induction H; cbn [map]; constructor; auto. apply Forall_map. assumption. Qed.

Section Memory.
Variable F : fmath.
Variable A : astate.

Fixpoint reloc_adds (base : nat -> Z) (k : nat) (per : list (list apatch)) : list (Z * Z) :=
  match per with [] => [] | ps :: r => map (fun p => (ap_offset p, base k)) ps ++ reloc_adds base (S k) r end.
Lemma reloc_adds_relocate : forall base per k d, relocs_on (fun t => base (Z.to_nat t)) (flat (Z.of_nat k) (map (map ap_offset) per)) d = adds (reloc_adds base k per) d.
Proof.
  intros base. induction per as [|ps per IH]; intros k d; [reflexivity|]. cbn [map flat reloc_adds].
  replace (Z.of_nat k + 1) with (Z.of_nat (S k)) by lia. revert d. induction ps as [|p ps IHp]; intro d; [apply IH|].
  cbn [map app]. unfold relocs_on, adds. cbn [fold_left fst snd]. rewrite Nat2Z.id. apply IHp.
Qed.
Definition refs_of (blocks : list block) : list (list Z * Z) := concat (map (fun b => map (fun o => (fst b, o)) (map ap_offset (snd b))) blocks).
Definition import_adds (value : list Z -> Z) (blocks : list block) : list (Z * Z) := map (fun r => (snd r, value (fst r))) (refs_of blocks).
Lemma import_adds_linked : forall value refs d,
  fold_left (fun d r => put_long d (snd r) (long_at d (snd r) + value (fst r))) refs d = adds (map (fun r : list Z * Z => (snd r, value (fst r))) refs) d.
Proof. intros value. induction refs as [|r refs IH]; intro d; [reflexivity|]. cbn [map fold_left]. apply IH. Qed.

Lemma reloc_puts_fst : forall per k, map fst (reloc_puts A k per) = map ap_offset (concat per).
Proof. induction per as [|ps per IH]; intro k; [reflexivity|]. cbn [reloc_puts concat]. rewrite !map_app, IH, map_map. reflexivity. Qed.
Lemma reloc_adds_fst : forall base per k, map fst (reloc_adds base k per) = map ap_offset (concat per).
Proof. intros base. induction per as [|ps per IH]; intro k; [reflexivity|]. cbn [reloc_adds concat]. rewrite !map_app, IH, map_map. reflexivity. Qed.
Lemma import_adds_fst : forall value blocks, map fst (import_adds value blocks) = map ap_offset (concat (map snd blocks)).
Proof.
  intros value. unfold import_adds, refs_of. induction blocks as [|b blocks IH]; [reflexivity|]. cbn [map concat]. rewrite !map_app, IH, !map_map. reflexivity.
Qed.
Lemma in_per : forall per k p, In p (concat per) -> exists i ps, nth_error per i = Some ps /\ In p ps /\
  In (ap_offset p, reloc_value A (k + i) p) (reloc_puts A k per) /\ forall base, In (ap_offset p, base (k + i)%nat) (reloc_adds base k per).
Proof.
  induction per as [|ps per IH]; intros k p I; [destruct I|]. cbn [concat] in I. apply in_app_or in I as [I|I].
  - exists 0%nat, ps. rewrite Nat.add_0_r. split; [reflexivity|]. split; [exact I|]. cbn [reloc_puts reloc_adds]. split.
    + apply in_or_app. left. apply (in_map (reloc_put A k)) in I. exact I.
    + intro base. apply in_or_app. left. apply (in_map (fun p => (ap_offset p, base k))) in I. exact I.
  - destruct (IH (S k) p I) as (i & qs & N & Q & P1 & P2). exists (S i), qs. rewrite Nat.add_succ_r. split; [exact N|]. split; [exact Q|].
    cbn [reloc_puts reloc_adds]. split; [|intro base]; apply in_or_app; right; [exact P1|apply P2].
Qed.
Lemma in_blocks : forall blocks p, In p (concat (map snd blocks)) -> exists b, In b blocks /\ In p (snd b) /\
  forall value, In (ap_offset p, value (fst b)) (import_adds value blocks).
Proof.
  intros blocks p I. apply in_concat in I as (ps & I1 & I2). apply in_map_iff in I1 as (b & <- & B). exists b. split; [exact B|]. split; [exact I2|].
  intro value. unfold import_adds. apply in_map_iff. exists (fst b, ap_offset p). split; [reflexivity|]. unfold refs_of. apply in_concat.
  eexists. split; [apply in_map_iff; exists b; split; [reflexivity|exact B]|]. apply in_map_iff. exists (ap_offset p). split; [reflexivity|]. apply in_map, I2.
Qed.

Lemma symbol_there : forall s, isImport A s = true -> exists y, nth_error (as_symbols A) s = Some y /\ imported y = true.
Proof.
  intros s H. unfold isImport, symbolOf in H. destruct (nth_error (as_symbols A) s) as [y|] eqn:N; [|discriminate]. exists y. split; [reflexivity|].
  unfold imported. destruct (y_type (ay_sym y)); try discriminate; reflexivity.
Qed.

(** The memory of a section whose patches are [per] and [blocks]. *)
Lemma memory_ok : forall w per blocks body base E value,
  Permutation (concat per ++ concat (map snd blocks)) (ws_patches w) ->
  (forall i ps, nth_error per i = Some ps -> Forall (relative A i) ps) -> Forall (block_ok A) blocks ->
  Forall (fun p => inside body (ap_offset p) /\ opf (ap_expr p)) (ws_patches w) ->
  (blocks <> [] -> Forall (fun p => adds_only (ap_expr p)) (ws_patches w)) ->
  ForallOrdPairs (fun p q => 4 <= Z.abs (ap_offset p - ap_offset q)) (ws_patches w) ->
  (forall i, 0 <= i < zlen body -> nth (Z.to_nat i) body 0 = nth (Z.to_nat i) (ws_data w) 0) ->
  env_ok (worldOf A) base E ->
  (blocks <> [] -> forall s y, nth_error (as_symbols A) s = Some y -> imported y = true -> e_sym E s = value (ay_name y)) ->
  let m := adds (import_adds value blocks) (adds (reloc_adds base 0 per) (puts (map (import_put A) (concat (map snd blocks))) (puts (reloc_puts A 0 per) body))) in
  zlen m = zlen body /\ holds F E w m.
Proof.
  intros w per blocks body base E value P R BO FI AO AP BODY EN VAL m.
  set (L := reloc_puts A 0 per ++ map (import_put A) (concat (map snd blocks))). set (M := reloc_adds base 0 per ++ import_adds value blocks).
  assert (ML : map fst L = map ap_offset (concat per ++ concat (map snd blocks))).
  { unfold L. rewrite !map_app, reloc_puts_fst, map_map. reflexivity. }
  assert (MM : map fst M = map ap_offset (concat per ++ concat (map snd blocks))).
  { unfold M. rewrite !map_app, reloc_adds_fst, import_adds_fst. reflexivity. }
  assert (mE : m = adds M (puts L body)). { unfold m, M, L, adds at 3, puts at 3. rewrite !fold_left_app. reflexivity. }
  set (offs := map ap_offset (concat per ++ concat (map snd blocks))) in *.
  assert (PO : Permutation (map ap_offset (ws_patches w)) offs) by (apply Permutation_sym, Permutation_map, P).
  assert (OI : Forall (inside body) offs).
  { rewrite <- PO. apply Forall_map. eapply Forall_impl; [|exact FI]. cbn. tauto. }
  assert (OF : ForallOrdPairs far offs).
  { apply (FOP_perm far) with (l := map ap_offset (ws_patches w)); [unfold far; intros; lia|exact PO|]. apply FOP_map. exact AP. }
  destruct (puts_done L body) as (P1 & P2 & P3 & P4); [rewrite ML; exact OI|rewrite ML; exact OF|].
  destruct (adds_done M (puts L body)) as (A1 & A2 & A3 & A4); [rewrite MM; unfold inside in *; rewrite P1; exact OI|rewrite MM; exact OF|].
  rewrite mE. clearbody m. rewrite ML in *. rewrite MM in *. split; [lia|]. split.
  - intros i I N. rewrite A1, P1 in I.
    assert (NO : forall o, In o offs -> ~ (o <= i < o + 4)).
    { intros o O Q. apply N. rewrite <- PO in O. apply in_map_iff in O as (p & <- & O). exists p. auto. }
    rewrite A3, P3 by (try lia; exact NO). apply BODY. lia.
  - intros p x I D. pose proof I as I'. rewrite <- P in I'. rewrite Forall_forall in FI. destruct (FI p I) as [_ OP].
    assert (X : exists v a, In (ap_offset p, v) L /\ In (ap_offset p, a) M /\ u32 (v + a) = u32 x).
    { apply in_app_or in I' as [I'|I'].
      - destruct (in_per per 0 p I') as (i & ps & N & Q & Q1 & Q2). cbn [Nat.add] in *. exists (reloc_value A i p), (base i).
        split; [apply in_or_app; left; exact Q1|]. split; [apply in_or_app; left; apply Q2|].
        specialize (R i ps N). rewrite Forall_forall in R. destruct (R p Q) as (a & v & NA & G). unfold reloc_value. rewrite NA, G.
        rewrite (section_offset_ok F (worldOf A) base E EN (ap_expr p) i a v x OP NA G D). rewrite Z.add_comm, u32_add_r. f_equal. lia.
      - destruct (in_blocks blocks p I') as (b & B & Q & Q1). assert (NB : blocks <> []) by (intros ->; destruct B).
        exists (import_value A p), (value (fst b)).
        split; [apply in_or_app; right; apply (in_map (import_put A)) in I'; exact I'|]. split; [apply in_or_app; right; apply Q1|].
        rewrite Forall_forall in BO. destruct (BO b B) as (s & y & Y & NM & _ & RF). rewrite Forall_forall in RF. specialize (RF p Q).
        unfold refers in RF. unfold import_value. destruct (expr_GetImportOffset A (ap_expr p)) as [[v s']|] eqn:G; [|discriminate].
        apply Nat.eqb_eq in RF. subst s'. specialize (AO NB). rewrite Forall_forall in AO. destruct (import_means F A (ap_expr p) OP (AO p I) v s G) as [_ DE].
        rewrite (DE E x D). apply import_symbolic in G as [IM _]. destruct (symbol_there s IM) as (y' & Y' & IMP). rewrite Y in Y'. injection Y' as <-.
        rewrite (VAL NB s y Y IMP), NM. f_equal. lia. }
    destruct X as (v & a & X1 & X2 & X3). rewrite (A2 _ _ X2), (P2 _ _ X1). rewrite <- X3. rewrite Z.add_comm, u32_add_r. f_equal. lia.
Qed.
End Memory.
