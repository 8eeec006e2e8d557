(** Proofs about the linker's reader of ELF objects: what relocations refer to. *)
From Coq Require Import String ZArith List Bool Lia ZifyBool ZifyNat Sorted.
From Verif Require Import Base BaseFacts Arith AssignModel LinkExprModel LinkModel LinkSpec LinkProps ResolveProofs ObjModel
  MdefModel ElfModel ElfSpec ElfProofs ElfProofs2 ElfReadModel ElfReadSpec ElfReadProofs ElfReadProofs2 ElfReadProofs3 ElfReadProofs4 ElfReadProofs5.
Import ListNotations.
Open Scope string_scope.
Open Scope list_scope.
Open Scope Z_scope.

(** ** Symbols are attached to the section they are listed in *)
Lemma foldr_keeps : forall A B (g : A -> B -> res B) (P : B -> Prop) l b b', (forall a b b', g a b = Ok b' -> P b -> P b') ->
  foldr g l b = Ok b' -> P b -> P b'.
Proof.
  intros A B g P. induction l as [|a l IH]; intros b b' K E H; cbn [foldr] in E; [injection E as <-; exact H|].
  destruct (g a b) as [b1| |] eqn:Q; cbn [bind] in E; try discriminate. apply (IH b1 b' K E). apply (K _ _ _ Q H).
Qed.
Definition attached (st : xstate) : Prop := Forall (fun s => Forall (fun x => ls_section x = Some (sc_id s)) (sc_symbols s)) (x_secs st).
Lemma Forall_set_nth : forall A (P : A -> Prop) l k v, Forall P l -> P v -> Forall P (set_nth l k v).
Proof. intros A P l k v H V. revert k. induction H as [|a l PA H IH]; intros [|k]; cbn [set_nth]; constructor; auto. Qed.
Lemma Forall_nth_error : forall A (P : A -> Prop) l k v, Forall P l -> nth_error l k = Some v -> P v.
Proof. intros A P l k v H N. rewrite Forall_forall in H. apply H. apply nth_error_In in N. exact N. Qed.
Lemma attached_section : forall fileId base ih st st', sectionToXlink fileId base ih st = Ok st' -> attached st -> attached st'.
Proof.
  intros fileId base [i h] st st' E H. unfold sectionToXlink in E. cbv zeta in E.
  assert (M : forall g d, attached (XState (x_secs st ++ [newSection fileId base g h d st]) (upd1 (x_of st) i (Some (length (x_secs st)))) (x_handle st))).
  { intros g d. unfold attached. cbn [x_secs]. apply Forall_app. split; [exact H|]. constructor; [constructor|constructor]. }
  repeat match type of E with (if ?c then _ else _) = _ => destruct c end; try discriminate; injection E as <-; try exact H; apply M.
Qed.
Lemma attached_add : forall junk k y type r st st' hd, addElfSymbol junk k y type r st = Ok (st', hd) -> attached st -> attached st'.
Proof.
  intros junk k y type r st st' hd E H. unfold addElfSymbol in E. destruct (nth_error (x_secs st) k) as [s|] eqn:N; [|discriminate].
  destruct (255 <=? _); [discriminate|]. injection E as <- _. unfold attached in *. cbn [x_secs]. apply Forall_set_nth; [exact H|].
  pose proof (Forall_nth_error _ _ _ _ _ H N) as HS. cbn beta in HS. unfold set_symbols, sc_id in *. cbn [sc_symbols sc_place]. apply Forall_app. split; [exact HS|].
  constructor; [reflexivity|constructor].
Qed.
Ltac add_step E H := match type of E with context [addElfSymbol ?a ?b ?c ?d ?e ?st] =>
  let Q := fresh in destruct (addElfSymbol a b c d e st) as [[? ?]| |] eqn:Q; cbn [bind] in E; try discriminate; apply attached_add in Q; [|exact H] end.
Lemma attached_symbol : forall junk hs t info jy st st', symbolToXlink junk hs t info jy st = Ok st' -> attached st -> attached st'.
Proof.
  intros junk hs t info [j y] st st' E H. unfold symbolToXlink in E. destruct (_ <? info).
  - destruct (Nat.eqb j 0); [injection E as <-; exact H|]. unfold localToXlink in E. destruct (rs_section y); [|injection E as <-; exact H].
    destruct (xlinkSection _ _ _) as [[k|]| |]; cbn [bind] in E; try discriminate; [|injection E as <-; exact H]. destruct (_ && _); [injection E as <-; exact H|].
    add_step E H. injection E as <-. assumption.
  - unfold globalToXlink in E. destruct (_ =? 0); [injection E as <-; exact H|]. destruct (_ =? SHN_UNDEF); [injection E as <-; exact H|].
    destruct (rs_section y); [|discriminate]. destruct (xlinkSection _ _ _) as [[k|]| |]; cbn [bind] in E; try discriminate. add_step E H. injection E as <-. assumption.
Qed.
Lemma attached_patches : forall st k s ps o h, attached st -> nth_error (x_secs st) k = Some s -> attached (XState (set_nth (x_secs st) k (set_patches s ps)) o h).
Proof.
  intros st k s ps o h H N. unfold attached in *. cbn [x_secs]. apply Forall_set_nth; [exact H|]. pose proof (Forall_nth_error _ _ _ _ _ H N) as HS. exact HS.
Qed.
Lemma attached_reloc : forall junk i t k ys r st st', relocToXlink junk i t k ys r st = Ok st' -> attached st -> attached st'.
Proof.
  intros junk i t k ys r st st' E H. unfold relocToXlink in E. destruct (_ && _); [discriminate|]. cbv zeta in E. destruct (_ =? 0); [discriminate|].
  destruct (nth_error ys _) as [y|]; [|discriminate].
  match type of E with bind ?m _ = _ => destruct m as [[st1 hd]| |] eqn:M; cbn [bind] in E; try discriminate end.
  assert (A1 : attached st1).
  { destruct (x_handle st t _) as [hd'|].
    - destruct (match rs_section y with Some _ => _ | None => _ end); [injection M as <- _; exact H|]. add_step M H. injection M as <- _. assumption.
    - destruct (_ =? SHN_UNDEF); [add_step M H; injection M as <- _; assumption|].
      destruct (match rs_section y with Some _ => _ | None => _ end); add_step M H; injection M as <- _; assumption. }
  destruct (nth_error (x_secs st1) k) as [s|] eqn:N; [|discriminate]. destruct (_ <=? _); [discriminate|]. injection E as <-. apply attached_patches; assumption.
Qed.
Lemma attached_all : forall fileId base junk hs st, elfToXlink fileId base junk hs = Ok st -> attached st.
Proof.
  intros fileId base junk hs st E. unfold elfToXlink in E.
  destruct (foldr (sectionToXlink fileId base) _ _) as [st1| |] eqn:E1; cbn [bind] in E; try discriminate.
  destruct (foldr (symbolsToXlink junk hs) _ _) as [st2| |] eqn:E2; cbn [bind] in E; try discriminate.
  assert (A1 : attached st1) by (apply (foldr_keeps _ _ _ attached _ _ _ (attached_section fileId base) E1); constructor).
  assert (A2 : attached st2).
  { apply (foldr_keeps _ _ _ attached _ _ _) with (2 := E2); [|exact A1]. intros [t h] b b' Q H. unfold symbolsToXlink in Q.
    destruct (rh_data h) as [|?|?|ys|?|? ? ?]; try (injection Q as <-; exact H). cbv zeta in Q. destruct (_ && _); [discriminate|].
    apply (foldr_keeps _ _ _ attached _ _ _ (attached_symbol junk hs t _) Q H). }
  apply (foldr_keeps _ _ _ attached _ _ _) with (2 := E); [|exact A2]. intros h b b' Q H. unfold relasToXlink in Q.
  destruct (rh_data h) as [|?|?|ys|?|[i|] t rs]; try (injection Q as <-; exact H); try discriminate.
  destruct (nth_error hs i) as [p|]; [|discriminate]. destruct (_ && _); [|injection Q as <-; exact H]. destruct (x_of b i) as [k|]; [|discriminate].
  unfold relocsToXlink in Q. destruct (nth_error (x_secs b) k) as [s|] eqn:N; [|discriminate]. destruct (nth_error hs t) as [th|]; [|discriminate]. cbv zeta in Q.
  apply (foldr_keeps _ _ _ attached _ _ _ (attached_reloc junk i t k _) Q). apply attached_patches; assumption.
Qed.
Lemma sections_attached : forall fileId base junk f secs, elf_Sections fileId base junk f = Ok secs ->
  Forall (fun s => Forall (fun x => ls_section x = Some (sc_id s)) (sc_symbols s)) secs.
Proof.
  intros fileId base junk f secs E. unfold elf_Sections in E.
  destruct (readHeader f) as [[[[[big off] es] tot] str]| |]; cbn [bind] in E; try discriminate.
  destruct (readSectionHeaders _ _ _ _ _) as [hs| |]; cbn [bind] in E; try discriminate.
  destruct (mapr _ hs) as [rs| |]; cbn [bind] in E; try discriminate. destruct (resolveNamesAndIndices _ _ _) as [hs1| |]; cbn [bind] in E; try discriminate.
  destruct (elfToXlink _ _ _ _) as [st| |] eqn:Q; cbn [bind] in E; try discriminate. injection E as <-. apply attached_all in Q. exact Q.
Qed.

(** ** What a name finds *)
Section Names.
Variable o : eobject.
Variable id : nat -> Z.
Variable fileId : Z.
Variable secs : list lsect.
Variable p : program.
Variable pos : nat -> nat.
Hypothesis SL : length secs = length (eo_sections o).
Hypothesis HL : forall k t, nth_error (eo_sections o) k = Some t -> exists s, nth_error secs k = Some s /\ holds_section o (id k) fileId k t s.
Hypothesis LI : linked_in fileId secs p pos.
Hypothesis ND : NoDup (map ey_name (filter in_section (eo_symbols o))).

Lemma NoDup_sub : forall k, NoDup (map ey_name (filter (defined_in k) (eo_symbols o))).
Proof.
  intro k. revert ND. generalize (eo_symbols o). induction l as [|y l IH]; intro N; [constructor|]. cbn [filter] in *. unfold in_section, defined_in in *. destruct (ey_where y) as [| |k'] eqn:W.
  - apply IH, N.
  - apply IH, N.
  - cbn [map] in N. inversion N as [|? ? NI N1]; subst. destruct (Nat.eqb k' k); [|apply IH, N1]. cbn [map]. constructor; [|apply IH, N1].
    intro I. apply NI. apply in_map_iff in I. destruct I as [y' [E I]]. apply in_map_iff. exists y'. split; [exact E|]. apply filter_In in I. destruct I as [I D].
    apply filter_In. split; [exact I|]. destruct (ey_where y'); try discriminate. reflexivity.
Qed.
Lemma NoDup_map_inj : forall A B (g : A -> B) l a b, NoDup (map g l) -> In a l -> In b l -> g a = g b -> a = b.
Proof.
  intros A B g. induction l as [|x l IH]; intros a b N IA IB E; [destruct IA|]. inversion N as [|? ? NI N1]; subst. destruct IA as [->|IA]; destruct IB as [->|IB]; auto.
  - exfalso. apply NI. rewrite E. apply in_map. exact IB.
  - exfalso. apply NI. rewrite <- E. apply in_map. exact IA.
Qed.
(** A definition in section [k] of the object stands for a symbol of section [k]. *)
Lemma definition_of : forall k t s x, nth_error (eo_sections o) k = Some t -> nth_error secs k = Some s -> In x (sc_symbols s) -> is_definition x = true ->
  exists y, In y (filter (defined_in k) (eo_symbols o)) /\ stands_for_symbol y x.
Proof.
  intros k t s x KT KS I D. destruct (HL _ _ KT) as [s' [KS' H]]. assert (s' = s) by congruence. subst s'.
  assert (I' : In x (filter is_definition (sc_symbols s))) by (apply filter_In; auto). apply In_nth_error in I'. destruct I' as [n N].
  destruct (Forall2_nth' _ _ _ _ _ (hl_symbols _ _ _ _ _ _ H) _ _ N) as [y [Y ST]]. exists y. split; [apply nth_error_In in Y; exact Y|exact ST].
Qed.
Lemma names_of : forall k t s, nth_error (eo_sections o) k = Some t -> nth_error secs k = Some s -> NoDup (map ls_name (filter is_definition (sc_symbols s))).
Proof.
  intros k t s KT KS. destruct (HL _ _ KT) as [s' [KS' H]]. assert (s' = s) by congruence. subst s'. pose proof (hl_symbols _ _ _ _ _ _ H) as F.
  replace (map ls_name (filter is_definition (sc_symbols s))) with (map ey_name (filter (defined_in k) (eo_symbols o))); [apply NoDup_sub|].
  induction F as [|y x l m [E _] F IH]; [reflexivity|]. cbn [map]. rewrite IH, E. reflexivity.
Qed.
Lemma is_def_iff : forall x, (ls_type x = SYM_LOCALEXPORT \/ ls_type x = SYM_EXPORT) <-> is_definition x = true.
Proof. intro x. unfold is_definition. split; [intros [->| ->]; reflexivity|]. intro H. apply orb_prop in H. destruct H; [right|left]; lia. Qed.
Lemma section_there : forall k s, nth_error secs k = Some s -> exists t, nth_error (eo_sections o) k = Some t /\ holds_section o (id k) fileId k t s.
Proof.
  intros k s KS. destruct (nth_error (eo_sections o) k) as [t|] eqn:KT.
  - exists t. split; [reflexivity|]. destruct (HL _ _ KT) as [s' [KS' H]]. congruence.
  - apply nth_error_None in KT. assert (k < length secs)%nat by (apply nth_error_Some; congruence). lia.
Qed.

Lemma local_first : forall k y d x, ey_where y = Within k -> In y (eo_symbols o) -> nth_error p (pos k) = Some d -> sc_used d = true -> sc_fileId d = fileId ->
  In x (sc_symbols d) -> stands_for_symbol y x ->
  first_symbol (fun d' => sc_used d' = true /\ sc_fileId d' = fileId)
    (fun x' => (ls_type x' = SYM_LOCALEXPORT \/ ls_type x' = SYM_EXPORT) /\ ls_name x' = ey_name y) p d x.
Proof.
  intros k y d x W IY PD U FD IX ST. destruct (nth_error_split _ _ PD) as [q1 [q2 [QE QL]]]. destruct (in_split _ _ IX) as [ys1 [ys2 YE]].
  assert (DX : is_definition x = true) by (apply is_def_iff; destruct ST as [_ [_ [_ ->]]]; destruct (ey_global y); auto).
  destruct (li_only _ _ _ _ LI _ _ PD FD) as [k0 [s0 [K0 P0]]].
  assert (YK : In y (filter in_section (eo_symbols o))) by (apply filter_In; split; [exact IY|unfold in_section; rewrite W; reflexivity]).
  destruct (section_there _ _ K0) as [t0 [KT0 H0]]. destruct (li_there _ _ _ _ LI _ _ K0) as [d' [PD' [SY _]]]. rewrite <- P0 in PD'. assert (d' = d) by congruence. subst d'.
  exists q1, q2, ys1, ys2. split; [exact QE|]. split; [exact YE|]. split; [auto|]. split; [split; [apply is_def_iff; exact DX|apply ST]|]. split.
  - intros x' I' [T' N']. pose proof (names_of _ _ _ KT0 K0) as NN. rewrite <- SY, YE, filter_app in NN. cbn [filter] in NN. rewrite DX, map_app in NN. cbn [map] in NN.
    apply NoDup_remove_2 in NN. apply NN. apply in_or_app. left. destruct ST as [SN _]. rewrite SN, <- N'. apply in_map. apply filter_In. split; [exact I'|]. apply is_def_iff. exact T'.
  - intros d' x' ID [_ FD'] IX' [T' N']. apply In_nth_error in ID. destruct ID as [i' I'].
    assert (L' : (i' < length q1)%nat) by (apply nth_error_Some; congruence).
    assert (PI : nth_error p i' = Some d') by (rewrite QE, nth_error_app1; assumption).
    destruct (li_only _ _ _ _ LI _ _ PI FD') as [k2 [s2 [K2 P2]]]. destruct (section_there _ _ K2) as [t2 [KT2 H2]]. destruct (li_there _ _ _ _ LI _ _ K2) as [d2 [PD2 [SY2 _]]].
    rewrite <- P2 in PD2. assert (d2 = d') by congruence. subst d2. rewrite SY2 in IX'. destruct (definition_of _ _ _ _ KT2 K2 IX') as [y2 [IY2 ST2]]; [apply is_def_iff; exact T'|].
    apply filter_In in IY2. destruct IY2 as [IY2 D2]. unfold defined_in in D2. destruct (ey_where y2) as [| |k3] eqn:W2; try discriminate.
    assert (y2 = y). { apply (NoDup_map_inj _ _ _ _ _ _ ND); [apply filter_In; split; [exact IY2|unfold in_section; rewrite W2; reflexivity]|exact YK|]. destruct ST2 as [<- _]. exact N'. }
    subst y2. assert (k3 = k) by congruence. subst k3. assert (k2 = k) by lia. subst k2. lia.
Qed.
End Names.
