(** Proofs about the linker's reader of ELF objects: making sections, symbols and patches. *)
From Coq Require Import String ZArith List Bool Lia ZifyBool ZifyNat Sorted.
From Verif Require Import Base BaseFacts Arith AssignModel LinkExprModel LinkModel LinkSpec ResolveProofs ObjModel
  MdefModel ElfModel ElfSpec ElfProofs ElfProofs2 ElfReadModel ElfReadSpec ElfReadProofs ElfReadProofs2.
Import ListNotations.
Open Scope string_scope.
Open Scope list_scope.
Open Scope Z_scope.

(** What the linker holds of a section but its symbols and patches. *)
Record shell (id fileId : Z) (t : esection) (s : lsect) : Prop := {
  sl_name : sc_name s = et_name t;
  sl_file : sc_fileId s = fileId /\ sc_root s = false /\ sc_lines s = [];
  sl_id : sc_id s = id;
  sl_group : s_group (sc_place s) = Some (group_of (et_kind t));
  sl_place : s_cpuLocation (sc_place s) = (if et_addr t =? 0 then -1 else s32 (et_addr t)) /\
             s_cpuByteLocation (sc_place s) = s_cpuLocation (sc_place s) /\ s_cpuBank (sc_place s) = -1 /\
             s_page (sc_place s) = -1 /\ s_minimumWordSize (sc_place s) = 1 /\
             s_used (sc_place s) = false /\ s_assigned (sc_place s) = false;
  sl_align : s_byteAlign (sc_place s) = (if 2 <=? et_align t then s32 (et_align t) else -1);
  sl_size : s_size (sc_place s) = et_size t;
  sl_data : sc_data s = match et_kind t with EBss => None | _ => if 0 <? et_size t then Some (et_data t) else None end }.
Lemma shell_symbols : forall id fileId t s ys, shell id fileId t s -> shell id fileId t (set_symbols s ys).
Proof. intros id fileId t s ys [A B C D E F G H]. split; auto. Qed.
Lemma shell_patches : forall id fileId t s ps, shell id fileId t s -> shell id fileId t (set_patches s ps).
Proof. intros id fileId t s ps [A B C D E F G H]. split; auto. Qed.

Lemma land_bits : forall v m, 0 <= m -> (forall n, 0 <= n -> Z.testbit m n = true -> Z.testbit v n = true) -> Z.land v m = m.
Proof.
  intros v m M H. apply Z.bits_inj'. intros n N. rewrite Z.land_spec. destruct (Z.testbit m n) eqn:E; [rewrite (H n N E); reflexivity|apply andb_false_r].
Qed.
Lemma has_flags_iff : forall h m, 0 <= m -> has_flags h m = true <-> forall n, 0 <= n -> Z.testbit m n = true -> Z.testbit (sh_flags h) n = true.
Proof.
  intros h m M. unfold has_flags. split.
  - intros E n N B. apply Z.eqb_eq in E. rewrite <- E, Z.land_spec in B. apply andb_prop in B. apply B.
  - intro H. apply Z.eqb_eq. apply land_bits; assumption.
Qed.
Lemma bit_cases : forall n, 0 <= n -> forall m, m = 6 \/ m = 3 \/ m = 2 -> Z.testbit m n = true -> n = 0 \/ n = 1 \/ n = 2.
Proof.
  intros n N m M B. destruct (Z_lt_le_dec n 3) as [L|L]; [lia|]. exfalso.
  assert (Q : Z.testbit m n = false).
  { destruct (Z.eq_dec m 0) as [->|D]; [apply Z.bits_0|]. apply Z.bits_above_log2; [lia|]. destruct M as [-> | [-> | ->]]; cbn; lia. }
  congruence.
Qed.
Lemma flags_6 : forall h, has_flags h (SHF_ALLOC + SHF_EXECINSTR) = Z.testbit (sh_flags h) 1 && Z.testbit (sh_flags h) 2.
Proof.
  intro h. change (SHF_ALLOC + SHF_EXECINSTR) with 6. apply eq_true_iff_eq. rewrite has_flags_iff by lia. split.
  - intro H. rewrite (H 1), (H 2); reflexivity || lia.
  - intros B n N M. apply andb_prop in B. destruct B as [B1 B2]. destruct (bit_cases n N 6 ltac:(auto) M) as [-> | [-> | ->]]; auto. discriminate.
Qed.
Lemma flags_3 : forall h, has_flags h (SHF_ALLOC + SHF_WRITE) = Z.testbit (sh_flags h) 1 && Z.testbit (sh_flags h) 0.
Proof.
  intro h. change (SHF_ALLOC + SHF_WRITE) with 3. apply eq_true_iff_eq. rewrite has_flags_iff by lia. split.
  - intro H. rewrite (H 1), (H 0); reflexivity || lia.
  - intros B n N M. apply andb_prop in B. destruct B as [B1 B2]. destruct (bit_cases n N 3 ltac:(auto) M) as [-> | [-> | ->]]; auto. discriminate.
Qed.
Lemma flags_2 : forall h, has_flags h SHF_ALLOC = Z.testbit (sh_flags h) 1.
Proof.
  intro h. change SHF_ALLOC with 2. apply eq_true_iff_eq. rewrite has_flags_iff by lia. split.
  - intro H. apply H; [lia|reflexivity].
  - intros B n N M. destruct (bit_cases n N 2 ltac:(auto) M) as [-> | [-> | ->]]; auto; discriminate.
Qed.
Lemma strings_bit : forall v, Z.testbit v 5 = true -> Z.land v 32 =? 0 = false.
Proof.
  intros v B. apply not_true_is_false. intro E. apply Z.eqb_eq in E. assert (Q : Z.testbit (Z.land v 32) 5 = false) by (rewrite E; reflexivity).
  rewrite Z.land_spec, B in Q. discriminate.
Qed.
Lemma sorted_lt : forall l, StronglySorted Z.lt l -> forall i j a b, (i < j)%nat -> nth_error l i = Some a -> nth_error l j = Some b -> a < b.
Proof.
  induction l as [|x l IH]; intros S0 i j a b L I J; [destruct i; discriminate|]. inversion S0 as [|? ? S1 FA]; subst.
  destruct j as [|j]; [lia|]. cbn in J. destruct i as [|i]; cbn in I.
  - injection I as <-. rewrite Forall_forall in FA. apply FA. apply nth_error_In in J. exact J.
  - apply (IH S1 i j); [lia|assumption|assumption].
Qed.
Lemma string_unique : forall t k a b, string_at t k a -> string_at t k b -> a = b.
Proof. intros t k a b A B. apply getString_ok in A, B. congruence. Qed.

Section Convert.
Variable big : bool.
Variable f : list Z.
Variable o : eobject.
Variable hs : list shdr.
Variable names : Z.
Variable hn : shdr.
Variable symtab : Z.
Variable hsym hstr : shdr.
Variable idx : list Z.
Hypothesis T : told big f o hs names hn symtab hsym hstr idx.
Hypothesis LF : zlen f < 2 ^ 32.
Hypothesis LK : linkable o.
Variable fileId base : Z.
Variable junk : nat -> nat -> Z * Z.
Variable R : list rhdr.
Hypothesis RL : length R = length hs.
Hypothesis RF : forall i h r, nth_error hs i = Some h -> nth_error R i = Some r -> final_header f o hn symtab idx h r.

Lemma both : forall i r, nth_error R i = Some r -> nth_error hs i = Some (rh_header r) /\ final_header f o hn symtab idx (rh_header r) r.
Proof.
  intros i r I. destruct (nth_error hs i) as [h|] eqn:E.
  - pose proof (RF _ _ _ E I) as Q. destruct Q as [Q1 Q2]. subst h. split; [reflexivity|]. split; [reflexivity|exact Q2].
  - apply nth_error_None in E. assert (i < length R)%nat by (apply nth_error_Some; congruence). lia.
Qed.
Lemma section_of : forall k i, nth_error idx k = Some i -> exists t h r, nth_error (eo_sections o) k = Some t /\ nth_error hs (Z.to_nat i) = Some h /\
  nth_error R (Z.to_nat i) = Some r /\ section_says f (contents f hn) h t /\ final_header f o hn symtab idx h r.
Proof.
  intros k i K. destruct (td_idx _ _ _ _ _ _ _ _ _ _ T) as [IL _]. destruct (nth_error (eo_sections o) k) as [t|] eqn:KT.
  2:{ apply nth_error_None in KT. assert (k < length idx)%nat by (apply nth_error_Some; congruence). lia. }
  destruct (td_sections _ _ _ _ _ _ _ _ _ _ T _ _ _ KT K) as [h [H SS]].
  destruct (nth_error R (Z.to_nat i)) as [r|] eqn:RI.
  2:{ apply nth_error_None in RI. assert (Z.to_nat i < length hs)%nat by (apply nth_error_Some; congruence). lia. }
  exists t, h, r. repeat (split; [first [reflexivity|assumption]|]). apply (RF _ _ _ H RI).
Qed.

(** ** Sections *)
Definition made (c : nat) (st : xstate) : Prop :=
  length (x_secs st) = c /\
  (forall k t, (k < c)%nat -> nth_error (eo_sections o) k = Some t -> exists s, nth_error (x_secs st) k = Some s /\
     shell (base + Z.of_nat k) fileId t s /\ sc_symbols s = [] /\ sc_patches s = []) /\
  (forall k i, (k < c)%nat -> nth_error idx k = Some i -> x_of st (Z.to_nat i) = Some k) /\
  x_handle st = (fun _ _ => None).
Definition progress (m : nat) (st : xstate) : Prop :=
  exists c, (forall k i, nth_error idx k = Some i -> (k < c)%nat <-> i < Z.of_nat m) /\ (c <= length idx)%nat /\ made c st.

Lemma new_shell : forall k t h r st d g, section_says f (contents f hn) h t -> final_header f o hn symtab idx h r -> length (x_secs st) = k ->
  zlen (et_name t) < 256 -> g = group_of (et_kind t) ->
  d = match et_kind t with EBss => None | _ => if 0 <? et_size t then Some (et_data t) else None end ->
  shell (base + Z.of_nat k) fileId t (newSection fileId base g r d st).
Proof.
  intros k t h r st d g [SN [SK [SA [SL [SZ SD]]]]] [FH [FN FD]] L NL -> ->.
  assert (NM : rh_name r = et_name t) by (apply (string_unique _ _ _ _ FN SN)).
  unfold newSection. cbv zeta. rewrite FH, SA, SL, SZ, NM.
  split; unfold sc_id; cbn [sc_place sc_name sc_fileId sc_root sc_lines sc_data s_id s_group s_cpuLocation s_cpuByteLocation s_cpuBank s_page s_minimumWordSize s_used s_assigned s_byteAlign s_size]; auto.
  - apply firstn_all2. unfold zlen in NL. lia.
  - unfold zlen. lia.
  - repeat split; reflexivity.
Qed.
Lemma made_more : forall c st st' s t i, made c st -> nth_error idx c = Some i -> nth_error (eo_sections o) c = Some t ->
  shell (base + Z.of_nat c) fileId t s -> sc_symbols s = [] -> sc_patches s = [] ->
  st' = XState (x_secs st ++ [s]) (upd1 (x_of st) (Z.to_nat i) (Some (length (x_secs st)))) (x_handle st) -> made (S c) st'.
Proof.
  intros c st st' s t i [L [MS [MO MH]]] I KT SH Y P ->. split; [|split; [|split]]; cbn [x_secs x_of x_handle].
  - rewrite app_length. cbn. lia.
  - intros k t' K KT'. destruct (Nat.eq_dec k c) as [->|D].
    + rewrite nth_error_app2 by lia. rewrite L, Nat.sub_diag. assert (t' = t) by congruence. subst t'. exists s. auto.
    + rewrite nth_error_app1 by lia. apply MS; [lia|exact KT'].
  - intros k i' K KI. unfold upd1. destruct (Nat.eq_dec k c) as [->|D].
    + assert (i' = i) by congruence. subst i'. rewrite Nat.eqb_refl. f_equal. exact L.
    + destruct (td_idx _ _ _ _ _ _ _ _ _ _ T) as [_ [IS IR]]. pose proof (sorted_lt _ IS k c i' i ltac:(lia) KI I) as Q.
      rewrite Forall_forall in IR. pose proof (IR _ (nth_error_In _ _ KI)) as Q1. destruct (Nat.eqb (Z.to_nat i') (Z.to_nat i)) eqn:E; [lia|]. apply MO; [lia|exact KI].
  - exact MH.
Qed.
Lemma sections_ok : exists st, foldr (sectionToXlink fileId base) (numbered R) (XState [] (fun _ => None) (fun _ _ => None)) = Ok st /\
  made (length (eo_sections o)) st.
Proof.
  destruct (td_idx _ _ _ _ _ _ _ _ _ _ T) as [IL [IS IR]].
  destruct (foldr_inv _ _ (sectionToXlink fileId base) progress (numbered R) (XState [] (fun _ => None) (fun _ _ => None))) as [st [E [c [C [CL M]]]]].
  - exists 0%nat. split; [|split; [lia|]].
    + intros k i K. rewrite Forall_forall in IR. pose proof (IR _ (nth_error_In _ _ K)). lia.
    + split; [reflexivity|]. split; [intros; lia|]. split; [intros; lia|reflexivity].
  - intros m [i r] st N [c [C [CL M]]]. apply numbered_nth in N. destruct N as [-> N]. destruct (both _ _ N) as [HH FH].
    set (h := rh_header r) in *.
    assert (SKIP : ~ In (Z.of_nat m) idx -> progress (S m) st).
    { intro NI. exists c. split; [|auto]. intros k i K. rewrite (C _ _ K). assert (i <> Z.of_nat m) by (intros ->; apply NI; apply nth_error_In in K; exact K). lia. }
    assert (MAKE : In (Z.of_nat m) idx -> nth_error idx c = Some (Z.of_nat m)).
    { intro I. apply In_nth_error in I. destruct I as [k K]. assert (NC : ~ (k < c)%nat) by (rewrite (C _ _ K); lia).
      destruct (Nat.eq_dec k c) as [->|D]; [exact K|]. destruct (nth_error idx c) as [i|] eqn:CI.
      - pose proof (sorted_lt _ IS c k i _ ltac:(lia) CI K) as Q. apply (C _ _ CI) in Q. lia.
      - apply nth_error_None in CI. assert (k < length idx)%nat by (apply nth_error_Some; congruence). lia. }
    assert (GROW : forall s, nth_error idx c = Some (Z.of_nat m) -> (forall t, nth_error (eo_sections o) c = Some t -> shell (base + Z.of_nat c) fileId t s) ->
        sc_symbols s = [] -> sc_patches s = [] ->
        progress (S m) (XState (x_secs st ++ [s]) (upd1 (x_of st) m (Some (length (x_secs st)))) (x_handle st))).
    { intros s CI SH Y P. exists (S c). split; [|split].
      - intros k i K. split; intro Q.
        + destruct (Nat.eq_dec k c) as [->|D]; [assert (i = Z.of_nat m) by congruence; lia|]. assert (k < c)%nat by lia. rewrite (C _ _ K) in H. lia.
        + destruct (Z.eq_dec i (Z.of_nat m)) as [->|D]; [|assert (k < c)%nat by (rewrite (C _ _ K); lia); lia].
          destruct (Nat.lt_trichotomy k c) as [G|[G|G]]; [lia|lia|]. pose proof (sorted_lt _ IS _ _ _ _ G CI K). lia.
      - assert (c < length idx)%nat by (apply nth_error_Some; congruence). lia.
      - destruct (section_of _ _ CI) as [t [_ [_ [KT _]]]]. apply (made_more c st _ s t (Z.of_nat m) M CI KT (SH _ KT) Y P).
        rewrite Nat2Z.id. reflexivity. }
    assert (SAYS : nth_error idx c = Some (Z.of_nat m) -> exists t, nth_error (eo_sections o) c = Some t /\ section_says f (contents f hn) h t /\ zlen (et_name t) < 256).
    { intro CI. destruct (section_of _ _ CI) as [t [h' [_ [KT [H' [_ [SS _]]]]]]]. rewrite Nat2Z.id in H'. assert (h' = h) by congruence. subst h'. exists t.
      repeat (split; [assumption|]). pose proof (lk_sections _ LK) as Q. rewrite Forall_forall in Q. apply (Q _ (nth_error_In _ _ KT)). }
    destruct M as [ML M']. pose proof FH as [_ [_ [FD1 _]]]. fold h in FD1.
    unfold sectionToXlink. fold h. cbv zeta. unfold SHT_PROGBITS, SHT_NOBITS. rewrite flags_6, flags_3, flags_2.
    destruct (sh_type h =? 1) eqn:T1.
    + destruct FD1 as [b [DB BC]]; [lia|].
      destruct (Z.testbit (sh_flags h) 1) eqn:B1; cbn [andb].
      * pose proof (MAKE (td_alloc _ _ _ _ _ _ _ _ _ _ T _ _ HH ltac:(lia) B1)) as CI. destruct (SAYS CI) as [t [KT [SS NL]]].
        pose proof SS as [_ [[_ KO] [_ [_ [SZ SD]]]]].
        assert (BD : et_kind t <> EBss -> b = et_data t) by (intro NB; rewrite (BC ltac:(lia) eq_refl); destruct (et_kind t); [apply SD|apply SD|congruence]).
        rewrite DB. destruct (Z.testbit (sh_flags h) 2) eqn:B2; (eexists; split; [reflexivity|]); (apply GROW; [exact CI| |reflexivity|reflexivity]);
          intros t' KT'; assert (t' = t) by congruence; subst t'; (apply (new_shell c t h r st); [exact SS|exact FH|exact ML|exact NL| |]).
        -- destruct (et_kind t); [reflexivity|destruct KO; congruence|destruct KO; lia].
        -- rewrite SZ. destruct (et_kind t); [rewrite BD by discriminate; reflexivity|destruct KO; congruence|destruct KO; lia].
        -- destruct (et_kind t); [destruct KO; congruence|reflexivity|destruct KO; lia].
        -- rewrite SZ. destruct (et_kind t); [destruct KO; congruence|rewrite BD by discriminate; reflexivity|destruct KO; lia].
      * assert (NI : ~ In (Z.of_nat m) idx).
        { intro I. destruct (SAYS (MAKE I)) as [t [_ [[_ [[Q _] _]] _]]]. congruence. }
        destruct (td_other _ _ _ _ _ _ _ _ _ _ T _ _ HH ltac:(lia) B1) as [Q|Q].
        -- rewrite Q. cbn. eexists. split; [reflexivity|auto].
        -- unfold SHF_STRINGS. rewrite (strings_bit _ Q). cbn [negb]. eexists. split; [reflexivity|auto].
    + destruct (sh_type h =? 8) eqn:T8.
      * pose proof (td_nobits _ _ _ _ _ _ _ _ _ _ T _ _ HH ltac:(lia)) as B1. rewrite B1. cbn [andb].
        pose proof (MAKE (td_alloc _ _ _ _ _ _ _ _ _ _ T _ _ HH ltac:(lia) B1)) as CI. destruct (SAYS CI) as [t [KT [SS NL]]].
        pose proof SS as [_ [[_ KO] _]]. destruct (et_kind t) eqn:KD; [destruct KO; lia|destruct KO; lia|]. destruct KO as [_ B0]. rewrite B0.
        eexists. split; [reflexivity|]. apply GROW; [exact CI| |reflexivity|reflexivity]. intros t' KT'. assert (t' = t) by congruence. subst t'.
        apply (new_shell c t h r st); [exact SS|exact FH|exact ML|exact NL|rewrite KD; reflexivity|rewrite KD; reflexivity].
      * assert (NI : ~ In (Z.of_nat m) idx).
        { intro I. destruct (SAYS (MAKE I)) as [t [_ [[_ [[_ Q] _]] _]]]. destruct (et_kind t); lia. }
        eexists. split; [reflexivity|auto].
  - exists st. split; [exact E|]. assert (c = length (eo_sections o)); [|subst c; exact M]. rewrite numbered_length in C.
    destruct (Nat.eq_dec c (length idx)) as [->|D]; [exact IL|]. destruct (nth_error idx c) as [i|] eqn:CI; [|apply nth_error_None in CI; lia].
    destruct (section_of _ _ CI) as [t [h [r [_ [_ [RI _]]]]]]. assert (Z.to_nat i < length R)%nat by (apply nth_error_Some; congruence).
    assert (c < c)%nat; [|lia]. apply (C _ _ CI). rewrite Forall_forall in IR. pose proof (IR _ (nth_error_In _ _ CI)). lia.
Qed.
End Convert.
