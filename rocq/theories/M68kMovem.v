(** Proofs for C71. *)
From Coq Require Import ZArith List Bool Lia ZifyBool.
From Verif Require Import Base BaseFacts Arith ExprSpec ExprModel OptModel SectModel SectSpec InstrSpec InstrProofs X65Spec.
From Verif Require X65Run X65Proofs.
From Verif Require Import M68kModel M68kMovemModel M68kMovemSpec.
Import ListNotations.
Open Scope list_scope.
Open Scope Z_scope.

Lemma u16_bit : forall v k, 0 <= k < 16 -> Z.testbit (u16 v) k = Z.testbit v k.
Proof. intros v k K. unfold u16. change 65536 with (2 ^ 16). rewrite Z.mod_pow2_bits_low by lia. reflexivity. Qed.
Lemma u16_range : forall v, 0 <= u16 v < 65536.
Proof. intro v. unfold u16. apply Z.mod_pos_bound. lia. Qed.
Lemma one_bit : forall i k, 0 <= i -> 0 <= k -> Z.testbit (Z.shiftl 1 i) k = (k =? i).
Proof.
  intros i k I K. rewrite Z.shiftl_1_l. destruct (Z.eqb_spec k i) as [->|N]; [apply Z.pow2_bits_true; lia|].
  apply Z.pow2_bits_false. lia.
Qed.
Lemma is_bit : forall m i, 0 <= i -> (Z.land m (Z.shiftl 1 i) =? 0) = negb (Z.testbit m i).
Proof.
  intros m i I. destruct (Z.testbit m i) eqn:B.
  - apply Z.eqb_neq. intro E. apply (f_equal (fun x => Z.testbit x i)) in E.
    rewrite Z.land_spec, B, one_bit, Z.eqb_refl, Z.bits_0 in E by lia. discriminate.
  - apply Z.eqb_eq. apply Z.bits_inj'. intros k K. rewrite Z.land_spec, one_bit, Z.bits_0 by lia.
    destruct (Z.eqb_spec k i) as [->|]; [rewrite B; reflexivity|apply andb_false_r].
Qed.

(** ** Masks *)
Lemma set_bits_bit : forall n start r k, 0 <= start -> start + Z.of_nat n <= 16 -> 0 <= k < 16 ->
  Z.testbit (set_bits n start r) k = Z.testbit r k || ((start <=? k) && (k <? start + Z.of_nat n)).
Proof.
  induction n as [|n IH]; intros start r k S L K; cbn [set_bits].
  - replace (_ && _) with false by lia. rewrite orb_false_r. reflexivity.
  - rewrite IH by lia. rewrite u16_bit, Z.lor_spec, one_bit by lia. rewrite <- orb_assoc. f_equal. lia.
Qed.
Lemma set_bits_range : forall n start r, 0 <= r < 65536 -> 0 <= set_bits n start r < 65536.
Proof. induction n as [|n IH]; intros start r R; cbn [set_bits]; [exact R|]. apply IH, u16_range. Qed.
Lemma reverse_bit : forall m k, 0 <= k < 16 -> Z.testbit (reverseBits m) k = Z.testbit m (15 - k).
Proof.
  intros m k K. unfold reverseBits.
  assert (G : forall l r, Forall (fun i => 0 <= i <= 15) l ->
    Z.testbit (fold_left (fun r i => u16 (Z.lor r (if Z.land m (Z.shiftl 1 i) =? 0 then 0 else Z.shiftl 1 (15 - i)))) l r) k
    = Z.testbit r k || existsb (fun i => Z.testbit m i && (k =? 15 - i)) l).
  { induction l as [|i l IH]; intros r Hl; cbn [fold_left existsb]; [rewrite orb_false_r; reflexivity|].
    inversion Hl as [|? ? Hi Hl']; subst. rewrite IH by assumption. rewrite u16_bit, Z.lor_spec, is_bit by lia.
    rewrite <- orb_assoc. f_equal. f_equal.
    destruct (Z.testbit m i); cbn [negb andb]; [apply one_bit; lia|apply Z.bits_0]. }
  rewrite G.
  - rewrite Z.bits_0. cbn [orb].
    destruct (existsb _ _) eqn:E.
    + apply existsb_exists in E. destruct E as (i & _ & E). apply andb_prop in E. destruct E as (E & Ei).
      replace (15 - k) with i by lia. symmetry. exact E.
    + symmetry. apply not_true_is_false. intro B. apply not_true_iff_false in E. apply E. apply existsb_exists.
      exists (15 - k). split; [|rewrite B; cbn [andb]; lia].
      apply in_map_iff. exists (Z.to_nat (15 - k)). split; [lia|]. apply in_seq. lia.
  - apply Forall_forall. intros i Hi. apply in_map_iff in Hi. destruct Hi as (j & <- & Hj). apply in_seq in Hj. lia.
Qed.

(** ** Lists *)
Definition holds (ps : list part) (r m : Z) : Prop :=
  0 <= m < 65536 /\ forall q, reg_ok q -> Z.testbit m (rank q) = Z.testbit r (rank q) || in_parts ps q.
Lemma rank_range : forall r, reg_ok r -> 0 <= rank r < 16.
Proof. intros [n|n]; cbn [reg_ok rank]; lia. Qed.
Lemma get_reg : forall r ts, getRegister (reg_text r :: ts) = Some (rank r, ts).
Proof. intros [n|n] ts; cbn [getRegister reg_text rank]; [reflexivity|]. rewrite Z.add_comm. reflexivity. Qed.
Definition lo (p : part) : reg := match p with One r => r | Span f _ => f end.
Definition hi (p : part) : reg := match p with One r => r | Span _ l => l end.
Lemma get_range : forall p ts, match ts with RMinus :: _ => False | _ => True end ->
  getRegisterRange (part_text p ++ ts) = (Some (rank (lo p), rank (hi p)), ts).
Proof.
  intros [r|f l] ts E; cbn [part_text app]; unfold getRegisterRange; rewrite !get_reg; cbn [lo hi].
  - destruct ts as [|[t| |] ts]; try reflexivity. destruct E.
  - reflexivity.
Qed.
Lemma part_facts : forall p, part_ok p -> 0 <= rank (lo p) /\ rank (lo p) <= rank (hi p) /\ rank (hi p) < 16.
Proof.
  intros [r|f l]; cbn [part_ok lo hi]; [intro R; pose proof (rank_range _ R); lia|].
  intros (Rf & Rl & L). pose proof (rank_range _ Rf). pose proof (rank_range _ Rl). lia.
Qed.
Lemma one_part : forall p r, part_ok p -> 0 <= r < 65536 ->
  holds [p] r (set_bits (Z.to_nat (rank (hi p) - rank (lo p) + 1)) (rank (lo p)) r).
Proof.
  intros p r P R. pose proof (part_facts p P) as F. split; [apply set_bits_range; exact R|].
  intros q Q. pose proof (rank_range q Q). rewrite set_bits_bit by lia. f_equal.
  unfold in_parts. cbn [existsb]. rewrite orb_false_r. destruct p; cbn [in_part lo hi] in *; lia.
Qed.
Lemma ranges_read : forall ps p fuel r rest st, Forall part_ok (p :: ps) -> 0 <= r < 65536 -> list_ends rest ->
  (List.length ps < fuel)%nat ->
  exists m, ranges fuel r (list_text p ps ++ rest) st = (Some m, rest, st) /\ holds (p :: ps) r m.
Proof.
  induction ps as [|q ps IH]; intros p fuel r rest st Ok R E Fu; inversion Ok as [|? ? P Ps]; subst;
    pose proof (part_facts p P) as Fa; (destruct fuel as [|fuel]; [cbn in Fu; lia|]); cbn [list_text ranges].
  - rewrite get_range by (destruct rest as [|[] ?]; cbn in *; tauto).
    replace (_ <? _) with false by lia.
    eexists. split; [|apply one_part; assumption].
    destruct rest as [|[t| |] rest]; try reflexivity; destruct E.
  - rewrite <- app_assoc. cbn [app]. rewrite get_range by exact I. replace (_ <? _) with false by lia.
    destruct (one_part p r P R) as (R1 & B1).
    destruct (IH q fuel _ rest st Ps R1 E) as (m & Em & Rm & Bm); [cbn in Fu; lia|].
    exists m. split; [exact Em|]. split; [exact Rm|]. intros x X. rewrite Bm, B1 by exact X.
    unfold in_parts. cbn [existsb]. rewrite orb_false_r, <- orb_assoc. reflexivity.
Qed.
Lemma part_long : forall p, (1 <= List.length (part_text p))%nat.
Proof. intros [r|f l]; cbn; lia. Qed.
Lemma list_long : forall ps p, (List.length ps < List.length (list_text p ps))%nat.
Proof.
  induction ps as [|q ps IH]; intro p; cbn [list_text]; pose proof (part_long p); cbn; [lia|].
  rewrite app_length. cbn. specialize (IH q). lia.
Qed.
Lemma list_head : forall p ps, exists r l, list_text p ps = reg_text r :: l.
Proof. intros [r|f l] [|q ps]; cbn; eauto. Qed.
Theorem list_read : forall p ps rest st, Forall part_ok (p :: ps) -> list_ends rest ->
  exists m, m68k_ParseRegisterList (list_text p ps ++ rest) st = (Some m, rest, st) /\ 0 <= m < 65536 /\
    forall r, reg_ok r -> Z.testbit m (rank r) = in_parts (p :: ps) r.
Proof.
  intros p ps rest st O E.
  destruct (ranges_read ps p (S (List.length (list_text p ps ++ rest))) 0 rest st O ltac:(lia) E) as (m & Em & Rm & Bm).
  { rewrite app_length. pose proof (list_long ps p). lia. }
  exists m. split; [|split; [exact Rm|]].
  - rewrite <- Em. destruct (list_head p ps) as (r & l & ->). destruct r; reflexivity.
  - intros r R. rewrite Bm, Z.bits_0 by exact R. reflexivity.
Qed.
Lemma nonzero : forall p ps m, Forall part_ok (p :: ps) -> (forall r, reg_ok r -> Z.testbit m (rank r) = in_parts (p :: ps) r) -> m <> 0.
Proof.
  intros p ps m O B ->. inversion O as [|? ? P _]; subst.
  assert (R : reg_ok (lo p)) by (destruct p; cbn in *; tauto).
  specialize (B _ R). rewrite Z.bits_0 in B. unfold in_parts in B. cbn [existsb] in B.
  replace (in_part (lo p) p) with true in B; [discriminate|].
  pose proof (part_facts p P). destruct p; cbn [in_part lo hi] in *; lia.
Qed.

(** ** MOVEM *)
Definition opword (dir size : Z) (p : place) : Z :=
  let f := match p with At n => 16 + n | After n => 24 + n | Before n => 32 + n end in
  0x4880 + dir * 1024 + (if size =? SIZE_LONG then 64 else 0) + f.
Definition mask_word (p : place) (m : Z) : Z := match p with Before _ => reverseBits m | _ => m end.
Ltac cases n := let H := fresh in
  assert (H : n = 0 \/ n = 1 \/ n = 2 \/ n = 3 \/ n = 4 \/ n = 5 \/ n = 6 \/ n = 7) by lia;
  destruct H as [-> | [-> | [-> | [-> | [-> | [-> | [-> | -> ]]]]]]].
Lemma registers_ok : Forall reg_ok registers.
Proof. repeat constructor; cbn; lia. Qed.
Lemma word_read : forall dir size p m ps, place_ok p -> dir = 0 \/ dir = 1 ->
  (forall r, reg_ok r -> Z.testbit m (rank r) = in_parts ps r) ->
  read_movem (opword dir size p) (mask_word p m) = Some (Transfer (dir =? 1) (size =? SIZE_LONG) p (filter (in_parts ps) registers)).
Proof.
  intros dir size p m ps P Dd B. unfold read_movem, opword.
  assert (X : forall f, (forall r, reg_ok r -> f r = in_parts ps r) -> filter f registers = filter (in_parts ps) registers).
  { intros f Hf. apply filter_ext_in. intros r Hr. apply Hf. exact (proj1 (Forall_forall _ _) registers_ok r Hr). }
  assert (Y : filter (fun r => match p with Before _ => Z.testbit (mask_word p m) (15 - rank r) | _ => Z.testbit (mask_word p m) (rank r) end) registers
              = filter (in_parts ps) registers).
  { apply X. intros r R. pose proof (rank_range r R). destruct p; cbn [mask_word]; try exact (B r R).
    rewrite reverse_bit by lia. replace (15 - (15 - rank r)) with (rank r) by lia. exact (B r R). }
  set (w := _ + _ + _ + _).
  assert (Z : (w / 2048 =? 9) && ((w / 128) mod 8 =? 1) = true /\ read_place (w mod 64) = Some p /\
              ((w / 1024) mod 2 =? 1) = (dir =? 1) /\ ((w / 64) mod 2 =? 1) = (size =? SIZE_LONG)).
  { subst w. clear X Y B. destruct p as [n|n|n]; cbn [place_ok] in P; destruct Dd as [->| ->]; destruct (size =? SIZE_LONG);
      cases n; repeat split. }
  destruct Z as (-> & -> & -> & ->). f_equal. f_equal. exact Y.
Qed.

Definition mode_of (p : place) : amode :=
  let through mode n := set_outer (set_base (REG_A0 + n) no_regs) (set_mode mode (set_direct n no_mode)) in
  match p with At n => through AM_AIND n | Before n => through AM_ADEC n | After n => through AM_AINC n end.
Lemma place_read : forall cpu p ts st, read_mode cpu (place_text p :: ts) st = Ok (true, mode_of p, ts, st).
Proof.
  intros cpu p ts st. unfold read_mode.
  assert (E : skipn (List.length (place_text p :: ts) - List.length (map plain ts)) (place_text p :: ts) = ts).
  { rewrite map_length. cbn [List.length]. replace (S (List.length ts) - List.length ts)%nat with 1%nat by lia. reflexivity. }
  destruct p as [n|n|n]; cbn [map plain place_text m68k_GetAddressingMode bind mode_of] in *; rewrite E; reflexivity.
Qed.
Lemma emitted : forall S size dir p mask ts k st m, place_ok p -> dir = 0 \/ dir = 1 -> mask <> 0 ->
  setting_ok S (here m) -> ready st k m 4 ->
  exists st', movem_out (s_F S) size dir mask (mode_of p) ts st = Ok (true, ts, st') /\
    emits_seq S k st st' [(2%nat, Num (opword dir size p), opword dir size p); (2%nat, Num (mask_word p mask), mask_word p mask)].
Proof.
  intros S size dir p mask ts k st m P Dd N SO R. unfold movem_out.
  rewrite (proj2 (Z.eqb_neq _ _) N).
  destruct (out_const16 S (opword dir size p) (Num (opword dir size p)) k st m (X65Run.ready_less _ _ _ _ 2 R ltac:(lia))) as (st1 & E1 & M1).
  destruct (X65Proofs.next_place S k st st1 m 2 (Num (opword dir size p)) (opword dir size p) 2 SO R M1) as (m1 & R1 & S1).
  destruct (out_const16 (moved 2 S) (mask_word p mask) (Num (mask_word p mask)) k st1 m1 R1) as (st2 & E2 & M2).
  exists st2. split; [|exists st1; split; [exact M1|exists st2; split; [exact M2|reflexivity]]].
  assert (H : forall f, m68k_GetEffectiveAddressField (mode_of p) = Some f ->
     (if size =? SIZE_LONG then Z.lor (orl [0x4880; dir * 1024; f]) 64 else orl [0x4880; dir * 1024; f]) = opword dir size p).
  { intros f Hf. unfold opword. destruct p as [n|n|n]; cbn [place_ok] in P; destruct Dd as [->| ->]; destruct (size =? SIZE_LONG);
      cases n; cbn in Hf; injection Hf as <-; reflexivity. }
  assert (X : exists f, m68k_GetEffectiveAddressField (mode_of p) = Some f) by (destruct p; eexists; reflexivity).
  destruct X as (f & Hf). rewrite Hf. cbv zeta. rewrite (H f Hf), E1. cbn [bind].
  assert (Ad : (a_mode (mode_of p) =? AM_ADEC) = match p with Before _ => true | _ => false end) by (destruct p; reflexivity).
  assert (X : m68k_OutputExtensionWords (s_F S) (mode_of p) st2 = Ok (true, st2)) by (clear; unfold m68k_OutputExtensionWords; destruct p; reflexivity).
  rewrite Ad. unfold mask_word in E2. destruct p; cbv iota; rewrite E2; cbn [bind]; rewrite X; reflexivity.
Qed.
