(** Proofs about ROM headers. *)
From Coq Require Import ZArith List Bool Lia ZifyBool ZifyNat.
From Verif Require Import Base BaseFacts AssignModel LinkModel FileModel FileProofs ImageModel HeaderModel HeaderSpec.
Import ListNotations.
Open Scope Z_scope.

(** A list cut in pieces of given sizes. *)
Lemma cut : forall (d : list Z) n, 0 <= n <= zlen d -> exists a b, d = a ++ b /\ zlen a = n.
Proof.
  intros d n N. exists (firstn (Z.to_nat n) d), (skipn (Z.to_nat n) d). split; [now rewrite firstn_skipn|].
  unfold zlen in *. rewrite firstn_length. lia.
Qed.
Lemma cut1 : forall d : list Z, 1 <= zlen d -> exists x b, d = x :: b.
Proof. intros [|x b] H; [cbn in H; lia|eauto]. Qed.
Lemma bytes_at_app : forall a b c p n, p = zlen a -> n = zlen b -> bytes_at (a ++ b ++ c) p n = b.
Proof.
  intros a b c p n -> ->. unfold bytes_at, zlen. rewrite !Nat2Z.id. rewrite skipn_app, skipn_all, Nat.sub_diag. cbn.
  rewrite firstn_app, Nat.sub_diag, firstn_all. cbn. now rewrite app_nil_r.
Qed.
Lemma byte_at_app : forall a x c p, p = zlen a -> byte_at (a ++ x :: c) p = x.
Proof. intros a x c p ->. unfold byte_at, zlen. rewrite Nat2Z.id, app_nth2, Nat.sub_diag; [reflexivity|lia]. Qed.
Lemma fwrite_middle : forall a b c p q bs, p = zlen a -> zlen bs = zlen b ->
  f_data (fwrite (fseek (File (a ++ b ++ c) q) p) bs) = a ++ bs ++ c.
Proof. intros. unfold fwrite, fseek. cbn [f_data f_pos]. now apply overwrite_middle. Qed.
Lemma fgetc_at : forall a x c p q, p = zlen a -> fgetc (fseek (File (a ++ x :: c) q) p) = (Some x, File (a ++ x :: c) (p + 1)).
Proof.
  intros a x c p q ->. unfold fgetc, fseek. cbn [f_data f_pos]. unfold zlen at 1. rewrite Nat2Z.id.
  rewrite nth_error_app2 by lia. rewrite Nat.sub_diag. reflexivity.
Qed.

(** ** Game Boy *)
Lemma romSizeCode_spec : forall fuel n code, 0 <= code -> code + Z.of_nat fuel <= 255 -> n <= 32768 * 2 ^ (code + Z.of_nat fuel) ->
  (forall c, 0 <= c -> n <= 32768 * 2 ^ c -> code <= c) ->
  gb_size_code (romSizeCode fuel n code) n /\ romSizeCode fuel n code <= code + Z.of_nat fuel.
Proof.
  induction fuel as [|fuel IH]; intros n code C B N M; cbn [romSizeCode].
  - rewrite Z.add_0_r in N. repeat split; auto; lia.
  - rewrite Z.shiftl_mul_pow2 by auto. destruct (n >? 32768 * 2 ^ code) eqn:E.
    + unfold u8. rewrite Z.mod_small by lia. destruct (IH n (code + 1)) as [A1 A2]; [lia|lia| | |split; [auto|lia]].
      * replace (code + 1 + Z.of_nat fuel) with (code + Z.of_nat (S fuel)) by lia. auto.
      * intros c C0 NC. specialize (M c C0 NC). destruct (Z.eq_dec c code) as [->|]; lia.
    + split; [|lia]. repeat split; auto. lia.
Qed.
Definition total (d : list Z) (x : Z) : Z := (x + sum d) mod 65536.
Lemma loop_low : forall d i a, i + zlen d <= 308 ->
  exists s, checksumLoop d i a = Sums (cartChecksum a) s (cartComp a) (calcComp a) /\ s mod 65536 = (calcChecksum a + sum d) mod 65536.
Proof.
  induction d as [|ch d IH]; intros i a L.
  - exists (calcChecksum a). destruct a; cbn. split; auto. f_equal. lia.
  - rewrite zlen_cons in L. pose proof (zlen_nonneg _ d). cbn [checksumLoop sum].
    destruct (i <? 308) eqn:E; [|lia].
    edestruct (IH (i + 1)) as (s & -> & S1); [lia|]. cbn [cartChecksum calcChecksum cartComp calcComp] in *.
    exists s. split; auto. rewrite S1. unfold u16. Z.div_mod_to_equations. lia.
Qed.
Lemma loop_mid : forall d i a, 308 <= i -> i + zlen d <= 333 ->
  exists s c, checksumLoop d i a = Sums (cartChecksum a) s (cartComp a) c /\
    s mod 65536 = (calcChecksum a + sum d) mod 65536 /\ c mod 256 = (calcComp a + sum d) mod 256.
Proof.
  induction d as [|ch d IH]; intros i a I L.
  - exists (calcChecksum a), (calcComp a). destruct a; cbn. repeat split; auto; f_equal; lia.
  - rewrite zlen_cons in L. pose proof (zlen_nonneg _ d). cbn [checksumLoop sum].
    destruct (i <? 308) eqn:E; [lia|]. destruct (i <? 333) eqn:E2; [|lia].
    edestruct (IH (i + 1)) as (s & c & -> & S1 & S2); [lia|lia|]. cbn [cartChecksum calcChecksum cartComp calcComp] in *.
    exists s, c. split; auto. rewrite S1, S2. unfold u16, u8. split; Z.div_mod_to_equations; lia.
Qed.
Lemma loop_high : forall d i a, 336 <= i ->
  exists s, checksumLoop d i a = Sums (cartChecksum a) s (cartComp a) (calcComp a) /\ s mod 65536 = (calcChecksum a + sum d) mod 65536.
Proof.
  induction d as [|ch d IH]; intros i a L.
  - exists (calcChecksum a). destruct a; cbn. split; auto. f_equal. lia.
  - cbn [checksumLoop sum].
    destruct (i <? 308) eqn:E; [lia|]. destruct (i <? 333) eqn:E2; [lia|]. destruct (i =? 333) eqn:E3; [lia|].
    destruct (i =? 334) eqn:E4; [lia|]. destruct (i =? 335) eqn:E5; [lia|].
    edestruct (IH (i + 1)) as (s & -> & S1); [lia|]. cbn [cartChecksum calcChecksum cartComp calcComp] in *.
    exists s. split; auto. rewrite S1. unfold u16. Z.div_mod_to_equations. lia.
Qed.
Lemma loop_app : forall d e i a, checksumLoop (d ++ e) i a = checksumLoop e (i + zlen d) (checksumLoop d i a).
Proof.
  induction d as [|ch d IH]; intros e i a; [cbn [app checksumLoop]; now rewrite Z.add_0_r|].
  cbn [app checksumLoop]. rewrite IH. f_equal. rewrite zlen_cons. lia.
Qed.
Lemma loop_all : forall A B cc g1 g2 T, zlen A = 308 -> zlen B = 25 -> is_byte cc -> is_byte g1 -> is_byte g2 ->
  exists s c, checksumLoop (A ++ B ++ cc :: g1 :: g2 :: T) 0 (Sums 0 0 0 0) = Sums (g1 * 256 + g2) s cc c /\
    s mod 65536 = (sum A + sum B + sum T) mod 65536 /\ c mod 256 = sum B mod 256.
Proof.
  intros A B cc g1 g2 T LA LB Hc H1 H2. rewrite loop_app.
  destruct (loop_low A 0 (Sums 0 0 0 0)) as (s1 & -> & E1); [lia|]. rewrite LA. cbn [cartChecksum calcChecksum cartComp calcComp] in *.
  rewrite loop_app. destruct (loop_mid B (0 + 308) (Sums 0 s1 0 0)) as (s2 & c & -> & E2 & E3); [lia|lia|].
  rewrite LB. cbn [cartChecksum calcChecksum cartComp calcComp] in *.
  change (0 + 308 + 25) with 333.
  change (checksumLoop (cc :: g1 :: g2 :: T) 333 (Sums 0 s2 0 c)) with
    (checksumLoop T 336 (Sums (Z.lor (u16 (Z.shiftl g1 8)) (u16 g2)) s2 (u8 cc) c)).
  destruct (loop_high T 336 (Sums (Z.lor (u16 (Z.shiftl g1 8)) (u16 g2)) s2 (u8 cc) c)) as (s3 & -> & E4); [lia|].
  cbn [cartChecksum calcChecksum cartComp calcComp] in *.
  exists s3, c. split; [|split].
  - unfold is_byte, u8, u16 in *. rewrite Z.shiftl_mul_pow2 by lia. change (2 ^ 8) with 256.
    rewrite (Z.mod_small (g1 * 256)), (Z.mod_small g2), (Z.mod_small cc) by lia.
    assert (Z.lor (g1 * 256) g2 = g1 * 256 + g2) as ->; [|reflexivity].
    assert (L0 : Z.land (g1 * 256) g2 = 0).
    { apply Z.bits_inj'. intros n Hn. rewrite Z.land_spec, Z.bits_0. apply andb_false_iff.
      change 256 with (2 ^ 8). destruct (Z.lt_ge_cases n 8).
      - left. now apply Z.mul_pow2_bits_low.
      - right. apply Z.bits_above_log2; [lia|]. destruct (Z.eq_dec g2 0) as [->|]; [cbn; lia|].
        assert (Z.log2 g2 < 8) by (apply Z.log2_lt_pow2; lia). lia. }
    now rewrite (Z.add_nocarry_lxor _ _ L0), (Z.lxor_lor _ _ L0).
  - rewrite E4. Z.div_mod_to_equations. lia.
  - rewrite E3. Z.div_mod_to_equations. lia.
Qed.
Lemma updateChecksum_data : forall A B cc g1 g2 T q, zlen A = 308 -> zlen B = 25 -> is_byte cc -> is_byte g1 -> is_byte g2 ->
  exists cc' h1 h2, f_data (updateChecksum (File (A ++ B ++ cc :: g1 :: g2 :: T) q)) = A ++ B ++ cc' :: h1 :: h2 :: T /\
    is_byte cc' /\ is_byte h1 /\ is_byte h2 /\ cc' = (231 - sum B) mod 256 /\
    h1 * 256 + h2 = (sum A + sum B + cc' + sum T) mod 65536.
Proof.
  intros A B cc g1 g2 T q LA LB Hc H1 H2. unfold updateChecksum. cbn [f_data].
  destruct (loop_all A B cc g1 g2 T LA LB Hc H1 H2) as (s & c & -> & S1 & S2).
  cbn [cartChecksum calcChecksum cartComp calcComp].
  set (comp := u8 (231 - c)). set (t := u16 (s + comp)).
  assert (CR : is_byte comp) by (unfold comp, is_byte, u8; Z.div_mod_to_equations; lia).
  assert (CV : comp = (231 - sum B) mod 256) by (unfold comp, u8; Z.div_mod_to_equations; lia).
  assert (TV : t = (sum A + sum B + comp + sum T) mod 65536) by (unfold t, u16; Z.div_mod_to_equations; lia).
  assert (TR : 0 <= t < 65536) by (unfold t, u16; Z.div_mod_to_equations; lia).
  clearbody comp t. clear s c S1 S2.
  set (f1 := if g1 * 256 + g2 =? t then _ else _).
  assert (F1 : f_data f1 = A ++ B ++ cc :: (t / 256) :: (t mod 256) :: T).
  { unfold f1. destruct (g1 * 256 + g2 =? t) eqn:E.
    - cbn [f_data]. assert (g1 = t / 256 /\ g2 = t mod 256) as [<- <-]; [|reflexivity].
      unfold is_byte in *. Z.div_mod_to_equations. lia.
    - unfold fputc, fwrite, fseek. cbn [f_data f_pos].
      replace (u8 (Z.shiftr t 8)) with (t / 256) by (rewrite Z.shiftr_div_pow2 by lia; unfold u8; change (2 ^ 8) with 256; rewrite Z.mod_small; auto; Z.div_mod_to_equations; lia).
      replace (u8 (Z.land t 255)) with (t mod 256).
      2:{ change 255 with (Z.ones 8). rewrite Z.land_ones by lia. change (2 ^ 8) with 256. unfold u8. now rewrite Z.mod_mod by lia. }
      replace (A ++ B ++ cc :: g1 :: g2 :: T) with ((A ++ B ++ [cc]) ++ [g1] ++ g2 :: T) by (rewrite <- !app_assoc; reflexivity).
      assert (LP : zlen (A ++ B ++ [cc]) = 334) by (rewrite !zlen_app, LA, LB; reflexivity).
      rewrite overwrite_middle by (rewrite ?LP; reflexivity).
      replace ((A ++ B ++ [cc]) ++ [t / 256] ++ g2 :: T) with ((A ++ B ++ [cc; t / 256]) ++ [g2] ++ T) by (rewrite <- !app_assoc; reflexivity).
      rewrite overwrite_middle; [rewrite <- !app_assoc; reflexivity| |reflexivity].
      rewrite !zlen_app, LA, LB. reflexivity. }
  clearbody f1. exists comp, (t / 256), (t mod 256). split.
  - destruct (cc =? comp) eqn:E.
    + rewrite F1. assert (cc = comp) by lia. subst. reflexivity.
    + unfold fwrite, fseek. cbn [f_data f_pos]. rewrite F1.
      rewrite (app_assoc A B). change (cc :: t / 256 :: t mod 256 :: T) with ([cc] ++ t / 256 :: t mod 256 :: T).
      rewrite overwrite_middle; [now rewrite <- app_assoc| |reflexivity]. rewrite zlen_app, LA, LB. reflexivity.
  - unfold is_byte. split; [auto|]. split; [Z.div_mod_to_equations; lia|]. split; [Z.div_mod_to_equations; lia|].
    split; auto. rewrite <- TV. Z.div_mod_to_equations. lia.
Qed.

Lemma fold_header : forall l x, fold_left (fun x b => (x - b - 1) mod 256) l x mod 256 = (x - sum l - zlen l) mod 256.
Proof.
  induction l as [|b l IH]; intro x; [cbn; f_equal; lia|]. cbn [fold_left sum]. rewrite IH, zlen_cons.
  Z.div_mod_to_equations. lia.
Qed.
Lemma fold_header_range : forall l, l <> [] -> is_byte (fold_left (fun x b => (x - b - 1) mod 256) l 0).
Proof.
  intros l. generalize 0. induction l as [|b l IH]; intros x N; [contradiction|]. cbn [fold_left].
  destruct l; [cbn; unfold is_byte; Z.div_mod_to_equations; lia|]. apply IH. discriminate.
Qed.

Lemma gb_decompose : forall d : list Z, 336 <= zlen d -> exists A L M t s N c g1 g2 T,
  d = A ++ L ++ M ++ t :: s :: N ++ c :: g1 :: g2 :: T /\ zlen A = 260 /\ zlen L = 48 /\ zlen M = 19 /\ zlen N = 4.
Proof.
  intros d H. destruct (cut d 260) as (A & d1 & -> & LA); [lia|]. rewrite zlen_app in H.
  destruct (cut d1 48) as (L & d2 & -> & LL); [lia|]. rewrite zlen_app in H.
  destruct (cut d2 19) as (M & d3 & -> & LM); [lia|]. rewrite zlen_app in H.
  destruct (cut1 d3) as (t & d4 & ->); [lia|]. rewrite zlen_cons in H.
  destruct (cut1 d4) as (s & d5 & ->); [lia|]. rewrite zlen_cons in H.
  destruct (cut d5 4) as (N & d6 & -> & LN); [lia|]. rewrite zlen_app in H.
  destruct (cut1 d6) as (c & d7 & ->); [lia|]. rewrite zlen_cons in H.
  destruct (cut1 d7) as (g1 & d8 & ->); [lia|]. rewrite zlen_cons in H.
  destruct (cut1 d8) as (g2 & d9 & ->); [lia|].
  exists A, L, M, t, s, N, c, g1, g2, d9. auto.
Qed.

Lemma updateGameBoyHeader_data : forall A L M t s N c g1 g2 T q,
  zlen A = 260 -> zlen L = 48 -> zlen M = 19 -> zlen N = 4 ->
  is_byte c -> is_byte g1 -> is_byte g2 ->
  let n := zlen (A ++ L ++ M ++ t :: s :: N ++ c :: g1 :: g2 :: T) in n < 2 ^ 32 ->
  exists t' s' c' h1 h2,
    f_data (updateGameBoyHeader (File (A ++ L ++ M ++ t :: s :: N ++ c :: g1 :: g2 :: T) q)) =
      A ++ gb_logo ++ M ++ t' :: s' :: N ++ c' :: h1 :: h2 :: T /\
    (t' = if (n >? 32768) && (t =? 0) then 1 else t) /\ gb_size_code s' n /\
    is_byte c' /\ is_byte h1 /\ is_byte h2 /\
    c' = (231 - sum (M ++ t' :: s' :: N)) mod 256 /\
    h1 * 256 + h2 = (sum A + sum gb_logo + sum (M ++ t' :: s' :: N) + c' + sum T) mod 65536.
Proof.
  intros A L M t s N c g1 g2 T q LA LL LM LN Hc H1 H2 n Hn.
  unfold updateGameBoyHeader. set (R := N ++ c :: g1 :: g2 :: T) in *.
  set (f1 := updateNintendoCharacterArea _).
  assert (F1 : f_data f1 = A ++ gb_logo ++ M ++ t :: s :: R).
  { unfold f1, updateNintendoCharacterArea. apply fwrite_middle; auto. }
  assert (N1 : zlen (f_data f1) = n).
  { rewrite F1. unfold n. rewrite !zlen_app, LL. reflexivity. }
  clearbody f1. destruct f1 as [d1 p1]. cbn [f_data] in *. subst d1.
  (* ROM size *)
  destruct (romSizeCode_spec 32 n 0) as [SC SB]; [lia|cbn; lia|change (2 ^ (0 + Z.of_nat 32)) with (2 ^ 32); lia|lia|].
  set (code := romSizeCode 32 n 0) in *.
  assert (F2 : exists p2, updateRomSize (File (A ++ gb_logo ++ M ++ t :: s :: R) p1) = File (A ++ gb_logo ++ M ++ t :: code :: R) p2).
  { unfold updateRomSize.
    assert (E : A ++ gb_logo ++ M ++ t :: s :: R = (A ++ gb_logo ++ M ++ [t]) ++ s :: R) by (rewrite <- !app_assoc; reflexivity).
    assert (LP : POS_ROM_SIZE = zlen (A ++ gb_logo ++ M ++ [t])) by (rewrite !zlen_app, LA, LM; reflexivity).
    rewrite E. rewrite fgetc_at by exact LP. unfold fsize. cbn [f_data]. rewrite <- E. rewrite N1. fold code. cbn [eof0].
    destruct (code =? s) eqn:EC.
    - assert (s = code) as <- by lia. eauto.
    - rewrite E. change (s :: R) with ([s] ++ R). unfold fwrite, fseek. cbn [f_data f_pos].
      rewrite overwrite_middle by (auto || reflexivity). eexists. f_equal. rewrite <- !app_assoc. reflexivity. }
  destruct F2 as (p2 & ->).
  assert (N2 : zlen (A ++ gb_logo ++ M ++ t :: code :: R) = n).
  { rewrite <- N1. rewrite !zlen_app, !zlen_cons. reflexivity. }
  set (t' := if (n >? 32768) && (t =? 0) then 1 else t).
  assert (F3 : exists p3, updateCartridgeType (File (A ++ gb_logo ++ M ++ t :: code :: R) p2) = File (A ++ gb_logo ++ M ++ t' :: code :: R) p3).
  { unfold updateCartridgeType.
    assert (E : forall x, A ++ gb_logo ++ M ++ x :: code :: R = (A ++ gb_logo ++ M) ++ x :: code :: R) by (intro; rewrite <- !app_assoc; reflexivity).
    assert (LP : POS_CARTRIDGE_TYPE = zlen (A ++ gb_logo ++ M)) by (rewrite !zlen_app, LA, LM; reflexivity).
    rewrite E. rewrite fgetc_at by exact LP. unfold fsize. cbn [f_data]. rewrite <- E. rewrite N2. cbn [eof0].
    unfold t'. destruct ((n <=? 32768) || negb (t =? 0)) eqn:EC.
    - assert ((n >? 32768) && (t =? 0) = false) as -> by lia. eauto.
    - assert ((n >? 32768) && (t =? 0) = true) as -> by lia.
      rewrite E. change (t :: code :: R) with ([t] ++ code :: R). unfold fwrite, fseek. cbn [f_data f_pos].
      rewrite overwrite_middle by (auto || reflexivity). eexists. f_equal. rewrite <- !app_assoc. reflexivity. }
  destruct F3 as (p3 & ->).
  destruct (updateChecksum_data (A ++ gb_logo) (M ++ t' :: code :: N) c g1 g2 T p3) as (c' & h1 & h2 & D & B1 & B2 & B3 & V1 & V2); auto.
  { rewrite zlen_app, LA. reflexivity. } { rewrite zlen_app, !zlen_cons, LM, LN. reflexivity. }
  exists t', code, c', h1, h2. split.
  - rewrite <- app_assoc in D. rewrite <- !app_assoc in D. cbn [app] in D. unfold R. rewrite D. reflexivity.
  - split; [reflexivity|]. split; auto. split; auto. split; auto. split; auto. split; auto.
    rewrite V2. rewrite sum_app. f_equal.
Qed.

Lemma gb_header : forall d, 336 <= zlen d -> zlen d < 2 ^ 32 -> bytes d ->
  let r := f_data (updateGameBoyHeader (openFile d)) in
  gb_valid r /\ same_outside [(260, 48); (327, 2); (333, 3)] d r /\ (byte_at d 327 <> 0 \/ zlen d <= 32768 -> byte_at r 327 = byte_at d 327).
Proof.
  intros d L U B. destruct (gb_decompose d L) as (A & Lo & M & t & s & N & c & g1 & g2 & T & E & LA & LL & LM & LN). subst d.
  assert (is_byte c /\ is_byte g1 /\ is_byte g2) as (Bc & B1 & B2).
  { unfold bytes in B. rewrite !Forall_app in B. destruct B as (_ & _ & _ & B).
    inversion B as [|? ? _ B']; subst. inversion B' as [|? ? _ B'']; subst. rewrite Forall_app in B''.
    destruct B'' as [_ B3]. inversion B3 as [|? ? Bc B4]; subst. inversion B4 as [|? ? Bg1 B5]; subst.
    inversion B5; subst. auto. }
  unfold openFile.
  destruct (updateGameBoyHeader_data A Lo M t s N c g1 g2 T 0 LA LL LM LN Bc B1 B2 U)
    as (t' & s' & c' & h1 & h2 & D & TV & SC & R1 & R2 & R3 & CV & GV).
  cbn zeta in *. set (n := zlen (A ++ Lo ++ M ++ t :: s :: N ++ c :: g1 :: g2 :: T)) in *.
  rewrite D. clear D B.
  set (r := A ++ gb_logo ++ M ++ t' :: s' :: N ++ c' :: h1 :: h2 :: T).
  assert (RN : zlen r = n) by (unfold r, n; rewrite !zlen_app, !zlen_cons, !zlen_app, !zlen_cons, LL; reflexivity).
  set (B := M ++ t' :: s' :: N) in *.
  assert (RE : r = (A ++ gb_logo) ++ B ++ c' :: h1 :: h2 :: T) by (unfold r, B; rewrite <- !app_assoc; reflexivity).
  assert (LAB : zlen (A ++ gb_logo) = 308) by (rewrite zlen_app, LA; reflexivity).
  assert (LB : zlen B = 25) by (unfold B; rewrite zlen_app, !zlen_cons, LM, LN; reflexivity).
  assert (Q327 : byte_at r 327 = t').
  { assert (r = (A ++ gb_logo ++ M) ++ t' :: s' :: N ++ c' :: h1 :: h2 :: T) as -> by (unfold r; rewrite <- !app_assoc; reflexivity).
    apply byte_at_app. rewrite !zlen_app, LA, LM. reflexivity. }
  assert (Q328 : byte_at r 328 = s').
  { assert (r = (A ++ gb_logo ++ M ++ [t']) ++ s' :: N ++ c' :: h1 :: h2 :: T) as -> by (unfold r; rewrite <- !app_assoc; reflexivity).
    apply byte_at_app. rewrite !zlen_app, LA, LM. reflexivity. }
  assert (Q333 : byte_at r 333 = c').
  { rewrite RE, app_assoc. apply byte_at_app. rewrite zlen_app, LAB, LB. reflexivity. }
  assert (Q334 : byte_at r 334 = h1).
  { rewrite RE, app_assoc. change (c' :: h1 :: h2 :: T) with ([c'] ++ h1 :: h2 :: T). rewrite app_assoc.
    apply byte_at_app. rewrite !zlen_app, LA, LB. reflexivity. }
  assert (Q335 : byte_at r 335 = h2).
  { rewrite RE, app_assoc. change (c' :: h1 :: h2 :: T) with ([c'; h1] ++ h2 :: T). rewrite app_assoc.
    apply byte_at_app. rewrite !zlen_app, LA, LB. reflexivity. }
  split; [|split].
  - constructor.
    + unfold r. apply bytes_at_app; auto.
    + rewrite Q333, CV. unfold gb_header_checksum. assert (bytes_at r 308 25 = B) as ->.
      { rewrite RE. apply bytes_at_app; auto. }
      assert (NB : B <> []) by (intro X; rewrite X in LB; cbn in LB; lia).
      pose proof (fold_header_range B NB) as FR. unfold is_byte in FR. pose proof (fold_header B 0) as FH.
      rewrite LB in FH. Z.div_mod_to_equations. lia.
    + rewrite Q334, Q335, GV. unfold gb_global_checksum. rewrite Q334, Q335. rewrite RE, !sum_app. cbn [sum].
      unfold B. Z.div_mod_to_equations. lia.
    + rewrite Q328, RN. exact SC.
    + rewrite Q327, RN, TV. intro H. destruct (t =? 0) eqn:E; [|rewrite andb_false_r; lia].
      destruct (n >? 32768) eqn:E2; cbn; lia.
  - split; [now rewrite RN|]. intros k K H.
    assert (NOT : ~ (260 <= k < 308) /\ ~ (327 <= k < 329) /\ ~ (333 <= k < 336)).
    { split; [|split]; [apply (H 260 48)|apply (H 327 2)|apply (H 333 3)]; cbn; auto. }
    change byte_at with byte. unfold r.
    assert (PRE : forall p q a b k, 0 <= k -> zlen p = zlen q -> byte p k = byte q k -> (zlen p <= k -> byte a (k - zlen p) = byte b (k - zlen p)) ->
       byte (p ++ a) k = byte (q ++ b) k).
    { intros p q0 a b k0 K0 LE E1 E2. rewrite !byte_app by auto. rewrite <- LE. destruct (k0 <? zlen p) eqn:X; auto. apply E2. lia. }
    apply PRE; auto. intros K1. rewrite LA in *. apply PRE; [lia|rewrite LL; reflexivity| |].
    { rewrite !byte_over; auto; [change (zlen gb_logo) with 48|rewrite LL]; lia. }
    intros K2. rewrite LL in *. apply PRE; [lia|reflexivity|reflexivity|]. intro K3. rewrite LM in *.
    apply (PRE [t; s] [t'; s']); [lia|reflexivity| |].
    { rewrite !byte_over; auto; cbn [zlen length]; unfold zlen; cbn; lia. }
    intro K4. apply PRE; [unfold zlen in *; cbn in *; lia|reflexivity|reflexivity|]. intro K5. rewrite LN in *.
    change (zlen [t; s]) with 2 in *.
    apply (PRE [c; g1; g2] [c'; h1; h2]); [lia|reflexivity| |reflexivity].
    rewrite !byte_over; auto; unfold zlen; cbn; lia.
  - rewrite Q327. intro H.
    assert (byte_at (A ++ Lo ++ M ++ t :: s :: N ++ c :: g1 :: g2 :: T) 327 = t) as BT.
    { rewrite (app_assoc Lo), (app_assoc A). apply byte_at_app. rewrite !zlen_app, LA, LL, LM. reflexivity. }
    rewrite BT in *. rewrite TV. destruct H as [H|H].
    + destruct (t =? 0) eqn:E; [lia|]. now rewrite andb_false_r.
    + destruct (n >? 32768) eqn:E; [lia|]. reflexivity.
Qed.

Lemma byte_pre : forall p q a b k, 0 <= k -> zlen p = zlen q -> (k < zlen p -> byte p k = byte q k) ->
  (zlen p <= k -> byte a (k - zlen p) = byte b (k - zlen p)) -> byte (p ++ a) k = byte (q ++ b) k.
Proof.
  intros p q0 a b k0 K0 LE E1 E2. rewrite !byte_app by auto. rewrite <- LE. destruct (k0 <? zlen p) eqn:X; [apply E1|apply E2]; lia.
Qed.
(** ** Mega Drive *)
Lemma wordSum_spec : forall n d r, (length d <= n)%nat -> wordSum d r mod 65536 = (r + sum (be_words d)) mod 65536.
Proof.
  induction n as [|n IH]; intros d r L.
  - destruct d; [cbn; f_equal; lia|cbn in L; lia].
  - destruct d as [|a [|b d]]; [cbn; f_equal; lia|cbn; f_equal; lia|].
    cbn [wordSum be_words sum]. rewrite IH by (cbn in L; lia). unfold u16. Z.div_mod_to_equations. lia.
Qed.
Lemma wordSum_range : forall n d r, (length d <= n)%nat -> 0 <= r < 65536 -> 0 <= wordSum d r < 65536.
Proof.
  induction n as [|n IH]; intros d r L R.
  - destruct d; [auto|cbn in L; lia].
  - destruct d as [|a [|b d]]; auto. cbn [wordSum]. apply IH; [cbn in L; lia|]. unfold u16. Z.div_mod_to_equations. lia.
Qed.
Lemma be16_value : forall v, 0 <= v < 65536 -> be_value (be16 v) = v.
Proof. intros v V. unfold be_value, be16. cbn [fold_left]. Z.div_mod_to_equations. lia. Qed.
Lemma be32_value : forall v, is_u32 v -> be_value (be32 v) = v.
Proof. intros v V. unfold is_u32 in V. unfold be_value, be32. cbn [fold_left]. change (2 ^ 32) with 4294967296 in V. Z.div_mod_to_equations. lia. Qed.
Lemma md_header : forall d, 512 <= zlen d < 2 ^ 32 ->
  exists f, sega_UpdateMegaDriveHeader (openFile d) = Ok f /\ md_valid (f_data f) /\
    same_outside [(398, 2); (420, 4)] d (f_data f).
Proof.
  intros d L. unfold sega_UpdateMegaDriveHeader, openFile. cbn [f_data].
  destruct (zlen d <? 512) eqn:E; [lia|].
  destruct (cut d 398) as (A & d1 & -> & LA); [lia|]. rewrite zlen_app in L.
  destruct (cut d1 2) as (X & d2 & -> & LX); [lia|]. rewrite zlen_app in L.
  destruct (cut d2 20) as (M & d3 & -> & LM); [lia|]. rewrite zlen_app in L.
  destruct (cut d3 4) as (Y & d4 & -> & LY); [lia|]. rewrite zlen_app in L.
  destruct (cut d4 88) as (N & T & -> & LN); [lia|]. rewrite zlen_app in L.
  set (n := zlen (A ++ X ++ M ++ Y ++ N ++ T)).
  assert (NV : n = 512 + zlen T) by (unfold n; rewrite !zlen_app; lia).
  pose proof (zlen_nonneg _ T) as LT.
  set (f1 := fputbl _ _).
  assert (F1 : f_data f1 = A ++ X ++ M ++ be32 (n - 1) ++ N ++ T).
  { unfold f1, fputbl, fwrite, fseek. cbn [f_data f_pos]. rewrite u32_id by (unfold is_u32; lia).
    rewrite !app_assoc. rewrite <- (app_assoc _ Y), <- (app_assoc _ _ (N ++ T)) || idtac.
    replace (((((A ++ X) ++ M) ++ Y) ++ N) ++ T) with ((A ++ X ++ M) ++ Y ++ (N ++ T)) by (rewrite <- !app_assoc; reflexivity).
    rewrite overwrite_middle; [rewrite <- !app_assoc; reflexivity| |rewrite LY; reflexivity].
    rewrite !zlen_app. lia. }
  assert (CS : sega_CalcMegaDriveChecksum f1 = sum (be_words T) mod 65536).
  { unfold sega_CalcMegaDriveChecksum. rewrite F1.
    assert (skipn 512 (A ++ X ++ M ++ be32 (n - 1) ++ N ++ T) = T) as ->.
    { replace (A ++ X ++ M ++ be32 (n - 1) ++ N ++ T) with ((A ++ X ++ M ++ be32 (n - 1) ++ N) ++ T) by (rewrite <- !app_assoc; reflexivity).
      assert (length (A ++ X ++ M ++ be32 (n - 1) ++ N) = 512%nat) as Q.
      { unfold zlen in *. rewrite !app_length. change (length (be32 (n - 1))) with 4%nat. lia. }
      rewrite skipn_app, Q, Nat.sub_diag. rewrite <- Q at 1. rewrite skipn_all. reflexivity. }
    pose proof (wordSum_spec (length T) T 0 (le_n _)). pose proof (wordSum_range (length T) T 0 (le_n _)).
    rewrite <- (Z.mod_small (wordSum T 0) 65536) by lia. rewrite H. f_equal. }
  rewrite CS. clear CS. set (cs := sum (be_words T) mod 65536). assert (CR : 0 <= cs < 65536) by (unfold cs; Z.div_mod_to_equations; lia).
  eexists. split; [reflexivity|].
  assert (F2 : f_data (fputbw (fseek f1 398) cs) = A ++ be16 cs ++ M ++ be32 (n - 1) ++ N ++ T).
  { unfold fputbw, fwrite, fseek. cbn [f_data f_pos]. rewrite F1.
    assert (u16 cs = cs) as -> by (unfold u16; rewrite Z.mod_small; lia).
    apply overwrite_middle; [lia|rewrite LX; reflexivity]. }
  rewrite F2. split.
  - constructor.
    + rewrite bytes_at_app by (auto; lia || reflexivity). rewrite be16_value by auto.
      assert (skipn 512 (A ++ be16 cs ++ M ++ be32 (n - 1) ++ N ++ T) = T) as ->; [|reflexivity].
      replace (A ++ be16 cs ++ M ++ be32 (n - 1) ++ N ++ T) with ((A ++ be16 cs ++ M ++ be32 (n - 1) ++ N) ++ T) by (rewrite <- !app_assoc; reflexivity).
      assert (length (A ++ be16 cs ++ M ++ be32 (n - 1) ++ N) = 512%nat) as Q.
      { unfold zlen in *. rewrite !app_length. change (length (be32 (n - 1))) with 4%nat. change (length (be16 cs)) with 2%nat. lia. }
      rewrite skipn_app, Q, Nat.sub_diag. rewrite <- Q at 1. rewrite skipn_all. reflexivity.
    + replace (A ++ be16 cs ++ M ++ be32 (n - 1) ++ N ++ T) with ((A ++ be16 cs ++ M) ++ be32 (n - 1) ++ N ++ T) at 1 by (rewrite <- !app_assoc; reflexivity).
      rewrite bytes_at_app; [| |reflexivity].
      * rewrite be32_value by (unfold is_u32; lia). rewrite !zlen_app. change (zlen (be16 cs)) with 2. change (zlen (be32 (n - 1))) with 4. lia.
      * rewrite !zlen_app. change (zlen (be16 cs)) with 2. lia.
  - split.
    + rewrite !zlen_app. change (zlen (be16 cs)) with 2. change (zlen (be32 (n - 1))) with 4. lia.
    + intros k K H. assert (NOT : ~ (398 <= k < 400) /\ ~ (420 <= k < 424)).
      { split; [apply (H 398 2)|apply (H 420 4)]; cbn; auto. }
      change byte_at with byte.
      apply byte_pre; auto. rewrite LA. intro K1.
      apply byte_pre; [lia|rewrite LX; reflexivity|rewrite LX; lia|]. rewrite LX. intro K2.
      apply byte_pre; [lia|reflexivity|reflexivity|]. rewrite LM. intro K3.
      apply byte_pre; [lia|rewrite LY; reflexivity|rewrite LY; lia|]. reflexivity.
Qed.

(** ** HC800 kernel *)
Lemma s8_fold : forall l x, fold_left (fun r c => s8 (r + c)) l x mod 256 = (x + sum l) mod 256.
Proof.
  induction l as [|c l IH]; intro x; [cbn; f_equal; lia|]. cbn [fold_left sum]. rewrite IH. unfold s8.
  Z.div_mod_to_equations. lia.
Qed.
Lemma sum_repeat0 : forall n, sum (repeat 0 n) = 0.
Proof. induction n as [|n IH]; cbn; auto. Qed.
Lemma kernel_header : forall d, 8 <= zlen d ->
  let r := f_data (updateKernalHeader (openFile d)) in
  sum r mod 256 = 165 /\ same_outside [(7, 1)] d r.
Proof.
  intros d L. unfold updateKernalHeader, openFile. cbn zeta.
  destruct (cut d 7) as (A & d1 & -> & LA); [lia|]. rewrite zlen_app in L.
  destruct (cut1 d1) as (x & T & ->); [lia|].
  set (f1 := fputc (fseek _ 7) 0).
  assert (F1 : f_data f1 = A ++ 0 :: T).
  { unfold f1, fputc. change (x :: T) with ([x] ++ T). now apply fwrite_middle. }
  set (cs := fold_left (fun r c => s8 (r + c)) (f_data f1) 0).
  assert (CS : cs mod 256 = (sum A + sum T) mod 256).
  { unfold cs. rewrite s8_fold, F1, sum_app. cbn [sum]. f_equal. }
  clearbody cs.
  assert (F2 : f_data (fputc (fseek f1 7) (s8 (165 - cs))) = A ++ u8 (s8 (165 - cs)) :: T).
  { destruct f1 as [d1 p1]. cbn [f_data] in F1. subst d1. unfold fputc. change (0 :: T) with ([0] ++ T). now apply fwrite_middle. }
  rewrite F2. split.
  - rewrite sum_app. cbn [sum]. unfold u8, s8. Z.div_mod_to_equations. lia.
  - split; [rewrite !zlen_app, !zlen_cons; lia|]. intros k K H. specialize (H 7 1 (or_introl eq_refl)).
    change byte_at with byte. rewrite !byte_app by auto. destruct (k <? zlen A) eqn:E; auto.
    change (x :: T) with ([x] ++ T). change (u8 (s8 (165 - cs)) :: T) with ([u8 (s8 (165 - cs))] ++ T).
    rewrite !byte_app by lia. change (zlen [x]) with 1. change (zlen [u8 (s8 (165 - cs))]) with 1.
    destruct (k - zlen A <? 1) eqn:E2; [lia|reflexivity].
Qed.
Lemma overwrite_beyond : forall d p bs, zlen d <= p -> 0 < zlen bs -> overwrite d p bs = d ++ repeat 0 (Z.to_nat (p - zlen d)) ++ bs.
Proof.
  intros d p bs L LB. pose proof (zlen_nonneg _ d).
  apply byte_ext.
  - rewrite overwrite_zlen by lia. rewrite !zlen_app, zlen_repeat. destruct (zlen bs =? 0) eqn:E; lia.
  - intros k K. rewrite overwrite_byte by lia.
    rewrite byte_app by lia. destruct (k <? zlen d) eqn:E1.
    + destruct ((p <=? k) && (k <? p + zlen bs)) eqn:E2; [lia|reflexivity].
    + rewrite byte_app by lia. rewrite zlen_repeat.
      destruct ((p <=? k) && (k <? p + zlen bs)) eqn:E2.
      * destruct (k - zlen d <? Z.of_nat (Z.to_nat (p - zlen d))) eqn:E3; [lia|]. f_equal. lia.
      * destruct (k - zlen d <? Z.of_nat (Z.to_nat (p - zlen d))) eqn:E3.
        -- rewrite byte_repeat0. apply byte_over. lia.
        -- rewrite !byte_over by lia. reflexivity.
Qed.
Lemma kernel_sum : forall d, sum (f_data (updateKernalHeader (openFile d))) mod 256 = 165.
Proof.
  intros d. destruct (Z.lt_ge_cases (zlen d) 8) as [L|L]; [|apply kernel_header; lia].
  assert (E : f_data (updateKernalHeader (openFile d)) = f_data (updateKernalHeader (openFile (d ++ repeat 0 (Z.to_nat (8 - zlen d)))))).
  { pose proof (zlen_nonneg _ d).
    assert (X : f_data (fputc (fseek (openFile d) 7) 0) = f_data (fputc (fseek (openFile (d ++ repeat 0 (Z.to_nat (8 - zlen d)))) 7) 0)).
    { unfold fputc, fwrite, fseek, openFile. cbn [f_data f_pos]. change (u8 0) with 0.
      rewrite overwrite_beyond by (lia || reflexivity).
      assert (R : repeat 0 (Z.to_nat (8 - zlen d)) = repeat 0 (Z.to_nat (7 - zlen d)) ++ [0]).
      { replace (Z.to_nat (8 - zlen d)) with (Z.to_nat (7 - zlen d) + 1)%nat by lia. now rewrite repeat_app. }
      rewrite R. rewrite (app_assoc d). replace ((d ++ repeat 0 (Z.to_nat (7 - zlen d))) ++ [0]) with ((d ++ repeat 0 (Z.to_nat (7 - zlen d))) ++ [0] ++ []) by now rewrite app_nil_r.
      rewrite overwrite_middle; [now rewrite app_nil_r| |reflexivity]. rewrite zlen_app, zlen_repeat. lia. }
    assert (U : forall f, f_data (updateKernalHeader f) =
      let D := f_data (fputc (fseek f 7) 0) in overwrite D 7 [u8 (s8 (165 - fold_left (fun r c => s8 (r + c)) D 0))]) by reflexivity.
    rewrite !U, X. reflexivity. }
  rewrite E. apply kernel_header. rewrite zlen_app, zlen_repeat. lia.
Qed.

(** ** Master System *)
Lemma byteSum_spec : forall d r, byteSum d r mod 65536 = (r + sum d) mod 65536.
Proof.
  unfold byteSum. induction d as [|c d IH]; intro r; [cbn; f_equal; lia|]. cbn [fold_left sum]. rewrite IH. unfold u16.
  Z.div_mod_to_equations. lia.
Qed.
Lemma byteSum_range : forall d r, 0 <= r < 65536 -> 0 <= byteSum d r < 65536.
Proof.
  unfold byteSum. induction d as [|c d IH]; intros r R; [exact R|]. cbn [fold_left]. apply IH. unfold u16.
  Z.div_mod_to_equations. lia.
Qed.
Lemma byteSum_app : forall a b r, byteSum (a ++ b) r = byteSum b (byteSum a r).
Proof. intros. unfold byteSum. now rewrite fold_left_app. Qed.
Lemma le16_value : forall v, 0 <= v < 65536 -> le_value (le16 v) = v.
Proof. intros v V. unfold le_value, le16. cbn [fold_right]. Z.div_mod_to_equations. lia. Qed.
Lemma size_nibble : forall c k, 0 <= k < 16 -> Z.lor (Z.land c 240) k mod 16 = k.
Proof.
  intros c k K. change 16 with (2 ^ 4). rewrite <- Z.land_ones by lia. rewrite Z.land_lor_distr_l.
  rewrite <- Z.land_assoc. change (Z.land 240 (Z.ones 4)) with 0. rewrite Z.land_0_r, Z.lor_0_l.
  rewrite Z.land_ones by lia. apply Z.mod_small. lia.
Qed.
Lemma size_code_spec : forall c n code, In (code, n) sms_size_codes -> sega_CalcSizeCode c n mod 16 = code /\ 0 <= code < 16.
Proof.
  intros c n code I. cbn [In sms_size_codes] in I.
  repeat (destruct I as [I|I]; [inversion I; subst; unfold sega_CalcSizeCode; cbn [Z.eqb Pos.eqb]; rewrite size_nibble by lia; lia|]).
  destruct I.
Qed.
Lemma size_code_byte : forall c n code, is_byte c -> In (code, n) sms_size_codes -> is_byte (sega_CalcSizeCode c n).
Proof.
  intros c n code B I. destruct (size_code_spec c n code I) as [E R].
  assert (X : exists k, sega_CalcSizeCode c n = Z.lor (Z.land c 240) k /\ 0 <= k < 16).
  { unfold sega_CalcSizeCode. repeat match goal with |- context [if ?b then _ else _] => destruct b end; eexists; (split; [reflexivity|lia]). }
  destruct X as (k & -> & K). unfold is_byte in *.
  assert (P : 0 <= Z.lor (Z.land c 240) k) by (apply Z.lor_nonneg; split; [apply Z.land_nonneg|]; lia).
  split; [auto|]. destruct (Z.eq_dec (Z.lor (Z.land c 240) k) 0) as [->|NZ]; [lia|].
  change 256 with (2 ^ 8). apply Z.log2_lt_pow2; [lia|].
  rewrite Z.log2_lor by (try apply Z.land_nonneg; lia). apply Z.max_lub_lt.
  - eapply Z.le_lt_trans; [apply Z.log2_land; lia|]. change (Z.log2 240) with 7. lia.
  - destruct (Z.eq_dec k 0) as [->|]; [cbn; lia|]. apply Z.log2_lt_pow2; lia.
Qed.
Lemma sms_header : forall d h code, bytes d -> In (code, zlen d) sms_size_codes -> 0 <= h -> h + 16 <= zlen d ->
  let r := f_data (sega_UpdateMasterSystemHeader (openFile d) h) in
  sms_valid r h /\ same_outside [(h, 12); (h + 15, 1)] d r.
Proof.
  intros d h code B I H L.
  destruct (cut d h) as (A & d1 & -> & LA); [lia|]. rewrite zlen_app in L.
  destruct (cut d1 10) as (X & d2 & -> & LX); [lia|]. rewrite zlen_app in L.
  destruct (cut d2 2) as (Y & d3 & -> & LY); [lia|]. rewrite zlen_app in L.
  destruct (cut d3 3) as (N & d4 & -> & LN); [lia|]. rewrite zlen_app in L.
  destruct (cut1 d4) as (c & T & ->); [lia|]. clear L.
  set (d := A ++ X ++ Y ++ N ++ c :: T) in *.
  unfold sega_UpdateMasterSystemHeader, openFile. cbn zeta. cbn [f_data].
  set (cs := sega_CalcMasterSystemCheckSum d h).
  assert (LTT : (length A = Z.to_nat h)%nat) by (unfold zlen in LA; lia).
  assert (SK : forall V W Q : list Z, zlen V = 10 -> zlen W = 2 -> zlen Q = 4 -> skipn (Z.to_nat h + 16) (A ++ V ++ W ++ Q ++ T) = T).
  { intros V W Q LV LW LQ. replace (A ++ V ++ W ++ Q ++ T) with ((A ++ V ++ W ++ Q) ++ T) by (rewrite <- !app_assoc; reflexivity).
    assert (E : length (A ++ V ++ W ++ Q) = (Z.to_nat h + 16)%nat) by (unfold zlen in *; rewrite !app_length; lia).
    rewrite <- E, skipn_app, skipn_all, Nat.sub_diag. reflexivity. }
  assert (CS : cs = (sum A + sum T) mod 65536).
  { assert (E : cs = byteSum (A ++ T) 0).
    { unfold cs, sega_CalcMasterSystemCheckSum. rewrite <- LTT.
      replace (length A - length d)%nat with 0%nat by (unfold d; rewrite app_length; lia). cbn [repeat]. rewrite app_nil_r.
      assert (firstn (length A) d = A) as -> by (unfold d; rewrite firstn_app, Nat.sub_diag, firstn_all; cbn; apply app_nil_r).
      pose proof (zlen_nonneg _ T).
      assert (Q : zlen d = h + 16 + zlen T) by (unfold d; rewrite !zlen_app, zlen_cons; lia). rewrite Q.
      rewrite byteSum_app. destruct (h + 16 + zlen T - (h + 16) >? 0) eqn:E.
      - f_equal. rewrite LTT. unfold d. replace (N ++ c :: T) with ((N ++ [c]) ++ T) by (rewrite <- app_assoc; reflexivity).
        apply SK; auto. rewrite zlen_app, LN. reflexivity.
      - assert (T = []) as -> by (destruct T; auto; rewrite zlen_cons in E; pose proof (zlen_nonneg _ T); lia). reflexivity. }
    rewrite E. pose proof (byteSum_spec (A ++ T) 0) as P. pose proof (byteSum_range (A ++ T) 0) as R.
    rewrite Z.mod_small in P by (apply R; lia). rewrite P, sum_app. f_equal. }
  clearbody cs. assert (CR : 0 <= cs < 65536) by (subst cs; Z.div_mod_to_equations; lia).
  set (f1 := fputlw _ cs).
  assert (F1 : f1 = File (A ++ tmrSega ++ le16 cs ++ N ++ c :: T) (h + 12)).
  { unfold f1, fputlw, fwrite, fseek. cbn [f_data f_pos]. rewrite (Z.mod_small cs) || idtac.
    unfold d. rewrite overwrite_middle by (auto; rewrite LX; reflexivity).
    assert (u16 cs = cs) as -> by (unfold u16; rewrite Z.mod_small; lia).
    rewrite (app_assoc A). rewrite overwrite_middle; [rewrite <- app_assoc; f_equal; change (zlen tmrSega) with 10; change (zlen (le16 cs)) with 2; lia| |rewrite LY; reflexivity].
    rewrite zlen_app. change (zlen tmrSega) with 10. lia. }
  rewrite F1. clear f1 F1.
  assert (E : A ++ tmrSega ++ le16 cs ++ N ++ c :: T = (A ++ tmrSega ++ le16 cs ++ N) ++ c :: T) by (rewrite <- !app_assoc; reflexivity).
  assert (LP : zlen (A ++ tmrSega ++ le16 cs ++ N) = h + 15) by (rewrite !zlen_app; change (zlen tmrSega) with 10; change (zlen (le16 cs)) with 2; lia).
  rewrite E. unfold fseek_cur. cbn [f_data f_pos].
  assert (G : fgetc (File ((A ++ tmrSega ++ le16 cs ++ N) ++ c :: T) (h + 12 + 3)) = (Some c, File ((A ++ tmrSega ++ le16 cs ++ N) ++ c :: T) (h + 16))).
  { change (File ((A ++ tmrSega ++ le16 cs ++ N) ++ c :: T) (h + 12 + 3)) with (fseek (File ((A ++ tmrSega ++ le16 cs ++ N) ++ c :: T) 0) (h + 12 + 3)).
    rewrite fgetc_at by lia. do 2 f_equal. lia. }
  rewrite G. cbn [f_data f_pos].
  set (v := sega_CalcSizeCode c (zlen d)).
  assert (BC : is_byte c).
  { unfold bytes, d in B. rewrite !Forall_app in B. destruct B as (_ & _ & _ & _ & B). now inversion B. }
  assert (VB : is_byte v) by (unfold v; eapply size_code_byte; eauto).
  assert (VC : v mod 16 = code) by (apply size_code_spec; auto). clearbody v.
  assert (F2 : f_data (fputc (File ((A ++ tmrSega ++ le16 cs ++ N) ++ c :: T) (h + 16 + -1)) v) = A ++ tmrSega ++ le16 cs ++ N ++ v :: T).
  { unfold fputc, fwrite. cbn [f_data f_pos]. assert (u8 v = v) as -> by (unfold u8, is_byte in *; now rewrite Z.mod_small).
    change (c :: T) with ([c] ++ T). rewrite overwrite_middle by (reflexivity || lia). rewrite <- !app_assoc. reflexivity. }
  rewrite F2. set (r := A ++ tmrSega ++ le16 cs ++ N ++ v :: T).
  assert (RL : zlen r = zlen d) by (unfold r, d; rewrite !zlen_app, !zlen_cons, LX, LY; reflexivity).
  split; [constructor|split; [now rewrite RL|]].
  - unfold r. change tmrSega with ([84; 77; 82; 32; 83; 69; 71; 65] ++ [32; 32]). rewrite <- app_assoc. apply bytes_at_app; auto.
  - assert (bytes_at r (h + 10) 2 = le16 cs) as ->.
    { unfold r. rewrite (app_assoc A). apply bytes_at_app; [|reflexivity]. rewrite zlen_app. change (zlen tmrSega) with 10. lia. }
    rewrite le16_value by auto. rewrite CS. f_equal. f_equal.
    + f_equal. unfold r. rewrite <- (app_nil_l (A ++ _)). symmetry. apply bytes_at_app; auto.
    + f_equal. replace (Z.to_nat (h + 16)) with (Z.to_nat h + 16)%nat by lia. symmetry. unfold r.
      replace (N ++ v :: T) with ((N ++ [v]) ++ T) by (rewrite <- app_assoc; reflexivity). apply SK; [reflexivity|reflexivity|].
      rewrite zlen_app, LN. reflexivity.
  - rewrite RL. assert (byte_at r (h + 15) = v) as ->; [|rewrite VC; exact I].
    assert (r = (A ++ tmrSega ++ le16 cs ++ N) ++ v :: T) as -> by (unfold r; rewrite <- !app_assoc; reflexivity).
    apply byte_at_app. lia.
  - intros k K NOT.
    assert (N1 : ~ (h <= k < h + 12) /\ ~ (h + 15 <= k < h + 15 + 1)) by (split; [apply (NOT h 12)|apply (NOT (h + 15) 1)]; cbn; auto).
    change byte_at with byte. unfold d, r.
    apply byte_pre; auto. rewrite LA. intro K1.
    apply byte_pre; [lia|rewrite LX; reflexivity|rewrite LX; lia|]. rewrite LX. intro K2.
    apply byte_pre; [lia|rewrite LY; reflexivity|rewrite LY; lia|]. rewrite LY. intro K3.
    apply byte_pre; [lia|reflexivity|reflexivity|]. rewrite LN. intro K4.
    apply (byte_pre [c] [v]); [lia|reflexivity|change (zlen [c]) with 1; lia|reflexivity].
Qed.
