(** C56: string expressions and formatted integers. *)
From Coq Require Import Ascii String ZArith List Bool Lia ZifyBool ZifyNat.
From Verif Require Import Base BaseFacts StrModel StrSpec StrProofs.
Import ListNotations.
Open Scope string_scope.
Open Scope list_scope.
Open Scope Z_scope.

Fixpoint txt (s : string) : list Z :=
  match s with EmptyString => [] | String c r => Z.of_nat (nat_of_ascii c) :: txt r end.

(** A string expression, however it is written, has its value, and reading it stops at
    its end. *)
Theorem C56_expression : forall e l r n, sum e l -> fits_int e -> ends_expression r -> (S (length l) < n)%nat ->
  parse_StringExpression n (l ++ r) = Ok (Some (value e), r).
Proof. intros e l r n W F E N. apply parse_of_sum; auto. apply (proj2 all_read). exact W. Qed.
Print Assumptions C56_expression.
(** ("ab"+"Cd").upper.slice(-3,2)+"x" *)
Example C56_ex_expression :
  let e := EAdd (ESlice (EUpper (EAdd (ELit (txt "ab")) (ELit (txt "Cd")))) (-3) (Some 2)) (ELit (txt "x")) in
  let l := [KOpen; KString (txt "ab"); KAdd; KString (txt "Cd"); KClose; KDot; KUpper; KDot; KSlice; KOpen; KNumber (-3); KComma; KNumber 2; KClose; KAdd; KString (txt "x")] in
  sum e l /\ fits_int e /\ value e = txt "BCx" /\ parse_StringExpression 20 (l ++ [KComma]) = Ok (Some (txt "BCx"), [KComma]).
Proof.
  cbv zeta. split; [|split; [vm_compute; intuition discriminate|split; vm_compute; reflexivity]].
  apply (S_add _ _ [KOpen; KString (txt "ab"); KAdd; KString (txt "Cd"); KClose; KDot; KUpper; KDot; KSlice; KOpen; KNumber (-3); KComma; KNumber 2; KClose] [KString (txt "x")]); [|constructor].
  apply S_term. apply (T_slice2 _ [KOpen; KString (txt "ab"); KAdd; KString (txt "Cd"); KClose; KDot; KUpper]).
  apply (T_upper _ [KOpen; KString (txt "ab"); KAdd; KString (txt "Cd"); KClose]).
  apply (T_paren _ [KString (txt "ab"); KAdd; KString (txt "Cd")]).
  apply (S_add _ _ [KString (txt "ab")] [KString (txt "Cd")]); [apply S_term|]; constructor.
Qed.
(** Refuted: that a count that is too large takes what is left.  Near the largest integer
    the position of the end overflows. *)
Theorem C56_slice_refuted :
  parse_StringExpression 20 [KString (txt "abc"); KDot; KSlice; KOpen; KNumber 1; KComma; KNumber 2147483647; KClose] = UB /\
  part (txt "abc") 1 (Some 2147483647) = txt "bc".
Proof.
  split; [vm_compute; reflexivity|]. unfold part. change (1 <? 0) with false. cbv iota.
  apply firstn_all2. cbn [txt skipn Z.to_nat]. change (Z.to_nat 2147483647) with (Pos.to_nat 2147483647).
  change (length _) with 2%nat. lia.
Qed.
Print Assumptions C56_slice_refuted.

(** {v:Dp}: all digits of the number, at least [p], after a minus if it is negative. *)
Theorem C56_decimal : forall f v p, - 2147483648 < v <= 2147483647 ->
  exists digits, formatValue f v 68 p = Ok ((if v <? 0 then [45] else []) ++ digits) /\
    shows 10 digits (Z.abs v) /\ no_more_than_needed (Z.to_nat p) digits.
Proof.
  intros f v p V. unfold formatValue. change (68 =? 68) with true. cbv iota.
  assert (W : Z.to_nat (if p <? 0 then 0 else p) = Z.to_nat p) by (destruct (Z.ltb_spec p 0); lia). rewrite W.
  assert (P : 0 <= Z.abs v < 2 ^ 33) by (change (2 ^ 33) with 8589934592; lia).
  destruct (printUnsigned_ok (Z.to_nat p) 10 (Z.abs v) ltac:(lia) P) as (ds & E & F & NV & NN & L & H).
  exists (map digitChar ds). split; [|split].
  - destruct (Z.ltb_spec v 0).
    + destruct (Z.eqb_spec v (-2147483648)); [lia|]. replace (- v) with (Z.abs v) by lia. rewrite E. reflexivity.
    + replace (Z.abs v) with v in E by lia. rewrite E. reflexivity.
  - rewrite <- NV. apply shows_intro. exact F.
  - apply needed_intro; auto. apply Forall_impl with (2 := F). intros; cbn in *; lia.
Qed.
Print Assumptions C56_decimal.
Lemma exact_length : forall base k ds, 2 <= base -> Forall (fun d => 0 <= d < base) ds -> num base ds < base ^ Z.of_nat k -> (0 < k)%nat ->
  (k <= length ds)%nat -> ((k < length ds)%nat -> (1 < length ds)%nat -> hd 0 ds <> 0) -> length ds = k.
Proof.
  intros base k ds B F N K L H. destruct (Nat.eq_dec (length ds) k) as [|NE]; [assumption|]. exfalso.
  assert (HD : hd 0 ds <> 0) by (apply H; lia). destruct ds as [|d ds]; [cbn in L; lia|]. cbn [hd length] in *.
  inversion F as [|? ? D F']; subst.
  assert (E : num base (d :: ds) = d * base ^ Z.of_nat (length ds) + num base ds).
  { change (d :: ds) with ([d] ++ ds). rewrite num_app. unfold num at 1. cbn [fold_left]. lia. }
  pose proof (num_mod base ds 0 B F' ltac:(lia)) as (M & _). cbn [skipn] in M.
  assert (P : 0 < base ^ Z.of_nat (length ds - 0)) by (apply Z.pow_pos_nonneg; lia).
  pose proof (Z.mod_pos_bound (num base ds) _ P) as MB. rewrite <- M in MB.
  assert (Q : base ^ Z.of_nat k <= base ^ Z.of_nat (length ds)) by (apply Z.pow_le_mono_r; lia). nia.
Qed.
(** {v:Xp}: eight hexadecimal digits, or the last [p] of them.
    Partial: [p] is below 4, see below. *)
Theorem C56_hex_partial : forall f v p, p <= 3 ->
  exists digits, formatValue f v 88 p = Ok digits /\
    length digits = (if 0 <? p then Z.to_nat p else 8%nat) /\ shows 16 digits (v mod 16 ^ (if 0 <? p then p else 8)).
Proof.
  intros f v p P. unfold formatValue. change (88 =? 68) with false. change (88 =? 70) with false. change (88 =? 88) with true. cbv iota.
  assert (V : 0 <= u32 v < 2 ^ 33) by (unfold u32; pose proof (Z.mod_pos_bound v 4294967296 ltac:(lia)); change (2 ^ 33) with 8589934592; lia).
  assert (V2 : u32 v = v mod 16 ^ 8) by reflexivity.
  destruct (printUnsigned_ok 8 16 (u32 v) ltac:(lia) V) as (ds & E & F & NV & NN & L & H).
  assert (LD : length ds = 8%nat).
  { apply (exact_length 16 8 ds); auto; [lia| |lia]. rewrite NV, V2. change (Z.of_nat 8) with 8. apply Z.mod_pos_bound. lia. }
  rewrite E. destruct (Z.ltb_spec 0 p).
  - destruct (Z.leb_spec (8 - p) p); [lia|]. exists (skipn (Z.to_nat (8 - p)) (map digitChar ds)). split; [reflexivity|].
    rewrite skipn_length, map_length, LD. split; [lia|]. rewrite skipn_map.
    destruct (num_mod 16 ds (Z.to_nat (8 - p)) ltac:(lia) F ltac:(lia)) as (M & _).
    replace (Z.of_nat (length ds - Z.to_nat (8 - p))) with p in M by lia.
    assert (X : v mod 16 ^ p = num 16 (skipn (Z.to_nat (8 - p)) ds)).
    { rewrite M, NV, V2. replace (16 ^ 8) with (16 ^ p * 16 ^ (8 - p)) by (rewrite <- Z.pow_add_r by lia; f_equal; lia).
      rewrite Z.rem_mul_r by (try apply Z.pow_nonzero; try apply Z.pow_pos_nonneg; lia).
      rewrite Z.mul_comm, Z.add_mod, Z.mod_mul, Z.add_0_r by (apply Z.pow_nonzero; lia).
      rewrite !Z.mod_mod by (apply Z.pow_nonzero; lia). reflexivity. }
    rewrite X. apply shows_intro. rewrite <- (firstn_skipn (Z.to_nat (8 - p)) ds) in F. apply Forall_app in F. tauto.
  - exists (map digitChar ds). split; [reflexivity|]. split; [rewrite map_length; exact LD|]. rewrite <- V2, <- NV. apply shows_intro. exact F.
Qed.
Print Assumptions C56_hex_partial.
(** Refuted: the same for [p] from 4 on.  The digits are moved with memcpy within one
    buffer, which is undefined when the two places overlap, and from before the buffer
    when [p] is above 8. *)
Theorem C56_hex_refuted : forall f v p, 4 <= p -> formatValue f v 88 p = UB.
Proof.
  intros f v p P. unfold formatValue. change (88 =? 68) with false. change (88 =? 70) with false. change (88 =? 88) with true. cbv iota.
  destruct (Z.ltb_spec 0 p); [|lia]. destruct (Z.leb_spec (8 - p) p); [reflexivity|lia].
Qed.
Print Assumptions C56_hex_refuted.
(** {v:Fp}: a fixed point number, cut after [p] digits.
    Partial: [v] is not negative and [p] at most 5. *)
Theorem C56_fixed_partial : forall f v p, (forall a b c, 0 <= a -> 0 <= b -> 0 < c -> f a b c = a * b / c) ->
  0 <= v <= 2147483647 -> 0 <= p <= 5 ->
  exists whole fraction, formatValue f v 70 p = Ok (whole ++ 46 :: fraction) /\
    shows 10 whole (v / 65536) /\ no_more_than_needed 1 whole /\
    let k := if p =? 0 then 5 else p in
    length fraction = Z.to_nat k /\ shows 10 fraction (v mod 65536 * 10 ^ k / 65536).
Proof.
  intros f v p HF V P. unfold formatValue. change (70 =? 68) with false. change (70 =? 70) with true. cbv iota. cbv zeta.
  set (k := if p =? 0 then 5 else p). assert (K : 1 <= k <= 5) by (unfold k; destruct (Z.eqb_spec p 0); lia). clearbody k.
  assert (B : (k <? 0) || (8 <=? k) = false) by lia. rewrite B. clear B.
  change 65535 with (Z.ones 16). rewrite Z.land_ones by lia. change (2 ^ 16) with 65536.
  pose proof (Z.mod_pos_bound v 65536 ltac:(lia)) as M. set (x := v mod 65536) in *.
  rewrite HF by lia.
  assert (LOW : 0 <= x * 100000 / 65536 < 100000).
  { split; [apply Z.div_pos; lia|apply Z.div_lt_upper_bound; lia]. }
  rewrite Z.shiftr_div_pow2 by lia. change (2 ^ 16) with 65536.
  assert (HI : 0 <= v / 65536 < 2 ^ 33) by (split; [apply Z.div_pos; lia|apply Z.div_lt_upper_bound; change (2 ^ 33) with 8589934592; lia]).
  unfold printSigned. destruct (Z.ltb_spec (v / 65536) 0); [lia|].
  destruct (printUnsigned_ok 0 10 (v / 65536) ltac:(lia) HI) as (hs & EH & FH & NH & NNH & LH & HH). rewrite EH.
  destruct (printUnsigned_ok 5 10 (x * 100000 / 65536) ltac:(lia) ltac:(change (2 ^ 33) with 8589934592; lia)) as (ds & E & F & NV & NN & L & H2). rewrite E.
  assert (LD : length ds = 5%nat) by (apply (exact_length 10 5 ds); auto; [lia|rewrite NV; change (10 ^ Z.of_nat 5) with 100000; lia|lia]).
  exists (map digitChar hs), (firstn (Z.to_nat k) (map digitChar ds)). split; [reflexivity|].
  split; [rewrite <- NH; apply shows_intro; exact FH|]. split.
  { clear - FH NNH HH. apply needed_intro.
    - apply Forall_impl with (2 := FH). cbn beta. intros; lia.
    - exact NNH.
    - destruct hs; [congruence|cbn [length]; lia].
    - intros A A2. apply HH; lia. }
  split; [rewrite firstn_length, map_length; lia|]. rewrite firstn_map.
  destruct (num_mod 10 ds (Z.to_nat k) ltac:(lia) F ltac:(lia)) as (_ & Q).
  replace (Z.of_nat (length ds - Z.to_nat k)) with (5 - k) in Q by lia.
  assert (X : x * 10 ^ k / 65536 = num 10 (firstn (Z.to_nat k) ds)).
  { rewrite Q, NV, Z.div_div by (try apply Z.pow_pos_nonneg; lia).
    replace (x * 100000) with (x * 10 ^ k * 10 ^ (5 - k)).
    - rewrite Z.div_mul_cancel_r by (try apply Z.pow_nonzero; lia). reflexivity.
    - rewrite <- Z.mul_assoc, <- Z.pow_add_r by lia. replace (k + (5 - k)) with 5 by lia. reflexivity. }
  rewrite X. apply shows_intro. rewrite <- (firstn_skipn (Z.to_nat k) ds) in F. apply Forall_app in F. tauto.
Qed.
Print Assumptions C56_fixed_partial.
Definition exMuldiv (a b c : Z) : Z := a * b / c.
(** Refuted: the same for negative numbers; minus one half shows as -1.50000. *)
Theorem C56_fixed_negative_refuted : formatValue exMuldiv (-32768) 70 0 = Ok (txt "-1.50000").
Proof. vm_compute. reflexivity. Qed.
Print Assumptions C56_fixed_negative_refuted.
(** Refuted: for any number of digits; from 8 on a 0 is written beyond the buffer. *)
Theorem C56_fixed_digits_refuted : forall f v p, 8 <= p -> formatValue f v 70 p = UB.
Proof.
  intros f v p P. unfold formatValue. change (70 =? 68) with false. change (70 =? 70) with true. cbv iota. cbv zeta.
  destruct (Z.eqb_spec p 0); [lia|]. replace ((p <? 0) || (8 <=? p)) with true by lia. reflexivity.
Qed.
Print Assumptions C56_fixed_digits_refuted.
(** Refuted: decimal for every number; the least one has no negation. *)
Theorem C56_decimal_least_refuted : forall f p, formatValue f (-2147483648) 68 p = UB.
Proof. intros. reflexivity. Qed.
Print Assumptions C56_decimal_least_refuted.
(** {v:C}: the character. *)
Theorem C56_character : forall f v p, formatValue f v 67 p = Ok [v mod 256].
Proof.
  intros f v p. unfold formatValue. change (67 =? 68) with false. change (67 =? 70) with false. change (67 =? 88) with false.
  change (67 =? 67) with true. cbv iota. change 255 with (Z.ones 8). rewrite Z.land_ones by lia. reflexivity.
Qed.
Print Assumptions C56_character.
Example C56_ex_format : formatValue exMuldiv (-42) 68 4 = Ok (txt "-0042") /\ formatValue exMuldiv (-1) 88 3 = Ok (txt "FFF") /\
  formatValue exMuldiv 48879 88 0 = Ok (txt "0000BEEF") /\ formatValue exMuldiv 205887 70 3 = Ok (txt "3.141") /\ formatValue exMuldiv 65 67 0 = Ok (txt "A").
Proof. repeat split; vm_compute; reflexivity. Qed.
