(** C37 and C38: literals and macro bodies. *)
From Coq Require Import ZArith List Bool Lia ZifyBool ZifyNat.
From Verif Require Import Base BaseFacts LexModel LexSpec LexProofs.
Import ListNotations.
Open Scope Z_scope.

(** ** C37 *)

Lemma variadic_start : forall imuldiv n pre radix d ds tail args u,
  prefix pre radix -> is_digit radix d ->
  exists b, delivers b (d :: ds ++ tail) /\ (length (b_stack b) <= 1)%nat /\
    acceptVariadic defaultLiterals imuldiv n (Buf [] (pre ++ (d :: ds) ++ tail) args u) =
    let! (t, b2) := acceptNumeric defaultLiterals imuldiv n radix b in Ok (Some t, b2).
Proof.
  intros imuldiv n pre radix d ds tail args u P Hd. unfold acceptVariadic. destruct P.
  - destruct (is_digit_plain 10 d Hd) as (D0 & D92).
    assert (Hi : isdigit d = true).
    { destruct Hd as (v & Hv & L). unfold digit in Hv. unfold isdigit.
      repeat match type of Hv with context [if ?b then _ else _] => destruct b eqn:? end; inversion Hv; lia. }
    cbn [app]. rewrite (getChar_text args u d (ds ++ tail) D0) by (intros E; contradiction). cbn [bind].
    unfold isdigit in *.
    destruct (Z.eqb_spec d 36); [subst; discriminate Hi|]. destruct (Z.eqb_spec d 37); [subst; discriminate Hi|].
    destruct (Z.eqb_spec d 96); [subst; discriminate Hi|].
    cbn [unput b_stack length stackSize Nat.ltb Nat.leb bind b_text b_args b_unique]. rewrite Hi.
    eexists. split; [|split; [|reflexivity]]; [reflexivity|cbn; lia].
  - cbn [app]. rewrite (getChar_text args u 36) by lia. cbn [bind]. change (36 =? 36) with true. cbv iota.
    eexists. split; [|split; [|reflexivity]]; [reflexivity|cbn; lia].
  - cbn [app]. rewrite (getChar_text args u 37) by lia. cbn [bind].
    change (37 =? 36) with false. change (37 =? 37) with true. cbv iota.
    eexists. split; [|split; [|reflexivity]]; [reflexivity|cbn; lia].
Qed.

(** Any digits after nothing, $ or %, up to a character that is no digit of the
    radix, are a number with their positional value modulo 2^32 (as a signed
    value), and what is read next starts with that character.  Characters with a
    meaning of their own after digits are '.', 'f' and, after a decimal number,
    '$'. *)
Theorem C37_integer : forall imuldiv n pre radix ds c rest args u,
  prefix pre radix -> ds <> [] -> Forall (is_digit radix) ds -> no_digit radix c ->
  ~ In c [0; 92; 46; 102] -> (pre = [] -> c <> 36) ->
  (length ds <= 257)%nat -> (length ds < n)%nat ->
  exists b', acceptVariadic defaultLiterals imuldiv n (Buf [] (pre ++ ds ++ c :: rest) args u) =
      Ok (Some (NNumber (s32 (positional radix ds))), b') /\
    b_stack b' ++ b_text b' = c :: rest.
Proof.
  intros imuldiv n pre radix ds c rest args u P Nd Fd Nc Ci C36 L Ln.
  destruct ds as [|d ds]; [contradiction|]. inversion Fd as [|? ? Hd _]; subst.
  destruct (variadic_start imuldiv n pre radix d ds (c :: rest) args u P Hd) as (b & D & Lb & ->).
  assert (R : radix = 2 \/ radix = 10 \/ radix = 16) by (destruct P; auto).
  destruct (numeric_integer imuldiv n radix (d :: ds) c rest b R Fd Nc) as (b' & -> & D' & _); try exact D; try lia;
    try (intros E; apply Ci; cbn; lia).
  - intros E. apply C36. destruct P; [reflexivity|discriminate E|discriminate E].
  - cbn [bind]. eauto.
Qed.
Print Assumptions C37_integer.

(** Digits followed by '.' and no further digit are an integer; the '.' is left. *)
Theorem C37_integer_dot : forall imuldiv n pre radix ds c rest args u,
  prefix pre radix -> ds <> [] -> Forall (is_digit radix) ds -> no_digit radix c ->
  ~ In c [0; 92] ->
  (length ds <= 257)%nat -> (length ds < n)%nat ->
  exists b', acceptVariadic defaultLiterals imuldiv n (Buf [] (pre ++ ds ++ 46 :: c :: rest) args u) =
      Ok (Some (NNumber (s32 (positional radix ds))), b') /\
    b_stack b' ++ b_text b' = 46 :: c :: rest.
Proof.
  intros imuldiv n pre radix ds c rest args u P Nd Fd Nc Ci L Ln.
  destruct ds as [|d ds]; [contradiction|]. inversion Fd as [|? ? Hd _]; subst.
  destruct (variadic_start imuldiv n pre radix d ds (46 :: c :: rest) args u P Hd) as (b & D & Lb & ->).
  assert (R : radix = 2 \/ radix = 10 \/ radix = 16) by (destruct P; auto).
  destruct (numeric_dot imuldiv n radix (d :: ds) c rest b R Fd Nc) as (b' & -> & D'); try exact D; try lia;
    try (intros E; apply Ci; cbn; lia).
  cbn [bind]. eauto.
Qed.
Print Assumptions C37_integer_dot.

(** Digits, '.', digits: the value times 65536, rounded down, modulo 2^32, as
    long as there are so few digits after the point that the denominator fits. *)
Theorem C37_fixed_point_partial : forall imuldiv n pre radix ds fs c rest args u,
  imuldiv_ok imuldiv ->
  prefix pre radix -> ds <> [] -> fs <> [] -> Forall (is_digit radix) ds -> Forall (is_digit radix) fs ->
  no_digit radix c -> ~ In c [0; 92; 102] -> radix ^ zlen fs < 2 ^ 31 ->
  (length ds + length fs <= 257)%nat -> (length ds + length fs < n)%nat ->
  exists b', acceptVariadic defaultLiterals imuldiv n (Buf [] (pre ++ ds ++ 46 :: fs ++ c :: rest) args u) =
      Ok (Some (NNumber (s32 (positional radix (ds ++ fs) * 65536 / radix ^ zlen fs))), b') /\
    b_stack b' ++ b_text b' = c :: rest.
Proof.
  intros imuldiv n pre radix ds fs c rest args u IM P Nd Nf Fd Ff Nc Ci Hp L Ln.
  assert (EP : positional radix (ds ++ fs) = positional radix ds * radix ^ zlen fs + positional radix fs).
  { assert (0 < radix) by (destruct P; lia).
    clear - H. induction ds as [|d ds IH]; [cbn; lia|]. cbn [app positional]. rewrite IH.
    unfold zlen. rewrite app_length, Nat2Z.inj_add, Z.pow_add_r by lia. destruct (digit d); ring. }
  rewrite EP.
  destruct ds as [|d ds]; [contradiction|]. inversion Fd as [|? ? Hd _]; subst.
  destruct (variadic_start imuldiv n pre radix d ds (46 :: fs ++ c :: rest) args u P Hd) as (b & D & Lb & ->).
  assert (R : radix = 2 \/ radix = 10 \/ radix = 16) by (destruct P; auto).
  destruct (numeric_fixed imuldiv n radix (d :: ds) fs c rest b IM R Fd Ff Nf Nc) as (b' & -> & D'); try exact D; try lia;
    try (intros E; apply Ci; cbn; lia).
  cbn [bind]. eauto.
Qed.
Print Assumptions C37_fixed_point_partial.

Lemma gb_digit : forall p, 0 <= p <= 3 -> indexOf (l_gameboy defaultLiterals) (48 + p) 0 = Some p.
Proof. intros p H. assert (p = 0 \/ p = 1 \/ p = 2 \/ p = 3) as [-> |[-> |[-> | ->]]] by lia; reflexivity. Qed.

(** A back quote and pixels 0..3: the high byte is the low bit plane of the
    pixels and the low byte the high one, for up to eight pixels. *)
Theorem C37_gameboy_value_partial : forall imuldiv n px c rest args u,
  Forall (fun p => 0 <= p <= 3) px -> (length px <= 8)%nat -> (length px < n)%nat ->
  ~ In c [0; 92; 48; 49; 50; 51] ->
  exists b', acceptVariadic defaultLiterals imuldiv n (Buf [] (96 :: map (fun p => 48 + p) px ++ c :: rest) args u) =
      Ok (Some (NNumber (256 * plane 0 px + plane 1 px)), b').
Proof.
  intros imuldiv n px c rest args u Fp L Ln Ci. unfold acceptVariadic.
  rewrite (getChar_text args u 96) by lia. cbn [bind].
  change (96 =? 36) with false. change (96 =? 37) with false. change (96 =? 96) with true. cbv iota.
  change 0 with (u32 0) at 1.
  edestruct (gameboy_run defaultLiterals (map (fun p => 48 + p) px) n 0
     (Buf [] (map (fun p => 48 + p) px ++ c :: rest) args u) c rest) as (b' & -> & D').
  - apply Forall_map. eapply Forall_impl; [|exact Fp]. intros p Hp. cbn beta in *. rewrite (gb_digit p Hp).
    split; [discriminate|lia].
  - cbn [l_gameboy defaultLiterals indexOf].
    repeat match goal with |- context [?a =? ?b] => destruct (Z.eqb_spec a b); [exfalso; apply Ci; cbn; lia|] end. reflexivity.
  - intros E; apply Ci; cbn; lia.
  - intros E; apply Ci; cbn; lia.
  - reflexivity.
  - rewrite map_length. exact Ln.
  - cbn [bind]. exists b'. f_equal. f_equal. f_equal. f_equal.
    assert (EF : forall l acc, Forall (fun p => 0 <= p <= 3) l ->
       fold_left (fun r ch => r * 2 + gbvalue defaultLiterals ch mod 2 * 256 + gbvalue defaultLiterals ch / 2)
         (map (fun p => 48 + p) l) acc = fold_left (fun r p => r * 2 + p mod 2 * 256 + p / 2) l acc).
    { induction l as [|p l IH]; intros acc F; [reflexivity|]. inversion F; subst. cbn [map fold_left].
      assert (G : gbvalue defaultLiterals (48 + p) = p) by (unfold gbvalue; rewrite (gb_digit p) by assumption; reflexivity).
      rewrite G. apply IH; assumption. }
    rewrite (EF px 0 Fp), gameboy_planes by assumption. rewrite Z.mul_0_l, Z.add_0_l.
    assert (B : forall bit, 0 <= plane bit px < 2 ^ zlen px).
    { intros bit. clear. induction px as [|p px IH]; [unfold zlen; cbn; lia|]. cbn [plane].
      unfold zlen in *. cbn [length]. rewrite Nat2Z.inj_succ, Z.pow_succ_r by lia.
      pose proof (Z.mod_pos_bound (p / 2 ^ bit) 2 ltac:(lia)). nia. }
    assert (2 ^ zlen px <= 2 ^ 8) by (apply Z.pow_le_mono_r; unfold zlen; lia).
    pose proof (B 0). pose proof (B 1). change (2 ^ 8) with 256 in *.
    rewrite s32_u32. unfold s32. rewrite Z.mod_small by lia. lia.
Qed.
Print Assumptions C37_gameboy_value_partial.

(** But the character that ends the pixels is lost: in "`0123,5" the comma. *)
Theorem C37_gameboy_terminator_refuted : forall imuldiv,
  exists b', acceptVariadic defaultLiterals imuldiv 10 (Buf [] [96; 48; 49; 50; 51; 44; 53] [] []) =
      Ok (Some (NNumber 1283), b') /\ b_stack b' ++ b_text b' = [53].
Proof. intros. eexists. vm_compute. split; reflexivity. Qed.

(** Too many digits after the point: eight hexadecimal ones divide by zero, and
    ten decimal ones wrap the denominator, so 0.3000000000 is not 0.3. *)
Theorem C37_fraction_refuted :
  (forall imuldiv, acceptVariadic defaultLiterals imuldiv 20
     (Buf [] [36; 49; 46; 48; 48; 48; 48; 48; 48; 48; 48; 10] [] []) = UB) /\
  exists b', acceptVariadic defaultLiterals (fun a b c => a * b / c) 20
     (Buf [] [48; 46; 51; 48; 48; 48; 48; 48; 48; 48; 48; 48; 10] [] []) = Ok (Some (NNumber 139431), b') /\
    s32 (positional 10 [48; 51; 48; 48; 48; 48; 48; 48; 48; 48; 48] * 65536 / 10 ^ 10) <> 139431.
Proof.
  split.
  - intros; reflexivity.
  - eexists. split; [vm_compute; reflexivity|vm_compute; discriminate].
Qed.

(** A $ with no digit after it is the number 0, so is a %; and a binary literal
    may end in f, which makes it a floating point number. *)
Theorem C37_no_digits_refuted : forall imuldiv,
  (exists b', acceptVariadic defaultLiterals imuldiv 5 (Buf [] [36; 120; 10] [] []) = Ok (Some (NNumber 0), b')) /\
  (exists b', acceptVariadic defaultLiterals imuldiv 5 (Buf [] [37; 120; 10] [] []) = Ok (Some (NNumber 0), b')) /\
  (exists b', acceptVariadic defaultLiterals imuldiv 9 (Buf [] [37; 49; 48; 102; 10] [] []) = Ok (Some (NFloat 2 0 1), b')).
Proof. intros. repeat apply conj; eexists; vm_compute; reflexivity. Qed.

(** 258 digits are written beyond the end of the token's text. *)
Theorem C37_long_refuted : forall imuldiv,
  acceptVariadic defaultLiterals imuldiv 300 (Buf [] (repeat 48 258 ++ [10]) [] []) = UB.
Proof. intros. vm_compute. reflexivity. Qed.

(** *** Examples: $FF,  %101;  4294967297;  3.25 *)
Example C37_ex_hex : exists b', acceptVariadic defaultLiterals (fun a b c => a * b / c) 9
    (Buf [] [36; 70; 70; 44; 37] [] []) = Ok (Some (NNumber 255), b') /\ b_stack b' ++ b_text b' = [44; 37].
Proof.
  apply (C37_integer (fun a b c => a * b / c) 9 [36] 16 [70; 70] 44 [37] [] []); try (cbn; lia); try discriminate; try constructor.
  - exists 15; split; [reflexivity|lia].
  - repeat constructor. exists 15; split; [reflexivity|lia].
Qed.
Example C37_ex_wrap : s32 (positional 10 [52; 50; 57; 52; 57; 54; 55; 50; 57; 55]) = 1.
Proof. reflexivity. Qed.
Example C37_ex_fixed : exists b', acceptVariadic defaultLiterals (fun a b c => a * b / c) 9
    (Buf [] [51; 46; 50; 53; 10] [] []) = Ok (Some (NNumber 212992), b') /\ b_stack b' ++ b_text b' = [10].
Proof. eexists. vm_compute. split; reflexivity. Qed.
Example C37_ex_imuldiv : imuldiv_ok (fun a b c => a * b / c).
Proof. intros a b c _ _ _. reflexivity. Qed.

(** ** C38 *)

(** Reading a macro's body character by character gives the body with every
    \0-\9 replaced by the argument and \@ by the unique value.  [n] is the number
    of characters asked for. *)
Theorem C38_substitution_partial : forall args u body n,
  (forall c, is_ref c = true ->
     let r := replacement args u c in text_ok r /\ quiet r = true /\ (length r <= 256)%nat) ->
  text_ok body -> no_empty_run args u body = true ->
  (length (substitute args u body) < n)%nat ->
  readAll n (Buf [] body args u) = Ok (substitute args u body).
Proof.
  intros args u body n A T N L.
  exact (read_body args u A n [] body ltac:(constructor) eq_refl T N L).
Qed.
Print Assumptions C38_substitution_partial.

(** A character that was read can be put back and is then read again. *)
Theorem C38_put_back : forall b c b',
  getChar b = Ok (c, b') -> c <> 0 -> c <> 92 -> (length (b_stack b') < 256)%nat ->
  exists b'', unput b' c = Ok b'' /\ getChar b'' = Ok (c, b').
Proof.
  intros b c [s t a u] _ C0 C92 L. unfold unput. cbn [b_stack] in *.
  destruct (Nat.ltb_spec (length s) stackSize) as [_|H]; [|unfold stackSize in H; lia].
  eexists. split; [reflexivity|]. unfold getChar, nextChar. cbn [b_stack b_text b_args b_unique].
  destruct (Z.eqb_spec c 0); [contradiction|]. destruct (Z.eqb_spec c 92); [contradiction|]. reflexivity.
Qed.
Print Assumptions C38_put_back.

(** After SHIFT k, \i stands for what \(i+k) stood for, and \0 is unchanged. *)
Theorem C38_shift : forall k args u i,
  (i + k <= 8)%nat ->
  replacement (shiftArguments k args) u (48 + Z.of_nat (S i)) = replacement args u (48 + Z.of_nat (S (i + k))) /\
  replacement (shiftArguments k args) u 48 = replacement args u 48.
Proof.
  intros k args u i H. unfold replacement.
  destruct (Z.eqb_spec (48 + Z.of_nat (S i)) 64); [lia|].
  destruct (Z.eqb_spec (48 + Z.of_nat (S (i + k))) 64); [lia|].
  change (48 =? 64) with false. cbv iota.
  replace (Z.to_nat (48 + Z.of_nat (S i) - 48)) with (S i) by lia.
  replace (Z.to_nat (48 + Z.of_nat (S (i + k)) - 48)) with (S i + k)%nat by lia.
  change (Z.to_nat (48 - 48)) with 0%nat.
  rewrite shift_nth, shift_first. auto.
Qed.
Print Assumptions C38_shift.

(** Two expansions have different \@ (the count is a uint32_t). *)
Theorem C38_unique : forall i j, 0 <= i < 2 ^ 32 -> 0 <= j < 2 ^ 32 -> i <> j -> uniqueValue i <> uniqueValue j.
Proof. intros i j Hi Hj N E. apply N. exact (unique_inj i j Hi Hj E). Qed.
Print Assumptions C38_unique.

(** What is missing.  An argument that is empty and directly followed by another
    reference: \1\2 with \1 empty and \2 = "x" reads as "\2". *)
Theorem C38_empty_argument_refuted :
  let args := [None; Some []; Some [120]] in
  readAll 9 (Buf [] [92; 49; 92; 50] args [95; 49]) = Ok [92; 50] /\
  substitute args [95; 49] [92; 49; 92; 50] = [120].
Proof. split; reflexivity. Qed.
(** An argument that ends in a backslash joins the digit after it, and one that
    contains a reference is expanded again, without end if it refers to itself. *)
Theorem C38_argument_backslash_refuted :
  let args := [None; Some [97; 92]; Some [120]] in
  readAll 9 (Buf [] [92; 49; 50] args [95; 49]) = Ok [97; 120] /\
  substitute args [95; 49] [92; 49; 50] = [97; 92; 50].
Proof. split; reflexivity. Qed.
(** An argument of 257 characters is written beyond the end of the stack. *)
Theorem C38_long_argument_refuted :
  readAll 300 (Buf [] [92; 49] [None; Some (repeat 97 257)] []) = UB.
Proof. vm_compute. reflexivity. Qed.

(** *** Example: "a\1,\@" with \1 = "xy" and \@ = "_7". *)
Example C38_ex : readAll 20 (Buf [] [97; 92; 49; 44; 92; 64] [None; Some [120; 121]] (uniqueValue 7)) =
  Ok [97; 120; 121; 44; 95; 55].
Proof.
  apply (C38_substitution_partial [None; Some [120; 121]] (uniqueValue 7) [97; 92; 49; 44; 92; 64] 20).
  - intros c H. cbv zeta. unfold replacement.
    destruct (c =? 64). { repeat split; [repeat constructor; discriminate|vm_compute; lia]. }
    destruct (Z.to_nat (c - 48)) as [|[|[|k]]]; cbn [nth_error];
    repeat split; try reflexivity; try (repeat constructor; discriminate); try (cbn; lia).
    all: destruct k; cbn; try (repeat constructor); lia.
  - repeat constructor; discriminate.
  - reflexivity.
  - vm_compute; lia.
Qed.
