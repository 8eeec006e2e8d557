(** Proofs for C37 and C38. *)
From Coq Require Import ZArith List Bool Lia ZifyBool ZifyNat.
From Verif Require Import Base BaseFacts LexModel LexSpec.
Import ListNotations.
Open Scope Z_scope.

(** ** Macro bodies *)
Section Macro.
Variable args : list (option (list Z)).
Variable u : list Z.
Hypothesis args_ok : forall d, is_ref d = true ->
  text_ok (replacement args u d) /\ quiet (replacement args u d) = true /\
  (length (replacement args u d) <= 256)%nat.

Lemma getChar_plain : forall c s t,
  c <> 0 -> (c = 92 -> match s ++ t with d :: _ => is_ref d = false | [] => True end) ->
  text_ok s -> getChar (Buf (c :: s) t args u) = Ok (c, Buf s t args u).
Proof.
  intros c s t C0 C92 Ts. unfold getChar, nextChar. cbn [b_stack b_text b_args b_unique].
  destruct (Z.eqb_spec c 0) as [|_]; [contradiction|].
  destruct (Z.eqb_spec c 92) as [E|_]; [|reflexivity]. specialize (C92 E).
  assert (R : forall d, is_ref d = false -> ((48 <=? d) && (d <=? 57)) = false /\ (d =? 64) = false).
  { intros d H. unfold is_ref in H. destruct ((48 <=? d) && (d <=? 57)); [discriminate H|auto]. }
  unfold peekChar. cbn [b_stack b_text].
  destruct s as [|x s].
  - destruct t as [|x t]; [reflexivity|]. cbn [app] in C92. destruct (R x C92) as (-> & ->). reflexivity.
  - inversion Ts as [|? ? X0 _]; subst. cbn [app] in C92. destruct (R x C92) as (R1 & R2).
    destruct (Z.eqb_spec x 0) as [|_]; [contradiction|]. rewrite R1, R2. reflexivity.
Qed.
Lemma getChar_text : forall c t,
  c <> 0 -> (c = 92 -> match t with d :: _ => is_ref d = false | [] => True end) ->
  getChar (Buf [] (c :: t) args u) = Ok (c, Buf [] t args u).
Proof.
  intros c t C0 C92. unfold getChar, nextChar, fromText. cbn [b_stack b_text b_args b_unique].
  destruct (Z.eqb_spec c 92) as [E|_]; [|reflexivity]. specialize (C92 E).
  unfold peekChar. cbn [b_stack b_text]. destruct t as [|x t]; [reflexivity|].
  unfold is_ref in C92. destruct ((48 <=? x) && (x <=? 57)); [discriminate C92|].
  cbn [orb] in C92. rewrite C92. reflexivity.
Qed.
Lemma getChar_ref : forall d t, is_ref d = true ->
  getChar (Buf [] (92 :: d :: t) args u) = Ok (nextChar (Buf (replacement args u d) t args u)).
Proof.
  intros d t R. destruct (args_ok d R) as (_ & _ & L).
  unfold getChar, nextChar at 1, fromText. cbn [b_stack b_text b_args b_unique].
  change (92 =? 92) with true. cbv iota. unfold peekChar. cbn [b_stack b_text].
  unfold is_ref in R. unfold replacement in *.
  destruct ((48 <=? d) && (d <=? 57)) eqn:E.
  - assert (N : (d =? 64) = false) by lia. rewrite N in *.
    unfold nextChar at 1, fromText. cbn [b_stack b_text b_args b_unique].
    destruct (nth_error args (Z.to_nat (d - 48))) as [[v|]|]; cbn [bind]; try reflexivity.
    unfold pushString. cbn [b_stack length Nat.add].
    destruct (Nat.leb_spec (length v) stackSize) as [|H]; [|unfold stackSize in H; lia].
    cbn [bind b_text b_args b_unique]. rewrite app_nil_r. reflexivity.
  - cbn [orb] in R. rewrite R in *. unfold nextChar at 1, fromText. cbn [b_stack b_text b_args b_unique].
    unfold pushString. cbn [b_stack length Nat.add].
    destruct (Nat.leb_spec (length u) stackSize) as [|H]; [|unfold stackSize in H; lia].
    cbn [bind b_text b_args b_unique]. rewrite app_nil_r. reflexivity.
Qed.

Lemma quiet_tail : forall c s, quiet (c :: s) = true -> quiet s = true.
Proof. intros c s H. cbn [quiet] in H. apply andb_prop in H. tauto. Qed.
Lemma quiet_head : forall c s t, quiet (c :: s) = true ->
  c = 92 -> match s ++ t with d :: _ => is_ref d = false | [] => True end.
Proof.
  intros c s t H E. cbn [quiet] in H. subst c. destruct s as [|d s].
  - cbn in H. discriminate H.
  - cbn [app]. cbn [starts_ref] in H. change (92 =? 92) with true in H.
    destruct (is_ref d); [discriminate H|reflexivity].
Qed.
Lemma no_run_tail : forall c r, starts_ref (c :: r) = false ->
  no_empty_run args u (c :: r) = true -> no_empty_run args u r = true.
Proof.
  intros c r Hs H. destruct r as [|d r]; [reflexivity|].
  cbn [starts_ref] in Hs. cbn [no_empty_run] in H. rewrite Hs in H. exact H.
Qed.
Lemma sub_plain : forall c r, starts_ref (c :: r) = false ->
  substitute args u (c :: r) = c :: substitute args u r.
Proof.
  intros c r Hs. destruct r as [|d r]; [reflexivity|].
  cbn [starts_ref] in Hs. cbn [substitute]. rewrite Hs. reflexivity.
Qed.
Lemma not_ref_next : forall c r, starts_ref (c :: r) = false -> c = 92 ->
  match r with d :: _ => is_ref d = false | [] => True end.
Proof.
  intros c r H ->. destruct r as [|d r]; [exact I|exact H].
Qed.

Lemma read_body : forall n s t,
  text_ok s -> quiet s = true -> text_ok t -> no_empty_run args u t = true ->
  (length (s ++ substitute args u t) < n)%nat ->
  readAll n (Buf s t args u) = Ok (s ++ substitute args u t).
Proof.
  induction n as [|n IH]; intros s t Ts Qs Tt Nr L; [lia|].
  cbn [readAll]. destruct s as [|c s].
  - cbn [app] in *. destruct t as [|c t]; [reflexivity|].
    inversion Tt as [|? ? C0 Tt']; subst.
    destruct (starts_ref (c :: t)) eqn:SR.
    + destruct t as [|d t]; [discriminate SR|]. cbn [starts_ref] in SR.
      apply andb_prop in SR. destruct SR as (E92 & R). apply Z.eqb_eq in E92. subst c.
      inversion Tt' as [|? ? _ Tt2]; subst.
      cbn [substitute no_empty_run] in *. change (92 =? 92) with true in *. cbn [andb] in *. rewrite R in *.
      rewrite (getChar_ref d t R). cbn [bind].
      destruct (args_ok d R) as (Tv & Qv & Lv).
      apply andb_prop in Nr. destruct Nr as (Nr1 & Nr2).
      destruct (replacement args u d) as [|x v] eqn:EV.
      * unfold nextChar, fromText. cbn [b_stack b_text b_args b_unique app].
        destruct t as [|e t]; [reflexivity|].
        inversion Tt2 as [|? ? E0 Tt3]; subst.
        destruct (Z.eqb_spec e 0) as [|_]; [contradiction|].
        assert (SR : starts_ref (e :: t) = false) by (destruct (starts_ref (e :: t)); [discriminate Nr1|reflexivity]).
        rewrite (sub_plain e t SR) in L |- *. cbn [app] in L. cbn [length] in L.
        rewrite (IH [] t); [reflexivity|constructor|reflexivity|exact Tt3|exact (no_run_tail e t SR Nr2)|cbn [app]; lia].
      * inversion Tv as [|? ? X0 Tv']; subst. unfold nextChar. cbn [b_stack b_text b_args b_unique].
        destruct (Z.eqb_spec x 0) as [|_]; [contradiction|].
        destruct (Z.eqb_spec x 0) as [|_]; [contradiction|].
        cbn [app length] in L.
        rewrite (IH v t); [reflexivity|exact Tv'|exact (quiet_tail x v Qv)|exact Tt2|exact Nr2|lia].
    + rewrite (getChar_text c t C0 (not_ref_next c t SR)). cbn [bind].
      destruct (Z.eqb_spec c 0) as [|_]; [contradiction|].
      rewrite (sub_plain c t SR) in L |- *. cbn [length] in L.
      rewrite (IH [] t); [reflexivity|constructor|reflexivity|exact Tt'|exact (no_run_tail c t SR Nr)|cbn [app]; lia].
  - inversion Ts as [|? ? C0 Ts']; subst. cbn [app length] in L.
    rewrite (getChar_plain c s t C0 (quiet_head c s t Qs) Ts'). cbn [bind].
    destruct (Z.eqb_spec c 0) as [|_]; [contradiction|].
    rewrite (IH s t Ts' (quiet_tail c s Qs) Tt Nr) by lia. reflexivity.
Qed.
End Macro.

Lemma shift_nth : forall k args i, nth_error (shiftArguments k args) (S i) = nth_error args (S i + k).
Proof.
  induction k as [|k IH]; intros args i.
  - cbn. rewrite Nat.add_0_r. reflexivity.
  - destruct args as [|a [|b r]].
    + cbn. destruct (i + S k)%nat; reflexivity.
    + cbn [shiftArguments]. cbn. destruct i; cbn; [reflexivity|]. destruct (i + S k)%nat; destruct i; reflexivity.
    + cbn [shiftArguments]. rewrite IH. replace (S i + S k)%nat with (S (S i + k)) by lia.
      cbn [Nat.add nth_error]. reflexivity.
Qed.
Lemma shift_first : forall k args, nth_error (shiftArguments k args) 0 = nth_error args 0.
Proof.
  induction k as [|k IH]; intros args; [reflexivity|].
  destruct args as [|a [|b r]]; try reflexivity. cbn [shiftArguments]. rewrite IH. reflexivity.
Qed.

Fixpoint dvalue (l : list Z) (acc : Z) : Z :=
  match l with [] => acc | c :: r => dvalue r (acc * 10 + (c - 48)) end.
Lemma dvalue_app : forall a b acc, dvalue (a ++ b) acc = dvalue b (dvalue a acc).
Proof. induction a; intros; cbn; auto. Qed.
Lemma dvalue_decimal : forall n v, 0 <= v < 10 ^ Z.of_nat n -> dvalue (decimal n v) 0 = v.
Proof.
  induction n as [|n IH]; intros v H.
  - change (10 ^ Z.of_nat 0) with 1 in H. cbn. lia.
  - cbn [decimal]. rewrite dvalue_app. cbn [dvalue].
    destruct (Z.ltb_spec v 10) as [L|L].
    + cbn [dvalue]. rewrite Z.mod_small by lia. lia.
    + rewrite IH.
      * rewrite (Z.div_mod v 10) at 3 by lia. lia.
      * rewrite Nat2Z.inj_succ, Z.pow_succ_r in H by lia.
        split; [apply Z.div_pos; lia|]. apply Z.div_lt_upper_bound; lia.
Qed.
Lemma unique_inj : forall i j, 0 <= i < 2 ^ 32 -> 0 <= j < 2 ^ 32 -> uniqueValue i = uniqueValue j -> i = j.
Proof.
  intros i j Hi Hj H. unfold uniqueValue in H.
  assert (H' : decimal 10 i = decimal 10 j) by (remember (decimal 10 i) as x; remember (decimal 10 j) as y; congruence).
  clear H.
  rewrite <- (dvalue_decimal 10 i), <- (dvalue_decimal 10 j), H'; [reflexivity|..];
  change (10 ^ Z.of_nat 10) with 10000000000; lia.
Qed.

(** ** Literals *)
Definition delivers (b : buf) (l : list Z) : Prop := b_stack b ++ b_text b = l.

Lemma getChar_delivers : forall b c l, delivers b (c :: l) -> c <> 0 -> c <> 92 ->
  exists b', getChar b = Ok (c, b') /\ delivers b' l /\ (length (b_stack b') <= length (b_stack b))%nat /\
    (b_stack b <> [] -> (length (b_stack b') < length (b_stack b))%nat).
Proof.
  intros [s t a u] c l D C0 C92. unfold delivers in D. cbn [b_stack b_text] in D.
  unfold getChar, nextChar, fromText. cbn [b_stack b_text b_args b_unique].
  destruct s as [|x s].
  - destruct t as [|y t]; [discriminate D|]. cbn [app] in D. injection D as -> ->.
    destruct (Z.eqb_spec c 92) as [|_]; [contradiction|].
    eexists. split; [reflexivity|]. split; [reflexivity|]. split; [cbn; lia|]. intros H; contradiction H; reflexivity.
  - cbn [app] in D. injection D as -> D.
    destruct (Z.eqb_spec c 0) as [|_]; [contradiction|].
    destruct (Z.eqb_spec c 92) as [|_]; [contradiction|].
    eexists. split; [reflexivity|]. split; [exact D|]. cbn [b_stack length]. lia.
Qed.
Lemma unput_delivers : forall b c l, delivers b l -> (length (b_stack b) < 256)%nat ->
  exists b', unput b c = Ok b' /\ delivers b' (c :: l) /\ length (b_stack b') = S (length (b_stack b)).
Proof.
  intros b c l D H. unfold unput. destruct (Nat.ltb_spec (length (b_stack b)) stackSize) as [_|N].
  - eexists. split; [reflexivity|]. unfold delivers in *. cbn [b_stack b_text app length]. split; [congruence|reflexivity].
  - unfold stackSize in N. lia.
Qed.

Definition accum (dv : Z -> option Z) (radix : Z) (ds : list Z) (acc : Z) : Z :=
  fold_left (fun a c => match dv c with Some v => a * radix + v | None => a end) ds acc.

Lemma u32_mul_add : forall a r d, u32 (u32 a * r + d) = u32 (a * r + d).
Proof.
  intros a r d. unfold u32. rewrite <- Z.add_mod_idemp_l by lia. rewrite <- (Z.add_mod_idemp_l (a * r)) by lia.
  rewrite Z.mul_mod_idemp_l by lia. reflexivity.
Qed.
Lemma accum_u32 : forall dv radix ds a, u32 (accum dv radix ds (u32 a)) = u32 (accum dv radix ds a).
Proof.
  intros dv radix ds. induction ds as [|c ds IH]; intros a.
  - cbn. unfold u32. rewrite Z.mod_mod by lia. reflexivity.
  - cbn [accum fold_left]. destruct (dv c) as [v|].
    + change (u32 (accum dv radix ds (u32 a * radix + v)) = u32 (accum dv radix ds (a * radix + v))).
      rewrite <- (IH (u32 a * radix + v)), <- (IH (a * radix + v)), u32_mul_add. reflexivity.
    + apply IH.
Qed.

Lemma digits_run : forall o radix ds n value den text b c rest,
  let dv := fun ch => asciiToRadixBinary o ch radix in
  Forall (fun ch => dv ch <> None /\ ch <> 0 /\ ch <> 92) ds ->
  dv c = None -> c <> 0 -> c <> 92 ->
  delivers b (ds ++ c :: rest) -> (length ds < n)%nat -> (length text + length ds <= 257)%nat ->
  exists b', digitsLoop o n radix (u32 value) (u32 den) text b =
      Ok (u32 (accum dv radix ds value), u32 (den * radix ^ zlen ds), text ++ ds, c, b') /\
    delivers b' rest /\ (length (b_stack b') <= length (b_stack b))%nat /\
    (b_stack b <> [] -> (length (b_stack b') < length (b_stack b))%nat).
Proof.
  intros o radix ds. induction ds as [|d ds IH]; intros n value den text b c rest dv Fd Dc C0 C92 D L Lt.
  - destruct n as [|n]; [cbn in L; lia|]. cbn [digitsLoop app] in *.
    destruct (getChar_delivers b c rest D C0 C92) as (b1 & -> & D1 & L1 & L1').
    cbn [bind]. fold (dv c). rewrite Dc. exists b1.
    change (zlen (@nil Z)) with 0. rewrite Z.pow_0_r, Z.mul_1_r, app_nil_r. auto.
  - destruct n as [|n]; [cbn in L; lia|]. cbn [digitsLoop app length] in *.
    inversion Fd as [|? ? (Dd & D0 & D92) Fd']; subst.
    destruct (getChar_delivers b d (ds ++ c :: rest) D D0 D92) as (b1 & -> & D1 & L1 & L1').
    cbn [bind]. fold (dv d). destruct (dv d) as [v|] eqn:Ev; [|contradiction].
    destruct (Nat.ltb_spec (length text) 257) as [_|H]; [|lia].
    rewrite u32_mul_add.
    assert (ED : u32 (u32 den * radix) = u32 (den * radix)).
    { pose proof (u32_mul_add den radix 0) as H. rewrite !Z.add_0_r in H. exact H. }
    rewrite ED.
    destruct (IH n (value * radix + v) (den * radix) (text ++ [d]) b1 c rest Fd' Dc C0 C92 D1)
      as (b' & -> & D' & L' & L'').
    + lia.
    + rewrite app_length. cbn [length]. lia.
    + exists b'. split; [|split; [exact D'|split; [lia|intros; specialize (L1' H); lia]]].
      rewrite <- app_assoc. cbn [app accum fold_left]. rewrite Ev.
      replace (den * radix ^ zlen (d :: ds)) with (den * radix * radix ^ zlen ds); [reflexivity|].
      unfold zlen. cbn [length]. rewrite Nat2Z.inj_succ, Z.pow_succ_r by lia. ring.
Qed.

Lemma accum_positional : forall dv radix ds acc,
  Forall (fun c => dv c <> None /\ forall v, dv c = Some v -> digit c = Some v) ds ->
  accum dv radix ds acc = acc * radix ^ zlen ds + positional radix ds.
Proof.
  intros dv radix ds. induction ds as [|c ds IH]; intros acc Fd.
  - cbn [accum fold_left positional]. change (zlen (@nil Z)) with 0. rewrite Z.pow_0_r. lia.
  - inversion Fd as [|? ? (H1 & H2) Fd']; subst. cbn [accum fold_left positional].
    destruct (dv c) as [v|]; [|contradiction]. rewrite (H2 v eq_refl).
    change (accum dv radix ds (acc * radix + v) = acc * radix ^ zlen (c :: ds) + (v * radix ^ zlen ds + positional radix ds)).
    rewrite IH by assumption.
    unfold zlen. cbn [length]. rewrite Nat2Z.inj_succ, Z.pow_succ_r by lia. ring.
Qed.

Lemma default_digit : forall radix c, radix = 2 \/ radix = 10 \/ radix = 16 ->
  asciiToRadixBinary defaultLiterals c radix =
  match digit c with Some v => if v <? radix then Some v else None | None => None end.
Proof.
  intros radix c R. unfold asciiToRadixBinary, asciiToBinary, isdigit, digit. cbn [l_binary defaultLiterals indexOf].
  destruct R as [-> |[-> | ->]]; cbn [Z.eqb Pos.eqb].
  - destruct (Z.eqb_spec c 48) as [->|N1]; [reflexivity|].
    destruct (Z.eqb_spec c 49) as [->|N2]; [reflexivity|].
    repeat match goal with |- context [if ?b then _ else _] => destruct b eqn:? end; try reflexivity; f_equal; lia.
  - repeat match goal with |- context [if ?b then _ else _] => destruct b eqn:? end; try reflexivity; f_equal; lia.
  - repeat match goal with |- context [if ?b then _ else _] => destruct b eqn:? end; try reflexivity; f_equal; lia.
Qed.
Lemma is_digit_plain : forall radix c, is_digit radix c -> c <> 0 /\ c <> 92.
Proof.
  intros radix c (v & H & _). unfold digit in H.
  split; intros ->; discriminate H.
Qed.
Lemma digits_default : forall radix ds, radix = 2 \/ radix = 10 \/ radix = 16 -> Forall (is_digit radix) ds ->
  let dv := fun ch => asciiToRadixBinary defaultLiterals ch radix in
  Forall (fun ch => dv ch <> None /\ ch <> 0 /\ ch <> 92) ds /\
  Forall (fun c => dv c <> None /\ forall v, dv c = Some v -> digit c = Some v) ds.
Proof.
  intros radix ds R Fd dv. split; (eapply Forall_impl; [|exact Fd]); intros c Hc.
  - destruct (is_digit_plain radix c Hc). split; [|auto]. unfold dv. rewrite default_digit by assumption.
    destruct Hc as (v & -> & L). destruct (Z.ltb_spec v radix); [discriminate|lia].
  - unfold dv. rewrite default_digit by assumption.
    destruct Hc as (v & -> & L). destruct (Z.ltb_spec v radix); [|lia]. split; [discriminate|auto].
Qed.
Lemma no_digit_default : forall radix c, radix = 2 \/ radix = 10 \/ radix = 16 -> no_digit radix c ->
  asciiToRadixBinary defaultLiterals c radix = None.
Proof.
  intros radix c R H. rewrite default_digit by assumption. destruct (digit c) as [v|] eqn:E; [|reflexivity].
  specialize (H v E). destruct (Z.ltb_spec v radix); [lia|reflexivity].
Qed.


Lemma numeric_integer : forall imuldiv n radix ds c rest b,
  radix = 2 \/ radix = 10 \/ radix = 16 -> Forall (is_digit radix) ds -> no_digit radix c ->
  c <> 0 -> c <> 92 -> c <> 46 -> c <> 102 -> (radix = 10 -> c <> 36) ->
  delivers b (ds ++ c :: rest) -> (length ds < n)%nat -> (length ds <= 257)%nat -> (length (b_stack b) <= 254)%nat ->
  exists b', acceptNumeric defaultLiterals imuldiv n radix b = Ok (NNumber (s32 (positional radix ds)), b') /\
    delivers b' (c :: rest) /\ (length (b_stack b') <= 255)%nat.
Proof.
  intros imuldiv n radix ds c rest b R Fd Nc C0 C92 C46 C102 C36 D Ln Ll Lb.
  destruct (digits_default radix ds R Fd) as (F1 & F2).
  pose proof (no_digit_default radix c R Nc) as Dc.
  unfold acceptNumeric.
  change (digitsLoop defaultLiterals n radix 0 1 [] b) with (digitsLoop defaultLiterals n radix (u32 0) (u32 1) [] b).
  destruct (digits_run defaultLiterals radix ds n 0 1 [] b c rest F1 Dc C0 C92 D Ln ltac:(cbn; lia))
    as (b1 & -> & D1 & L1 & L1').
  cbn [bind].
  assert (E1 : (radix =? 10) && (c =? 36) = false) by (destruct (Z.eqb_spec radix 10) as [E|E]; [specialize (C36 E); lia|reflexivity]).
  rewrite E1. destruct (Z.eqb_spec c 46) as [|_]; [contradiction|]. cbn [bind].
  destruct (Z.eqb_spec c 102) as [|_]; [contradiction|].
  destruct (unput_delivers b1 c rest D1 ltac:(lia)) as (b2 & -> & D2 & L2). cbn [bind].
  exists b2. rewrite s32_u32, (accum_positional _ radix ds 0 F2). cbn [Z.mul Z.add]. split; [reflexivity|].
  split; [exact D2|lia].
Qed.

Lemma numeric_dot : forall imuldiv n radix ds c rest b,
  radix = 2 \/ radix = 10 \/ radix = 16 -> Forall (is_digit radix) ds -> no_digit radix c ->
  c <> 0 -> c <> 92 ->
  delivers b (ds ++ 46 :: c :: rest) -> (length ds < n)%nat -> (length ds <= 257)%nat -> (length (b_stack b) <= 254)%nat ->
  exists b', acceptNumeric defaultLiterals imuldiv n radix b = Ok (NNumber (s32 (positional radix ds)), b') /\
    delivers b' (46 :: c :: rest).
Proof.
  intros imuldiv n radix ds c rest b R Fd Nc C0 C92 D Ln Ll Lb.
  destruct (digits_default radix ds R Fd) as (F1 & F2).
  pose proof (no_digit_default radix c R Nc) as Dc.
  assert (D46 : asciiToRadixBinary defaultLiterals 46 radix = None) by (destruct R as [-> |[-> | ->]]; reflexivity).
  unfold acceptNumeric.
  change (digitsLoop defaultLiterals n radix 0 1 [] b) with (digitsLoop defaultLiterals n radix (u32 0) (u32 1) [] b).
  destruct (digits_run defaultLiterals radix ds n 0 1 [] b 46 (c :: rest) F1 D46 ltac:(lia) ltac:(lia) D Ln ltac:(cbn; lia))
    as (b1 & -> & D1 & L1 & L1').
  cbn [bind]. rewrite andb_false_r. change (46 =? 46) with true. cbv iota.
  set (acc := accum _ radix ds 0).
  change (digitsLoop defaultLiterals n radix 0 1 ([] ++ ds) b1) with (digitsLoop defaultLiterals n radix (u32 0) (u32 1) ds b1).
  destruct (digits_run defaultLiterals radix [] n 0 1 ds b1 c rest ltac:(constructor) Dc C0 C92 D1 ltac:(cbn; lia) ltac:(cbn; lia))
    as (b2 & -> & D2 & L2 & L2').
  cbn [bind app]. rewrite app_nil_r, Nat.eqb_refl.
  destruct (unput_delivers b2 c rest D2 ltac:(lia)) as (b3 & -> & D3 & L3). cbn [bind].
  change (46 =? 102) with false. cbv iota.
  destruct (unput_delivers b3 46 (c :: rest) D3 ltac:(lia)) as (b4 & -> & D4 & L4). cbn [bind].
  exists b4. unfold acc. rewrite s32_u32, (accum_positional _ radix ds 0 F2). cbn [Z.mul Z.add]. auto.
Qed.

Lemma positional_bound : forall radix ds, 2 <= radix -> Forall (is_digit radix) ds ->
  0 <= positional radix ds < radix ^ zlen ds.
Proof.
  intros radix ds R. induction ds as [|c ds IH]; intros Fd.
  - cbn. unfold zlen. cbn. lia.
  - inversion Fd as [|? ? (v & Hv & L) Fd']; subst. specialize (IH Fd'). cbn [positional]. rewrite Hv.
    assert (0 <= v). { unfold digit in Hv. repeat match type of Hv with context [if ?b then _ else _] => destruct b eqn:? end; inversion Hv; lia. }
    unfold zlen in *. cbn [length]. rewrite Nat2Z.inj_succ, Z.pow_succ_r by lia. nia.
Qed.

Definition imuldiv_ok (imuldiv : Z -> Z -> Z -> Z) : Prop :=
  forall a b c, 0 <= a < 2 ^ 31 -> 0 <= b < 2 ^ 31 -> 0 < c < 2 ^ 31 -> imuldiv a b c = a * b / c.

Lemma numeric_fixed : forall imuldiv n radix ds fs c rest b,
  imuldiv_ok imuldiv ->
  radix = 2 \/ radix = 10 \/ radix = 16 -> Forall (is_digit radix) ds -> Forall (is_digit radix) fs -> fs <> [] ->
  no_digit radix c -> c <> 0 -> c <> 92 -> c <> 102 -> radix ^ zlen fs < 2 ^ 31 ->
  delivers b (ds ++ 46 :: fs ++ c :: rest) -> (length ds + length fs < n)%nat -> (length ds + length fs <= 257)%nat ->
  (length (b_stack b) <= 254)%nat ->
  exists b', acceptNumeric defaultLiterals imuldiv n radix b =
      Ok (NNumber (s32 ((positional radix ds * radix ^ zlen fs + positional radix fs) * 65536 / radix ^ zlen fs)), b') /\
    delivers b' (c :: rest).
Proof.
  intros imuldiv n radix ds fs c rest b IM R Fd Ff Nf Nc C0 C92 C102 Hp D Ln Ll Lb.
  destruct (digits_default radix ds R Fd) as (F1 & F2).
  destruct (digits_default radix fs R Ff) as (G1 & G2).
  pose proof (no_digit_default radix c R Nc) as Dc.
  assert (D46 : asciiToRadixBinary defaultLiterals 46 radix = None) by (destruct R as [-> |[-> | ->]]; reflexivity).
  assert (R2 : 2 <= radix) by lia.
  pose proof (positional_bound radix fs R2 Ff) as Bf.
  unfold acceptNumeric.
  change (digitsLoop defaultLiterals n radix 0 1 [] b) with (digitsLoop defaultLiterals n radix (u32 0) (u32 1) [] b).
  destruct (digits_run defaultLiterals radix ds n 0 1 [] b 46 (fs ++ c :: rest) F1 D46 ltac:(lia) ltac:(lia) D ltac:(lia) ltac:(cbn; lia))
    as (b1 & -> & D1 & L1 & L1').
  cbn [bind]. rewrite andb_false_r. change (46 =? 46) with true. cbv iota.
  rewrite (accum_positional _ radix ds 0 F2). cbn [Z.mul Z.add].
  change (digitsLoop defaultLiterals n radix 0 1 ([] ++ ds) b1) with (digitsLoop defaultLiterals n radix (u32 0) (u32 1) ds b1).
  destruct (digits_run defaultLiterals radix fs n 0 1 ds b1 c rest G1 Dc C0 C92 D1 ltac:(lia) ltac:(lia))
    as (b2 & -> & D2 & L2 & L2').
  cbn [bind app]. rewrite app_length.
  destruct (Nat.eqb_spec (length ds + length fs) (length ds)) as [E|_].
  { destruct fs; [contradiction|cbn in E; lia]. }
  cbn [bind]. destruct (Z.eqb_spec c 102) as [|_]; [contradiction|].
  destruct (unput_delivers b2 c rest D2 ltac:(lia)) as (b3 & -> & D3 & L3). cbn [bind].
  rewrite (accum_positional _ radix fs 0 G2). rewrite !Z.mul_0_l, !Z.add_0_l, Z.mul_1_l.
  assert (P0 : 0 < radix ^ zlen fs) by lia.
  assert (U1 : u32 (radix ^ zlen fs) = radix ^ zlen fs) by (unfold u32; rewrite Z.mod_small; lia).
  assert (U2 : u32 (positional radix fs) = positional radix fs) by (unfold u32; rewrite Z.mod_small; lia).
  rewrite U1, U2. unfold c_imuldiv. destruct (Z.eqb_spec (radix ^ zlen fs) 0) as [|_]; [lia|].
  cbn [bind]. rewrite IM by lia. exists b3. split; [|exact D3].
  f_equal. f_equal. f_equal.
  replace ((positional radix ds * radix ^ zlen fs + positional radix fs) * 65536) with
    (positional radix fs * 65536 + positional radix ds * 65536 * radix ^ zlen fs) by ring.
  rewrite Z.div_add by lia.
  set (q := positional radix fs * 65536 / radix ^ zlen fs).
  rewrite <- s32_u32. rewrite u32_mul_add, s32_u32. f_equal. ring.
Qed.

(** Game Boy literals. *)
Definition gbvalue (o : litopt) (c : Z) : Z := match indexOf (l_gameboy o) c 0 with Some v => v | None => 0 end.

Lemma gameboy_run : forall o ds n acc b c rest,
  Forall (fun ch => indexOf (l_gameboy o) ch 0 <> None /\ ch <> 0 /\ ch <> 92) ds ->
  indexOf (l_gameboy o) c 0 = None -> c <> 0 -> c <> 92 ->
  delivers b (ds ++ c :: rest) -> (length ds < n)%nat ->
  exists b', gameboyLoop o n (u32 acc) b =
     Ok (u32 (fold_left (fun r ch => r * 2 + gbvalue o ch mod 2 * 256 + gbvalue o ch / 2) ds acc), b') /\
     delivers b' rest.
Proof.
  intros o ds. induction ds as [|d ds IH]; intros n acc b c rest Fd Dc C0 C92 D L.
  - destruct n as [|n]; [cbn in L; lia|]. cbn [gameboyLoop app fold_left] in *.
    destruct (getChar_delivers b c rest D C0 C92) as (b1 & -> & D1 & _ & _).
    cbn [bind]. rewrite Dc. eauto.
  - destruct n as [|n]; [cbn in L; lia|]. cbn [gameboyLoop app length fold_left] in *.
    inversion Fd as [|? ? (Dd & D0 & D92) Fd']; subst.
    destruct (getChar_delivers b d (ds ++ c :: rest) D D0 D92) as (b1 & -> & D1 & _ & _).
    cbn [bind].
    destruct (indexOf (l_gameboy o) d 0) as [v|] eqn:Ev; [|contradiction].
    assert (Eg : gbvalue o d = v) by (unfold gbvalue; rewrite Ev; reflexivity). rewrite Eg.
    rewrite <- Z.add_assoc, u32_mul_add, Z.add_assoc.
    apply (IH n (acc * 2 + v mod 2 * 256 + v / 2) b1 c rest Fd' Dc C0 C92 D1). lia.
Qed.

Lemma gameboy_planes : forall px acc, Forall (fun p => 0 <= p <= 3) px ->
  fold_left (fun r p => r * 2 + p mod 2 * 256 + p / 2) px acc =
  acc * 2 ^ zlen px + 256 * plane 0 px + plane 1 px.
Proof.
  induction px as [|p px IH]; intros acc F.
  - cbn. unfold zlen. cbn. lia.
  - inversion F as [|? ? Hp F']; subst. cbn [fold_left plane]. rewrite IH by assumption.
    rewrite Z.pow_0_r, Z.div_1_r. change (2 ^ 1) with 2.
    assert ((p / 2) mod 2 = p / 2) as -> by (apply Z.mod_small; split; [apply Z.div_pos; lia|apply Z.div_lt_upper_bound; lia]).
    unfold zlen. cbn [length]. rewrite Nat2Z.inj_succ, Z.pow_succ_r by lia. ring.
Qed.
