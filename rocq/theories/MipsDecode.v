(** Proof that different MIPS instructions have different encodings. *)
From Coq Require Import ZArith List Bool Lia ZifyBool String.
From Verif Require Import Base BaseFacts MipsModel MipsSpec.
Import ListNotations.
Open Scope string_scope.
Open Scope Z_scope.

(** The name that has a value in a table. *)
Fixpoint name {A : Type} (p : A -> bool) (l : list (string * A)) : option string :=
  match l with [] => None | (s, v) :: r => if p v then Some s else name p r end.
Definition orelse {A : Type} (a : option A) (b : option A) : option A := match a with Some x => Some x | None => b end.
Definition omap {A B : Type} (f : A -> B) (a : option A) : option B := match a with Some x => Some (f x) | None => None end.
Infix "<|>" := orelse (at level 60, right associativity).
Definition is2 (a b : Z) (v : Z * Z) : bool := (snd v =? b) && (fst v =? a).
Definition is4 (a b c d : Z) (v : Z * Z * Z * Z) : bool :=
  let '(x, y, z, t) := v in (x =? a) && (y =? b) && (z =? c) && (t =? d).
Definition signed (n : Z) : Z := (n + 32768) mod 65536 - 32768.
Definition imm_is (unsigned : bool) (op : Z) (v : Z * (Z * Z)) : bool := (fst v =? op) && Bool.eqb (0 <=? fst (snd v)) unsigned.

(** The instruction with the given fields; [im] is the last 16 bits, [tg] the last 26. *)
Definition decode (pc op rs rt rd sa fn im tg : Z) : option (minstr Z) :=
  let target := pc + 4 + 4 * signed im in
  if op =? 0 then
    (if fn =? 0 then Some (Shift "SLL" rd rt sa)
     else if fn =? 2 then Some (Shift (if rs =? 1 then "ROTR" else "SRL") rd rt sa)
     else if fn =? 3 then Some (Shift "SRA" rd rt sa)
     else omap (fun s => Reg3 s rd rs rt) (name (is2 0 fn) reg3) <|>
          omap (fun s => ShiftV s rd rt rs) (name (is2 sa fn) shiftv) <|>
          omap (fun s => RsRt s rs rt) (name (is2 0 fn) rsrt) <|>
          omap (fun s => TrapCode s rs rt (rd * 32 + sa)) (name (Z.eqb fn) trap) <|>
          omap (fun s => MoveFrom s rd) (name (Z.eqb fn) movefrom) <|>
          omap (fun s => MoveTo s rs) (name (is2 sa fn) moveto))
  else if op =? 28 then
    omap (fun s => Reg3 s rd rs rt) (name (is2 28 fn) reg3) <|>
    omap (fun s => RsRt s rs rt) (name (is2 28 fn) rsrt) <|>
    omap (fun s => Count s rd rs) (name (Z.eqb fn) count)
  else if op =? 31 then omap (fun s => RdRt s rd rt) (name (is4 31 0 sa fn) rdrt)
  else if op =? 16 then
    (if rs =? 11 then omap (fun s => IntrReg s rt) (name (Z.eqb fn) intr) else
     if rs =? 16 then omap (fun s => Plain s) (name (is4 16 16 sa fn) plain_table) else
     omap (fun s => RdRt s rd rt) (name (is4 16 rs 0 0) rdrt))
  else if op =? 1 then
    omap (fun s => Br1 s rs target) (name (is2 1 rt) br1) <|>
    omap (fun s => TrapImm s rs (signed im)) (name (fun v => fst v =? rt) trapimm)
  else if op =? 15 then Some (Lui rt im)
  else
    omap (fun s => Imm s rt rs im) (name (imm_is true op) imm) <|>
    omap (fun s => Imm s rt rs (signed im)) (name (imm_is false op) imm) <|>
    omap (fun s => Br2 s rs rt target) (name (Z.eqb op) br2) <|>
    omap (fun s => Br1 s rs target) (name (fun v => fst v =? op) br1) <|>
    omap (fun s => Mem s rt (signed im) rs) (name (Z.eqb op) mem) <|>
    omap (fun s => Jump s (tg * 4)) (name (Z.eqb op) jump).
Definition decoded (pc w : Z) : option (minstr Z) :=
  decode pc (w / 2 ^ 26) (w / 2 ^ 21 mod 32) (w / 2 ^ 16 mod 32) (w / 2 ^ 11 mod 32) (w / 2 ^ 6 mod 32) (w mod 64)
    (w mod 65536) (w mod 2 ^ 26).

Lemma decoded_r : forall pc op rs rt rd sa fn, reg rs -> reg rt -> reg rd -> reg sa -> 0 <= fn < 64 ->
  exists im tg, decoded pc (rtype op rs rt rd sa fn) = decode pc op rs rt rd sa fn im tg.
Proof.
  unfold reg. intros pc op rs rt rd sa fn RS RT RD SA FN. unfold decoded.
  set (w := rtype op rs rt rd sa fn).
  assert (w / 2 ^ 26 = op) as -> by (unfold w, rtype; Z.div_mod_to_equations; lia).
  assert (w / 2 ^ 21 = op * 32 + rs) as -> by (unfold w, rtype; Z.div_mod_to_equations; lia).
  assert (w / 2 ^ 16 = (op * 32 + rs) * 32 + rt) as -> by (unfold w, rtype; Z.div_mod_to_equations; lia).
  assert (w / 2 ^ 11 = ((op * 32 + rs) * 32 + rt) * 32 + rd) as -> by (unfold w, rtype; Z.div_mod_to_equations; lia).
  assert (w / 2 ^ 6 = (((op * 32 + rs) * 32 + rt) * 32 + rd) * 32 + sa) as -> by (unfold w, rtype; Z.div_mod_to_equations; lia).
  assert (w mod 64 = fn) as ->
    by (unfold w, rtype; replace (_ + fn) with (fn + ((((op * 32 + rs) * 32 + rt) * 32 + rd) * 32 + sa) * 64) by lia;
        rewrite Z_mod_plus_full; apply Z.mod_small; lia).
  replace ((op * 32 + rs) mod 32) with rs by (rewrite Z.add_comm, Z_mod_plus_full; symmetry; apply Z.mod_small; lia).
  rewrite (Z.add_comm (_ * 32) rt), (Z.add_comm (_ * 32) rd), (Z.add_comm (_ * 32) sa), !Z_mod_plus_full.
  rewrite (Z.mod_small rt), (Z.mod_small rd), (Z.mod_small sa) by lia.
  eexists _, _. reflexivity.
Qed.
Lemma decoded_i : forall pc op rs rt n, reg rs -> reg rt ->
  exists rd sa fn tg, decoded pc (itype op rs rt n) = decode pc op rs rt rd sa fn (n mod 65536) tg.
Proof.
  unfold reg. intros pc op rs rt n RS RT. unfold decoded.
  pose proof (Z.mod_pos_bound n 65536 eq_refl) as B.
  set (w := itype op rs rt n).
  assert (W : w = ((op * 32 + rs) * 32 + rt) * 65536 + n mod 65536).
  { unfold w, itype. change (2 ^ 16) with 65536. lia. }
  set (v := n mod 65536) in *. clearbody v w. subst w.
  set (w := ((op * 32 + rs) * 32 + rt) * 65536 + v).
  assert (w / 2 ^ 26 = op) as -> by (unfold w; Z.div_mod_to_equations; lia).
  assert (w / 2 ^ 21 = op * 32 + rs) as -> by (unfold w; Z.div_mod_to_equations; lia).
  assert (w / 2 ^ 16 = (op * 32 + rs) * 32 + rt) as -> by (unfold w; Z.div_mod_to_equations; lia).
  assert (w mod 65536 = v) as ->
    by (unfold w; rewrite Z.add_comm, Z_mod_plus_full; apply Z.mod_small; lia).
  replace ((op * 32 + rs) mod 32) with rs by (rewrite Z.add_comm, Z_mod_plus_full; symmetry; apply Z.mod_small; lia).
  rewrite (Z.add_comm (_ * 32) rt), !Z_mod_plus_full.
  rewrite (Z.mod_small rt) by lia.
  eexists _, _, _, _. reflexivity.
Qed.
Lemma decoded_j : forall pc op n, 0 <= n < 2 ^ 26 ->
  exists rs rt rd sa fn im, decoded pc (jtype op n) = decode pc op rs rt rd sa fn im n.
Proof.
  intros pc op n N. unfold decoded, jtype. rewrite (Z.mod_small n) by lia.
  replace ((op * 2 ^ 26 + n) / 2 ^ 26) with op by (Z.div_mod_to_equations; lia).
  replace ((op * 2 ^ 26 + n) mod 2 ^ 26) with n by (rewrite Z.add_comm, Z_mod_plus_full; symmetry; apply Z.mod_small; lia).
  eexists _, _, _, _, _, _. reflexivity.
Qed.
Lemma signed_mod : forall n, -32768 <= n <= 32767 -> signed (n mod 65536) = n.
Proof. intros n N. unfold signed. Z.div_mod_to_equations. lia. Qed.
Lemma target_of : forall pc n, reaches pc n -> pc + 4 + 4 * signed (offset pc n mod 65536) = n.
Proof.
  intros pc n (A & B). rewrite signed_mod by exact B. unfold offset. Z.div_mod_to_equations. lia.
Qed.
Ltac names L := repeat (destruct L as [L|L]; [subst|]); try (destruct L; fail).
Ltac enc := unfold encoding; cbn [row reg3 shiftv imm br2 br1 br0 shift mem rsrt rdrt trap trapimm count plain_table intr
  movefrom moveto jump String.eqb Ascii.eqb Bool.eqb fst snd].
Ltac prep V :=
  cbn [valid] in V;
  repeat match goal with H : _ /\ _ |- _ => destruct H end;
  try match goal with L : listed _ _ |- _ =>
    unfold listed in L; cbn [map fst reg3 shiftv imm br2 br1 br0 shift mem rsrt rdrt trap trapimm count plain_table intr movefrom moveto jump] in L;
    names L end; enc.
Ltac by_r :=
  match goal with |- decoded ?pc (rtype ?a ?b ?c ?d ?e ?f) = _ =>
    let im := fresh in let tg := fresh in let E := fresh in
    destruct (decoded_r pc a b c d e f) as (im & tg & E); [try assumption; unfold reg in *; Z.div_mod_to_equations; lia..|rewrite E; clear E] end.
Ltac by_i :=
  match goal with |- decoded ?pc (itype ?a ?b ?c ?d) = _ =>
    let x := fresh in let y := fresh in let z := fresh in let t := fresh in let E := fresh in
    destruct (decoded_i pc a b c d) as (x & y & z & t & E); [try assumption; unfold reg in *; lia..|rewrite E; clear E] end.
Ltac by_j :=
  match goal with |- decoded ?pc (jtype ?a ?b) = _ =>
    destruct (decoded_j pc a (b mod 2 ^ 26)) as (? & ? & ? & ? & ? & ? & E) end.
Ltac range := unfold within in *; cbn [row imm trapimm String.eqb Ascii.eqb Bool.eqb fst snd] in *; lia.

Theorem decoding : forall pc i, valid pc i -> decoded pc (encoding pc i) = Some (canonical i).
Proof.
  intros pc i V. assert (Z0 : reg 0) by (unfold reg; lia).
  destruct i.
  - prep V; by_r; reflexivity.
  - prep V; by_r; reflexivity.
  - prep V; by_i; cbn; f_equal; f_equal; first [apply signed_mod; range | apply Z.mod_small; range].
  - prep V; by_i; cbn; f_equal; f_equal; apply target_of; assumption.
  - prep V; by_i; cbn; f_equal; f_equal; apply target_of; assumption.
  - prep V; by_i; cbn; f_equal; f_equal; apply target_of; assumption.
  - prep V; by_r; reflexivity.
  - prep V; by_i; cbn; f_equal; f_equal; apply signed_mod; lia.
  - prep V; by_r; reflexivity.
  - prep V; by_r; reflexivity.
  - prep V; by_r; reflexivity.
  - prep V; by_r; match goal with |- _ = Some (canonical (TrapCode ?s _ _ _)) => transitivity (Some (TrapCode s rs rt (n / 32 * 32 + n mod 32))) end; [reflexivity| |reflexivity| |reflexivity| |reflexivity| |reflexivity| |reflexivity|].
    all: unfold canonical; do 2 f_equal; pose proof (Z.div_mod n 32); lia.
  - prep V; by_i; cbn; f_equal; f_equal; apply signed_mod; range.
  - prep V; by_r; reflexivity.
  - prep V; by_r; reflexivity.
  - prep V; by_r; reflexivity.
  - prep V; by_r; reflexivity.
  - prep V; by_r; reflexivity.
  - prep V; by_r; reflexivity.
  - prep V; unfold jtype; rewrite <- (Z.mod_mod (n / 4) (2 ^ 26)) by lia;
      (destruct (decoded_j pc 2 (n / 4 mod 2 ^ 26)) as (? & ? & ? & ? & ? & ? & E2); [apply Z.mod_pos_bound; lia|]);
      (destruct (decoded_j pc 3 (n / 4 mod 2 ^ 26)) as (? & ? & ? & ? & ? & ? & E3); [apply Z.mod_pos_bound; lia|]);
      unfold jtype in *; first [rewrite E2 | rewrite E3]; clear E2 E3.
    all: cbn [decode orelse omap name imm br1 br2 mem jump canonical Z.eqb Pos.eqb imm_is fst snd andb Bool.eqb].
    all: do 2 f_equal; change (2 ^ 28) with (4 * 2 ^ 26); Z.div_mod_to_equations; lia.
  - prep V; by_i; cbn; f_equal; f_equal; apply Z.mod_small; lia.
Qed.
Theorem distinct : forall pc i j, valid pc i -> valid pc j -> encoding pc i = encoding pc j -> canonical i = canonical j.
Proof. intros pc i j Vi Vj E. pose proof (decoding pc i Vi) as A. rewrite E, (decoding pc j Vj) in A. congruence. Qed.
Theorem four_bytes : forall pc i, valid pc i -> 0 <= encoding pc i < 2 ^ 32.
Proof.
  intros pc i V. assert (Z0 : reg 0) by (unfold reg; lia).
  assert (M : forall n, 0 <= n mod 2 ^ 16 < 2 ^ 16) by (intro; apply Z.mod_pos_bound; lia).
  assert (J : forall n, 0 <= n mod 2 ^ 26 < 2 ^ 26) by (intro; apply Z.mod_pos_bound; lia).
  destruct i; prep V; unfold itype, jtype, rtype, reg in *;
    try match goal with |- context [?n mod 2 ^ 16] => specialize (M n) end;
    try match goal with |- context [?n mod 2 ^ 26] => specialize (J n) end; try lia.
  all: Z.div_mod_to_equations; lia.
Qed.
