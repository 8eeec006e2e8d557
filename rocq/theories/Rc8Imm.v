(** RC811 instructions with numbers. *)
From Coq Require Import ZArith List Bool String Lia ZifyBool Permutation.
From Verif Require Import Base Arith ExprModel ExprSpec ExprProofs ObjWriteModel SectModel SectSpec InstrSpec InstrProofs Rc8Model Rc8Spec Rc8Run.
Import ListNotations.
Open Scope string_scope.
Open Scope list_scope.
Open Scope Z_scope.

(** ** What the bytes do *)
Lemma land255 : forall v, Z.land v 255 = v mod 256.
Proof. intro v. change 255 with (Z.ones 8). apply Z.land_ones. lia. Qed.
Lemma mod256_twice : forall v, (v mod 256) mod 256 = v mod 256.
Proof. intro. apply Zmod_mod. Qed.
Lemma signed_small : forall v, -128 <= v <= 127 -> signed (v mod 256) = v.
Proof. intros v B. unfold signed. Z.div_mod_to_equations. lia. Qed.

Definition r8 (r : reg) : Z := match r with rF => 0 | rT => 1 | rB => 2 | rC => 3 | rD => 4 | rE => 5 | rH => 6 | rL => 7 end.
Definition r16 (p : pair) : Z := match p with FT => 0 | BC => 1 | DE => 2 | HL => 3 end.
Ltac opcode :=
  repeat match goal with
  | |- context [Z.lor (Zpos ?a) ?x] =>
      match x with r8 _ => idtac | r16 _ => idtac end;
      let d := eval vm_compute in (Z.lor (Zpos a) x) in change (Z.lor (Zpos a) x) with d
  end.
Ltac agree2 :=
  unfold does; opcode; cbn [map hi lo]; rewrite ?land255, ?mod256_twice; agree;
  try (Z.div_mod_to_equations; small).

Lemma does_LdImm : forall r v, does [Z.lor 0x80 (r8 r); Z.land v 255] (LdImm r v).
Proof. intros [] v; agree2. Qed.
Lemma does_AddImm : forall r v, does [Z.lor 0xA0 (r8 r); Z.land v 255] (AddImm r v).
Proof. intros [] v; agree2. Qed.
Lemma does_LogicImm : forall l v, does [match l with Or => 0xB0 | And => 0xB1 | Xor => 0xB2 end; Z.land v 255] (LogicImm l v).
Proof. intros [] v; agree2. Qed.
Lemma does_LdImm16 : forall p v, word v ->
  does [Z.lor 0x80 (r8 (hi p)); Z.land (Z.shiftr v 8) 255; Z.lor 0x80 (r8 (lo p)); Z.land (Z.land v 255) 255] (LdImm16 p v).
Proof.
  intros p v V. rewrite Z.shiftr_div_pow2 by lia. change (2 ^ 8) with 256. destruct p; agree2.
Qed.
Lemma does_ext : forall v, word v -> v < 128 \/ 65408 <= v -> does [0x81; v mod 256; 0x49] (LdImm16 FT v).
Proof.
  intros v V W. agree2.
  destruct (v mod 256 <? 128) eqn:X; Z.div_mod_to_equations; small.
Qed.
Lemma does_twice : forall v, word v -> v / 256 = v mod 256 -> does [0x81; v mod 256; 0x78] (LdImm16 FT v).
Proof. intros v V W. agree2. Qed.
Lemma does_small16 : forall p v s, -128 <= s <= 127 -> v mod 65536 = s mod 65536 ->
  does [Z.lor 0xBC (r16 p); Z.land s 255] (AddImm16 p v).
Proof.
  intros p v s B V. assert (E : exists k, v = s + 65536 * k) by (exists (v / 65536 - s / 65536); Z.div_mod_to_equations; lia).
  destruct E as (k & ->). pose proof (signed_small s B) as X.
  destruct p; agree2.
Qed.
(** A long addition in two parts. *)
Lemma does_long16 : forall p v x y k, -128 <= x <= 127 -> -128 <= y <= 127 -> v = 256 * y + x + 65536 * k ->
  does ((if x =? 0 then [] else [Z.lor 0xBC (r16 p); Z.land x 255]) ++
        (if y =? 0 then [] else [Z.lor 0xA0 (r8 (hi p)); Z.land y 255])) (AddImm16 p v) /\
  does ((if x =? 0 then [] else [Z.lor 0xBC (r16 p); Z.land x 255]) ++ [Z.lor 0xA0 (r8 (hi p)); Z.land y 255]) (AddImm16 p v) /\
  does ([Z.lor 0xBC (r16 p); Z.land x 255] ++ (if y =? 0 then [] else [Z.lor 0xA0 (r8 (hi p)); Z.land y 255])) (AddImm16 p v) /\
  does ([Z.lor 0xBC (r16 p); Z.land x 255] ++ [Z.lor 0xA0 (r8 (hi p)); Z.land y 255]) (AddImm16 p v).
Proof.
  intros p v x y k A B ->. pose proof (signed_small x A) as X.
  destruct (Z.eqb_spec x 0) as [->|_]; destruct (Z.eqb_spec y 0) as [->|_]; cbn [app];
  (split; [|split; [|split]]); destruct p; agree2.
Qed.
