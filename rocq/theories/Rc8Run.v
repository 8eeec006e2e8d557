(** What the bytes of RC811 instructions without numbers do. *)
From Coq Require Import ZArith List Bool String Lia ZifyBool.
From Verif Require Import Base Arith ExprModel Rc8Model Rc8Spec.
Import ListNotations.
Open Scope string_scope.
Open Scope list_scope.
Open Scope Z_scope.

(** The bytes of an instruction. *)
Definition byte_of (i : item) : Z := match i with Byte z => z | _ => 0 end.
Definition bytes_of (o : res (option (list item * list token * bool))) : list Z :=
  match o with Ok (Some (l, _, _)) => map byte_of l | _ => [] end.

Lemma pair_norm : forall v, 256 * (v / 256 mod 256) + v mod 256 = v mod 65536.
Proof. intro v. Z.div_mod_to_equations. lia. Qed.
Lemma mod_add : forall v k, (v mod 65536 + k) mod 65536 = (v + k) mod 65536.
Proof. intros. apply Zplus_mod_idemp_l. Qed.
Lemma mod_mod : forall v, (v mod 65536) mod 65536 = v mod 65536.
Proof. intros. apply Zmod_mod. Qed.
Lemma low16 : forall v, (v mod 65536) mod 256 = v mod 256.
Proof. intro v. Z.div_mod_to_equations. lia. Qed.
Lemma high16 : forall v, (v mod 65536) / 256 mod 256 = v / 256 mod 256.
Proof. intro v. Z.div_mod_to_equations. lia. Qed.
Lemma low_of : forall a b, 0 <= b < 256 -> (256 * a + b) mod 256 = b.
Proof. intros. Z.div_mod_to_equations. lia. Qed.
Lemma high_of : forall a b, 0 <= b < 256 -> 0 <= a < 256 -> (256 * a + b) / 256 mod 256 = a.
Proof. intros. Z.div_mod_to_equations. lia. Qed.
Lemma low_of' : forall a b, 0 <= b < 256 -> (b + 256 * a) mod 256 = b.
Proof. intros. Z.div_mod_to_equations. lia. Qed.
Lemma high_of' : forall a b, 0 <= b < 256 -> 0 <= a < 256 -> (b + 256 * a) / 256 mod 256 = a.
Proof. intros. Z.div_mod_to_equations. lia. Qed.
Lemma back : forall a b, 0 <= a < 256 -> 0 <= b < 256 -> (256 * a + b) mod 65536 = 256 * a + b.
Proof. intros. apply Z.mod_small. lia. Qed.
Lemma not_byte : forall b, 0 <= b < 256 -> Z.lxor b 255 = 255 - b.
Proof.
  intros b B. assert (E : Z.lxor b 255 + b = 255); [|lia].
  replace (Z.lxor b 255) with (Z.lnot b mod 256).
  - unfold Z.lnot. rewrite <- Z.sub_1_r. Z.div_mod_to_equations. lia.
  - change 256 with (2 ^ 8). apply Z.bits_inj'. intros n N. rewrite Z.lxor_spec. destruct (Z.lt_ge_cases n 8) as [L|L].
    + rewrite Z.mod_pow2_bits_low by lia. rewrite Z.lnot_spec by lia.
      assert (X : n = 0 \/ n = 1 \/ n = 2 \/ n = 3 \/ n = 4 \/ n = 5 \/ n = 6 \/ n = 7) by lia.
      replace (Z.testbit 255 n) with true by (destruct X as [->|[->|[->|[->|[->|[->|[->| ->]]]]]]]; reflexivity). rewrite xorb_true_r. reflexivity.
    + rewrite Z.mod_pow2_bits_high by lia. change 255 with (Z.ones 8). rewrite Z.ones_spec_high by lia.
      rewrite <- (Z.mod_small b (2 ^ 8)) by (change (2 ^ 8) with 256; lia). rewrite Z.mod_pow2_bits_high by lia. reflexivity.
Qed.

Ltac decoded :=
  repeat match goal with
  | |- context [decode ?z] =>
      match z with Zpos _ => idtac | Z0 => idtac end; let d := eval vm_compute in (decode z) in change (decode z) with d
  | |- context [decode2 ?z] =>
      match z with Zpos _ => idtac | Z0 => idtac end; let d := eval vm_compute in (decode2 z) in change (decode2 z) with d
  end.
Ltac bytes_now :=
  repeat match goal with
  | |- context [?z mod 256] =>
      match z with Zpos _ => idtac | Zneg _ => idtac | Z0 => idtac end; let d := eval vm_compute in (z mod 256) in change (z mod 256) with d
  | |- context [signed ?z] =>
      match z with Zpos _ => idtac | Z0 => idtac end; let d := eval vm_compute in (signed z) in change (signed z) with d
  end.
Ltac unfolded :=
  cbn [execute execute2 get set hi lo store output load input memory ports stack_of set_stack stack_FT stack_BC stack_DE stack_HL
       mF mT mB mC mD mE mH mL each fold_left all push pop swap exchange exchange16 meaning getting putting before after address fetch
       write step16 logical pushed popped load16 store16 get16 set16];
  unfold get16, set16, load, input, load16, store16, exchange, exchange16, push, pop, swap, getting, putting, step16, write, fetch, address, before, after, pushed, popped;
  cbn [execute execute2 get set hi lo store output load input memory ports stack_of set_stack stack_FT stack_BC stack_DE stack_HL
       mF mT mB mC mD mE mH mL each fold_left all push pop swap exchange exchange16 meaning].
Ltac reads :=
  repeat match goal with
  | M : forall a, byte (?me a) |- context [?me ?x] =>
      lazymatch goal with _ : byte (me x) |- _ => fail | _ => pose proof (M x) end
  | M : forall a, word (?me a) |- context [?me ?x] =>
      lazymatch goal with _ : word (me x) |- _ => fail | _ => pose proof (M x) end
  end.
Ltac normal :=
  repeat (rewrite pair_norm || rewrite mod_add || rewrite mod_mod || rewrite low16 || rewrite high16).
Ltac small := unfold byte, word in *; lia.
Ltac known_bytes :=
  repeat (rewrite low_of by small || rewrite high_of by small || rewrite back by small || rewrite low_of' by small || rewrite high_of' by small).
Ltac solved :=
  try reflexivity;
  try (repeat rewrite not_byte by small; normal; reads; try reflexivity; known_bytes; try reflexivity; try (Z.div_mod_to_equations; small)).
Ltac poked :=
  unfolded; bytes_now; try reflexivity; unfold poke; normal; reads; known_bytes; try reflexivity;
  repeat match goal with |- context [?x =? ?y] => destruct (Z.eqb_spec x y) end; try reflexivity; try (Z.div_mod_to_equations; small).
Ltac stacked :=
  unfolded; bytes_now; try reflexivity; unfold pushed, popped; solved.

Ltac machine_bytes :=
  intros [f t b c d e h l me po s1 s2 s3 s4] (R & M & K);
  pose proof (R rF); pose proof (R rT); pose proof (R rB); pose proof (R rC); pose proof (R rD); pose proof (R rE); pose proof (R rH); pose proof (R rL); clear R;
  pose proof (K FT); pose proof (K BC); pose proof (K DE); pose proof (K HL); clear K;
  cbn [get mF mT mB mC mD mE mH mL memory stack_of stack_FT stack_BC stack_DE stack_HL] in *.
Ltac ran := eexists; split; [cbn [map]; bytes_now; cbn [run]; decoded; cbv beta iota; reflexivity|]; bytes_now.

Definition does (bs : list Z) (i : instr Z) : Prop := forall s, sound s -> exists s', run (map (fun z => z mod 256) bs) s = Some s' /\ same s' (meaning i s).

Ltac agree :=
  machine_bytes; ran; split; [intros []; unfolded; bytes_now; solved
  |split; [intro; poked|split; [intro; poked|intros [] [|]; stacked]]].

Section Plain.
Variables (F : fmath) (target : expr).

Definition reads (i : instr expr) (bs : list Z) : Prop :=
  forall rest, ends rest -> rc8_ParseIntegerInstruction F true target (lex (text i) ++ rest) = Ok (Some (map Byte bs, rest, false)).
Definition good (i : instr expr) (j : instr Z) : Prop := exists bs, reads i bs /\ (List.length bs <= 8)%nat /\ does bs j.

Ltac assembled i :=
  let bs := eval vm_compute in (bytes_of (rc8_ParseIntegerInstruction F true target (lex (text i)))) in
  exists bs; split; [intros [|[]] E; try contradiction E; vm_compute; reflexivity|split; [cbn; lia|]].
Ltac goodness := match goal with |- good ?i _ => assembled i end.
Lemma g_Nop : good (Nop) (Nop).
Proof. goodness; agree. Qed.
Lemma g_LdT : forall r, r <> rT -> good (LdT r) (LdT r).
Proof. intros [] N; try congruence; goodness; agree. Qed.
Lemma g_LdR : forall r, r <> rT -> good (LdR r) (LdR r).
Proof. intros [] N; try congruence; goodness; agree. Qed.
Lemma g_Exg : forall r, r <> rT -> good (Exg r) (Exg r).
Proof. intros [] N; try congruence; goodness; agree. Qed.
Lemma g_SubT : forall r, r <> rT -> good (SubT r) (SubT r).
Proof. intros [] N; try congruence; goodness; agree. Qed.
Lemma g_Logic : forall l r, r <> rT -> good (Logic l r) (Logic l r).
Proof. intros [] [] N; try congruence; goodness; agree. Qed.
Lemma g_LdFT : forall p, p <> FT -> good (LdFT p) (LdFT p).
Proof. intros [] N; try congruence; goodness; agree. Qed.
Lemma g_LdP : forall p, p <> FT -> good (LdP p) (LdP p).
Proof. intros [] N; try congruence; goodness; agree. Qed.
Lemma g_ExgP : forall p, p <> FT -> good (ExgP p) (ExgP p).
Proof. intros [] N; try congruence; goodness; agree. Qed.
Lemma g_AddFT : forall p, p <> FT -> good (AddFT p) (AddFT p).
Proof. intros [] N; try congruence; goodness; agree. Qed.
Lemma g_SubFT : forall p, p <> FT -> good (SubFT p) (SubFT p).
Proof. intros [] N; try congruence; goodness; agree. Qed.
Lemma g_GetW : forall p, p <> FT -> good (GetW p) (GetW p).
Proof. intros [] N; try congruence; goodness; agree. Qed.
Lemma g_PutW : forall p, p <> FT -> good (PutW p) (PutW p).
Proof. intros [] N; try congruence; goodness; agree. Qed.
Lemma g_GetP : forall p, p <> FT -> good (GetP p) (GetP p).
Proof. intros [] N; try congruence; goodness; agree. Qed.
Lemma g_PutP : forall p, p <> FT -> good (PutP p) (PutP p).
Proof. intros [] N; try congruence; goodness; agree. Qed.
Lemma g_AddT : forall r, good (AddT r) (AddT r).
Proof. intros []; goodness; agree. Qed.
Lemma g_NotF : good (NotF) (NotF).
Proof. goodness; agree. Qed.
Lemma g_NotT : good (NotT) (NotT).
Proof. goodness; agree. Qed.
Lemma g_NotFT : good (NotFT) (NotFT).
Proof. goodness; agree. Qed.
Lemma g_NegT : good (NegT) (NegT).
Proof. goodness; agree. Qed.
Lemma g_NegFT : good (NegFT) (NegFT).
Proof. goodness; agree. Qed.
Lemma g_Get : forall w x, valid (Get w x) -> good (Get w x) (Get w x).
Proof. intros [] [[]|[]|[]] V; cbn [valid is_FT] in V; try (exfalso; intuition congruence); goodness; agree. Qed.
Lemma g_Put : forall w x, valid (Put w x) -> good (Put w x) (Put w x).
Proof. intros [] [[]|[]|[]] V; cbn [valid is_FT] in V; try (exfalso; intuition congruence); goodness; agree. Qed.
Lemma g_GetR : forall r x, valid (GetR r x) -> good (GetR r x) (GetR r x).
Proof. intros [] [[]|[]|[]] V; cbn [valid is_FT] in V; destruct V as [V [V1 V2]]; try (exfalso; congruence); goodness; agree. Qed.
Lemma g_PutR : forall x r, valid (PutR x r) -> good (PutR x r) (PutR x r).
Proof. intros [[]|[]|[]] [] V; cbn [valid is_FT] in V; destruct V as [V [V1 V2]]; try (exfalso; congruence); goodness; agree. Qed.
Lemma g_ExgR : forall a b, valid (ExgR a b) -> good (ExgR a b) (ExgR a b).
Proof. intros [] [] V; cbn [valid is_FT] in V; destruct V as [V [V1 V2]]; try (exfalso; congruence); goodness; agree. Qed.
Lemma g_ExgPP : forall a b, valid (ExgPP a b) -> good (ExgPP a b) (ExgPP a b).
Proof. intros [] [] V; cbn [valid is_FT] in V; destruct V as [V [V1 V2]]; try (exfalso; congruence); goodness; agree. Qed.

Lemma lists : forall l, registers l -> (List.length l <= 4)%nat.
Proof.
  intros l [_ N]. change 4%nat with (List.length all). apply NoDup_incl_length; [exact N|]. intros [] _; cbn; auto.
Qed.
(** All lists of at most n registers, each once. *)
Definition pair_eqb (a b : pair) : bool := match a, b with FT, FT | BC, BC | DE, DE | HL, HL => true | _, _ => false end.
Fixpoint lists_upto (n : nat) : list (list pair) :=
  match n with
  | O => [[]]
  | S k => [] :: flat_map (fun l => flat_map (fun p => if existsb (pair_eqb p) l then [] else [p :: l]) all) (lists_upto k)
  end.
Lemma lists_upto_all : forall n l, NoDup l -> (List.length l <= n)%nat -> In l (lists_upto n).
Proof.
  induction n as [|n IH]; intros l N Le.
  - destruct l; [left; reflexivity|cbn in Le; lia].
  - destruct l as [|p l]; [left; reflexivity|]. right. apply in_flat_map. inversion N as [|? ? N1 N2]; subst.
    exists l. split; [apply IH; [exact N2|cbn in Le; lia]|]. apply in_flat_map. exists p. split; [destruct p; cbn; auto|].
    destruct (existsb (pair_eqb p) l) eqn:X; [|left; reflexivity]. exfalso. apply existsb_exists in X. destruct X as (q & Q & E).
    apply N1. destruct p, q; cbn in E; try discriminate E; exact Q.
Qed.
Lemma every_list : forall (P : list pair -> Prop), Forall P (tl (lists_upto 4)) -> forall l, registers l -> P l.
Proof.
  intros P A l V. pose proof (lists l V) as Le. destruct V as [E N]. pose proof (lists_upto_all 4 l N Le) as I.
  rewrite Forall_forall in A. apply A. destruct I as [I|I]; [congruence|exact I].
Qed.
Ltac enumerate :=
  let ls := eval vm_compute in (tl (lists_upto 4)) in change (tl (lists_upto 4)) with ls;
  repeat (apply Forall_cons; [goodness; agree|]); apply Forall_nil.
Lemma g_Push : forall l, registers l -> good (Push l) (Push l).
Proof. apply every_list. enumerate. Qed.
Lemma g_Pop : forall l, registers l -> good (Pop l) (Pop l).
Proof. apply every_list. enumerate. Qed.
Lemma g_Swap : forall l, registers l -> good (Swap l) (Swap l).
Proof. apply every_list. enumerate. Qed.
End Plain.
