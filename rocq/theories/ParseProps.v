(** C36: how expressions are grouped. *)
From Coq Require Import ZArith List Bool Lia ZifyBool.
From Verif Require Import Base BaseFacts Arith ExprSpec ExprModel ExprLayout ExprTree ExprProofs ExprTotal ExprProps
  ParseModel ParseSpec ParseFuel ParseProofs.
Import ListNotations.
Open Scope Z_scope.

Lemma plain_ok : forall pc df t, plain t -> term_ok (term_of pc df t).
Proof.
  intros pc df t. induction t; cbn; try tauto; intro H.
  - split; [unfold is_s32; lia|]. auto.
  - split; [unfold is_s32; lia|]. auto.
  - destruct (df s); cbn; unfold is_s32; lia.
Qed.

(** The text of an expression whose tree is grouped as the table [levels] says
    (operators of one level to the left, parentheses override) is parsed
    completely, and what comes out has the value of that tree; if the symbols
    used are constants it is that constant at once. *)
Theorem C36_value_of_text :
  forall P mx base E t rest v,
  let d := term_of (p_pc P) (p_defined P) t in
  fmath_ok (p_math P) -> env_ok (p_world P) base E ->
  defined (p_world P) d -> divisors_known (p_world P) d ->
  plain t -> grouped levels 0 t -> ends rest -> meaning (p_math P) E d = Some v ->
  exists e, parse_Expression P mx (show t ++ rest) = Ok (e, rest) /\
    den (p_math P) E e = Some v /\
    (known (p_world P) d -> expr_IsConstant e = true /\ e_v e = v).
Proof.
  intros P mx base E t rest v d HF HE Hdef Hdk Pl G En Hm.
  pose proof (plain_ok (p_pc P) (p_defined P) t Pl) as Hok. fold d in Hok.
  destruct (build_total (p_math P) (p_world P) base E HF HE None I (p_garbage P) 0 d v Hok Hdef Hdk Hm) as [e He].
  exists e. split; [exact (parse_grouped P mx 0 None t rest e G Pl En He)|].
  destruct (build_ok (p_math P) (p_world P) base E HF HE None I (p_garbage P) 0 d e v Hok Hm He) as (_ & D & _).
  split; [exact D|]. intros K.
  pose proof (known_const (p_math P) (p_world P) None (p_garbage P) 0 d e K He) as C.
  split; [exact C|]. rewrite (den_const _ _ e C) in D. congruence.
Qed.
Print Assumptions C36_value_of_text.

(** The same for the documented table, away from the two places where the
    assembler departs from it (C36_shift_refuted, C36_not_refuted). *)
Theorem C36_as_documented :
  forall P mx base E t rest v,
  let d := term_of (p_pc P) (p_defined P) t in
  fmath_ok (p_math P) -> env_ok (p_world P) base E ->
  defined (p_world P) d -> divisors_known (p_world P) d ->
  plain t -> grouped documented 0 t -> clear_cut t -> ends rest -> meaning (p_math P) E d = Some v ->
  exists e, parse_Expression P mx (show t ++ rest) = Ok (e, rest) /\
    den (p_math P) E e = Some v /\
    (known (p_world P) d -> expr_IsConstant e = true /\ e_v e = v).
Proof.
  intros P mx base E t rest v d HF HE Hdef Hdk Pl G C En Hm.
  apply (C36_value_of_text P mx base E t rest v); auto. apply documented_levels; assumption.
Qed.
Print Assumptions C36_as_documented.

(** Entering an expression through the parser is the same as calling the
    expression functions on its tree, whenever these succeed. *)
Theorem C36_tree_of_text :
  forall P mx g cur t rest e,
  plain t -> grouped levels 0 t -> ends rest ->
  build (p_math P) (p_garbage P) g (p_world P) cur (term_of (p_pc P) (p_defined P) t) = Ok e ->
  parse_Expression P mx (show t ++ rest) = Ok (e, rest).
Proof. intros P mx g cur t rest e Pl G En B. exact (parse_grouped P mx g cur t rest e G Pl En B). Qed.
Print Assumptions C36_tree_of_text.

(** *** Example: symbol 0 imported, 1 and 2 labels, 3 a constant 7;
    -2 + 3 * (1 + label2 - label1) & 255 == 9 || ~! constant + 1 && def(label1) *)
Definition exP : pctx := Pctx exF exWorld (fun _ => 99) 1 (fun s => Nat.ltb s 4) (fun _ => None) false
  (fun _ => 0%nat) (fun a b => 0) (fun a b => None) (fun a => a) (fun a => a).
Definition exSx : sx :=
  XBin OpBoolAnd
    (XBin OpBoolOr
      (XBin OpEq
        (XBin OpAdd (XNeg (XNum 2))
          (XBin OpAnd
            (XBin OpMul (XNum 3) (XParen (XBin OpSub (XBin OpAdd (XNum 1) (XSym 2 NoDot)) (XSym 1 (Dot None)))))
            (XNum 255)))
        (XNum 9))
      (XNot (XBin OpAdd (XSym 3 NoDot) (XNum 1))))
    (XDef 1 NoDot).
Example C36_example :
  plain exSx /\ grouped levels 0 exSx /\
  defined exWorld (term_of 1 (p_defined exP) exSx) /\ divisors_known exWorld (term_of 1 (p_defined exP) exSx) /\
  meaning exF exEnv (term_of 1 (p_defined exP) exSx) = Some 0 /\ length (show exSx) = 26%nat /\
  exists e, parse_Expression exP 4 (show exSx ++ [KComma; KNum 1]) = Ok (e, [KComma; KNum 1]).
Proof.
  split; [cbn; unfold is_s32; lia|]. split; [cbn; repeat split; try lia; auto|].
  split. { intros s Hs. cbn in Hs. destruct Hs as [<-|[<-|[<-|[]]]]; cbn; split; congruence. }
  split; [cbn; auto 20|]. split; [reflexivity|]. split; [reflexivity|].
  eexists. vm_compute. reflexivity.
Qed.
(** 2 * 3 << 1 + 1 and 10 - 4 - 3 *)
Example C36_documented_example :
  let t := XBin OpAdd (XBin OpAsl (XBin OpMul (XNum 2) (XNum 3)) (XNum 1)) (XNum 1) in
  let u := XBin OpSub (XBin OpSub (XNum 10) (XNum 4)) (XNum 3) in
  (grouped documented 0 t /\ clear_cut t /\ parse_Expression exP 4 (show t) =
     Ok (node2 OpAdd 13 (node2 OpAsl 12 (node2 OpMul 6 (expr_Const 2) (expr_Const 3)) (expr_Const 1)) (expr_Const 1), [])) /\
  (grouped documented 0 u /\ clear_cut u /\ meaning exF exEnv (term_of 1 (p_defined exP) u) = Some 3).
Proof. cbv zeta. cbn. repeat split; lia. Qed.

(** *** Where the documentation and the assembler part *)

(** The documentation puts shifts below * and /; the assembler gives 1 << 2 * 3
    the value (1 << 2) * 3. *)
Theorem C36_shift_refuted :
  exists t v e, plain t /\ grouped documented 0 t /\
    meaning exF exEnv (term_of 1 (p_defined exP) t) = Some v /\
    parse_Expression exP 4 (show t) = Ok (e, []) /\ expr_IsConstant e = true /\ e_v e <> v.
Proof.
  exists (XBin OpAsl (XNum 1) (XBin OpMul (XNum 2) (XNum 3))), 64.
  eexists. split; [cbn; unfold is_s32; lia|]. split; [cbn; repeat split; lia|].
  split; [reflexivity|]. split; [vm_compute; reflexivity|]. split; [reflexivity|]. discriminate.
Qed.
Print Assumptions C36_shift_refuted.

(** It puts ~! below && and ||, so that ~! 0 && 0 would be ~! (0 && 0), which is
    1; the assembler finds 0. *)
Theorem C36_not_refuted :
  exists e, meaning exF exEnv (Un OpBoolNot (Bin OpBoolAnd (Num 0) (Num 0))) = Some 1 /\
    parse_Expression exP 4 [KOp OpBoolNot; KNum 0; KOp OpBoolAnd; KNum 0] = Ok (e, []) /\
    expr_IsConstant e = true /\ e_v e = 0.
Proof. eexists. split; [reflexivity|]. split; [vm_compute; reflexivity|]. split; reflexivity. Qed.
Print Assumptions C36_not_refuted.

(** Strings: comparisons, .length, .compareto and .indexof.  [s] precedes [t] if it is
    a proper prefix or has the smaller character at the first difference. *)
Inductive precedes : list Z -> list Z -> Prop :=
| precedes_nil : forall c t, precedes [] (c :: t)
| precedes_lt : forall c d s t, c < d -> precedes (c :: s) (d :: t)
| precedes_cons : forall c s t, precedes s t -> precedes (c :: s) (c :: t).
(** What str_Compare is for. *)
Definition compares (f : list Z -> list Z -> Z) : Prop :=
  forall s t, (f s t < 0 <-> precedes s t) /\ (f s t = 0 <-> s = t).
Definition string_relation (o : op) (s t : list Z) : Prop :=
  match o with
  | OpEq => s = t | OpNe => s <> t | OpLt => precedes s t | OpLe => precedes s t \/ s = t
  | OpGt => precedes t s | OpGe => precedes t s \/ s = t | _ => False
  end.
Lemma precedes_total : forall s t, precedes s t \/ s = t \/ precedes t s.
Proof.
  induction s as [|c s IH]; intros [|d t]; [auto|left; constructor|right; right; constructor|].
  destruct (Z.lt_trichotomy c d) as [L|[->|L]]; [left; constructor; exact L| |right; right; constructor; exact L].
  destruct (IH t) as [L|[->|L]]; [left; constructor; exact L|auto|right; right; constructor; exact L].
Qed.
Lemma precedes_not : forall s t, precedes s t -> ~ precedes t s /\ s <> t.
Proof.
  induction 1 as [c t|c d s t L|c s t _ (IH1 & IH2)]; (split; [intro K; inversion K; subst; lia || auto|intro K; inversion K; subst; lia || auto]).
Qed.
Theorem C36_strings : forall P mx r1 s r2 t o w, compares (p_compare P) -> compareOp o = true ->
  (exists v, parse_Expression P mx [KStr r1 s; KOp o; KStr r2 t] = Ok (expr_Const v, []) /\
     (v = 1 /\ string_relation o s t \/ v = 0 /\ ~ string_relation o s t)) /\
  parse_Expression P mx [KStr r1 s; KId w (Dot (Some MLength))] = Ok (expr_Const (s32 (zlen s)), []) /\
  parse_Expression P mx [KStr r1 s; KId w (Dot (Some MCompareTo)); KLp; KStr r2 t; KRp] = Ok (expr_Const (p_compare P s t), []) /\
  parse_Expression P mx [KStr r1 s; KId w (Dot (Some MIndexOf)); KLp; KStr r2 t; KRp] =
    Ok (expr_Const (match p_find P s t with Some v => v | None => -1 end), []).
Proof.
  intros P mx r1 s r2 t o w C O. split; [|repeat split; reflexivity].
  exists (c_bool (compareResult o (p_compare P s t))). split; [destruct o; try discriminate O; reflexivity|].
  destruct (C s t) as (C1 & C2). unfold c_bool.
  assert (G : p_compare P s t > 0 <-> precedes t s).
  { split; intro K.
    - destruct (precedes_total s t) as [L|[L|L]]; [apply C1 in L; lia|apply C2 in L; lia|exact L].
    - destruct (precedes_not _ _ K) as (K1 & K2). assert (~ p_compare P s t < 0) by tauto.
      assert (p_compare P s t <> 0) by (intro Z0; apply K2; symmetry; apply C2; exact Z0). lia. }
  destruct (compareResult o (p_compare P s t)) eqn:R; [left|right]; (split; [reflexivity|]);
    destruct o; try discriminate O; cbn [compareResult string_relation] in *;
    rewrite <- ?G, <- ?C1, <- ?C2; lia.
Qed.
Print Assumptions C36_strings.

(** -2147483648 overflows: the literal 2147483648 reads as the smallest integer
    and is subtracted from 0. *)
Theorem C36_minimum_refuted :
  s32 2147483648 = -2147483648 /\
  forall mx, parse_Expression exP mx [KOp OpSub; KNum (s32 2147483648)] = UB.
Proof. split; [reflexivity|]. intros mx. vm_compute. reflexivity. Qed.
Print Assumptions C36_minimum_refuted.

(** 65 == "A" compares a number with a character; "A" == 65 is an error, because
    a string comparison is tried first. *)
Theorem C36_character_compare_refuted :
  (exists e, parse_Expression exP 4 [KNum 65; KOp OpEq; KStr [65] [65]] = Ok (e, []) /\
     expr_IsConstant e = true /\ e_v e = 1) /\
  parse_Expression exP 4 [KStr [65] [65]; KOp OpEq; KNum 65] = Err.
Proof. split; [eexists; split; [vm_compute; reflexivity|split; reflexivity]|vm_compute; reflexivity]. Qed.
Print Assumptions C36_character_compare_refuted.

(** An expression that starts with a local label called .upper or .lower
    makes the string parser work on a null pointer. *)
Theorem C36_member_label_refuted :
  forall m, m = MUpper \/ m = MLower ->
  exists e, build exF (fun _ => 99) 0 exWorld None (Bin OpAdd (Sym 1) (Num 1)) = Ok e /\
    parse_Expression exP 4 (show (XBin OpAdd (XSym 1 (Dot (Some m))) (XNum 1))) = UB.
Proof.
  intros m [-> | ->]; eexists; (split; [vm_compute; reflexivity|vm_compute; reflexivity]).
Qed.
Print Assumptions C36_member_label_refuted.

(** So does a parenthesised character constant after a unary plus. *)
Theorem C36_plus_character_refuted :
  (exists e, parse_Expression exP 4 [KOp OpAdd; KStr [65] [65]] = Ok (e, []) /\ e_v e = 65) /\
  parse_Expression exP 4 [KLp; KOp OpAdd; KStr [65] [65]; KRp] = UB.
Proof. split; [eexists; split; [vm_compute; reflexivity|reflexivity]|vm_compute; reflexivity]. Qed.
Print Assumptions C36_plus_character_refuted.
