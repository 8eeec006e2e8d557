(** C33: the option stack. *)
From Coq Require Import ZArith List Bool Lia.
From Verif Require Import Base BaseFacts OptModel OptSpec.
Import ListNotations.
Open Scope Z_scope.

Lemma run_app : forall E a b st, optRun E (a ++ b) st = optRun E b (optRun E a st).
Proof. intros. apply fold_left_app. Qed.

Lemma warn_kept : forall n st,
  t_current (err_Warn n st) = t_current st /\ t_saved (err_Warn n st) = t_saved st.
Proof. intros n st. unfold err_Warn. destruct (warningEnabled _ _); split; reflexivity. Qed.

Lemma keep_kept : forall r st, t_current (keep r st) = snd r /\ t_saved (keep r st) = t_saved st.
Proof.
  intros [b o] st. unfold keep. cbn [fst snd]. destruct b; [split; reflexivity|].
  destruct (warn_kept WARN_OPTION (set_current o st)) as [A B]. rewrite A, B. split; reflexivity.
Qed.

Lemma parse_saved : forall E s st, t_saved (opt_Parse E s st) = t_saved st.
Proof.
  intros E s st. unfold opt_Parse. destruct (decimalToInt E (tl s)) as [ok v].
  repeat match goal with
  | |- context [match ?x with _ => _ end] => is_var x; destruct x
  | |- context [t_saved (keep ?r ?st)] => rewrite (proj2 (keep_kept r st))
  | |- context [t_saved (err_Warn ?r ?st)] => rewrite (proj2 (warn_kept r st))
  end; reflexivity.
Qed.

Lemma parse_list_saved : forall E l st,
  t_saved (fold_left (fun st s => opt_Parse E s st) l st) = t_saved st.
Proof.
  intros E l; induction l as [|s l IH]; intro st; [reflexivity|].
  cbn [fold_left]. rewrite IH. apply parse_saved.
Qed.

Lemma balanced_saved : forall E l, balanced l -> forall st, t_saved (optRun E l st) = t_saved st.
Proof.
  intros E l H; induction H; intro st.
  - reflexivity.
  - change (optRun E (DOpt s :: l) st) with (optRun E l (optStep E (DOpt s) st)).
    rewrite IHbalanced. apply parse_list_saved.
  - change (optRun E (DMachine f :: l) st) with (optRun E l (optStep E (DMachine f) st)).
    rewrite IHbalanced. reflexivity.
  - change (optRun E (DPusho :: a ++ DPopo :: l) st) with (optRun E (a ++ DPopo :: l) (opt_Push st)).
    rewrite run_app.
    change (DPopo :: l) with ([DPopo] ++ l). rewrite run_app, IHbalanced2.
    change (t_saved (opt_Pop (optRun E a (opt_Push st))) = t_saved st).
    unfold opt_Pop. rewrite IHbalanced1. reflexivity.
Qed.

(** After PUSHO, any directives whose own PUSHO and POPO match, and POPO, the
    current options and the saved ones are what they were. *)
Theorem C33_restore_partial : forall E l st, balanced l ->
  t_current (optRun E (DPusho :: l ++ [DPopo]) st) = t_current st /\
  t_saved (optRun E (DPusho :: l ++ [DPopo]) st) = t_saved st.
Proof.
  intros E l st H.
  change (optRun E (DPusho :: l ++ [DPopo]) st) with (optRun E (l ++ [DPopo]) (opt_Push st)).
  rewrite run_app. change (optRun E [DPopo] (optRun E l (opt_Push st))) with (opt_Pop (optRun E l (opt_Push st))).
  unfold opt_Pop. rewrite (balanced_saved E l H). split; reflexivity.
Qed.
Print Assumptions C33_restore_partial.

(** Hence directives after POPO act as if the block were absent, except for the
    include paths and the warnings already given. *)
Theorem C33_after : forall E l more st, balanced l ->
  t_current (optRun E ((DPusho :: l ++ [DPopo]) ++ more) st) = t_current (optRun E more st) /\
  t_saved (optRun E ((DPusho :: l ++ [DPopo]) ++ more) st) = t_saved (optRun E more st).
Proof.
  intros E l more st H. rewrite run_app.
  destruct (C33_restore_partial E l st H) as [A B].
  set (st1 := optRun E (DPusho :: l ++ [DPopo]) st) in *. clearbody st1.
  revert st1 st A B. clear. induction more as [|d more IH]; intros st1 st A B; [split; assumption|].
  change (optRun E (d :: more) st1) with (optRun E more (optStep E d st1)).
  change (optRun E (d :: more) st) with (optRun E more (optStep E d st)).
  apply IH; clear IH.
  - destruct d as [s|f| |]; cbn [optStep].
    + revert st1 st A B. induction s as [|s ss IHs]; intros; [exact A|]. cbn [fold_left]. apply IHs.
      * clear IHs. unfold opt_Parse. rewrite <- A. destruct (decimalToInt E (tl s)) as [ok v].
        repeat match goal with
        | |- context [match ?x with _ => _ end] => is_var x; destruct x
        | |- context [t_current (keep ?r ?st)] => rewrite (proj1 (keep_kept r st))
        | |- context [t_current (err_Warn ?r ?st)] => rewrite (proj1 (warn_kept r st))
        end; try reflexivity; exact A.
      * rewrite !parse_saved. exact B.
    + cbn. rewrite A. reflexivity.
    + exact A.
    + unfold opt_Pop. rewrite B. destruct (t_saved st); [|reflexivity].
      rewrite (proj1 (warn_kept _ _)), (proj1 (warn_kept _ _)). exact A.
  - destruct d as [s|f| |]; cbn [optStep].
    + rewrite !parse_list_saved. exact B.
    + exact B.
    + cbn. rewrite A, B. reflexivity.
    + unfold opt_Pop. rewrite B. destruct (t_saved st) eqn:X; [|reflexivity].
      rewrite (proj2 (warn_kept _ _)), (proj2 (warn_kept _ _)). congruence.
Qed.
Print Assumptions C33_after.

(** A POPO without PUSHO changes no option; it is reported unless that warning is
    disabled. *)
Theorem C33_unmatched : forall st, t_saved st = [] ->
  t_current (opt_Pop st) = t_current st /\ t_saved (opt_Pop st) = [] /\
  (~ In WARN_OPTION_POP (o_disabled (t_current st)) -> t_warnings (opt_Pop st) = t_warnings st ++ [WARN_OPTION_POP]).
Proof.
  intros st H. unfold opt_Pop. rewrite H. rewrite (proj1 (warn_kept _ _)), (proj2 (warn_kept _ _)).
  split; [reflexivity|]. split; [exact H|]. intro N. unfold err_Warn, warningEnabled.
  replace (existsb _ _) with false; [reflexivity|]. symmetry. apply not_true_is_false. intro X.
  apply existsb_exists in X as (d & I & X). apply Z.eqb_eq in X. subst d. exact (N I).
Qed.
Print Assumptions C33_unmatched.

(** OPT w<n> disables warning n and no other, as long as fewer than 32 are disabled. *)
Theorem C33_warning : forall E n text st, decimalToInt E text = (true, Some n) -> 0 <= n < 65536 ->
  zlen (o_disabled (t_current st)) < 32 ->
  forall m, warningEnabled (t_current (opt_Parse E (119 :: text) st)) m = true <->
            m <> n /\ warningEnabled (t_current st) m = true.
Proof.
  intros E n text st D R L m. unfold opt_Parse. cbn [tl].
  rewrite (proj1 (keep_kept _ _)). unfold handleDisableWarning. rewrite D.
  replace (zlen (o_disabled (t_current st)) <? MAX_DISABLED_WARNINGS) with true
    by (symmetry; apply Z.ltb_lt; exact L).
  cbn [snd]. unfold warningEnabled. cbn [o_disabled]. rewrite existsb_app. cbn [existsb].
  replace (u16 n) with n by (unfold u16; rewrite Z.mod_small; lia).
  rewrite orb_false_r, negb_orb, andb_true_iff, (negb_true_iff (n =? m)), Z.eqb_neq.
  split; intros [A B]; split; congruence || exact A || exact B.
Qed.
Print Assumptions C33_warning.

(** OPT e, OPT z, OPT a and OPT g set the byte order, the fill byte, the section
    alignment and the debug switch, and nothing else. *)
Theorem C33_settings : forall E st v text, let o := t_current st in
  t_current (opt_Parse E [101; 98] st) = set_endianness BigEndian o /\
  t_current (opt_Parse E [101; 108] st) = set_endianness LittleEndian o /\
  (hexToInt E text = (true, v) -> (length text <= 2)%nat -> text <> [63] ->
     t_current (opt_Parse E (122 :: text) st) = set_fill (v mod 256) o) /\
  t_current (opt_Parse E [122; 63] st) = set_fill 255 o /\
  (decimalToInt E text = (true, Some v) -> is_s32 v ->
     t_current (opt_Parse E (97 :: text) st) = set_alignment v o) /\
  t_current (opt_Parse E (103 :: text) st) = set_debug true o.
Proof.
  intros E st v text o.
  assert (W : forall s, word_length s <= zlen s).
  { induction s as [|c s IH]; [cbn; lia|]. cbn [word_length]. rewrite zlen_cons.
    pose proof (zlen_nonneg _ s). destruct ((c =? 32) || (c =? 9)); lia. }
  repeat match goal with |- _ /\ _ => split end; intros; unfold opt_Parse; cbn [tl];
    rewrite ?(proj1 (keep_kept _ _)); try reflexivity.
  - unfold handleUnitializedFill. rewrite (proj2 (Z.leb_le _ _)).
    + rewrite (proj2 (beq_neq _ _)) by assumption. rewrite H. reflexivity.
    + specialize (W text). unfold zlen in W. lia.
  - rewrite H. rewrite (proj1 (keep_kept _ _)). cbn [snd]. rewrite s32_id by assumption. reflexivity.
Qed.
Print Assumptions C33_settings.

Definition sample_env : optEnv := OptEnv (fun _ => (true, Some 7)) (fun _ => (true, 18)) (fun _ o => o).
Definition sample_options : options :=
  Options LittleEndian [48; 49] [48; 49; 50; 51] 255 1 [] [] true false true.
Definition sample_block : list optDirective :=
  [DOpt [[101; 98]; [122; 49; 50]]; DPusho; DOpt [[119; 55]]; DPopo; DOpt [[97; 55]; [105; 120]]].
Example C33_case : balanced sample_block /\
  t_current (optRun sample_env sample_block (OptState sample_options [] [] [])) =
  Options BigEndian [48; 49] [48; 49; 50; 51] 18 7 [] [] true false true.
Proof.
  split; [|reflexivity]. unfold sample_block. apply balanced_opt.
  apply (balanced_nest [DOpt [[119; 55]]]); repeat constructor.
Qed.

(** Include paths are not part of the saved options: a path added with OPT i
    between PUSHO and POPO is searched afterwards. *)
Theorem C33_include_refuted : exists l, balanced l /\ forall E st,
  t_includes (optRun E (DPusho :: l ++ [DPopo]) st) <> t_includes st.
Proof.
  exists [DOpt [[105; 120]]]. split; [repeat constructor|]. intros E st.
  change (t_includes st ++ [[120]] <> t_includes st). intro H.
  apply (f_equal (@length _)) in H. rewrite app_length in H. cbn in H. lia.
Qed.
Print Assumptions C33_include_refuted.
