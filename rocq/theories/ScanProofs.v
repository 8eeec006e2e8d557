(** The scans find the directives of ScanSpec. *)
From Coq Require Import ZArith List Bool Lia ZifyBool ZifyNat.
From Verif Require Import Base BaseFacts LexModel LexSpec LexProofs ScanModel ScanSpec.
Import ListNotations.
Open Scope Z_scope.

Definition room (b : buf) : Prop := (length (b_stack b) <= 255)%nat.

Lemma get1 : forall b c l, delivers b (c :: l) -> c <> 0 -> c <> 92 -> room b ->
  exists b1 b2, getChar b = Ok (c, b1) /\ delivers b1 l /\ room b1 /\
    unput b1 c = Ok b2 /\ delivers b2 (c :: l) /\ room b2.
Proof.
  intros b c l D C0 C92 R. destruct (getChar_delivers b c l D C0 C92) as (b1 & G & D1 & L1 & L1').
  unfold room in *.
  assert (L2 : (S (length (b_stack b1)) <= 255)%nat).
  { destruct (b_stack b) as [|x s] eqn:E; [cbn in *; lia|]. specialize (L1' ltac:(discriminate)). cbn in *. lia. }
  destruct (unput_delivers b1 c l D1 ltac:(lia)) as (b2 & U & D2 & L3).
  exists b1, b2. repeat split; auto; lia.
Qed.

Definition okc (c : Z) : Prop := c <> 10 /\ c <> 0 /\ c <> 92.

(** The first character of a line with what follows it. *)
Lemma split_line : forall l rest, line_ok l ->
  exists c t, l ++ 10 :: rest = c :: t /\ c <> 0 /\ c <> 92 /\
    (l = [] /\ c = 10 /\ t = rest \/ exists l', l = c :: l' /\ t = l' ++ 10 :: rest /\ okc c /\ line_ok l').
Proof.
  intros [|c l] rest H.
  - exists 10, rest. repeat split; try lia. left; auto.
  - inversion H as [|? ? (A & B & C) H']; subst. exists c, (l ++ 10 :: rest). repeat split; auto.
    right. exists l. repeat split; auto.
Qed.

Lemma toLineEnd_ok : forall t n b c rest, line_ok (c :: t) -> delivers b (t ++ 10 :: rest) -> room b ->
  (S (length t) < n)%nat -> exists b', toLineEnd n c b = Ok b' /\ delivers b' rest /\ room b'.
Proof.
  induction t as [|d t IH]; intros n b c rest H D R L; destruct n as [|n]; try (cbn in L; lia);
    inversion H as [|? ? (A & B & C) H']; subst; cbn [toLineEnd];
    (destruct (Z.eqb_spec c 10); [contradiction|]); (destruct (Z.eqb_spec c 0); [contradiction|]); cbn [orb].
  - cbn [app] in D. destruct (get1 b 10 rest D ltac:(lia) ltac:(lia) R) as (b1 & _ & -> & D1 & R1 & _). cbn [bind].
    destruct n as [|n]; [cbn in L; lia|]. cbn [toLineEnd]. change (10 =? 10) with true. cbn [orb]. eauto.
  - cbn [app length] in *. inversion H' as [|? ? (A1 & B1 & C1) H'']; subst.
    destruct (get1 b d (t ++ 10 :: rest) D B1 C1 R) as (b1 & _ & -> & D1 & R1 & _). cbn [bind].
    apply IH; auto. lia.
Qed.
Lemma skipToNextLine_ok : forall t n b rest, line_ok t -> delivers b (t ++ 10 :: rest) -> room b ->
  (S (length t) < n)%nat -> exists b', skipToNextLine n b = Ok (true, b') /\ delivers b' rest /\ room b'.
Proof.
  intros t n b rest H D R L. unfold skipToNextLine. destruct t as [|c t].
  - cbn [app] in D. destruct (get1 b 10 rest D ltac:(lia) ltac:(lia) R) as (b1 & _ & -> & D1 & R1 & _). cbn [bind].
    change (10 =? 0) with false. cbv iota. destruct n as [|n]; [lia|]. cbn [toLineEnd].
    change (10 =? 10) with true. cbn [orb bind]. eauto.
  - inversion H as [|? ? (A & B & C) H']; subst. cbn [app] in D.
    destruct (get1 b c (t ++ 10 :: rest) D B C R) as (b1 & _ & -> & D1 & R1 & _). cbn [bind].
    destruct (Z.eqb_spec c 0); [contradiction|].
    destruct (toLineEnd_ok t n b1 c rest H D1 R1 ltac:(cbn in L; lia)) as (b2 & -> & D2 & R2). cbn [bind]. eauto.
Qed.
Lemma charIsComment_ok : forall l b rest, line_ok l -> delivers b (l ++ 10 :: rest) -> room b ->
  exists b', charIsComment b = Ok (starts_comment l, b') /\ delivers b' (l ++ 10 :: rest) /\ room b'.
Proof.
  intros l b rest H D R. destruct (split_line l rest H) as (c & t & E & C0 & C92 & Hc). rewrite E in D |- *.
  destruct (get1 b c t D C0 C92 R) as (b1 & b2 & G & _ & _ & U & D2 & R2).
  unfold charIsComment. rewrite G. cbn [bind]. rewrite U. cbn [bind]. exists b2. split; [|auto].
  destruct (Z.eqb_spec c 0); [contradiction|]. cbn [negb andb].
  destruct Hc as [(-> & -> & _)|(l' & -> & _)]; reflexivity.
Qed.
Lemma skipLabel_ok : forall l n b rest, line_ok l -> delivers b (l ++ 10 :: rest) -> room b -> (length l < n)%nat ->
  exists b', skipLabel n b = Ok b' /\ delivers b' (after_label l ++ 10 :: rest) /\ room b'.
Proof.
  induction l as [|c l IH]; intros n b rest H D R L; (destruct n as [|n]; [cbn in L; lia|]); cbn [skipLabel].
  - cbn [app] in D. destruct (get1 b 10 rest D ltac:(lia) ltac:(lia) R) as (b1 & b2 & -> & _ & _ & U & D2 & R2). cbn [bind].
    change (isBlank 10 || (10 =? 10) || (10 =? 0)) with true. cbv iota. rewrite U. cbn [after_label app]. eauto.
  - inversion H as [|? ? (A & B & C) H']; subst. cbn [app] in D.
    destruct (get1 b c (l ++ 10 :: rest) D B C R) as (b1 & b2 & -> & D1 & R1 & U & D2 & R2). cbn [bind after_label].
    destruct (Z.eqb_spec c 10); [contradiction|]. destruct (Z.eqb_spec c 0); [contradiction|]. rewrite !orb_false_r.
    destruct (isBlank c).
    + rewrite U. eauto.
    + apply IH; auto. cbn in L. lia.
Qed.
Lemma skipWhiteSpace_ok : forall m n flag b rest, line_ok m -> delivers b (m ++ 10 :: rest) -> room b -> (length m < n)%nat ->
  (flag = true \/ match m with [] => True | c :: _ => isBlank c = true end) ->
  exists b', skipWhiteSpace n flag b = Ok (starts_comment (after_blanks m), b') /\ room b' /\
    (if starts_comment (after_blanks m)
     then exists t, line_ok t /\ delivers b' (t ++ 10 :: rest) /\ (length t <= length m)%nat
     else delivers b' (after_blanks m ++ 10 :: rest)).
Proof.
  induction m as [|c m IH]; intros n flag b rest H D R L Fl; (destruct n as [|n]; [cbn in L; lia|]); cbn [skipWhiteSpace].
  - cbn [app] in D. destruct (get1 b 10 rest D ltac:(lia) ltac:(lia) R) as (b1 & b2 & -> & _ & _ & U & D2 & R2). cbn [bind].
    change (10 =? 42) with false. rewrite andb_false_r. change (isBlank 10) with false. change (10 =? 59) with false. cbv iota.
    rewrite U. cbn [bind after_blanks starts_comment app]. eauto.
  - inversion H as [|? ? (A & B & C) H']; subst. cbn [app] in D.
    destruct (get1 b c (m ++ 10 :: rest) D B C R) as (b1 & b2 & -> & D1 & R1 & U & D2 & R2). cbn [bind after_blanks].
    destruct (isBlank c) eqn:Eb.
    + assert (Hs : (c =? 42) = false) by (unfold isBlank in Eb; lia). rewrite Hs, andb_false_r.
      destruct (IH n true b1 rest H' D1 R1 ltac:(cbn in L; lia) (or_introl eq_refl)) as (b' & -> & R' & Hx).
      exists b'. split; [reflexivity|]. split; [exact R'|].
      destruct (starts_comment (after_blanks m)); [|exact Hx].
      destruct Hx as (t & T1 & T2 & T3). exists t. repeat split; auto. cbn. lia.
    + destruct Fl as [-> |Fl]; [|discriminate Fl]. cbn [andb starts_comment].
      destruct (Z.eqb_spec c 42) as [->|N42].
      * exists b1. change (42 =? 59) with false. cbn [orb]. split; [reflexivity|]. split; [exact R1|].
        exists m. split; [exact H'|]. split; [exact D1|cbn; lia].
      * destruct (Z.eqb_spec c 59) as [->|N59].
        -- exists b1. cbn [orb]. split; [reflexivity|]. split; [exact R1|].
           exists m. split; [exact H'|]. split; [exact D1|cbn; lia].
        -- cbn [orb]. rewrite U. cbn [bind]. exists b2. auto.
Qed.
Lemma directiveWord_ok : forall m n word b rest, line_ok m -> delivers b (m ++ 10 :: rest) -> room b -> (length m < n)%nat ->
  (length word + length (letters m) <= 256)%nat ->
  exists b', directiveWord n word b = Ok (word ++ letters m, b') /\ delivers b' (after_letters m ++ 10 :: rest) /\ room b'.
Proof.
  induction m as [|c m IH]; intros n word b rest H D R L W; (destruct n as [|n]; [cbn in L; lia|]); cbn [directiveWord].
  - cbn [app] in D. destruct (get1 b 10 rest D ltac:(lia) ltac:(lia) R) as (b1 & b2 & -> & _ & _ & U & D2 & R2). cbn [bind].
    change (isalpha 10) with false. cbv iota. rewrite U. cbn [bind letters after_letters app]. rewrite app_nil_r. eauto.
  - inversion H as [|? ? (A & B & C) H']; subst. cbn [app] in D.
    destruct (get1 b c (m ++ 10 :: rest) D B C R) as (b1 & b2 & -> & D1 & R1 & U & D2 & R2). cbn [bind letters after_letters] in *.
    destruct (isalpha c).
    + cbn [length] in *. destruct (Nat.ltb_spec (length word) 256) as [_|]; [|lia].
      destruct (IH n (word ++ [c]) b1 rest H' D1 R1 ltac:(lia)) as (b' & -> & D' & R').
      { rewrite app_length. cbn [length]. lia. }
      rewrite <- app_assoc. cbn [app]. eauto.
    + rewrite U. cbn [bind]. rewrite app_nil_r. eauto.
Qed.

Lemma line_ok_after_label : forall l, line_ok l -> line_ok (after_label l) /\ (length (after_label l) <= length l)%nat /\
  match after_label l with [] => True | c :: _ => isBlank c = true end.
Proof.
  induction l as [|c l IH]; intros H; [repeat split; auto; constructor|].
  inversion H; subst. cbn [after_label]. destruct (isBlank c) eqn:E; [repeat split; auto|].
  destruct IH as (A & B & C); [assumption|]. repeat split; auto. cbn; lia.
Qed.
Lemma line_ok_after_blanks : forall l, line_ok l -> line_ok (after_blanks l) /\ (length (after_blanks l) <= length l)%nat.
Proof.
  induction l as [|c l IH]; intros H; [split; auto|].
  inversion H; subst. cbn [after_blanks]. destruct (isBlank c) eqn:E; [|split; auto].
  destruct IH as (A & B); [assumption|]. split; auto. cbn; lia.
Qed.
Lemma line_ok_after_letters : forall l, line_ok l -> line_ok (after_letters l) /\ (length (after_letters l) <= length l)%nat.
Proof.
  induction l as [|c l IH]; intros H; [split; auto|].
  inversion H; subst. cbn [after_letters]. destruct (isalpha c) eqn:E; [|split; auto].
  destruct IH as (A & B); [assumption|]. split; auto. cbn; lia.
Qed.

Section Scan.
Variable keyword : list Z -> bool.
Hypothesis no_empty_keyword : keyword [] = false.

Definition small_words (l : list Z) : Prop := (length (letters (after_blanks (after_label l))) <= 256)%nat.

Lemma scan_expanded : forall ls tail n b, line_ok tail -> Forall line_ok ls -> Forall small_words ls ->
  delivers b (tail ++ 10 :: text_of ls) -> room b -> (length tail + length (text_of ls) + length ls + 5 <= n)%nat ->
  exists b', getNextDirective keyword n b = Ok (match first_directive keyword ls with Some (w, _, _) => Some w | None => None end, b') /\
    match first_directive keyword ls with
    | Some (_, rest, more) => delivers b' (rest ++ 10 :: text_of more)
    | None => True
    end.
Proof.
  induction ls as [|l ls IH]; intros tail n b Ht Hl Hw D R L; (destruct n as [|n]; [lia|]); cbn [getNextDirective].
  - destruct (skipToNextLine_ok tail n b [] Ht D R ltac:(lia)) as (b1 & -> & D1 & R1). cbn [bind negb first_directive].
    destruct b1 as [s t a u]. unfold delivers in D1. cbn [b_stack b_text] in D1. apply app_eq_nil in D1. destruct D1 as (-> & ->).
    destruct n as [|[|n]]; [lia|lia|]. eexists. split; [|exact I].
    cbn [charIsComment skipLabel skipWhiteSpace directiveWord getChar nextChar fromText b_stack b_text b_args b_unique
      Z.eqb Pos.eqb bind unput length stackSize Nat.ltb Nat.leb negb andb isBlank orb isalpha Z.leb Z.compare].
    rewrite no_empty_keyword. reflexivity.
  - inversion Hl as [|? ? Hl1 Hl2]; subst. inversion Hw as [|? ? Hw1 Hw2]; subst.
    cbn [text_of flat_map] in D. fold (text_of ls) in D. rewrite <- app_assoc in D. cbn [app] in D.
    assert (LT : length (text_of (l :: ls)) = (length l + 1 + length (text_of ls))%nat)
      by (unfold text_of; cbn [flat_map]; rewrite !app_length; reflexivity).
    rewrite LT in L. cbn [length] in L.
    destruct (skipToNextLine_ok tail n b (l ++ 10 :: text_of ls) Ht D R ltac:(lia)) as (b1 & -> & D1 & R1). cbn [bind negb].
    destruct (charIsComment_ok l b1 (text_of ls) Hl1 D1 R1) as (b2 & -> & D2 & R2). cbn [bind first_directive].
    unfold directive_of.
    destruct (starts_comment l) eqn:SC.
    { cbn [orb]. apply (IH l n b2 Hl1 Hl2 Hw2 D2 R2). lia. }
    destruct (skipLabel_ok l n b2 (text_of ls) Hl1 D2 R2 ltac:(lia)) as (b3 & -> & D3 & R3). cbn [bind orb].
    destruct (line_ok_after_label l Hl1) as (La & Lb & Lc).
    destruct (skipWhiteSpace_ok (after_label l) n false b3 (text_of ls) La D3 R3 ltac:(lia) (or_intror Lc)) as (b4 & -> & R4 & H4).
    cbn [bind]. destruct (starts_comment (after_blanks (after_label l))) eqn:SC2.
    { destruct H4 as (t & T1 & T2 & T3). apply (IH t n b4 T1 Hl2 Hw2 T2 R4). lia. }
    destruct (line_ok_after_blanks (after_label l) La) as (Ld & Le).
    destruct (directiveWord_ok (after_blanks (after_label l)) n [] b4 (text_of ls) Ld H4 R4 ltac:(lia) Hw1) as (b5 & -> & D5 & R5).
    cbn [bind app]. destruct (keyword (letters (after_blanks (after_label l)))).
    { eauto. }
    destruct (line_ok_after_letters (after_blanks (after_label l)) Ld) as (Lf & Lg).
    apply (IH _ n b5 Lf Hl2 Hw2 D5 R5). lia.
Qed.

(** The search for ENDM. *)
Lemma skipLineI_ok : forall t rest, line_ok t -> skipToNextLineIndexed (t ++ 10 :: rest) = Some rest.
Proof.
  induction t as [|c t IH]; intros rest H; [reflexivity|]. inversion H as [|? ? (A & B & C) H']; subst.
  cbn [app skipToNextLineIndexed]. destruct (Z.eqb_spec c 10); [contradiction|]. destruct (Z.eqb_spec c 0); [contradiction|]. auto.
Qed.
Lemma skipLabelI_ok : forall l rest, line_ok l -> existsb isBlank l = true ->
  skipLabelIndexed (l ++ rest) = after_label l ++ rest.
Proof.
  induction l as [|c l IH]; intros rest H E; [discriminate E|]. inversion H as [|? ? (A & B & C) H']; subst.
  cbn [app skipLabelIndexed after_label existsb] in *. destruct (Z.eqb_spec c 0); [contradiction|]. rewrite orb_false_r.
  destruct (isBlank c); [reflexivity|]. apply IH; auto.
Qed.
Lemma skipWsI_ok : forall m flag rest, line_ok m ->
  (flag = true \/ match m with [] => True | c :: _ => isBlank c = true end) ->
  skipWhiteSpaceIndexed flag (m ++ 10 :: rest) = (starts_comment (after_blanks m), after_blanks m ++ 10 :: rest).
Proof.
  induction m as [|c m IH]; intros flag rest H Fl.
  - cbn [app skipWhiteSpaceIndexed after_blanks starts_comment]. change (10 =? 42) with false. rewrite andb_false_r.
    change (isBlank 10) with false. reflexivity.
  - inversion H as [|? ? (A & B & C) H']; subst. cbn [app skipWhiteSpaceIndexed after_blanks].
    destruct (isBlank c) eqn:Eb.
    + assert (Hs : (c =? 42) = false) by (unfold isBlank in Eb; lia). rewrite Hs, andb_false_r. apply IH; auto.
    + destruct Fl as [-> |Fl]; [|discriminate Fl]. cbn [andb starts_comment app].
      destruct (Z.eqb_spec c 42) as [->|N42]; [reflexivity|]. destruct (Z.eqb_spec c 0); [contradiction|].
      reflexivity.
Qed.
Lemma wordI_ok : forall m word rest, directiveWordIndexed word (m ++ 10 :: rest) = (word ++ letters m, after_letters m ++ 10 :: rest).
Proof.
  induction m as [|c m IH]; intros word rest.
  - cbn. rewrite app_nil_r. reflexivity.
  - cbn [app directiveWordIndexed letters after_letters]. destruct (isalpha c).
    + rewrite IH, <- app_assoc. reflexivity.
    + rewrite app_nil_r. reflexivity.
Qed.

Lemma scan_unexpanded : forall ls tail n, line_ok tail -> Forall line_ok ls -> Forall (fun l => spaced l = true) ls ->
  (length ls + 2 <= n)%nat ->
  getNextDirectiveIndexed keyword n (tail ++ 10 :: text_of ls) =
  Ok (match first_directive keyword ls with
      | Some (w, rest, more) => (Some w, rest ++ 10 :: text_of more)
      | None => (None, [])
      end).
Proof.
  induction ls as [|l ls IH]; intros tail n Ht Hl Hs L; (destruct n as [|n]; [lia|]); cbn [getNextDirectiveIndexed].
  - rewrite (skipLineI_ok tail (text_of []) Ht). cbn [text_of flat_map charIsCommentIndexed skipLabelIndexed skipWhiteSpaceIndexed].
    destruct n as [|n]; [cbn in L; lia|]. reflexivity.
  - inversion Hl as [|? ? Hl1 Hl2]; subst. inversion Hs as [|? ? Hs1 Hs2]; subst. cbn [length] in L.
    cbn [text_of flat_map]. fold (text_of ls). rewrite <- app_assoc. cbn [app].
    rewrite (skipLineI_ok tail (l ++ 10 :: text_of ls) Ht).
    assert (EC : charIsCommentIndexed (l ++ 10 :: text_of ls) = starts_comment l) by (destruct l; reflexivity).
    rewrite EC. cbn [first_directive]. unfold directive_of.
    destruct (starts_comment l) eqn:SC.
    { cbn [orb]. apply (IH l n Hl1 Hl2 Hs2). lia. }
    unfold spaced in Hs1. rewrite SC in Hs1. cbn [orb] in *.
    rewrite (skipLabelI_ok l (10 :: text_of ls) Hl1 Hs1).
    destruct (line_ok_after_label l Hl1) as (La & Lb & Lc).
    rewrite (skipWsI_ok (after_label l) false (text_of ls) La (or_intror Lc)).
    destruct (line_ok_after_blanks (after_label l) La) as (Ld & Le).
    destruct (starts_comment (after_blanks (after_label l))) eqn:SC2.
    { apply (IH _ n Ld Hl2 Hs2). lia. }
    rewrite wordI_ok. cbn [app]. destruct (keyword (letters (after_blanks (after_label l)))); [reflexivity|].
    destruct (line_ok_after_letters (after_blanks (after_label l)) Ld) as (Lf & Lg).
    apply (IH _ n Lf Hl2 Hs2). lia.
Qed.
End Scan.
