(** Proofs about the assembler's Amiga output: writing. *)
From Coq Require Import ZArith List Bool Lia Permutation ZifyBool ZifyNat.
From Verif Require Import Base BaseFacts Arith ExprModel ObjWriteModel FileModel FileProofs AssignModel LinkModel HunkModel HunkSpec HunkProofs ElfModel AmiModel.
Import ListNotations.
Open Scope Z_scope.

(** ** Files *)
Definition ended (d : list Z) : file := File d (zlen d).
Lemma fwrite_end : forall d bs, fwrite (ended d) bs = ended (d ++ bs).
Proof. intros d bs. unfold fwrite, ended. cbn [f_data f_pos]. rewrite overwrite_end, zlen_app. reflexivity. Qed.
Lemma put_end : forall d v, fputbl (ended d) v = ended (d ++ long v).
Proof. intros d v. apply fwrite_end. Qed.
Lemma zlen_long : forall v, zlen (long v) = 4. Proof. intro v. unfold zlen. now rewrite length_long. Qed.
Lemma put_junk : forall d j v, zlen j <= 4 -> fputbl (File (d ++ j) (zlen d)) v = ended (d ++ long v).
Proof.
  intros d j v J. change (fputbl (File (d ++ j) (zlen d)) v) with (File (overwrite (d ++ j) (zlen d) (long v)) (zlen d + zlen (long v))).
  unfold ended. rewrite zlen_app. f_equal. pose proof (zlen_nonneg _ d). pose proof (zlen_nonneg _ j). pose proof (zlen_long v) as L.
  apply byte_ext.
  - rewrite overwrite_zlen, !zlen_app by lia. destruct (zlen (long v) =? 0) eqn:Z; lia.
  - intros k K. rewrite overwrite_zlen, zlen_app in K by lia. rewrite overwrite_byte, !byte_app by lia.
    destruct (zlen (long v) =? 0) eqn:Z; [lia|]. destruct (k <? zlen d) eqn:E; destruct ((zlen d <=? k) && (k <? zlen d + zlen (long v))) eqn:Q; try lia; reflexivity.
Qed.
Lemma putbuf_end : forall d bs, fputbuf (ended d) bs = ended (d ++ writeBuffer bs).
Proof. intros d bs. unfold fputbuf. rewrite !fwrite_end, <- app_assoc. reflexivity. Qed.
Definition str_bytes (s : list Z) (flags : Z) : list Z := long (Z.lor (longSize (u32 (zlen s))) flags) ++ writeBuffer s.
Lemma putstr_end : forall d s flags, fputstr (ended d) s flags = ended (d ++ str_bytes s flags).
Proof. intros. unfold fputstr. rewrite put_end, putbuf_end, <- app_assoc. reflexivity. Qed.
Lemma skip_skip : forall {T} a b (l : list T), skipn a (skipn b l) = skipn (b + a) l.
Proof. intros T a b. induction b as [|b IH]; intro l; [reflexivity|]. destruct l; [now rewrite !skipn_nil|]. cbn. apply IH. Qed.
Lemma overwrite_body : forall pre body post o v, 0 <= o -> o + 4 <= zlen body ->
  overwrite (pre ++ body ++ post) (o + zlen pre) (long v) = pre ++ put_long body o v ++ post.
Proof.
  intros pre body post o v O L. pose proof (zlen_nonneg _ pre).
  assert (B : body = firstn (Z.to_nat o) body ++ firstn 4 (skipn (Z.to_nat o) body) ++ skipn (Z.to_nat (o + 4)) body).
  { rewrite <- (firstn_skipn (Z.to_nat o) body) at 1. f_equal. rewrite <- (firstn_skipn 4 (skipn (Z.to_nat o) body)) at 1. f_equal.
    rewrite skip_skip. f_equal. lia. }
  unfold put_long. change (be32 (v mod 2 ^ 32)) with (long v).
  rewrite B at 1. rewrite <- !app_assoc. rewrite (app_assoc pre).
  rewrite overwrite_middle.
  - rewrite <- !app_assoc. reflexivity.
  - unfold zlen in *. rewrite app_length, firstn_length. lia.
  - rewrite zlen_long. unfold zlen in *. rewrite firstn_length, skipn_length. lia.
Qed.
(** Writing a longword in the middle and another at the end. *)
Lemma patch_end : forall pre body post o v, 0 <= o -> o + 4 <= zlen body ->
  fseek (fputbl (fseek (ended (pre ++ body ++ post)) (o + zlen pre)) v) (ftell (ended (pre ++ body ++ post))) = ended (pre ++ put_long body o v ++ post).
Proof.
  intros pre body post o v O L. unfold fputbl, fwrite, fseek, ftell, ended. cbn [f_data f_pos].
  change (be32 (u32 v)) with (long v). rewrite overwrite_body by lia. f_equal. rewrite !zlen_app, put_long_length by lia. reflexivity.
Qed.

Definition puts (l : list (Z * Z)) (d : list Z) : list Z := fold_left (fun d x => put_long d (fst x) (snd x)) l d.
Definition inside (d : list Z) (o : Z) : Prop := 0 <= o /\ o + 4 <= zlen d.
Lemma puts_app : forall a b d, puts (a ++ b) d = puts b (puts a d).
Proof. intros. unfold puts. apply fold_left_app. Qed.
Lemma puts_length : forall l d, Forall (fun x => inside d (fst x)) l -> zlen (puts l d) = zlen d.
Proof.
  induction l as [|x l IH]; intros d Fl; [reflexivity|]. inversion Fl as [|? ? [X1 X2] Fr]; subst. cbn [puts fold_left]. fold (puts l (put_long d (fst x) (snd x))).
  rewrite IH, put_long_length by (try lia; unfold inside in *; rewrite put_long_length by lia; auto); auto.
Qed.

Section Writer.
Variable amiga : bool.
Variable A : astate.

(** ** Symbols *)
Definition sym_bytes (flags : Z) (y : asym) : list Z := str_bytes (ay_name y) flags ++ long (y_value (ay_sym y)).
Lemma symbols_put : forall wanted flags ys d, putSymbols wanted flags ys (ended d) =
  (zlen (filter wanted ys), ended (d ++ concat (map (sym_bytes flags) (filter wanted ys)))).
Proof.
  intros wanted flags. induction ys as [|y ys IH]; intro d; cbn [putSymbols filter].
  - cbn. now rewrite app_nil_r.
  - destruct (wanted y); [|apply IH]. rewrite putstr_end, put_end, IH. rewrite zlen_cons. cbn [map concat]. unfold sym_bytes at 2. rewrite <- !app_assoc.
    f_equal. lia.
Qed.
(** Where a seek left the position before what was last written. *)
Definition settled (f : file) (d : list Z) : Prop := exists j, f = File (d ++ j) (zlen d) /\ zlen j <= 4.
Lemma settled_end : forall d, settled (ended d) d.
Proof. intro d. exists []. split; [unfold ended; now rewrite app_nil_r|cbn; lia]. Qed.
Lemma settled_put : forall f d v, settled f d -> fputbl f v = ended (d ++ long v).
Proof. intros f d v (j & -> & J). now apply put_junk. Qed.
Lemma settled_tell : forall f d, settled f d -> ftell f = zlen d.
Proof. intros f d (j & -> & _). reflexivity. Qed.
Definition symbol_block (k : nat) : list Z :=
  match filter (isLabelIn k) (as_symbols A) with
  | [] => []
  | ys => long HUNK_SYMBOL ++ concat (map (sym_bytes 0) ys) ++ long 0
  end.
Lemma symbol_hunk : forall f d k, settled f d -> settled (writeSymbolHunk A f k) (d ++ symbol_block k).
Proof.
  intros f d k S. unfold writeSymbolHunk, symbol_block. rewrite (settled_put f d _ S), symbols_put.
  destruct (filter (isLabelIn k) (as_symbols A)) as [|y ys] eqn:E.
  - cbn [zlen length Z.of_nat Z.eqb map concat]. rewrite !app_nil_r. rewrite (settled_tell f d S). exists (long HUNK_SYMBOL). split; [reflexivity|]. rewrite zlen_long. lia.
  - destruct (zlen (y :: ys) =? 0) eqn:Q; [rewrite zlen_cons in Q; pose proof (zlen_nonneg _ ys); lia|]. rewrite put_end, <- !app_assoc. apply settled_end.
Qed.

(** ** Imports *)
Definition refers (s : nat) (p : apatch) : bool := match expr_GetImportOffset A (ap_expr p) with Some (_, s') => Nat.eqb s' s | None => false end.
Definition import_value (p : apatch) : Z := match expr_GetImportOffset A (ap_expr p) with Some (v, _) => v | None => 0 end.
Definition import_put (p : apatch) : Z * Z := (ap_offset p, import_value p).
Lemma references_put : forall pre s ps body post, Forall (fun p => inside body (ap_offset p)) ps ->
  putReferences A (zlen pre) s ps (ended (pre ++ body ++ post)) =
  (filter (fun p => negb (refers s p)) ps, zlen (filter (refers s) ps),
   ended (pre ++ puts (map import_put (filter (refers s) ps)) body ++ post ++ concat (map long (map ap_offset (filter (refers s) ps))))).
Proof.
  intros pre s. induction ps as [|p ps IH]; intros body post Fi; cbn [putReferences filter].
  - cbn. now rewrite app_nil_r.
  - inversion Fi as [|? ? [P1 P2] Fr]; subst.
    destruct (expr_GetImportOffset A (ap_expr p)) as [[offset s']|] eqn:G; [destruct (Nat.eqb s' s) eqn:Q|];
      [assert (R : refers s p = true) by (unfold refers; rewrite G; exact Q)
      |assert (R : refers s p = false) by (unfold refers; rewrite G; exact Q)
      |assert (R : refers s p = false) by (unfold refers; rewrite G; reflexivity)]; rewrite R; cbn [negb].
    + rewrite patch_end, put_end by lia. rewrite <- !app_assoc. rewrite IH by (unfold inside in *; rewrite put_long_length by lia; auto).
      rewrite zlen_cons. cbn [map concat puts fold_left]. assert (IP : import_put p = (ap_offset p, offset)) by (unfold import_put, import_value; rewrite G; reflexivity). rewrite IP. cbn [fst snd].
      rewrite <- !app_assoc. do 2 f_equal. lia.
    + rewrite IH by auto. reflexivity.
    + rewrite IH by auto. reflexivity.
Qed.
End Writer.
