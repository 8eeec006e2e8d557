(** Proofs about the Z80 instruction parser: nothing but the manual is accepted. *)
From Coq Require Import ZArith List Bool Lia ZifyBool String.
From Verif Require Import Base BaseFacts Arith ArithProofs ExprSpec ExprModel ExprLayout ObjWriteModel OptModel
  SectModel SectSpec SectErrors InstrSpec InstrProofs.
From Verif Require X65Only Z80Parse.
From Verif Require Import Z80Model Z80Spec Z80Check.
Import ListNotations.
Open Scope string_scope.
Open Scope list_scope.
Open Scope Z_scope.
Notation quiet := X65Only.quiet.

(** ** The tables *)
Definition all_regs : list reg :=
  [B; C; D; E; H; L; HLi; A; IXH; IXL; IYH; IYL; BC; DE; HL; SP; IX; IY; Ci; HiC; SPi; BCi; DEi; HLinc; HLdec; AF; AF'; I; R;
   NZ; Zf; NC; PO; PE; P; M].
Definition all_pats : list pat := map Reg all_regs ++ [Index X; Index Y; IndexD X; IndexD Y; Imm; Mem; SPd].
Lemma every_pat : forall p, In p all_pats.
Proof. intros [[]|[]|[]| | |]; vm_compute; tauto. Qed.
Definition clean (p : plan nat) : bool := snd p && forallb (fun a => match a with AError _ => false | _ => true end) (fst p).
Definition pat_eqb (a b : pat) : bool :=
  match a, b with
  | Reg r, Reg r' => reg_no r =? reg_no r'
  | Index X, Index X | Index Y, Index Y | IndexD X, IndexD X | IndexD Y, IndexD Y | Imm, Imm | Mem, Mem | SPd, SPd => true
  | _, _ => false
  end.
Fixpoint pats_eqb (a b : list pat) : bool :=
  match a, b with [], [] => true | x :: r, y :: q => pat_eqb x y && pats_eqb r q | _, _ => false end.
Lemma reg_no_inj : forall r r', reg_no r = reg_no r' -> r = r'.
Proof. intros [] []; intro; reflexivity || discriminate. Qed.
Lemma pats_eqb_eq : forall a b, pats_eqb a b = true -> a = b.
Proof.
  induction a as [|x a IH]; intros [|y b] H; try discriminate; [reflexivity|]. cbn [pats_eqb] in H. apply andb_true_iff in H. destruct H as (H1 & H2).
  rewrite (IH _ H2). f_equal. destruct x as [r|[]|[]| | |], y as [r'|[]|[]| | |]; try discriminate; try reflexivity.
  f_equal. apply reg_no_inj. cbn [pat_eqb] in H1. lia.
Qed.
Definition J : amode nat := AMode 0 XNull 0 0 0 0 0 0 0.
Definition singles (o : mopts) : list pat := filter (parsable o) all_pats.
Definition cands (o : mopts) (i : instruction handler) : list (list pat) :=
  if i_modes1 i =? 0 then [[]] else
  let ok modes := filter (fun p => allowed (pat_mode J 0%nat p) modes) (singles o) in
  let ok2 := ok (i_modes2 i) in
  [] :: map (fun p => [p]) (singles o) ++ flat_map (fun p => map (fun q => [p; q]) ok2) (ok (i_modes1 i)).
(** Where it matters what a number is. *)
Definition viewed (s : string) (ps : list pat) : bool :=
  match ps with
  | [Imm] => String.eqb s "IM" || String.eqb s "RST"
  | [Reg Ci; Imm] => String.eqb s "OUT"
  | [Reg A; Mem] | [Mem; Reg A] | [Mem] => String.eqb s "LD"
  | _ => false
  end.
Definition listed (rows : list row) (ps : list pat) : bool := existsb (fun r => pats_eqb ps (r_pats r)) rows.
Definition justified (g : bool) (s : string) (rows : list row) (ps : list pat) : bool :=
  listed rows ps || mistaken g s ps || match ps with [p] => may_omit s && listed rows [Reg A; p] | _ => false end.
Definition unjustified (view : nat -> option Z) (j1 j2 : amode nat) (s : string) (b : bool * bool * bool) : list (list pat) :=
  match instruction_of s with
  | None => []
  | Some i =>
      let o := options_of (fst (fst b)) (snd (fst b)) (snd b) in
      let rows := filter (fun r => enabled (fst (fst b)) (snd (fst b)) (snd b) r && String.eqb s (r_name r)) table in
      filter (fun ps =>
        if viewed s ps then false else
        if clean (planned view o i j1 j2 0%nat 1%nat ps) then negb (justified (fst (fst b)) s rows ps) else false) (cands o i)
  end.
Lemma all_justified : forall view j1 j2, flat_map (fun w => flat_map (unjustified view j1 j2 (fst w)) bools) g_tokens = [].
Proof. intros. vm_compute. reflexivity. Qed.
Lemma none_left2 : forall (X Y W : Type) (f : X -> Y -> list W) (bs : list Y) (l : list X),
  flat_map (fun w => flat_map (f w) bs) l = [] -> forall w b, In w l -> In b bs -> f w b = [].
Proof.
  intros X Y W f bs l E w b Iw Ib. destruct (f w b) as [|x q] eqn:Q; [reflexivity|]. exfalso.
  assert (G : In x (flat_map (fun w => flat_map (f w) bs) l)); [|rewrite E in G; exact G].
  apply in_flat_map. exists w. split; [exact Iw|]. apply in_flat_map. exists b. split; [exact Ib|]. rewrite Q. left. reflexivity.
Qed.
Lemma filter_none : forall (X : Type) (f : X -> bool) l x, filter f l = [] -> In x l -> f x = false.
Proof.
  intros X f l x E Ix. destruct (f x) eqn:Q; [|reflexivity]. assert (In x (filter f l)) as G by (apply filter_In; tauto).
  rewrite E in G. destruct G.
Qed.
Lemma assoc_named : forall s l t, assoc s l = t -> t <> TOther -> exists v, In (s, v) l.
Proof.
  intros s l. induction l as [|[k v] r IH]; intros t E N; [cbn in E; congruence|]. cbn [assoc] in E. destruct (String.eqb s k) eqn:Q.
  - apply String.eqb_eq in Q. subst. exists v. left. reflexivity.
  - destruct (IH t E N) as (v' & I'). exists v'. right. exact I'.
Qed.
Lemma allowed_tag : forall (j j' : amode nat) i i' p modes, allowed (pat_mode j i p) modes = allowed (pat_mode j' i' p) modes.
Proof. intros j j' i i' [] modes; reflexivity. Qed.
Lemma clean_fails : forall n, clean (fails nat n) = false. Proof. reflexivity. Qed.
Definition operands_of (o : mopts) (i : instruction handler) (ps : list pat) : Prop :=
  (i_modes1 i = 0 -> ps = []) /\ (Datatypes.length ps <= 2)%nat /\ forallb (parsable o) ps = true.
Lemma candidate : forall view o i j1 j2 ps, operands_of o i ps -> clean (planned view o i j1 j2 0%nat 1%nat ps) = true -> In ps (cands o i).
Proof.
  intros view o i j1 j2 ps (Z0 & Le & Pa) Cl. unfold cands. destruct (i_modes1 i =? 0) eqn:Z1.
  { apply Z.eqb_eq in Z1. rewrite (Z0 Z1). left. reflexivity. }
  cbv zeta.
  assert (Si : forall p, parsable o p = true -> In p (singles o)) by (intros p Hp; apply filter_In; split; [apply every_pat|exact Hp]).
  destruct ps as [|p [|q [|? ?]]]; cbn [Datatypes.length forallb] in *; [left; reflexivity| | |lia]; right; apply in_or_app.
  - left. apply (in_map (fun p => [p])). apply Si. rewrite andb_true_r in Pa. exact Pa.
  - right. apply andb_true_iff in Pa. destruct Pa as (Pp & Pq). rewrite andb_true_r in Pq.
    cbn [planned] in Cl. unfold decide in Cl.
    destruct (allowed (pat_mode j1 0%nat p) (i_modes1 i)) eqn:A1; cbn [negb] in Cl; [|rewrite clean_fails in Cl; discriminate].
    destruct (allowed (pat_mode j2 1%nat q) (i_modes2 i)) eqn:A2; cbn [negb] in Cl; [|rewrite clean_fails in Cl; discriminate].
    apply in_flat_map. exists p. split.
    + apply filter_In. split; [apply Si, Pp|]. rewrite <- A1. apply allowed_tag.
    + apply (in_map (fun q => [p; q])). apply filter_In. split; [apply Si, Pq|]. rewrite <- A2. apply allowed_tag.
Qed.
Lemma justified_all : forall view j1 j2 g u s name i ps, instruction_of name = Some i -> operands_of (options_of g u s) i ps ->
  clean (planned view (options_of g u s) i j1 j2 0%nat 1%nat ps) = true -> viewed name ps = false ->
  justified g name (filter (fun r => enabled g u s r && String.eqb name (r_name r)) table) ps = true.
Proof.
  intros view j1 j2 g u s name i ps Hi Op Cl Vi.
  assert (exists v, In (name, v) g_tokens) as (v & Iv).
  { unfold instruction_of in Hi. destruct (assoc name g_tokens) eqn:E; try discriminate Hi. apply (assoc_named _ _ _ E). discriminate. }
  pose proof (none_left2 _ _ _ (fun w => unjustified view j1 j2 (fst w)) bools g_tokens (all_justified view j1 j2) (name, v) (g, u, s)
    Iv (all_bools g u s)) as Q. cbn [fst] in Q. unfold unjustified in Q. rewrite Hi in Q. cbn [fst snd] in Q.
  pose proof (filter_none _ _ _ ps Q (candidate _ _ _ _ _ _ Op Cl)) as G. cbv beta in G. rewrite Vi, Cl in G.
  apply negb_false_iff in G. exact G.
Qed.
(** Conditions on numbers. *)
Lemma conditions : forallb (fun r => viewed (r_name r) (r_pats r) || match r_cond r with Always => true | _ => false end) table = true.
Proof. vm_compute. reflexivity. Qed.
Lemma listed_row : forall g u s name ps, listed (filter (fun r => enabled g u s r && String.eqb name (r_name r)) table) ps = true ->
  exists r, In r table /\ r_name r = name /\ enabled g u s r = true /\ r_pats r = ps.
Proof.
  intros g u s name ps H. apply existsb_exists in H. destruct H as (r & Ir & E). apply filter_In in Ir. destruct Ir as (Ir & E2).
  apply andb_true_iff in E2. destruct E2 as (En & E2). apply String.eqb_eq in E2. exists r. repeat split; auto. symmetry. apply pats_eqb_eq, E.
Qed.
Lemma unconditional : forall r, In r table -> viewed (r_name r) (r_pats r) = false -> r_cond r = Always.
Proof.
  intros r Ir V. pose proof (proj1 (forallb_forall _ _) conditions r Ir) as Q. cbv beta in Q. rewrite V in Q.
  destruct (r_cond r); [reflexivity|discriminate Q..].
Qed.

(** ** Where numbers matter *)
Definition cond_eqb (a b : cond) : bool :=
  match a, b with
  | Always, Always => true | Value i v, Value j w => Nat.eqb i j && (v =? w)
  | InHigh i, InHigh j | NotHigh i, NotHigh j => Nat.eqb i j | _, _ => false
  end.
Lemma cond_eqb_eq : forall a b, cond_eqb a b = true -> a = b.
Proof.
  intros [] [] Q; try discriminate Q; try reflexivity; cbn in Q; try (apply andb_true_iff in Q; destruct Q as (Q & Q2));
    apply Nat.eqb_eq in Q; subst; try (apply Z.eqb_eq in Q2; subst); reflexivity.
Qed.
Definition found (g u s : bool) (name : string) (ps : list pat) (c : cond) : bool :=
  existsb (fun r => String.eqb (r_name r) name && enabled g u s r && pats_eqb (r_pats r) ps && cond_eqb (r_cond r) c) table.
Lemma found_row : forall g u s name l c, found g u s name (map pattern_of l) c = true -> view_meets (known_value l) c -> described g u s name l.
Proof.
  intros g u s name l c H V. apply existsb_exists in H. destruct H as (r & Ir & E).
  apply andb_true_iff in E. destruct E as (E & E4). apply andb_true_iff in E. destruct E as (E & E3). apply andb_true_iff in E. destruct E as (E1 & E2).
  apply String.eqb_eq in E1. apply pats_eqb_eq in E3. apply cond_eqb_eq in E4. exists r. rewrite E4. auto.
Qed.
Definition IM_i : instruction handler := Eval vm_compute in match instruction_of "IM" with Some i => i | None => Instr 0 0 0 0 0 HImplied end.
Definition RST_i : instruction handler := Eval vm_compute in match instruction_of "RST" with Some i => i | None => Instr 0 0 0 0 0 HImplied end.
Definition OUT_i : instruction handler := Eval vm_compute in match instruction_of "OUT" with Some i => i | None => Instr 0 0 0 0 0 HImplied end.
Lemma im_clean : forall view g u s (j1 j2 : amode nat), clean (planned view (options_of g u s) IM_i j1 j2 0%nat 1%nat [Imm]) = true ->
  exists v, view 0%nat = Some v /\ (v = 0 \/ v = 1 \/ v = 2) /\ g = false.
Proof.
  intros view g u s j1 j2 Cl.
  assert (Q : planned view (options_of g u s) IM_i j1 j2 0%nat 1%nat [Imm] = if g then fails nat MERROR_INSTRUCTION_NOT_SUPPORTED_BY_CPU else
    handleIm nat view (pat_mode j1 0%nat Imm)) by (destruct g, u, s; reflexivity).
  rewrite Q in Cl. destruct g; [discriminate Cl|]. unfold handleIm in Cl. cbn [constantOf pat_mode with_expr am_expr] in Cl.
  destruct (view 0%nat) as [v|]; [|discriminate Cl]. exists v. split; [reflexivity|]. split; [|reflexivity].
  destruct (v =? 0) eqn:E0; [lia|]. destruct (v =? 1) eqn:E1; [lia|]. destruct (v =? 2) eqn:E2; [lia|]. discriminate Cl.
Qed.
Lemma rst_values : forall v, is_s32 v -> u32 v = Z.land (u32 v) 0x38 -> In v [0; 8; 16; 24; 32; 40; 48; 56].
Proof.
  intros v Hv E. assert (L : 0 <= u32 v <= 0x38).
  { rewrite E. split; [apply Z.land_nonneg; right; lia|].
    assert (forall k, 0 <= k < 64 -> 0 <= Z.land k 0x38 <= 0x38) as K.
    { intros k Hk. assert (forallb (fun k => (0 <=? Z.land (Z.of_nat k) 0x38) && (Z.land (Z.of_nat k) 0x38 <=? 0x38)) (seq 0 64) = true) as W by (vm_compute; reflexivity).
      pose proof (proj1 (forallb_forall _ _) W (Z.to_nat k)) as Q. cbv beta in Q. rewrite Z2Nat.id in Q by lia.
      assert (In (Z.to_nat k) (seq 0 64)) as I' by (apply in_seq; lia). specialize (Q I'). lia. }
    change 0x38 with (Z.land (Z.ones 6) 0x38) at 1. rewrite Z.land_assoc. rewrite Z.land_ones by lia.
    apply K. apply Z.mod_pos_bound. lia. }
  assert (Q : v = u32 v).
  { unfold u32, is_s32 in *. clear E. Z.div_mod_to_equations. lia. }
  rewrite <- Q in *. clear Q Hv.
  assert (W : forallb (fun k => negb (Z.of_nat k =? Z.land (Z.of_nat k) 0x38) || existsb (Z.eqb (Z.of_nat k)) [0; 8; 16; 24; 32; 40; 48; 56]) (seq 0 57) = true) by (vm_compute; reflexivity).
  pose proof (proj1 (forallb_forall _ _) W (Z.to_nat v)) as G. cbv beta in G. rewrite Z2Nat.id in G by lia.
  assert (In (Z.to_nat v) (seq 0 57)) as I' by (apply in_seq; lia). specialize (G I'). rewrite <- E, Z.eqb_refl in G. cbn [negb orb] in G.
  apply existsb_exists in G. destruct G as (x & Ix & Ex). apply Z.eqb_eq in Ex. subst. exact Ix.
Qed.
Lemma rst_clean : forall view g u s (j1 j2 : amode nat), (forall v, view 0%nat = Some v -> is_s32 v) ->
  clean (planned view (options_of g u s) RST_i j1 j2 0%nat 1%nat [Imm]) = true ->
  exists v, view 0%nat = Some v /\ In v [0; 8; 16; 24; 32; 40; 48; 56].
Proof.
  intros view g u s j1 j2 Hv Cl.
  assert (Q : planned view (options_of g u s) RST_i j1 j2 0%nat 1%nat [Imm] = handleRst nat view (i_opcode RST_i) (pat_mode j1 0%nat Imm))
    by (destruct g, u, s; reflexivity).
  rewrite Q in Cl. unfold handleRst in Cl. cbn [constantOf pat_mode with_expr am_expr] in Cl.
  destruct (view 0%nat) as [v|]; [|discriminate Cl]. exists v. split; [reflexivity|]. cbv zeta in Cl.
  destruct (u32 v =? Z.land (u32 v) 0x38) eqn:E; [|discriminate Cl]. apply rst_values; [apply Hv; reflexivity|lia].
Qed.
Lemma out_clean : forall view g u s (j1 j2 : amode nat), clean (planned view (options_of g u s) OUT_i j1 j2 0%nat 1%nat [Reg Ci; Imm]) = true ->
  view 1%nat = Some 0 /\ g = false /\ u = true.
Proof.
  intros view g u s j1 j2 Cl.
  assert (Q : planned view (options_of g u s) OUT_i j1 j2 0%nat 1%nat [Reg Ci; Imm] = if g then fails nat MERROR_INSTRUCTION_NOT_SUPPORTED_BY_CPU else
    and_then nat (ensureUndocumentedEnabled nat (options_of g u s)) (match view 1%nat with Some v => if v =? 0 then calls nat [AByte 0xED; AByte 0x71]
      else err nat ERROR_SOURCE_OPERAND | None => err nat ERROR_SOURCE_OPERAND end)) by (destruct g, u, s; reflexivity).
  rewrite Q in Cl. destruct g; [discriminate Cl|]. destruct u; [|discriminate Cl].
  destruct (view 1%nat) as [v|]; [|discriminate Cl]. destruct (v =? 0) eqn:E; [|discriminate Cl]. apply Z.eqb_eq in E. subst. auto.
Qed.

(** ** Operands *)
Lemma parens_facts : forall e p, expr_Parens e = Ok p -> e_isParens p = true /\ constant p = constant e /\ e_v p = e_v e.
Proof. intros e p H. unfold expr_Parens in H. destruct (isNull e); [discriminate|]. injection H as <-. repeat split. Qed.
(** An operand that was read; [e] is what is kept of its number. *)
Definition read (o : mopts) (ts : list token) (junk m : amode expr) (r : list token) : Prop :=
  exists p e, ts = lex (text1 p) ++ r /\ m = pat_mode junk e (pattern_of p) /\ parsable o (pattern_of p) = true /\ signed_well fst p /\
    match pattern_of p with Imm | Mem => known_value [p] 0%nat = constant e /\ is_s32 (e_v e) | _ => True end.
Definition other (o : mopts) (m : amode expr) : Prop := am_mode m <> 0 /\ has (am_mode m) MODE_NONE = false.
Lemma reg_of_id : forall id, T_MODE_B <= id <= T_CC_M -> exists r, id = T_MODE_B + reg_no r.
Proof.
  intros id Hd. assert (W : forallb (fun k => existsb (fun r => reg_no r =? Z.of_nat k) all_regs) (seq 0 36) = true) by (vm_compute; reflexivity).
  pose proof (proj1 (forallb_forall _ _) W (Z.to_nat (id - T_MODE_B))) as Q. cbv beta in Q.
  assert (In (Z.to_nat (id - T_MODE_B)) (seq 0 36)) as I' by (apply in_seq; unfold T_MODE_B, T_CC_M in *; lia). specialize (Q I').
  apply existsb_exists in Q. destruct Q as (r & _ & E). exists r. unfold T_MODE_B, T_CC_M in *. lia.
Qed.
Lemma reg_read : forall o q r junk, parsable o (Reg q) = true ->
  read o (TId (T_MODE_B + reg_no q) :: r) junk (addressMode (T_MODE_B + reg_no q)) r.
Proof.
  intros o q r junk P1. exists (OReg false q), (expr_Const 0). split; [|split; [reflexivity|split; [exact P1|split; exact Logic.I]]].
  cbn [text1 lex map app]. rewrite Z80Parse.reg_lex. reflexivity.
Qed.
Definition half (q : reg) : bool := match q with IXH | IXL | IYH | IYL => true | _ => false end.
Lemma half_mode : forall q, has (am_mode (addressMode (T_MODE_B + reg_no q) : amode expr)) MODE_GROUP_IXYLH = half q.
Proof. intros []; vm_compute; reflexivity. Qed.
Lemma half_other : forall o q, half q = true -> other o (addressMode (T_MODE_B + reg_no q)).
Proof. intros o [] Q; try discriminate Q; (split; [intro E; vm_compute in E; discriminate E|vm_compute; reflexivity]). Qed.
Lemma half_parsable : forall o q, parsable o (Reg q) = if half q then IS_Z80 o && o_undocumented o else true.
Proof. intros o []; reflexivity. Qed.
Lemma plain_keyword : forall o q r st junk (a : amode expr) b m r1 st1, a = addressMode (T_MODE_B + reg_no q) ->
  (if half q then
     if IS_Z80 o then if o_undocumented o then Ok (true, a, r, st) else Ok (false, a, r, err_Error MERROR_UNDOCUMENTED_INSTRUCTIONS st)
     else Ok (false, a, r, st)
   else Ok (true, a, r, st)) = Ok (b, m, r1, st1) ->
  more st st1 /\ (quiet st st1 -> if b then read o (TId (T_MODE_B + reg_no q) :: r) junk m r1 else other o m).
Proof.
  intros o q r st junk a b m r1 st1 Ea Q.
  assert (Yes : parsable o (Reg q) = true -> read o (TId (T_MODE_B + reg_no q) :: r) junk a r) by (rewrite Ea; apply reg_read).
  assert (No : half q = true -> other o a) by (rewrite Ea; apply half_other). rewrite half_parsable in Yes.
  destruct (half q); [destruct (IS_Z80 o); [destruct (o_undocumented o)|]|]; inversion Q; subst b m r1 st1; clear Q;
    (split; [first [apply more_refl|apply more_error]|intros _; auto]).
Qed.
Lemma keyword_sound : forall o id r st junk b m r1 st1, T_MODE_B <= id <= T_CC_M ->
  parse_keyword o id r st (empty_mode junk) = Ok (b, m, r1, st1) ->
  more st st1 /\ (quiet st st1 -> if b then read o (TId id :: r) junk m r1 else other o m).
Proof.
  intros o id r st junk b m r1 st1 Hid H. destruct (reg_of_id id Hid) as (q & ->). clear Hid.
  unfold parse_keyword in H. cbv beta zeta in H. rewrite half_mode in H.
  pose proof (fun x => plain_keyword o q x st junk _ b m r1 st1 eq_refl) as Plain.
  set (a := addressMode (T_MODE_B + reg_no q)) in *. clearbody a.
  destruct r as [|[] r]; try exact (Plain _ H).
  destruct (T_MODE_B + reg_no q =? T_MODE_SP) eqn:Es; [|exact (Plain _ H)]. clear Plain.
  destruct (range_checked e (-128) 127 st) as [[e1 st2]| |] eqn:Er; cbn [bind] in H; try discriminate H. injection H as <- <- <- <-.
  split; [exact (checked_keeps _ _ _ _ _ _ Er)|]. intros _. exists (OSP (true, e)), e1. apply Z.eqb_eq in Es. rewrite Es.
  split; [reflexivity|]. split; [reflexivity|]. split; [reflexivity|]. split; [reflexivity|exact Logic.I].
Qed.
Lemma end_sound : forall sq ts st q st1, expect_end sq ts st = (q, st1) -> more st st1 /\
  (quiet st st1 -> exists r, q = Some r /\ ts = (if sq then TRb else TRp) :: r).
Proof.
  intros sq ts st q st1 H. unfold expect_end in H. destruct ts as [|t ts].
  { injection H as <- <-. split; [apply more_error|]. intro Q. destruct (X65Only.loud _ _ _ (more_refl st) Q). }
  destruct (closes sq t) eqn:E; injection H as <- <-.
  - split; [apply more_refl|]. intros _. exists ts. split; [reflexivity|]. destruct t, sq; try discriminate E; reflexivity.
  - split; [apply more_error|]. intro Q. destruct (X65Only.loud _ _ _ (more_refl st) Q).
Qed.
Lemma index_sound : forall o sq r st junk x st1, parse_index sq r st (empty_mode junk) = Ok (x, st1) ->
  more st st1 /\ match x with Some (m, r1) => quiet st st1 -> read o ((if sq then TLb else TLp) :: r) junk m r1 | None => True end.
Proof.
  intros o sq r st junk x st1 H. unfold parse_index in H. destruct r as [|[id| | | | | | | |] r]; try (injection H as <- <-; split; [apply more_refl|exact Logic.I]).
  destruct ((id =? T_MODE_IX) || (id =? T_MODE_IY)) eqn:Ei; [|injection H as <- <-; split; [apply more_refl|exact Logic.I]].
  assert (exists y, id = (match y with X => T_MODE_IX | Y => T_MODE_IY end) /\ lex1 (Word (xy_name y)) = TId id /\ (id =? T_MODE_IX) = match y with X => true | Y => false end) as (y & -> & Ly & Ty).
  { apply orb_true_iff in Ei. destruct Ei as [Ei|Ei]; apply Z.eqb_eq in Ei; subst id; [exists X|exists Y]; repeat split. }
  rewrite Ty in H. clear Ei Ty.
  assert (NoD : (let '(q, st2) := expect_end sq r st in
            match q with
            | Some r3 => Ok (Some (with_expr (if match y with X => true | Y => false end then MODE_REG_IX_IND else MODE_REG_IY_IND) XNull (empty_mode junk), r3), st2)
            | None => Ok (None, st2)
            end) = Ok (x, st1) ->
     more st st1 /\ match x with Some (m, r1) => quiet st st1 -> read o ((if sq then TLb else TLp) :: TId (match y with X => T_MODE_IX | Y => T_MODE_IY end) :: r) junk m r1 | None => True end).
  { intro Q. destruct (expect_end sq r st) as (q & st2) eqn:Ee. destruct (end_sound _ _ _ _ _ Ee) as (Mo & Qu).
    destruct q as [r3|]; injection Q as <- <-; (split; [exact Mo|]); [|exact Logic.I]. intro Qq. destruct (Qu Qq) as (r4 & E4 & ->). injection E4 as <-.
    exists (OIndex sq y), (expr_Const 0). destruct sq, y; repeat split. }
  destruct r as [|[] r]; try exact (NoD H). clear NoD.
  destruct (range_checked e (-128) 127 st) as [[e1 st2]| |] eqn:Er; cbn [bind] in H; try discriminate H.
  pose proof (checked_keeps _ _ _ _ _ _ Er) as M1. destruct (expect_end sq r st2) as (q & st3) eqn:Ee. destruct (end_sound _ _ _ _ _ Ee) as (M2 & Qu).
  destruct q as [r3|]; injection H as <- <-; (split; [exact (more_trans _ _ _ M1 M2)|]); [|exact Logic.I]. intro Qq.
  destruct (X65Only.more_quiet _ _ _ M1 M2 Qq) as (_ & Q2). destruct (Qu Q2) as (r4 & E4 & ->). injection E4 as <-.
  exists (OIndexD sq y (true, e)), e1. destruct sq, y; repeat split.
Qed.
Lemma known_imm : forall sg e, known_value [OImm (sg, e)] 0 = constant e. Proof. reflexivity. Qed.
Lemma known_mem : forall sq sg e, known_value [OMem sq (sg, e)] 0 = constant e. Proof. reflexivity. Qed.
Lemma plain_sound : forall o ts st junk b m r1 st1, bare ts -> parse_plain ts st (empty_mode junk) = Ok (b, m, r1, st1) ->
  st1 = st /\ if b then read o ts junk m r1 else m = empty_mode junk /\ r1 = ts.
Proof.
  intros o ts st junk b m r1 st1 Ba H. unfold parse_plain in H. destruct (parse_Expression ts) as [[[e r]|]| |] eqn:Ex; cbn [bind] in H; try discriminate H.
  2: { injection H as <- <- <- <-. auto. }
  injection H as <- <- <- <-. split; [reflexivity|].
  unfold parse_Expression in Ex. destruct ts as [|[] ts]; try discriminate Ex.
  - destruct ts as [|[] ts]; try discriminate Ex; (destruct ts as [|[] ts]; try discriminate Ex);
      (destruct (expr_Parens e0) as [p| |] eqn:Ep; cbn [bind] in Ex; try discriminate Ex); injection Ex as <- <-;
      destruct (parens_facts _ _ Ep) as (P1 & P2 & P3); rewrite P1; cbn [bare] in Ba; destruct Ba as (B1 & B2 & _).
    + exists (OMem false (false, e0)), p. rewrite known_mem, P2, P3. repeat split; apply B2.
    + exists (OMem false (true, e0)), p. rewrite known_mem, P2, P3. repeat split; apply B2.
  - injection Ex as <- <-. destruct Ba as (B1 & B2 & _). rewrite B1. exists (OImm (false, e0)), e0. rewrite known_imm. repeat split; apply B2.
  - injection Ex as <- <-. destruct Ba as (B1 & B2 & _). rewrite B1. exists (OImm (true, e0)), e0. rewrite known_imm. repeat split; apply B2.
Qed.
Lemma bracket_sound : forall o ts st junk b m r1 st1, bare ts -> parse_bracket ts st (empty_mode junk) = Ok (b, m, r1, st1) ->
  st1 = st /\ if b then read o ts junk m r1 else m = empty_mode junk /\ r1 = ts.
Proof.
  intros o ts st junk b m r1 st1 Ba H. unfold parse_bracket in H. destruct ts as [|[] r]; try exact (plain_sound _ _ _ _ _ _ _ _ Ba H).
  destruct (parse_Expression r) as [[[e r2]|]| |] eqn:Ex; cbn [bind] in H; try discriminate H; try exact (plain_sound _ _ _ _ _ _ _ _ Ba H).
  destruct r2 as [|[] r2]; try exact (plain_sound _ _ _ _ _ _ _ _ Ba H). injection H as <- <- <- <-. split; [reflexivity|].
  cbn [bare] in Ba. unfold parse_Expression in Ex. destruct r as [|[] r]; try discriminate Ex.
  - destruct Ba.
  - injection Ex as <- ->. destruct Ba as (B1 & B2 & _). exists (OMem true (false, e0)), e0. rewrite known_mem. repeat split; apply B2.
  - injection Ex as <- ->. destruct Ba as (B1 & B2 & _). exists (OMem true (true, e0)), e0. rewrite known_mem. repeat split; apply B2.
Qed.
Lemma parse_sound : forall o ts st junk b m r1 st1, bare ts -> parse_AddrMode o ts st (empty_mode junk) = Ok (b, m, r1, st1) ->
  more st st1 /\ (quiet st st1 -> if b then read o ts junk m r1 else (m = empty_mode junk /\ r1 = ts) \/ other o m).
Proof.
  intros o ts st junk b m r1 st1 Ba H. unfold parse_AddrMode in H.
  assert (Br : parse_bracket ts st (empty_mode junk) = Ok (b, m, r1, st1) ->
    more st st1 /\ (quiet st st1 -> if b then read o ts junk m r1 else (m = empty_mode junk /\ r1 = ts) \/ other o m)).
  { intro Q. destruct (bracket_sound o _ _ _ _ _ _ _ Ba Q) as (-> & G). split; [apply more_refl|]. intros _. destruct b; [exact G|left; exact G]. }
  assert (Ix : forall (sq : bool) (r : list token), ts = (if sq then TLb else TLp) :: r ->
    (let! (x, st1) := parse_index sq r st (empty_mode junk) in
      match x with Some (m1, r1) => Ok (true, m1, r1, st1) | None => parse_bracket ts st1 (empty_mode junk) end) = Ok (b, m, r1, st1) ->
    more st st1 /\ (quiet st st1 -> if b then read o ts junk m r1 else (m = empty_mode junk /\ r1 = ts) \/ other o m)).
  { intros sq r Et Q. destruct (parse_index sq r st (empty_mode junk)) as [[x st2]| |] eqn:Ei; cbn [bind] in Q; try discriminate Q.
    destruct (index_sound o _ _ _ _ _ _ Ei) as (Mo & Re). destruct x as [[m1 r2]|].
    - injection Q as <- <- <- <-. split; [exact Mo|]. rewrite Et. exact Re.
    - destruct (bracket_sound o _ _ _ _ _ _ _ Ba Q) as (-> & G). split; [exact Mo|]. intros _. destruct b; [exact G|left; exact G]. }
  destruct ts as [|[id| | | | | | | |] r]; try exact (Br H).
  - destruct ((T_MODE_B <=? id) && (id <=? T_CC_M)) eqn:Eid; [|exact (Br H)].
    destruct (keyword_sound o id r st junk b m r1 st1) as (Mo & Re); [lia|exact H|]. split; [exact Mo|]. intro Q. specialize (Re Q).
    destruct b; [exact Re|right; exact Re].
  - exact (Ix false r eq_refl H).
  - exact (Ix true r eq_refl H).
Qed.

Lemma bracket_state : forall ts st m b m1 r1 st1, parse_bracket ts st m = Ok (b, m1, r1, st1) -> st1 = st.
Proof.
  intros ts st m b m1 r1 st1 H.
  assert (Pl : parse_plain ts st m = Ok (b, m1, r1, st1) -> st1 = st).
  { intro Q. unfold parse_plain in Q. destruct (parse_Expression ts) as [[[e r]|]| |]; cbn [bind] in Q; try discriminate Q; injection Q as _ _ _ <-; reflexivity. }
  unfold parse_bracket in H. destruct ts as [|[] r]; try exact (Pl H).
  destruct (parse_Expression r) as [[[e r2]|]| |]; cbn [bind] in H; try discriminate H; try exact (Pl H).
  destruct r2 as [|[] r2]; try exact (Pl H). injection H as _ _ _ <-. reflexivity.
Qed.
Lemma parse_keeps : forall o ts st junk b m r1 st1, parse_AddrMode o ts st (empty_mode junk) = Ok (b, m, r1, st1) -> more st st1.
Proof.
  intros o ts st junk b m r1 st1 H. unfold parse_AddrMode in H.
  assert (Br : parse_bracket ts st (empty_mode junk) = Ok (b, m, r1, st1) -> more st st1) by (intro Q; rewrite (bracket_state _ _ _ _ _ _ _ Q); apply more_refl).
  assert (Ix : forall (sq : bool) (r : list token),
    (let! (x, st1) := parse_index sq r st (empty_mode junk) in
      match x with Some (m1, r1) => Ok (true, m1, r1, st1) | None => parse_bracket ts st1 (empty_mode junk) end) = Ok (b, m, r1, st1) -> more st st1).
  { intros sq r Q. destruct (parse_index sq r st (empty_mode junk)) as [[x st2]| |] eqn:Ei; cbn [bind] in Q; try discriminate Q.
    destruct (index_sound o _ _ _ _ _ _ Ei) as (Mo & _). destruct x as [[m1 r2]|]; [injection Q as _ _ _ <-; exact Mo|].
    rewrite (bracket_state _ _ _ _ _ _ _ Q). exact Mo. }
  destruct ts as [|[id| | | | | | | |] r]; try exact (Br H).
  - destruct ((T_MODE_B <=? id) && (id <=? T_CC_M)) eqn:Eid; [|exact (Br H)].
    destruct (keyword_sound o id r st junk b m r1 st1) as (Mo & _); [lia|exact H|exact Mo].
  - exact (Ix false r H).
  - exact (Ix true r H).
Qed.

(** ** What is done *)
Lemma run_keeps : forall F a st, errs_kept st (run_act F a st).
Proof.
  intros F a st st' H. destruct a as [b|x|n lo hi x|x|x|op x|x|n]; cbn [run_act] in H.
  - exact (const8_keeps _ _ _ H).
  - destruct (theExpr F x st) as [e| |]; cbn [bind] in H; try discriminate H. exact (expr8_keeps _ _ _ H).
  - destruct (theExpr F x st) as [e| |]; cbn [bind] in H; try discriminate H.
    destruct (range_checked e lo hi st) as [[e1 st1]| |] eqn:Er; cbn [bind] in H; try discriminate H. apply checked_keeps in Er.
    destruct n as [|[|n]]; (eapply more_trans; [exact Er|]); [exact (expr16_keeps _ _ _ H)|exact (expr8_keeps _ _ _ H)|exact (expr16_keeps _ _ _ H)].
  - destruct (theExpr F x st) as [e| |]; cbn [bind] in H; try discriminate H.
    destruct (expr_PcRelative F (sect_Current st) e (-1)) as [e1| |]; cbn [bind] in H; try discriminate H.
    destruct (range_checked e1 (-128) 127 st) as [[e2 st1]| |] eqn:Er; cbn [bind] in H; try discriminate H. apply checked_keeps in Er.
    eapply more_trans; [exact Er|exact (expr8_keeps _ _ _ H)].
  - destruct (theExpr F x st) as [e| |]; cbn [bind] in H; try discriminate H.
    destruct (range_checked e 0xFF00 0xFFFF st) as [[e1 st1]| |] eqn:Er; cbn [bind] in H; try discriminate H. apply checked_keeps in Er.
    destruct (expr_And F e1 (expr_Const 0xFF)) as [e2| |]; cbn [bind] in H; try discriminate H.
    eapply more_trans; [exact Er|exact (expr8_keeps _ _ _ H)].
  - destruct (theExpr F x st) as [e| |]; cbn [bind] in H; try discriminate H.
    destruct (range_checked e 0 7 st) as [[e1 st1]| |] eqn:Er; cbn [bind] in H; try discriminate H. apply checked_keeps in Er.
    destruct (expr_Asl F e1 (expr_Const 3)) as [e2| |]; cbn [bind] in H; try discriminate H.
    destruct (expr_Or F (expr_Const op) e2) as [e3| |]; cbn [bind] in H; try discriminate H.
    eapply more_trans; [exact Er|exact (expr8_keeps _ _ _ H)].
  - destruct x as [|e| |e]; try (injection H as <-; apply more_refl). destruct (next_of F e st) as [[e1 st1]| |] eqn:Er; cbn [bind] in H; try discriminate H.
    injection H as <-. unfold next_of in Er. destruct (expr_Add F e (expr_Const 1)) as [e2| |]; cbn [bind] in Er; try discriminate Er.
    exact (checked_keeps _ _ _ _ _ _ Er).
  - injection H as <-. apply more_error.
Qed.
Definition no_error {T : Type} (a : act T) : bool := match a with AError _ => false | _ => true end.
Lemma runs_keep : forall F l st st', run_acts F l st = Ok st' -> more st st' /\ (quiet st st' -> forallb no_error l = true).
Proof.
  intros F. induction l as [|a l IH]; intros st st' H; cbn [run_acts] in H; [injection H as <-; split; [apply more_refl|reflexivity]|].
  destruct (run_act F a st) as [st1| |] eqn:Ea; cbn [bind] in H; try discriminate H. destruct (IH _ _ H) as (M2 & Q2).
  pose proof (run_keeps F a st st1 Ea) as M1. split; [exact (more_trans _ _ _ M1 M2)|]. intro Q.
  destruct (X65Only.more_quiet _ _ _ M1 M2 Q) as (Qa & Qb). cbn [forallb]. rewrite (Q2 Qb), andb_true_r.
  destruct a; try reflexivity. cbn [run_act] in Ea. injection Ea as <-. destruct (X65Only.loud _ _ _ (more_refl st) Qa).
Qed.
Lemma out_clean_plan : forall F (p : plan expr) ts st ts' st' , carry_out F p ts st = Ok (true, ts', st') -> more st st' /\ ts' = ts /\
  (quiet st st' -> snd p = true /\ forallb no_error (fst p) = true).
Proof.
  intros F p ts st ts' st' H. unfold carry_out in H. destruct (run_acts F (fst p) st) as [st1| |] eqn:E; cbn [bind] in H; try discriminate H.
  injection H as H1 <- <-. destruct (runs_keep _ _ _ _ E) as (Mo & Q). auto.
Qed.
Lemma clean_map : forall T (f : nat -> T) p, snd (pmap nat T f p) = true -> forallb no_error (fst (pmap nat T f p)) = true -> clean p = true.
Proof.
  intros T f [l b] Hb Hl. unfold clean, pmap in *. cbn [fst snd] in *. rewrite Hb. cbn [andb]. clear Hb. induction l as [|a l IH]; [reflexivity|].
  cbn [map forallb] in *. apply andb_true_iff in Hl. destruct Hl as (H1 & H2). rewrite (IH H2), andb_true_r. destruct a; try reflexivity; discriminate H1.
Qed.

(** ** Instructions *)
Definition accepted (g u s : bool) (name : string) (l : list (opnd source)) : Prop :=
  described g u s name l \/
  (may_omit name = true /\ exists p, l = [p] /\ described g u s name [OReg false A; p]) \/
  mistaken g name (map pattern_of l) = true.
(** The numbers that were kept are those of the source. *)
Definition views (tags : nat -> option Z) (l : list (opnd source)) : Prop :=
  forall k p, nth_error l k = Some p -> match pattern_of p with Imm | Mem => tags k = known_value l k /\ (forall v, tags k = Some v -> is_s32 v) | _ => True end.
Lemma plain_accepted : forall g u s name l, viewed name (map pattern_of l) = false ->
  justified g name (filter (fun r => enabled g u s r && String.eqb name (r_name r)) table) (map pattern_of l) = true -> accepted g u s name l.
Proof.
  intros g u s name l V J0. unfold justified in J0. apply orb_true_iff in J0. destruct J0 as [J0|J0]; [apply orb_true_iff in J0; destruct J0 as [J0|J0]|].
  - left. destruct (listed_row _ _ _ _ _ J0) as (r & Ir & En & Eb & Ep). exists r. repeat split; auto.
    rewrite (unconditional r Ir); [exact Logic.I|]. rewrite En, Ep. exact V.
  - right. right. exact J0.
  - right. left. destruct l as [|p [|q l]]; cbn [map] in J0; try discriminate J0. apply andb_true_iff in J0. destruct J0 as (J0 & J1).
    split; [exact J0|]. exists p. split; [reflexivity|]. destruct (listed_row _ _ _ _ _ J1) as (r & Ir & En & Eb & Ep). exists r. repeat split; auto.
    rewrite (unconditional r Ir); [exact Logic.I|]. rewrite En, Ep. cbn [map] in V. clear - V.
    destruct (pattern_of p) as [[]|[]|[]| | |]; try reflexivity; exact V.
Qed.
Lemma named : forall s t, String.eqb s t = true -> s = t. Proof. intros. apply String.eqb_eq. assumption. Qed.
Lemma patterns_one : forall (l : list (opnd source)) a, map pattern_of l = [a] -> exists p, l = [p] /\ pattern_of p = a.
Proof. intros [|p [|q l]] a E; try discriminate E. injection E as E. exists p. auto. Qed.
Lemma patterns_two : forall (l : list (opnd source)) a b, map pattern_of l = [a; b] -> exists p q, l = [p; q] /\ pattern_of p = a /\ pattern_of q = b.
Proof. intros [|p [|q [|r l]]] a b E; try discriminate E. injection E as E1 E2. exists p, q. auto. Qed.
Lemma described_as : forall g u s name l ps c, map pattern_of l = ps -> found g u s name ps c = true -> view_meets (known_value l) c -> described g u s name l.
Proof. intros g u s name l ps c <-. apply found_row. Qed.
Lemma load_described : forall g u s l k ps, map pattern_of l = ps -> (ps = [Reg A; Mem] /\ k = 1%nat) \/ (ps = [Mem; Reg A] /\ k = 0%nat) -> described g u s "LD" l.
Proof.
  intros g u s l k ps E W. destruct g.
  - assert (Q : (exists v, known_value l k = Some v /\ in_high v) \/ (forall v, known_value l k = Some v -> ~ in_high v)).
    { destruct (known_value l k) as [v|]; [|right; intros v; discriminate].
      destruct ((0xFF00 <=? v) && (v <=? 0xFFFF)) eqn:R1; [left; exists v; split; [reflexivity|unfold in_high; lia]|].
      right. intros v' [= <-]. unfold in_high. lia. }
    destruct Q as [Q|Q]; destruct W as [(-> & ->)|(-> & ->)].
    + apply (described_as _ _ _ _ _ _ (InHigh 1) E); [destruct u, s; vm_compute; reflexivity|exact Q].
    + apply (described_as _ _ _ _ _ _ (InHigh 0) E); [destruct u, s; vm_compute; reflexivity|exact Q].
    + apply (described_as _ _ _ _ _ _ (NotHigh 1) E); [destruct u, s; vm_compute; reflexivity|exact Q].
    + apply (described_as _ _ _ _ _ _ (NotHigh 0) E); [destruct u, s; vm_compute; reflexivity|exact Q].
  - destruct W as [(-> & ->)|(-> & ->)]; (apply (described_as _ _ _ _ _ _ Always E); [destruct u, s; vm_compute; reflexivity|exact Logic.I]).
Qed.
Lemma number_accepted : forall tags j1 j2 g u s name i l, instruction_of name = Some i -> views tags l ->
  clean (planned tags (options_of g u s) i j1 j2 0%nat 1%nat (map pattern_of l)) = true -> viewed name (map pattern_of l) = true ->
  accepted g u s name l.
Proof.
  intros tags j1 j2 g u s name i l Hi Vw Cl V.
  assert (W : (map pattern_of l = [Imm] /\ (name = "IM" \/ name = "RST")) \/ (map pattern_of l = [Reg Ci; Imm] /\ name = "OUT") \/
    (map pattern_of l = [Reg A; Mem] /\ name = "LD") \/ (map pattern_of l = [Mem; Reg A] /\ name = "LD") \/ (map pattern_of l = [Mem] /\ name = "LD")).
  { clear - V. destruct (map pattern_of l) as [|[[]|[]|[]| | |] [|[[]|[]|[]| | |] [|]]]; try discriminate V; cbn [viewed] in V;
      try (apply orb_true_iff in V; destruct V as [V|V]); apply String.eqb_eq in V; subst; tauto. }
  destruct W as [(E & [->| ->])|[(E & ->)|[(E & ->)|[(E & ->)|(E & ->)]]]].
  - left. change (instruction_of "IM") with (Some IM_i) in Hi. injection Hi as <-. rewrite E in Cl. apply im_clean in Cl. destruct Cl as (v & E1 & Ev & ->).
    destruct (patterns_one _ _ E) as (p & -> & Ep). specialize (Vw 0%nat p eq_refl). rewrite Ep in Vw. destruct Vw as (Vw & _). rewrite E1 in Vw.
    apply (described_as _ _ _ _ _ _ (Value 0 v) E); [|cbn [view_meets]; congruence].
    destruct Ev as [->|[->| ->]]; destruct u, s; vm_compute; reflexivity.
  - left. change (instruction_of "RST") with (Some RST_i) in Hi. injection Hi as <-. rewrite E in Cl.
    destruct (patterns_one _ _ E) as (p & -> & Ep). specialize (Vw 0%nat p eq_refl). rewrite Ep in Vw. destruct Vw as (Vw & V32).
    apply rst_clean in Cl; [|exact V32]. destruct Cl as (v & E1 & Ev). rewrite E1 in Vw.
    apply (described_as _ _ _ _ _ _ (Value 0 v) E); [|cbn [view_meets]; congruence].
    repeat (destruct Ev as [<-|Ev]; [destruct g, u, s; vm_compute; reflexivity|]). destruct Ev.
  - left. change (instruction_of "OUT") with (Some OUT_i) in Hi. injection Hi as <-. rewrite E in Cl. apply out_clean in Cl. destruct Cl as (E1 & -> & ->).
    destruct (patterns_two _ _ _ E) as (p & q & -> & Ep & Eq). specialize (Vw 1%nat q eq_refl). rewrite Eq in Vw. destruct Vw as (Vw & _). rewrite E1 in Vw.
    apply (described_as _ _ _ _ _ _ (Value 1 0) E); [destruct s; vm_compute; reflexivity|cbn [view_meets]; congruence].
  - left. exact (load_described g u s l _ _ E (or_introl (conj eq_refl eq_refl))).
  - left. exact (load_described g u s l _ _ E (or_intror (conj eq_refl eq_refl))).
  - right. left. split; [reflexivity|]. destruct (patterns_one _ _ E) as (p & -> & Ep). exists p. split; [reflexivity|].
    apply (load_described g u s [OReg false A; p] 1%nat [Reg A; Mem]); [cbn [map pattern_of]; rewrite Ep; reflexivity|left; split; reflexivity].
Qed.
Lemma all_accepted : forall tags j1 j2 g u s name i l, instruction_of name = Some i -> views tags l ->
  operands_of (options_of g u s) i (map pattern_of l) ->
  clean (planned tags (options_of g u s) i j1 j2 0%nat 1%nat (map pattern_of l)) = true -> accepted g u s name l.
Proof.
  intros tags j1 j2 g u s name i l Hi Vw Op Cl. destruct (viewed name (map pattern_of l)) eqn:V.
  - exact (number_accepted _ _ _ _ _ _ _ _ _ Hi Vw Cl V).
  - apply plain_accepted; [exact V|]. exact (justified_all _ _ _ _ _ _ _ _ _ Hi Op Cl V).
Qed.
Lemma bare_tail : forall t r, bare (t :: r) -> bare r.
Proof. intros [] r H; cbn [bare] in H; try tauto. destruct r as [|[] r]; tauto. Qed.
Lemma bare_app : forall a r, bare (a ++ r) -> bare r.
Proof. induction a as [|t a IH]; intros r H; [exact H|]. apply IH. exact (bare_tail _ _ H). Qed.
Definition two (e0 e1 : expr) (k : nat) : expr := match k with O => e0 | _ => e1 end.
Lemma views_two : forall e0 e1 (l : list (opnd source)), 
  (forall k p, nth_error l k = Some p -> match pattern_of p with Imm | Mem => known_value [p] 0 = constant (two e0 e1 k) /\ is_s32 (e_v (two e0 e1 k)) | _ => True end) ->
  views (fun k => constant (two e0 e1 k)) l.
Proof.
  intros e0 e1 l H k p E. specialize (H k p E).
  assert (K : known_value l k = known_value [p] 0) by (unfold known_value; rewrite E; reflexivity).
  assert (S3 : is_s32 (e_v (two e0 e1 k)) -> forall v, constant (two e0 e1 k) = Some v -> is_s32 v).
  { intros H3 v Hv. unfold constant in Hv. destruct (expr_IsConstant _); [|discriminate Hv]. injection Hv as <-. exact H3. }
  destruct (pattern_of p); try exact Logic.I; destruct H as (H1 & H2); rewrite K, H1; auto.
Qed.
Lemma plan_accepted : forall F g u s name i l (junk1 junk2 : amode expr) e0 e1 ts st ts' st',
  carry_out F (planned constant (options_of g u s) i junk1 junk2 e0 e1 (map pattern_of l)) ts st = Ok (true, ts', st') -> quiet st st' ->
  instruction_of name = Some i -> operands_of (options_of g u s) i (map pattern_of l) ->
  views (fun k => constant (two e0 e1 k)) l -> ts' = ts /\ accepted g u s name l.
Proof.
  intros F g u s name i l junk1 junk2 e0 e1 ts st ts' st' H Q Hi Op Vw.
  destruct (out_clean_plan _ _ _ _ _ _ H) as (_ & -> & Cl). destruct (Cl Q) as (C1 & C2). split; [reflexivity|].
  pose proof (planned_map expr (two e0 e1) constant (fun k => constant (two e0 e1 k)) (options_of g u s) i junk1 junk2 (map pattern_of l)
    (fun j => eq_refl)) as PM. cbn [two] in PM. rewrite PM in C1, C2. pose proof (clean_map _ _ _ C1 C2) as C3.
  exact (all_accepted _ _ _ _ _ _ _ _ _ Hi Vw Op C3).
Qed.
Theorem only_these : forall F g u s junk1 junk2 pieces st ts' st', bare (lex pieces) ->
  z80_ParseInstruction F (options_of g u s) junk1 junk2 (lex pieces) st = Ok (true, ts', st') -> x_errors st' = x_errors st ->
  exists name rest l, pieces = Word name :: rest /\ lex rest = lex (text l) ++ ts' /\ Forall (signed_well fst) l /\ accepted g u s name l.
Proof.
  intros F g u s junk1 junk2 pieces st ts' st' Ba H Q. change (quiet st st') in Q.
  assert (exists name rest id0, pieces = Word name :: rest /\ lex1 (Word name) = TId id0) as (name & rest & id0 & -> & En).
  { destruct pieces as [|[name| | | | | | |] rest]; try discriminate H. unfold z80_ParseInstruction in H. cbn [lex map lex1] in H.
    cbn [lex1]. destruct (assoc name g_tokens) as [id0| | | | | | | |] eqn:E; try discriminate H. exists name, rest, id0. auto. }
  cbn [lex map] in H, Ba. rewrite En in H, Ba. cbn [bare] in Ba. fold (lex rest) in H, Ba. unfold z80_ParseInstruction in H. cbv zeta in H.
  destruct ((T_Z80_ADC <=? translateToken id0) && (translateToken id0 <=? T_Z80_XOR)) eqn:Er; [|discriminate H].
  set (i := nth (Z.to_nat (translateToken id0 - T_Z80_ADC)) g_instructions (Instr 0 0 0 0 0 HImplied)) in *.
  assert (Hi : instruction_of name = Some i).
  { unfold instruction_of. cbn [lex1] in En. rewrite En. cbv zeta. rewrite Er. apply nth_error_nth'.
    change (Datatypes.length g_instructions) with 72%nat. unfold T_Z80_ADC, T_Z80_XOR in *. lia. }
  clearbody i. exists name, rest.
  assert (None_ : forall r st1 , carry_out F (decide expr constant (options_of g u s) i (empty_mode junk1) (empty_mode junk2)) r st1 = Ok (true, ts', st') ->
    r = lex rest -> quiet st1 st' -> exists l, Word name :: rest = Word name :: rest /\ lex rest = lex (text l) ++ ts' /\ Forall (signed_well fst) l /\ accepted g u s name l).
  { intros r st1 Hc -> Q1. exists []. split; [reflexivity|].
    destruct (plan_accepted F g u s name i [] junk1 junk2 (expr_Const 0) (expr_Const 0) (lex rest) st1 ts' st' Hc Q1 Hi) as (-> & Ac).
    - split; [reflexivity|split; [cbn; lia|reflexivity]].
    - intros [|k] p E; discriminate E.
    - split; [reflexivity|]. split; [constructor|exact Ac]. }
  destruct (i_modes1 i =? 0) eqn:Z0; [exact (None_ _ _ H eq_refl Q)|].
  destruct (parse_AddrMode (options_of g u s) (lex rest) st (empty_mode junk1)) as [[[[b1 m1] r1] st1]| |] eqn:P1; cbn [bind] in H; try discriminate H.
  destruct (parse_sound _ _ _ _ _ _ _ _ Ba P1) as (M1 & S1). destruct b1.
  2: { destruct (negb (am_mode m1 =? 0) && negb (has (am_mode m1) MODE_NONE)) eqn:No.
    - injection H as _ <-. destruct (X65Only.loud _ _ _ M1 Q).
    - destruct (out_clean_plan _ _ _ _ _ _ H) as (M2 & _ & _). destruct (X65Only.more_quiet _ _ _ M1 M2 Q) as (Q1 & Q2).
      destruct (S1 Q1) as [(-> & ->)|(O1 & O2)]; [exact (None_ _ _ H eq_refl Q2)|]. rewrite O2 in No. cbn [negb] in No. lia. }
  assert (Zi : i_modes1 i <> 0) by lia. clear Z0 None_.
  assert (One : carry_out F (decide_one expr constant (options_of g u s) i m1 (empty_mode junk2)) r1 st1 = Ok (true, ts', st') ->
    exists l, Word name :: rest = Word name :: rest /\ lex rest = lex (text l) ++ ts' /\ Forall (signed_well fst) l /\ accepted g u s name l).
  { intro Hc. destruct (out_clean_plan _ _ _ _ _ _ Hc) as (M2 & _ & _). destruct (X65Only.more_quiet _ _ _ M1 M2 Q) as (Q1 & Q2).
    destruct (S1 Q1) as (p & e & Et & -> & Pp & Sp & Kp). exists [p]. split; [reflexivity|].
    destruct (plan_accepted F g u s name i [p] junk1 junk2 e e r1 st1 ts' st' Hc Q2 Hi) as (-> & Ac).
    - split; [intro; contradiction|]. split; [cbn; lia|]. cbn [map forallb]. rewrite Pp. reflexivity.
    - apply views_two. intros [|[|k]] p' E; try discriminate E. injection E as <-. destruct (pattern_of p); try exact Logic.I; exact Kp.
    - split; [exact Et|]. split; [constructor; [exact Sp|constructor]|exact Ac]. }
  destruct r1 as [|[] r1]; try exact (One H). clear One.
  destruct (parse_AddrMode (options_of g u s) r1 st1 (empty_mode junk2)) as [[[[b2 m2] r3] st2]| |] eqn:P2; cbn [bind] in H; try discriminate H.
  assert (Later : more st1 st2 -> more st2 st' -> quiet st st1 /\ quiet st1 st2 /\ quiet st2 st').
  { intros M2 M3. destruct (X65Only.more_quiet _ _ _ M1 (more_trans _ _ _ M2 M3) Q) as (Q1 & Q2).
    destruct (X65Only.more_quiet _ _ _ M2 M3 Q2) as (Q3 & Q4). auto. }
  assert (Ba1 : quiet st st1 -> bare r1).
  { intro Q1. destruct (S1 Q1) as (p & e & Et & _). rewrite Et in Ba. apply bare_app in Ba. exact (bare_tail _ _ Ba). }
  pose proof (parse_keeps _ _ _ _ _ _ _ _ P2) as M2. destruct b2.
  2: { injection H as _ <-. destruct (X65Only.loud _ _ _ (more_trans _ _ _ M1 M2) Q). }
  destruct (out_clean_plan _ _ _ _ _ _ H) as (M3 & _ & _). destruct (Later M2 M3) as (Q1 & Q2 & Q3).
  destruct (parse_sound _ _ _ _ _ _ _ _ (Ba1 Q1) P2) as (_ & S2).
  destruct (S1 Q1) as (p & e & Et & -> & Pp & Sp & Kp). destruct (S2 Q2) as (p2 & e2 & Et2 & -> & Pp2 & Sp2 & Kp2).
  exists [p; p2]. split; [reflexivity|].
  destruct (plan_accepted F g u s name i [p; p2] junk1 junk2 e e2 r3 st2 ts' st' H Q3 Hi) as (-> & Ac).
  - split; [intro; contradiction|]. split; [cbn; lia|]. cbn [map forallb]. rewrite Pp, Pp2. reflexivity.
  - apply views_two. intros [|[|[|k]]] p' E; try discriminate E; injection E as <-.
    + destruct (pattern_of p); try exact Logic.I; exact Kp.
    + destruct (pattern_of p2); try exact Logic.I; exact Kp2.
  - split; [|split; [constructor; [exact Sp|constructor; [exact Sp2|constructor]]|exact Ac]].
    rewrite Et, Et2. cbn [text]. unfold lex. rewrite map_app. cbn [map lex1]. rewrite <- app_assoc. reflexivity.
Qed.
