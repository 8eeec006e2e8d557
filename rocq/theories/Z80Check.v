(** Proofs about the Z80 instruction parser: the handlers and the instruction set
    agree. *)
From Coq Require Import ZArith List Bool Lia ZifyBool String.
From Verif Require Import Base BaseFacts Arith ExprSpec ExprModel OptModel SectModel SectSpec InstrSpec Z80Model Z80Spec.
Import ListNotations.
Open Scope string_scope.
Open Scope list_scope.
Open Scope Z_scope.

(** ** Handlers do the same whatever the expressions are *)
Section Map.
Variables E E' : Type.
Variable f : E -> E'.
Variable view : E -> option Z.
Variable view' : E' -> option Z.
Hypothesis views : forall e, view' (f e) = view e.
Definition xmap (x : xexpr E) : xexpr E' :=
  match x with XNull => XNull | XExpr e => XExpr (f e) | XOne => XOne | XNext e => XNext (f e) end.
Definition mmap (m : amode E) : amode E' :=
  AMode (am_mode m) (xmap (am_expr m)) (am_cpu m) (am_D m) (am_SS m) (am_RR m) (am_HL m) (am_F m) (am_Ctrl m).
Definition amap (a : act E) : act E' :=
  match a with
  | AByte b => AByte b | AExpr8 x => AExpr8 (xmap x) | AChecked n lo hi x => AChecked n lo hi (xmap x)
  | APcRel x => APcRel (xmap x) | AImmHi x => AImmHi (xmap x) | ABitNo op x => ABitNo op (xmap x)
  | ANext x => ANext (xmap x) | AError n => AError n
  end.
Definition pmap (p : plan E) : plan E' := (map amap (fst p), snd p).
Lemma pmap_and : forall p q, pmap (and_then E p q) = and_then E' (pmap p) (pmap q).
Proof. intros [l []] [l' b']; unfold and_then, pmap; cbn [fst snd]; [rewrite map_app|]; reflexivity. Qed.
Lemma constant_map : forall x, constantOf E' view' (xmap x) = constantOf E view x.
Proof. intros []; cbn; [reflexivity|apply views|reflexivity|reflexivity]. Qed.
Lemma mode_map : forall t, addressMode t = mmap (addressMode t).
Proof.
  intro t. unfold addressMode. change (@noMode E') with (mmap noMode).
  change (g_addressModes E') with (map mmap (g_addressModes E)). apply map_nth.
Qed.
Lemma outputIXIY_map : forall m op, outputIXIY E' (mmap m) op = map amap (outputIXIY E m op).
Proof.
  intros m op. unfold outputIXIY. cbn [map amap]. f_equal. f_equal. cbn [mmap am_mode am_expr].
  destruct (has (am_mode m) MODE_GROUP_I_IND_DISP); [|reflexivity]. destruct (am_expr m); reflexivity.
Qed.
Lemma outputGroupHL_map : forall m, outputGroupHL E' (mmap m) = map amap (outputGroupHL E m).
Proof. intro m. unfold outputGroupHL. cbn [mmap am_mode am_HL]. destruct (_ && _); reflexivity. Qed.
Lemma next_map : forall m, offsetPlusOne E' (mmap m) = mmap (offsetPlusOne E m).
Proof. intro m. unfold offsetPlusOne. cbn. f_equal. destruct (am_expr m); reflexivity. Qed.
Lemma making_map : forall m, making E' (mmap m) = pmap (making E m).
Proof. intro m. unfold making. cbn. destruct (am_expr m); reflexivity. Qed.
Lemma calls_map : forall l, calls E' (map amap l) = pmap (calls E l). Proof. reflexivity. Qed.
Lemma if_map : forall (b : bool) p q p' q', (b = true -> p' = pmap p) -> (b = false -> q' = pmap q) ->
  (if b then p' else q') = pmap (if b then p else q).
Proof. intros [] p q p' q' Hp Hq; auto. Qed.
Ltac naked := repeat match goal with |- context [if ?b then _ else _] => destruct b end; try reflexivity.
Ltac outs := rewrite ?outputIXIY_map, ?outputGroupHL_map; unfold pmap, calls; cbn [fst snd]; rewrite ?map_app; reflexivity.
Variable o : mopts.
Lemma ld_map : forall rec rec' m1 m2, (forall a b, rec' (mmap a) (mmap b) = pmap (rec a b)) ->
  handleLd_with E' view' o rec' (mmap m1) (mmap m2) = pmap (handleLd_with E view o rec m1 m2).
Proof.
  intros rec rec' m1 m2 R. unfold handleLd_with. cbv zeta.
  assert (R2 : forall a b, rec' (addressMode a) (addressMode b) = pmap (rec (addressMode a) (addressMode b))).
  { intros a b. rewrite (mode_map a), (mode_map b). apply R. }
  assert (R3 : forall a b, rec' (addressMode a) (mmap b) = pmap (rec (addressMode a) b)).
  { intros a b. rewrite (mode_map a). apply R. }
  assert (R4 : forall a b, rec' (mmap a) (addressMode b) = pmap (rec a (addressMode b))).
  { intros a b. rewrite (mode_map b). apply R. }
  assert (HP : forall x, high_page E' view' o (xmap x) = high_page E view o x).
  { intro x. unfold high_page. rewrite constant_map. reflexivity. }
  assert (En : ensureSynthesizedEnabled E' o = pmap (ensureSynthesizedEnabled E o)) by (unfold ensureSynthesizedEnabled; naked).
  assert (Eu : ensureUndocumentedEnabled E' o = pmap (ensureUndocumentedEnabled E o)) by (unfold ensureUndocumentedEnabled; naked).
  change (am_mode (mmap m1)) with (am_mode m1). change (am_mode (mmap m2)) with (am_mode m2).
  change (isIXYLH E' (mmap m1)) with (isIXYLH E m1). change (isIXYLH E' (mmap m2)) with (isIXYLH E m2).
  change (am_expr (mmap m1)) with (xmap (am_expr m1)). change (am_expr (mmap m2)) with (xmap (am_expr m2)).
  change (am_D (mmap m1)) with (am_D m1). change (am_D (mmap m2)) with (am_D m2).
  change (am_SS (mmap m1)) with (am_SS m1). change (am_SS (mmap m2)) with (am_SS m2).
  change (am_HL (mmap m1)) with (am_HL m1). change (am_HL (mmap m2)) with (am_HL m2).
  change (am_RR (mmap m1)) with (am_RR m1). change (am_RR (mmap m2)) with (am_RR m2).
  change (am_Ctrl (mmap m1)) with (am_Ctrl m1). change (am_Ctrl (mmap m2)) with (am_Ctrl m2).
  rewrite !HP, En, Eu, !next_map, !making_map.
  repeat (apply if_map; intros ?); try (outs || (naked; outs) || fail);
    repeat match goal with |- context [let '(_, _) := ?p in _] => destruct p as [? ?] end;
    rewrite ?R2, ?R3, ?R4, <- ?pmap_and; reflexivity.
Qed.

Lemma handleLd_map : forall m1 m2, handleLd E' view' o (mmap m1) (mmap m2) = pmap (handleLd E view o m1 m2).
Proof. intros m1 m2. apply ld_map. intros a b. apply ld_map. reflexivity. Qed.
Lemma alu_map : forall op m1 m2, handleAlu E' o op (mmap m1) (mmap m2) = pmap (handleAlu E o op m1 m2).
Proof.
  intros op m1 m2. unfold handleAlu. cbn [mmap am_mode am_D am_expr]. fold (mmap m2).
  change (isIXYLH E' (mmap m2)) with (isIXYLH E m2). repeat (apply if_map; intros ?); try reflexivity; cbv zeta; try (naked; outs).
Qed.
Lemma alu16_map : forall pre op m1 m2, handleAlu16bit E' pre op (mmap m1) (mmap m2) = option_map pmap (handleAlu16bit E pre op m1 m2).
Proof. intros pre op m1 m2. unfold handleAlu16bit. cbn [mmap am_mode am_D am_HL am_SS]. naked. Qed.
Lemma rotate_map : forall op m, handleRotate E' op (mmap m) = pmap (handleRotate E op m).
Proof. intros op m. unfold handleRotate. cbn [mmap am_mode am_D]. fold (mmap m). naked. outs. Qed.
Lemma shifts_map : forall a b c d, handle16BitShifts E' o a b c d = pmap (handle16BitShifts E o a b c d).
Proof.
  intros a b c d. unfold handle16BitShifts. rewrite (mode_map b), (mode_map d), !rotate_map, !pmap_and. f_equal.
  unfold ensureSynthesizedEnabled. naked.
Qed.
Lemma slx_map : forall op m, handleSLx E' o op (mmap m) = pmap (handleSLx E o op m).
Proof.
  intros op m. unfold handleSLx. cbn [mmap am_mode am_SS]. fold (mmap m). apply if_map; intros _; [|apply rotate_map].
  destruct (registerPairsSS (am_SS m)). apply shifts_map.
Qed.
Lemma srx_map : forall op m, handleSRx E' o op (mmap m) = pmap (handleSRx E o op m).
Proof.
  intros op m. unfold handleSRx. cbn [mmap am_mode am_SS]. fold (mmap m). apply if_map; intros _; [|apply rotate_map].
  destruct (registerPairsSS (am_SS m)). apply shifts_map.
Qed.
Lemma call_map : forall op m1 m2, handleCall E' o op (mmap m1) (mmap m2) = pmap (handleCall E o op m1 m2).
Proof. intros. unfold handleCall. cbn [mmap am_mode am_F am_expr]. naked. Qed.
Lemma inout_map : forall pre op m1 m2, handleInOut E' pre op (mmap m1) (mmap m2) = pmap (handleInOut E pre op m1 m2).
Proof. intros. unfold handleInOut. cbn [mmap am_mode am_D am_expr]. naked. Qed.
Lemma apply_map : forall i m1 m2, apply_handler E' view' o i (mmap m1) (mmap m2) = pmap (apply_handler E view o i m1 m2).
Proof.
  intros i m1 m2. unfold apply_handler. destruct (i_handler i);
    first [ apply alu_map | apply rotate_map | apply slx_map | apply srx_map | apply call_map | apply handleLd_map | idtac ].
  - unfold handleAdc. rewrite alu16_map, alu_map. destruct (IS_Z80 o); [|reflexivity]. destruct (handleAlu16bit _ _ _ _ _); reflexivity.
  - unfold handleAdd. rewrite alu16_map, alu_map. destruct (handleAlu16bit _ _ _ _ _); [reflexivity|]. cbn [option_map].
    apply if_map; intros _; reflexivity.
  - unfold handleBit. cbn [mmap am_mode am_D am_expr]. fold (mmap m2). repeat (apply if_map; intros _); try reflexivity. outs.
  - unfold handleImplied. naked.
  - unfold handleDec. cbn [mmap am_mode am_SS am_D]. fold (mmap m1). change (isIXYLH E' (mmap m1)) with (isIXYLH E m1).
    repeat (apply if_map; intros _); outs.
  - reflexivity.
  - unfold handleEx. change (ex_match E' (mmap m1) (mmap m2)) with (ex_match E m1 m2).
    repeat (apply if_map; intros _); try reflexivity. cbn [mmap am_mode]. fold (mmap m1). fold (mmap m2).
    destruct (has (am_mode m1) MODE_GROUP_HL); outs.
  - unfold handleIm. change (am_expr (mmap m1)) with (xmap (am_expr m1)). rewrite constant_map.
    destruct (constantOf _ _ _) as [v|]; [|reflexivity]. naked.
  - unfold handleIn. cbn [mmap am_mode am_D]. fold (mmap m1). fold (mmap m2). rewrite inout_map. repeat (apply if_map; intros _); try reflexivity.
    rewrite pmap_and. unfold ensureUndocumentedEnabled. naked.
  - unfold handleJp. cbn [mmap am_mode]. fold (mmap m1). fold (mmap m2). rewrite call_map. repeat (apply if_map; intros _); reflexivity.
  - unfold handleJr. cbn [mmap am_mode am_F am_expr]. naked.
  - unfold handleLdd. cbn [mmap am_mode]. naked.
  - unfold handleLdh. cbn [mmap am_mode am_expr]. naked.
  - reflexivity.
  - unfold handleOut. cbn [mmap am_mode am_D am_expr]. fold (mmap m1). fold (mmap m2). rewrite inout_map, constant_map.
    repeat (apply if_map; intros _); try reflexivity. rewrite pmap_and. f_equal.
    + unfold ensureUndocumentedEnabled. naked.
    + destruct (constantOf _ _ _) as [v|]; [|reflexivity]. naked.
  - unfold handlePop. cbn [mmap am_SS]. fold (mmap m1). outs.
  - unfold handleRet. cbn [mmap am_mode am_F]. naked.
  - unfold handleReti, handleImplied. naked.
  - unfold handleRst. change (am_expr (mmap m1)) with (xmap (am_expr m1)). rewrite constant_map.
    destruct (constantOf _ _ _) as [v|]; [|reflexivity]. cbv zeta. naked.
  - unfold handleSbc. rewrite alu16_map, alu_map. destruct (IS_Z80 o); [|reflexivity]. destruct (handleAlu16bit _ _ _ _ _); reflexivity.
  - unfold handleSLL. rewrite slx_map, pmap_and. f_equal. unfold ensureUndocumentedEnabled. naked.
  - reflexivity.
Qed.
Lemma decide_map : forall i m1 m2, decide E' view' o i (mmap m1) (mmap m2) = pmap (decide E view o i m1 m2).
Proof.
  intros i m1 m2. unfold decide. change (allowed (mmap m1)) with (allowed m1). change (allowed (mmap m2)) with (allowed m2).
  change (am_cpu (mmap m1)) with (am_cpu m1). change (am_cpu (mmap m2)) with (am_cpu m2). rewrite apply_map.
  repeat (apply if_map; intros _); reflexivity.
Qed.
Lemma decide_one_map : forall i m1 m2, decide_one E' view' o i (mmap m1) (mmap m2) = pmap (decide_one E view o i m1 m2).
Proof.
  intros i m1 m2. unfold decide_one. change (am_mode (mmap m1)) with (am_mode m1).
  change (with_A (mmap m1)) with (mmap (with_A m1)). rewrite !decide_map. apply if_map; reflexivity.
Qed.
End Map.

(** ** Operands by their pattern: the tag [i] stands for the expression *)
Definition reg_no (r : reg) : Z :=
  match r with
  | B => 0 | C => 1 | D => 2 | E => 3 | H => 4 | L => 5 | HLi => 6 | A => 7 | IXH => 8 | IXL => 9 | IYH => 10 | IYL => 11
  | BC => 12 | DE => 13 | HL => 14 | SP => 15 | IX => 16 | IY => 17 | Ci => 18 | HiC => 19 | SPi => 20 | BCi => 21 | DEi => 22
  | HLinc => 23 | HLdec => 24 | AF => 25 | AF' => 26 | I => 27 | R => 28 | NZ => 29 | Zf => 30 | NC => 31 | PO => 32 | PE => 33
  | P => 34 | M => 35
  end.
Definition pat_mode {T : Type} (junk : amode T) (e : T) (p : pat) : amode T :=
  match p with
  | Reg r => addressMode (T_MODE_B + reg_no r)
  | Index x => with_expr (match x with X => MODE_REG_IX_IND | Y => MODE_REG_IY_IND end) XNull (empty_mode junk)
  | IndexD x => with_D REG_D_HL_IND (with_expr (match x with X => MODE_REG_IX_IND_DISP | Y => MODE_REG_IY_IND_DISP end) (XExpr e) (empty_mode junk))
  | Imm => with_expr MODE_IMM (XExpr e) (empty_mode junk)
  | Mem => with_expr MODE_IMM_IND (XExpr e) (empty_mode junk)
  | SPd => with_expr MODE_REG_SP_DISP (XExpr e) (empty_mode junk)
  end.
(** What is done for an instruction with these operands. *)
Definition planned {T : Type} (view : T -> option Z) (o : mopts) (i : instruction handler) (junk1 junk2 : amode T) (e0 e1 : T) (ps : list pat) : plan T :=
  match ps with
  | [] => decide T view o i (empty_mode junk1) (empty_mode junk2)
  | [p] => decide_one T view o i (pat_mode junk1 e0 p) (empty_mode junk2)
  | p :: q :: _ => decide T view o i (pat_mode junk1 e0 p) (pat_mode junk2 e1 q)
  end.
(** Undocumented registers are refused by the operand parser. *)
Definition parsable (o : mopts) (p : pat) : bool :=
  match p with Reg (IXH | IXL | IYH | IYL) => IS_Z80 o && o_undocumented o | _ => true end.
Definition instruction_of (s : string) : option (instruction handler) :=
  match assoc s g_tokens with
  | TId id => let id := translateToken id in
      if (T_Z80_ADC <=? id) && (id <=? T_Z80_XOR) then nth_error g_instructions (Z.to_nat (id - T_Z80_ADC)) else None
  | _ => None
  end.

(** The calls store the cells. *)
Definition xe (i : nat) (x : xexpr nat) : bool := match x with XExpr j => Nat.eqb i j | _ => false end.
Definition is_checked (n : nat) (lo hi : Z) (a : act nat) (i : nat) : bool :=
  match a with AChecked n' lo' hi' x => Nat.eqb n n' && (lo =? lo') && (hi =? hi') && xe i x | _ => false end.
Definition BIT_OPS : list Z := map Z.of_nat (flat_map (fun k => seq k 8) [64; 128; 192]%nat).
(** Displacements have been checked when the operand was read. *)
Definition displaced (ps : list pat) (i : nat) : bool := match nth_error ps i with Some (IndexD _) | Some SPd => true | _ => false end.
Definition act_fits (exact : bool) (ps : list pat) (a : act nat) (c : cell) : bool :=
  match c with
  | Byte b => match a with AByte b' => b =? b' | AExpr8 XOne => b =? 1 | _ => false end
  | N i => is_checked 1 (-128) 255 a i
  | U i => is_checked 1 0 255 a i
  | Disp i => match a with AExpr8 x => xe i x && displaced ps i | _ => is_checked 1 (-128) 127 a i || is_checked 1 (-128) 255 a i && negb exact end
  | Next i => match a with AExpr8 (XNext j) => Nat.eqb i j | _ => false end
  | W i => is_checked 2 0 65535 a i
  | WS i => is_checked 2 (-32768) 65535 a i
  | Rel i => match a with APcRel x => xe i x | _ => false end
  | Bit op i => match a with ABitNo op' x => (op =? op') && xe i x && existsb (Z.eqb op) BIT_OPS | _ => false end
  | High i => match a with AImmHi x => xe i x | _ => false end
  end.
(** The check of the displacement of the second half comes first. *)
Definition is_ANext (a : act nat) : bool := match a with ANext _ => true | _ => false end.
Definition drop_next (l : list (act nat)) (cs : list cell) : list (act nat) :=
  match l with
  | ANext (XExpr i) :: r => if existsb (fun c => match c with Next j => Nat.eqb i j | _ => false end) cs then r else l
  | _ => l
  end.
Definition next_first (l : list (act nat)) (cs : list cell) : bool :=
  forallb (fun c => match c with Next i => match l with ANext x :: _ => xe i x && existsb (fun d => match d with Disp j => Nat.eqb i j | _ => false end) cs | _ => false end | _ => true end) cs.
Fixpoint acts_fit (exact : bool) (ps : list pat) (l : list (act nat)) (cs : list cell) : bool :=
  match l, cs with
  | [], [] => true
  | a :: r, c :: q => act_fits exact ps a c && acts_fit exact ps r q
  | _, _ => false
  end.
Definition plan_fits (exact : bool) (ps : list pat) (p : plan nat) (cs : list cell) : bool :=
  snd p && next_first (fst p) cs && acts_fit exact ps (drop_next (fst p) cs) cs.
Definition cond_view (c : cond) (view : nat -> option Z) : nat -> option Z :=
  match c with Value i v => fun j => if Nat.eqb i j then Some v else view j | _ => view end.
Definition row_fits (view : nat -> option Z) (junk1 junk2 : amode nat) (g u s : bool) (r : row) : bool :=
  negb (enabled g u s r) || faulty r || match r_cond r with InHigh _ | NotHigh _ => true | _ => false end ||
  match instruction_of (r_name r) with
  | None => false
  | Some i => forallb (parsable (options_of g u s)) (r_pats r) && (negb (i_modes1 i =? 0) || match r_pats r with [] => true | _ => false end) &&
      plan_fits (negb (adds_sp r)) (r_pats r) (planned (cond_view (r_cond r) view) (options_of g u s) i junk1 junk2 0%nat 1%nat (r_pats r)) (r_code r)
  end.
Definition bools : list (bool * bool * bool) :=
  flat_map (fun g => flat_map (fun u => map (fun s => (g, u, s)) [false; true]) [false; true]) [false; true].
Definition table_fits (view : nat -> option Z) (junk1 junk2 : amode nat) : list row :=
  flat_map (fun b : bool * bool * bool => filter (fun r => negb (row_fits view junk1 junk2 (fst (fst b)) (snd (fst b)) (snd b) r)) table) bools.
Lemma table_all : forall view junk1 junk2, table_fits view junk1 junk2 = [].
Proof. intros. vm_compute. reflexivity. Qed.
Definition plain_cond (c : cond) : bool := match c with InHigh _ | NotHigh _ => false | _ => true end.
Definition tag_mode {T : Type} (m : amode T) : amode nat :=
  AMode (am_mode m) XNull (am_cpu m) (am_D m) (am_SS m) (am_RR m) (am_HL m) (am_F m) (am_Ctrl m).
Lemma empty_map : forall T (f : nat -> T) (junk : amode T), empty_mode junk = mmap nat T f (empty_mode (tag_mode junk)).
Proof. reflexivity. Qed.
Lemma pat_map : forall T (f : nat -> T) (junk : amode T) i p, pat_mode junk (f i) p = mmap nat T f (pat_mode (tag_mode junk) i p).
Proof. intros T f junk i []; try reflexivity. apply mode_map. Qed.
Lemma planned_map : forall T (f : nat -> T) (view : T -> option Z) (tags : nat -> option Z) o i junk1 junk2 ps,
  (forall j, view (f j) = tags j) ->
  planned view o i junk1 junk2 (f 0%nat) (f 1%nat) ps =
  pmap nat T f (planned tags o i (tag_mode junk1) (tag_mode junk2) 0%nat 1%nat ps).
Proof.
  intros T f view tags o i junk1 junk2 ps V. unfold planned.
  destruct ps as [|p [|q ps]]; rewrite ?(empty_map T f), ?(pat_map T f).
  - apply decide_map, V.
  - apply decide_one_map, V.
  - apply decide_map, V.
Qed.
Lemma all_bools : forall g u s, In (g, u, s) bools.
Proof. intros [] [] []; cbn; tauto. Qed.
Lemma none_left : forall (X Y : Type) (f : X -> Y -> bool) (l : list Y) (bs : list X),
  flat_map (fun b => filter (fun r => negb (f b r)) l) bs = [] -> forall b r, In b bs -> In r l -> f b r = true.
Proof.
  intros X Y f l bs H b r Ib Ir. destruct (f b r) eqn:E; [reflexivity|]. exfalso.
  assert (Q : In r (flat_map (fun b => filter (fun r => negb (f b r)) l) bs)); [|rewrite H in Q; exact Q].
  apply in_flat_map. exists b. split; [exact Ib|]. apply filter_In. split; [exact Ir|]. rewrite E. reflexivity.
Qed.
Lemma row_checked : forall view junk1 junk2 g u s r, In r table -> row_fits view junk1 junk2 g u s r = true.
Proof.
  intros view junk1 junk2 g u s r H.
  exact (none_left _ _ (fun b => row_fits view junk1 junk2 (fst (fst b)) (snd (fst b)) (snd b)) table bools
    (table_all view junk1 junk2) (g, u, s) r (all_bools g u s) H).
Qed.

(** The short forms of the Game Boy. *)
Definition tests (view : nat -> option Z) (i : nat) : bool :=
  match view i with Some v => (0xFF00 <=? v) && (v <=? 0xFFFF) | None => false end.
Definition LD : instruction handler := Eval vm_compute in match instruction_of "LD" with Some i => i | None => Instr 0 0 0 0 0 HImplied end.
Lemma ld_from : forall view u s (j1 j2 : amode nat),
  planned view (options_of true u s) LD j1 j2 0%nat 1%nat [Reg A; Mem] =
  (if tests view 1 then [AByte 0xF0; AImmHi (XExpr 1%nat)] else [AByte 0xFA; out16U nat (XExpr 1%nat)], true).
Proof. intros. unfold tests. destruct u, s, (view 1%nat) as [v|] eqn:E; cbv -[Z.leb]; rewrite ?E; reflexivity. Qed.
Lemma ld_to : forall view u s (j1 j2 : amode nat),
  planned view (options_of true u s) LD j1 j2 0%nat 1%nat [Mem; Reg A] =
  (if tests view 0 then [AByte 0xE0; AImmHi (XExpr 0%nat)] else [AByte 0xEA; out16U nat (XExpr 0%nat)], true).
Proof. intros. unfold tests. destruct u, s, (view 0%nat) as [v|] eqn:E; cbv -[Z.leb]; rewrite ?E; reflexivity. Qed.
Lemma high_rows : filter (fun r => negb (plain_cond (r_cond r))) table =
  [Row "LD" [Reg A; Mem] ForGB false false (InHigh 1) [Byte 0xF0; High 1];
   Row "LD" [Mem; Reg A] ForGB false false (InHigh 0) [Byte 0xE0; High 0];
   Row "LD" [Reg A; Mem] ForGB false false (NotHigh 1) [Byte 0xFA; W 1];
   Row "LD" [Mem; Reg A] ForGB false false (NotHigh 0) [Byte 0xEA; W 0]].
Proof. vm_compute. reflexivity. Qed.
Lemma tests_in : forall view i v, view i = Some v -> in_high v -> tests view i = true.
Proof. intros view i v E H. unfold tests. rewrite E. unfold in_high in H. lia. Qed.
Lemma tests_out : forall view i, (forall v, view i = Some v -> ~ in_high v) -> tests view i = false.
Proof. intros view i H. unfold tests. destruct (view i) as [v|]; [|reflexivity]. specialize (H v eq_refl). unfold in_high in H. lia. Qed.
(** Every row of the instruction set that is enabled is encoded. *)
Lemma row_planned : forall view junk1 junk2 g u s r, In r table -> enabled g u s r = true -> faulty r = false ->
  view_meets view (r_cond r) ->
  exists i, instruction_of (r_name r) = Some i /\ forallb (parsable (options_of g u s)) (r_pats r) = true /\
    (i_modes1 i = 0 -> r_pats r = []) /\
    plan_fits (negb (adds_sp r)) (r_pats r) (planned (cond_view (r_cond r) view) (options_of g u s) i junk1 junk2 0%nat 1%nat (r_pats r)) (r_code r) = true.
Proof.
  intros view junk1 junk2 g u s r H En Fa V. destruct (plain_cond (r_cond r)) eqn:Pc.
  - pose proof (row_checked view junk1 junk2 g u s r H) as C. unfold row_fits in C. rewrite En, Fa in C. cbn [negb orb] in C.
    replace (match r_cond r with InHigh _ | NotHigh _ => true | _ => false end) with false in C by (destruct (r_cond r); [reflexivity..|discriminate Pc|discriminate Pc]).
    cbn [orb] in C. destruct (instruction_of (r_name r)) as [i|]; [|discriminate C]. exists i. split; [reflexivity|].
    apply andb_true_iff in C. destruct C as (C & C3). apply andb_true_iff in C. destruct C as (C1 & C2).
    split; [exact C1|]. split; [|exact C3]. intro Z0. rewrite Z0 in C2. destruct (r_pats r); [reflexivity|discriminate C2].
  - assert (In r (filter (fun r => negb (plain_cond (r_cond r))) table)) as I by (apply filter_In; split; [exact H|rewrite Pc; reflexivity]).
    rewrite high_rows in I. exists LD. split; [repeat (destruct I as [<-|I]; [reflexivity|]); destruct I|].
    split; [repeat (destruct I as [<-|I]; [reflexivity|]); destruct I|].
    split; [intro X0; discriminate X0|].
    assert (g = true) as -> by (destruct g; [reflexivity|]; repeat (destruct I as [<-|I]; [discriminate En|]); destruct I).
    repeat (destruct I as [<-|I]; [cbn [r_cond r_pats r_code cond_view view_meets] in *; rewrite ?ld_from, ?ld_to;
      first [destruct V as (v & V1 & V2); rewrite (tests_in _ _ _ V1 V2); reflexivity | rewrite (tests_out _ _ V); reflexivity]|]).
    destruct I.
Qed.
(** Displacements are stored, distances are to addresses as they are, and instructions
    are short. *)
Definition stores_disp (r : row) : bool :=
  forallb (fun i => match nth_error (r_pats r) i with
    | Some (IndexD _) | Some SPd => existsb (fun c => match c with Disp j => Nat.eqb i j | _ => false end) (r_code r)
    | _ => true end) [0; 1]%nat
  && forallb (fun c => match c with Rel i => match nth_error (r_pats r) i with Some Mem => false | _ => true end | _ => true end) (r_code r)
  && (sum (map (fun c => Z.of_nat (cell_width c)) (r_code r)) <=? 8) && (Nat.leb (Datatypes.length (r_pats r)) 2).
Lemma all_disp : forallb stores_disp table = true.
Proof. vm_compute. reflexivity. Qed.
