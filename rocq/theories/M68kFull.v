(** Proofs about the 680x0 instruction parser: full extension words. *)
From Coq Require Import String ZArith List Bool Lia ZifyBool.
From Verif Require Import Base BaseFacts Arith ArithProofs ExprSpec ExprModel ExprLayout ExprTree ExprProofs ObjWriteModel OptModel
  SectModel SectSpec SectProofs InstrSpec InstrProofs.
From Verif Require X65Proofs X65Run Z80Run M6809Proofs.
From Verif Require Import X65Spec M68kModel M68kSpec M68kProofs M68kEa.
Import ListNotations.
Open Scope string_scope.
Open Scope list_scope.
Open Scope Z_scope.

(** The cells are a number or depend on one of [args]. *)
Definition src (args : list arg) (t : term) : Prop := exists a, In a args /\ (t = g_term a \/ exists z, t = PcRel z (g_term a)).
Lemma stored_app : forall args a b, stored_from args a -> stored_from args b -> stored_from args (a ++ b).
Proof. intros args a b. unfold stored_from. rewrite Forall_app. tauto. Qed.
Lemma stored_num : forall args n v, (n = 2 \/ n = 4)%nat -> stored_from args [(n, Num v, v)].
Proof. intros args n v H. constructor; [|constructor]. split; [exact H|]. left. reflexivity. Qed.
Lemma stored_src : forall args n t v, (n = 2 \/ n = 4)%nat -> src args t -> stored_from args [(n, t, v)].
Proof. intros args n t v H Sr. constructor; [|constructor]. split; [exact H|]. right. exact Sr. Qed.
Lemma stored_more : forall a b l, stored_from a l -> (forall x, In x a -> In x b) -> stored_from b l.
Proof.
  intros a b l H I. eapply Forall_impl; [|exact H]. intros [[n t] v] (N & X). split; [exact N|].
  destruct X as [X|(y & Y & Z0)]; [left; exact X|right; exists y; split; [apply I, Y|exact Z0]].
Qed.

(** ** Displacements *)
(** The displacement in [r] is [d]. *)
Definition dnow (fl : bool) (S : setting) (e : expr) (t : term) (d : Z) : Prop :=
  forall m1, setting_ok S (here m1) -> (fl = true -> floating (here m1)) -> now 250 S (here m1) t e d.
Definition dis (fl : bool) (S : setting) (args : list arg) (r : regs) (t : term) (d : Z) : Prop :=
  r_disp r = ENull /\ d = 0 \/ dnow fl S (r_disp r) t d /\ In (r_dsize r) [0; 2; 4] /\ (r_dsize r = 2 -> s16 d) /\ src args t /\ isNull (r_disp r) = false.
Definition dcode (r : regs) : Z :=
  if isNull (r_disp r) then 1 else if r_dsize (m68k_OptimizeDisplacement r) =? SIZE_WORD then 2 else 3.
Lemma dcode_range : forall r, 1 <= dcode r <= 3.
Proof. intro r. unfold dcode. destruct (isNull (r_disp r)); [lia|]. destruct (r_dsize _ =? _); lia. Qed.
Lemma opt_disp : forall r, r_disp (m68k_OptimizeDisplacement r) = r_disp r.
Proof.
  intro r. unfold m68k_OptimizeDisplacement. destruct (_ && _); [|reflexivity]. destruct (_ && _ && _); reflexivity.
Qed.
Lemma opt_size : forall r, isNull (r_disp r) = false -> In (r_dsize r) [0; 2; 4] ->
  r_dsize (m68k_OptimizeDisplacement r) = 2 \/ r_dsize (m68k_OptimizeDisplacement r) = 4.
Proof.
  intros r Nu H. unfold m68k_OptimizeDisplacement. rewrite Nu. cbn [negb andb].
  destruct (r_dsize r =? SIZE_DEFAULT) eqn:D.
  - destruct (_ && _ && _); [left|right]; reflexivity.
  - unfold SIZE_DEFAULT in D. cbn [In] in H. lia.
Qed.
Lemma dcode_bits : forall fl S args r t d, dis fl S args r t d -> bd_bits (m68k_OptimizeDisplacement r) = Some (16 * dcode r) /\
  forall first, od_bits first (m68k_OptimizeDisplacement r) = Some (first + dcode r - 1).
Proof.
  intros fl S args r t d H. unfold bd_bits, od_bits, dcode. rewrite opt_disp.
  destruct H as [(-> & _)|(_ & Z0 & _ & _ & Nu)].
  - cbn [isNull]. split; [reflexivity|]. intro. f_equal. lia.
  - rewrite Nu. destruct (opt_size r Nu Z0) as [-> | ->]; cbn [Z.eqb Pos.eqb SIZE_WORD SIZE_LONG]; (split; [reflexivity|]; intro; f_equal; lia).
Qed.
Lemma disp_done : forall fl S k st m room args r t d, dis fl S args r t d -> good fl S k st m (4 + room) -> 0 <= room ->
  exists st1 m1 cells, output_disp (m68k_OptimizeDisplacement r) st = Ok st1 /\ sent fl S k st cells st1 m1 room /\
    stored_from args cells /\ width cells <= 4 /\
    forall rest, exists d', displacement (dcode r) (words cells ++ rest) = Some (d', rest) /\ d' mod 2 ^ 32 = d mod 2 ^ 32.
Proof.
  intros fl S k st m room args r t d H G Ro. unfold output_disp, dcode. rewrite opt_disp.
  destruct H as [(-> & ->)|(D & Z0 & F & Sr & Nu)].
  - cbn [isNull]. exists st, m, []. split; [reflexivity|]. split; [apply sent_nil; apply (good_less _ _ _ _ _ _ _ G); lia|].
    split; [constructor|]. split; [discriminate|]. intro rest. exists 0. split; reflexivity.
  - rewrite Nu. pose proof G as (SO & R & Fl). specialize (D m SO Fl). destruct (now_facts _ _ _ _ _ _ SO D) as (_ & Co & Sd).
    assert (Fit : r_dsize (m68k_OptimizeDisplacement r) = 2 -> s16 d).
    { unfold m68k_OptimizeDisplacement. rewrite Nu. cbn [negb andb]. destruct (r_dsize r =? SIZE_DEFAULT) eqn:Ds.
      - destruct (expr_IsConstant (r_disp r) && _ && _) eqn:Sm; [|discriminate]. intros _. apply andb_prop in Sm. destruct Sm as (Sm & S2).
        apply andb_prop in Sm. destruct Sm as (S0 & S1). rewrite (Co S0) in S1, S2. unfold s16. lia.
      - exact F. }
    destruct (opt_size r Nu Z0) as [E|E]; rewrite E; cbn [Z.eqb Pos.eqb SIZE_WORD SIZE_LONG].
    + destruct (good_expr16 fl S k st m 250 t (r_disp r) d (2 + room)) as (st1 & m1 & E1 & Em & G1);
        [rewrite Z.add_assoc; exact G|lia|exact D|lia|].
      exists st1, m1, [(2%nat, t, d)]. split; [exact E1|]. split; [apply sent_one; [exact Em|apply (good_less _ _ _ _ _ _ _ G1); lia]|].
      split; [apply stored_src; [left; reflexivity|exact Sr]|]. split; [discriminate|]. intro rest. cbn [words Nat.eqb app displacement].
      exists (signed 16 (word d)). rewrite signed_16 by (apply Fit, E). split; reflexivity.
    + destruct (good_expr32 fl S k st m 250 t (r_disp r) d room) as (st1 & m1 & E1 & Em & G1); [exact G|lia|exact D|lia|].
      exists st1, m1, [(4%nat, t, d)]. split; [exact E1|]. split; [apply sent_one; assumption|].
      split; [apply stored_src; [right; reflexivity|exact Sr]|]. split; [discriminate|]. intro rest. cbn [words Nat.eqb app displacement].
      eexists. split; [reflexivity|]. rewrite two_words. apply Z.mod_mod. lia.
Qed.

(** ** The word *)
Definition upto (n : nat) : list Z := map Z.of_nat (seq 0 n).
Lemma in_upto : forall n z, 0 <= z < Z.of_nat n -> In z (upto n).
Proof. intros n z H. unfold upto. rewrite <- (Z2Nat.id z) by lia. apply in_map. apply in_seq. lia. Qed.
Definition full (nobase noindex : bool) (i isize c b o : Z) : Z :=
  (if noindex then 64 else i * 4096 + lcode isize * 2048) + c * 512 + 256 + (if nobase then 128 else 0) + 16 * b + o.
Definition word_check (nobase noindex : bool) (i isize c b o : Z) : bool :=
  let ins := orl [0x0100; (if nobase then 0x0080 else 0); (if noindex then 0x0040 else Z.lor (i * 4096) (if isize =? SIZE_LONG then 0x0800 else 0)); 16 * b; o] in
  let w := Z.lor ins (c * 512) in
  (w =? full nobase noindex i isize c b o) && (0 <=? ins) && (ins <? 65536).
Lemma word_checked : forallb (fun nb => forallb (fun nx => forallb (fun i => forallb (fun z => forallb (fun c => forallb (fun b => forallb (fun o =>
  word_check nb nx i z c b o) [0; 1; 2; 3; 5; 6; 7]) [1; 2; 3]) [0; 1; 2; 3]) [2; 4]) (upto 16)) [true; false]) [true; false] = true.
Proof. vm_compute. reflexivity. Qed.
Lemma full_or : forall (nobase noindex : bool) i isize c b o, 0 <= i <= 15 -> 0 <= c <= 3 -> 1 <= b <= 3 -> In o [0; 1; 2; 3; 5; 6; 7] ->
  let ins := orl [0x0100; (if nobase then 0x0080 else 0); (if noindex then 0x0040 else Z.lor (i * 4096) (if isize =? SIZE_LONG then 0x0800 else 0)); 16 * b; o] in
  Z.lor ins (c * 512) = full nobase noindex i isize c b o /\ 0 <= ins < 65536.
Proof.
  intros nobase noindex i isize c b o I C B O ins.
  assert (X : word_check nobase noindex i (if isize =? SIZE_LONG then 4 else 2) c b o = true).
  { pose proof word_checked as W. rewrite forallb_forall in W. specialize (W nobase ltac:(destruct nobase; cbn; tauto)).
    rewrite forallb_forall in W. specialize (W noindex ltac:(destruct noindex; cbn; tauto)).
    rewrite forallb_forall in W. specialize (W i ltac:(apply in_upto; lia)).
    rewrite forallb_forall in W. specialize (W (if isize =? SIZE_LONG then 4 else 2) ltac:(destruct (isize =? SIZE_LONG); cbn; tauto)).
    rewrite forallb_forall in W. assert (Hc : In c [0; 1; 2; 3]) by (cbn [In]; lia). specialize (W c Hc).
    rewrite forallb_forall in W. assert (Hb : In b [1; 2; 3]) by (cbn [In]; lia). specialize (W b Hb).
    rewrite forallb_forall in W. exact (W o O). }
  unfold word_check in X. replace ((if isize =? SIZE_LONG then 4 else 2) =? SIZE_LONG) with (isize =? SIZE_LONG) in X
    by (destruct (isize =? SIZE_LONG); reflexivity).
  fold ins in X. apply andb_prop in X. destruct X as (X & X3). apply andb_prop in X. destruct X as (X1 & X2).
  split; [|lia]. apply Z.eqb_eq in X1. rewrite X1. unfold full, lcode. destruct (isize =? SIZE_LONG); reflexivity.
Qed.
Lemma full_fields : forall (nobase noindex : bool) i isize c b o, 0 <= i <= 15 -> 0 <= c <= 3 -> 1 <= b <= 3 -> 0 <= o <= 7 ->
  let w := full nobase noindex i isize c b o in
  0 <= w < 65536 /\ bit 8 w = true /\ bit 7 w = nobase /\ bit 6 w = noindex /\ bit 3 w = false /\ (w / 16) mod 4 = b /\ w mod 8 = o /\
  (noindex = false -> forall mc, index_of mc w = index_at mc i isize c).
Proof.
  intros nobase noindex i isize c b o I C B O w.
  assert (L : 0 <= lcode isize <= 1) by (unfold lcode; destruct (isize =? SIZE_LONG); lia).
  assert (Hw : exists h n x, w = h * 512 + 256 + n * 128 + x * 64 + 16 * b + o /\ 0 <= h < 128 /\ n = (if nobase then 1 else 0) /\ x = (if noindex then 1 else 0)).
  { exists ((if noindex then 0 else i * 8 + lcode isize * 4) + c), (if nobase then 1 else 0), (if noindex then 1 else 0).
    unfold w, full. destruct nobase, noindex; repeat split; lia. }
  destruct Hw as (h & n & x & Ew & Hh & Hn & Hx).
  assert (Rn : 0 <= n <= 1 /\ nobase = (n =? 1)) by (rewrite Hn; destruct nobase; split; (lia || reflexivity)).
  assert (Rx : 0 <= x <= 1 /\ noindex = (x =? 1)) by (rewrite Hx; destruct noindex; split; (lia || reflexivity)).
  destruct Rn as (Rn & En), Rx as (Rx & Ex). rewrite En, Ex at 1.
  split; [lia|]. unfold bit. rewrite !odd_div. change (2 ^ 8) with 256. change (2 ^ 7) with 128. change (2 ^ 6) with 64. change (2 ^ 3) with 8.
  assert (W256 : w / 256 = 2 * h + 1) by (rewrite Ew; clear - Rn Rx B O; Z.div_mod_to_equations; lia).
  assert (W128 : w / 128 = 4 * h + 2 + n) by (rewrite Ew; clear - Rn Rx B O; Z.div_mod_to_equations; lia).
  assert (W64 : w / 64 = 8 * h + 4 + 2 * n + x) by (rewrite Ew; clear - Rn Rx B O; Z.div_mod_to_equations; lia).
  assert (W16 : w / 16 = 32 * h + 16 + 8 * n + 4 * x + b) by (rewrite Ew; clear - Rn Rx B O; Z.div_mod_to_equations; lia).
  assert (W8 : w / 8 = 2 * (32 * h + 16 + 8 * n + 4 * x + b)) by (rewrite Ew; clear - Rn Rx B O; Z.div_mod_to_equations; lia).
  rewrite W256, W128, W64, W16, W8.
  split; [Z.div_mod_to_equations; lia|]. split; [Z.div_mod_to_equations; lia|]. split; [rewrite ?Ex; clear - Rx; Z.div_mod_to_equations; lia|].
  split; [Z.div_mod_to_equations; lia|]. split; [Z.div_mod_to_equations; lia|]. split; [rewrite Ew; clear - O; Z.div_mod_to_equations; lia|].
  intros Nx mc. apply (index_read mc w i isize c (256 + n * 128 + 16 * b + o)); try lia.
  unfold w, full. rewrite Nx, Hn. destruct nobase; lia.
Qed.

(** ** Full format *)
Definition is_none (r : Z) : bool := r =? REG_NONE.
(** The address that a full extension word gives, from the contents [b] of the base
    register; [od] is None without indirection, and otherwise tells whether the index is
    added after it. *)
Definition full_address (mc : machine) (b : Z) (base index isize c d1 : Z) (od : option (bool * Z)) : Z :=
  let B := if is_none base then 0 else b in
  let X := if is_none index then 0 else index_at mc index isize c in
  match od with
  | None => addr (B + X + d1)
  | Some (false, d2) => addr (long_at mc (addr (B + X + d1)) + d2)
  | Some (true, d2) => addr (long_at mc (addr (B + d1)) + X + d2)
  end.
Definition od_is (fl : bool) (S : setting) (args : list arg) (index : Z) (od : option (Z * regs)) (o : option (bool * Z)) : Prop :=
  match od, o with
  | None, None => True
  | Some (f, r), Some (p, d2) => f = (if p then 5 else 1) /\ (p = true -> is_none index = false) /\ exists t2, forall q, dis fl (moved q S) args r t2 d2
  | _, _ => False
  end.
Lemma congruent : forall a b b', b' mod 2 ^ 32 = b mod 2 ^ 32 -> addr (a + b') = addr (a + b).
Proof. intros a b b' H. unfold addr. rewrite <- (Z.add_mod_idemp_r a b'), H, Z.add_mod_idemp_r by lia. reflexivity. Qed.
Lemma out_full : forall fl S k st m room args base index isize sc c bd t1 d1 od o,
  good fl S k st m (10 + room) -> 0 <= room -> (is_none index = false -> 0 <= index <= 15) -> In (sc, c) scales ->
  dis fl (moved 2 S) args bd t1 d1 -> od_is fl S args index od o ->
  exists st1 m1 cells, full_word (s_F S) base index isize sc bd od st = Ok (true, st1) /\ sent fl S k st cells st1 m1 room /\
    stored_from args cells /\ width cells <= 10 /\
    forall mc b rest, exists w ws, words cells ++ rest = w :: ws /\
      extended true mc b w ws = Some (full_address mc b base index isize c d1 o, rest).
Proof.
  intros fl S k st m room args base index isize sc c bd t1 d1 od o G Ro I Sc Bd Od.
  assert (C : 0 <= c <= 3) by (destruct (scale_facts _ _ Sc) as [(_ & ->)|(_ & _ & _ & R)]; lia).
  set (i := if is_none index then 0 else index).
  assert (Hi : 0 <= i <= 15) by (unfold i; destruct (is_none index); [lia|apply I; reflexivity]).
  destruct (dcode_bits _ _ _ _ _ _ Bd) as (Bb & _). pose proof (dcode_range bd) as Rb.
  set (ocode := match od with None => 0 | Some (f, r) => f + dcode r - 1 end).
  assert (Ho : In ocode [0; 1; 2; 3; 5; 6; 7] /\
               match option_map (fun p => (fst p, m68k_OptimizeDisplacement (snd p))) od with None => Some 0 | Some (first, r) => od_bits first r end = Some ocode).
  { unfold ocode. destruct od as [(f, r)|]; [|split; [left; reflexivity|reflexivity]].
    destruct o as [(p, d2)|]; [|destruct Od]. destruct Od as (-> & _ & t2 & D2).
    cbn [option_map fst snd]. destruct (dcode_bits _ _ _ _ _ _ (D2 0)) as (_ & ->). pose proof (dcode_range r) as Rr.
    split; [cbn [In]; destruct p; lia|reflexivity]. }
  destruct Ho as (Io & Eo).
  destruct (full_or (base =? REG_NONE) (index =? REG_NONE) i isize c (dcode bd) ocode Hi C Rb Io) as (Ew & Ri).
  assert (Ro7 : 0 <= ocode <= 7) by (cbn [In] in Io; lia).
  destruct (full_fields (base =? REG_NONE) (index =? REG_NONE) i isize c (dcode bd) ocode Hi C Rb Ro7)
    as (F0 & F8 & F7 & F6 & F3 & F45 & F02 & Fx).
  set (w := full (base =? REG_NONE) (index =? REG_NONE) i isize c (dcode bd) ocode) in *.
  unfold full_word. rewrite Bb, Eo.
  assert (Ib : index_bits index isize = if index =? REG_NONE then 0x0040 else Z.lor (i * 4096) (if isize =? SIZE_LONG then 0x0800 else 0)).
  { unfold index_bits, i, is_none. destruct (index =? REG_NONE); reflexivity. }
  rewrite Ib. set (ins := orl _) in *.
  destruct (or_scale_number (s_F S) sc c (expr_Const ins) ins Sc eq_refl eq_refl) as (g & -> & Gc & Gv); [num|].
  rewrite Ew in Gv. cbn [bind]. clear Ib Eo Bb.
  destruct (good_number16 fl S k st m (Num w) g (8 + room)) as (st1 & m1 & -> & Em & G1);
    [replace (2 + (8 + room)) with (10 + room) by lia; exact G|lia|exact Gc|]. rewrite Gv in Em.
  cbn [bind]. pose proof (sent_one _ _ _ _ _ _ _ _ _ _ Em G1) as Se1.
  destruct (disp_done fl (moved 2 S) k st1 m1 (4 + room) args bd t1 d1 Bd) as (st2 & m2 & c1 & -> & Se2 & St1 & W1 & Di1);
    [replace (4 + (4 + room)) with (8 + room) by lia; exact G1|lia|]. cbn [bind].
  assert (X : exists st3 m3 c2,
    match option_map (fun p => (fst p, m68k_OptimizeDisplacement (snd p))) od with None => Ok st2 | Some (_, r) => output_disp r st2 end = Ok st3 /\
    sent fl (moved (width c1) (moved 2 S)) k st2 c2 st3 m3 room /\ stored_from args c2 /\ width c2 <= 4 /\
    forall rest, match od, o with
                 | Some (_, r), Some (_, d2) => exists d', displacement (dcode r) (words c2 ++ rest) = Some (d', rest) /\ d' mod 2 ^ 32 = d2 mod 2 ^ 32
                 | _, _ => c2 = []
                 end).
  { destruct Se2 as (_ & G2). destruct od as [(f, r)|].
    - destruct o as [(p, d2)|]; [|destruct Od]. destruct Od as (_ & _ & t2 & D2). cbn [option_map snd].
      rewrite M6809Proofs.moved_moved in *.
      destruct (disp_done fl (moved (2 + width c1) S) k st2 m2 room args r t2 d2 (D2 _)) as (st3 & m3 & c2 & A & B & D & W & E);
        [exact G2|exact Ro|].
      exists st3, m3, c2. tauto.
    - destruct o; [destruct Od|]. exists st2, m2, []. split; [reflexivity|]. split; [apply sent_nil, (good_less _ _ _ _ _ _ _ G2); lia|].
      split; [constructor|]. split; [discriminate|]. intro. reflexivity. }
  destruct X as (st3 & m3 & c2 & Ex & Se3 & St2 & W2 & Di2). cbn [option_map] in Ex.
  match goal with |- exists _ _ _, bind ?x _ = _ /\ _ => replace x with (@Ok xstate st3) end.
  cbn [bind]. exists st3, m3, ([(2%nat, Num w, w)] ++ c1 ++ c2).
  split; [reflexivity|].
  split; [eapply sent_app; [exact Se1|]; eapply sent_app; [exact Se2|exact Se3]|].
  split; [apply stored_app; [apply stored_num; left; reflexivity|apply stored_app; assumption]|].
  split; [rewrite !width_app; change (width [(2%nat, Num w, w)]) with 2; lia|].
  intros mc b rest. exists w, (words c1 ++ words c2 ++ rest).
  split; [cbn [app words Nat.eqb]; rewrite word_small by exact F0; rewrite words_app, <- app_assoc; reflexivity|].
  unfold extended. rewrite F8, F3, F7, F6, F45, F02. cbn [negb orb].
  destruct (Di1 (words c2 ++ rest)) as (d1' & -> & Cd1).
  assert (Hx : (if index =? REG_NONE then 0 else index_of mc w) = if is_none index then 0 else index_at mc index isize c).
  { unfold is_none in *. destruct (index =? REG_NONE) eqn:En; [reflexivity|]. rewrite Fx by reflexivity. unfold i. reflexivity. }
  rewrite Hx. fold (is_none base). unfold full_address. specialize (Di2 rest).
  destruct od as [(f, r)|]; destruct o as [(p, d2)|]; try (destruct Od; fail).
  - destruct Od as (-> & Hp & _). pose proof (dcode_range r) as Rr. destruct Di2 as (d2' & Di2 & Cd2). unfold ocode. destruct p.
    + replace (5 + dcode r - 1 =? 0) with false by lia. replace (5 + dcode r - 1 <? 4) with false by lia.
      fold (is_none index). rewrite (Hp eq_refl). replace (5 + dcode r - 1 - 4) with (dcode r) by lia. rewrite Di2.
      rewrite (congruent _ _ _ Cd1), (congruent _ _ _ Cd2). reflexivity.
    + replace (1 + dcode r - 1) with (dcode r) by lia. replace (dcode r =? 0) with false by lia. replace (dcode r <? 4) with true by lia.
      rewrite Di2, (congruent _ _ _ Cd1), (congruent _ _ _ Cd2). reflexivity.
  - unfold ocode. cbn [Z.eqb]. rewrite Di2. cbn [words app]. rewrite (congruent _ _ _ Cd1). reflexivity.
Qed.
