(** Proofs about the linker's reader of ELF objects: symbols and patches. *)
From Coq Require Import String ZArith List Bool Lia ZifyBool ZifyNat Sorted.
From Verif Require Import Base BaseFacts Arith AssignModel LinkExprModel LinkModel LinkSpec ResolveProofs ObjModel
  MdefModel ElfModel ElfSpec ElfProofs ElfProofs2 ElfReadModel ElfReadSpec ElfReadProofs ElfReadProofs2 ElfReadProofs3.
Import ListNotations.
Open Scope string_scope.
Open Scope list_scope.
Open Scope Z_scope.

(** ** The expression of a relocation *)
Lemma wordl_word : forall v, match wordl v with [a; b; c; d] => word a b c d = u32 v | _ => False end.
Proof. intro v. unfold wordl, word, u32. Z.div_mod_to_equations. lia. Qed.
Lemma relocExpr_placed : forall F c j a rel v, 0 <= j < 2 ^ 32 -> is_s32 a -> c_symbol c j = Ok v -> v_placed v = true -> is_s32 (v_value v + a) ->
  calculateExpressionValue F c (relocExpr rel j a) =
  Ok (Some (Entry None (if rel then s32 (v_value v + a - (c_cpuLocation c + c_offset c)) else v_value v + a))).
Proof.
  intros F c j a rel v J A C P S0. pose proof (wordl_word j) as WJ. pose proof (wordl_word a) as WA. unfold calculateExpressionValue, relocExpr.
  unfold wordl in *. rewrite u32_small in WJ by (unfold is_u32; lia).
  cbn [app calc]. change (31 =? 30) with false. change (31 =? 31) with true. cbn match. rewrite WJ. unfold push_symbol. rewrite C. cbn [bind]. rewrite P.
  change (pushInt (v_value v) []) with (Ok [Entry None (v_value v)] : res stack). cbn [bind]. change (30 =? 30) with true. cbn match. rewrite WA, s32_u32, (s32_id a A).
  change (pushInt a [Entry None (v_value v)]) with (Ok [Entry None a; Entry None (v_value v)] : res stack). cbn [bind].
  change (1 =? 30) with false. change (1 =? 31) with false. change (1 =? 33) with false. cbn match.
  assert (CA : forall x y, is_s32 (x + y) -> c_add x y = Ok (x + y)).
  { intros x y H. unfold c_add, chk. unfold is_s32 in H. destruct ((_ <=? _) && _) eqn:E; [reflexivity|lia]. }
  cbn [LinkExprModel.step]. unfold op_add, popIntPair, popInt. cbn [bind en_symbol en_value]. rewrite (CA _ _ S0). cbn [bind].
  change (pushInt (v_value v + a) []) with (Ok [Entry None (v_value v + a)] : res stack). cbn [bind].
  destruct rel; [|reflexivity]. cbn [calc]. change (30 =? 30) with true. cbn match.
  change (s32 (word 0 0 0 0)) with 0. change (pushInt 0 [Entry None (v_value v + a)]) with (Ok [Entry None 0; Entry None (v_value v + a)] : res stack). cbn [bind calc].
  change (32 =? 30) with false. change (32 =? 31) with false. change (32 =? 33) with false. cbn match. cbn [LinkExprModel.step]. unfold pc_rel, LinkExprModel.combine, popIntPair, popInt.
  cbn [bind noSymbol en_symbol en_value andb]. rewrite (CA (v_value v + a) 0) by (rewrite Z.add_0_r; exact S0). cbn [bind].
  rewrite Z.add_0_r. reflexivity.
Qed.
Lemma relocExpr_symbol : forall F c j a v, 0 <= j < 2 ^ 32 -> is_s32 a -> c_symbol c j = Ok v -> v_placed v = false ->
  calculateExpressionValue F c (relocExpr false j a) = Ok (Some (Entry (Some v) a)).
Proof.
  intros F c j a v J A C P. pose proof (wordl_word j) as WJ. pose proof (wordl_word a) as WA. unfold calculateExpressionValue, relocExpr.
  unfold wordl in *. rewrite u32_small in WJ by (unfold is_u32; lia).
  cbn [app calc]. change (31 =? 30) with false. change (31 =? 31) with true. cbn match. rewrite WJ. unfold push_symbol. rewrite C. cbn [bind]. rewrite P.
  change (push (Entry (Some v) 0) []) with (Ok [Entry (Some v) 0] : res stack). cbn [bind]. change (30 =? 30) with true. cbn match. rewrite WA, s32_u32, (s32_id a A).
  change (pushInt a [Entry (Some v) 0]) with (Ok [Entry None a; Entry (Some v) 0] : res stack). cbn [bind].
  change (1 =? 30) with false. change (1 =? 31) with false. change (1 =? 33) with false. cbn match.
  cbn [LinkExprModel.step]. unfold op_add, popIntPair, popInt. cbn [bind en_symbol en_value].
  assert (CA : c_add 0 a = Ok a).
  { unfold c_add, chk. change (0 + a) with a. unfold is_s32 in A. destruct ((_ <=? _) && _) eqn:E; [reflexivity|lia]. }
  rewrite CA. reflexivity.
Qed.

Lemma firstn_next : forall A (l : list A) n x, nth_error l n = Some x -> firstn (S n) l = firstn n l ++ [x].
Proof.
  induction l as [|a l IH]; intros [|n] x H; cbn in H; try discriminate; [injection H as ->; reflexivity|]. change (firstn (S (S n)) (a :: l)) with (a :: firstn (S n) l). rewrite (IH _ _ H). reflexivity.
Qed.
Lemma Forall2_snoc : forall A B (P : A -> B -> Prop) l m a b, Forall2 P l m -> P a b -> Forall2 P (l ++ [a]) (m ++ [b]).
Proof. intros A B P l m a b F H. apply Forall2_app; [exact F|]. constructor; [exact H|constructor]. Qed.
Lemma filter_le : forall A (g : A -> bool) l, (length (filter g l) <= length l)%nat.
Proof. induction l as [|a l IH]; cbn; [lia|]. destruct (g a); cbn; lia. Qed.

Section Convert.
Variable big : bool.
Variable f : list Z.
Variable o : eobject.
Variable hs : list shdr.
Variable names : Z.
Variable hn : shdr.
Variable symtab : Z.
Variable hsym hstr : shdr.
Variable idx : list Z.
Hypothesis T : told big f o hs names hn symtab hsym hstr idx.
Hypothesis LF : zlen f < 2 ^ 32.
Hypothesis LK : linkable o.
Variable fileId base : Z.
Variable junk : nat -> nat -> Z * Z.
Variable R : list rhdr.
Hypothesis RL : length R = length hs.
Hypothesis RF : forall i h r, nth_error hs i = Some h -> nth_error R i = Some r -> final_header f o hn symtab idx h r.
Local Notation section_of := (section_of big f o hs names hn symtab hsym hstr idx T junk R RL RF).
Local Notation tab := (Z.to_nat symtab).

(** ** Symbols *)
Definition symbols_done (pre : list esymbol) (st : xstate) : Prop :=
  (forall k t, nth_error (eo_sections o) k = Some t -> exists s, nth_error (x_secs st) k = Some s /\
     shell (base + Z.of_nat k) fileId t s /\ sc_patches s = [] /\ Forall2 stands_for_symbol (filter (defined_in k) pre) (sc_symbols s)) /\
  length (x_secs st) = length (eo_sections o) /\
  (forall k i, nth_error idx k = Some i -> x_of st (Z.to_nat i) = Some k) /\
  (forall j y k, nth_error pre j = Some y -> ey_where y = Within k ->
     x_handle st tab (S j) = Some (k, length (filter (defined_in k) (firstn j pre)))).

Lemma bits_of : forall k i, nth_error idx k = Some i -> exists r b, nth_error R (Z.to_nat i) = Some r /\ rh_data r = DBits b /\
  (sh_type (rh_header r) = 1 \/ sh_type (rh_header r) = 8) /\ Z.testbit (sh_flags (rh_header r)) 1 = true.
Proof.
  intros k i K. destruct (section_of _ _ K) as [t [h [r [_ [_ [RI [[_ [[B1 KO] _]] [FH [_ [FD _]]]]]]]]]].
  assert (TY : sh_type h = 1 \/ sh_type h = 8) by (destruct (et_kind t); lia). destruct (FD TY) as [b [DB _]]. exists r, b. rewrite FH. auto.
Qed.
Lemma xlinkSection_ok : forall st k i, nth_error idx k = Some i -> x_of st (Z.to_nat i) = Some k -> xlinkSection R st (Z.to_nat i) = Ok (Some k).
Proof. intros st k i K X. destruct (bits_of _ _ K) as [r [b [RI [DB _]]]]. unfold xlinkSection. rewrite RI, DB, X. reflexivity. Qed.

Lemma symbol_added : forall n y x k type st, nth_error (eo_symbols o) n = Some y -> final_symbol idx y x -> ey_where y = Within k ->
  symbols_done (firstn n (eo_symbols o)) st -> type = (if ey_global y then SYM_EXPORT else SYM_LOCALEXPORT) ->
  exists st', (let! (st1, hd) := addElfSymbol junk k x type false st in Ok (set_handle tab (S n) hd st1)) = Ok st' /\ symbols_done (firstn (S n) (eo_symbols o)) st'.
Proof.
  intros n y x k type st Y [FN [FI [FV [FT FW]]]] W [DS [DL [DO DH]]] TY. rewrite W in FW. destruct FW as [i [KI _]].
  destruct (section_of _ _ KI) as [t [_ [_ [KT _]]]]. destruct (DS _ _ KT) as [s [SK [SH [SP SF]]]].
  pose proof (lk_symbols _ LK) as LS. rewrite Forall_forall in LS. destruct (LS _ (nth_error_In _ _ Y)) as [NL _].
  unfold addElfSymbol. rewrite SK, FN. destruct (255 <=? zlen (ey_name y)) eqn:E; [lia|]. cbn [bind]. eexists. split; [reflexivity|].
  unfold set_handle. cbn [x_secs x_of x_handle]. rewrite (firstn_next _ _ _ _ Y).
  split; [|split; [|split]]; cbn [x_secs x_of x_handle].
  - intros k' t' KT'. destruct (Nat.eq_dec k' k) as [->|D].
    + assert (t' = t) by congruence. subst t'. rewrite (nth_set_nth _ _ _ _ _ SK). eexists. split; [reflexivity|]. split; [apply shell_symbols; exact SH|]. split; [exact SP|].
      unfold set_symbols. cbn [sc_symbols]. rewrite filter_app. cbn [filter]. unfold defined_in at 2. rewrite W, Nat.eqb_refl. apply Forall2_snoc; [exact SF|].
      unfold stands_for_symbol. cbn [ls_name ls_value ls_resolved ls_type]. rewrite FV, s32_u32. auto.
    + rewrite nth_set_nth_other by auto. destruct (DS _ _ KT') as [s' [SK' [SH' [SP' SF']]]]. exists s'. repeat (split; [assumption|]).
      rewrite filter_app. cbn [filter]. unfold defined_in at 2. rewrite W. destruct (Nat.eqb k k') eqn:Q; [lia|]. rewrite app_nil_r. exact SF'.
  - rewrite set_nth_length. exact DL.
  - exact DO.
  - intros j y' k' J W'. unfold upd2. rewrite Nat.eqb_refl. cbn [andb].
    assert (LN : length (firstn n (eo_symbols o)) = n) by (rewrite firstn_length; assert (n < length (eo_symbols o))%nat by (apply nth_error_Some; congruence); lia).
    destruct (Nat.eqb (S j) (S n)) eqn:Q.
    + assert (j = n) by lia. subst j. rewrite nth_error_app2 in J by lia. rewrite LN, Nat.sub_diag in J. injection J as <-. assert (k' = k) by congruence. subst k'.
      rewrite firstn_app, LN, Nat.sub_diag. cbn [firstn]. rewrite app_nil_r, firstn_all2 by lia. f_equal. f_equal. symmetry. apply (Forall2_len _ _ _ _ _ SF).
    + destruct (Nat.lt_ge_cases j n) as [L|G].
      * rewrite nth_error_app1 in J by lia. rewrite firstn_app. replace (j - length (firstn n (eo_symbols o)))%nat with 0%nat by lia. cbn [firstn]. rewrite app_nil_r.
        apply DH with (1 := J) (2 := W').
      * assert (j < length (firstn n (eo_symbols o) ++ [y]))%nat by (apply nth_error_Some; congruence). rewrite app_length in H. cbn in H. lia.
Qed.
Lemma symbol_skipped : forall n y st, nth_error (eo_symbols o) n = Some y -> (forall k, ey_where y <> Within k) ->
  symbols_done (firstn n (eo_symbols o)) st -> symbols_done (firstn (S n) (eo_symbols o)) st.
Proof.
  intros n y st Y W [DS [DL [DO DH]]]. rewrite (firstn_next _ _ _ _ Y). split; [|split; [exact DL|split; [exact DO|]]].
  - intros k t KT. destruct (DS _ _ KT) as [s [SK [SH [SP SF]]]]. exists s. repeat (split; [assumption|]). rewrite filter_app. cbn [filter].
    unfold defined_in at 2. destruct (ey_where y) as [| |k'] eqn:E; [rewrite app_nil_r; exact SF|rewrite app_nil_r; exact SF|]. exfalso. apply (W k'). reflexivity.
  - intros j y' k' J W'.
    assert (LN : length (firstn n (eo_symbols o)) = n) by (rewrite firstn_length; assert (n < length (eo_symbols o))%nat by (apply nth_error_Some; congruence); lia).
    destruct (Nat.lt_ge_cases j n) as [L|G].
    + rewrite nth_error_app1 in J by lia. rewrite firstn_app. replace (j - length (firstn n (eo_symbols o)))%nat with 0%nat by lia. cbn [firstn]. rewrite app_nil_r.
      apply DH with (1 := J) (2 := W').
    + rewrite nth_error_app2 in J by lia. destruct (j - length (firstn n (eo_symbols o)))%nat as [|q]; [injection J as <-; exfalso; apply (W _ W')|destruct q; discriminate].
Qed.
Lemma symbolToXlink_ok : forall n y x st, nth_error (eo_symbols o) n = Some y -> final_symbol idx y x -> symbols_done (firstn n (eo_symbols o)) st ->
  exists st', symbolToXlink junk R tab (sh_info hsym) (S n, x) st = Ok st' /\ symbols_done (firstn (S n) (eo_symbols o)) st'.
Proof.
  intros n y x st Y FS D. destruct (td_info _ _ _ _ _ _ _ _ _ _ T) as [_ GL]. pose proof (GL _ _ Y) as G.
  pose proof (lk_symbols _ LK) as LS. rewrite Forall_forall in LS. destruct (LS _ (nth_error_In _ _ Y)) as [_ [LG LL]].
  pose proof FS as [_ [FI [_ [FT FW]]]]. pose proof D as [_ [_ [DO _]]].
  unfold symbolToXlink. change (Nat.eqb (S n) 0) with false. cbn match. destruct (Z.of_nat (S n) <? sh_info hsym) eqn:B.
  - assert (GF : ey_global y = false) by (rewrite G; lia). unfold localToXlink.
    destruct (ey_where y) as [| |k] eqn:W.
    + exfalso. apply (LL GF). reflexivity.
    + destruct FW as [_ ->]. eexists. split; [reflexivity|]. apply (symbol_skipped _ _ _ Y); [congruence|exact D].
    + destruct FW as [i [KI [_ ->]]]. rewrite (xlinkSection_ok _ _ _ KI (DO _ _ KI)). cbn [bind]. destruct (rs_nameindex x =? 0) eqn:Q; [lia|]. cbn [andb].
      destruct (rs_type x =? STT_SECTION) eqn:Q'; [lia|]. apply (symbol_added n y x k SYM_LOCALEXPORT st Y FS W D). rewrite GF. reflexivity.
  - assert (GF : ey_global y = true) by (rewrite G; lia). unfold globalToXlink. destruct (rs_nameindex x =? 0) eqn:Q; [lia|].
    destruct (ey_where y) as [| |k] eqn:W.
    + destruct FW as [-> _]. eexists. split; [reflexivity|]. apply (symbol_skipped _ _ _ Y); [congruence|exact D].
    + exfalso. apply (LG GF). reflexivity.
    + destruct FW as [i [KI [-> ->]]]. destruct (td_idx _ _ _ _ _ _ _ _ _ _ T) as [_ [_ IR]]. rewrite Forall_forall in IR. pose proof (IR _ (nth_error_In _ _ KI)) as IB.
      destruct (i =? SHN_UNDEF) eqn:U; [unfold SHN_UNDEF in U; lia|]. rewrite (xlinkSection_ok _ _ _ KI (DO _ _ KI)). cbn [bind].
      apply (symbol_added n y x k SYM_EXPORT st Y FS W D). rewrite GF. reflexivity.
Qed.
Lemma symbols_ok : forall st, made o idx fileId base (length (eo_sections o)) st ->
  exists st', foldr (symbolsToXlink junk R) (numbered R) st = Ok st' /\ symbols_done (eo_symbols o) st'.
Proof.
  intros st [ML [MS [MO MH]]]. destruct (td_idx _ _ _ _ _ _ _ _ _ _ T) as [IL _].
  assert (D0 : symbols_done [] st).
  { split; [|split; [exact ML|split]].
    - intros k t KT. destruct (MS k t) as [s [SK [SH [SY SP]]]]; [apply nth_error_Some; congruence|exact KT|]. exists s. rewrite SY. cbn [filter]. auto.
    - intros k i K. apply MO; [|exact K]. rewrite <- IL. apply nth_error_Some. congruence.
    - intros [|j] y k J; discriminate. }
  destruct (td_symtab _ _ _ _ _ _ _ _ _ _ T) as [ST1 [ST2 [ST3 _]]]. destruct (td_info _ _ _ _ _ _ _ _ _ _ T) as [IN _].
  assert (TR : (tab < length R)%nat) by (rewrite RL; apply nth_error_Some; congruence).
  destruct (foldr_inv _ _ (symbolsToXlink junk R) (fun m st' => if (m <=? tab)%nat then st' = st else symbols_done (eo_symbols o) st') (numbered R) st) as [st' [E P]].
  - reflexivity.
  - intros m [i r] st' N P. apply numbered_nth in N. destruct N as [-> N]. destruct (both _ _ _ _ _ hsym _ junk _ RL RF _ _ N) as [HH [_ [_ [FD1 [FD2 [FD4 FD0]]]]]].
    unfold symbolsToXlink. destruct (Nat.eq_dec m tab) as [->|D].
    + assert (TY : rh_header r = hsym) by congruence. rewrite TY in *. destruct (FD2 ST3) as [ys [-> [LY YS]]].
      rewrite Nat.leb_refl in P. subst st'.
      destruct ((zlen ys <? sh_info hsym) && (1 <? sh_info hsym)) eqn:Q; [unfold zlen in *; lia|].
      destruct (Nat.leb (S tab) tab) eqn:L; [lia|].
      destruct (foldr_inv _ _ (symbolToXlink junk R tab (sh_info hsym)) (fun n st' => symbols_done (firstn (n - 1) (eo_symbols o)) st') (numbered ys) st) as [st2 [E2 P2]].
      * exact D0.
      * intros [|n] [j x] st' N' P'; apply numbered_nth in N'; destruct N' as [-> N'].
        -- unfold symbolToXlink. cbn [Nat.eqb]. destruct (Z.of_nat 0 <? sh_info hsym) eqn:B; [|lia]. eexists. split; [reflexivity|exact P'].
        -- destruct (nth_error (eo_symbols o) n) as [y|] eqn:Y.
           ++ replace (S n - 1)%nat with n in P' by lia. replace (S (S n) - 1)%nat with (S n) by lia. apply (symbolToXlink_ok n y x st' Y (YS _ _ _ N' Y) P').
           ++ apply nth_error_None in Y. assert (S n < length ys)%nat by (apply nth_error_Some; congruence). lia.
      * exists st2. split; [exact E2|]. rewrite numbered_length, LY in P2. replace (S (length (eo_symbols o)) - 1)%nat with (length (eo_symbols o)) in P2 by lia.
        rewrite firstn_all in P2. exact P2.
    + assert (NS : match rh_data r with DSymbols _ => False | _ => True end).
      { destruct (Z.eq_dec (sh_type (rh_header r)) 2) as [E2|E2].
        - pose proof (td_one _ _ _ _ _ _ _ _ _ _ T _ _ HH E2). lia.
        - destruct (Z.eq_dec (sh_type (rh_header r)) 1) as [E1|E1]; [destruct FD1 as [b [-> _]]; [auto|exact Logic.I]|].
          destruct (Z.eq_dec (sh_type (rh_header r)) 8) as [E8|E8]; [destruct FD1 as [b [-> _]]; [auto|exact Logic.I]|].
          destruct (Z.eq_dec (sh_type (rh_header r)) 4) as [E4|E4]; [destruct (FD4 E4) as [k [t [rs [_ [_ [-> _]]]]]]; exact Logic.I|].
          specialize (FD0 E1 E8 E2 E4). destruct (rh_data r); auto. }
      exists st'. split; [destruct (rh_data r); try reflexivity; contradiction|].
      destruct (Nat.leb m tab) eqn:L1; destruct (Nat.leb (S m) tab) eqn:L2; try lia; exact P.
  - rewrite numbered_length in P. destruct (Nat.leb (length R) tab) eqn:L; [lia|]. exists st'. auto.
Qed.
End Convert.
