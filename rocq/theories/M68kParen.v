(** Proofs about the 680x0 instruction parser: operands in parentheses. *)
From Coq Require Import String ZArith List Bool Lia ZifyBool.
From Verif Require Import Base BaseFacts Arith ArithProofs ExprSpec ExprModel ExprLayout ExprTree ExprProofs ObjWriteModel OptModel
  SectModel SectSpec SectProofs InstrSpec InstrProofs.
From Verif Require X65Proofs X65Run Z80Run M6809Proofs.
From Verif Require Import X65Spec M68kModel M68kSpec M68kProofs M68kEa M68kFull M68kParse M68kModes M68kShapes.
Import ListNotations.
Open Scope string_scope.
Open Scope list_scope.
Open Scope Z_scope.

Lemma dis_arg : forall fl S0 args a r, argh S0 a -> In a args -> afact a -> r_disp r = g_expr a -> In (r_dsize r) [0; 2; 4] ->
  (r_dsize r = 2 -> s16 (g_value a)) -> forall q, dis fl (moved q S0) args r (g_term a) (g_value a).
Proof.
  intros fl S0 args a r H I (N & _) E Z0 F q. right. rewrite E. split.
  - intros m1 _ _. pose proof (argh_now _ (here m1) a (argh_moved _ q _ H)) as (T & O & D & R). exists T. split; [exact O|]. split; [lia|exact R].
  - split; [exact Z0|]. split; [exact F|]. split; [apply src_arg, I|exact N].
Qed.
Lemma dis_null : forall fl S0 args r t, r_disp r = ENull -> dis fl S0 args r t 0.
Proof. intros. left. tauto. Qed.
Lemma pcrel_floating : forall F cur e adj, floating cur -> isNull e = false ->
  expr_PcRelative F cur e adj = Ok (ENode TPcRelative false OpNone 0 0 (expr_Const adj) e).
Proof.
  intros F [c|] e adj Fl N; unfold expr_PcRelative; rewrite N; [|reflexivity]. destruct Fl as (-> & ->). reflexivity.
Qed.
Lemma dis_pc : forall S0 args a r q k st m room, argh S0 a -> In a args -> afact a -> r_disp r = g_expr a -> In (r_dsize r) [0; 2; 4] ->
  reached (e_pc (s_env S0)) (g_value a) (if r_dsize r =? 2 then s16 else fun _ => True) -> 0 <= e_pc (s_env S0) < 2 ^ 31 - 128 ->
  offset_ok true q -> good true (moved q S0) k st m room ->
  exists r', pc_relative (s_F S0) 2 r st = Ok r' /\ dis true (moved 2 (moved q S0)) args r' (PcRel 2 (g_term a)) (g_value a - (e_pc (s_env S0) + q)).
Proof.
  intros S0 args a r q k st m room H I (N & _) E Z0 (V & R) P Q G. destruct (in_q q Q) as (Iq & Q2). specialize (R q Iq).
  unfold pc_relative. rewrite E, N, (good_current _ _ _ _ _ _ G). pose proof G as (_ & _ & Fl). specialize (Fl eq_refl).
  rewrite (pcrel_floating _ _ _ _ Fl N). cbn [bind]. eexists. split; [reflexivity|]. right. unfold set_disp. cbn [r_disp r_dsize].
  split.
  - intros m1 SO1 Fl1. destruct (now_pcrel (moved 2 (moved q S0)) (here m1) 2 a SO1) as (e1 & E1 & T & O & D & W & K).
    + apply argh_moved, argh_moved, H. + left. exact V. + lia. + rewrite !pc_moved. lia.
    + rewrite (pcrel_floating _ _ _ _ (Fl1 eq_refl) N) in E1. injection E1 as <-. rewrite !pc_moved in O.
      replace (g_value a + 2 - (e_pc (s_env S0) + q + 2)) with (g_value a - (e_pc (s_env S0) + q)) in O by lia.
      exists T. split; [exact O|]. split; [lia|]. tauto.
  - split; [exact Z0|]. split; [|split; [apply src_pc, I|reflexivity]]. intro X. rewrite X in R. exact R.
Qed.
Definition base_reg (b : option base) : Z := match b with Some (BaseA n) => n | _ => 0 end.
Definition dval (b : option base) (d : option disp) : Z := if vanishes b d then 0 else disp_value d.
Lemma dval_value : forall b d, dval b d = disp_value d.
Proof.
  intros b d. unfold dval, vanishes, disp_value. destruct d as [(a, s)|]; [|reflexivity].
  destruct (negb (is_pc b) && known_now a && (g_value a =? 0)) eqn:E; [|reflexivity]. lia.
Qed.
Definition args_good (S0 : setting) (args : list arg) (d : option disp) : Prop :=
  match d with Some (a, _) => argh S0 a /\ In a args /\ afact a | None => True end.
Lemma args_dfact : forall S0 args d, args_good S0 args d -> dfact d.
Proof. intros S0 args [(a, s)|] H; [apply H|exact H]. Qed.
(** A displacement that is not relative to PC. *)
Lemma dis_opted : forall fl S0 args d b x z, args_good S0 args d -> (vanishes b d = false -> In z [0; 2; 4]) ->
  (vanishes b d = false -> z = 2 -> s16 (disp_value d)) ->
  exists t, forall q, dis fl (moved q S0) args (opted d b x z) t (dval b d).
Proof.
  intros fl S0 args d b x z A Z0 F. unfold opted, shown, dval. destruct (vanishes b d) eqn:V.
  - exists (Num 0). intro q. apply dis_null. reflexivity.
  - destruct d as [(a, s)|]; [|discriminate V]. destruct A as (H & I & Af). exists (g_term a). cbn [disp_value disp_e].
    apply dis_arg; try assumption.
    + reflexivity.
    + apply Z0. reflexivity.
    + cbn [r_dsize]. apply F. reflexivity.
Qed.
Lemma index_sum : forall new x mc, index_ok new x = true ->
  (if is_none (index_code x) then 0 else index_at mc (index_code x) (index_size x) (scale_log x)) = index_value mc x.
Proof.
  intros new x mc H. unfold is_none. rewrite (index_code_none new x H). destruct x as [x|]; [|reflexivity]. apply (index_meaning new), H.
Qed.
Lemma index_range : forall new x, index_ok new x = true -> is_none (index_code x) = false -> 0 <= index_code x <= 15.
Proof.
  intros new x H N. unfold is_none in N. rewrite (index_code_none new x H) in N. destruct x as [x|]; [|discriminate N]. apply (index_code_range new), H.
Qed.
Lemma base_sum : forall b mc, base_ok b = true -> is_pc b = false -> (if is_none (base_code b) then 0 else areg mc (base_reg b)) = base_value mc b.
Proof.
  intros b mc H P. unfold is_none. destruct (base_code_cases b H) as (_ & ->). destruct b as [[n|]|]; try reflexivity. discriminate P.
Qed.
Lemma base_reg_range : forall b, base_ok b = true -> 0 <= base_reg b <= 7.
Proof. intros [[n|]|] H; cbn [base_reg]; try lia. apply reg_range, H. Qed.
Lemma field_base : forall b, base_ok b = true -> is_pc b = false ->
  Some (if base_code b =? REG_NONE then 0x30 else Z.lor 0x30 (Z.land (base_code b) 7)) = Some (6 * 8 + base_reg b).
Proof.
  intros b H P. destruct (base_code_cases b H) as (_ & ->). destruct b as [[n|]|]; cbn [none base_code base_reg]; try reflexivity.
  destruct (low_reg n H) as (-> & _ & _ & _ & _ & -> & _). reflexivity.
Qed.
(** The full format with base and index only, or with a displacement. *)
Lemma sh_x020 : forall s S0 fl args d b x z dn im iz i, args_good S0 args d -> base_ok b = true -> is_pc b = false -> index_ok true x = true ->
  (vanishes b d = false -> In z [0; 2; 4]) -> (vanishes b d = false -> z = 2 -> s16 (disp_value d)) ->
  shaped true s S0 fl false args (AMode AM_AXDISP020 dn im iz i (opted d b x z)) 6 (base_reg b)
    (fun mc => Mem (addr (base_value mc b + index_value mc x + disp_value d))).
Proof.
  intros s S0 fl args d b x z dn im iz i A B P X Z0 F.
  destruct (dis_opted fl S0 args d b x z A Z0 F) as (t & D).
  apply (sh_full s S0 fl false args _ 6 (base_reg b) (base_code b) (index_code x) (index_size x) (scale_of x) (scale_log x) (fun _ => dval b d) None).
  - exact (field_base b B P).
  - left. split; [reflexivity|apply base_reg_range, B].
  - apply (index_range true), X.
  - apply (scale_in true), X.
  - intros q k st m room Q G. exists (opted d b x z), None, t. split; [reflexivity|]. split; [|exact Logic.I].
    rewrite M6809Proofs.moved_moved. apply D.
  - intros mc q Q. unfold full_address. rewrite (index_sum true x mc X). cbn [Z.eqb Pos.eqb].
    rewrite (base_sum b mc B P), dval_value. reflexivity.
Qed.
Lemma sh_pcx020 : forall s S0 args a x z dn im iz i, argh S0 a -> In a args -> afact a -> index_ok true x = true -> In z [0; 2; 4] ->
  reached (e_pc (s_env S0)) (g_value a) (if z =? 2 then s16 else fun _ => True) -> 0 <= e_pc (s_env S0) < 2 ^ 31 - 128 -> forall s0,
  shaped true s S0 true true args (AMode AM_PCXDISP020 dn im iz i (opted (Some (a, s0)) (Some BasePc) x z)) 7 3
    (fun mc => Mem (addr (index_value mc x + g_value a))).
Proof.
  intros s S0 args a x z dn im iz i H I Af X Z0 R P s0.
  apply (sh_full s S0 true true args _ 7 3 REG_PC (index_code x) (index_size x) (scale_of x) (scale_log x) (fun q => g_value a - (e_pc (s_env S0) + q)) None).
  - reflexivity.
  - right. split; reflexivity.
  - apply (index_range true), X.
  - apply (scale_in true), X.
  - intros q k st m room Q G. destruct (dis_pc S0 args a (opted (Some (a, s0)) (Some BasePc) x z) q k st m (10 + room)) as (r' & E & D); try assumption.
    { reflexivity. }
    exists r', None, (PcRel 2 (g_term a)). split; [|split; [exact D|exact Logic.I]].
    match goal with |- ?L = _ => change L with (let! o1 := pc_relative (s_F S0) 2 (opted (Some (a, s0)) (Some BasePc) x z) st in
       full_word (s_F S0) REG_PC (index_code x) (index_size x) (scale_of x) o1 None st) end. rewrite E. reflexivity.
  - intros mc q Q. unfold full_address. rewrite (index_sum true x mc X). cbn [is_none REG_PC REG_NONE Z.eqb Pos.eqb]. do 2 f_equal. lia.
Qed.

(** ** Kinds of operands *)
(** The modes that are given for an operand. *)
Definition kinds (o : opnd) : list Z :=
  match o with
  | ODreg _ => [AM_DREG] | OAreg _ => [AM_AREG] | OInd _ => [AM_AIND] | OInc _ => [AM_AINC] | ODec _ => [AM_ADEC]
  | ODisp _ _ => [AM_ADISP] | ODispPc _ => [AM_PCDISP] | OAbs _ _ => [AM_WORD; AM_LONG] | OImm _ => [AM_IMM]
  | OParen _ _ b _ => if is_pc b then [AM_PCDISP; AM_PCXDISP; AM_PCXDISP020]
                      else if simple o then [AM_AIND; AM_AXDISP] else [AM_AIND; AM_AXDISP; AM_ADISP; AM_AXDISP020]
  | OMem _ b _ _ _ => if is_pc b then [AM_PREINDPCXD020; AM_POSTINDPCXD020] else [AM_PREINDAXD020; AM_POSTINDAXD020]
  end.
(** Modes of the 68020 and later are given for them only. *)
Definition new_kind (mode : Z) : bool := AM_AXDISP020 <=? mode.
Definition fields (o : opnd) (mode reg : Z) : Prop :=
  match o with
  | ODreg n => mode = 0 /\ reg = n | OAreg n => mode = 1 /\ reg = n
  | OInc n => mode = 3 /\ reg = n | ODec n => mode = 4 /\ reg = n | OImm _ => mode = 7 /\ reg = 4
  | _ => if through_pc o then mode = 7 /\ (reg = 2 \/ reg = 3) else mode = 2 \/ mode = 5 \/ mode = 6 \/ mode = 7 /\ (reg = 0 \/ reg = 1)
  end.
Definition given (new : bool) (s : size) (S0 : setting) (fl : bool) (args : list arg) (o : opnd) (md : amode) : Prop :=
  In (a_mode md) (kinds o) /\ (new_kind (a_mode md) = true -> new = true) /\
  exists mode reg, fields o mode reg /\ shaped new s S0 fl (through_pc o) args md mode reg (fun mc => opnd_place mc s o).
Lemma shaped_ext : forall new s S0 fl p args md mode reg pl pl', shaped new s S0 fl p args md mode reg pl -> (forall mc, pl mc = pl' mc) ->
  shaped new s S0 fl p args md mode reg pl'.
Proof.
  intros new s S0 fl p args md mode reg pl pl' (A & B & C & D) E. split; [exact A|]. split; [exact B|]. split; [exact C|].
  intros q k st m room Q G Ro. destruct (D q k st m room Q G Ro) as (st1 & m1 & cells & D1 & D2 & D3 & D4 & D5).
  exists st1, m1, cells. split; [exact D1|]. split; [exact D2|]. split; [exact D3|]. split; [exact D4|].
  intros mc rest. rewrite <- E. apply D5.
Qed.
Lemma cpu_new : forall cpu, In cpu cpus -> (cpu <=? CPUF_68010) = negb (is_new cpu) /\ (cpu >=? CPUF_68020) = is_new cpu /\ (cpu <? CPUF_68020) = negb (is_new cpu).
Proof. intros cpu H. cbn [cpus In] in H. destruct H as [<-|[<-|[<-|[<-|[<-|[<-|[]]]]]]]; vm_compute; tauto. Qed.

(** ** Choosing the mode *)
Definition out_size (outside : bool) (d : option disp) (b : option base) : Z :=
  if outside && negb (none b) && (disp_z d =? 0) then 1 else disp_z d.
Lemma shown_null : forall b d, dfact d -> isNull (shown b d) = vanishes b d.
Proof.
  intros b d D. unfold shown. destruct (vanishes b d) eqn:V; [reflexivity|]. destruct d as [(a, s)|]; [|discriminate V]. apply D.
Qed.
Lemma optimize_out : forall new cpu d b x z st, dfact d -> base_ok b = true -> index_ok new x = true -> (b = None -> alone x) ->
  optimizeMode cpu (AMode AM_EMPTY 0 ENull 0 no_regs (Regs (base_code b) (index_code x) (index_size x) (index_scale x) (disp_e d) z)) st =
  let o := opted d b x z in
  let md m o := AMode m 0 ENull 0 no_regs o in
  match b, x, vanishes b d with
  | Some _, None, true => (true, md AM_AIND o, st)
  | None, Some _, _ => (true, md AM_AXDISP020 o, st)
  | Some _, Some _, true => (true, md (if is_pc b then AM_PCXDISP else AM_AXDISP) o, st)
  | None, None, false =>
      if z =? SIZE_BYTE then (false, md AM_EMPTY o, err_Error MERROR_DISP_SIZE st)
      else (true, md (if z =? SIZE_WORD then AM_WORD else AM_LONG) o, st)
  | Some _, None, false =>
      if z =? SIZE_BYTE then (false, md AM_EMPTY o, err_Error MERROR_DISP_SIZE st) else
      if cpu <=? CPUF_68010 then (true, md (if is_pc b then AM_PCDISP else AM_ADISP) (opted d b x (if z =? SIZE_DEFAULT then SIZE_WORD else z)), st)
      else let o1 := m68k_OptimizeDisplacement o in
           (true, md (if r_dsize o1 =? SIZE_WORD then (if is_pc b then AM_PCDISP else AM_ADISP) else (if is_pc b then AM_PCXDISP020 else AM_AXDISP020)) o1, st)
  | Some _, Some _, false =>
      let v := e_v (shown b d) in
      let size :=
        if z =? SIZE_DEFAULT then
          if (cpu <=? CPUF_68010) || negb (expr_IsConstant (shown b d)) then SIZE_BYTE
          else if (-128 <=? v) && (v <=? 127) then SIZE_BYTE
          else if (-32768 <=? v) && (v <=? 32767) then SIZE_WORD else SIZE_LONG
        else z in
      (true, md (if size =? SIZE_BYTE then (if is_pc b then AM_PCXDISP else AM_AXDISP) else (if is_pc b then AM_PCXDISP020 else AM_AXDISP020))
             (opted d b x size), st)
  | None, None, true => (false, md AM_EMPTY o, st)
  end.
Proof.
  intros new cpu d b x z st D B X Al. unfold optimizeMode. cbn [a_inner a_outer]. rewrite (opt_raw new) by assumption.
  change (optimizeFields no_regs) with no_regs. cbn [r_base r_index r_disp no_regs isNull REG_NONE Z.eqb Pos.eqb negb orb]. cbv zeta.
  unfold by_base. cbn [opted r_base r_index r_disp r_dsize]. rewrite (shown_null b d D).
  destruct (base_code_cases b B) as (Bp & Bn). fold REG_NONE. rewrite Bn, (index_code_none new x X), Bp.
  destruct b as [b|], x as [x|]; [destruct (vanishes (Some b) d)|destruct (vanishes (Some b) d)|destruct (vanishes None d)|destruct (vanishes None d)];
    cbn [none negb]; try reflexivity;
    try (destruct (z =? SIZE_BYTE); reflexivity).
  - destruct (z =? SIZE_BYTE); [reflexivity|]. destruct (cpu <=? CPUF_68010); [|reflexivity]. destruct (z =? SIZE_DEFAULT); reflexivity.
Qed.
Lemma vanish_value : forall b d, vanishes b d = true -> disp_value d = 0.
Proof. intros b d V. rewrite <- (dval_value b d). unfold dval. rewrite V. reflexivity. Qed.
Lemma small_s : forall n a, small n a = true -> known_now a = true /\ - 2 ^ (n - 1) <= g_value a < 2 ^ (n - 1).
Proof.
  intros n a H. unfold small in H. apply andb_true_iff in H. destruct H as (H & H3). apply andb_true_iff in H. destruct H as (H1 & H2).
  apply Z.leb_le in H2. apply Z.ltb_lt in H3. tauto.
Qed.
(** The three outcomes: short index, word displacement, full format. *)
Lemma given_brief : forall new s S0 fl args outside d b x z, args_good S0 args d -> base_ok b = true -> index_ok new x = true -> b <> None -> x <> None ->
  (is_pc b = true -> d <> None) ->
  match d with
  | None => True
  | Some (a, _) => vanishes b d = true \/
     (if is_pc b then reached (e_pc (s_env S0)) (g_value a) s8 else s8 (g_value a)) /\
     (match x with Some y => match x_scale y with None | Some 1 => True | _ => known_now a = true /\ is_pc b = false end | None => True end)
  end -> 0 <= e_pc (s_env S0) < 2 ^ 31 - 128 ->
  given new s S0 fl args (OParen outside d b x) (AMode (if is_pc b then AM_PCXDISP else AM_AXDISP) 0 ENull 0 no_regs (opted d b x z)).
Proof.
  intros new s S0 fl args outside d b x z A B X Nb Nx Pd F P. destruct x as [x|]; [|congruence].
  destruct (scale_in new _ X) as (Sc & Old). pose proof (index_code_range new x X) as R.
  destruct b as [[n|]|]; [| |congruence]; cbn [is_pc].
  - split; [cbn [kinds is_pc a_mode]; destruct (simple _); right; left; reflexivity|]. split; [intro K; discriminate K|].
    exists 6, n. split; [cbn [fields through_pc is_pc]; tauto|]. cbn [through_pc is_pc].
    eapply shaped_ext.
    + unfold opted. cbn [base_code]. 
      apply (sh_brief new s S0 fl args n 0 ENull 0 no_regs (index_code (Some x)) (index_size (Some x)) (scale_of (Some x)) (scale_log (Some x))
               (match d with Some (a, _) => g_term a | None => Num 0 end) (shown (Some (BaseA n)) d) (disp_value d) z); try assumption.
      * destruct new; [reflexivity|]. rewrite (Old eq_refl). reflexivity.
      * destruct (vanishes (Some (BaseA n)) d) eqn:V; [rewrite (vanish_value _ _ V); unfold s8; lia|].
        destruct d as [(a, s0)|]; [|discriminate V]. destruct F as [F|(F & _)]; [congruence|exact F].
      * unfold shown. destruct (vanishes (Some (BaseA n)) d) eqn:V; [left; split; [reflexivity|apply (vanish_value _ _ V)]|right].
        destruct d as [(a, s0)|]; [|discriminate V]. destruct F as [F|(_ & F)]; [congruence|]. destruct A as (H & I & Af).
        split; [apply argh_eheld, H|]. split; [apply src_arg, I|]. unfold scale_of. destruct (x_scale x) as [c|]; [|left; reflexivity].
        destruct (c =? 1) eqn:C; [left; reflexivity|right]. cbn [disp_e].
        destruct c as [|[c|c|]|c]; try discriminate C; apply F.
    + intro mc. cbv beta. rewrite (index_meaning new x mc X). cbn [opnd_place base_value]. do 2 f_equal.
  - destruct d as [(a, s0)|]; [|destruct (Pd eq_refl eq_refl)]. cbn [vanishes is_pc negb andb] in F.
    destruct F as [F|(F & F1)]; [discriminate F|]. destruct A as (H & I & Af).
    split; [right; left; reflexivity|]. split; [intro K; discriminate K|].
    exists 7, 3. split; [cbn [fields through_pc is_pc]; tauto|]. cbn [through_pc is_pc].
    assert (E : scale_of (Some x) = ENull /\ scale_log (Some x) = 0).
    { unfold scale_of, scale_log. destruct (x_scale x) as [c|]; [|split; reflexivity].
      destruct (c =? 1) eqn:C; [assert (c = 1) by lia; subst c; split; reflexivity|].
      destruct c as [|[c|c|]|c]; try discriminate C; destruct F1 as (_ & F1); discriminate F1. }
    destruct E as (E1 & E2). eapply shaped_ext.
    + unfold opted, shown. cbn [vanishes is_pc negb andb]. rewrite E1. cbn [disp_e]. apply sh_brief_pc; assumption.
    + intro mc. cbv beta. rewrite <- E2, (index_meaning new x mc X). reflexivity.
Qed.
Lemma given_word : forall new s S0 fl args outside a s0 b z, args_good S0 args (Some (a, s0)) -> base_ok b = true -> b <> None ->
  vanishes b (Some (a, s0)) = false -> (if is_pc b then reached (e_pc (s_env S0)) (g_value a) s16 else s16 (g_value a)) -> z = 2 ->
  0 <= e_pc (s_env S0) < 2 ^ 31 - 128 ->
  given new s S0 fl args (OParen outside (Some (a, s0)) b None) (AMode (if is_pc b then AM_PCDISP else AM_ADISP) 0 ENull 0 no_regs (opted (Some (a, s0)) b None z)).
Proof.
  intros new s S0 fl args outside a s0 b z (H & I & Af) B Nb V F -> P. unfold opted, shown. rewrite V. cbn [disp_e].
  destruct b as [[n|]|]; [| |congruence]; cbn [is_pc] in *.
  - split; [cbn [kinds is_pc a_mode simple none negb andb orb]; right; right; left; reflexivity|]. split; [intro K; discriminate K|].
    exists 5, n. split; [cbn [fields through_pc is_pc]; tauto|]. cbn [through_pc is_pc].
    eapply shaped_ext; [apply (sh_adisp new s S0 fl args n 0 ENull 0 no_regs _ _ _ (g_term a) (g_expr a) (g_value a) 2); [exact B|apply argh_eheld, H|exact F|apply src_arg, I|left; reflexivity]|].
    intro mc. cbn [opnd_place base_value index_value disp_value]. do 2 f_equal. lia.
  - split; [left; reflexivity|]. split; [intro K; discriminate K|].
    exists 7, 2. split; [cbn [fields through_pc is_pc]; tauto|]. cbn [through_pc is_pc].
    eapply shaped_ext; [apply sh_pcdisp; try assumption; left; reflexivity|]. reflexivity.
Qed.
Lemma given_full : forall s S0 fl cur args outside d b x z, args_good S0 args d -> base_ok b = true -> index_ok true x = true ->
  (floating cur -> fl = true) -> (is_pc b = true -> d <> None) -> simple (OParen outside d b x) = false ->
  (vanishes b d = false -> In z [2; 4] \/ z = 0) ->
  match d with
  | None => True
  | Some (a, _) => if is_pc b then floating cur /\ reached (e_pc (s_env S0)) (g_value a) (if z =? 2 then s16 else fun _ => True)
                   else vanishes b d = false -> z = 2 -> s16 (g_value a)
  end -> 0 <= e_pc (s_env S0) < 2 ^ 31 - 128 ->
  given true s S0 fl args (OParen outside d b x) (AMode (if is_pc b then AM_PCXDISP020 else AM_AXDISP020) 0 ENull 0 no_regs (opted d b x z)).
Proof.
  intros s S0 fl cur args outside d b x z A B X Fl Pd Si Z0 F P. destruct (is_pc b) eqn:Pb.
  - destruct d as [(a, s0)|]; [|destruct (Pd eq_refl eq_refl)]. destruct F as (F & R). rewrite (Fl F). destruct A as (H & I & Af).
    assert (b = Some BasePc) by (destruct b as [[n|]|]; try discriminate Pb; reflexivity). subst b.
    split; [right; right; left; reflexivity|]. split; [reflexivity|].
    exists 7, 3. split; [cbn [fields through_pc is_pc]; tauto|]. cbn [through_pc is_pc].
    eapply shaped_ext; [apply sh_pcx020; try assumption|].
    + destruct (Z0 eq_refl) as [[<-|[<-|[]]]| ->]; cbn [In]; tauto.
    + reflexivity.
  - split; [cbn [kinds a_mode]; rewrite Pb, Si; right; right; right; left; reflexivity|]. split; [reflexivity|].
    exists 6, (base_reg b). split; [cbn [fields through_pc]; rewrite Pb; tauto|]. cbn [through_pc]. rewrite Pb.
    apply (sh_x020 s S0 fl args d b x z); try assumption.
    + intro V. destruct (Z0 V) as [[<-|[<-|[]]]| ->]; cbn [In]; tauto.
    + intros V E. destruct d as [(a, s0)|]; [exact (F V E)|discriminate V].
Qed.
Lemma paren_case : forall cpu s S0 fl cur args outside d b x st, In cpu cpus -> opnd_ok (is_new cpu) (OParen outside d b x) = true ->
  paren_fits (is_new cpu) cur (e_pc (s_env S0)) outside d b x -> args_good S0 args d -> (floating cur -> fl = true) -> 0 <= e_pc (s_env S0) < 2 ^ 31 - 128 ->
  exists md, optimizeMode cpu (AMode AM_EMPTY 0 ENull 0 no_regs
      (Regs (base_code b) (index_code x) (index_size x) (index_scale x) (disp_e d) (out_size outside d b))) st = (true, md, st) /\
    given (is_new cpu) s S0 fl args (OParen outside d b x) md.
Proof.
  intros cpu s S0 fl cur args outside d b x st Hc Ok (Al & F) A Fl P. destruct (cpu_new cpu Hc) as (C1 & _).
  cbn [opnd_ok] in Ok. rewrite !andb_true_iff in Ok. destruct Ok as (((((B & X) & Bx) & Pd) & _) & Old).
  assert (Pd' : is_pc b = true -> d <> None) by (intros E ->; rewrite E in Pd; discriminate Pd).
  assert (D : dfact d) by (apply (args_dfact _ _ _ A)).
  rewrite (optimize_out (is_new cpu)) by assumption. cbv zeta. rewrite C1.
  destruct b as [b|], x as [x|].
  - (* base and index *)
    destruct (vanishes (Some b) d) eqn:V.
    { eexists. split; [reflexivity|]. apply given_brief; try assumption; try congruence. destruct d as [(a, s0)|]; [left; exact V|exact Logic.I]. }
    destruct d as [(a, s0)|]; [|discriminate V]. unfold shown. rewrite V. cbn [disp_e]. eexists. split; [reflexivity|].
    match goal with |- given _ _ _ _ _ _ (AMode (if ?c =? _ then _ else _) _ _ _ _ _) => set (z := c) end.
    assert (K : z = 1 /\ (match s0 with Some SB => True | None => outside || negb (is_new cpu) || negb (known_now a) || small 8 a = true | _ => False end) \/
                z <> 1 /\ is_new cpu = true /\ (z = 2 \/ z = 4) /\
                match s0 with Some SB => False | Some SW => z = 2 | Some SL => z = 4
                | None => outside || negb (is_new cpu) || negb (known_now a) || small 8 a = false /\ (z = 2 -> s16 (g_value a)) end).
    { destruct A as (_ & _ & Af). destruct Af as (_ & Ev). unfold z, out_size. cbn [none negb disp_z]. rewrite andb_true_r.
      destruct s0 as [[]|]; cbn [size_code Z.eqb Pos.eqb].
      - rewrite andb_false_r. left. split; [reflexivity|exact Logic.I].
      - rewrite andb_false_r. right. split; [discriminate|]. split; [|split; [left; reflexivity|reflexivity]].
        destruct (is_new cpu); [reflexivity|]. discriminate Old.
      - rewrite andb_false_r. right. split; [discriminate|]. split; [|split; [right; reflexivity|reflexivity]].
        destruct (is_new cpu); [reflexivity|]. discriminate Old.
      - rewrite andb_true_r. destruct outside; [left; split; reflexivity|]. cbn [orb SIZE_DEFAULT Z.eqb]. unfold known_now in *.
        destruct (is_new cpu); [|left; split; reflexivity]. cbn [negb orb].
        destruct (expr_IsConstant (g_expr a)) eqn:K; [|left; split; reflexivity]. cbn [negb orb]. rewrite (Ev eq_refl).
        unfold small, known_now. rewrite K. cbn [andb]. change (2 ^ (8 - 1)) with 128.
        destruct ((-128 <=? g_value a) && (g_value a <=? 127)) eqn:R8.
        + left. split; [reflexivity|]. lia.
        + right. destruct ((-32768 <=? g_value a) && (g_value a <=? 32767)) eqn:R16.
          * split; [discriminate|]. split; [reflexivity|]. split; [left; reflexivity|]. split; [lia|]. unfold s16. lia.
          * split; [discriminate|]. split; [reflexivity|]. split; [right; reflexivity|]. split; [lia|]. intro E. discriminate E. }
    clearbody z. destruct K as [(-> & K)|(Nz & Nw & Z24 & K)].
    + cbn [SIZE_BYTE Z.eqb Pos.eqb]. apply given_brief; try assumption; try congruence. right.
      destruct s0 as [[]|]; [exact F|destruct K|destruct K|rewrite K in F; exact F].
    + replace (z =? SIZE_BYTE) with false by (unfold SIZE_BYTE; lia). rewrite Nw in *.
      apply (given_full s S0 fl cur); try assumption; try congruence.
      * reflexivity.
      * intros _. left. destruct Z24 as [-> | ->]; cbn [In]; tauto.
      * destruct s0 as [[]|]; [destruct K|subst z|subst z|destruct K as (K & K2); rewrite K in F; destruct F as (F & F2)];
          cbn [wide_fits] in F; destruct (is_pc (Some b)) eqn:Pb; try exact F; try (intros _ _; exact F); try (intros _ E; discriminate E).
        -- destruct F as (W1 & W3 & W4). split; [exact W1|]. destruct (z =? 2) eqn:E2; [|split; assumption].
           apply F2. cbn [andb]. unfold small. assert (s16 (g_value a)) as R by (apply K2; lia). unfold s16 in R.
           change (2 ^ (16 - 1)) with 32768. destruct (known_now a); [lia|]. rewrite !orb_true_r in K. discriminate K.
        -- intros _ E2. apply K2, E2.
  - (* base only *)
    destruct (vanishes (Some b) d) eqn:V.
    { eexists. split; [reflexivity|]. destruct b as [n|].
      - split; [cbn [kinds is_pc a_mode]; destruct (simple _); left; reflexivity|]. split; [intro K; discriminate K|].
        exists 2, n. split; [cbn [fields through_pc is_pc]; tauto|]. cbn [through_pc is_pc].
        eapply shaped_ext; [unfold opted; cbn [base_code]; apply (sh_through _ s S0 fl args AM_AIND n); [exact B|left; reflexivity]|].
        intro mc. cbn [opnd_place base_value index_value]. rewrite (vanish_value _ _ V). cbn [AM_AIND Z.eqb Pos.eqb]. rewrite !Z.add_0_r. reflexivity.
      - destruct d as [(a, s0)|]; [discriminate V|]. destruct (Pd' eq_refl eq_refl). }
    destruct d as [(a, s0)|]; [|discriminate V].
    assert (Ou : outside = false) by (destruct s0 as [[]|]; [destruct F|apply F|apply F|apply F]).
    assert (Z1 : out_size outside (Some (a, s0)) (Some b) = size_code s0) by (rewrite Ou; reflexivity). rewrite Z1. cbn [disp_z].
    replace (size_code s0 =? SIZE_BYTE) with false by (destruct s0 as [[]|]; [destruct F|reflexivity|reflexivity|reflexivity]).
    destruct (is_new cpu) eqn:Nw; cbn [negb].
    + assert (Od : m68k_OptimizeDisplacement (opted (Some (a, s0)) (Some b) None (size_code s0)) =
                   opted (Some (a, s0)) (Some b) None (match s0 with None => if small 16 a then 2 else 4 | _ => size_code s0 end)).
      { unfold m68k_OptimizeDisplacement. cbn [opted r_disp r_dsize]. rewrite (shown_null _ _ D), V. cbn [negb andb].
        destruct s0 as [[]|]; try reflexivity. cbn [size_code SIZE_DEFAULT Z.eqb]. unfold shown. rewrite V. cbn [disp_e].
        unfold small, known_now. change (2 ^ (16 - 1)) with 32768. destruct A as (_ & _ & _ & Ev).
        destruct (expr_IsConstant (g_expr a)) eqn:K; [|cbn [andb]; unfold opted, shown; rewrite V; reflexivity]. cbn [andb]. rewrite (Ev eq_refl).
        replace (g_value a <=? 32767) with (g_value a <? 32768) by lia. change (-32768) with (- (32768)).
        destruct ((- (32768) <=? g_value a) && (g_value a <? 32768)); unfold opted, shown; rewrite V; reflexivity. }
      rewrite Od. eexists. split; [reflexivity|]. cbn [opted r_dsize].
      assert (K : match s0 with None => if small 16 a then 2 else 4 | _ => size_code s0 end = 2 /\
                  (if is_pc (Some b) then reached (e_pc (s_env S0)) (g_value a) s16 else s16 (g_value a)) \/
                  match s0 with None => if small 16 a then 2 else 4 | _ => size_code s0 end = 4 /\
                  (wide_fits cur (e_pc (s_env S0)) (Some b) (Some (a, match s0 with Some SL => Some SL | _ => None end)))).
      { destruct s0 as [[]|]; [destruct F|left; split; [reflexivity|apply F]|right; split; [reflexivity|apply F]|].
        destruct (small 16 a); [left|right]; (split; [reflexivity|apply F]). }
      destruct K as [(E & K)|(E & K)]; rewrite E.
      * cbn [SIZE_WORD Z.eqb Pos.eqb]. apply given_word; try assumption; congruence.
      * cbn [SIZE_WORD Z.eqb Pos.eqb]. apply (given_full s S0 fl cur); try assumption; try congruence; try reflexivity.
        -- intros _. left. cbn [In]. tauto.
        -- cbn [Z.eqb Pos.eqb]. cbn [wide_fits] in K. destruct (is_pc (Some b)) eqn:Pb; [|intros _ W; discriminate W].
           destruct K as (K1 & K2). split; [exact K1|]. destruct s0 as [[]|]; exact K2.
    + eexists. split; [reflexivity|]. apply given_word; try assumption; try congruence.
      * destruct s0 as [[]|]; [destruct F|apply F|discriminate Old|apply F].
      * destruct s0 as [[]|]; [destruct F|reflexivity|discriminate Old|reflexivity].
  - (* index only *)
    assert (Nw : is_new cpu = true) by (destruct (is_new cpu); [reflexivity|discriminate Old]). rewrite Nw in *.
    assert (Z1 : out_size outside d None = disp_z d) by (unfold out_size; cbn [none negb]; rewrite andb_false_r; reflexivity). rewrite Z1.
    assert (G : given true s S0 fl args (OParen outside d None (Some x)) (AMode (if is_pc None then AM_PCXDISP020 else AM_AXDISP020) 0 ENull 0 no_regs (opted d None (Some x) (disp_z d)))).
    { apply (given_full s S0 fl cur); try assumption; try congruence; try reflexivity.
      - intro V. destruct d as [(a, [[]|])|]; cbn [disp_z size_code In]; try tauto.
      - destruct d as [(a, s0)|]; [|exact Logic.I]. cbn [is_pc]. intros _ E. destruct s0 as [[]|]; try discriminate E; exact F. }
    destruct (vanishes None d); eexists; (split; [reflexivity|exact G]).
  - discriminate Bx.
Qed.

(** ** Memory indirect *)
Definition wide_size (b : option base) (d : option disp) : Z :=
  if negb (vanishes b d) && (disp_z d =? SIZE_BYTE) then SIZE_WORD else disp_z d.
Lemma wide_size_in : forall b d, vanishes b d = false -> In (wide_size b d) [0; 2; 4] /\
  (wide_size b d = 2 -> match d with Some (_, Some SW) | Some (_, Some SB) => True | _ => False end).
Proof.
  intros b d V. unfold wide_size. rewrite V. destruct d as [(a, [[]|])|]; cbn; split; try tauto; intro E; discriminate E.
Qed.
Definition mem_md (post : bool) (bd : option disp) (b : option base) (x : option index) (od : option disp) : amode :=
  let xi := if post then None else x in let xo := if post then x else None in
  AMode (if none xo then (if is_pc b then AM_PREINDPCXD020 else AM_PREINDAXD020) else (if is_pc b then AM_POSTINDPCXD020 else AM_POSTINDAXD020))
    0 ENull 0 (opted bd b xi (wide_size b bd)) (opted od None xo (wide_size None od)).
Lemma optimize_mem : forall new cpu bd b x post od st, dfact bd -> dfact od -> base_ok b = true -> index_ok new x = true ->
  (post = true \/ b = None -> alone x) -> negb (vanishes b bd && none b && (post || none x)) = true ->
  optimizeMode cpu (AMode AM_EMPTY 0 ENull 0 (raw bd b (if post then None else x)) (raw od None (if post then x else None))) st =
  (true, mem_md post bd b x od, st).
Proof.
  intros new cpu bd b x post od st D1 D2 B X Al Ne. unfold optimizeMode, raw. cbn [a_inner a_outer].
  assert (Xi : index_ok new (if post then None else x) = true) by (destruct post; [reflexivity|exact X]).
  assert (Xo : index_ok new (if post then x else None) = true) by (destruct post; [exact X|reflexivity]).
  rewrite (opt_raw new bd b); [|exact D1|exact B|exact Xi|intro E; destruct post; [exact Logic.I|apply Al; tauto]].
  change REG_NONE with (base_code None).
  rewrite (opt_raw new od None); [|exact D2|reflexivity|exact Xo|intros _; destruct post; [apply Al; tauto|exact Logic.I]].
  cbv zeta. unfold by_base. cbn [opted r_base r_index r_disp r_dsize]. rewrite !shown_null by assumption.
  destruct (base_code_cases b B) as (Bp & Bn). change (base_code None) with REG_NONE. rewrite Bn, !(index_code_none new) by assumption. rewrite Bp.
  replace (negb (none b) || negb (none (if post then None else x)) || negb (vanishes b bd)) with true
    by (destruct post, (vanishes b bd), (none b), (none x); (reflexivity || discriminate Ne)).
  change (REG_NONE =? REG_NONE) with true. cbn [negb].
  replace (negb (none (if post then None else x)) && negb (none (if post then x else None))) with false by (destruct post, (none x); reflexivity).
  unfold mem_md, wide_size.
  destruct (none (if post then x else None)); cbn [negb];
    destruct (negb (vanishes b bd) && (disp_z bd =? SIZE_BYTE)), (negb (vanishes None od) && (disp_z od =? SIZE_BYTE)); reflexivity.
Qed.
Lemma given_mem : forall s S0 fl cur args bd b x post od, opnd_ok true (OMem bd b x post od) = true ->
  opnd_fits true cur (e_pc (s_env S0)) s (OMem bd b x post od) -> args_good S0 args bd -> args_good S0 args od -> (floating cur -> fl = true) ->
  0 <= e_pc (s_env S0) < 2 ^ 31 - 128 -> given true s S0 fl args (OMem bd b x post od) (mem_md post bd b x od).
Proof.
  intros s S0 fl cur args bd b x post od Ok (_ & W1 & W2 & _) A1 A2 Fl P.
  cbn [opnd_ok] in Ok. rewrite !andb_true_iff in Ok. destruct Ok as (((_ & B) & X) & Pd).
  set (post' := negb (none (if post then x else None))).
  set (o2 := Some (post', dval None od)).
  assert (Od : forall fl' S1, (exists q1, S1 = moved q1 S0) -> od_is fl' S1 args (index_code x) (Some (if post' then 5 else 1, opted od None (if post then x else None) (wide_size None od))) o2).
  { intros fl' S1 (q1 & ->). split; [reflexivity|]. split.
    - unfold post'. intro E. unfold is_none. rewrite (index_code_none true x X). destruct post; [|discriminate E]. destruct (none x); [discriminate E|reflexivity].
    - destruct (dis_opted fl' S0 args od None (if post then x else None) (wide_size None od) A2) as (t & T).
      + intro V. apply (wide_size_in _ _ V).
      + intros V E. destruct (wide_size_in _ _ V) as (_ & K). specialize (K E). destruct od as [(a, [[]|])|]; try destruct K; exact W2.
      + exists t. intro q. rewrite M6809Proofs.moved_moved. apply T. }
  assert (E1 : forall (T : Type) (f : option index -> T), f (if post' then (if post then x else None) else (if post then None else x)) = f x).
  { intros T f. unfold post'. destruct post, x; reflexivity. }
  destruct (is_pc b) eqn:Pb.
  - assert (b = Some BasePc) by (destruct b as [[n|]|]; try discriminate Pb; reflexivity). subst b.
    destruct bd as [(a, s0)|]; [|discriminate Pd]. destruct A1 as (H & I & Af). cbn [wide_fits is_pc] in W1. destruct W1 as (F1 & R). rewrite (Fl F1).
    split; [cbn [mem_md is_pc a_mode kinds]; destruct (none (if post then x else None)); [left|right; left]; reflexivity|]. split; [reflexivity|].
    exists 7, 3. split; [cbn [fields through_pc is_pc]; tauto|]. cbn [through_pc is_pc].
    apply (sh_full s S0 true true args _ 7 3 REG_PC (index_code x) (index_size x) (scale_of x) (scale_log x) (fun q => g_value a - (e_pc (s_env S0) + q)) o2).
    + unfold mem_md. cbn [is_pc]. destruct (none (if post then x else None)); reflexivity.
    + right. split; reflexivity.
    + apply (index_range true), X.
    + apply (scale_in true), X.
    + intros q k st m room Q G. destruct (wide_size_in (Some BasePc) (Some (a, s0)) eq_refl) as (Z0 & K).
      destruct (dis_pc S0 args a (opted (Some (a, s0)) (Some BasePc) (if post then None else x) (wide_size (Some BasePc) (Some (a, s0)))) q k st m (10 + room)) as (r' & E & D); try assumption.
      { reflexivity. }
      { cbn [opted r_dsize]. destruct R as (R1 & R2). split; [exact R1|]. intros q' Q'. destruct (_ =? 2) eqn:E2; [|exact Logic.I].
        apply Z.eqb_eq in E2. specialize (K E2). specialize (R2 q' Q'). destruct s0 as [[]|]; try destruct K; exact R2. }
      exists r', (Some (if post' then 5 else 1, opted od None (if post then x else None) (wide_size None od))), (PcRel 2 (g_term a)).
      split; [|split; [exact D|apply Od; exists q; reflexivity]].
      unfold mem_md. cbn [is_pc]. unfold post' in *. destruct (none (if post then x else None)); cbn [negb] in *.
      * match goal with |- ?L = _ => change L with (let! i1 := pc_relative (s_F S0) 2 (opted (Some (a, s0)) (Some BasePc) (if post then None else x) (wide_size (Some BasePc) (Some (a, s0)))) st in
          full_word (s_F S0) REG_PC (index_code (if post then None else x)) (index_size (if post then None else x)) (scale_of (if post then None else x)) i1
            (Some (1, opted od None (if post then x else None) (wide_size None od))) st) end.
        rewrite E. cbn [bind]. rewrite (E1 _ index_code), (E1 _ index_size), (E1 _ scale_of). reflexivity.
      * match goal with |- ?L = _ => change L with (let! i1 := pc_relative (s_F S0) 2 (opted (Some (a, s0)) (Some BasePc) (if post then None else x) (wide_size (Some BasePc) (Some (a, s0)))) st in
          full_word (s_F S0) REG_PC (index_code (if post then x else None)) (index_size (if post then x else None)) (scale_of (if post then x else None)) i1
            (Some (5, opted od None (if post then x else None) (wide_size None od))) st) end.
        rewrite E. cbn [bind]. rewrite (E1 _ index_code), (E1 _ index_size), (E1 _ scale_of). reflexivity.
    + intros mc q Q. unfold full_address. rewrite (index_sum true x mc X). cbn [is_none REG_PC REG_NONE Z.eqb Pos.eqb]. unfold o2, post'. rewrite dval_value.
      cbn [opnd_place base_value disp_value].
      replace (e_pc (s_env S0) + q + index_value mc x + (g_value a - (e_pc (s_env S0) + q))) with (0 + index_value mc x + g_value a) by lia.
      replace (e_pc (s_env S0) + q + (g_value a - (e_pc (s_env S0) + q))) with (0 + g_value a) by lia.
      destruct post; [|reflexivity]. destruct x as [x|]; cbn [none negb index_value]; [reflexivity|]. rewrite !Z.add_0_r. reflexivity.
  - split; [cbn [mem_md a_mode kinds]; rewrite Pb; destruct (none (if post then x else None)); [left|right; left]; reflexivity|]. split; [reflexivity|].
    exists 6, (base_reg b). split; [cbn [fields through_pc]; rewrite Pb; tauto|]. cbn [through_pc]. rewrite Pb.
    apply (sh_full s S0 fl false args _ 6 (base_reg b) (base_code b) (index_code x) (index_size x) (scale_of x) (scale_log x) (fun _ => dval b bd) o2).
    + unfold mem_md. rewrite Pb. rewrite <- (field_base b B Pb). destruct (none (if post then x else None)); reflexivity.
    + left. split; [reflexivity|apply base_reg_range, B].
    + apply (index_range true), X.
    + apply (scale_in true), X.
    + intros q k st m room Q G.
      destruct (dis_opted fl S0 args bd b (if post then None else x) (wide_size b bd) A1) as (t & T).
      { intro V. apply (wide_size_in _ _ V). }
      { intros V E. destruct (wide_size_in _ _ V) as (_ & K). specialize (K E). destruct bd as [(a, [[]|])|]; try destruct K; cbn [wide_fits] in W1; rewrite Pb in W1; exact W1. }
      exists (opted bd b (if post then None else x) (wide_size b bd)), (Some (if post' then 5 else 1, opted od None (if post then x else None) (wide_size None od))), t.
      split; [|split; [rewrite M6809Proofs.moved_moved; apply T|apply Od; exists q; reflexivity]].
      unfold mem_md. rewrite Pb. unfold post' in *. destruct (none (if post then x else None)); cbn [negb] in *.
      * match goal with |- ?L = _ => change L with (full_word (s_F S0) (base_code b) (index_code (if post then None else x)) (index_size (if post then None else x)) (scale_of (if post then None else x))
            (opted bd b (if post then None else x) (wide_size b bd)) (Some (1, opted od None (if post then x else None) (wide_size None od))) st) end.
        rewrite (E1 _ index_code), (E1 _ index_size), (E1 _ scale_of). reflexivity.
      * match goal with |- ?L = _ => change L with (full_word (s_F S0) (base_code b) (index_code (if post then x else None)) (index_size (if post then x else None)) (scale_of (if post then x else None))
            (opted bd b (if post then None else x) (wide_size b bd)) (Some (5, opted od None (if post then x else None) (wide_size None od))) st) end.
        rewrite (E1 _ index_code), (E1 _ index_size), (E1 _ scale_of). reflexivity.
    + intros mc q Q. unfold full_address. rewrite (index_sum true x mc X). cbn [Z.eqb Pos.eqb]. rewrite (base_sum b mc B Pb). unfold o2, post'. rewrite !dval_value.
      cbn [opnd_place]. destruct post; [|reflexivity]. destruct x as [x|]; cbn [none negb index_value]; [reflexivity|]. rewrite !Z.add_0_r. reflexivity.
Qed.
