(** The machine of ControlModel does what ControlSpec says. *)
From Coq Require Import ZArith List Bool Lia ZifyBool ZifyNat.
From Verif Require Import Base BaseFacts ControlModel ControlSpec.
Import ListNotations.
Open Scope Z_scope.

(** ** Skipping *)
Lemma skipTo_found : forall n target tok ls tok2 ls2,
  skipTo n target tok ls = Ok (Some (tok2, ls2)) -> target tok2 = true /\ (length ls2 <= length ls)%nat.
Proof.
  induction n as [|n IH]; intros target tok ls tok2 ls2 H; [discriminate H|]. cbn [skipTo] in H.
  destruct (target tok) eqn:T. { injection H as <- <-. auto. }
  destruct (opens tok) as [t2|] eqn:O.
  - destruct (nextDirective tok ls) as [tok1 ls1] eqn:N1.
    assert (L1 : (length ls1 <= length ls)%nat) by (destruct ls; injection N1 as <- <-; cbn; lia).
    destruct (skipTo n t2 tok1 ls1) as [[[tk l]|]| |] eqn:E; cbn [bind] in H; try discriminate H.
    apply IH in E. destruct E as (_ & L2).
    destruct (nextDirective tk l) as [tok3 ls3] eqn:N3.
    assert (L3 : (length ls3 <= length l)%nat) by (destruct l; injection N3 as <- <-; cbn; lia).
    apply IH in H. destruct H. split; [auto|lia].
  - destruct ls as [|t r]; [discriminate H|]. apply IH in H. destruct H. split; [auto|cbn; lia].
Qed.
Lemma opens_not : forall tok t2, opens tok = Some t2 -> t2 tok = false.
Proof. intros [] t2 H; cbn in H; try discriminate H; injection H as <-; reflexivity. Qed.
Lemma opens_target : forall tok t2 x, opens tok = Some t2 -> t2 x = true -> opens x = None.
Proof.
  intros tok t2 x H T. destruct tok; cbn in H; try discriminate H; injection H as <-; destruct x; try discriminate T; reflexivity.
Qed.
Lemma skipTo_stale : forall n t tok t2, opens tok = Some t2 -> t tok = false -> skipTo n t tok [] = UB.
Proof.
  induction n as [|n IH]; intros t tok t2 O T; [reflexivity|].
  cbn [skipTo]. rewrite T, O. cbn [nextDirective]. rewrite (IH t2 tok t2 O (opens_not tok t2 O)). reflexivity.
Qed.
Lemma skipTo_enough : forall n target tok ls r, skipTo n target tok ls = Ok r ->
  forall m, (length ls < m)%nat -> skipTo m target tok ls = Ok r.
Proof.
  induction n as [|n IH]; intros target tok ls r H m L; [discriminate H|].
  destruct m as [|m]; [lia|]. pose proof H as H0. cbn [skipTo] in H |- *.
  destruct (target tok) eqn:T; [exact H|].
  destruct (opens tok) as [t2|] eqn:O.
  - destruct ls as [|x ls1].
    { rewrite (skipTo_stale (S n) target tok t2 O T) in H0. discriminate H0. }
    cbn [nextDirective] in *. cbn [length] in L.
    destruct (skipTo n t2 x ls1) as [r1| |] eqn:E; cbn [bind] in H; try discriminate H.
    rewrite (IH t2 x ls1 r1 E m) by lia. cbn [bind].
    destruct r1 as [[tk l]|]; [|exact H].
    destruct (skipTo_found n t2 x ls1 tk l E) as (Tk & Lk).
    destruct l as [|y l]; cbn [nextDirective] in *.
    + apply (IH _ _ _ _ H). cbn; lia.
    + cbn [length] in Lk. apply (IH _ _ _ _ H). lia.
  - destruct ls as [|x ls1]; [exact H|]. cbn [length] in L. apply (IH _ _ _ _ H). lia.
Qed.

Definition found (t : line -> bool) (ls r : list line) : Prop :=
  match ls with [] => False | x :: l => exists n tok, skipTo n t x l = Ok (Some (tok, r)) end.

Lemma found_hit : forall t x r, t x = true -> found t (x :: r) r.
Proof. intros t x r H. exists 1%nat, x. cbn [skipTo]. rewrite H. reflexivity. Qed.
Lemma found_skip : forall t x l r, t x = false -> opens x = None -> found t l r -> found t (x :: l) r.
Proof.
  intros t x l r T O F. destruct l as [|y l]; [contradiction|]. destruct F as (n & tok & H).
  exists (S n), tok. cbn [skipTo]. rewrite T, O. exact H.
Qed.
Lemma found_block : forall t t2 x l l2 r, t x = false -> opens x = Some t2 -> found t2 l l2 -> found t l2 r -> found t (x :: l) r.
Proof.
  intros t t2 x l l2 r T O F2 F. destruct l as [|y l]; [contradiction|]. destruct F2 as (n2 & tok2 & H2).
  destruct l2 as [|z l2]; [contradiction|]. destruct F as (n & tok & H).
  exists (S (S (length l + length l2))), tok. cbn [skipTo]. rewrite T, O. cbn [nextDirective].
  assert (H2' : skipTo (S (length l + length l2)) t2 y l = Ok (Some (tok2, z :: l2))) by (apply (skipTo_enough _ _ _ _ _ H2); lia).
  cbn [skipTo] in H2'. rewrite H2'. cbn [bind nextDirective].
  assert (H' : skipTo (S (length l + length l2)) t z l2 = Ok (Some (tok, r))) by (apply (skipTo_enough _ _ _ _ _ H); lia).
  cbn [skipTo] in H'. exact H'.
Qed.
Lemma found_skipPast : forall t ls r, t (LStmt 0) = false -> found t ls r -> skipPast t ls = Ok (Some r).
Proof.
  intros t ls r T F. unfold skipPast. destruct ls as [|x l]; [contradiction|]. destruct F as (n & tok & H).
  assert (E : skipTo (S (length (x :: l))) t (LStmt 0) (x :: l) = Ok (Some (tok, r))).
  { cbn [skipTo]. rewrite T. cbn [opens]. apply (skipTo_enough _ _ _ _ _ H). cbn. lia. }
  rewrite E. reflexivity.
Qed.

Definition ends (t : line -> bool) : Prop := t = isEndr \/ t = isEndc \/ t = isEndm \/ t = isFalseBranch.

Scheme prog_ind2 := Induction for prog Sort Prop with item_ind2 := Induction for item Sort Prop.
Combined Scheme prog_item_ind from prog_ind2, item_ind2.

Lemma found_both :
  (forall p t rest r, ends t -> found t rest r -> found t (flatten p ++ rest) r) /\
  (forall i t rest r, ends t -> found t rest r -> found t (flatten_item i ++ rest) r).
Proof.
  assert (Er : ends isEndr) by (unfold ends; auto). assert (Ec : ends isEndc) by (unfold ends; auto).
  assert (Em : ends isEndm) by (unfold ends; auto).
  apply prog_item_ind; cbn [flatten flatten_item]; intros.
  - assumption.
  - rewrite <- app_assoc. apply H; [assumption|]. apply H0; assumption.
  - cbn [app]. apply found_skip; [destruct H as [-> |[-> |[-> | ->]]]; reflexivity|reflexivity|assumption].
  - cbn [app]. rewrite <- app_assoc. apply (found_block t isEndr) with (l2 := rest);
      [destruct H0 as [-> |[-> |[-> | ->]]]; reflexivity|reflexivity| |assumption].
    apply H; [assumption|]. apply found_hit. reflexivity.
  - cbn [app]. rewrite <- app_assoc. apply (found_block t isEndc) with (l2 := rest);
      [destruct H0 as [-> |[-> |[-> | ->]]]; reflexivity|reflexivity| |assumption].
    apply H; [assumption|]. apply found_hit. reflexivity.
  - cbn [app]. rewrite <- app_assoc. cbn [app]. rewrite <- app_assoc. apply (found_block t isEndc) with (l2 := rest);
      [destruct H1 as [-> |[-> |[-> | ->]]]; reflexivity|reflexivity| |assumption].
    apply H; [assumption|]. apply found_skip; [reflexivity|reflexivity|].
    apply H0; [assumption|]. apply found_hit. reflexivity.
  - cbn [app]. rewrite <- app_assoc. apply (found_block t isEndm) with (l2 := rest);
      [destruct H0 as [-> |[-> |[-> | ->]]]; reflexivity|reflexivity| |assumption].
    apply H; [assumption|]. apply found_hit. reflexivity.
  - cbn [app]. apply found_skip; [destruct H as [-> |[-> |[-> | ->]]]; reflexivity|reflexivity|assumption].
  - cbn [app]. apply found_skip; [destruct H as [-> |[-> |[-> | ->]]]; reflexivity|reflexivity|assumption].
  - cbn [app]. apply found_skip; [destruct H as [-> |[-> |[-> | ->]]]; reflexivity|reflexivity|assumption].
  - cbn [app]. apply found_skip; [destruct H as [-> |[-> |[-> | ->]]]; reflexivity|reflexivity|assumption].
  - cbn [app]. apply found_skip; [destruct H as [-> |[-> |[-> | ->]]]; reflexivity|reflexivity|assumption].
Qed.
Lemma found_prog : forall p t rest r, ends t -> found t rest r -> found t (flatten p ++ rest) r.
Proof. exact (proj1 found_both). Qed.

(** ** Simulation *)
Definition mac (w : world) : list (Z * list line) := map (fun e => (fst e, flatten (snd e) ++ [LEndm])) (w_macros w).
Definition state (w : world) (stk : list ctx) : mst := MSt stk (mac w) (w_next w) (w_trace w).

Definition kind_is (k : place) (kk : kind) : Prop :=
  match k, kk with
  | InFile, KFile => True
  | InMacro, KMacro => True
  | InRept _, KRept _ => True
  | _, _ => False
  end.
Fixpoint frame (k : place) (a : list Z) (stk : list ctx) : Prop :=
  match k with
  | InFile => True
  | InMacro => stk <> []
  | InRept k =>
      match stk with
      | Ctx kk l u a1 :: stk => kind_is k kk /\ a1 = a /\ frame k a stk
      | [] => False
      end
  end.
Fixpoint reargs (k : place) (a : list Z) (stk : list ctx) : list ctx :=
  match k, stk with
  | InRept k, Ctx kk l u _ :: stk => Ctx kk l u a :: reargs k a stk
  | _, _ => stk
  end.
Lemma reargs_same : forall k a stk, frame k a stk -> reargs k a stk = stk.
Proof.
  induction k as [| |k IH]; intros a stk F; try reflexivity. destruct stk as [|[kk l u a1] stk]; [reflexivity|].
  cbn [frame] in F. destruct F as (_ & -> & F). cbn [reargs]. rewrite IH by assumption. reflexivity.
Qed.
Lemma reargs_twice : forall k a b stk, reargs k b (reargs k a stk) = reargs k b stk.
Proof.
  induction k as [| |k IH]; intros a b stk; try reflexivity. destruct stk as [|[kk l u a1] stk]; [reflexivity|].
  cbn [reargs]. rewrite IH. reflexivity.
Qed.
Lemma frame_reargs : forall k a b stk, frame k a stk -> frame k b (reargs k b stk).
Proof.
  induction k as [| |k IH]; intros a b stk F; try exact F. destruct stk as [|[kk l u a1] stk]; [exact F|].
  cbn [frame reargs] in *. destruct F as (K & _ & F). repeat split; eauto.
Qed.

Lemma inMacro_frame : forall k a stk kk l u, kind_is k kk -> frame k a stk ->
  inMacro (Ctx kk l u a :: stk) = macro_around k.
Proof.
  induction k as [| |k IH]; intros a stk kk l u K F; destruct kk; try contradiction; try reflexivity.
  destruct stk as [|[kk l1 u1 a1] stk]; [contradiction|]. cbn [frame] in F. destruct F as (K1 & -> & F).
  cbn [inMacro c_kind macro_around]. exact (IH a stk kk l1 u1 K1 F).
Qed.
Lemma setArgs_frame : forall k a b stk kk l u, kind_is k kk -> frame k a stk ->
  setArgs b (Ctx kk l u a :: stk) = Ctx kk l u b :: reargs k b stk.
Proof.
  induction k as [| |k IH]; intros a b stk kk l u K F; destruct kk; try contradiction; try reflexivity.
  destruct stk as [|[kk l1 u1 a1] stk]; [contradiction|]. cbn [frame] in F. destruct F as (K1 & -> & F).
  cbn [setArgs c_kind c_lines c_unique reargs]. f_equal. exact (IH a b stk kk l1 u1 K1 F).
Qed.

Lemma lookup_map : forall m (l : list (Z * prog)),
  lookup m (map (fun e => (fst e, flatten (snd e) ++ [LEndm])) l) =
  match lookup m l with Some b => Some (flatten b ++ [LEndm]) | None => None end.
Proof.
  intros m l. induction l as [|[k v] l IH]; [reflexivity|]. cbn [map lookup fst snd]. destruct (k =? m); auto.
Qed.

Section Sim.
Variable files : Z -> option prog.
Definition texts (f : Z) : option (list line) := match files f with Some p => Some (flatten p) | None => None end.

Inductive steps : mst -> mst -> Prop :=
| SRefl : forall s, steps s s
| SStep : forall s s1 s2, step texts s = Ok (Some s1) -> steps s1 s2 -> steps s s2.
Lemma steps_trans : forall s1 s2 s3, steps s1 s2 -> steps s2 s3 -> steps s1 s3.
Proof. intros s1 s2 s3 H. induction H; intros; [assumption|]. eapply SStep; eauto. Qed.
Lemma steps_one : forall s s1, step texts s = Ok (Some s1) -> steps s s1.
Proof. intros. eapply SStep; [eassumption|constructor]. Qed.
Lemma steps_run : forall s s1, steps s s1 -> step texts s1 = Ok None -> exists n, run texts n s = Ok s1.
Proof.
  intros s s1 H. induction H; intros E.
  - exists 1%nat. cbn [run]. rewrite E. reflexivity.
  - destruct (IHsteps E) as (n & Hn). exists (S n). cbn [run]. rewrite H. exact Hn.
Qed.

(** The effect of a piece that was left in a certain way. *)
Definition leaves (k : place) (u : Z) (kk : kind) (rest : list line) (stk : list ctx) (o : outcome)
    (s : mst) (a' : list Z) (w' : world) : Prop :=
  match o with
  | ONext => steps s (state w' (Ctx kk rest u a' :: reargs k a' stk))
  | ORexit =>
      match k, stk with
      | InRept k1, Ctx kk1 l1 u1 _ :: stk1 =>
          forall rest1, found isEndr rest rest1 -> steps s (state w' (Ctx kk1 rest1 u1 a' :: reargs k1 a' stk1))
      | _, _ => False
      end
  | OMexit => k = InMacro /\ steps s (state w' stk)
  end.

Lemma leaves_before : forall k u kk rest stk o s0 s a' w', steps s0 s ->
  leaves k u kk rest stk o s a' w' -> leaves k u kk rest stk o s0 a' w'.
Proof.
  intros k u kk rest stk o s0 s a' w' H L. destruct o; cbn [leaves] in *.
  - eapply steps_trans; eassumption.
  - destruct k as [| |k1]; try contradiction. destruct stk as [|[kk1 l1 u1 a1] stk]; [contradiction|].
    intros rest1 F. eapply steps_trans; [eassumption|auto].
  - destruct L. split; [assumption|]. eapply steps_trans; eassumption.
Qed.

Definition P_exec k u a w p o a' w' : Prop := forall kk rest stk, kind_is k kk -> frame k a stk ->
  leaves k u kk rest stk o (state w (Ctx kk (flatten p ++ rest) u a :: stk)) a' w'.
Definition P_item k u a w i o a' w' : Prop := forall kk rest stk, kind_is k kk -> frame k a stk ->
  leaves k u kk rest stk o (state w (Ctx kk (flatten_item i ++ rest) u a :: stk)) a' w'.
Definition P_passes k n a w b a' w' : Prop := forall kk u after stk, kind_is k kk -> frame k a stk ->
  match n with
  | O => a' = a /\ w' = w
  | S m =>
      steps (state (fresh w) (Ctx (KRept m) (flatten b ++ LEndr :: after) (w_next w) a ::
                              Ctx kk (flatten b ++ LEndr :: after) u a :: stk))
            (state w' (Ctx kk after u a' :: reargs k a' stk))
  end.

Scheme exec_ind3 := Minimality for exec Sort Prop
  with exec_item_ind3 := Minimality for exec_item Sort Prop
  with passes_ind3 := Minimality for passes Sort Prop.
Combined Scheme exec_all_ind from exec_ind3, exec_item_ind3, passes_ind3.

Lemma sim :
  (forall k u a w p o a' w', exec files k u a w p o a' w' -> P_exec k u a w p o a' w') /\
  (forall k u a w i o a' w', exec_item files k u a w i o a' w' -> P_item k u a w i o a' w') /\
  (forall k n a w b a' w', passes files k n a w b a' w' -> P_passes k n a w b a' w').
Proof.
  apply exec_all_ind; unfold P_exec, P_item, P_passes; cbn [flatten flatten_item].
  - (* PNil *) intros k u a w kk rest stk K F. cbn [leaves app]. rewrite reargs_same by assumption. constructor.
  - (* PSeq *) intros k u a w i p a1 w1 o a2 w2 _ IH1 _ IH2 kk rest stk K F. rewrite <- app_assoc.
    specialize (IH1 kk (flatten p ++ rest) stk K F). cbn [leaves] in IH1.
    specialize (IH2 kk rest (reargs k a1 stk) K (frame_reargs k a a1 stk F)).
    apply (leaves_before _ _ _ _ _ _ _ _ _ _ IH1).
    destruct o; cbn [leaves] in *.
    + rewrite reargs_twice in IH2. exact IH2.
    + destruct k as [| |k1]; try contradiction. destruct stk as [|[kk1 l1 u1 a0] stk]; [contradiction|].
      cbn [reargs] in IH2. intros rest1 Fd. specialize (IH2 rest1 Fd). rewrite reargs_twice in IH2. exact IH2.
    + destruct IH2 as (-> & IH2). cbn [reargs] in *. auto.
  - (* stop *) intros k u a w i p o a1 w1 _ IH No kk rest stk K F. rewrite <- app_assoc.
    specialize (IH kk (flatten p ++ rest) stk K F). destruct o; [contradiction| |exact IH].
    cbn [leaves] in *. destruct k as [| |k1]; try contradiction. destruct stk as [|[kk1 l1 u1 a0] stk]; [contradiction|].
    intros rest1 Fd. apply IH. apply found_prog; [unfold ends; auto|assumption].
  - (* PStmt *) intros k u a w i kk rest stk K F. cbn [leaves app]. rewrite reargs_same by assumption.
    apply steps_one. reflexivity.
  - (* PRept *) intros k u a w n b a' w' Hn _ IH kk rest stk K F. cbn [leaves app]. rewrite <- app_assoc. cbn [app].
    specialize (IH kk u rest stk K F).
    destruct (Z.to_nat (n (View (w_trace w) u a))) as [|m] eqn:E.
    + destruct IH as (-> & ->). rewrite reargs_same by assumption. apply steps_one.
      unfold step, state. cbn [m_stack m_trace m_next m_macros].
      destruct (Z.ltb_spec 0 (n (View (w_trace w) u a))) as [|_]; [lia|].
      destruct (Z.ltb_spec (n (View (w_trace w) u a)) 0) as [|_]; [lia|].
      rewrite (found_skipPast isEndr _ rest); [reflexivity|reflexivity|].
      apply found_prog; [unfold ends; auto|]. apply found_hit. reflexivity.
    + eapply SStep; [|exact IH].
      unfold step, state. cbn [m_stack m_trace m_next m_macros].
      destruct (Z.ltb_spec 0 (n (View (w_trace w) u a))) as [_|]; [|lia].
      rewrite E. cbn [Nat.sub]. rewrite Nat.sub_0_r. reflexivity.
  - (* PIf yes *) intros k u a w s c t o a' w' C _ IH kk rest stk K F. cbn [app]. rewrite <- app_assoc. cbn [app].
    specialize (IH kk (LEndc :: rest) stk K F).
    eapply leaves_before with (s := state w (Ctx kk (flatten t ++ LEndc :: rest) u a :: stk)).
    { apply steps_one. unfold step, state. cbn [m_stack m_trace m_next m_macros]. rewrite C. reflexivity. }
    destruct o; cbn [leaves] in *.
    + eapply steps_trans; [exact IH|]. apply steps_one. reflexivity.
    + destruct k as [| |k1]; try contradiction. destruct stk as [|[kk1 l1 u1 a0] stk]; [contradiction|].
      intros rest1 Fd. apply IH. apply found_skip; [reflexivity|reflexivity|assumption].
    + exact IH.
  - (* PIf no *) intros k u a w s c t C kk rest stk K F. cbn [app leaves]. rewrite <- app_assoc. cbn [app].
    rewrite reargs_same by assumption. apply steps_one. unfold step, state. cbn [m_stack m_trace m_next m_macros]. rewrite C.
    rewrite (found_skipPast isFalseBranch _ rest); [reflexivity|reflexivity|].
    apply found_prog; [unfold ends; auto|]. apply found_hit. reflexivity.
  - (* PIfElse yes *) intros k u a w s c t e o a' w' C _ IH kk rest stk K F. cbn [app]. rewrite <- app_assoc. cbn [app].
    rewrite <- app_assoc. cbn [app].
    specialize (IH kk (LElse :: flatten e ++ LEndc :: rest) stk K F).
    eapply leaves_before with (s := state w (Ctx kk (flatten t ++ LElse :: flatten e ++ LEndc :: rest) u a :: stk)).
    { apply steps_one. unfold step, state. cbn [m_stack m_trace m_next m_macros]. rewrite C. reflexivity. }
    destruct o; cbn [leaves] in *.
    + eapply steps_trans; [exact IH|]. apply steps_one. unfold step, state. cbn [m_stack m_trace m_next m_macros].
      rewrite (found_skipPast isEndc _ rest); [reflexivity|reflexivity|].
      apply found_prog; [unfold ends; auto|]. apply found_hit. reflexivity.
    + destruct k as [| |k1]; try contradiction. destruct stk as [|[kk1 l1 u1 a0] stk]; [contradiction|].
      intros rest1 Fd. apply IH. apply found_skip; [reflexivity|reflexivity|].
      apply found_prog; [unfold ends; auto|]. apply found_skip; [reflexivity|reflexivity|assumption].
    + exact IH.
  - (* PIfElse no *) intros k u a w s c t e o a' w' C _ IH kk rest stk K F. cbn [app]. rewrite <- app_assoc. cbn [app].
    rewrite <- app_assoc. cbn [app].
    specialize (IH kk (LEndc :: rest) stk K F).
    eapply leaves_before with (s := state w (Ctx kk (flatten e ++ LEndc :: rest) u a :: stk)).
    { apply steps_one. unfold step, state. cbn [m_stack m_trace m_next m_macros]. rewrite C.
      rewrite (found_skipPast isFalseBranch _ (flatten e ++ LEndc :: rest)); [reflexivity|reflexivity|].
      apply found_prog; [unfold ends; auto|]. apply found_hit. reflexivity. }
    destruct o; cbn [leaves] in *.
    + eapply steps_trans; [exact IH|]. apply steps_one. reflexivity.
    + destruct k as [| |k1]; try contradiction. destruct stk as [|[kk1 l1 u1 a0] stk]; [contradiction|].
      intros rest1 Fd. apply IH. apply found_skip; [reflexivity|reflexivity|assumption].
    + exact IH.
  - (* PMacro *) intros k u a w m b Lk kk rest stk K F. cbn [app leaves]. rewrite <- app_assoc. cbn [app].
    rewrite reargs_same by assumption. apply steps_one. unfold step, state. cbn [m_stack m_trace m_next m_macros].
    rewrite (found_skipPast isEndm _ rest);
      [|reflexivity|apply found_prog; [unfold ends; auto|]; apply found_hit; reflexivity].
    cbn [bind]. unfold mac at 1. rewrite lookup_map, Lk.
    do 2 f_equal. unfold mac, define. cbn [w_macros w_next w_trace]. rewrite map_app. cbn [map fst snd].
    do 3 f_equal. f_equal. rewrite app_length. cbn [length].
    replace (length (flatten b) + S (length rest) - length rest)%nat with (length (flatten b ++ [LEndm])).
    + replace (flatten b ++ LEndm :: rest) with ((flatten b ++ [LEndm]) ++ rest) by (rewrite <- app_assoc; reflexivity).
      rewrite firstn_app, Nat.sub_diag, firstn_all. cbn [firstn]. rewrite app_nil_r. reflexivity.
    + rewrite app_length. cbn [length]. lia.
  - (* PCall *) intros k u a w m f b o a1 w1 Lk _ IH Ho kk rest stk K F. cbn [app leaves].
    rewrite reargs_same by assumption.
    specialize (IH KMacro [LEndm] (Ctx kk rest u a :: stk) I ltac:(discriminate)).
    eapply SStep with (s1 := state (fresh w) (Ctx KMacro (flatten b ++ [LEndm]) (w_next w) (f (View (w_trace w) u a)) :: Ctx kk rest u a :: stk)).
    { unfold step, state. cbn [m_stack m_trace m_next m_macros]. unfold mac at 1. rewrite lookup_map, Lk. reflexivity. }
    destruct Ho as [-> | ->]; cbn [leaves reargs] in IH.
    + eapply steps_trans; [exact IH|]. apply steps_one. reflexivity.
    + destruct IH as (_ & IH). exact IH.
  - (* PInclude *) intros k u a w f p a1 w1 Hf _ IH kk rest stk K F. cbn [app leaves].
    rewrite reargs_same by assumption.
    specialize (IH KFile [] (Ctx kk rest u a :: stk) I I). cbn [leaves reargs] in IH. rewrite app_nil_r in IH.
    eapply SStep with (s1 := state (fresh w) (Ctx KFile (flatten p) (w_next w) [] :: Ctx kk rest u a :: stk)).
    { unfold step, state. cbn [m_stack m_trace m_next m_macros]. unfold texts. rewrite Hf. reflexivity. }
    eapply steps_trans; [exact IH|]. apply steps_one. reflexivity.
  - (* PShift *) intros k u a w n M kk rest stk K F. cbn [app leaves]. apply steps_one.
    unfold step, state. cbn [m_stack m_trace m_next m_macros].
    rewrite (inMacro_frame k a stk kk rest u K F), M, (setArgs_frame k a _ stk kk rest u K F). reflexivity.
  - intros k u a w n M kk rest stk K F. cbn [app leaves]. rewrite reargs_same by assumption. apply steps_one.
    unfold step, state. cbn [m_stack m_trace m_next m_macros].
    rewrite (inMacro_frame k a stk kk rest u K F), M. reflexivity.
  - (* PRexit *) intros k u a w kk rest stk K F. cbn [app leaves].
    destruct stk as [|[kk1 l1 u1 a0] stk]; [contradiction|]. cbn [frame] in F. destruct F as (K1 & -> & F).
    intros rest1 Fd. destruct kk; try contradiction. rewrite reargs_same by assumption. apply steps_one.
    unfold step, state. cbn [m_stack m_trace m_next m_macros].
    rewrite (found_skipPast isEndr rest rest1 eq_refl Fd). reflexivity.
  - intros k u a w No kk rest stk K F. cbn [app leaves]. rewrite reargs_same by assumption.
    destruct k as [| |k1]; [| |exfalso; exact (No k1 eq_refl)]; destruct kk; try contradiction; apply steps_one; reflexivity.
  - (* PMexit *) intros u a w kk rest stk K F. cbn [app leaves]. split; [reflexivity|].
    destruct kk; try contradiction. cbn [frame] in F. destruct stk as [|c stk]; [contradiction|].
    apply steps_one. reflexivity.
  - (* no pass *) intros. auto.
  - (* a pass and more *)
    intros k n a w b a1 w1 a2 w2 _ IH1 _ IH2 kk u after stk K F.
    specialize (IH1 (KRept n) (LEndr :: after) (Ctx kk (flatten b ++ LEndr :: after) u a :: stk) I (conj K (conj eq_refl F))).
    cbn [leaves reargs] in IH1. eapply steps_trans; [exact IH1|].
    specialize (IH2 kk u after (reargs k a1 stk) K (frame_reargs k a a1 stk F)).
    destruct n as [|n].
    + destruct IH2 as (-> & ->). apply steps_one. reflexivity.
    + rewrite reargs_twice in IH2. eapply SStep; [|exact IH2]. reflexivity.
  - (* REXIT *)
    intros k n a w b a1 w1 _ IH kk u after stk K F.
    specialize (IH (KRept n) (LEndr :: after) (Ctx kk (flatten b ++ LEndr :: after) u a :: stk) I (conj K (conj eq_refl F))).
    cbn [leaves] in IH. apply IH. apply found_hit. reflexivity.
Qed.
End Sim.

(** The order of the lines of a repeat block's trace, for a body of statements. *)
Definition stmts (ks : list Z) : prog := fold_right (fun k p => PSeq (PStmt k) p) PNil ks.
Lemma exec_stmts : forall files k u a ks w,
  exec files k u a w (stmts ks) ONext a (World (w_macros w) (w_next w) (w_trace w ++ map (fun i => EStmt i u a) ks)).
Proof.
  intros files k u a ks. induction ks as [|i ks IH]; intros w.
  - cbn [stmts fold_right map]. rewrite app_nil_r. destruct w. constructor.
  - cbn [stmts fold_right map]. eapply XSeq; [constructor|].
    specialize (IH (log w (EStmt i u a))). cbn [log w_macros w_next w_trace] in IH. rewrite <- app_assoc in IH. exact IH.
Qed.
Lemma passes_stmts : forall files k a ks n w,
  passes files k n a w (stmts ks) a
    (World (w_macros w) (w_next w + Z.of_nat n)
       (w_trace w ++ flat_map (fun j => map (fun i => EStmt i (w_next w + Z.of_nat j) a) ks) (seq 0 n))).
Proof.
  intros files k a ks n. induction n as [|n IH]; intros w.
  - cbn [seq flat_map]. rewrite app_nil_r, Z.add_0_r. destruct w. constructor.
  - eapply XPass; [apply exec_stmts|].
    specialize (IH (World (w_macros (fresh w)) (w_next (fresh w)) (w_trace (fresh w) ++ map (fun i => EStmt i (w_next w) a) ks))).
    cbn [w_macros w_next w_trace fresh] in IH |- *.
    replace (w_next w + Z.of_nat (S n)) with (w_next w + 1 + Z.of_nat n) by lia.
    cbn [seq flat_map]. rewrite Z.add_0_r.
    assert (E : flat_map (fun j => map (fun i => EStmt i (w_next w + Z.of_nat j) a) ks) (seq 1 n) =
                flat_map (fun j => map (fun i => EStmt i (w_next w + 1 + Z.of_nat j) a) ks) (seq 0 n)).
    { rewrite <- seq_shift. clear. induction (seq 0 n) as [|x l IHl]; [reflexivity|].
      cbn [map flat_map]. rewrite IHl. f_equal. replace (w_next w + Z.of_nat (S x)) with (w_next w + 1 + Z.of_nat x) by lia. reflexivity. }
    rewrite E. rewrite <- app_assoc in IH. exact IH.
Qed.
