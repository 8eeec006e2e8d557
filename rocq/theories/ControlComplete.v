(** Every run that comes to an end is one that ControlSpec describes. *)
From Coq Require Import ZArith List Bool Lia ZifyBool ZifyNat.
From Verif Require Import Base BaseFacts ControlModel ControlSpec ControlProofs.
Import ListNotations.
Open Scope Z_scope.

Section Complete.
Variable files : Z -> option prog.
Notation texts := (texts files).

Lemma run_step : forall n s s1 sf, run texts n s = Ok sf -> step texts s = Ok (Some s1) ->
  exists m, n = S m /\ run texts m s1 = Ok sf.
Proof. intros [|n] s s1 sf H E; [discriminate H|]. cbn [run] in H. rewrite E in H. exists n. auto. Qed.
Lemma run_err : forall n s sf, run texts n s = Ok sf -> step texts s <> Err.
Proof. intros [|n] s sf H E; [discriminate H|]. cbn [run] in H. rewrite E in H. discriminate H. Qed.
Lemma run_hang : forall n k ls u a outer mc nx tr sf,
  k <> KMacro -> run texts n (MSt (Ctx k (LMexit :: ls) u a :: outer) mc nx tr) <> Ok sf.
Proof.
  induction n as [|n IH]; intros k ls u a outer mc nx tr sf K H; [discriminate H|].
  cbn [run step m_stack] in H. destruct k; [|contradiction|]; cbn [bind] in H; eapply IH; try exact H; discriminate.
Qed.

Definition ended (k : place) (u : Z) (kk : kind) (rest : list line) (stk : list ctx) (o : outcome)
    (n : nat) (a' : list Z) (w' : world) (sf : mst) : Prop :=
  match o with
  | ONext => exists m, (m <= n)%nat /\ run texts m (state w' (Ctx kk rest u a' :: reargs k a' stk)) = Ok sf
  | ORexit =>
      match k, stk with
      | InRept k1, Ctx kk1 l1 u1 _ :: stk1 =>
          forall rest1, found isEndr rest rest1 ->
          exists m, (m <= n)%nat /\ run texts m (state w' (Ctx kk1 rest1 u1 a' :: reargs k1 a' stk1)) = Ok sf
      | _, _ => False
      end
  | OMexit => k = InMacro /\ exists m, (m <= n)%nat /\ run texts m (state w' stk) = Ok sf
  end.

Definition in_block (k : place) (rest : list line) : Prop :=
  match k with InRept _ => exists r, found isEndr rest r | _ => True end.

Definition C_prog (N : nat) (p : prog) : Prop := forall n w u a k kk rest stk sf,
  (n <= N)%nat -> kind_is k kk -> frame k a stk -> in_block k rest ->
  run texts n (state w (Ctx kk (flatten p ++ rest) u a :: stk)) = Ok sf ->
  exists o a' w', exec files k u a w p o a' w' /\ ended k u kk rest stk o n a' w' sf.
Definition C_item (N : nat) (i : item) : Prop := forall n w u a k kk rest stk sf,
  (n <= N)%nat -> kind_is k kk -> frame k a stk -> in_block k rest ->
  run texts n (state w (Ctx kk (flatten_item i ++ rest) u a :: stk)) = Ok sf ->
  exists o a' w', exec_item files k u a w i o a' w' /\ ended k u kk rest stk o n a' w' sf.

Lemma ended_le : forall k u kk rest stk o n m a' w' sf, (n <= m)%nat ->
  ended k u kk rest stk o n a' w' sf -> ended k u kk rest stk o m a' w' sf.
Proof.
  intros k u kk rest stk o n m a' w' sf L E. destruct o; cbn [ended] in *.
  - destruct E as (x & Lx & H). exists x. split; [lia|assumption].
  - destruct k as [| |k1]; try contradiction. destruct stk as [|[kk1 l1 u1 a0] stk]; [contradiction|].
    intros rest1 F. destruct (E rest1 F) as (x & Lx & H). exists x. split; [lia|assumption].
  - destruct E as (K & x & Lx & H). split; [assumption|]. exists x. split; [lia|assumption].
Qed.
Lemma in_block_found : forall k rest rest2, in_block k rest ->
  (forall r, found isEndr rest r -> found isEndr rest2 r) -> in_block k rest2.
Proof. intros [| |k] rest rest2 H F; cbn in *; auto. destruct H as (r & H). eauto. Qed.

Lemma complete_passes : forall N b, C_prog N b -> forall rem n w u a k kk after stk sf,
  (n <= N)%nat -> kind_is k kk -> frame k a stk ->
  run texts n (state (fresh w) (Ctx (KRept rem) (flatten b ++ LEndr :: after) (w_next w) a ::
                                Ctx kk (flatten b ++ LEndr :: after) u a :: stk)) = Ok sf ->
  exists a' w', passes files k (S rem) a w b a' w' /\
    exists m, (m <= n)%nat /\ run texts m (state w' (Ctx kk after u a' :: reargs k a' stk)) = Ok sf.
Proof.
  intros N b Cb. induction rem as [|rem IH]; intros n w u a k kk after stk sf L K F H.
  - destruct (Cb n (fresh w) (w_next w) a (InRept k) (KRept 0) (LEndr :: after) (Ctx kk (flatten b ++ LEndr :: after) u a :: stk) sf L I (conj K (conj eq_refl F))
      (ex_intro _ after (found_hit isEndr LEndr after eq_refl)) H) as (o & a' & w' & X & E).
    destruct o; cbn [ended] in E.
    + destruct E as (m & Lm & E). cbn [reargs] in E.
      destruct (run_step m _ (state w' (Ctx kk after u a' :: reargs k a' stk)) sf E eq_refl) as (m1 & -> & E1).
      exists a', w'. split; [eapply XPass; [exact X|constructor]|]. exists m1. split; [lia|exact E1].
    + destruct (E after (found_hit isEndr LEndr after eq_refl)) as (m & Lm & E1).
      exists a', w'. split; [eapply XExit; exact X|]. exists m. auto.
    + destruct E as (E & _). discriminate E.
  - destruct (Cb n (fresh w) (w_next w) a (InRept k) (KRept (S rem)) (LEndr :: after) (Ctx kk (flatten b ++ LEndr :: after) u a :: stk) sf L I (conj K (conj eq_refl F))
      (ex_intro _ after (found_hit isEndr LEndr after eq_refl)) H) as (o & a' & w' & X & E).
    destruct o; cbn [ended] in E.
    + destruct E as (m & Lm & E). cbn [reargs] in E.
      destruct (run_step m _ (state (fresh w') (Ctx (KRept rem) (flatten b ++ LEndr :: after) (w_next w') a' ::
                                Ctx kk (flatten b ++ LEndr :: after) u a' :: reargs k a' stk)) sf E eq_refl) as (m1 & -> & E1).
      destruct (IH m1 w' u a' k kk after (reargs k a' stk) sf ltac:(lia) K (frame_reargs k a a' stk F) E1)
        as (a2 & w2 & X2 & m2 & L2 & E2).
      exists a2, w2. split; [eapply XPass; [exact X|exact X2]|]. exists m2. split; [lia|].
      rewrite reargs_twice in E2. exact E2.
    + destruct (E after (found_hit isEndr LEndr after eq_refl)) as (m & Lm & E1).
      exists a', w'. split; [eapply XExit; exact X|]. exists m. auto.
    + destruct E as (E & _). discriminate E.
Qed.

Lemma complete_level : forall N, (forall m, (m < N)%nat -> forall p, C_prog m p) ->
  (forall p, C_prog N p) /\ (forall i, C_item N i).
Proof.
  intros N IHN. apply prog_item_ind; unfold C_prog, C_item; cbn [flatten flatten_item].
  - (* PNil *) intros n w u a k kk rest stk sf L K F B H. exists ONext, a, w. split; [constructor|].
    cbn [ended]. rewrite reargs_same by assumption. exists n. auto.
  - (* PSeq *) intros i Ci p Cp n w u a k kk rest stk sf L K F B H. rewrite <- app_assoc in H.
    assert (B1 : in_block k (flatten p ++ rest)).
    { apply (in_block_found k rest); [exact B|]. intros r Fd. apply found_prog; [unfold ends; auto|exact Fd]. }
    destruct (Ci n w u a k kk (flatten p ++ rest) stk sf L K F B1 H) as (o & a1 & w1 & X & E).
    destruct o; cbn [ended] in E.
    + destruct E as (m & Lm & E).
      destruct (Cp m w1 u a1 k kk rest (reargs k a1 stk) sf ltac:(lia) K (frame_reargs k a a1 stk F) B E)
        as (o & a2 & w2 & X2 & E2).
      exists o, a2, w2. split; [eapply XSeq; eassumption|]. apply (ended_le _ _ _ _ _ _ m n); [exact Lm|].
      destruct o; cbn [ended] in *.
      * rewrite reargs_twice in E2. exact E2.
      * destruct k as [| |k1]; try contradiction. destruct stk as [|[kk1 l1 u1 a0] stk]; [contradiction|].
        cbn [reargs] in E2. intros rest1 Fd. specialize (E2 rest1 Fd). rewrite reargs_twice in E2. exact E2.
      * destruct E2 as (-> & E2). cbn [reargs] in E2. auto.
    + exists ORexit, a1, w1. split; [eapply XStop; [exact X|discriminate]|]. cbn [ended].
      destruct k as [| |k1]; try contradiction. destruct stk as [|[kk1 l1 u1 a0] stk]; [contradiction|].
      intros rest1 Fd. apply E. apply found_prog; [unfold ends; auto|exact Fd].
    + exists OMexit, a1, w1. split; [eapply XStop; [exact X|discriminate]|exact E].
  - (* PStmt *) intros i n w u a k kk rest stk sf L K F B H.
    destruct (run_step n _ (state (log w (EStmt i u a)) (Ctx kk rest u a :: stk)) sf H eq_refl) as (m & -> & E).
    exists ONext, a, (log w (EStmt i u a)). split; [constructor|]. cbn [ended]. rewrite reargs_same by assumption.
    exists m. split; [lia|exact E].
  - (* PRept *) intros c b Cb n w u a k kk rest stk sf L K F B H. cbn [app] in H. rewrite <- app_assoc in H. cbn [app] in H.
    destruct (Z_lt_ge_dec (c (View (w_trace w) u a)) 0) as [N0|N0].
    { exfalso. apply (run_err _ _ _ H). unfold step, state. cbn [m_stack m_trace].
      destruct (Z.ltb_spec 0 (c (View (w_trace w) u a))); [lia|].
      destruct (Z.ltb_spec (c (View (w_trace w) u a)) 0); [reflexivity|lia]. }
    destruct (Z.to_nat (c (View (w_trace w) u a))) as [|rem] eqn:EC.
    + destruct (run_step n _ (state w (Ctx kk rest u a :: stk)) sf H) as (m & -> & E).
      { unfold step, state. cbn [m_stack m_trace m_next m_macros].
        destruct (Z.ltb_spec 0 (c (View (w_trace w) u a))) as [|_]; [lia|].
        destruct (Z.ltb_spec (c (View (w_trace w) u a)) 0) as [|_]; [lia|].
        rewrite (found_skipPast isEndr _ rest); [reflexivity|reflexivity|].
        apply found_prog; [unfold ends; auto|]. apply found_hit. reflexivity. }
      exists ONext, a, w. split; [constructor; [lia|rewrite EC; constructor]|]. cbn [ended].
      rewrite reargs_same by assumption. exists m. split; [lia|exact E].
    + destruct (run_step n _ (state (fresh w) (Ctx (KRept rem) (flatten b ++ LEndr :: rest) (w_next w) a ::
                                Ctx kk (flatten b ++ LEndr :: rest) u a :: stk)) sf H) as (m & -> & E).
      { unfold step, state. cbn [m_stack m_trace m_next m_macros].
        destruct (Z.ltb_spec 0 (c (View (w_trace w) u a))) as [_|]; [|lia].
        rewrite EC. cbn [Nat.sub]. rewrite Nat.sub_0_r. reflexivity. }
      destruct (complete_passes N b Cb rem m w u a k kk rest stk sf ltac:(lia) K F E) as (a' & w' & X & m2 & L2 & E2).
      exists ONext, a', w'. split; [constructor; [lia|rewrite EC; exact X]|]. cbn [ended]. exists m2. split; [lia|exact E2].
  - (* PIf *) intros s c t Ct n w u a k kk rest stk sf L K F B H. cbn [app] in H. rewrite <- app_assoc in H. cbn [app] in H.
    destruct (c (View (w_trace w) u a)) eqn:C.
    + destruct (run_step n _ (state w (Ctx kk (flatten t ++ LEndc :: rest) u a :: stk)) sf H) as (m & -> & E).
      { unfold step, state. cbn [m_stack m_trace m_next m_macros]. rewrite C. reflexivity. }
      assert (B1 : in_block k (LEndc :: rest)).
      { apply (in_block_found k rest); [exact B|]. intros r Fd. apply found_skip; [reflexivity|reflexivity|exact Fd]. }
      destruct (Ct m w u a k kk (LEndc :: rest) stk sf ltac:(lia) K F B1 E) as (o & a' & w' & X & E1).
      exists o, a', w'. split; [apply XIfYes; assumption|]. apply (ended_le _ _ _ _ _ _ m (S m)); [lia|].
      destruct o; cbn [ended] in *.
      * destruct E1 as (m1 & L1 & E1).
        destruct (run_step m1 _ (state w' (Ctx kk rest u a' :: reargs k a' stk)) sf E1 eq_refl) as (m2 & -> & E2).
        exists m2. split; [lia|exact E2].
      * destruct k as [| |k1]; try contradiction. destruct stk as [|[kk1 l1 u1 a0] stk]; [contradiction|].
        intros rest1 Fd. apply E1. apply found_skip; [reflexivity|reflexivity|exact Fd].
      * exact E1.
    + destruct (run_step n _ (state w (Ctx kk rest u a :: stk)) sf H) as (m & -> & E).
      { unfold step, state. cbn [m_stack m_trace m_next m_macros]. rewrite C.
        rewrite (found_skipPast isFalseBranch _ rest); [reflexivity|reflexivity|].
        apply found_prog; [unfold ends; auto|]. apply found_hit. reflexivity. }
      exists ONext, a, w. split; [apply XIfNo; assumption|]. cbn [ended]. rewrite reargs_same by assumption.
      exists m. split; [lia|exact E].
  - (* PIfElse *) intros s c t Ct e Ce n w u a k kk rest stk sf L K F B H.
    cbn [app] in H. rewrite <- app_assoc in H. cbn [app] in H. rewrite <- app_assoc in H. cbn [app] in H.
    destruct (c (View (w_trace w) u a)) eqn:C.
    + destruct (run_step n _ (state w (Ctx kk (flatten t ++ LElse :: flatten e ++ LEndc :: rest) u a :: stk)) sf H) as (m & -> & E).
      { unfold step, state. cbn [m_stack m_trace m_next m_macros]. rewrite C. reflexivity. }
      assert (FB : forall r, found isEndr rest r -> found isEndr (LElse :: flatten e ++ LEndc :: rest) r).
      { intros r Fd. apply found_skip; [reflexivity|reflexivity|].
        apply found_prog; [unfold ends; auto|]. apply found_skip; [reflexivity|reflexivity|exact Fd]. }
      assert (B1 : in_block k (LElse :: flatten e ++ LEndc :: rest)) by (apply (in_block_found k rest); [exact B|exact FB]).
      destruct (Ct m w u a k kk (LElse :: flatten e ++ LEndc :: rest) stk sf ltac:(lia) K F B1 E) as (o & a' & w' & X & E1).
      exists o, a', w'. split; [apply XIfElseYes; assumption|]. apply (ended_le _ _ _ _ _ _ m (S m)); [lia|].
      destruct o; cbn [ended] in *.
      * destruct E1 as (m1 & L1 & E1).
        destruct (run_step m1 _ (state w' (Ctx kk rest u a' :: reargs k a' stk)) sf E1) as (m2 & -> & E2).
        { unfold step, state. cbn [m_stack m_trace m_next m_macros].
          rewrite (found_skipPast isEndc _ rest); [reflexivity|reflexivity|].
          apply found_prog; [unfold ends; auto|]. apply found_hit. reflexivity. }
        exists m2. split; [lia|exact E2].
      * destruct k as [| |k1]; try contradiction. destruct stk as [|[kk1 l1 u1 a0] stk]; [contradiction|].
        intros rest1 Fd. apply E1. apply FB. exact Fd.
      * exact E1.
    + destruct (run_step n _ (state w (Ctx kk (flatten e ++ LEndc :: rest) u a :: stk)) sf H) as (m & -> & E).
      { unfold step, state. cbn [m_stack m_trace m_next m_macros]. rewrite C.
        rewrite (found_skipPast isFalseBranch _ (flatten e ++ LEndc :: rest)); [reflexivity|reflexivity|].
        apply found_prog; [unfold ends; auto|]. apply found_hit. reflexivity. }
      assert (B1 : in_block k (LEndc :: rest)).
      { apply (in_block_found k rest); [exact B|]. intros r Fd. apply found_skip; [reflexivity|reflexivity|exact Fd]. }
      destruct (Ce m w u a k kk (LEndc :: rest) stk sf ltac:(lia) K F B1 E) as (o & a' & w' & X & E1).
      exists o, a', w'. split; [apply XIfElseNo; assumption|]. apply (ended_le _ _ _ _ _ _ m (S m)); [lia|].
      destruct o; cbn [ended] in *.
      * destruct E1 as (m1 & L1 & E1).
        destruct (run_step m1 _ (state w' (Ctx kk rest u a' :: reargs k a' stk)) sf E1 eq_refl) as (m2 & -> & E2).
        exists m2. split; [lia|exact E2].
      * destruct k as [| |k1]; try contradiction. destruct stk as [|[kk1 l1 u1 a0] stk]; [contradiction|].
        intros rest1 Fd. apply E1. apply found_skip; [reflexivity|reflexivity|exact Fd].
      * exact E1.
  - (* PMacro *) intros m b _ n w u a k kk rest stk sf L K F B H. cbn [app] in H. rewrite <- app_assoc in H. cbn [app] in H.
    assert (SP : skipPast isEndm (flatten b ++ LEndm :: rest) = Ok (Some rest)).
    { apply found_skipPast; [reflexivity|]. apply found_prog; [unfold ends; auto|]. apply found_hit; reflexivity. }
    destruct (lookup m (w_macros w)) as [b0|] eqn:Lk.
    { exfalso. apply (run_err _ _ _ H). unfold step, state. cbn [m_stack m_trace m_next m_macros]. rewrite SP. cbn [bind].
      unfold mac. rewrite lookup_map, Lk. reflexivity. }
    destruct n as [|n]; [discriminate H|].
    assert (X : exec_item files k u a w (PMacro m b) ONext a (define w m b)) by (constructor; assumption).
    assert (St : step texts (state w (Ctx kk (LMacro m :: flatten b ++ LEndm :: rest) u a :: stk)) =
                 Ok (Some (state (define w m b) (Ctx kk rest u a :: stk)))).
    { unfold step, state. cbn [m_stack m_trace m_next m_macros]. rewrite SP. cbn [bind]. unfold mac at 1. rewrite lookup_map, Lk.
      do 2 f_equal. unfold mac, define. cbn [w_macros w_next w_trace]. rewrite map_app. cbn [map fst snd].
      do 3 f_equal. f_equal. rewrite app_length. cbn [length].
      replace (length (flatten b) + S (length rest) - length rest)%nat with (length (flatten b ++ [LEndm])).
      + replace (flatten b ++ LEndm :: rest) with ((flatten b ++ [LEndm]) ++ rest) by (rewrite <- app_assoc; reflexivity).
        rewrite firstn_app, Nat.sub_diag, firstn_all. cbn [firstn]. rewrite app_nil_r. reflexivity.
      + rewrite app_length. cbn [length]. lia. }
    destruct (run_step (S n) _ _ sf H St) as (m1 & E1 & E2). injection E1 as <-.
    exists ONext, a, (define w m b). split; [exact X|]. cbn [ended]. rewrite reargs_same by assumption. exists n. split; [lia|exact E2].
  - (* PCall *) intros m f n w u a k kk rest stk sf L K F B H. cbn [app] in H.
    destruct (lookup m (w_macros w)) as [b|] eqn:Lk.
    2:{ exfalso. apply (run_err _ _ _ H). unfold step, state. cbn [m_stack m_trace m_next m_macros].
        unfold mac. rewrite lookup_map, Lk. reflexivity. }
    destruct (run_step n _ (state (fresh w) (Ctx KMacro (flatten b ++ [LEndm]) (w_next w) (f (View (w_trace w) u a)) :: Ctx kk rest u a :: stk)) sf H) as (m1 & -> & E).
    { unfold step, state. cbn [m_stack m_trace m_next m_macros]. unfold mac at 1. rewrite lookup_map, Lk. reflexivity. }
    destruct (IHN m1 ltac:(lia) b m1 (fresh w) (w_next w) (f (View (w_trace w) u a)) InMacro KMacro [LEndm] (Ctx kk rest u a :: stk) sf
      ltac:(lia) I ltac:(discriminate) I E) as (o & a1 & w1 & X & E1).
    destruct o; cbn [ended] in E1.
    + destruct E1 as (m2 & L2 & E2). cbn [reargs] in E2.
      destruct (run_step m2 _ (state w1 (Ctx kk rest u a :: stk)) sf E2 eq_refl) as (m3 & -> & E3).
      exists ONext, a, w1. split; [eapply XCall; [exact Lk|exact X|auto]|]. cbn [ended]. rewrite reargs_same by assumption.
      exists m3. split; [lia|exact E3].
    + contradiction.
    + destruct E1 as (_ & m2 & L2 & E2).
      exists ONext, a, w1. split; [eapply XCall; [exact Lk|exact X|auto]|]. cbn [ended]. rewrite reargs_same by assumption.
      exists m2. split; [lia|exact E2].
  - (* PInclude *) intros f n w u a k kk rest stk sf L K F B H. cbn [app] in H.
    destruct (files f) as [p|] eqn:Hf.
    2:{ exfalso. apply (run_err _ _ _ H). unfold step, state. cbn [m_stack m_trace m_next m_macros]. unfold ControlProofs.texts. rewrite Hf. reflexivity. }
    destruct (run_step n _ (state (fresh w) (Ctx KFile (flatten p) (w_next w) [] :: Ctx kk rest u a :: stk)) sf H) as (m1 & -> & E).
    { unfold step, state. cbn [m_stack m_trace m_next m_macros]. unfold ControlProofs.texts. rewrite Hf. reflexivity. }
    rewrite <- (app_nil_r (flatten p)) in E.
    destruct (IHN m1 ltac:(lia) p m1 (fresh w) (w_next w) [] InFile KFile [] (Ctx kk rest u a :: stk) sf
      ltac:(lia) I I I E) as (o & a1 & w1 & X & E1).
    destruct o; cbn [ended] in E1.
    + destruct E1 as (m2 & L2 & E2). cbn [reargs] in E2.
      destruct (run_step m2 _ (state w1 (Ctx kk rest u a :: stk)) sf E2 eq_refl) as (m3 & -> & E3).
      exists ONext, a, w1. split; [eapply XInclude; [exact Hf|exact X]|]. cbn [ended]. rewrite reargs_same by assumption.
      exists m3. split; [lia|exact E3].
    + contradiction.
    + destruct E1 as (E1 & _). discriminate E1.
  - (* PShift *) intros c n w u a k kk rest stk sf L K F B H. cbn [app] in H.
    destruct (macro_around k) eqn:M.
    + set (a' := skipn (Z.to_nat (c (View (w_trace w) u a))) a).
      destruct (run_step n _ (state w (Ctx kk rest u a' :: reargs k a' stk)) sf H) as (m & -> & E).
      { unfold step, state. cbn [m_stack m_trace m_next m_macros].
        rewrite (inMacro_frame k a stk kk rest u K F), M, (setArgs_frame k a _ stk kk rest u K F). reflexivity. }
      exists ONext, a', w. split; [apply XShift; exact M|]. exists m. split; [lia|exact E].
    + destruct (run_step n _ (state (log w (EWarn 3)) (Ctx kk rest u a :: stk)) sf H) as (m & -> & E).
      { unfold step, state. cbn [m_stack m_trace m_next m_macros].
        rewrite (inMacro_frame k a stk kk rest u K F), M. reflexivity. }
      exists ONext, a, (log w (EWarn 3)). split; [apply XShiftOutside; exact M|]. cbn [ended].
      rewrite reargs_same by assumption. exists m. split; [lia|exact E].
  - (* PRexit *) intros n w u a k kk rest stk sf L K F B H. cbn [app] in H. destruct k as [| |k1].
    + destruct kk; try contradiction.
      destruct (run_step n _ (state (log w (EWarn 1)) (Ctx KFile rest u a :: stk)) sf H eq_refl) as (m & -> & E).
      exists ONext, a, (log w (EWarn 1)). split; [apply XRexitOutside; discriminate|]. exists m. split; [lia|exact E].
    + destruct kk; try contradiction.
      destruct (run_step n _ (state (log w (EWarn 1)) (Ctx KMacro rest u a :: stk)) sf H eq_refl) as (m & -> & E).
      exists ONext, a, (log w (EWarn 1)). split; [apply XRexitOutside; discriminate|]. exists m. split; [lia|exact E].
    + destruct kk as [| |rem]; try contradiction. destruct stk as [|[kk1 l1 u1 a0] stk]; [contradiction|].
      cbn [frame] in F. destruct F as (K1 & -> & F). destruct B as (r & Fd).
      pose proof (found_skipPast isEndr rest r eq_refl Fd) as SP.
      destruct (run_step n _ (state w (Ctx kk1 r u1 a :: stk)) sf H) as (m & -> & E).
      { unfold step, state. cbn [m_stack m_trace m_next m_macros]. rewrite SP. reflexivity. }
      exists ORexit, a, w. split; [apply XRexit|]. cbn [ended]. intros r1 Fd1.
      pose proof (found_skipPast isEndr rest r1 eq_refl Fd1) as SP1. rewrite SP in SP1. injection SP1 as <-.
      rewrite reargs_same by assumption. exists m. split; [lia|exact E].
  - (* PMexit *) intros n w u a k kk rest stk sf L K F B H. cbn [app] in H. destruct k as [| |k1].
    + destruct kk; try contradiction. exfalso. eapply run_hang; [|exact H]. discriminate.
    + destruct kk; try contradiction. cbn [frame] in F. destruct stk as [|c stk]; [contradiction|].
      destruct (run_step n _ (state w (c :: stk)) sf H eq_refl) as (m & -> & E).
      exists OMexit, a, w. split; [constructor|]. cbn [ended]. split; [reflexivity|]. exists m. split; [lia|exact E].
    + destruct kk; try contradiction. exfalso. eapply run_hang; [|exact H]. discriminate.
Qed.

Lemma complete : forall N p, C_prog N p.
Proof.
  induction N as [N IH] using (well_founded_induction lt_wf). exact (proj1 (complete_level N IH)).
Qed.
End Complete.
