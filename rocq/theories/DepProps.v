(** C69: included files are found where they should be, and the dependency file lists
    the files that were read. *)
From Coq Require Import Ascii String Arith List Bool Lia Permutation.
From Verif Require Import Base DepModel DepSpec.
Import ListNotations.
Open Scope string_scope.
Open Scope list_scope.

Lemma last_char : forall p, match String.get (String.length p - 1) p with
  | None => p = "" | Some ch => ((ch =? "\")%char || (ch =? "/")%char) = ends_in_separator p end.
Proof.
  induction p as [|c p IH]; [reflexivity|]. destruct p as [|d p]; [cbn; rewrite orb_comm; reflexivity|].
  cbn [String.length] in IH |- *. replace (S (S (String.length p)) - 1)%nat with (S (S (String.length p) - 1))%nat by lia.
  change (String.get (S (S (String.length p) - 1)) (String c (String d p))) with (String.get (S (String.length p) - 1) (String d p)).
  destruct (String.get (S (String.length p) - 1) (String d p)); [exact IH|discriminate IH].
Qed.
Definition closed (dir : string) : string := if ends_in_separator dir then dir else String.append dir "/".
Lemma add_path : forall p paths q, inc_AddIncludePath p paths = Ok q -> q = paths ++ [closed p].
Proof.
  intros p paths q H. unfold inc_AddIncludePath in H. pose proof (last_char p) as L. destruct (String.get (String.length p - 1) p); [|discriminate H].
  rewrite L in H. injection H as <-. reflexivity.
Qed.
Lemma add_paths : forall dirs paths q, addPaths dirs paths = Ok q -> q = paths ++ map closed dirs.
Proof.
  induction dirs as [|p r IH]; intros paths q H; cbn [addPaths] in H; [injection H as <-; rewrite app_nil_r; reflexivity|].
  destruct (inc_AddIncludePath p paths) as [x| |] eqn:E; try discriminate H. cbn [bind] in H. rewrite (IH _ _ H), (add_path _ _ _ E), <- app_assoc. reflexivity.
Qed.
Lemma find_paths : forall w dirs name, findInPaths w (map closed dirs) name = find (fexists w) (map (inside w name) dirs).
Proof.
  induction dirs as [|p r IH]; intros name; [reflexivity|]. cbn [map findInPaths find]. unfold appendFilename. change (canonical w (String.append (closed p) name)) with (inside w name p).
  rewrite IH. reflexivity.
Qed.
Lemma find_file : forall w dirs paths cur name, addPaths dirs [] = Ok paths -> (cur = None -> fexists w (canonical w name) = fexists w name) ->
  inc_FindFile w paths cur name = located w dirs cur name.
Proof.
  intros w dirs paths cur name E C. rewrite (add_paths _ _ _ E). cbn [app]. unfold inc_FindFile, located, places. rewrite find_paths.
  destruct cur as [f|]; cbn [buildFilename beside].
  - destruct (replaced w f name) as [x|]; cbn [app find]; [|destruct (find _ _); reflexivity]. destruct (fexists w x); [reflexivity|]. destruct (find _ _); reflexivity.
  - cbn [app find]. rewrite (C eq_refl). destruct (fexists w name) eqn:X; [reflexivity|]. destruct (find _ _); reflexivity.
Qed.

(** A file is the first that exists of: the one beside the file that names it, and those
    in the directories given, in their order.  The library's canonical name of a file is
    one of that file. *)
Theorem C69_search : forall w dirs paths cur name f, addPaths dirs [] = Ok paths ->
  (cur = None -> fexists w (canonical w name) = fexists w name) ->
  inc_FindFile w paths cur name = Some f <->
  exists before after, places w dirs cur name = before ++ f :: after /\ fexists w f = true /\ Forall (fun x => fexists w x = false) before.
Proof.
  intros w dirs paths cur name f E C. rewrite (find_file _ _ _ _ _ E C). unfold located. generalize (places w dirs cur name). clear.
  induction l as [|x l IH]; cbn [find].
  - split; [discriminate|]. intros ([|] & ? & H & _); discriminate H.
  - destruct (fexists w x) eqn:X.
    + split.
      * intro H. injection H as <-. exists [], l. split; [reflexivity|]. split; [exact X|constructor].
      * intros ([|b before] & after & H & F & B); injection H as -> ->; [reflexivity|]. inversion B; congruence.
    + rewrite IH. split.
      * intros (b & a & -> & F & B). exists (x :: b), a. split; [reflexivity|]. split; [exact F|]. constructor; assumption.
      * intros ([|b before] & after & H & F & B); injection H as -> H; [congruence|]. exists before, after. split; [exact H|]. split; [exact F|]. inversion B; assumption.
Qed.
Print Assumptions C69_search.

(** INCLUDE of a file that is there, and that has not said INCLUDE ONCE, opens it, and
    reading goes on in it; INCBIN takes its bytes.  If there is none, that is reported. *)
Theorem C69_include : forall w dirs paths name s, addPaths dirs [] = Ok paths -> s_stack s <> [] ->
  match located w dirs (working s) name with
  | None => (exists s', step w paths (EInclude name) s = Ok s' /\ s_errors s' = S (s_errors s) /\ s_opened s' = s_opened s) /\
            (exists s', step w paths (EIncbin name) s = Ok s' /\ s_errors s' = S (s_errors s) /\ s_opened s' = s_opened s)
  | Some f => fopens w f = true -> ~ said_once f s ->
      (exists s', step w paths (EInclude name) s = Ok s' /\ s_opened s' = f :: s_opened s /\ s_stack s' = f :: s_stack s /\ s_errors s' = s_errors s) /\
      (exists s', step w paths (EIncbin name) s = Ok s' /\ s_opened s' = f :: s_opened s /\ s_binaries s' = f :: s_binaries s /\ s_errors s' = s_errors s /\ s_stack s' = s_stack s)
  end.
Proof.
  intros w dirs paths name s E N. assert (C : working s = None -> fexists w (canonical w name) = fexists w name) by (unfold working; destruct (s_stack s); [congruence|discriminate]).
  pose proof (find_file w dirs paths (working s) name E C) as L. destruct (located w dirs (working s) name) as [f|]; cbn [step]; unfold handleFileCore; rewrite L.
  - intros O Q. unfold mayIncludeFile, lexctx_ProcessIncludeFile, sect_OutputBinaryFile. rewrite O.
    assert (X : forall l, s_once s = Some l -> set_exists f l = false).
    { intros l Hl. destruct (set_exists f l) eqn:Y; [|reflexivity]. exfalso. apply Q. apply existsb_exists in Y. destruct Y as (g & G & Y). apply String.eqb_eq in Y. subst g. exists l. split; assumption. }
    destruct (s_once s) as [l|] eqn:Z; [rewrite (X l eq_refl); cbn [negb]|]; unfold dep_AddDependency;
      (split; eexists; (split; [reflexivity|])); cbn; destruct (s_dep s) as [[[]]|]; repeat split.
  - split; eexists; (split; [reflexivity|]); split; reflexivity.
Qed.
Print Assumptions C69_include.

Lemma set_insert_in : forall x y l, In y (set_insert x l) <-> y = x \/ In y l.
Proof.
  intros x y l. unfold set_insert, set_exists. destruct (existsb (String.eqb x) l) eqn:E.
  - apply existsb_exists in E. destruct E as (z & Hz & E). apply String.eqb_eq in E. subst z. split; [tauto|]. intros [->|H]; assumption.
  - rewrite in_app_iff. cbn. split; intuition congruence.
Qed.
Lemma set_insert_nodup : forall x l, NoDup l -> NoDup (set_insert x l).
Proof.
  intros x l H. unfold set_insert, set_exists. destruct (existsb (String.eqb x) l) eqn:E; [exact H|].
  apply (Permutation_NoDup (l := x :: l)); [apply Permutation_cons_append|]. constructor; [|exact H].
  intro I. assert (X : existsb (String.eqb x) l = true) by (apply existsb_exists; exists x; split; [exact I|apply String.eqb_refl]). congruence.
Qed.
Lemma once_kept : forall w paths e s s' f, step w paths e s = Ok s' -> said_once f s ->
  said_once f s' /\ (s_opened s' = s_opened s \/ exists g, g <> f /\ s_opened s' = g :: s_opened s).
Proof.
  intros w paths e s s' f H (l & Hl & I).
  assert (K : forall s2, s_once s2 = s_once s -> said_once f s2) by (intros s2 E; exists l; split; [congruence|exact I]).
  assert (Ad : forall g s2, s_once (dep_AddDependency g s2) = s_once s2 /\ s_opened (dep_AddDependency g s2) = s_opened s2 /\ s_stack (dep_AddDependency g s2) = s_stack s2)
    by (intros g s2; unfold dep_AddDependency; destruct (s_dep s2) as [[]|]; repeat split).
  destruct e as [name|name| |g| |]; cbn [step] in H.
  1, 2: unfold handleFileCore, mayIncludeFile in H; rewrite Hl in H; destruct (inc_FindFile w paths (working s) name) as [g|]; [|injection H as <-; split; [apply K; reflexivity|left; reflexivity]];
    destruct (set_exists g l) eqn:X; cbn [negb] in H; [injection H as <-; split; [apply K; reflexivity|left; reflexivity]|];
    unfold lexctx_ProcessIncludeFile, sect_OutputBinaryFile in H; destruct (fopens w g); [|first [discriminate H | injection H as <-; split; [apply K; reflexivity|left; reflexivity]]];
    injection H as <-; destruct (Ad g (opened g s)) as (A1 & A2 & _); (split; [apply K; exact A1|]); right; exists g; (split; [|exact A2]);
    intros ->; assert (Y : set_exists f l = true) by (apply existsb_exists; exists f; split; [exact I|apply String.eqb_refl]); congruence.
  - rewrite Hl in H. destruct (s_stack s) as [|g r]; [discriminate H|]. injection H as <-. split; [|left; reflexivity]. exists (set_insert g l). split; [reflexivity|]. apply set_insert_in. right. exact I.
  - injection H as <-. split; [apply K; reflexivity|left; reflexivity].
  - destruct (s_stack s) as [|a [|b r]]; injection H as <-; (split; [apply K; reflexivity|left; reflexivity]).
  - injection H as <-. split; [apply K; reflexivity|left; reflexivity].
Qed.
(** After a file has said INCLUDE ONCE it is not opened again, whatever happens. *)
Theorem C69_once : forall w paths l s s' f, working s = Some f -> steps w paths (EOnce :: l) s = Ok s' ->
  exists new, s_opened s' = new ++ s_opened s /\ ~ In f new.
Proof.
  intros w paths l s s' f Wk H. cbn [steps step] in H. unfold working in Wk. destruct (s_stack s) as [|g r] eqn:St; [discriminate Wk|]. injection Wk as ->.
  destruct (s_once s) as [o|] eqn:On; [|discriminate H]. cbn [bind] in H.
  change (s_opened s) with (s_opened (set_once (Some (set_insert f o)) s)). assert (Q : said_once f (set_once (Some (set_insert f o)) s)) by (exists (set_insert f o); split; [reflexivity|apply set_insert_in; tauto]).
  revert H Q. generalize (set_once (Some (set_insert f o)) s). clear. induction l as [|e l IH]; intros s H Q; cbn [steps] in H.
  - injection H as <-. exists []. split; [reflexivity|intros []].
  - destruct (step w paths e s) as [s1| |] eqn:E; try discriminate H. cbn [bind] in H. destruct (once_kept _ _ _ _ _ _ E Q) as (Q1 & O). destruct (IH _ H Q1) as (new & E1 & N).
    destruct O as [O|(g & Ng & O)]; rewrite O in E1.
    + exists new. split; assumption.
    + exists (new ++ [g]). split; [rewrite <- app_assoc; exact E1|]. rewrite in_app_iff. cbn. intuition congruence.
Qed.
Print Assumptions C69_once.

Lemma stack_step : forall w paths e s s', step w paths e s = Ok s' ->
  s_stack s' = s_stack s \/ (exists f, s_stack s' = f :: s_stack s) \/ exists f, s_stack s = f :: s_stack s'.
Proof.
  intros w paths e s s' H.
  assert (Ad : forall g s2, s_stack (dep_AddDependency g s2) = s_stack s2) by (intros g s2; unfold dep_AddDependency; destruct (s_dep s2) as [[]|]; reflexivity).
  assert (May : forall f, s_stack (snd (mayIncludeFile f s)) = s_stack s) by (intro f; unfold mayIncludeFile; destruct (s_once s); reflexivity).
  destruct e as [name|name| |g| |]; cbn [step] in H.
  1, 2: unfold handleFileCore in H; destruct (inc_FindFile w paths (working s) name) as [g|]; [|injection H as <-; left; reflexivity];
    specialize (May g); destruct (mayIncludeFile g s) as [[|] s1]; cbn [snd] in May; [|injection H as <-; left; exact May];
    unfold lexctx_ProcessIncludeFile, sect_OutputBinaryFile in H; destruct (fopens w g); [|first [discriminate H | injection H as <-; left; exact May]];
    injection H as <-; cbn [s_stack set_stack binary]; rewrite Ad; cbn; rewrite May; eauto.
  - destruct (s_once s) as [o|]; [|discriminate H]. destruct (s_stack s) as [|f r] eqn:St; [discriminate H|]. injection H as <-. left. exact St.
  - injection H as <-. right. left. exists g. reflexivity.
  - destruct (s_stack s) as [|a [|b r]] eqn:St; injection H as <-; [left; exact St|left; exact St|]. right. right. exists a. reflexivity.
  - injection H as <-. left. reflexivity.
Qed.
Lemma stack_below : forall w paths base l s s' top, s_stack s = top ++ base ->
  (forall l1 l2 s2, l = l1 ++ l2 -> steps w paths l1 s = Ok s2 -> (List.length base <= List.length (s_stack s2))%nat) ->
  steps w paths l s = Ok s' -> exists top', s_stack s' = top' ++ base.
Proof.
  intros w paths base. induction l as [|e l IH]; intros s s' top St D H; cbn [steps] in H.
  - injection H as <-. exists top. exact St.
  - destruct (step w paths e s) as [s1| |] eqn:E; try discriminate H. cbn [bind] in H.
    assert (D1 : (List.length base <= List.length (s_stack s1))%nat) by (apply (D [e] l s1); [reflexivity|cbn [steps]; rewrite E; reflexivity]).
    assert (S1 : exists top1, s_stack s1 = top1 ++ base).
    { destruct (stack_step _ _ _ _ _ E) as [X|[(f & X)|(f & X)]].
      - exists top. congruence.
      - exists (f :: top). rewrite X, St. reflexivity.
      - rewrite St in X. destruct top as [|g top]; cbn [app] in X.
        + rewrite X in D1. cbn [List.length] in D1. lia.
        + exists top. congruence. }
    destruct S1 as (top1 & S1). apply (IH s1 s' top1 S1); [|exact H].
    intros l1 l2 s2 El H2. apply (D (e :: l1) l2 s2); [rewrite El; reflexivity|]. cbn [steps]. rewrite E. exact H2.
Qed.
(** An included file may include others and use macros.  When as few files are open again
    as before the INCLUDE, and there were never fewer in between, the working file is the
    one with the INCLUDE, so what it includes next is looked for beside it. *)
Theorem C69_includer : forall w paths name l s s1 s', s_stack s <> [] ->
  step w paths (EInclude name) s = Ok s1 -> steps w paths l s1 = Ok s' ->
  (forall l1 l2 s2, l = l1 ++ l2 -> steps w paths l1 s1 = Ok s2 -> (List.length (s_stack s) <= List.length (s_stack s2))%nat) ->
  List.length (s_stack s') = List.length (s_stack s) -> working s' = working s /\ s_stack s' = s_stack s.
Proof.
  intros w paths name l s s1 s' N E H D L.
  assert (S1 : exists top, s_stack s1 = top ++ s_stack s).
  { pose proof (D [] l s1 eq_refl eq_refl) as D0. destruct (stack_step _ _ _ _ _ E) as [X|[(f & X)|(f & X)]]; [exists []; exact X|exists [f]; exact X|rewrite X in D0; cbn [List.length] in D0; lia]. }
  destruct S1 as (top & S1). destruct (stack_below w paths (s_stack s) l s1 s' top S1 D H) as (top' & S').
  rewrite S', app_length in L. assert (T : top' = []) by (destruct top'; [reflexivity|cbn [List.length] in L; lia]). subst top'.
  cbn [app] in S'. split; [unfold working; rewrite S'; reflexivity|exact S'].
Qed.
Print Assumptions C69_includer.

(** ** The dependency file *)
Definition recorded (name : string) (s : session) : Prop :=
  exists l, s_dep s = Some (Some name, l) /\ NoDup l /\ forall f, In f l <-> f = name \/ In f (s_opened s).
Lemma recorded_add : forall name f s, recorded name s -> recorded name (dep_AddDependency f (opened f s)).
Proof.
  intros name f s (l & D & N & I). exists (set_insert f l). unfold dep_AddDependency. cbn [s_dep opened set_opened]. rewrite D. cbn [s_dep set_dep]. split; [reflexivity|].
  split; [apply set_insert_nodup, N|]. intro g. cbn. rewrite set_insert_in, I. intuition congruence.
Qed.
Lemma recorded_same : forall name s s', recorded name s -> s_dep s' = s_dep s -> s_opened s' = s_opened s -> recorded name s'.
Proof. intros name s s' (l & D & N & I) E1 E2. exists l. rewrite E1, E2. split; [exact D|]. split; assumption. Qed.
Lemma recorded_step : forall w paths name e s s', step w paths e s = Ok s' -> recorded name s -> recorded name s'.
Proof.
  intros w paths name e s s' H R. destruct e as [n|n| |g| |]; cbn [step] in H.
  1, 2: unfold handleFileCore in H; destruct (inc_FindFile w paths (working s) n) as [g|]; [|injection H as <-; apply (recorded_same _ _ _ R); reflexivity];
    unfold mayIncludeFile in H; assert (X : forall m s1, (m, s1) = match s_once s with None => (true, set_once (Some []) s) | Some l => (negb (set_exists g l), s) end -> recorded name s1)
      by (intros m s1 E; destruct (s_once s); injection E as -> ->; [exact R|apply (recorded_same _ _ _ R); reflexivity]);
    destruct (match s_once s with None => (true, set_once (Some []) s) | Some l => (negb (set_exists g l), s) end) as (m, s1); specialize (X m s1 eq_refl);
    destruct m; [|injection H as <-; exact X]; unfold lexctx_ProcessIncludeFile, sect_OutputBinaryFile in H;
    destruct (fopens w g); [|first [discriminate H | injection H as <-; apply (recorded_same _ _ _ X); reflexivity]]; injection H as <-;
    apply (recorded_same _ _ _ (recorded_add _ g _ X)); reflexivity.
  - destruct (s_once s), (s_stack s); try discriminate H. injection H as <-. apply (recorded_same _ _ _ R); reflexivity.
  - injection H as <-. apply (recorded_same _ _ _ R); reflexivity.
  - destruct (s_stack s) as [|a [|b r]]; injection H as <-; apply (recorded_same _ _ _ R); reflexivity.
  - injection H as <-. apply (recorded_same _ _ _ R); reflexivity.
Qed.
Lemma recorded_steps : forall w paths name l s s', steps w paths l s = Ok s' -> recorded name s -> recorded name s'.
Proof.
  induction l as [|e l IH]; intros s s' H R; cbn [steps] in H; [injection H as <-; exact R|].
  destruct (step w paths e s) as [s1| |] eqn:E; try discriminate H. apply (IH _ _ H). apply (recorded_step _ _ _ _ _ _ E R).
Qed.
Lemma remove_perm : forall x l, NoDup l -> In x l -> Permutation l (x :: set_remove x l).
Proof.
  intros x l N I. apply NoDup_Permutation; [exact N| |].
  - constructor; [|apply NoDup_filter, N]. unfold set_remove. rewrite filter_In, String.eqb_refl. intros (_ & H). discriminate H.
  - intro y. unfold set_remove. cbn. rewrite filter_In. destruct (String.eqb x y) eqn:E; cbn.
    + apply String.eqb_eq in E. subst y. tauto.
    + apply String.eqb_neq in E. intuition congruence.
Qed.
Lemma app_nil : forall s, String.append s "" = s.
Proof. induction s as [|c s IH]; [reflexivity|]. cbn. rewrite IH. reflexivity. Qed.
Lemma app_assoc_s : forall a b c, String.append (String.append a b) c = String.append a (String.append b c).
Proof. induction a as [|x a IH]; intros b c; [reflexivity|]. cbn. rewrite IH. reflexivity. Qed.
Lemma written_text : forall order output name l,
  dep_WriteDependencyFile order output (Some name, l) =
  String.append (rule output (order l)) (String.concat "" (map (fun f => rule f []) (order (set_remove name l)))).
Proof.
  intros order output name l. unfold dep_WriteDependencyFile, rule. rewrite !app_assoc_s. reflexivity.
Qed.
(** When an assembly succeeds, the dependency file is one rule, by which the output
    depends on exactly the files that were opened to assemble it, each named once; and a
    rule without dependencies for each of those but the source file.  Missing: a source
    file that is found under another name than the one given, see below. *)
Theorem C69_dependency_file_partial : forall w order dirs name output l s text,
  (forall x, Permutation (order x) x) -> fexists w (canonical w name) = fexists w name -> located w dirs None name = Some name ->
  assembled w dirs name l = Ok s -> dependencies order output s = Some text ->
  exists deps others, NoDup deps /\ (forall f, In f deps <-> In f (s_opened s)) /\ Permutation deps (name :: others) /\
    text = String.append (rule output deps) (String.concat "" (map (fun f => rule f []) others)).
Proof.
  intros w order dirs name output l s text P C Lc H D. unfold assembled in H. destruct (addPaths dirs []) as [paths| |] eqn:E; try discriminate H. cbn [bind] in H.
  destruct (lexctx_ContextInit w paths name begin) as [s1| |] eqn:E1; try discriminate H. cbn [bind] in H. unfold lexctx_ContextInit in E1.
  rewrite (find_file w dirs paths None name E (fun _ => C)), Lc in E1. destruct (fopens w name); [|discriminate E1]. injection E1 as <-.
  assert (R : recorded name s).
  { apply (recorded_steps _ _ _ _ _ _ H). exists [name]. split; [reflexivity|]. split; [repeat constructor; intros []|]. intro f. cbn. intuition congruence. }
  assert (O : In name (s_opened s)).
  { revert H. generalize (eq_refl : s_opened (set_stack [name] (opened name (dep_AddDependency name begin))) = [name]).
    assert (G : forall l0 s0, In name (s_opened s0) -> steps w paths l0 s0 = Ok s -> In name (s_opened s)).
    { induction l0 as [|e l0 IH]; intros s0 I H0; cbn [steps] in H0; [injection H0 as <-; exact I|].
      destruct (step w paths e s0) as [s2| |] eqn:E2; try discriminate H0. apply (IH s2); [|exact H0].
      destruct e as [n|n| |g| |]; cbn [step] in E2.
      1, 2: unfold handleFileCore, mayIncludeFile in E2; destruct (inc_FindFile w paths (working s0) n) as [g|]; [|injection E2 as <-; exact I];
        unfold lexctx_ProcessIncludeFile, sect_OutputBinaryFile in E2; destruct (s_once s0) as [o|]; [destruct (set_exists g o)|]; cbn [negb] in E2;
        destruct (fopens w g); try discriminate E2; injection E2 as <-; first [exact I | unfold dep_AddDependency; cbn; destruct (s_dep s0) as [[]|]; cbn; tauto].
      - destruct (s_once s0), (s_stack s0); try discriminate E2. injection E2 as <-. exact I.
      - injection E2 as <-. exact I.
      - destruct (s_stack s0) as [|a [|b r]]; injection E2 as <-; exact I.
      - injection E2 as <-. exact I. }
    intros _ H. apply (G l (set_stack [name] (opened name (dep_AddDependency name begin)))); [left; reflexivity|exact H]. }
  destruct R as (ds & Ds & N & I). unfold dependencies in D. destruct (s_errors s); [|discriminate D]. rewrite Ds in D. injection D as <-.
  exists (order ds), (order (set_remove name ds)). split; [apply (Permutation_NoDup (Permutation_sym (P ds)) N)|]. split; [|split; [|apply written_text]].
  - intro f. split; intro Hf.
    + apply (Permutation_in _ (P ds)), I in Hf. destruct Hf as [->|Hf]; assumption.
    + apply (Permutation_in _ (Permutation_sym (P ds))), I. right. exact Hf.
  - rewrite (P ds), (P (set_remove name ds)). apply remove_perm; [exact N|]. apply I. left. reflexivity.
Qed.
Print Assumptions C69_dependency_file_partial.

(** ** A case, and where the code does otherwise *)
(** Some files in a tree: a file is beside another if it is in the same directory, and
    names are as they are given. *)
Fixpoint directory (s : string) : string :=
  match s with
  | "" => ""
  | String c r => if existsb (Ascii.eqb "/") (list_ascii_of_string s) then String c (directory r) else ""
  end.
Definition tree (files : list string) : world :=
  World (fun x => x) (fun f name => Some (String.append (directory f) name)) (fun x => existsb (String.eqb x) files) (fun x => existsb (String.eqb x) files).
Definition as_they_are (l : list string) : list string := l.
Definition lines (l : list string) : string := String.concat "" (map (fun s => String.append s newline) l).

Definition exTree : world := tree ["game.asm"; "lib/io.inc"; "lib/ports.inc"; "gfx/font.bin"].
Definition exEvents : list event := [EInclude "io.inc"; EOnce; EInclude "ports.inc"; EEnd; EEnd; EInclude "io.inc"; EIncbin "font.bin"].
Lemma C69_case : exists s, assembled exTree ["lib"; "gfx/"] "game.asm" exEvents = Ok s /\
  fexists exTree (canonical exTree "game.asm") = fexists exTree "game.asm" /\ located exTree ["lib"; "gfx/"] None "game.asm" = Some "game.asm" /\
  s_opened s = ["gfx/font.bin"; "lib/ports.inc"; "lib/io.inc"; "game.asm"] /\
  dependencies as_they_are "game.o" s = Some (lines
    ["game.o: game.asm lib/io.inc lib/ports.inc gfx/font.bin"; ""; "lib/io.inc:"; ""; "lib/ports.inc:"; ""; "gfx/font.bin:"; ""]).
Proof. eexists. split; [vm_compute; reflexivity|]. split; [vm_compute; reflexivity|]. split; [vm_compute; reflexivity|]. split; [vm_compute; reflexivity|vm_compute; reflexivity]. Qed.
(** In it, io.inc includes ports.inc and then ends, and game.asm is read on. *)
Lemma C69_includer_case : exists s s1 s', assembled exTree ["lib/"; "gfx/"] "game.asm" [] = Ok s /\ s_stack s <> [] /\
  step exTree ["lib/"; "gfx/"] (EInclude "io.inc") s = Ok s1 /\ steps exTree ["lib/"; "gfx/"] [EOnce; EInclude "ports.inc"; EEnd; EEnd] s1 = Ok s' /\
  (forall l1 l2 s2, [EOnce; EInclude "ports.inc"; EEnd; EEnd] = l1 ++ l2 -> steps exTree ["lib/"; "gfx/"] l1 s1 = Ok s2 ->
    (List.length (s_stack s) <= List.length (s_stack s2))%nat) /\
  List.length (s_stack s') = List.length (s_stack s) /\ working s1 = Some "lib/io.inc" /\ working s' = Some "game.asm".
Proof.
  do 3 eexists. split; [vm_compute; reflexivity|]. split; [discriminate|]. split; [vm_compute; reflexivity|]. split; [vm_compute; reflexivity|].
  split; [|vm_compute; repeat split].
  intros l1 l2 s2 E H. destruct l1 as [|a [|b [|c [|d [|e l1]]]]]; cbn [app] in E; try discriminate E; try (injection E as <-); repeat match goal with X : _ = _ :: _ |- _ => injection X as <- | X : _ = ?y |- _ => is_var y; subst y end;
    vm_compute in H; injection H as <-; vm_compute; lia.
Qed.
Print Assumptions C69_case.
(** Directories other than the empty one are all taken. *)
Lemma C69_directories : forall dirs paths, Forall (fun d => d <> "") dirs -> exists q, addPaths dirs paths = Ok q.
Proof.
  induction dirs as [|p r IH]; intros paths F; [exists paths; reflexivity|]. inversion F; subst. cbn [addPaths]. unfold inc_AddIncludePath. pose proof (last_char p) as L.
  destruct (String.get (String.length p - 1) p); [|congruence]. cbn [bind]. apply IH. assumption.
Qed.
Print Assumptions C69_directories.

(** A source file that is found in one of the directories is listed under the name it was
    given, which is no file: make cannot find it. *)
Theorem C69_source_elsewhere_refuted :
  ~ (forall w order dirs name output l s text, (forall x, Permutation (order x) x) -> (forall x, canonical w x = x) ->
       assembled w dirs name l = Ok s -> dependencies order output s = Some text ->
       exists deps others, (forall f, In f deps <-> In f (s_opened s)) /\
         text = String.append (rule output deps) (String.concat "" (map (fun f => rule f []) others))).
Proof.
  intro H. specialize (H (tree ["src/a.asm"]) as_they_are ["src"] "a.asm" "o").
  assert (A : assembled (tree ["src/a.asm"]) ["src"] "a.asm" [] = Ok (Session (Some (Some "a.asm", ["a.asm"])) ["src/a.asm"] None 0 ["src/a.asm"] [])) by (vm_compute; reflexivity).
  destruct (H [] _ _ (fun x => Permutation_refl x) (fun x => eq_refl) A eq_refl) as (deps & others & I & E). cbn [s_opened] in I.
  assert (D : In "src/a.asm" deps) by (apply I; left; reflexivity). destruct deps as [|d r]; [destruct D|].
  assert (Ed : d = "src/a.asm") by (specialize (proj1 (I d) (or_introl eq_refl)); intros [<-|[]]; reflexivity). subst d. destruct r; vm_compute in E; discriminate E.
Qed.
Print Assumptions C69_source_elsewhere_refuted.
(** INCBIN of a file that said INCLUDE ONCE takes no bytes, and says nothing. *)
Theorem C69_incbin_once_refuted :
  ~ (forall w paths name s s' f, s_stack s <> [] -> inc_FindFile w paths (working s) name = Some f -> fopens w f = true ->
       step w paths (EIncbin name) s = Ok s' -> s_binaries s' = f :: s_binaries s \/ s_errors s' <> s_errors s).
Proof.
  intro H. specialize (H (tree ["a.asm"; "b.inc"]) [] "b.inc" (Session None ["a.asm"] (Some ["b.inc"]) 0 ["b.inc"; "a.asm"] []) _ "b.inc" ltac:(discriminate) eq_refl eq_refl eq_refl).
  destruct H as [H|H]; [discriminate H|apply H; reflexivity].
Qed.
Print Assumptions C69_incbin_once_refuted.
(** The state in it is one a program reaches. *)
Lemma C69_incbin_once_reached : exists s, assembled (tree ["a.asm"; "b.inc"]) [] "a.asm" [EInclude "b.inc"; EOnce; EEnd] = Ok s /\
  s_stack s = ["a.asm"] /\ s_once s = Some ["b.inc"] /\ s_errors s = 0%nat.
Proof. eexists. split; [vm_compute; reflexivity|]. repeat split. Qed.
Print Assumptions C69_incbin_once_reached.
(** INCLUDE ONCE in the source file, with no file included before it, is a use of a null
    pointer; so is an empty directory among those given, a read before the string. *)
Theorem C69_once_first_refuted : ~ (forall w dirs name l, Forall (fun d => d <> "") dirs -> assembled w dirs name l <> UB).
Proof. intro H. apply (H (tree ["a.asm"]) [] "a.asm" [EOnce] (Forall_nil _)). vm_compute. reflexivity. Qed.
Print Assumptions C69_once_first_refuted.
Theorem C69_empty_directory_refuted : ~ (forall w dirs name, assembled w dirs name [] <> UB).
Proof. intro H. apply (H (tree ["a.asm"]) [""] "a.asm"). vm_compute. reflexivity. Qed.
Print Assumptions C69_empty_directory_refuted.
(** A space in a name is not escaped: make takes the words of a rule as files, and one of
    them need not be one. *)
Fixpoint words (word : string) (s : string) : list string :=
  match s with
  | "" => [word]
  | String c r => if (c =? " ")%char then word :: words "" r else if (c =? ascii_of_nat 10)%char then [word] else words (String.append word (String c "")) r
  end.
Theorem C69_spaces_refuted :
  ~ (forall w order name output l s text, (forall x, Permutation (order x) x) -> assembled w [] name l = Ok s ->
       dependencies order output s = Some text -> forall f, In f (tl (words "" text)) -> In f (s_opened s)).
Proof.
  intro H. specialize (H (tree ["a.asm"; "my b.inc"]) as_they_are "a.asm" "o" [EInclude "my b.inc"] _ _ (fun x => Permutation_refl x) eq_refl eq_refl "b.inc").
  vm_compute in H. assert (X : "a.asm" = "b.inc" \/ "my" = "b.inc" \/ "b.inc" = "b.inc" \/ False) by tauto. destruct (H X) as [E|[E|[]]]; discriminate E.
Qed.
Print Assumptions C69_spaces_refuted.
