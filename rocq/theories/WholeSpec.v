(** Specification of a whole link (C57): what was assembled, where it ends up, and
    what the bytes of the file are. *)
From Coq Require Import ZArith List Bool Permutation.
From Verif Require Import Base AssignModel PoolSpec AssignSpec Arith ExprSpec ExprModel ExprLayout LinkExprModel LinkModel
  LinkSpec ImageSpec.
Import ListNotations.
Open Scope Z_scope.

(** The sections as read from object files: numbered, none in use or placed yet,
    nothing resolved, contents as long as they say, patches inside the contents and
    apart from each other, a fixed place given in full. *)
Record loaded (p : program) : Prop := {
  ld_fresh : fresh p;
  ld_ids : NoDup (map sc_id p);
  ld_unused : forall s, In s p -> s_used (sc_place s) = false;
  ld_places : Forall section_ok (map sc_place p);
  ld_kinds : forall s, In s p -> group_kind_ok (sc_place s);
  ld_orgs : forall s, In s p -> s_cpuByteLocation (sc_place s) = -1 \/ s_cpuLocation (sc_place s) <> -1;
  ld_contents : forall s, In s p -> isBss_ s = false ->
    exists d, sc_data s = Some d /\ zlen d = s_size (sc_place s);
  ld_patches : forall s d, In s p -> sc_data s = Some d ->
    Forall (inside d) (sc_patches s) /\ ForallOrdPairs LinkSpec.disjoint (sc_patches s) }.

(** Which sections are in use: all, or those the entry symbol needs. *)
Definition chosen (p : program) (entry : option (list Z)) (p1 : program) : Prop :=
  Forall2 (fun s s' => s' = s \/ s' = set_used s) p p1 /\
  forall k s, nth_error p1 k = Some s ->
    (s_used (sc_place s) = true <->
     match entry with None => True | Some name => needed p name k end).

(** [s'] is [s] with a place, and otherwise the same. *)
Record at_its_place (cf : config) (s s' : lsect) : Prop := {
  ap_place : placed_well cf (sc_place s) (sc_place s');
  ap_file : sc_fileId s' = sc_fileId s;
  ap_symbols : sc_symbols s' = sc_symbols s;
  ap_data : sc_data s' = sc_data s;
  ap_patches : sc_patches s' = sc_patches s;
  ap_lines : sc_lines s' = sc_lines s;
  ap_name : sc_name s' = sc_name s }.
(** [p2] is [p1] with every section at a place of its own, in some order. *)
Definition laid_out (cf : config) (p1 p2 : program) : Prop :=
  (exists p', Permutation p' p2 /\ Forall2 (at_its_place cf) p1 p') /\
  forall k, PoolSpec.disjoint (ranges_in k (map sc_place p2)).

(** The patch holds what the assembler writes for the expression [t], entered at
    some place of a program for which the layout [E] is one to expect; [id] is how it
    numbers the symbols. *)
Definition assembled (F : fmath) (E : env) (id : nat -> Z) (t : term) (bytes : list Z) : Prop :=
  term_ok t /\ tdepth t <= 256 /\
  exists w base cur garb g k a off e ov e',
    env_ok w base E /\ pc_known cur E /\ at_place w base k a off E /\ defined w t /\
    build F garb g w cur t = Ok e /\
    reduceExpression F w k a off (expr_Optimize w e) = Ok (ov, e') /\
    writeExpression id e' = Ok bytes.

(** Symbol [n] of an expression in section [i] means [x], defined in [d]. *)
Definition means (p : program) (i : nat) (s : lsect) (id : nat -> Z) (n : nat) (d : lsect) (x : lsym) : Prop :=
  exists y, symbol_at p i (Z.to_nat (u32 (id n))) s y /\ defines p s y d x /\ is_s32 (address d x).
(** [E] is the layout [p] seen from the patch [q] of its section [i]: the place of
    the patch, the addresses of the symbols' definitions, and their banks. *)
Record layout (p : program) (i : nat) (s : lsect) (q : lpatch) (id : nat -> Z) (E : env) (t : term) : Prop := {
  ly_pc : e_pc E = s_cpuLocation (sc_place s) + pt_offset q;
  ly_value : forall n, In n (values_of t) -> exists d x, means p i s id n d x /\ e_sym E n = address d x;
  ly_bank : forall n, In n (banks_of t) -> exists d x, means p i s id n d x /\
    e_bank E n = s_cpuBank (sc_place d) /\ s_cpuBank (sc_place d) <> -1 }.

(** What the file [img] of overlay [o] holds of section [i]: every byte that no patch
    is for as it was assembled, and at each patch the value of the expression in the
    source. *)
Record section_in_file (F : fmath) (p : program) (i : nat) (s : lsect) (img : list Z) : Prop := {
  sf_inside : 0 <= img_start s /\ img_end s <= zlen img;
  sf_plain : forall k, 0 <= k < s_size (sc_place s) -> (forall q, In q (sc_patches s) -> ~ covered q k) ->
    at_ img (img_start s + k) = at_ (content s) k;
  sf_patch : forall q t id E v, In q (sc_patches s) ->
    assembled F E id t (pt_expr q) -> layout p i s q id E t -> meaning F E t = Some v ->
    fits (pt_type q) v /\
    slice img (img_start s + pt_offset q) (width (pt_type q)) = encoding (pt_type q) v }.
