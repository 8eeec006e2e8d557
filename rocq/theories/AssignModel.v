(** Model of section placement: /repo/xlink/group.c:226-288 (groups) and
    /repo/xlink/assign.c. *)
From Coq Require Import ZArith List Bool.
From Verif Require Import Base PoolModel.
Import ListNotations.
Open Scope Z_scope.

(** group.h:30-40 struct MemoryPool without its free list (which is kept in
    [mem]); onlyAbs is never read by the code. *)
Record pool : Type := Pool {
  p_image : Z; p_overlay : Z; p_loc : Z; p_bank : Z; p_size : Z; p_onlyAbs : bool }.

(** group.h:42-51 struct MemoryGroup_: pools are shared between groups, so they
    are referred to by index. *)
Record group : Type := Group { g_name : list Z; g_pools : list nat }.

(** s_machineGroups (group.c:41) and the pools its groups point to. *)
Record config : Type := Config { cf_pools : list pool; cf_groups : list group }.

(** The free lists of all pools, by pool index. *)
Definition mem : Type := list (list chunk).

(** object.h:35-43: struct Group of an object file. *)
Definition GROUP_TEXT : Z := 0.
Definition GROUP_BSS : Z := 1.
Definition FLAG_SHARED : Z := 536870912.
Definition FLAG_DATA : Z := 1073741824.
Record ogroup : Type := OGroup { og_name : list Z; og_type : Z; og_flags : Z }.

(** section.h:41-80 struct Section, the fields used by placement.  [s_pool] is
    a ghost field: the index of the pool the section was placed in. *)
Record section : Type := Section_ {
  s_id : Z;
  s_group : option ogroup;
  s_cpuByteLocation : Z;
  s_cpuBank : Z;
  s_cpuLocation : Z;
  s_imageLocation : Z;
  s_overlay : Z;
  s_minimumWordSize : Z;
  s_byteAlign : Z;
  s_page : Z;
  s_size : Z;
  s_used : bool;
  s_assigned : bool;
  s_pool : option nat }.

Fixpoint set_nth {A : Type} (l : list A) (k : nat) (v : A) : list A :=
  match l, k with
  | [], _ => []
  | _ :: r, O => v :: r
  | x :: r, S k' => x :: set_nth r k' v
  end.

(** What an allocation reports back (the out parameters). *)
Record placement : Type := Placement {
  pl_pool : nat; pl_loc : Z; pl_bank : Z; pl_image : Z; pl_overlay : Z; pl_mem : mem }.

(** group.c:245-248 / 264-267. *)
Definition mkPlacement (p : pool) (k : nat) (loc : Z) (m : mem) : placement :=
  Placement k (s32 loc) (p_bank p)
    (if p_image p =? -1 then -1 else p_image p + s32 loc - p_loc p)
    (p_overlay p) m.

(** group.c:237-273: the loop over the pools of a group, for either kind of
    request.  A pool index outside the tables is UB. *)
Fixpoint tryPools (cf : config) (m : mem) (ks : list nat) (bankId : Z) (q : request)
    : res (option placement) :=
  match ks with
  | [] => Ok None
  | k :: r =>
      match nth_error (cf_pools cf) k, nth_error m k with
      | Some p, Some free =>
          if (bankId =? -1) || (bankId =? p_bank p) then
            let! a := serve free q in
            match a with
            | Some (loc, free') => Ok (Some (mkPlacement p k loc (set_nth m k free')))
            | None => tryPools cf m r bankId q
            end
          else tryPools cf m r bankId q
      | _, _ => UB
      end
  end.

(** group.c:226-235 group_FindByName. *)
Fixpoint findGroup (gs : list group) (name : list Z) : option group :=
  match gs with
  | [] => None
  | g :: r => if beq (g_name g) name then Some g else findGroup r name
  end.

(** group.c:379-384 group_AllocateAbsolute. *)
Definition group_AllocateAbsolute (cf : config) (m : mem) (name : list Z)
    (size bankId loc : Z) : res (option placement) :=
  match findGroup (cf_groups cf) name with
  | None => Err
  | Some g => tryPools cf m (g_pools g) bankId (Absolute size (u32 loc))
  end.

(** group.c:386-392 group_AllocateAligned. *)
Definition group_AllocateAligned (cf : config) (m : mem) (name : list Z)
    (size bankId byteAlign pageSize : Z) : res (option placement) :=
  match findGroup (cf_groups cf) name with
  | None => Err
  | Some g => tryPools cf m (g_pools g) bankId (Aligned size (u32 byteAlign) (u32 pageSize))
  end.

(** group.c:275-288 group_InitMemoryChunks. *)
Definition initMem (cf : config) : mem :=
  map (fun p => initChunks (p_loc p) (p_size p)) (cf_pools cf).

(** assign.c:33-38 and 122-127: floating placement. *)
Definition placeFloating (cf : config) (s : section) (m : mem) : res (section * mem) :=
  match s_group s with
  | None => UB
  | Some g =>
      let! a := group_AllocateAligned cf m (og_name g) (s_size s) (s_cpuBank s)
                  (s_byteAlign s) (s_page s) in
      match a with
      | None => Err
      | Some pl =>
          if s_minimumWordSize s =? 0 then UB else
          Ok (Section_ (s_id s) (s_group s) (pl_loc pl) (pl_bank pl)
                (Z.quot (pl_loc pl) (s_minimumWordSize s)) (pl_image pl) (pl_overlay pl)
                (s_minimumWordSize s) (s_byteAlign s) (s_page s) (s_size s)
                (s_used s) true (Some (pl_pool pl)), pl_mem pl)
      end
  end.

(** assign.c:46-50 and 58-62: placement at the requested address. *)
Definition placeAbsolute (cf : config) (s : section) (m : mem) : res (section * mem) :=
  match s_group s with
  | None => UB
  | Some g =>
      let! a := group_AllocateAbsolute cf m (og_name g) (s_size s) (s_cpuBank s)
                  (s_cpuByteLocation s) in
      match a with
      | None => Err
      | Some pl =>
          Ok (Section_ (s_id s) (s_group s) (s_cpuByteLocation s) (pl_bank pl)
                (s_cpuLocation s) (pl_image pl) (pl_overlay pl)
                (s_minimumWordSize s) (s_byteAlign s) (s_page s) (s_size s)
                (s_used s) true (Some (pl_pool pl)), pl_mem pl)
      end
  end.

(** section.c:280-283 sect_IsEquSection. *)
Definition isEqu (s : section) : bool :=
  match s_group s with None => true | Some _ => false end.

(** assign.c:116-120. *)
Definition placeEqu (s : section) : section :=
  Section_ (s_id s) (s_group s) 0 0 0 (-1) (s_overlay s) (s_minimumWordSize s)
    (s_byteAlign s) (s_page s) (s_size s) (s_used s) true (s_pool s).

(** assign.c:27 sectionPredicate. *)
Definition predicate : Type := section -> bool.

(** assign.c:132-169: the section classes. *)
Definition isClass (type flags : Z) : predicate := fun s =>
  negb (s_assigned s) &&
  match s_group s with
  | Some g => (og_type g =? type) && (og_flags g =? flags)
  | None => false
  end.
Definition isCode := isClass GROUP_TEXT 0.
Definition isCodeShared := isClass GROUP_TEXT FLAG_SHARED.
Definition isData := isClass GROUP_TEXT FLAG_DATA.
Definition isDataShared := isClass GROUP_TEXT (FLAG_DATA + FLAG_SHARED).
Definition isBSS := isClass GROUP_BSS 0.
Definition isBSSShared := isClass GROUP_BSS FLAG_SHARED.
Definition truePredicate : predicate := fun _ => true.

(** A pass applied to one section. *)
Definition pass : Type := section -> mem -> res (section * mem).

Definition keep : pass := fun s m => Ok (s, m).

(** assign.c:29-40 assignSectionCore. *)
Definition assignSectionCore (cf : config) (p : predicate) : pass := fun s m =>
  if p s then placeFloating cf s m else keep s m.

(** assign.c:42-52. *)
Definition assignOrgAndBankFixedSection (cf : config) (p : predicate) : pass := fun s m =>
  if p s && negb (s_cpuByteLocation s =? -1) && negb (s_cpuBank s =? -1)
  then placeAbsolute cf s m else keep s m.

(** assign.c:54-64. *)
Definition assignOrgFixedSection (cf : config) (p : predicate) : pass := fun s m =>
  if p s && negb (s_cpuByteLocation s =? -1) && (s_cpuBank s =? -1)
  then placeAbsolute cf s m else keep s m.

(** assign.c:66-106: the six passes that differ in which of bank, alignment and
    page must be given. *)
Definition assignWhen (bank align page : bool) (cf : config) (p : predicate) : pass := fun s m =>
  if Bool.eqb (negb (s_cpuBank s =? -1)) bank &&
     Bool.eqb (negb (s_byteAlign s =? -1)) align &&
     Bool.eqb (negb (s_page s =? -1)) page
  then assignSectionCore cf p s m else keep s m.
Definition assignBankedAlignedPagedSection := assignWhen true true true.
Definition assignBankedAlignedSection := assignWhen true true false.
Definition assignBankedPagedSection := assignWhen true false true.
Definition assignAlignedPagedSection := assignWhen false true true.
Definition assignAlignedSection := assignWhen false true false.
Definition assignPagedSection := assignWhen false false true.

(** assign.c:108-130. *)
Definition assignSection (cf : config) (p : predicate) : pass := fun s m =>
  if s_assigned s then keep s m
  else if isEqu s then Ok (placeEqu s, m)
  else if p s then placeFloating cf s m
  else keep s m.

(** section.c:226-234 sect_ForEachUsedSection. *)
Fixpoint forEachUsed (f : pass) (ss : list section) (m : mem) : res (list section * mem) :=
  match ss with
  | [] => Ok ([], m)
  | s :: r =>
      let! (s', m1) := (if s_used s then f s m else keep s m) in
      let! (r', m2) := forEachUsed f r m1 in
      Ok (s' :: r', m2)
  end.

Fixpoint runPasses (fs : list pass) (ss : list section) (m : mem) : res (list section * mem) :=
  match fs with
  | [] => Ok (ss, m)
  | f :: r => let! (ss', m') := forEachUsed f ss m in runPasses r ss' m'
  end.

(** assign.c:172-174. *)
Definition sectionPredicates : list predicate :=
  [isCodeShared; isCode; isDataShared; isData; isBSSShared; isBSS].

(** assign.c:181-189: the passes for one predicate. *)
Definition predicatePasses (cf : config) (p : predicate) : list pass :=
  [assignOrgAndBankFixedSection cf p;
   assignOrgFixedSection cf p;
   assignBankedAlignedPagedSection cf p;
   assignBankedAlignedSection cf p;
   assignBankedPagedSection cf p;
   assignAlignedPagedSection cf p;
   assignAlignedSection cf p;
   assignPagedSection cf p;
   assignSection cf p].

(** assign.c:176-194 assign_Process up to the sort (line 193), which is modelled
    by sect_SortSections below. *)
Definition assign_Place (cf : config) (ss : list section) (m : mem) : res (list section * mem) :=
  runPasses (flat_map (predicatePasses cf) sectionPredicates ++ [assignSection cf truePredicate]) ss m.

(** section.c:152-164 compareSections: less-or-equal.  Simplification: the int
    subtractions do not overflow. *)
Definition leSection (a b : section) : bool :=
  if Bool.eqb (s_used a) (s_used b) then
    if s_cpuBank a =? s_cpuBank b then s_cpuLocation a <=? s_cpuLocation b
    else s_cpuBank a <? s_cpuBank b
  else s_used b.

Fixpoint insertSection (s : section) (l : list section) : list section :=
  match l with
  | [] => [s]
  | x :: r => if leSection s x then s :: l else x :: insertSection s r
  end.

(** section.c:269-278 sect_SortSections.  qsort is not stable; the model uses a
    stable sort. *)
Definition sect_SortSections (l : list section) : list section :=
  fold_right insertSection [] l.

(** assign.c:176-194 assign_Process from a fresh memory map. *)
Definition assign_Process (cf : config) (ss : list section) : res (list section) :=
  let! (ss', _) := assign_Place cf ss (initMem cf) in
  Ok (sect_SortSections ss').
