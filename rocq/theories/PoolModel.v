(** Model of the linker's memory pools, /repo/xlink/group.c:34-204. *)
From Coq Require Import ZArith List Bool.
From Verif Require Import Base.
Import ListNotations.
Open Scope Z_scope.

(** group.c:34-39 struct MemoryChunk_; the free list is a Coq list.  Fields are
    uint32_t. *)
Record chunk : Type := Chunk { c_loc : Z; c_size : Z }.

(** UINT32_MAX: "no alignment" / "no page". *)
Definition NONE : Z := 2 ^ 32 - 1.

(** Result of an allocation: [None] is the C function returning false. *)
Definition alloc : Type := option (Z * list chunk).

(** group.c:96-110 pool_AllocateMemory: first fit. *)
Fixpoint pool_AllocateMemory (free : list chunk) (size : Z) : alloc :=
  match free with
  | [] => None
  | c :: r =>
      if size <=? c_size c then
        Some (c_loc c, Chunk (u32 (c_loc c + size)) (u32 (c_size c - size)) :: r)
      else
        match pool_AllocateMemory r size with
        | Some (l, r') => Some (l, c :: r')
        | None => None
        end
  end.

(** group.c:112-128 pool_CarveRange: the chunks that replace [c]. *)
Definition pool_CarveRange (c : chunk) (size loc : Z) : list chunk :=
  if loc =? c_loc c then
    [Chunk (u32 (c_loc c + size)) (u32 (c_size c - size))]
  else
    [Chunk (c_loc c) (u32 (loc - c_loc c));
     Chunk (u32 (loc + size)) (u32 (c_loc c + c_size c - (loc + size)))].

(** group.c:133, 170-171, 194: the test that [loc],[size] fits chunk [c], in
    uint32_t arithmetic. *)
Definition fits (c : chunk) (size loc : Z) : bool :=
  (c_loc c <=? loc) && (u32 (loc + size) <=? u32 (c_loc c + c_size c)).

(** group.c:130-141 pool_AllocateAbsolute. *)
Fixpoint pool_AllocateAbsolute (free : list chunk) (size loc : Z) : option (list chunk) :=
  match free with
  | [] => None
  | c :: r =>
      if fits c size loc then Some (pool_CarveRange c size loc ++ r)
      else
        match pool_AllocateAbsolute r size loc with
        | Some r' => Some (c :: r')
        | None => None
        end
  end.

(** group.c:167-168, 192-193: round [x] up to a multiple of [align]. *)
Definition align_up (x align : Z) : Z :=
  let t := u32 (x + align - 1) in u32 (t - t mod align).

(** group.c:156-186, the page loop inside one chunk; [None] is the loop ending
    without success (line 188, return false).  [fuel] bounds the iterations. *)
Fixpoint pageLoop (fuel : nat) (c : chunk) (size align pageSize page : Z)
    : option (Z * list chunk) :=
  match fuel with
  | O => None
  | S fuel' =>
      if page <? u32 (c_loc c + c_size c) then
        let remChunk := u32 (c_loc c + c_size c - page) in
        let remPage0 := u32 (pageSize - page mod pageSize) in
        let remPage := if remChunk <? remPage0 then remChunk else remPage0 in
        if size <=? remPage then
          if align =? NONE then Some (page, pool_CarveRange c size page)
          else
            let loc := align_up page align in
            if fits c size loc then Some (loc, pool_CarveRange c size loc)
            else pageLoop fuel' c size align pageSize (u32 (page + remPage))
        else pageLoop fuel' c size align pageSize (u32 (page + remPage))
      else None
  end.

(** Iterations the page loop can need: every iteration but the first and last
    advances by a whole page. *)
Definition pageFuel (c : chunk) (pageSize : Z) : nat :=
  Z.to_nat (c_size c / pageSize + 2).

(** group.c:191-200, the search for byte aligned memory. *)
Fixpoint alignedLoop (free : list chunk) (size align : Z) : alloc :=
  match free with
  | [] => None
  | c :: r =>
      let loc := align_up (c_loc c) align in
      if fits c size loc then Some (loc, pool_CarveRange c size loc ++ r)
      else
        match alignedLoop r size align with
        | Some (l, r') => Some (l, c :: r')
        | None => None
        end
  end.

(** group.c:143-204 pool_AllocateAligned.  When a page is requested only the
    first chunk is examined (line 188 returns).  A zero alignment or page size
    is a division by zero. *)
Definition pool_AllocateAligned (free : list chunk) (size align pageSize : Z) : res alloc :=
  if (align =? NONE) && (pageSize =? NONE) then Ok (pool_AllocateMemory free size)
  else
    match free with
    | [] => Ok None
    | c :: r =>
        if negb (pageSize =? NONE) then
          if pageSize <? size then Ok None
          else if pageSize =? 0 then UB
          else if align =? 0 then UB
          else
            match pageLoop (pageFuel c pageSize) c size align pageSize (c_loc c) with
            | Some (l, cs) => Ok (Some (l, cs ++ r))
            | None => Ok None
            end
        else if align =? 0 then UB
        else Ok (alignedLoop free size align)
    end.

(** group.c:275-288 group_InitMemoryChunks, for one pool: the whole pool is one
    free chunk. *)
Definition initChunks (base size : Z) : list chunk := [Chunk base size].

(** The requests the linker makes of a pool (assign.c through group.c:237-273). *)
Inductive request : Type :=
| Absolute (size loc : Z)
| Aligned (size align pageSize : Z).

(** One request: the placed location, if any, and the new free list. *)
Definition serve (free : list chunk) (q : request) : res alloc :=
  match q with
  | Absolute size loc =>
      Ok (match pool_AllocateAbsolute free size loc with
          | Some f => Some (loc, f)
          | None => None
          end)
  | Aligned size align pageSize => pool_AllocateAligned free size align pageSize
  end.

Definition req_size (q : request) : Z :=
  match q with Absolute s _ => s | Aligned s _ _ => s end.

(** A history of requests; placements (location, size) are collected, newest
    first; refused requests leave the pool unchanged. *)
Fixpoint serveAll (free : list chunk) (placed : list (Z * Z)) (qs : list request)
    : res (list chunk * list (Z * Z)) :=
  match qs with
  | [] => Ok (free, placed)
  | q :: r =>
      let! a := serve free q in
      match a with
      | Some (l, free') => serveAll free' ((l, req_size q) :: placed) r
      | None => serveAll free placed r
      end
  end.
