(** What is required of memory pool placement, in terms of addresses only. *)
From Coq Require Import ZArith List Bool.
From Verif Require Import Base PoolModel.
Import ListNotations.
Open Scope Z_scope.

(** Address [a] lies in the range starting at [fst r] of [snd r] bytes. *)
Definition covers (r : Z * Z) (a : Z) : Prop := fst r <= a < fst r + snd r.
Definition within (r : Z * Z) (base size : Z) : Prop :=
  base <= fst r /\ fst r + snd r <= base + size.

(** No address belongs to two of the ranges. *)
Definition disjoint (l : list (Z * Z)) : Prop :=
  forall i j r s a, i <> j -> nth_error l i = Some r -> nth_error l j = Some s ->
    covers r a -> covers s a -> False.

(** How many of the ranges hold [a]. *)
Fixpoint count (l : list (Z * Z)) (a : Z) : Z :=
  match l with
  | [] => 0
  | r :: l' => (if (fst r <=? a) && (a <? fst r + snd r) then 1 else 0) + count l' a
  end.

Definition ranges (f : list chunk) : list (Z * Z) :=
  map (fun c => (c_loc c, c_size c)) f.

(** A pool in a 32-bit address space. *)
Definition pool_ok (base size : Z) : Prop := 0 <= base /\ 0 <= size /\ base + size < 2 ^ 32.

(** Requests for which the C arithmetic does not wrap around 2^32: for a fixed
    address, address + size; for a floating one, the end of the pool plus the
    alignment plus the size. *)
Definition req_ok (base size : Z) (q : request) : Prop :=
  match q with
  | Absolute n loc => 0 <= n /\ 0 <= loc /\ loc + n < 2 ^ 32
  | Aligned n align pageSize =>
      0 <= n < 2 ^ 32 /\
      (align = NONE \/ 0 < align /\ base + size + align + n <= 2 ^ 32) /\
      (pageSize = NONE \/ 0 < pageSize < NONE)
  end.

(** The pool bytes [x .. x+n-1] exist and are in no placed range. *)
Definition all_free (base size : Z) (placed : list (Z * Z)) (x n : Z) : Prop :=
  base <= x /\ x + n <= base + size /\
  forall a, x <= a < x + n -> forall r, In r placed -> ~ covers r a.

(** [x .. x+n-1] does not straddle a multiple of [page]. *)
Definition in_one_page (page x n : Z) : Prop :=
  exists p, p * page <= x /\ x + n <= (p + 1) * page.
