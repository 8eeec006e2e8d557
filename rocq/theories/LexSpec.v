(** What literals mean and what a macro body reads as (for C37, C38). *)
From Coq Require Import ZArith List Bool.
From Verif Require Import Base.
Import ListNotations.
Open Scope Z_scope.

(** The value of a digit character: 0-9, a-f, A-F. *)
Definition digit (c : Z) : option Z :=
  if (48 <=? c) && (c <=? 57) then Some (c - 48)
  else if (97 <=? c) && (c <=? 102) then Some (c - 87)
  else if (65 <=? c) && (c <=? 70) then Some (c - 55)
  else None.
Definition is_digit (radix c : Z) : Prop := exists v, digit c = Some v /\ v < radix.
Definition no_digit (radix c : Z) : Prop := forall v, digit c = Some v -> radix <= v.

(** Positional value, most significant digit first. *)
Fixpoint positional (radix : Z) (ds : list Z) : Z :=
  match ds with
  | [] => 0
  | c :: r =>
      match digit c with Some v => v * radix ^ zlen r | None => 0 end + positional radix r
  end.

(** The literal prefixes: none, $ and %. *)
Inductive prefix : list Z -> Z -> Prop :=
| PreDecimal : prefix [] 10
| PreHex : prefix [36] 16
| PreBinary : prefix [37] 2.

(** The two bit planes of pixels 0..3. *)
Fixpoint plane (bit : Z) (px : list Z) : Z :=
  match px with
  | [] => 0
  | p :: r => (p / 2 ^ bit) mod 2 * 2 ^ zlen r + plane bit r
  end.

(** ** Macro bodies *)
Definition is_ref (c : Z) : bool := ((48 <=? c) && (c <=? 57)) || (c =? 64).
(** What \c stands for. *)
Definition replacement (args : list (option (list Z))) (unique : list Z) (c : Z) : list Z :=
  if c =? 64 then unique
  else match nth_error args (Z.to_nat (c - 48)) with Some (Some v) => v | _ => [] end.
(** The body with every \0-\9 and \@ replaced. *)
Fixpoint substitute (args : list (option (list Z))) (unique : list Z) (body : list Z) : list Z :=
  match body with
  | [] => []
  | c :: r =>
      match r with
      | d :: r' =>
          if (c =? 92) && is_ref d
          then replacement args unique d ++ substitute args unique r'
          else c :: substitute args unique r
      | [] => [c]
      end
  end.
(** Does a text begin with a reference? *)
Definition starts_ref (l : list Z) : bool :=
  match l with c :: d :: _ => (c =? 92) && is_ref d | _ => false end.
(** No reference inside, and no \ at the end that could become one. *)
Fixpoint quiet (l : list Z) : bool :=
  match l with
  | [] => true
  | c :: r => negb (starts_ref l) && (match r with [] => negb (c =? 92) | _ => true end) && quiet r
  end.
(** No reference that expands to nothing stands directly before another one. *)
Fixpoint no_empty_run (args : list (option (list Z))) (unique : list Z) (body : list Z) : bool :=
  match body with
  | [] => true
  | c :: r =>
      match r with
      | d :: r' =>
          if (c =? 92) && is_ref d
          then (match replacement args unique d with [] => negb (starts_ref r') | _ => true end)
               && no_empty_run args unique r'
          else no_empty_run args unique r
      | [] => true
      end
  end.
(** C strings. *)
Definition text_ok (l : list Z) : Prop := Forall (fun c => c <> 0) l.
