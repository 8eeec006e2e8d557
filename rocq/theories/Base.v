(** Common vocabulary: bytes, 32-bit words, outcomes, byte-stream readers.

    These model C99 types and the I/O helpers of the (absent) /repo/util
    library as they are used by the sources cited in each file. *)
From Coq Require Import ZArith List Bool Lia.
Import ListNotations.
Open Scope Z_scope.

(** Outcome of a C function: a value, a reported error (the tool prints a
    message and stops, or the function returns its failure value), or
    undefined behaviour. *)
Inductive res (A : Type) : Type :=
| Ok (a : A)
| Err
| UB.
Arguments Ok {A} a.
Arguments Err {A}.
Arguments UB {A}.

Definition bind {A B : Type} (r : res A) (f : A -> res B) : res B :=
  match r with Ok a => f a | Err => Err | UB => UB end.
Notation "'let!' x ':=' r 'in' k" := (bind r (fun x => k))
  (at level 200, x pattern, right associativity).

Definition obind {A B : Type} (r : option A) (f : A -> option B) : option B :=
  match r with Some a => f a | None => None end.
Notation "'let?' x ':=' r 'in' k" := (obind r (fun x => k))
  (at level 200, x pattern, right associativity).

(** uint8_t values. *)
Definition is_byte (b : Z) : Prop := 0 <= b < 256.
Definition bytes (l : list Z) : Prop := Forall is_byte l.
(** uint32_t values. *)
Definition is_u32 (z : Z) : Prop := 0 <= z < 2 ^ 32.
(** int32_t values. *)
Definition is_s32 (z : Z) : Prop := - 2 ^ 31 <= z < 2 ^ 31.

(** Conversion to uint8_t, uint16_t, uint32_t: reduction modulo 2^n. *)
Definition u8 (z : Z) : Z := z mod 256.
Definition u16 (z : Z) : Z := z mod 65536.
Definition u32 (z : Z) : Z := z mod 2 ^ 32.
(** Conversion to int32_t (two's complement, as gcc/clang define it). *)
Definition s32 (z : Z) : Z := (z + 2 ^ 31) mod 2 ^ 32 - 2 ^ 31.

(** Little- and big-endian byte strings of a value. *)
Definition le16 (z : Z) : list Z := [z mod 256; z / 256 mod 256].
Definition be16 (z : Z) : list Z := [z / 256 mod 256; z mod 256].
Definition le32 (z : Z) : list Z :=
  [z mod 256; z / 256 mod 256; z / 65536 mod 256; z / 16777216 mod 256].
Definition be32 (z : Z) : list Z :=
  [z / 16777216 mod 256; z / 65536 mod 256; z / 256 mod 256; z mod 256].

(** A reader consumes a prefix of the remaining bytes; [None] is a premature
    end of file. *)
Definition reader (A : Type) : Type := list Z -> option (A * list Z).

Definition get8 : reader Z :=
  fun s => match s with b :: s' => Some (b, s') | [] => None end.

(** fgetll: util library, 32-bit little-endian read. *)
Definition get32 : reader Z :=
  fun s => match s with
  | a :: b :: c :: d :: s' =>
      Some (a + 256 * b + 65536 * c + 16777216 * d, s')
  | _ => None
  end.

(** fread of n bytes. *)
Fixpoint take (n : nat) (s : list Z) : option (list Z * list Z) :=
  match n, s with
  | O, _ => Some ([], s)
  | S n', b :: s' =>
      match take n' s' with
      | Some (d, r) => Some (b :: d, r)
      | None => None
      end
  | S _, [] => None
  end.

(** fgetsz: util library, read up to and including a NUL; the NUL is not part
    of the result. *)
Fixpoint getsz (s : list Z) : option (list Z * list Z) :=
  match s with
  | [] => None
  | b :: s' =>
      if b =? 0 then Some ([], s')
      else match getsz s' with
           | Some (n, r) => Some (b :: n, r)
           | None => None
           end
  end.

Definition zlen {A : Type} (l : list A) : Z := Z.of_nat (length l).

(** Equality of byte strings (strcmp == 0, str_Equal). *)
Fixpoint beq (a b : list Z) : bool :=
  match a, b with
  | [], [] => true
  | x :: a', y :: b' => (x =? y) && beq a' b'
  | _, _ => false
  end.

(** A C string holds non-NUL bytes. *)
Definition cstr (s : list Z) : Prop := Forall (fun b => 0 < b < 256) s.

Fixpoint sum (l : list Z) : Z :=
  match l with [] => 0 | x :: l' => x + sum l' end.

Fixpoint zseq (start : Z) (n : nat) : list Z :=
  match n with O => [] | S n' => start :: zseq (start + 1) n' end.
