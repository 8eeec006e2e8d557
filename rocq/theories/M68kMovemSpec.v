(** What C71 speaks of: register lists and how the processor reads MOVEM. *)
From Coq Require Import ZArith List Bool.
From Verif Require Import Base ExprModel M68kModel M68kMovemModel.
Import ListNotations.
Open Scope list_scope.
Open Scope Z_scope.

(** A register; D0 to D7 come before A0 to A7. *)
Inductive reg : Type := D (n : Z) | A (n : Z).
Definition reg_ok (r : reg) : Prop := match r with D n | A n => 0 <= n <= 7 end.
Definition rank (r : reg) : Z := match r with D n => n | A n => 8 + n end.
Definition registers : list reg :=
  [D 0; D 1; D 2; D 3; D 4; D 5; D 6; D 7; A 0; A 1; A 2; A 3; A 4; A 5; A 6; A 7].

(** A list "R/R-R/...": a first part and the further parts. *)
Inductive part : Type := One (r : reg) | Span (first last : reg).
Definition part_ok (p : part) : Prop :=
  match p with One r => reg_ok r | Span f l => reg_ok f /\ reg_ok l /\ rank f <= rank l end.
Definition in_part (r : reg) (p : part) : bool :=
  match p with One q => rank r =? rank q | Span f l => (rank f <=? rank r) && (rank r <=? rank l) end.
Definition in_parts (ps : list part) (r : reg) : bool := existsb (in_part r) ps.

(** The text. *)
Definition reg_text (r : reg) : rtoken := RTok (match r with D n => TD n | A n => TA n end).
Definition part_text (p : part) : list rtoken :=
  match p with One r => [reg_text r] | Span f l => [reg_text f; RMinus; reg_text l] end.
Fixpoint list_text (p : part) (ps : list part) : list rtoken :=
  match ps with [] => part_text p | q :: ps => part_text p ++ RSlash :: list_text q ps end.
(** What may follow a list: anything that does not continue it. *)
Definition list_ends (ts : list rtoken) : Prop :=
  match ts with RMinus :: _ | RSlash :: _ => False | _ => True end.

(** The memory operand. *)
Inductive place : Type := At (n : Z) | Before (n : Z) | After (n : Z).
Definition place_ok (p : place) : Prop := match p with At n | Before n | After n => 0 <= n <= 7 end.
Definition place_text (p : place) : rtoken :=
  RTok (match p with At n => TInd n | Before n => TDec n | After n => TInc n end).

(** How the processor reads the two words: bit 10 is the direction, bit 6 the size and the
    low six bits the operand.  Bit number n of the second word is the register of rank n,
    or of rank 15 - n if the address is decremented. *)
Record transfer : Type := Transfer { to_registers : bool; long : bool; memory : place; moved_regs : list reg }.
Definition read_place (ea : Z) : option place :=
  let n := ea mod 8 in
  match ea / 8 with 2 => Some (At n) | 3 => Some (After n) | 4 => Some (Before n) | _ => None end.
Definition read_movem (w mask : Z) : option transfer :=
  if (w / 2048 =? 9) && ((w / 128) mod 8 =? 1) then
    match read_place (w mod 64) with
    | None => None
    | Some p =>
        let bit r := match p with Before _ => Z.testbit mask (15 - rank r) | _ => Z.testbit mask (rank r) end in
        Some (Transfer ((w / 1024) mod 2 =? 1) ((w / 64) mod 2 =? 1) p (filter bit registers))
    end
  else None.
