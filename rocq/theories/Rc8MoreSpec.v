(** Specification of the RC811 instructions that [Rc8Spec] gives no meaning to: how they
    are written and the bytes they are stored as. *)
From Coq Require Import ZArith List Bool String.
From Verif Require Import Base ExprSpec ExprModel SectModel InstrSpec Rc8Model Rc8Spec Rc8JumpSpec.
Import ListNotations.
Open Scope string_scope.
Open Scope list_scope.
Open Scope Z_scope.

Inductive direction : Type := LeftShift | RightShift | RightShiftArithmetic.
(** FT is shifted, and T or FT compared, whether it is written ([full]) or not. *)
Inductive more (A : Type) : Type :=
| Shift (d : direction) (full : bool) (r : reg) | ShiftImm (d : direction) (full : bool) (n : A)
| CmpT (full : bool) (r : reg) | CmpFT (full : bool) (p : pair) | CmpImm (r : reg) (n : A)
| Tst (p : pair) | Pick (p : pair) | PickImm (p : pair) (n : A) | Sys (n : A)
| LoadCode (p : pair) | LoadControl | StoreControl | Ext | DisableInterrupts | EnableInterrupts | ReturnInterrupt.
Arguments Shift {A}. Arguments ShiftImm {A}. Arguments CmpT {A}. Arguments CmpFT {A}. Arguments CmpImm {A}. Arguments Tst {A}.
Arguments Pick {A}. Arguments PickImm {A}. Arguments Sys {A}. Arguments LoadCode {A}. Arguments LoadControl {A}.
Arguments StoreControl {A}. Arguments Ext {A}. Arguments DisableInterrupts {A}. Arguments EnableInterrupts {A}. Arguments ReturnInterrupt {A}.
Definition direction_name (d : direction) : string := match d with LeftShift => "LS" | RightShift => "RS" | RightShiftArithmetic => "RSA" end.
Definition with_first (name first : string) (full : bool) (p : piece) : list piece :=
  if full then [Word name; Word first; Comma; p] else [Word name; p].
Definition more_text (i : more expr) : list piece :=
  match i with
  | Shift d full r => with_first (direction_name d) "FT" full (Word (reg_name r))
  | ShiftImm d full n => with_first (direction_name d) "FT" full (Operand n)
  | CmpT full r => with_first "CMP" "T" full (Word (reg_name r))
  | CmpFT full p => with_first "CMP" "FT" full (Word (pair_name p))
  | CmpImm r n => imm "CMP" (reg_name r) n
  | Tst p => [Word "TST"; Word (pair_name p)]
  | Pick p => [Word "PICK"; Word (pair_name p)]
  | PickImm p n => imm "PICK" (pair_name p) n
  | Sys n => [Word "SYS"; Operand n]
  | LoadCode p => two "LCO" "T" (place_name (At p))
  | LoadControl => two "LCR" "T" "(C)"
  | StoreControl => two "LCR" "(C)" "T"
  | Ext => [Word "EXT"]
  | DisableInterrupts => [Word "DI"]
  | EnableInterrupts => [Word "EI"]
  | ReturnInterrupt => [Word "RETI"]
  end.
(** Counts are in a register that is not part of FT, or from 0 to 15; T and FT are not
    compared with themselves. *)
Definition more_valid (i : more Z) : Prop :=
  match i with
  | Shift _ _ r => r <> rF /\ r <> rT
  | ShiftImm _ _ n => 0 <= n <= 15
  | CmpT _ r => r <> rT
  | CmpFT _ p => p <> FT
  | CmpImm _ n => -128 <= n <= 255
  | PickImm _ n => 0 <= n <= 255
  | Sys n => 0 <= n <= 255
  | _ => True
  end.
Definition more_bytes (i : more Z) : list Z :=
  match i with
  | Shift d _ r => [match d with LeftShift => 0xE0 | RightShift => 0xE8 | RightShiftArithmetic => 0xF8 end + number_of r]
  | ShiftImm d _ n => [match d with LeftShift => 0xB8 | RightShift => 0xB9 | RightShiftArithmetic => 0xBB end; n]
  | CmpT _ r => [0x48 + number_of r]
  | CmpFT _ p => [0xCC + pair_number p]
  | CmpImm r n => [0xA8 + number_of r; n]
  | Tst p => [0xD4 + pair_number p]
  | Pick p => [0x1C + pair_number p]
  | PickImm p n => [0x80 + number_of (lo p); n; 0x1C + pair_number p]
  | Sys n => [0x9B; n]
  | LoadCode p => [0x0C + pair_number p]
  | LoadControl => [0x0B]
  | StoreControl => [0x0A]
  | Ext => [0x49]
  | DisableInterrupts => [0x1B]
  | EnableInterrupts => [0x1A]
  | ReturnInterrupt => [0x59]
  end.
Definition more_map {A B : Type} (f : A -> B) (i : more A) : more B :=
  match i with
  | Shift d b r => Shift d b r | ShiftImm d b n => ShiftImm d b (f n) | CmpT b r => CmpT b r | CmpFT b p => CmpFT b p
  | CmpImm r n => CmpImm r (f n) | Tst p => Tst p | Pick p => Pick p | PickImm p n => PickImm p (f n) | Sys n => Sys (f n)
  | LoadCode p => LoadCode p | LoadControl => LoadControl | StoreControl => StoreControl | Ext => Ext
  | DisableInterrupts => DisableInterrupts | EnableInterrupts => EnableInterrupts | ReturnInterrupt => ReturnInterrupt
  end.
Definition more_operand {A : Type} (i : more A) : option A :=
  match i with ShiftImm _ _ n | CmpImm _ n | PickImm _ n | Sys n => Some n | _ => None end.
Definition more_known (S : setting) (cur : option asect) (i : more arg) : Prop :=
  forall a, more_operand i = Some a -> operand S cur (g_term a) (g_expr a) (g_value a) /\ tdepth (g_term a) <= 240.
Definition more_term (i : more arg) : term := match more_operand i with Some a => g_term a | None => Num 0 end.

(** ** The option *)
(** One instruction of the processor: an opcode, and an operand if it has one. *)
Definition at_most_one (l : list item) : Prop :=
  match l with [] | [Byte _] | [Byte _; Value _] | [Byte _; Relative _] => True | _ => False end.
Definition reports (l : list item) : Prop := exists n, In (Error n) l.
