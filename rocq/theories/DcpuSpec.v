(** Specification of the DCPU-16 instruction set: the assembly language and the encoding
    of the DCPU-16 specification, version 1.1. *)
From Coq Require Import ZArith List Bool String.
From Verif Require Import Base Arith ExprSpec ExprModel ExprLayout OptModel SectModel SectSpec InstrSpec.
From Verif Require X65Spec.
From Verif Require Import DcpuModel.
Import ListNotations.
Open Scope string_scope.
Open Scope list_scope.
Open Scope Z_scope.

(** ** Operands *)
Inductive reg : Type := RA | RB | RC | RX | RY | RZ | RI | RJ.
Definition reg_name (r : reg) : string :=
  match r with RA => "A" | RB => "B" | RC => "C" | RX => "X" | RY => "Y" | RZ => "Z" | RI => "I" | RJ => "J" end.
Definition reg_number (r : reg) : Z :=
  match r with RA => 0 | RB => 1 | RC => 2 | RX => 3 | RY => 4 | RZ => 5 | RI => 6 | RJ => 7 end.
(** Stack accesses and special registers, under all their names. *)
Definition specials : list (string * Z) :=
  [("POP", 0x18); ("[SP++]", 0x18); ("PEEK", 0x19); ("[SP]", 0x19); ("PUSH", 0x1A); ("[--SP]", 0x1A);
   ("SP", 0x1B); ("PC", 0x1C); ("O", 0x1D)].
(** Operands: r  [r]  [r+n]  [n+r]  [n+r+m]  a name  [n]  n *)
Inductive form (T : Type) : Type :=
| Reg (r : reg) | At (r : reg) | Index (r : reg) (n : T) | IndexL (n : T) (r : reg) | IndexLR (n : T) (r : reg) (m : T)
| Special (s : string) | Mem (n : T) | Lit (n : T).
Arguments Reg {T} r.
Arguments At {T} r.
Arguments Index {T} r n.
Arguments IndexL {T} n r.
Arguments IndexLR {T} n r m.
Arguments Special {T} s.
Arguments Mem {T} n.
Arguments Lit {T} n.
(** An operand's number: as written, as entered, its final value, and what the parser
    would make of its text without the first token. *)
Record arg : Type := Arg { g_arg : X65Spec.arg; g_tail : option expr }.
Definition g_term (a : arg) : term := X65Spec.g_term (g_arg a).
Definition g_expr (a : arg) : expr := X65Spec.g_expr (g_arg a).
Definition g_value (a : arg) : Z := X65Spec.g_value (g_arg a).
Definition number_text (a : arg) : piece := Operand (g_expr a) (g_tail a).
(** How they are written. *)
Definition text (f : form arg) : list piece :=
  match f with
  | Reg r => [Word (reg_name r)]
  | At r => [Lb; Word (reg_name r); Rb]
  | Index r n => [Lb; Word (reg_name r); Plus; number_text n; Rb]
  | IndexL n r => [Lb; number_text n; Plus; Word (reg_name r); Rb]
  | IndexLR n r m => [Lb; number_text n; Plus; Word (reg_name r); Plus; number_text m; Rb]
  | Special s => [Word s]
  | Mem n => [Lb; number_text n; Rb]
  | Lit n => [number_text n]
  end.
Definition well_named (f : form arg) : Prop := match f with Special s => In s (map fst specials) | _ => True end.

(** ** Encodings *)
(** Basic instructions have two operands; JSR has one. *)
Definition basic : list (string * Z) :=
  [("SET", 0x1); ("ADD", 0x2); ("SUB", 0x3); ("MUL", 0x4); ("DIV", 0x5); ("MOD", 0x6); ("SHL", 0x7); ("SHR", 0x8);
   ("AND", 0x9); ("BOR", 0xA); ("XOR", 0xB); ("IFE", 0xC); ("IFN", 0xD); ("IFG", 0xE); ("IFB", 0xF)].
Definition known_now (a : arg) : bool := expr_IsConstant (g_expr a).
(** A literal of 0 to 31 that is known may be part of the instruction word. *)
Definition short (optimize : bool) (n : arg) : bool := optimize && known_now n && (g_value n mod 65536 <=? 31).
Fixpoint special_code (s : string) (l : list (string * Z)) : Z :=
  match l with [] => 0 | (k, v) :: r => if String.eqb s k then v else special_code s r end.
(** The six bits of an operand, and the word that follows. *)
Definition bits (optimize : bool) (f : form arg) : Z :=
  match f with
  | Reg r => reg_number r
  | At r => 0x08 + reg_number r
  | Index r _ | IndexL _ r | IndexLR _ r _ => 0x10 + reg_number r
  | Special s => special_code s specials
  | Mem _ => 0x1E
  | Lit n => if short optimize n then 0x20 + g_value n mod 65536 else 0x1F
  end.
Definition word_cell (t : term) (v : Z) : nat * term * Z := (2%nat, t, v).
Definition words (optimize : bool) (f : form arg) : list (nat * term * Z) :=
  match f with
  | Index _ n | IndexL n _ => [word_cell (g_term n) (g_value n mod 65536)]
  | IndexLR n _ m => [word_cell (Bin OpAdd (g_term n) (g_term m)) ((g_value n + g_value m) mod 65536)]
  | Mem n => [word_cell (g_term n) (g_value n)]
  | Lit n => if short optimize n then [] else [word_cell (g_term n) (g_value n)]
  | _ => []
  end.
Definition code_cell (v : Z) : nat * term * Z := word_cell (Num v) v.
Definition basic_encoding (optimize : bool) (op : Z) (a b : form arg) : list (nat * term * Z) :=
  code_cell (op + 16 * bits optimize a + 1024 * bits optimize b) :: words optimize a ++ words optimize b.
Definition jsr_encoding (optimize : bool) (a : form arg) : list (nat * term * Z) :=
  code_cell (16 + 1024 * bits optimize a) :: words optimize a.

(** Values that fit. *)
Definition fits16 (v : Z) : Prop := -32768 <= v <= 65535.
Definition fits (f : form arg) : Prop :=
  match f with
  | Index _ n | IndexL n _ => fits16 (g_value n)
  | IndexLR n _ m => fits16 (g_value n + g_value m)
  | Mem n => 0 <= g_value n <= 65535
  | Lit n => fits16 (g_value n)
  | _ => True
  end.
Definition numbers (f : form arg) : list arg :=
  match f with Index _ n | IndexL n _ | Mem n | Lit n => [n] | IndexLR n _ m => [n; m] | _ => [] end.
Definition numbers_known (S : setting) (f : form arg) : Prop :=
  forall a, In a (numbers f) ->
    operand S None (g_term a) (g_expr a) (g_value a) /\ X65Spec.source_term (g_term a) /\ tdepth (g_term a) <= 240.
(** The rest of the line does not continue the operand. *)
Definition ends (rest : list token) : Prop := match rest with [] => True | TOther :: _ => True | _ => False end.
(** Room for [n] bytes in a section of 16 bit words. *)
Definition ready2 (st : xstate) (k : nat) (m : msect) (n : Z) : Prop :=
  current_section st k m GText /\ section_fine GText m /\ x_wordSize st = 2 /\ m_used m + n <= max_size.
(** The cells are appended, and have these values wherever the section is placed. *)
Definition appended (S : setting) (k : nat) (st st' : xstate) (l : list (nat * term * Z)) : Prop :=
  forall d, emits (X65Spec.moved d S) k st st' l.

(** ** Faults *)
(** The name [--SP]; with optimisation, a known literal of -31 to -1 that is added or
    subtracted. *)
Definition faulty (optimize : bool) (name : string) (a b : form arg) : bool :=
  let pre f := match f with Special s => String.eqb s "[--SP]" | _ => false end in
  pre a || pre b ||
  ((String.eqb name "ADD" || String.eqb name "SUB") && optimize &&
   match b with Lit n => known_now n && (0xFFE1 <=? g_value n mod 65536) | _ => false end).
(** Text is in pieces that are as long as possible: a sum of numbers is one. *)
Fixpoint merged (l : list piece) : Prop :=
  match l with
  | [] => True
  | p :: r => merged r /\ match p, r with Operand _ _, Plus :: Operand _ _ :: _ => False | _, _ => True end
  end.
