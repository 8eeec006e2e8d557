(** Specification of the Z80 and Game Boy instruction sets: the opcodes of the Zilog
    data sheet and of the Game Boy CPU manual, the usual undocumented instructions, and
    the synthesized instructions of /repo/doc/CpuZ80.md. *)
From Coq Require Import ZArith List Bool String.
From Verif Require Import Base Arith ExprSpec ExprModel OptModel SectModel SectSpec InstrSpec Z80Model.
From Verif Require X65Spec.
Import ListNotations.
Open Scope string_scope.
Open Scope list_scope.
Open Scope Z_scope.

(** ** Operands *)
Inductive reg : Type :=
| B | C | D | E | H | L | HLi | A | IXH | IXL | IYH | IYL | BC | DE | HL | SP | IX | IY | Ci | HiC | SPi | BCi | DEi
| HLinc | HLdec | AF | AF' | I | R | NZ | Zf | NC | PO | PE | P | M.
(** How they are written, in round or square brackets. *)
Definition spelling (square : bool) (r : reg) : string :=
  let br (a b : string) := if square then b else a in
  match r with
  | B => "B" | C => "C" | D => "D" | E => "E" | H => "H" | L => "L" | HLi => br "(HL)" "[HL]" | A => "A"
  | IXH => "IXH" | IXL => "IXL" | IYH => "IYH" | IYL => "IYL" | BC => "BC" | DE => "DE" | HL => "HL" | SP => "SP"
  | IX => "IX" | IY => "IY" | Ci => br "(C)" "[C]" | HiC => br "($FF00+C)" "[$FF00+C]" | SPi => br "(SP)" "[SP]"
  | BCi => br "(BC)" "[BC]" | DEi => br "(DE)" "[DE]" | HLinc => br "(HL+)" "[HL+]" | HLdec => br "(HL-)" "[HL-]"
  | AF => "AF" | AF' => "AF'" | I => "I" | R => "R"
  | NZ => "NZ" | Zf => "Z" | NC => "NC" | PO => "PO" | PE => "PE" | P => "P" | M => "M"
  end.
(** An index register. *)
Inductive xy : Type := X | Y.
Definition xy_name (x : xy) : string := match x with X => "IX" | Y => "IY" end.
(** An operand: a register, (IX), (IX+d), a number, an address (n), and SP+d. *)
Inductive opnd (T : Type) : Type :=
| OReg (square : bool) (r : reg) | OIndex (square : bool) (x : xy) | OIndexD (square : bool) (x : xy) (a : T)
| OImm (a : T) | OMem (square : bool) (a : T) | OSP (a : T).
Arguments OReg {T}. Arguments OIndex {T}. Arguments OIndexD {T}. Arguments OImm {T}. Arguments OMem {T}. Arguments OSP {T}.
Definition omap {T U : Type} (f : T -> U) (p : opnd T) : opnd U :=
  match p with
  | OReg s r => OReg s r | OIndex s x => OIndex s x | OIndexD s x a => OIndexD s x (f a) | OImm a => OImm (f a)
  | OMem s a => OMem s (f a) | OSP a => OSP (f a)
  end.
Definition carried {T : Type} (p : opnd T) : list T :=
  match p with OReg _ _ | OIndex _ _ => [] | OIndexD _ _ a | OImm a | OMem _ a | OSP a => [a] end.
(** An expression in the source; [true] tells that it begins with a sign, as the
    displacements in (IX+d) and SP+d do. *)
Definition source : Type := bool * expr.
Definition number_text (a : source) : piece := if fst a then Signed (snd a) else Operand (snd a).
Definition brackets (square : bool) (l : list piece) : list piece := (if square then Lb else Lp) :: l ++ [if square then Rb else Rp].
Definition text1 (p : opnd source) : list piece :=
  match p with
  | OReg s r => [Word (spelling s r)]
  | OIndex s x => brackets s [Word (xy_name x)]
  | OIndexD s x a => brackets s [Word (xy_name x); number_text a]
  | OImm a => [number_text a]
  | OMem s a => brackets s [number_text a]
  | OSP a => [Word "SP"; number_text a]
  end.
Fixpoint text (l : list (opnd source)) : list piece :=
  match l with [] => [] | [p] => text1 p | p :: r => text1 p ++ Comma :: text r end.
Definition signed_well {T : Type} (sign : T -> bool) (p : opnd T) : Prop :=
  match p with OIndexD _ _ a | OSP a => sign a = true | _ => True end.

(** ** The instruction set *)
(** Operand patterns, and what is stored, in terms of the expressions of the first
    ([0]) and second ([1]) operand. *)
Inductive pat : Type := Reg (r : reg) | Index (x : xy) | IndexD (x : xy) | Imm | Mem | SPd.
Inductive cell : Type :=
| Byte (b : Z)
| N (i : nat)        (* a byte, -128 to 255 *)
| U (i : nat)        (* a byte, 0 to 255 *)
| Disp (i : nat)     (* a signed byte *)
| Next (i : nat)     (* the same plus 1 *)
| W (i : nat)        (* a 16-bit address *)
| WS (i : nat)       (* 16 bits, -32768 to 65535 *)
| Rel (i : nat)      (* the distance from the next instruction *)
| Bit (op : Z) (i : nat) (* op plus 8 times a bit number *)
| High (i : nat).    (* the low byte of an address from FF00 to FFFF *)
(** A condition on a number known while assembling. *)
Inductive cond : Type := Always | Value (i : nat) (v : Z) | InHigh (i : nat) | NotHigh (i : nat).
Inductive target : Type := ForZ80 | ForGB | ForBoth.
Record row : Type := Row {
  r_name : string; r_pats : list pat; r_target : target; r_undocumented : bool; r_synthesized : bool; r_cond : cond;
  r_code : list cell }.
Definition both (s : string) (ps : list pat) (code : list cell) : row := Row s ps ForBoth false false Always code.
Definition z80 (s : string) (ps : list pat) (code : list cell) : row := Row s ps ForZ80 false false Always code.
Definition gb (s : string) (ps : list pat) (code : list cell) : row := Row s ps ForGB false false Always code.
Definition undoc (s : string) (ps : list pat) (code : list cell) : row := Row s ps ForZ80 true false Always code.

(** Registers and their numbers in opcodes. *)
Definition r8 : list (reg * Z) := [(B, 0); (C, 1); (D, 2); (E, 3); (H, 4); (L, 5); (HLi, 6); (A, 7)].
Definition is_HLi (r : reg) : bool := match r with HLi => true | _ => false end.
Definition r7 : list (reg * Z) := filter (fun p => negb (is_HLi (fst p))) r8.
Definition r5 : list (reg * Z) := [(B, 0); (C, 1); (D, 2); (E, 3); (A, 7)].
Definition halves (x : xy) : list (reg * Z) := match x with X => [(IXH, 4); (IXL, 5)] | Y => [(IYH, 4); (IYL, 5)] end.
Definition rss : list (reg * Z) := [(BC, 0); (DE, 1); (HL, 2); (SP, 3)].
Definition rqq : list (reg * Z) := [(BC, 0); (DE, 1); (HL, 2); (AF, 3)].
Definition cc4 : list (reg * Z) := [(NZ, 0); (Zf, 1); (NC, 2); (C, 3)].
Definition cc_more : list (reg * Z) := [(PO, 4); (PE, 5); (P, 6); (M, 7)].
Definition xys : list (xy * Z) := [(X, 0xDD); (Y, 0xFD)].
Definition xy_reg (x : xy) : reg := match x with X => IX | Y => IY end.
(** The high and low registers of a pair. *)
Definition hi_lo (r : reg) : (reg * Z) * (reg * Z) :=
  match r with BC => ((B, 0), (C, 1)) | DE => ((D, 2), (E, 3)) | _ => ((H, 4), (L, 5)) end.
Definition r16 : list reg := [BC; DE; HL].
(** (IX) is short for (IX+0); [i] is the position of the operand. *)
Definition indexed (x : xy) (i : nat) : list (pat * cell) := [(Index x, Byte 0); (IndexD x, Disp i)].

Section For.
Context {T : Type}.
Definition each (l : list T) (f : T -> list row) : list row := flat_map f l.
End For.
Definition implied_both : list row := map (fun '(s, b) => both s [] [Byte b])
  [("NOP", 0x00); ("RLCA", 0x07); ("RRCA", 0x0F); ("RLA", 0x17); ("RRA", 0x1F); ("DAA", 0x27); ("CPL", 0x2F); ("SCF", 0x37);
   ("CCF", 0x3F); ("HALT", 0x76); ("DI", 0xF3); ("EI", 0xFB); ("RET", 0xC9)].
Definition implied_z80 : list row := z80 "EXX" [] [Byte 0xD9] :: map (fun '(s, b) => z80 s [] [Byte 0xED; Byte b])
  [("NEG", 0x44); ("RETN", 0x45); ("RETI", 0x4D); ("RRD", 0x67); ("RLD", 0x6F); ("LDI", 0xA0); ("CPI", 0xA1); ("INI", 0xA2);
   ("OUTI", 0xA3); ("LDD", 0xA8); ("CPD", 0xA9); ("IND", 0xAA); ("OUTD", 0xAB); ("LDIR", 0xB0); ("CPIR", 0xB1);
   ("INIR", 0xB2); ("OTIR", 0xB3); ("LDDR", 0xB8); ("CPDR", 0xB9); ("INDR", 0xBA); ("OTDR", 0xBB)].
(** 8-bit arithmetic and logic: the operand A may be left out. *)
Definition alu : list (string * Z) :=
  [("ADD", 0x00); ("ADC", 0x08); ("SUB", 0x10); ("SBC", 0x18); ("AND", 0x20); ("XOR", 0x28); ("OR", 0x30); ("CP", 0x38)].
Definition arithmetic8 : list row :=
  each alu (fun '(s, k) => each [([Reg A], 1%nat); ([], 0%nat)] (fun '(a, i) =>
    map (fun '(r, n) => both s (a ++ [Reg r]) [Byte (0x80 + k + n)]) r8
    ++ [both s (a ++ [Imm]) [Byte (0xC6 + k); N i]]
    ++ each xys (fun '(x, p) =>
         map (fun '(o, d) => z80 s (a ++ [o]) [Byte p; Byte (0x86 + k); d]) (indexed x i)
         ++ map (fun '(r, n) => undoc s (a ++ [Reg r]) [Byte p; Byte (0x80 + k + n)]) (halves x))))
  ++ each [("INC", 0x04); ("DEC", 0x05)] (fun '(s, k) =>
       map (fun '(r, n) => both s [Reg r] [Byte (k + 8 * n)]) r8
       ++ each xys (fun '(x, p) =>
            map (fun '(o, d) => z80 s [o] [Byte p; Byte (k + 0x30); d]) (indexed x 0)
            ++ map (fun '(r, n) => undoc s [Reg r] [Byte p; Byte (k + 8 * n)]) (halves x))).
Definition arithmetic16 : list row :=
  map (fun '(r, n) => both "ADD" [Reg HL; Reg r] [Byte (0x09 + 16 * n)]) rss
  ++ map (fun '(r, n) => z80 "ADC" [Reg HL; Reg r] [Byte 0xED; Byte (0x4A + 16 * n)]) rss
  ++ map (fun '(r, n) => z80 "SBC" [Reg HL; Reg r] [Byte 0xED; Byte (0x42 + 16 * n)]) rss
  ++ each xys (fun '(x, p) => map (fun '(r, n) => z80 "ADD" [Reg (xy_reg x); Reg r] [Byte p; Byte (0x09 + 16 * n)])
                                  [(BC, 0); (DE, 1); (xy_reg x, 2); (SP, 3)])
  ++ map (fun '(r, n) => both "INC" [Reg r] [Byte (0x03 + 16 * n)]) rss
  ++ map (fun '(r, n) => both "DEC" [Reg r] [Byte (0x0B + 16 * n)]) rss
  ++ each xys (fun '(x, p) => [z80 "INC" [Reg (xy_reg x)] [Byte p; Byte 0x23]; z80 "DEC" [Reg (xy_reg x)] [Byte p; Byte 0x2B]])
  ++ [gb "ADD" [Reg SP; Imm] [Byte 0xE8; Disp 1]].
Definition load8 : list row :=
  each r8 (fun '(r, n) => each r8 (fun '(r', n') =>
    if is_HLi r && is_HLi r' then [] else [both "LD" [Reg r; Reg r'] [Byte (0x40 + 8 * n + n')]]))
  ++ map (fun '(r, n) => both "LD" [Reg r; Imm] [Byte (0x06 + 8 * n); N 1]) r8
  ++ [both "LD" [Reg A; Reg BCi] [Byte 0x0A]; both "LD" [Reg A; Reg DEi] [Byte 0x1A];
      both "LD" [Reg BCi; Reg A] [Byte 0x02]; both "LD" [Reg DEi; Reg A] [Byte 0x12];
      z80 "LD" [Reg A; Mem] [Byte 0x3A; W 1]; z80 "LD" [Mem; Reg A] [Byte 0x32; W 0];
      z80 "LD" [Reg A; Reg I] [Byte 0xED; Byte 0x57]; z80 "LD" [Reg A; Reg R] [Byte 0xED; Byte 0x5F];
      z80 "LD" [Reg I; Reg A] [Byte 0xED; Byte 0x47]; z80 "LD" [Reg R; Reg A] [Byte 0xED; Byte 0x4F]]
  ++ each xys (fun '(x, p) =>
       each r7 (fun '(r, n) =>
         map (fun '(o, d) => z80 "LD" [Reg r; o] [Byte p; Byte (0x46 + 8 * n); d]) (indexed x 1)
         ++ map (fun '(o, d) => z80 "LD" [o; Reg r] [Byte p; Byte (0x70 + n); d]) (indexed x 0))
       ++ map (fun '(o, d) => z80 "LD" [o; Imm] [Byte p; Byte 0x36; d; N 1]) (indexed x 0)
       ++ each (halves x) (fun '(h, n) =>
            map (fun '(r, n') => undoc "LD" [Reg r; Reg h] [Byte p; Byte (0x40 + 8 * n' + n)]) r5
            ++ map (fun '(r, n') => undoc "LD" [Reg h; Reg r] [Byte p; Byte (0x40 + 8 * n + n')]) (r5 ++ halves x)
            ++ [undoc "LD" [Reg h; Imm] [Byte p; Byte (0x06 + 8 * n); N 1]])).
Definition load16 : list row :=
  map (fun '(r, n) => both "LD" [Reg r; Imm] [Byte (0x01 + 16 * n); WS 1]) rss
  ++ [both "LD" [Reg SP; Reg HL] [Byte 0xF9]; z80 "LD" [Reg HL; Mem] [Byte 0x2A; W 1]; z80 "LD" [Mem; Reg HL] [Byte 0x22; W 0]]
  ++ each [(BC, 0); (DE, 1); (SP, 3)] (fun '(r, n) =>
       [z80 "LD" [Reg r; Mem] [Byte 0xED; Byte (0x4B + 16 * n); W 1]; z80 "LD" [Mem; Reg r] [Byte 0xED; Byte (0x43 + 16 * n); W 0]])
  ++ each xys (fun '(x, p) =>
       [z80 "LD" [Reg (xy_reg x); Imm] [Byte p; Byte 0x21; WS 1]; z80 "LD" [Reg (xy_reg x); Mem] [Byte p; Byte 0x2A; W 1];
        z80 "LD" [Mem; Reg (xy_reg x)] [Byte p; Byte 0x22; W 0]; z80 "LD" [Reg SP; Reg (xy_reg x)] [Byte p; Byte 0xF9];
        z80 "PUSH" [Reg (xy_reg x)] [Byte p; Byte 0xE5]; z80 "POP" [Reg (xy_reg x)] [Byte p; Byte 0xE1]])
  ++ map (fun '(r, n) => both "PUSH" [Reg r] [Byte (0xC5 + 16 * n)]) rqq
  ++ map (fun '(r, n) => both "POP" [Reg r] [Byte (0xC1 + 16 * n)]) rqq.
(** In either order. *)
Definition exchange : list row :=
  each [(DE, HL, [Byte 0xEB]); (AF, AF', [Byte 0x08]); (SPi, HL, [Byte 0xE3]); (SPi, IX, [Byte 0xDD; Byte 0xE3]);
        (SPi, IY, [Byte 0xFD; Byte 0xE3])]
       (fun '(r, r', code) => [z80 "EX" [Reg r; Reg r'] code; z80 "EX" [Reg r'; Reg r] code]).
Definition jumps : list row :=
  [both "JP" [Imm] [Byte 0xC3; W 0]; both "CALL" [Imm] [Byte 0xCD; W 0]; both "JR" [Imm] [Byte 0x18; Rel 0];
   both "JP" [Reg HLi] [Byte 0xE9]; z80 "JP" [Index X] [Byte 0xDD; Byte 0xE9]; z80 "JP" [Index Y] [Byte 0xFD; Byte 0xE9];
   z80 "DJNZ" [Imm] [Byte 0x10; Rel 0]]
  ++ each [(both, cc4); (z80, cc_more)] (fun '(on, l) => each l (fun '(r, n) =>
       [on "JP" [Reg r; Imm] [Byte (0xC2 + 8 * n); W 1]; on "CALL" [Reg r; Imm] [Byte (0xC4 + 8 * n); W 1];
        on "RET" [Reg r] [Byte (0xC0 + 8 * n)]]))
  ++ map (fun '(r, n) => both "JR" [Reg r; Imm] [Byte (0x20 + 8 * n); Rel 1]) cc4
  ++ map (fun v => Row "RST" [Imm] ForBoth false false (Value 0 v) [Byte (0xC7 + v)]) [0x00; 0x08; 0x10; 0x18; 0x20; 0x28; 0x30; 0x38]
  ++ map (fun '(v, b) => Row "IM" [Imm] ForZ80 false false (Value 0 v) [Byte 0xED; Byte b]) [(0, 0x46); (1, 0x56); (2, 0x5E)].
Definition rotates : list (string * Z * (string -> list pat -> list cell -> row) * (string -> list pat -> list cell -> row)) :=
  [("RLC", 0x00, both, z80); ("RRC", 0x08, both, z80); ("RL", 0x10, both, z80); ("RR", 0x18, both, z80); ("SLA", 0x20, both, z80);
   ("SRA", 0x28, both, z80); ("SLL", 0x30, undoc, undoc); ("SRL", 0x38, both, z80)].
Definition bits : list row :=
  each rotates (fun '(s, k, on, on_xy) =>
    map (fun '(r, n) => on s [Reg r] [Byte 0xCB; Byte (k + n)]) r8
    ++ each xys (fun '(x, p) => map (fun '(o, d) => on_xy s [o] [Byte p; Byte 0xCB; d; Byte (k + 6)]) (indexed x 0)))
  ++ each [("BIT", 0x40); ("RES", 0x80); ("SET", 0xC0)] (fun '(s, k) =>
       map (fun '(r, n) => both s [Imm; Reg r] [Byte 0xCB; Bit (k + n) 0]) r8
       ++ each xys (fun '(x, p) => map (fun '(o, d) => z80 s [Imm; o] [Byte p; Byte 0xCB; d; Bit (k + 6) 0]) (indexed x 1))).
Definition ports : list row :=
  [z80 "IN" [Reg A; Mem] [Byte 0xDB; U 1]; z80 "OUT" [Mem; Reg A] [Byte 0xD3; U 0]; undoc "IN" [Reg Ci] [Byte 0xED; Byte 0x70];
   Row "OUT" [Reg Ci; Imm] ForZ80 true false (Value 1 0) [Byte 0xED; Byte 0x71]]
  ++ map (fun '(r, n) => z80 "IN" [Reg r; Reg Ci] [Byte 0xED; Byte (0x40 + 8 * n)]) r7
  ++ map (fun '(r, n) => z80 "OUT" [Reg Ci; Reg r] [Byte 0xED; Byte (0x41 + 8 * n)]) r7.
Definition game_boy : list row :=
  [gb "RETI" [] [Byte 0xD9]; gb "STOP" [] [Byte 0x10; Byte 0x00];
   gb "LD" [Reg A; Reg HLinc] [Byte 0x2A]; gb "LDI" [Reg A; Reg HLi] [Byte 0x2A];
   gb "LD" [Reg HLinc; Reg A] [Byte 0x22]; gb "LDI" [Reg HLi; Reg A] [Byte 0x22];
   gb "LD" [Reg A; Reg HLdec] [Byte 0x3A]; gb "LDD" [Reg A; Reg HLi] [Byte 0x3A];
   gb "LD" [Reg HLdec; Reg A] [Byte 0x32]; gb "LDD" [Reg HLi; Reg A] [Byte 0x32];
   gb "LD" [Reg A; Reg Ci] [Byte 0xF2]; gb "LD" [Reg A; Reg HiC] [Byte 0xF2];
   gb "LD" [Reg Ci; Reg A] [Byte 0xE2]; gb "LD" [Reg HiC; Reg A] [Byte 0xE2];
   gb "LDH" [Reg A; Mem] [Byte 0xF0; High 1]; gb "LDH" [Mem; Reg A] [Byte 0xE0; High 0];
   gb "LDIO" [Reg A; Mem] [Byte 0xF0; High 1]; gb "LDIO" [Mem; Reg A] [Byte 0xE0; High 0];
   (* the short form is used when the address is known *)
   Row "LD" [Reg A; Mem] ForGB false false (InHigh 1) [Byte 0xF0; High 1];
   Row "LD" [Mem; Reg A] ForGB false false (InHigh 0) [Byte 0xE0; High 0];
   Row "LD" [Reg A; Mem] ForGB false false (NotHigh 1) [Byte 0xFA; W 1];
   Row "LD" [Mem; Reg A] ForGB false false (NotHigh 0) [Byte 0xEA; W 0];
   gb "LD" [Mem; Reg SP] [Byte 0x08; W 0]; gb "LD" [Reg HL; SPd] [Byte 0xF8; Disp 1]; gb "LDHL" [Reg SP; Imm] [Byte 0xF8; Disp 1]]
  ++ map (fun '(r, n) => gb "SWAP" [Reg r] [Byte 0xCB; Byte (0x30 + n)]) r8.
(** Sequences of instructions under one name, when they are enabled. *)
Definition synthesized : list row :=
  each r16 (fun r =>
    let '((_, h), (_, l)) := hi_lo r in
    map (fun r' => let '((_, h'), (_, l')) := hi_lo r' in
      Row "LD" [Reg r; Reg r'] ForBoth false true Always [Byte (0x40 + 8 * h + h'); Byte (0x40 + 8 * l + l')]) r16
    ++ [Row "SLA" [Reg r] ForBoth false true Always [Byte 0xCB; Byte (0x20 + l); Byte 0xCB; Byte (0x10 + h)];
        Row "SLL" [Reg r] ForZ80 true true Always [Byte 0xCB; Byte (0x30 + l); Byte 0xCB; Byte (0x10 + h)];
        Row "SRA" [Reg r] ForBoth false true Always [Byte 0xCB; Byte (0x28 + h); Byte 0xCB; Byte (0x18 + l)];
        Row "SRL" [Reg r] ForBoth false true Always [Byte 0xCB; Byte (0x38 + h); Byte 0xCB; Byte (0x18 + l)]]
    ++ each xys (fun '(x, p) =>
         map (fun '(o, d, d1) => Row "LD" [Reg r; o] ForZ80 false true Always
                [Byte p; Byte (0x46 + 8 * l); d; Byte p; Byte (0x46 + 8 * h); d1]) [(Index x, Byte 0, Byte 1); (IndexD x, Disp 1, Next 1)]
         ++ map (fun '(o, d, d1) => Row "LD" [o; Reg r] ForZ80 false true Always
                [Byte p; Byte (0x70 + l); d; Byte p; Byte (0x70 + h); d1]) [(Index x, Byte 0, Byte 1); (IndexD x, Disp 0, Next 0)]))
  ++ each [BC; DE] (fun r =>
       let '((_, h), (_, l)) := hi_lo r in
       each xys (fun '(x, p) =>
         [Row "LD" [Reg (xy_reg x); Reg r] ForZ80 true true Always [Byte p; Byte (0x60 + h); Byte p; Byte (0x68 + l)];
          Row "LD" [Reg r; Reg (xy_reg x)] ForZ80 true true Always [Byte p; Byte (0x44 + 8 * h); Byte p; Byte (0x45 + 8 * l)]])).
Definition table : list row :=
  implied_both ++ implied_z80 ++ arithmetic8 ++ arithmetic16 ++ load8 ++ load16 ++ exchange ++ jumps ++ bits ++ ports ++ game_boy
  ++ synthesized.

(** ** Encodings *)
Notation arg := X65Spec.arg.
Notation g_term := X65Spec.g_term.
Notation g_expr := X65Spec.g_expr.
Notation g_value := X65Spec.g_value.
(** The processor and the options selected. *)
Definition options_of (cpu_gb undocumented synthesized : bool) : mopts := MOpts (if cpu_gb then CPUF_GB else CPUF_Z80) synthesized undocumented.
Definition enabled (cpu_gb undocumented synthesized : bool) (r : row) : bool :=
  match r_target r with ForBoth => true | ForZ80 => negb cpu_gb | ForGB => cpu_gb end &&
  (undocumented || negb (r_undocumented r)) && (synthesized || negb (r_synthesized r)).
(** An operand that is written as the pattern says. *)
Definition pattern_of {T : Type} (p : opnd T) : pat :=
  match p with OReg _ r => Reg r | OIndex _ x => Index x | OIndexD _ x _ => IndexD x | OImm _ => Imm | OMem _ _ => Mem | OSP _ => SPd end.
Definition nothing : arg := X65Spec.Arg (Num 0) (expr_Const 0) 0.
Definition arg_at (l : list (opnd (bool * arg))) (i : nat) : arg :=
  match nth_error l i with
  | Some (OIndexD _ _ a) | Some (OImm a) | Some (OMem _ a) | Some (OSP a) => snd a
  | _ => nothing
  end.
Definition value (l : list (opnd (bool * arg))) (i : nat) : Z := g_value (arg_at l i).
Definition known_now (l : list (opnd (bool * arg))) (i : nat) : bool := expr_IsConstant (g_expr (arg_at l i)).
Definition in_high (v : Z) : Prop := 0xFF00 <= v <= 0xFFFF.
Definition holds (l : list (opnd (bool * arg))) (c : cond) : Prop :=
  match c with
  | Always => True
  | Value i v => known_now l i = true /\ value l i = v
  | InHigh i => known_now l i = true /\ in_high (value l i)
  | NotHigh i => known_now l i = false \/ ~ in_high (value l i)
  end.
(** What a condition means for the numbers that are known. *)
Definition view_meets (view : nat -> option Z) (c : cond) : Prop :=
  match c with
  | Always => True
  | Value i v => view i = Some v
  | InHigh i => exists v, view i = Some v /\ in_high v
  | NotHigh i => forall v, view i = Some v -> ~ in_high v
  end.
(** Operands are expressions of the source that are not as a whole in parentheses. *)
Definition args_known (S : setting) (cur : option asect) (l : list (opnd (bool * arg))) : Prop :=
  forall p a, In p l -> In a (carried p) ->
    operand S cur (g_term (snd a)) (g_expr (snd a)) (g_value (snd a)) /\ X65Spec.source_term (g_term (snd a)) /\
    ~ paren_head (g_term (snd a)) /\ tdepth (g_term (snd a)) <= 240.
Definition cell_width (c : cell) : nat := match c with W _ | WS _ => 2 | _ => 1 end.
(** Values that fit; [pc] is the address of the byte. *)
Definition cell_fits (l : list (opnd (bool * arg))) (pc : Z) (c : cell) : Prop :=
  match c with
  | Byte _ => True
  | N i => -128 <= value l i <= 255
  | U i => 0 <= value l i <= 255
  | Disp i => -128 <= value l i <= 127
  | Next i => -128 <= value l i + 1 <= 127
  | W i => 0 <= value l i <= 65535
  | WS i => -32768 <= value l i <= 65535
  | Rel i => 0 <= value l i <= 65535 /\ -128 <= value l i - (pc + 1) <= 127
  | Bit _ i => 0 <= value l i <= 7
  | High i => in_high (value l i)
  end.
Fixpoint in_range (l : list (opnd (bool * arg))) (pc : Z) (code : list cell) : Prop :=
  match code with [] => True | c :: r => cell_fits l pc c /\ in_range l (pc + Z.of_nat (cell_width c)) r end.
(** What is stored: sizes, the expressions the values depend on, and the values. *)
Definition stored1 (l : list (opnd (bool * arg))) (pc : Z) (c : cell) : nat * term * Z :=
  let t i := g_term (arg_at l i) in
  match c with
  | Byte b => (1%nat, Num b, b)
  | N i | U i | Disp i => (1%nat, t i, value l i)
  | Next i => (1%nat, t i, value l i + 1)
  | W i | WS i => (2%nat, t i, value l i)
  | Rel i => (1%nat, PcRel (-1) (t i), value l i - (pc + 1))
  | Bit op i => (1%nat, t i, op + 8 * value l i)
  | High i => (1%nat, t i, value l i - 0xFF00)
  end.
Fixpoint stored (l : list (opnd (bool * arg))) (pc : Z) (code : list cell) : list (nat * term * Z) :=
  match code with [] => [] | c :: r => stored1 l pc c :: stored l (pc + Z.of_nat (cell_width c)) r end.

(** ** Faults *)
(** Instructions that are refused or encoded wrongly. *)
Definition rotating (s : string) : bool := existsb (fun x => String.eqb s (fst (fst (fst x)))) rotates.
Definition faulty (r : row) : bool :=
  match r_pats r with
  | [Index _] => rotating (r_name r)
  | [Reg (IXH | IXL | IYH | IYL)] => String.eqb (r_name r) "DEC"
  | [Reg Ci] => String.eqb (r_name r) "IN"
  | _ => false
  end.
(** Only ADD SP,n is checked less strictly. *)
Definition adds_sp (r : row) : bool := String.eqb (r_name r) "ADD" && match r_pats r with [Reg SP; Imm] => true | _ => false end.
(** The same for what is checked at once: distances are not. *)
Definition fits_now (l : list (opnd (bool * arg))) (c : cell) : Prop := match c with Rel _ => True | _ => cell_fits l 0 c end.
(** Instructions that are accepted though there are none such: shifts, INC and DEC of
    (IX+d) on the Game Boy; shifts of SP; the port (BC); H, L and (HL) together with
    the halves of IX and IY, or (HL) with (IX+d).  IN A ends the program. *)
Definition mistaken (cpu_gb : bool) (s : string) (ps : list pat) : bool :=
  match ps with
  | [Index _] | [IndexD _] => cpu_gb && (rotating s || String.eqb s "INC" || String.eqb s "DEC")
  | [Reg SP] => existsb (String.eqb s) ["SLA"; "SLL"; "SRA"; "SRL"]
  | [Reg A] => String.eqb s "IN"
  | [Reg BCi; _] => String.eqb s "OUT"
  | [_; Reg BCi] => String.eqb s "IN"
  | [Reg (H | L | HLi); Reg (IXH | IXL | IYH | IYL)] | [Reg (IXH | IXL | IYH | IYL); Reg (H | L | HLi)]
  | [Reg HLi; Index _] | [Reg HLi; IndexD _] | [Index _; Reg HLi] | [IndexD _; Reg HLi] => String.eqb s "LD"
  | _ => false
  end.
(** The first operand may be left out if it is A. *)
Definition may_omit (s : string) : bool := existsb (String.eqb s) ["LD"; "LDD"; "LDI"; "LDH"; "LDIO"].
(** What is known of the numbers in the source. *)
Definition known_value (l : list (opnd source)) (i : nat) : option Z :=
  match nth_error l i with
  | Some p => match carried p with (_, e) :: _ => if expr_IsConstant e then Some (e_v e) else None | [] => None end
  | None => None
  end.
(** The instruction set has it. *)
Definition described (cpu_gb undocumented synthesized : bool) (s : string) (l : list (opnd source)) : Prop :=
  exists r, In r table /\ r_name r = s /\ enabled cpu_gb undocumented synthesized r = true /\ r_pats r = map pattern_of l /\
    view_meets (known_value l) (r_cond r).
(** Numbers as they are read: 32 bits, and not in parentheses, those being addresses;
    lines with two pairs of brackets around a number are left out. *)
Fixpoint bare (ts : list token) : Prop :=
  match ts with
  | TExpr e :: r | TSigned e :: r => e_isParens e = false /\ is_s32 (e_v e) /\ bare r
  | TLb :: r => match r with TLp :: _ => False | _ => bare r end
  | _ :: r => bare r
  | [] => True
  end.
(** The end of a line. *)
Definition ends (rest : list token) : Prop := match rest with [] => True | TOther :: _ => True | _ => False end.
