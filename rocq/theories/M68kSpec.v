(** Specification of the 680x0: the assembly language and the instruction and extension
    words of the M68000 Family Programmer's Reference Manual. *)
From Coq Require Import ZArith List Bool String.
From Verif Require Import Base Arith ExprSpec ExprModel ExprLayout OptModel SectModel SectSpec InstrSpec.
From Verif Require Import X65Spec.
From Verif Require Import M68kModel.
Import ListNotations.
Open Scope string_scope.
Open Scope list_scope.
Open Scope Z_scope.

(** ** What instructions act upon *)
Inductive size : Type := SB | SW | SL.
Definition size_eqb (a b : size) : bool := match a, b with SB, SB | SW, SW | SL, SL => true | _, _ => false end.
Definition bits (s : size) : Z := match s with SB => 8 | SW => 16 | SL => 32 end.
(** The registers and the memory, as far as addresses depend on them. *)
Record machine : Type := Machine { dreg : Z -> Z; areg : Z -> Z; long_at : Z -> Z }.
(** A place an operand is in: a data register, an address register, memory at an
    address, memory at an address register that is then incremented or was decremented,
    or the instruction itself. *)
Inductive place : Type := InD (n : Z) | InA (n : Z) | Mem (address : Z) | PostInc (n : Z) | PreDec (n : Z) | Val (v : Z).
(** An operation on places, in the order in which they are written.  ADDI, ADDQ and ADDA
    are kinds of ADD, MOVEQ and MOVEA of MOVE and so on: an operation on an address
    register takes its source extended to 32 bits and leaves the flags alone. *)
Record action : Type := Act { a_op : string; a_size : option size; a_places : list place }.

(** ** Machine code *)
Definition signed (n v : Z) : Z := (v + 2 ^ (n - 1)) mod 2 ^ n - 2 ^ (n - 1).
Definition addr (v : Z) : Z := v mod 2 ^ 32.
Definition bit (n w : Z) : bool := Z.odd (w / 2 ^ n).
(** The index register of an extension word. *)
Definition index_of (mc : machine) (w : Z) : Z :=
  let n := (w / 4096) mod 8 in
  let r := if bit 15 w then areg mc n else dreg mc n in
  (if bit 11 w then r else signed 16 r) * 2 ^ ((w / 512) mod 4).
(** A displacement: 1 for none, 2 for a word, 3 for a long word. *)
Definition displacement (code : Z) (ws : list Z) : option (Z * list Z) :=
  match code, ws with
  | 1, _ => Some (0, ws)
  | 2, w :: r => Some (signed 16 w, r)
  | 3, h :: l :: r => Some (h * 65536 + l, r)
  | _, _ => None
  end.
(** The address an extension word [w] gives.  Scales and the full format are those of
    the 68020 and later. *)
Definition extended (new : bool) (mc : machine) (base w : Z) (ws : list Z) : option (Z * list Z) :=
  if negb (bit 8 w) then
    if negb new && negb ((w / 512) mod 4 =? 0) then None
    else Some (addr (base + index_of mc w + signed 8 w), ws)
  else if negb new || bit 3 w then None
  else
    let b := if bit 7 w then 0 else base in
    let x := if bit 6 w then 0 else index_of mc w in
    match displacement ((w / 16) mod 4) ws with
    | None => None
    | Some (bd, ws1) =>
        let i := w mod 8 in
        if i =? 0 then Some (addr (b + x + bd), ws1)
        else if i <? 4 then
          match displacement i ws1 with None => None | Some (od, ws2) => Some (addr (long_at mc (addr (b + x + bd)) + od), ws2) end
        else if bit 6 w then None
        else match displacement (i - 4) ws1 with None => None | Some (od, ws2) => Some (addr (long_at mc (addr (b + bd)) + x + od), ws2) end
    end.
(** The effective address of the mode and register fields; [pc] is the address of its
    first extension word. *)
Definition in_memory (o : option (Z * list Z)) : option (place * list Z) := match o with None => None | Some (a, r) => Some (Mem a, r) end.
Definition immediate_data (s : size) (ws : list Z) : option (place * list Z) :=
  match s, ws with
  | SB, w :: r => Some (Val (w mod 256), r)
  | SW, w :: r => Some (Val w, r)
  | SL, h :: l :: r => Some (Val (h * 65536 + l), r)
  | _, _ => None
  end.
Definition effective (new : bool) (mc : machine) (s : size) (mode reg pc : Z) (ws : list Z) : option (place * list Z) :=
  if mode =? 0 then Some (InD reg, ws)
  else if mode =? 1 then Some (InA reg, ws)
  else if mode =? 2 then Some (Mem (addr (areg mc reg)), ws)
  else if mode =? 3 then Some (PostInc reg, ws)
  else if mode =? 4 then Some (PreDec reg, ws)
  else if (mode =? 7) && (reg =? 4) then immediate_data s ws
  else match ws with
       | [] => None
       | w :: r =>
           if mode =? 5 then Some (Mem (addr (areg mc reg + signed 16 w)), r)
           else if mode =? 6 then in_memory (extended new mc (areg mc reg) w r)
           else if reg =? 0 then Some (Mem (addr (signed 16 w)), r)
           else if reg =? 1 then match r with l :: r1 => Some (Mem (w * 65536 + l), r1) | [] => None end
           else if reg =? 2 then Some (Mem (addr (pc + signed 16 w)), r)
           else if reg =? 3 then in_memory (extended new mc pc w r)
           else None
       end.
(** Kinds of effective addresses: data, memory, control and alterable. *)
Definition is_data (mode reg : Z) : bool := negb (mode =? 1).
Definition is_memory (mode reg : Z) : bool := 2 <=? mode.
Definition is_alterable (mode reg : Z) : bool := (mode <? 7) || (reg <? 2).
Definition is_control (mode reg : Z) : bool := (mode =? 2) || (mode =? 5) || (mode =? 6) || ((mode =? 7) && (reg <? 4)).
Definition size_of_field (m : Z) : option size := match m mod 4 with 0 => Some SB | 1 => Some SW | 2 => Some SL | _ => None end.
Definition conditions : list string := ["T"; "F"; "HI"; "LS"; "CC"; "CS"; "NE"; "EQ"; "VC"; "VS"; "PL"; "MI"; "GE"; "LT"; "GT"; "LE"].
Definition condition (n : Z) : string := nth (Z.to_nat n) conditions "".
Definition shift_name (kind m : Z) : string :=
  nth (Z.to_nat kind) (if m <? 4 then ["ASR"; "LSR"; "ROXR"; "ROR"] else ["ASL"; "LSL"; "ROXL"; "ROL"]) "".
Definition eight (n : Z) : Z := if n =? 0 then 8 else n.
(** The instruction whose first word has the fields [h] (4 bits), [r], [m], [mode] and
    [reg] (3 bits each) at address [pc], with the words [ws] after it. *)
Section Fields.
Variable new : bool.
Variable mc : machine.
Variables pc r m mode reg : Z.
Variable ws : list Z.
Definition decoded : Type := option (action * list Z).
Definition data : bool := is_data mode reg.
Definition memory : bool := is_memory mode reg.
Definition alterable : bool := is_alterable mode reg.
Definition control : bool := is_control mode reg.
Definition after (l : list Z) : Z := pc + 2 + 2 * (zlen ws - zlen l).
Definition only_if (c : bool) (o : decoded) : decoded := if c then o else None.
(** One operand. *)
Definition ea (s : size) (l : list Z) (f : place -> action) : decoded :=
  match effective new mc s mode reg (after l) l with None => None | Some (p, l1) => Some (f p, l1) end.
(** An immediate operand and another one. *)
Definition imm (s : size) (name : string) : decoded :=
  match immediate_data s ws with Some (v, l) => ea s l (fun p => Act name (Some s) [v; p]) | None => None end.
Definition byte_areg (s : size) : bool := size_eqb s SB && (mode =? 1).
(** <ea>,An and <ea>,Dn and Dn,<ea>. *)
Definition dyadic (name : string) (address : bool) : decoded :=
  if m =? 3 then only_if address (ea SW ws (fun p => Act name (Some SW) [p; InA r]))
  else if m =? 7 then only_if address (ea SL ws (fun p => Act name (Some SL) [p; InA r]))
  else match size_of_field m with
       | None => None
       | Some s =>
           if m <? 4 then only_if ((data || address) && negb (byte_areg s)) (ea s ws (fun p => Act name (Some s) [p; InD r]))
           else only_if (memory && alterable) (ea s ws (fun p => Act name (Some s) [InD r; p]))
       end.
(** Dy,Dx and -(Ay),-(Ax). *)
Definition extend (name : string) (s : size) : decoded :=
  Some (Act name (Some s) (if mode =? 0 then [InD reg; InD r] else [PreDec reg; PreDec r]), ws).
Definition to_data (name : string) : decoded := only_if data (ea SW ws (fun p => Act name (Some SW) [p; InD r])).
Definition sized_one (name : string) (s : size) : decoded := only_if (data && alterable) (ea s ws (fun p => Act name (Some s) [p])).
Definition bit_name (n : Z) : string := nth (Z.to_nat n) ["BTST"; "BCHG"; "BCLR"; "BSET"] "".
Definition line_0 : decoded :=
  if 4 <=? m then only_if (data && (alterable || (m =? 4))) (ea SB ws (fun p => Act (bit_name (m - 4)) None [InD r; p]))
  else if r =? 4 then
    match ws with
    | n :: l => only_if (data && (alterable || ((m =? 0) && negb ((mode =? 7) && (reg =? 4)))))
                  (ea SB l (fun p => Act (bit_name m) None [Val (n mod 256); p]))
    | [] => None
    end
  else match size_of_field m with
       | None => None
       | Some s =>
           if r =? 6 then only_if (data && (alterable || (new && control))) (imm s "CMP")
           else only_if (data && alterable && negb (r =? 7)) (imm s (nth (Z.to_nat r) ["OR"; "AND"; "SUB"; "ADD"; ""; "EOR"] ""))
       end.
Definition move (s : size) : decoded :=
  only_if (negb (byte_areg s) && negb (size_eqb s SB && (m =? 1)) && is_alterable m r)
    match effective new mc s mode reg (pc + 2) ws with
    | None => None
    | Some (p, l) =>
        match effective new mc s m r (after l) l with None => None | Some (q, l1) => Some (Act "MOVE" (Some s) [p; q], l1) end
    end.
(** 0x4E40 and on: TRAP, LINK, UNLK and instructions without operands. *)
Definition special : decoded :=
  let fixed name := Some (Act name None [], ws) in
  if mode <? 2 then Some (Act "TRAP" None [Val (8 * mode + reg)], ws)
  else if mode =? 2 then match ws with w :: l => Some (Act "LINK" (Some SW) [InA reg; Val (signed 16 w)], l) | [] => None end
  else if mode =? 3 then Some (Act "UNLK" None [InA reg], ws)
  else if negb (mode =? 6) then None
  else if reg =? 0 then fixed "RESET"
  else if reg =? 1 then fixed "NOP"
  else if reg =? 2 then match ws with w :: l => Some (Act "STOP" None [Val w], l) | [] => None end
  else if reg =? 3 then fixed "RTE"
  else if reg =? 5 then fixed "RTS"
  else if reg =? 6 then fixed "TRAPV"
  else if reg =? 7 then fixed "RTR"
  else None.
(** Multiplication and division of long words. *)
Definition long_arithmetic : decoded :=
  match ws with
  | [] => None
  | w :: l =>
      let q := (w / 4096) mod 8 in
      let name := if m =? 0 then (if bit 11 w then "MULS" else "MULU") else (if bit 11 w then "DIVS" else "DIVU") in
      only_if (new && data && negb (bit 15 w) && negb (bit 10 w) && ((m =? 0) || (w mod 8 =? q)))
        (ea SL l (fun p => Act name (Some SL) [p; InD q]))
  end.
Definition line_4 : decoded :=
  if (m =? 6) || ((m =? 4) && new) then
    let s := if m =? 6 then SW else SL in only_if data (ea s ws (fun p => Act "CHK" (Some s) [p; InD r]))
  else if m =? 7 then
    if (mode =? 0) && (r =? 4) then only_if new (Some (Act "EXTB" (Some SL) [InD reg], ws))
    else only_if control (ea SL ws (fun p => Act "LEA" None [p; InA r]))
  else if 4 <=? m then None
  else if r <? 4 then
    match size_of_field m with None => None | Some s => sized_one (nth (Z.to_nat r) ["NEGX"; "CLR"; "NEG"; "NOT"] "") s end
  else if r =? 4 then
    if m =? 0 then
      if mode =? 1 then
        match ws with hi :: lo :: l => only_if new (Some (Act "LINK" (Some SL) [InA reg; Val (signed 32 (hi * 65536 + lo))], l)) | _ => None end
      else sized_one "NBCD" SB
    else if m =? 1 then
      if mode =? 0 then Some (Act "SWAP" (Some SW) [InD reg], ws) else only_if control (ea SL ws (fun p => Act "PEA" (Some SL) [p]))
    else only_if (mode =? 0) (Some (Act "EXT" (Some (if m =? 2 then SW else SL)) [InD reg], ws))
  else if r =? 5 then
    match size_of_field m with
    | Some s => only_if ((data || (new && negb (size_eqb s SB))) && (alterable || new)) (ea s ws (fun p => Act "TST" (Some s) [p]))
    | None => if (mode =? 7) && (reg =? 4) then Some (Act "ILLEGAL" None [], ws) else sized_one "TAS" SB
    end
  else if r =? 6 then only_if (m <? 2) long_arithmetic
  else if m =? 1 then special
  else if m =? 2 then only_if control (ea SL ws (fun p => Act "JSR" None [p]))
  else if m =? 3 then only_if control (ea SL ws (fun p => Act "JMP" None [p]))
  else None.
Definition line_5 : decoded :=
  match size_of_field m with
  | Some s => only_if (alterable && negb (byte_areg s)) (ea s ws (fun p => Act (if m <? 4 then "ADD" else "SUB") (Some s) [Val (eight r); p]))
  | None =>
      let c := condition (2 * r + m / 4) in
      if mode =? 1 then
        match ws with w :: l => Some (Act (String.append "DB" c) None [InD reg; Mem (addr (pc + 2 + signed 16 w))], l) | [] => None end
      else sized_one (String.append "S" c) SB
  end.
Definition low_byte : Z := (m mod 4) * 64 + mode * 8 + reg.
Definition branch_name (n : Z) : string := if n =? 0 then "BRA" else if n =? 1 then "BSR" else String.append "B" (condition n).
Definition line_6 : decoded :=
  let name := branch_name (2 * r + m / 4) in
  if low_byte =? 0 then match ws with w :: l => Some (Act name None [Mem (addr (pc + 2 + signed 16 w))], l) | [] => None end
  else if (low_byte =? 255) && new then
    match ws with hi :: lo :: l => Some (Act name None [Mem (addr (pc + 2 + (hi * 65536 + lo)))], l) | _ => None end
  else Some (Act name None [Mem (addr (pc + 2 + signed 8 low_byte))], ws).
Definition line_7 : decoded := only_if (m <? 4) (Some (Act "MOVE" (Some SL) [Val (addr (signed 8 low_byte)); InD r], ws)).
Definition line_8 : decoded :=
  if m =? 3 then to_data "DIVU" else if m =? 7 then to_data "DIVS"
  else if (m =? 4) && (mode <? 2) then extend "SBCD" SB else dyadic "OR" false.
Definition with_extend (name name_x : string) : decoded :=
  if (4 <=? m) && (m <? 7) && (mode <? 2) then match size_of_field m with None => None | Some s => extend name_x s end else dyadic name true.
Definition line_11 : decoded :=
  if (4 <=? m) && (m <? 7) then
    match size_of_field m with
    | None => None
    | Some s =>
        if mode =? 1 then Some (Act "CMP" (Some s) [PostInc reg; PostInc r], ws)
        else only_if (data && alterable) (ea s ws (fun p => Act "EOR" (Some s) [InD r; p]))
    end
  else dyadic "CMP" true.
Definition line_12 : decoded :=
  if m =? 3 then to_data "MULU" else if m =? 7 then to_data "MULS"
  else if (m =? 4) && (mode <? 2) then extend "ABCD" SB
  else if (m =? 5) && (mode =? 0) then Some (Act "EXG" (Some SL) [InD r; InD reg], ws)
  else if (m =? 5) && (mode =? 1) then Some (Act "EXG" (Some SL) [InA r; InA reg], ws)
  else if (m =? 6) && (mode =? 1) then Some (Act "EXG" (Some SL) [InD r; InA reg], ws)
  else dyadic "AND" false.
Definition line_14 : decoded :=
  match size_of_field m with
  | None => only_if ((r <? 4) && memory && alterable) (ea SW ws (fun p => Act (shift_name r m) (Some SW) [p]))
  | Some s => Some (Act (shift_name (mode mod 4) m) (Some s) [(if mode <? 4 then Val (eight r) else InD r); InD reg], ws)
  end.
Definition decode_fields (h : Z) : decoded :=
  match h with
  | 0 => line_0
  | 1 => move SB
  | 2 => move SL
  | 3 => move SW
  | 4 => line_4
  | 5 => line_5
  | 6 => line_6
  | 7 => line_7
  | 8 => line_8
  | 9 => with_extend "SUB" "SUBX"
  | 11 => line_11
  | 12 => line_12
  | 13 => with_extend "ADD" "ADDX"
  | 14 => line_14
  | _ => None
  end.
End Fields.
Definition decode (new : bool) (mc : machine) (pc : Z) (ws : list Z) : option (action * list Z) :=
  match ws with
  | [] => None
  | w :: l => decode_fields new mc pc ((w / 512) mod 8) ((w / 64) mod 8) ((w / 8) mod 8) (w mod 8) l (w / 4096)
  end.

(** ** Assembly language *)
Inductive base : Type := BaseA (n : Z) | BasePc.
(** An index register, with its size and scale as written. *)
Record index : Type := Index { x_addr : bool; x_n : Z; x_size : option size; x_scale : option Z }.
Notation disp := (prod arg (option size)) (only parsing).
(** Operands: Dn  An  (An)  (An)+  -(An)  d(An)  d(PC)  n or n.W  #n  (d,An,Xn) with any
    part left out, or d(An,Xn)  ([bd,An,Xn],od) or ([bd,An],Xn,od). *)
Inductive opnd : Type :=
| ODreg (n : Z) | OAreg (n : Z) | OInd (n : Z) | OInc (n : Z) | ODec (n : Z)
| ODisp (d : arg) (n : Z) | ODispPc (d : arg) | OAbs (d : arg) (s : option size) | OImm (v : arg)
| OParen (outside : bool) (d : option disp) (b : option base) (x : option index)
| OMem (bd : option disp) (b : option base) (x : option index) (post : bool) (od : option disp).

(** How they are written. *)
Definition digit (n : Z) : string := nth (Z.to_nat n) ["0"; "1"; "2"; "3"; "4"; "5"; "6"; "7"] "".
Definition size_text (s : option size) : list piece :=
  match s with None => [] | Some SB => [Word ".B"] | Some SW => [Word ".W"] | Some SL => [Word ".L"] end.
Definition disp_text (d : disp) : list piece := Operand (g_expr (fst d)) :: size_text (snd d).
Definition base_text (b : base) : list piece := match b with BaseA n => [Word (String.append "A" (digit n))] | BasePc => [Word "PC"] end.
Definition index_text (x : index) : list piece :=
  Word (String.append (if x_addr x then "A" else "D") (digit (x_n x))) :: size_text (x_size x) ++
  match x_scale x with None => [] | Some c => [Star; Operand (expr_Const c)] end.
Fixpoint commas (l : list (list piece)) : list piece :=
  match l with [] => [] | [x] => x | x :: r => x ++ Comma :: commas r end.
Definition maybe {T : Type} (f : T -> list piece) (o : option T) : list (list piece) := match o with None => [] | Some x => [f x] end.
Definition opnd_text (o : opnd) : list piece :=
  match o with
  | ODreg n => [Word (String.append "D" (digit n))]
  | OAreg n => [Word (String.append "A" (digit n))]
  | OInd n => [Word (String.append "(A" (String.append (digit n) ")"))]
  | OInc n => [Word (String.append "(A" (String.append (digit n) ")+"))]
  | ODec n => [Word (String.append "-(A" (String.append (digit n) ")"))]
  | ODisp d n => [Operand (g_expr d); Word (String.append "(A" (String.append (digit n) ")"))]
  | ODispPc d => [Operand (g_expr d); Word "(PC)"]
  | OAbs d s => disp_text (d, s)
  | OImm v => [Hash; Operand (g_expr v)]
  | OParen outside d b x =>
      (if outside then match d with None => [] | Some d => disp_text d end else []) ++
      Lp :: commas ((if outside then [] else maybe disp_text d) ++ maybe base_text b ++ maybe index_text x) ++ [Rp]
  | OMem bd b x post od =>
      Lp :: commas ((Lb :: commas (maybe disp_text bd ++ maybe base_text b ++ (if post then [] else maybe index_text x)) ++ [Rb])
                    :: (if post then maybe index_text x else []) ++ maybe disp_text od) ++ [Rp]
  end.
Definition opt_args (d : option disp) : list arg := match d with None => [] | Some (a, _) => [a] end.
Definition opnd_args (o : opnd) : list arg :=
  match o with
  | ODisp d _ | ODispPc d | OAbs d _ | OImm d => [d]
  | OParen _ d _ _ => opt_args d
  | OMem bd _ _ _ od => opt_args bd ++ opt_args od
  | _ => []
  end.

(** What they mean.  With PC a displacement is the address that is meant. *)
Definition disp_value (d : option disp) : Z := match d with None => 0 | Some (a, _) => g_value a end.
Definition base_value (mc : machine) (b : option base) : Z := match b with Some (BaseA n) => areg mc n | _ => 0 end.
Definition index_value (mc : machine) (x : option index) : Z :=
  match x with
  | None => 0
  | Some x =>
      let r := (if x_addr x then areg mc else dreg mc) (x_n x) in
      (match x_size x with Some SL => r | _ => signed 16 r end) * match x_scale x with None => 1 | Some c => c end
  end.
Definition opnd_place (mc : machine) (s : size) (o : opnd) : place :=
  match o with
  | ODreg n => InD n
  | OAreg n => InA n
  | OInd n => Mem (addr (areg mc n))
  | OInc n => PostInc n
  | ODec n => PreDec n
  | ODisp d n => Mem (addr (areg mc n + g_value d))
  | ODispPc d => Mem (addr (g_value d))
  | OAbs d _ => Mem (addr (g_value d))
  | OImm v => Val (g_value v mod 2 ^ bits s)
  | OParen _ d b x => Mem (addr (base_value mc b + index_value mc x + disp_value d))
  | OMem bd b x false od => Mem (addr (long_at mc (addr (base_value mc b + index_value mc x + disp_value bd)) + disp_value od))
  | OMem bd b x true od => Mem (addr (long_at mc (addr (base_value mc b + disp_value bd)) + index_value mc x + disp_value od))
  end.

(** Where they are allowed; [new] for the 68020 and later. *)
Definition reg_ok (n : Z) : bool := (0 <=? n) && (n <=? 7).
Definition base_ok (b : option base) : bool := match b with Some (BaseA n) => reg_ok n | _ => true end.
Definition index_ok (new : bool) (x : option index) : bool :=
  match x with
  | None => true
  | Some x => reg_ok (x_n x) && negb (match x_size x with Some SB => true | _ => false end) &&
              match x_scale x with None => true | Some c => (c =? 1) || (new && ((c =? 2) || (c =? 4) || (c =? 8))) end
  end.
Definition is_pc (b : option base) : bool := match b with Some BasePc => true | _ => false end.
Definition none {T : Type} (o : option T) : bool := match o with None => true | Some _ => false end.
Definition written_size (d : option disp) (s : size) : bool := match d with Some (_, Some s') => size_eqb s s' | _ => false end.
Definition opnd_ok (new : bool) (o : opnd) : bool :=
  match o with
  | ODreg n | OAreg n | OInd n | OInc n | ODec n | ODisp _ n => reg_ok n
  | ODispPc _ | OImm _ => true
  | OAbs _ s => match s with Some SB => false | _ => true end
  | OParen outside d b x =>
      base_ok b && index_ok new x && negb (none b && none x) && negb (is_pc b && none d) && negb (outside && none d) &&
      (if new then true else negb (none b) && negb (written_size d (if none x then SL else SW)) && negb (written_size d SL))
  | OMem bd b x _ od => new && base_ok b && index_ok new x && negb (is_pc b && none bd)
  end.
Inductive cls : Type := CDn | CAn | CImm | CRange (lo hi : Z) | CAny | CData | CDataAlt | CMemAlt | CAlt | CControl | CPreDec | CPostInc | CTest | CCmpi | CSimple | CTarget.
Definition through_pc (o : opnd) : bool := match o with ODispPc _ => true | OParen _ _ b _ | OMem _ b _ _ _ => is_pc b | _ => false end.
Definition plain_reg (o : opnd) : bool := match o with ODreg _ | OAreg _ => true | _ => false end.
Definition immediate (o : opnd) : bool := match o with OImm _ => true | _ => false end.
Definition data_alterable (o : opnd) : bool :=
  match o with OAreg _ | OImm _ => false | _ => negb (through_pc o) end.
(** Only the addressing modes of the 68000, as they are written in this class. *)
Definition simple (o : opnd) : bool :=
  match o with OParen _ d b x => negb (none b) && (none x || none d) && none d | OMem _ _ _ _ _ => false | _ => true end.
Definition in_class (new : bool) (s : size) (c : cls) (o : opnd) : bool :=
  opnd_ok new o &&
  match c with
  | CDn => match o with ODreg _ => true | _ => false end
  | CAn => match o with OAreg _ => negb (size_eqb s SB) | _ => false end
  | CImm => immediate o
  | CRange lo hi => match o with OImm v => (lo <=? g_value v) && (g_value v <=? hi) | _ => false end
  | CAny => match o with OAreg _ => negb (size_eqb s SB) | _ => true end
  | CData => match o with OAreg _ => false | _ => true end
  | CDataAlt => data_alterable o
  | CMemAlt => data_alterable o && negb (plain_reg o)
  | CAlt => match o with OAreg _ => negb (size_eqb s SB) | _ => data_alterable o end
  | CControl => match o with ODreg _ | OAreg _ | OInc _ | ODec _ | OImm _ => false | _ => true end
  | CPreDec => match o with ODec _ => true | _ => false end
  | CPostInc => match o with OInc _ => true | _ => false end
  | CTest => match o with OAreg _ => false | _ => new || data_alterable o end
  | CCmpi => match o with OAreg _ | OImm _ => false | _ => new || data_alterable o end
  | CSimple => data_alterable o && simple o
  | CTarget => match o with OAbs _ None => true | _ => false end
  end.

(** The instructions: name, sizes that may be written, the size if none is, those of the
    sizes that are for the 68020 and later only, operands and operation. *)
Record form : Type := Form {
  f_name : string; f_sizes : list size; f_default : option size; f_new : list size; f_classes : list cls; f_op : string }.
Definition all : list size := [SB; SW; SL].
Definition bwl (name : string) (op : string) (c : list cls) : form := Form name all (Some SW) [] c op.
Definition wl (name : string) (op : string) (c : list cls) : form := Form name [SW; SL] (Some SW) [] c op.
Definition only (s : size) (name : string) (c : list cls) : form := Form name [s] (Some s) [] c name.
Definition unsized (name : string) (c : list cls) : form := Form name [] None [] c name.
Definition both (f : string -> list form) (l : list string) : list form := flat_map f l.
Definition condition_names : list (string * string) := map (fun c => (c, c)) conditions ++ [("HS", "CC"); ("LO", "CS")].
Definition forms : list form :=
  both (fun n => [bwl n n [CAny; CDn]; bwl n n [CDn; CMemAlt]; bwl n n [CImm; CDataAlt]; wl n n [CAny; CAn]]) ["ADD"; "SUB"] ++
  [wl "ADDA" "ADD" [CAny; CAn]; wl "SUBA" "SUB" [CAny; CAn]] ++
  [bwl "ADDI" "ADD" [CImm; CDataAlt]; bwl "SUBI" "SUB" [CImm; CDataAlt]; bwl "ANDI" "AND" [CImm; CDataAlt]; bwl "ORI" "OR" [CImm; CDataAlt];
   bwl "EORI" "EOR" [CImm; CDataAlt]; bwl "ADDQ" "ADD" [CRange 1 8; CAlt]; bwl "SUBQ" "SUB" [CRange 1 8; CAlt]] ++
  both (fun n => [bwl n n [CData; CDn]; bwl n n [CDn; CMemAlt]; bwl n n [CImm; CDataAlt]]) ["AND"; "OR"] ++
  [bwl "EOR" "EOR" [CDn; CDataAlt]; bwl "EOR" "EOR" [CImm; CDataAlt]] ++
  [bwl "CMP" "CMP" [CAny; CDn]; wl "CMP" "CMP" [CAny; CAn]; bwl "CMP" "CMP" [CImm; CSimple]; bwl "CMP" "CMP" [CPostInc; CPostInc];
   wl "CMPA" "CMP" [CAny; CAn]; bwl "CMPI" "CMP" [CImm; CCmpi]; bwl "CMPM" "CMP" [CPostInc; CPostInc]] ++
  [bwl "MOVE" "MOVE" [CAny; CDataAlt]; wl "MOVE" "MOVE" [CAny; CAn]; wl "MOVEA" "MOVE" [CAny; CAn];
   Form "MOVEQ" [SL] (Some SL) [] [CRange (-128) 127; CDn] "MOVE"] ++
  both (fun n => [bwl n n [CDataAlt]]) ["CLR"; "NEG"; "NEGX"; "NOT"] ++ [bwl "TST" "TST" [CTest]] ++
  [only SB "NBCD" [CDataAlt]; only SB "TAS" [CDataAlt]; only SL "PEA" [CControl]; only SW "SWAP" [CDn]; only SL "EXG" [CDn; CDn];
   only SL "EXG" [CAn; CAn]; only SL "EXG" [CDn; CAn]; only SL "EXG" [CAn; CDn]] ++
  map (fun p => Form (String.append "S" (fst p)) [SB] (Some SB) [] [CDataAlt] (String.append "S" (snd p))) condition_names ++
  map (fun p => Form (String.append "DB" (fst p)) [] None [] [CDn; CTarget] (String.append "DB" (snd p))) (("RA", "F") :: condition_names) ++
  map (fun p => Form (String.append "B" (fst p)) all (Some SW) [SL] [CTarget] (String.append "B" (snd p))) (("RA", "RA") :: ("SR", "SR") :: skipn 2 condition_names) ++
  both (fun n => [Form n [SW; SL] (Some SW) [SL] [CData; CDn] n]) ["MULS"; "MULU"; "DIVS"; "DIVU"; "CHK"] ++
  both (fun n => [bwl n n [CRange 1 8; CDn]; bwl n n [CDn; CDn]; Form n [SW] (Some SW) [] [CMemAlt] n])
       ["ASL"; "ASR"; "LSL"; "LSR"; "ROL"; "ROR"; "ROXL"; "ROXR"] ++
  both (fun n => [unsized n [CDn; CDataAlt]; unsized n [CRange 0 31; CDn]; unsized n [CRange 0 7; CMemAlt]]) ["BTST"; "BCHG"; "BCLR"; "BSET"] ++
  both (fun n => [only SB n [CDn; CDn]; only SB n [CPreDec; CPreDec]]) ["ABCD"; "SBCD"] ++
  both (fun n => [bwl n n [CDn; CDn]; bwl n n [CPreDec; CPreDec]]) ["ADDX"; "SUBX"] ++
  [unsized "LEA" [CControl; CAn]; unsized "JMP" [CControl]; unsized "JSR" [CControl]; wl "EXT" "EXT" [CDn];
   Form "EXTB" [SL] (Some SL) [SL] [CDn] "EXTB"; Form "LINK" [SW; SL] (Some SW) [SL] [CAn; CImm] "LINK"; unsized "UNLK" [CAn];
   unsized "TRAP" [CRange 0 15]; unsized "STOP" [CImm]] ++
  both (fun n => [unsized n []]) ["ILLEGAL"; "NOP"; "RESET"; "RTE"; "RTR"; "RTS"; "TRAPV"].
Definition used_size (f : form) (s : option size) : option size := match s with None => f_default f | Some _ => s end.
Definition the_size (f : form) (s : option size) : size := match used_size f s with Some x => x | None => SW end.
Definition instr_ok (new : bool) (f : form) (s : option size) (ops : list opnd) : bool :=
  match s with None => true | Some x => existsb (size_eqb x) (f_sizes f) end &&
  (new || negb (existsb (size_eqb (the_size f s)) (f_new f))) &&
  (Nat.eqb (List.length ops) (List.length (f_classes f))) &&
  forallb (fun p => in_class new (the_size f s) (fst p) (snd p)) (List.combine (f_classes f) ops).
Definition instr_text (f : form) (s : option size) (ops : list opnd) : list piece :=
  Word (f_name f) :: size_text s ++ commas (map opnd_text ops).
(** Places; registers that are exchanged are in no order, and the number after LINK has
    a sign. *)
Definition places (mc : machine) (f : form) (s : size) (ops : list opnd) : list place :=
  match ops with
  | [OAreg a; ODreg d] => if String.eqb (f_op f) "EXG" then [InD d; InA a] else map (opnd_place mc s) ops
  | [OAreg a; OImm v] => if String.eqb (f_op f) "LINK" then [InA a; Val (g_value v)] else map (opnd_place mc s) ops
  | _ => map (opnd_place mc s) ops
  end.
Definition instr_action (mc : machine) (f : form) (s : option size) (ops : list opnd) : action :=
  Act (f_op f) (match f_classes f with [CTarget] => None | _ => used_size f s end) (places mc f (the_size f s) ops).

(** ** What is asked of the operands *)
(** Expressions are written in the source and are not as a whole in parentheses. *)
Definition arg_ok (S : setting) (cur : option asect) (a : arg) : Prop :=
  operand S cur (g_term a) (g_expr a) (g_value a) /\ source_term (g_term a) /\ tdepth (g_term a) <= 240 /\ ~ paren_head (g_term a).
Definition known_now (a : arg) : bool := expr_IsConstant (g_expr a).
Definition s16 (v : Z) : Prop := -32768 <= v <= 32767.
Definition s8 (v : Z) : Prop := -128 <= v <= 127.
(** The address [v] can be reached from an extension word of an instruction at [pc]. *)
Definition reached (pc v : Z) (P : Z -> Prop) : Prop := 0 <= v < 2 ^ 31 - 2 /\ forall q, In q [2; 4; 6] -> P (v - (pc + q)).
Definition floating (cur : option asect) : Prop := match cur with Some s => a_loadfixed s = false /\ a_orgfixed s = false | None => True end.
(** An index register that is read as one, if there is no base register before it. *)
Definition alone (x : option index) : Prop :=
  match x with Some x => x_addr x = true -> x_size x = Some SW /\ x_scale x = None | None => True end.
Definition small (n : Z) (a : arg) : bool := known_now a && (- 2 ^ (n - 1) <=? g_value a) && (g_value a <? 2 ^ (n - 1)).
(** A base displacement in the full format. *)
Definition wide_fits (cur : option asect) (pc : Z) (b : option base) (d : option disp) : Prop :=
  match d with
  | None => True
  | Some (a, s) =>
      if is_pc b then floating cur /\ reached pc (g_value a) (match s with Some SW | Some SB => s16 | _ => fun _ => True end)
      else match s with Some SW | Some SB => s16 (g_value a) | _ => True end
  end.
(** The parts of an operand in parentheses. *)
Definition paren_fits (new : bool) (cur : option asect) (pc : Z) (outside : bool) (d : option disp) (b : option base) (x : option index) : Prop :=
  (b = None -> alone x) /\
  match d with
  | None => True
  | Some (a, s) =>
      let full := wide_fits cur pc b d in
      let word := if is_pc b then reached pc (g_value a) s16 else s16 (g_value a) in
      let byte := (if is_pc b then reached pc (g_value a) s8 else s8 (g_value a)) /\
                  (match x with Some y => match x_scale y with None | Some 1 => True | _ => known_now a = true /\ is_pc b = false end | None => True end) in
      match b, x, s with
      | None, _, Some SB => False
      | None, _, _ => full
      | Some _, None, Some SB => False
      | Some _, None, Some SW => word /\ outside = false
      | Some _, None, Some SL => full /\ outside = false
      | Some _, None, None => (if new then (if small 16 a then word else full) else word) /\ outside = false
      | Some _, Some _, Some SB => byte
      | Some _, Some _, Some _ => full
      | Some _, Some _, None => if outside || negb new || negb (known_now a) || small 8 a then byte
                                else full /\ (is_pc b && small 16 a = true -> reached pc (g_value a) s16)
      end
  end.
Definition vanishes (b : option base) (d : option disp) : bool :=
  match d with None => true | Some (a, _) => negb (is_pc b) && known_now a && (g_value a =? 0) end.
Definition opnd_fits (new : bool) (cur : option asect) (pc : Z) (s : size) (o : opnd) : Prop :=
  match o with
  | ODisp d _ => s16 (g_value d)
  | ODispPc d => reached pc (g_value d) s16
  | OAbs d (Some SW) => s16 (g_value d)
  | OImm v => match s with SB => -128 <= g_value v <= 255 | SW => -32768 <= g_value v <= 65535 | SL => True end
  | OParen outside d b x => paren_fits new cur pc outside d b x
  | OMem bd b x post od =>
      (post = true \/ b = None -> alone x) /\ wide_fits cur pc b bd /\ wide_fits cur pc None od /\
      negb (vanishes b bd && none b && (post || none x)) = true
  | _ => True
  end.
(** Distances of branches.  A byte of 0 or 255 does not mean a distance. *)
Definition target_fits (cur : option asect) (pc : Z) (f : form) (s : option size) (v : Z) : Prop :=
  0 <= v < 2 ^ 31 /\
  match used_size f s with
  | Some SB => s8 (v - (pc + 2)) /\ v <> pc + 2 /\ v <> pc + 1
  | Some SL => floating cur
  | _ => s16 (v - (pc + 2))
  end.
Definition instr_fits (new : bool) (cur : option asect) (pc : Z) (f : form) (s : option size) (ops : list opnd) : Prop :=
  Forall2 (fun c o =>
    match c, o with
    | CTarget, OAbs a _ => target_fits cur pc f s (g_value a)
    | _, _ => opnd_fits new cur pc (the_size f s) o
    end) (f_classes f) ops /\
  match f_name f, ops with "LINK", [_; OImm v] => match the_size f s with SW => s16 (g_value v) | _ => True end | _, _ => True end.

(** ** What is stored *)
Definition word (v : Z) : Z := v mod 65536.
Fixpoint words (l : list (nat * term * Z)) : list Z :=
  match l with
  | [] => []
  | (n, _, v) :: r => (if Nat.eqb n 4 then [word (v / 65536); word v] else [word v]) ++ words r
  end.
(** Every cell is of one or two words, and depends on nothing but one of the expressions
    written. *)
Definition stored_from (args : list arg) (l : list (nat * term * Z)) : Prop :=
  Forall (fun c => let '(n, t, v) := c in (n = 2%nat \/ n = 4%nat) /\
    (t = Num v \/ exists a, In a args /\ (t = g_term a \/ exists z, t = PcRel z (g_term a)))) l.
(** The end of a line. *)
Definition ends (rest : list token) : Prop := match rest with [] => True | TOther :: _ => True | _ => False end.
(** The processors. *)
Definition cpus : list Z := [CPUF_68000; CPUF_68010; CPUF_68020; CPUF_68030; CPUF_68040; CPUF_68060].
Definition is_new (cpu : Z) : bool := negb (existsb (Z.eqb cpu) [CPUF_68000; CPUF_68010]).
