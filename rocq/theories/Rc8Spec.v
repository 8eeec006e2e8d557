(** Specification of the RC811 instruction set: what the processor does with bytes, and
    what the instructions of the assembly language are to do. *)
From Coq Require Import ZArith List Bool String.
From Verif Require Import Base Arith ExprSpec ExprModel InstrSpec Rc8Model.
Import ListNotations.
Open Scope string_scope.
Open Scope list_scope.
Open Scope Z_scope.

(** ** The processor *)
(** Eight registers of a byte, which form four pairs; the first of a pair is the high
    byte.  Memory, input and output have addresses of 16 bits.  Each pair has a stack of
    its own, the first word of it on top; its end is left out.  So are the flags. *)
Inductive reg : Type := rF | rT | rB | rC | rD | rE | rH | rL.
Inductive pair : Type := FT | BC | DE | HL.
Record machine : Type := Machine {
  mF : Z; mT : Z; mB : Z; mC : Z; mD : Z; mE : Z; mH : Z; mL : Z;
  memory : Z -> Z; ports : Z -> Z; stack_FT : nat -> Z; stack_BC : nat -> Z; stack_DE : nat -> Z; stack_HL : nat -> Z }.
Definition get (r : reg) (s : machine) : Z :=
  match r with rF => mF s | rT => mT s | rB => mB s | rC => mC s | rD => mD s | rE => mE s | rH => mH s | rL => mL s end.
Definition set (r : reg) (v : Z) (s : machine) : machine :=
  match s with
  | Machine f t b c d e h l me po s1 s2 s3 s4 =>
      match r with
      | rF => Machine v t b c d e h l me po s1 s2 s3 s4
      | rT => Machine f v b c d e h l me po s1 s2 s3 s4
      | rB => Machine f t v c d e h l me po s1 s2 s3 s4
      | rC => Machine f t b v d e h l me po s1 s2 s3 s4
      | rD => Machine f t b c v e h l me po s1 s2 s3 s4
      | rE => Machine f t b c d v h l me po s1 s2 s3 s4
      | rH => Machine f t b c d e v l me po s1 s2 s3 s4
      | rL => Machine f t b c d e h v me po s1 s2 s3 s4
      end
  end.
Definition hi (p : pair) : reg := match p with FT => rF | BC => rB | DE => rD | HL => rH end.
Definition lo (p : pair) : reg := match p with FT => rT | BC => rC | DE => rE | HL => rL end.
Definition get16 (p : pair) (s : machine) : Z := 256 * get (hi p) s + get (lo p) s.
Definition set16 (p : pair) (v : Z) (s : machine) : machine := set (lo p) (v mod 256) (set (hi p) (v / 256 mod 256) s).
Definition poke (a v : Z) (m : Z -> Z) : Z -> Z := fun x => if x =? a mod 65536 then v else m x.
Definition store (a v : Z) (s : machine) : machine :=
  match s with Machine f t b c d e h l me po s1 s2 s3 s4 => Machine f t b c d e h l (poke a v me) po s1 s2 s3 s4 end.
Definition output (a v : Z) (s : machine) : machine :=
  match s with Machine f t b c d e h l me po s1 s2 s3 s4 => Machine f t b c d e h l me (poke a v po) s1 s2 s3 s4 end.
Definition load (a : Z) (s : machine) : Z := memory s (a mod 65536).
Definition input (a : Z) (s : machine) : Z := ports s (a mod 65536).
Definition stack_of (p : pair) (s : machine) : nat -> Z :=
  match p with FT => stack_FT s | BC => stack_BC s | DE => stack_DE s | HL => stack_HL s end.
Definition set_stack (p : pair) (v : nat -> Z) (s : machine) : machine :=
  match s with
  | Machine f t b c d e h l me po s1 s2 s3 s4 =>
      match p with
      | FT => Machine f t b c d e h l me po v s2 s3 s4
      | BC => Machine f t b c d e h l me po s1 v s3 s4
      | DE => Machine f t b c d e h l me po s1 s2 v s4
      | HL => Machine f t b c d e h l me po s1 s2 s3 v
      end
  end.
Definition pushed (v : Z) (st : nat -> Z) : nat -> Z := fun n => match n with O => v | S k => st k end.
Definition popped (st : nat -> Z) : nat -> Z := fun n => st (S n).
Definition push (p : pair) (s : machine) : machine := set_stack p (pushed (get16 p s) (stack_of p s)) s.
Definition pop (p : pair) (s : machine) : machine := set_stack p (popped (stack_of p s)) (set16 p (stack_of p s O) s).
(** The pair and the top of its stack change places. *)
Definition swap (p : pair) (s : machine) : machine :=
  set_stack p (pushed (get16 p s) (popped (stack_of p s))) (set16 p (stack_of p s O) s).
Definition exchange (a b : reg) (s : machine) : machine := set a (get b s) (set b (get a s) s).
Definition exchange16 (a b : pair) (s : machine) : machine := exchange (hi a) (hi b) (exchange (lo a) (lo b) s).
Definition signed (n : Z) : Z := (n + 128) mod 256 - 128.
Definition all : list pair := [FT; BC; DE; HL].
Definition each (f : pair -> machine -> machine) (l : list pair) (s : machine) : machine := fold_left (fun s p => f p s) l s.

(** Numbers of registers and pairs in an opcode. *)
Definition reg_of (n : Z) : reg := nth (Z.to_nat n) [rF; rT; rB; rC; rD; rE; rH; rL] rF.
Definition pair_of (n : Z) : pair := nth (Z.to_nat n) [FT; BC; DE; HL] FT.
(** The processor's own instructions. *)
Inductive basic : Type :=
| XNop | XPut (p : pair) | XGet (p : pair) | XExg (r : reg) | XNotF | XPutR (r : reg) | XGetR (r : reg) | XOut (p : pair)
| XIn (p : pair) | XAdd (r : reg) | XExt | XNegT | XSub (r : reg) | XLdT (r : reg) | XOr (r : reg) | XAnd (r : reg)
| XXor (r : reg) | XLdR (r : reg) | XPush (p : pair) | XPop (p : pair) | XExg16 (p : pair) | XSwapA | XLdP (p : pair)
| XLdFT (p : pair) | XSwap (p : pair) | XNegFT | XSub16 (p : pair) | XAdd16 (p : pair) | XPushA | XPopA.
(** Those that a byte belongs to. *)
Inductive basic2 : Type := XLdImm (r : reg) | XAddImm (r : reg) | XOrImm | XAndImm | XXorImm | XAddImm16 (p : pair).
Definition decode (op : Z) : option basic :=
  let r := reg_of (op mod 8) in
  let p := pair_of (op mod 4) in
  let between a b := (a <=? op) && (op <=? b) in
  if op =? 0x00 then Some XNop
  else if between 0x01 0x03 then Some (XPut p)
  else if between 0x04 0x07 then Some (XGet p)
  else if (op =? 0x10) || between 0x12 0x17 then Some (XExg r)
  else if op =? 0x18 then Some XNotF
  else if between 0x22 0x27 then Some (XPutR r)
  else if (op =? 0x28) || between 0x2A 0x2F then Some (XGetR r)
  else if between 0x31 0x33 then Some (XOut p)
  else if between 0x34 0x37 then Some (XIn p)
  else if between 0x40 0x47 then Some (XAdd r)
  else if op =? 0x49 then Some XExt
  else if op =? 0x51 then Some XNegT
  else if between 0x50 0x57 then Some (XSub r)
  else if (op =? 0x58) || between 0x5A 0x5F then Some (XLdT r)
  else if (op =? 0x60) || between 0x62 0x67 then Some (XOr r)
  else if (op =? 0x68) || between 0x6A 0x6F then Some (XAnd r)
  else if (op =? 0x70) || between 0x72 0x77 then Some (XXor r)
  else if (op =? 0x78) || between 0x7A 0x7F then Some (XLdR r)
  else if between 0xC0 0xC3 then Some (XPush p)
  else if between 0xC4 0xC7 then Some (XPop p)
  else if between 0xC9 0xCB then Some (XExg16 p)
  else if op =? 0xCC then Some XSwapA
  else if between 0xD1 0xD3 then Some (XLdP p)
  else if between 0xD9 0xDB then Some (XLdFT p)
  else if between 0xDC 0xDF then Some (XSwap p)
  else if op =? 0xF0 then Some XNegFT
  else if between 0xF1 0xF3 then Some (XSub16 p)
  else if between 0xF4 0xF7 then Some (XAdd16 p)
  else if op =? 0xF8 then Some XPushA
  else if op =? 0xF9 then Some XPopA
  else None.
Definition decode2 (op : Z) : option basic2 :=
  let r := reg_of (op mod 8) in
  let p := pair_of (op mod 4) in
  let between a b := (a <=? op) && (op <=? b) in
  if between 0x80 0x87 then Some (XLdImm r)
  else if between 0xA0 0xA7 then Some (XAddImm r)
  else if op =? 0xB0 then Some XOrImm
  else if op =? 0xB1 then Some XAndImm
  else if op =? 0xB2 then Some XXorImm
  else if between 0xBC 0xBF then Some (XAddImm16 p)
  else None.
Definition execute (b : basic) (s : machine) : machine :=
  let add8 v := set rT ((get rT s + v) mod 256) s in
  let add16 v := set16 FT ((get16 FT s + v) mod 65536) s in
  match b with
  | XNop => s
  | XPut p => store (get16 p s) (get rT s) s
  | XGet p => set rT (load (get16 p s) s) s
  | XExg r => exchange r rT s
  | XNotF => set rF (255 - get rF s) s
  | XPutR r => store (get16 FT s) (get r s) s
  | XGetR r => set r (load (get16 FT s) s) s
  | XOut p => output (get16 p s) (get rT s) s
  | XIn p => set rT (input (get16 p s) s) s
  | XAdd r => add8 (get r s)
  | XExt => set rF (if get rT s <? 128 then 0 else 255) s
  | XNegT => set rT ((- get rT s) mod 256) s
  | XSub r => add8 (- get r s)
  | XLdT r => set rT (get r s) s
  | XOr r => set rT (Z.lor (get rT s) (get r s)) s
  | XAnd r => set rT (Z.land (get rT s) (get r s)) s
  | XXor r => set rT (Z.lxor (get rT s) (get r s)) s
  | XLdR r => set r (get rT s) s
  | XPush p => push p s
  | XPop p => pop p s
  | XExg16 p => exchange16 p FT s
  | XSwapA => each swap all s
  | XLdP p => set16 p (get16 FT s) s
  | XLdFT p => set16 FT (get16 p s) s
  | XSwap p => swap p s
  | XNegFT => set16 FT ((- get16 FT s) mod 65536) s
  | XSub16 p => add16 (- get16 p s)
  | XAdd16 p => add16 (get16 p s)
  | XPushA => each push all s
  | XPopA => each pop all s
  end.
Definition execute2 (b : basic2) (n : Z) (s : machine) : machine :=
  match b with
  | XLdImm r => set r n s
  | XAddImm r => set r ((get r s + n) mod 256) s
  | XOrImm => set rT (Z.lor (get rT s) n) s
  | XAndImm => set rT (Z.land (get rT s) n) s
  | XXorImm => set rT (Z.lxor (get rT s) n) s
  | XAddImm16 p => set16 p ((get16 p s + signed n) mod 65536) s
  end.
Fixpoint run (bs : list Z) (s : machine) : option machine :=
  match bs with
  | [] => Some s
  | op :: r =>
      match decode op, decode2 op with
      | Some b, _ => run r (execute b s)
      | None, Some b => match r with [] => None | n :: r1 => run r1 (execute2 b n s) end
      | None, None => None
      end
  end.

(** ** The assembly language *)
(** Instructions.  [Ext] are accesses of a byte: (p), (p+), (-p); [n] is a number. *)
Inductive place : Type := At (p : pair) | Post (p : pair) | Pre (p : pair).
Inductive space : Type := Memory | Ports.
Inductive logic : Type := And | Or | Xor.
Inductive instr (A : Type) : Type :=
| Nop | LdT (r : reg) | LdR (r : reg) | LdFT (p : pair) | LdP (p : pair)
| Get (w : space) (x : place) | Put (w : space) (x : place)
| GetR (r : reg) (x : place) | PutR (x : place) (r : reg)
| GetW (p : pair) | PutW (p : pair) | GetP (p : pair) | PutP (p : pair)
| Exg (r : reg) | ExgR (a b : reg) | ExgP (p : pair) | ExgPP (a b : pair)
| AddT (r : reg) | SubT (r : reg) | AddFT (p : pair) | SubFT (p : pair) | Logic (l : logic) (r : reg)
| NotF | NotT | NotFT | NegT | NegFT
| Push (l : list pair) | Pop (l : list pair) | Swap (l : list pair)
| LdImm (r : reg) (n : A) | AddImm (r : reg) (n : A) | SubImm (r : reg) (n : A) | LogicImm (l : logic) (n : A)
| LdImm16 (p : pair) (n : A) | AddImm16 (p : pair) (n : A) | SubImm16 (p : pair) (n : A).
Arguments Nop {A}. Arguments LdT {A}. Arguments LdR {A}. Arguments LdFT {A}. Arguments LdP {A}. Arguments Get {A}.
Arguments Put {A}. Arguments GetR {A}. Arguments PutR {A}. Arguments GetW {A}. Arguments PutW {A}. Arguments GetP {A}.
Arguments PutP {A}. Arguments Exg {A}. Arguments ExgR {A}. Arguments ExgP {A}. Arguments ExgPP {A}. Arguments AddT {A}.
Arguments SubT {A}. Arguments AddFT {A}. Arguments SubFT {A}. Arguments Logic {A}. Arguments NotF {A}. Arguments NotT {A}.
Arguments NotFT {A}. Arguments NegT {A}. Arguments NegFT {A}. Arguments Push {A}. Arguments Pop {A}. Arguments Swap {A}.
Arguments LdImm {A}. Arguments AddImm {A}. Arguments SubImm {A}. Arguments LogicImm {A}. Arguments LdImm16 {A}.
Arguments AddImm16 {A}. Arguments SubImm16 {A}.

(** *** How they are written *)
Definition reg_name (r : reg) : string :=
  match r with rF => "F" | rT => "T" | rB => "B" | rC => "C" | rD => "D" | rE => "E" | rH => "H" | rL => "L" end.
Definition pair_name (p : pair) : string := match p with FT => "FT" | BC => "BC" | DE => "DE" | HL => "HL" end.
Definition parens (s : string) : string := String.append "(" (String.append s ")").
Definition place_name (x : place) : string :=
  match x with
  | At p => parens (pair_name p)
  | Post p => parens (String.append (pair_name p) "+")
  | Pre p => parens (String.append "-" (pair_name p))
  end.
Definition two (i a b : string) : list piece := [Word i; Word a; Comma; Word b].
Definition imm (i a : string) (e : expr) : list piece := [Word i; Word a; Comma; Operand e].
Definition load_name (w : space) : string := match w with Memory => "LD" | Ports => "LIO" end.
Definition logic_name (l : logic) : string := match l with And => "AND" | Or => "OR" | Xor => "XOR" end.
(** Registers with slashes between them. *)
Fixpoint listed (l : list pair) : list piece :=
  match l with
  | [] => []
  | [p] => [Word (pair_name p)]
  | p :: r => Word (pair_name p) :: Slash :: listed r
  end.
Definition text (i : instr expr) : list piece :=
  match i with
  | Nop => [Word "NOP"]
  | LdT r => two "LD" "T" (reg_name r)
  | LdR r => two "LD" (reg_name r) "T"
  | LdFT p => two "LD" "FT" (pair_name p)
  | LdP p => two "LD" (pair_name p) "FT"
  | Get w x => two (load_name w) "T" (place_name x)
  | Put w x => two (load_name w) (place_name x) "T"
  | GetR r x => two "LD" (reg_name r) (place_name x)
  | PutR x r => two "LD" (place_name x) (reg_name r)
  | GetW p => two "LD" "FT" (place_name (At p))
  | PutW p => two "LD" (place_name (At p)) "FT"
  | GetP p => two "LD" (pair_name p) "(FT)"
  | PutP p => two "LD" "(FT)" (pair_name p)
  | Exg r => two "EXG" "T" (reg_name r)
  | ExgR a b => two "EXG" (reg_name a) (reg_name b)
  | ExgP p => two "EXG" "FT" (pair_name p)
  | ExgPP a b => two "EXG" (pair_name a) (pair_name b)
  | AddT r => two "ADD" "T" (reg_name r)
  | SubT r => two "SUB" "T" (reg_name r)
  | AddFT p => two "ADD" "FT" (pair_name p)
  | SubFT p => two "SUB" "FT" (pair_name p)
  | Logic l r => two (logic_name l) "T" (reg_name r)
  | NotF => [Word "NOT"; Word "F"]
  | NotT => [Word "NOT"; Word "T"]
  | NotFT => [Word "NOT"; Word "FT"]
  | NegT => [Word "NEG"; Word "T"]
  | NegFT => [Word "NEG"; Word "FT"]
  | Push l => Word "PUSH" :: listed l
  | Pop l => Word "POP" :: listed l
  | Swap l => Word "SWAP" :: listed l
  | LdImm r n => imm "LD" (reg_name r) n
  | AddImm r n => imm "ADD" (reg_name r) n
  | SubImm r n => imm "SUB" (reg_name r) n
  | LogicImm l n => imm (logic_name l) "T" n
  | LdImm16 p n => imm "LD" (pair_name p) n
  | AddImm16 p n => imm "ADD" (pair_name p) n
  | SubImm16 p n => imm "SUB" (pair_name p) n
  end.

(** *** What they do *)
Definition step16 (p : pair) (n : Z) (s : machine) : machine := set16 p ((get16 p s + n) mod 65536) s.
(** The machine before and the machine after an access, and the pair with the address. *)
Definition before (x : place) (s : machine) : machine := match x with Pre p => step16 p (-1) s | _ => s end.
Definition after (x : place) (s : machine) : machine := match x with Post p => step16 p 1 s | _ => s end.
Definition address (x : place) (s : machine) : Z := match x with At p | Post p | Pre p => get16 p s end.
Definition fetch (w : space) (a : Z) (s : machine) : Z := match w with Memory => load a s | Ports => input a s end.
Definition write (w : space) (a v : Z) (s : machine) : machine := match w with Memory => store a v s | Ports => output a v s end.
Definition getting (w : space) (r : reg) (x : place) (s : machine) : machine :=
  let s1 := before x s in after x (set r (fetch w (address x s1) s1) s1).
Definition putting (w : space) (r : reg) (x : place) (s : machine) : machine :=
  let s1 := before x s in after x (write w (address x s1) (get r s1) s1).
(** A word in memory has its low byte first. *)
Definition load16 (a : Z) (s : machine) : Z := load a s + 256 * load (a + 1) s.
Definition store16 (a v : Z) (s : machine) : machine := store (a + 1) (v / 256 mod 256) (store a (v mod 256) s).
Definition logical (l : logic) : Z -> Z -> Z := match l with And => Z.land | Or => Z.lor | Xor => Z.lxor end.
Definition meaning (i : instr Z) (s : machine) : machine :=
  match i with
  | Nop => s
  | LdT r => set rT (get r s) s
  | LdR r => set r (get rT s) s
  | LdFT p => set16 FT (get16 p s) s
  | LdP p => set16 p (get16 FT s) s
  | Get w x => getting w rT x s
  | Put w x => putting w rT x s
  | GetR r x => getting Memory r x s
  | PutR x r => putting Memory r x s
  | GetW p => set16 FT (load16 (get16 p s) s) s
  | PutW p => store16 (get16 p s) (get16 FT s) s
  | GetP p => set16 p (load16 (get16 FT s) s) s
  | PutP p => store16 (get16 FT s) (get16 p s) s
  | Exg r => exchange r rT s
  | ExgR a b => exchange a b s
  | ExgP p => exchange16 p FT s
  | ExgPP a b => exchange16 a b s
  | AddT r => set rT ((get rT s + get r s) mod 256) s
  | SubT r => set rT ((get rT s - get r s) mod 256) s
  | AddFT p => set16 FT ((get16 FT s + get16 p s) mod 65536) s
  | SubFT p => set16 FT ((get16 FT s - get16 p s) mod 65536) s
  | Logic l r => set rT (logical l (get rT s) (get r s)) s
  | NotF => set rF (255 - get rF s) s
  | NotT => set rT (255 - get rT s) s
  | NotFT => set16 FT (65535 - get16 FT s) s
  | NegT => set rT ((- get rT s) mod 256) s
  | NegFT => set16 FT ((- get16 FT s) mod 65536) s
  | Push l => each push l s
  | Pop l => each pop l s
  | Swap l => each swap l s
  | LdImm r n => set r (n mod 256) s
  | AddImm r n => set r ((get r s + n) mod 256) s
  | SubImm r n => set r ((get r s - n) mod 256) s
  | LogicImm l n => set rT (logical l (get rT s) (n mod 256)) s
  | LdImm16 p n => set16 p n s
  | AddImm16 p n => set16 p ((get16 p s + n) mod 65536) s
  | SubImm16 p n => set16 p ((get16 p s - n) mod 65536) s
  end.

(** *** Which there are *)
Definition inner (r : reg) : Prop := r <> rF /\ r <> rT.
Definition is_FT (x : place) : Prop := match x with At p | Post p | Pre p => p = FT end.
(** A list of registers: each once. *)
Definition registers (l : list pair) : Prop := l <> [] /\ NoDup l.
Definition valid (i : instr Z) : Prop :=
  match i with
  | LdT r | LdR r | Exg r | SubT r | Logic _ r => r <> rT
  | LdFT p | LdP p | ExgP p | AddFT p | SubFT p | GetW p | PutW p | GetP p | PutP p => p <> FT
  | Get w x => match x with At _ => True | _ => ~ is_FT x end
  | Put Memory x => ~ is_FT x
  | Put Ports x => match x with At p => p <> FT | Post p | Pre p => p = BC \/ p = HL end
  | GetR r x => is_FT x /\ inner r
  | PutR x r => is_FT x /\ inner r
  | ExgR a b => a <> rT /\ b <> rT /\ a <> b
  | ExgPP a b => a <> FT /\ b <> FT /\ a <> b
  | Push l | Pop l | Swap l => registers l
  | LdImm _ n | AddImm _ n | LogicImm _ n => -128 <= n <= 255
  | SubImm _ n => -255 <= n <= 128
  | LdImm16 _ n => 0 <= n <= 65535
  | AddImm16 _ n => -0x8000 <= n < 0x7F80 \/ 0x8000 <= n <= 65535
  | SubImm16 _ n => n = -0x8000 \/ -0x7F80 < n <= 0x8000
  | _ => True
  end.
(** Bytes in the registers and in the stacks' words. *)
Definition byte (z : Z) : Prop := 0 <= z < 256.
Definition word (z : Z) : Prop := 0 <= z < 65536.
Definition sound (s : machine) : Prop :=
  (forall r, byte (get r s)) /\ (forall a, byte (memory s a)) /\ (forall p n, word (stack_of p s n)).
(** Two machines are in the same state. *)
Definition same (a b : machine) : Prop :=
  (forall r, get r a = get r b) /\ (forall x, memory a x = memory b x) /\ (forall x, ports a x = ports b x) /\
  (forall p n, stack_of p a n = stack_of p b n).

(** Operands: the expression as written, as entered, and its final value. *)
Record arg : Type := Arg { g_term : term; g_expr : expr; g_value : Z }.
Definition imap {A B : Type} (f : A -> B) (i : instr A) : instr B :=
  match i with
  | Nop => Nop | LdT r => LdT r | LdR r => LdR r | LdFT p => LdFT p | LdP p => LdP p | Get w x => Get w x | Put w x => Put w x
  | GetR r x => GetR r x | PutR x r => PutR x r | GetW p => GetW p | PutW p => PutW p | GetP p => GetP p | PutP p => PutP p
  | Exg r => Exg r | ExgR a b => ExgR a b | ExgP p => ExgP p | ExgPP a b => ExgPP a b | AddT r => AddT r | SubT r => SubT r
  | AddFT p => AddFT p | SubFT p => SubFT p | Logic l r => Logic l r | NotF => NotF | NotT => NotT | NotFT => NotFT
  | NegT => NegT | NegFT => NegFT | Push l => Push l | Pop l => Pop l | Swap l => Swap l
  | LdImm r n => LdImm r (f n) | AddImm r n => AddImm r (f n) | SubImm r n => SubImm r (f n) | LogicImm l n => LogicImm l (f n)
  | LdImm16 p n => LdImm16 p (f n) | AddImm16 p n => AddImm16 p (f n) | SubImm16 p n => SubImm16 p (f n)
  end.
Definition operand_of {A : Type} (i : instr A) : option A :=
  match i with
  | LdImm _ n | AddImm _ n | SubImm _ n | LogicImm _ n | LdImm16 _ n | AddImm16 _ n | SubImm16 _ n => Some n
  | _ => None
  end.
Definition args_known (S : setting) (cur : option asect) (i : instr arg) : Prop :=
  forall a, operand_of i = Some a -> operand S cur (g_term a) (g_expr a) (g_value a) /\ tdepth (g_term a) <= 240.
Definition term_of (i : instr arg) : term := match operand_of i with Some a => g_term a | None => Num 0 end.
(** The line ends. *)
Definition ends (r : list token) : Prop := match r with [] | TOther :: _ => True | _ => False end.
