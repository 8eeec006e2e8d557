(** What a structured program does (for C39 and C40). *)
From Coq Require Import ZArith List Bool.
From Verif Require Import Base ControlModel.
Import ListNotations.
Open Scope Z_scope.

(** Programs as their author sees them. *)
Inductive prog : Type :=
| PNil
| PSeq (i : item) (p : prog)
with item : Type :=
| PStmt (k : Z)
| PRept (n : view -> Z) (body : prog)
| PIf (strict : bool) (c : view -> bool) (yes : prog)
| PIfElse (strict : bool) (c : view -> bool) (yes no : prog)
| PMacro (m : Z) (body : prog)
| PCall (m : Z) (args : view -> list Z)
| PInclude (f : Z)
| PShift (n : view -> Z)
| PRexit
| PMexit.

(** Their text. *)
Fixpoint flatten (p : prog) : list line :=
  match p with
  | PNil => []
  | PSeq i p => flatten_item i ++ flatten p
  end
with flatten_item (i : item) : list line :=
  match i with
  | PStmt k => [LStmt k]
  | PRept n b => LRept n :: flatten b ++ [LEndr]
  | PIf s c t => LIf s c :: flatten t ++ [LEndc]
  | PIfElse s c t e => LIf s c :: flatten t ++ LElse :: flatten e ++ [LEndc]
  | PMacro m b => LMacro m :: flatten b ++ [LEndm]
  | PCall m f => [LCall m f]
  | PInclude f => [LInclude f]
  | PShift n => [LShift n]
  | PRexit => [LRexit]
  | PMexit => [LMexit]
  end.

(** Where a piece of program stands: directly in a file, in a macro, or in a
    repeat block somewhere. *)
Inductive place : Type := InFile | InMacro | InRept (around : place).
Fixpoint macro_around (k : place) : bool :=
  match k with InFile => false | InMacro => true | InRept k => macro_around k end.

(** The state: macros defined, next value of \@, what was done. *)
Record world : Type := World { w_macros : list (Z * prog); w_next : Z; w_trace : list event }.
Definition fresh (w : world) : world := World (w_macros w) (w_next w + 1) (w_trace w).
Definition log (w : world) (e : event) : world := World (w_macros w) (w_next w) (w_trace w ++ [e]).
Definition define (w : world) (m : Z) (b : prog) : world := World (w_macros w ++ [(m, b)]) (w_next w) (w_trace w).

(** How a piece of program ends: normally, by REXIT or by MEXIT. *)
Inductive outcome : Type := ONext | ORexit | OMexit.

Section Exec.
Variable files : Z -> option prog.

(** [exec k u a w p o a' w']: in place [k], with \@ = u and arguments [a], program
    [p] takes [w] to [w'] and leaves the arguments [a']. *)
Inductive exec : place -> Z -> list Z -> world -> prog -> outcome -> list Z -> world -> Prop :=
| XNil : forall k u a w, exec k u a w PNil ONext a w
| XSeq : forall k u a w i p a1 w1 o a2 w2,
    exec_item k u a w i ONext a1 w1 -> exec k u a1 w1 p o a2 w2 -> exec k u a w (PSeq i p) o a2 w2
| XStop : forall k u a w i p o a1 w1,
    exec_item k u a w i o a1 w1 -> o <> ONext -> exec k u a w (PSeq i p) o a1 w1
with exec_item : place -> Z -> list Z -> world -> item -> outcome -> list Z -> world -> Prop :=
| XStmt : forall k u a w i, exec_item k u a w (PStmt i) ONext a (log w (EStmt i u a))
(* REPT n: n passes, each with a new \@; \@ is the old one afterwards *)
| XRept : forall k u a w n b a' w',
    0 <= n (View (w_trace w) u a) ->
    passes k (Z.to_nat (n (View (w_trace w) u a))) a w b a' w' ->
    exec_item k u a w (PRept n b) ONext a' w'
| XIfYes : forall k u a w s c t o a' w',
    c (View (w_trace w) u a) = true -> exec k u a w t o a' w' -> exec_item k u a w (PIf s c t) o a' w'
| XIfNo : forall k u a w s c t,
    c (View (w_trace w) u a) = false -> exec_item k u a w (PIf s c t) ONext a w
| XIfElseYes : forall k u a w s c t e o a' w',
    c (View (w_trace w) u a) = true -> exec k u a w t o a' w' -> exec_item k u a w (PIfElse s c t e) o a' w'
| XIfElseNo : forall k u a w s c t e o a' w',
    c (View (w_trace w) u a) = false -> exec k u a w e o a' w' -> exec_item k u a w (PIfElse s c t e) o a' w'
| XMacro : forall k u a w m b,
    lookup m (w_macros w) = None -> exec_item k u a w (PMacro m b) ONext a (define w m b)
(* a call ends at the end of the macro or at MEXIT; the caller's arguments and \@
   are untouched *)
| XCall : forall k u a w m f b o a1 w1,
    lookup m (w_macros w) = Some b ->
    exec InMacro (w_next w) (f (View (w_trace w) u a)) (fresh w) b o a1 w1 -> (o = ONext \/ o = OMexit) ->
    exec_item k u a w (PCall m f) ONext a w1
| XInclude : forall k u a w f p a1 w1,
    files f = Some p -> exec InFile (w_next w) [] (fresh w) p ONext a1 w1 ->
    exec_item k u a w (PInclude f) ONext a w1
| XShift : forall k u a w n, macro_around k = true ->
    exec_item k u a w (PShift n) ONext (skipn (Z.to_nat (n (View (w_trace w) u a))) a) w
| XShiftOutside : forall k u a w n, macro_around k = false ->
    exec_item k u a w (PShift n) ONext a (log w (EWarn 3))
| XRexit : forall k u a w, exec_item (InRept k) u a w PRexit ORexit a w
| XRexitOutside : forall k u a w, (forall k1, k <> InRept k1) ->
    exec_item k u a w PRexit ONext a (log w (EWarn 1))
| XMexit : forall u a w, exec_item InMacro u a w PMexit OMexit a w
with passes : place -> nat -> list Z -> world -> prog -> list Z -> world -> Prop :=
| XDone : forall k a w b, passes k 0 a w b a w
| XPass : forall k n a w b a1 w1 a2 w2,
    exec (InRept k) (w_next w) a (fresh w) b ONext a1 w1 -> passes k n a1 w1 b a2 w2 ->
    passes k (S n) a w b a2 w2
| XExit : forall k n a w b a1 w1,
    exec (InRept k) (w_next w) a (fresh w) b ORexit a1 w1 ->
    passes k (S n) a w b a1 w1.
End Exec.

(** The first world. *)
Definition world0 : world := World [] 1 [].
