(** Model of the control directives: xasm/motor/parse_block.c, lexer_context.c,
    parse_directive.c (REPT, IF, MACRO, INCLUDE) and the loop in parse.c.

    Simplification: a source text is a list of lines that have been told apart
    already; a line is a directive or a statement without influence on control.
    A context's position is the list of lines not read yet. *)
From Coq Require Import ZArith List Bool.
From Verif Require Import Base.
Import ListNotations.
Open Scope Z_scope.

(** What has been done so far.  A statement is recorded with the text of \@
    (the number behind the underscore) and of the macro's arguments. *)
Inductive event : Type :=
| EStmt (k : Z) (unique : Z) (args : list Z)
| EWarn (w : Z).
(** What an expression can depend on: everything done before, \@ and \1-\9. *)
Record view : Type := View { v_trace : list event; v_unique : Z; v_args : list Z }.

(** The lines.  [LIf true] is IF, IFEQ, IFGT, IFGE, IFLT and IFLE, which insist on
    ENDC; [LIf false] is IFC, IFNC, IFD and IFND, which do not. *)
Inductive line : Type :=
| LStmt (k : Z)
| LRept (n : view -> Z)
| LEndr
| LRexit
| LIf (strict : bool) (c : view -> bool)
| LElse
| LEndc
| LMacro (m : Z)
| LEndm
| LMexit
| LCall (m : Z) (args : view -> list Z)
| LInclude (f : Z)
| LShift (n : view -> Z).

(** parse_block.c:30-43 and 97-100. *)
Definition isEndc (l : line) : bool := match l with LEndc => true | _ => false end.
Definition isEndm (l : line) : bool := match l with LEndm => true | _ => false end.
Definition isEndr (l : line) : bool := match l with LEndr => true | _ => false end.
Definition isFalseBranch (l : line) : bool := match l with LElse => true | LEndc => true | _ => false end.

(** getNextDirective when its result is not looked at: at the end of the text
    lex_Context->token keeps its value (lexer.c:604-628). *)
Definition nextDirective (tok : line) (ls : list line) : line * list line :=
  match ls with [] => (tok, []) | t :: r => (t, r) end.

(** The cases of the switch in parse_block.c:55-86. *)
Definition opens (tok : line) : option (line -> bool) :=
  match tok with
  | LIf _ _ => Some isEndc
  | LMacro _ => Some isEndm
  | LRept _ => Some isEndr
  | _ => None
  end.

(** parse_block.c:48-95 skipToDirective, skipPastDirective.  [tok] is the current
    token and [ls] the lines after it; [n] bounds the depth of the recursion: the
    C stack.  Ok None is the result false. *)
Fixpoint skipTo (n : nat) (target : line -> bool) (tok : line) (ls : list line) : res (option (line * list line)) :=
  match n with
  | O => UB
  | S n =>
      if target tok then Ok (Some (tok, ls)) else
      match opens tok with
      | Some target2 =>
          let (tok1, ls1) := nextDirective tok ls in
          let! r := skipTo n target2 tok1 ls1 in
          match r with
          | None => Ok None
          | Some (tok2, ls2) =>
              let (tok3, ls3) := nextDirective tok2 ls2 in
              skipTo n target tok3 ls3
          end
      | None =>
          match ls with
          | [] => Ok None
          | t :: r => skipTo n target t r
          end
      end
  end.

(** parse_block.c:104-132, 146-161: the current token is no directive that opens
    or ends anything (a line break, ELSE, REXIT, none).  The lines after the
    directive found. *)
Definition skipPast (target : line -> bool) (ls : list line) : res (option (list line)) :=
  let! r := skipTo (S (length ls)) target (LStmt 0) ls in
  Ok (match r with Some (_, rest) => Some rest | None => None end).

(** lexer_context.h: SLexerContext. *)
Inductive kind : Type := KFile | KMacro | KRept (remaining : nat).
Record ctx : Type := Ctx { c_kind : kind; c_lines : list line; c_unique : Z; c_args : list Z }.
Record mst : Type := MSt {
  m_stack : list ctx;
  m_macros : list (Z * list line);
  m_next : Z;
  m_trace : list event }.

Fixpoint lookup {A} (m : Z) (l : list (Z * A)) : option A :=
  match l with [] => None | (k, v) :: r => if k =? m then Some v else lookup m r end.

(** lexer_context.c:94-110 getThisContextMacro. *)
Fixpoint inMacro (s : list ctx) : bool :=
  match s with
  | [] => false
  | c :: r => match c_kind c with KMacro => true | KRept _ => inMacro r | KFile => false end
  end.
(** lexer_context.c:177-185 lexctx_ShiftMacroArgs: a repeat block has the same
    vector of arguments as what is around it (lexer_buffer.c:138, 157). *)
Fixpoint setArgs (a : list Z) (s : list ctx) : list ctx :=
  match s with
  | [] => []
  | c :: r =>
      let c1 := Ctx (c_kind c) (c_lines c) (c_unique c) a in
      match c_kind c with KRept _ => c1 :: setArgs a r | _ => c1 :: r end
  end.

Section Run.
Variable files : Z -> option (list line).

(** One line: parse.c:144-173 parse_Until with the handlers of
    parse_directive.c.  Ok None is the end of the source. *)
Definition step (s : mst) : res (option mst) :=
  match m_stack s with
  | [] => UB
  | Ctx k ls u a :: outer =>
      let v := View (m_trace s) u a in
      let st := fun stk => MSt stk (m_macros s) (m_next s) (m_trace s) in
      let warn := fun r w => Ok (Some (MSt (Ctx k r u a :: outer) (m_macros s) (m_next s) (m_trace s ++ [EWarn w]))) in
      match ls with
      | [] =>
          (* lexer.c:426-444, lexer_context.c:252-268 lexctx_EndCurrentBuffer *)
          match k with
          | KRept _ => Err
          | _ => match outer with [] => Ok None | _ => Ok (Some (st outer)) end
          end
      | LStmt i :: r =>
          Ok (Some (MSt (Ctx k r u a :: outer) (m_macros s) (m_next s) (m_trace s ++ [EStmt i u a])))
      | LRept n :: r =>
          (* parse_directive.c:553-567 handleRept, lexer_context.c:339-352 *)
          let c := n v in
          if 0 <? c then
            Ok (Some (MSt (Ctx (KRept (Z.to_nat c - 1)) r (m_next s) a :: Ctx k r u a :: outer)
                          (m_macros s) (m_next s + 1) (m_trace s)))
          else if c <? 0 then Err
          else
            let! x := skipPast isEndr r in
            match x with Some r1 => Ok (Some (st (Ctx k r1 u a :: outer))) | None => Err end
      | LEndr :: r =>
          (* parse_directive.c:119-131 handleEndr, lexer_context.c:232-250 *)
          match k, outer with
          | KRept (S rem), parent :: _ =>
              Ok (Some (MSt (Ctx (KRept rem) (c_lines parent) (m_next s) (c_args parent) :: outer)
                            (m_macros s) (m_next s + 1) (m_trace s)))
          | KRept O, parent :: outer1 =>
              Ok (Some (st (Ctx (c_kind parent) r (c_unique parent) a :: outer1)))
          | _, _ => warn r 1
          end
      | LRexit :: r =>
          (* parse_directive.c:133-145 handleRexit: a missing ENDR is not noticed *)
          match k, outer with
          | KRept _, parent :: outer1 =>
              let! x := skipPast isEndr r in
              let r1 := match x with Some r1 => r1 | None => [] end in
              Ok (Some (st (Ctx (c_kind parent) r1 (c_unique parent) a :: outer1)))
          | _, _ => warn r 1
          end
      | LIf strict c :: r =>
          (* parse_directive.c:587-655 *)
          if c v then Ok (Some (st (Ctx k r u a :: outer)))
          else
            let! x := skipPast isFalseBranch r in
            match x with
            | Some r1 => Ok (Some (st (Ctx k r1 u a :: outer)))
            | None => if (strict : bool) then Err else Ok (Some (st (Ctx k [] u a :: outer)))
            end
      | LElse :: r =>
          (* parse_directive.c:687-691 handleElse *)
          let! x := skipPast isEndc r in
          let r1 := match x with Some r1 => r1 | None => [] end in
          Ok (Some (st (Ctx k r1 u a :: outer)))
      | LEndc :: r => Ok (Some (st (Ctx k r u a :: outer)))
      | LMacro m :: r =>
          (* parse_symbol.c:120-136, parse_block.c:146-161: the text up to and with ENDM *)
          let! x := skipPast isEndm r in
          match x with
          | Some r1 =>
              match lookup m (m_macros s) with
              | Some _ => Err
              | None =>
                  Ok (Some (MSt (Ctx k r1 u a :: outer)
                                (m_macros s ++ [(m, firstn (length r - length r1) r)]) (m_next s) (m_trace s)))
              end
          | None => Err
          end
      | LEndm :: r | LMexit :: r =>
          (* parse_directive.c:147-155 handleMexit: outside a macro nothing is
             read, so the same directive is met again *)
          match k with
          | KMacro => match outer with [] => Ok None | _ => Ok (Some (st outer)) end
          | _ => warn ls 2
          end
      | LCall m f :: r =>
          (* parse.c:74-92 handleMacroInvocation, lexer_context.c:354-378 *)
          match lookup m (m_macros s) with
          | Some body =>
              Ok (Some (MSt (Ctx KMacro body (m_next s) (f v) :: Ctx k r u a :: outer)
                            (m_macros s) (m_next s + 1) (m_trace s)))
          | None => Err
          end
      | LInclude f :: r =>
          (* parse_directive.c:519-535, lexer_context.c:324-337 *)
          match files f with
          | Some body =>
              Ok (Some (MSt (Ctx KFile body (m_next s) [] :: Ctx k r u a :: outer)
                            (m_macros s) (m_next s + 1) (m_trace s)))
          | None => Err
          end
      | LShift n :: r =>
          (* parse_directive.c:569-585 handleShift, lexer_buffer.c:119-124; the
             arguments here start with \1 *)
          let stk := Ctx k r u a :: outer in
          if inMacro stk then Ok (Some (st (setArgs (skipn (Z.to_nat (n v)) a) stk)))
          else warn r 3
      end
  end.

(** At most [n] lines; the state at the end of the source. *)
Fixpoint run (n : nat) (s : mst) : res mst :=
  match n with
  | O => UB
  | S n =>
      let! r := step s in
      match r with None => Ok s | Some s1 => run n s1 end
  end.
End Run.

(** xasm.c: the state at the start of a file. *)
Definition start (ls : list line) : mst := MSt [Ctx KFile ls 0 []] [] 1 [].
