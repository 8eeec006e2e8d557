(** Specification vocabulary for instruction encoders: operands and what is stored
    for them. *)
From Coq Require Import ZArith List Bool Permutation.
From Verif Require Import Base Arith ExprSpec ExprModel ExprLayout LinkExprModel LinkLayout ObjWriteModel OptModel
  SectModel SectSpec.
Import ListNotations.
Open Scope Z_scope.

(** The symbols and sections known to the assembler, and a final memory layout. *)
Record setting : Type := Setting {
  s_F : fmath; s_world : world; s_base : nat -> Z; s_env : env; s_garb : nat -> Z; s_garbage : Z }.
Definition setting_ok (S : setting) (cur : option asect) : Prop :=
  fmath_ok (s_F S) /\ env_ok (s_world S) (s_base S) (s_env S) /\ pc_known cur (s_env S).

(** Expression [t] is written in the source: entering it gives [e], and in the final
    layout its value is [v]. *)
Definition operand (S : setting) (cur : option asect) (t : term) (e : expr) (v : Z) : Prop :=
  build (s_F S) (s_garb S) (s_garbage S) (s_world S) cur t = Ok e /\
  term_ok t /\ defined (s_world S) t /\ divisors_known (s_world S) t /\ no_bit t /\
  meaning (s_F S) (s_env S) t = Some v.

(** The expression [e] of a patch has the value [v] in the end: whether it is reduced
    to a number when assembly ends or written to the object file and evaluated by the
    linker.  [t] tells which symbols the linker must know. *)
Definition resolves (S : setting) (t : term) (e : expr) (v : Z) : Prop :=
  forall k a off id c, at_place (s_world S) (s_base S) k a off (s_env S) -> linker_sees c id (s_env S) t ->
  exists ov e' bs,
    reduceExpression (s_F S) (s_world S) k a off (expr_Optimize (s_world S) e) = Ok (ov, e') /\
    (forall x, ov = Some x -> x = v) /\
    writeExpression id e' = Ok bs /\
    calculateExpressionValue (s_F S) c bs = Ok (Some (Entry None v)).

(** The type of a patch of [n] bytes: patch.h EPatchType. *)
Definition patch_type (o : options) (n : nat) : Z :=
  match n, o_endianness o with
  | 1%nat, _ => 0
  | 2%nat, LittleEndian => 1
  | 2%nat, BigEndian => 2
  | _, LittleEndian => 3
  | _, BigEndian => 4
  end.
(** Cells of [n] bytes with values [v], that depend on the expression [t]: each is
    stored at once in the byte order selected, or, if the expression is not known
    yet, left zero with a patch that has the value. *)
Inductive written (S : setting) (o : options) : Z -> list (nat * term * Z) -> list Z -> list apatch -> Prop :=
| written_none : forall off, written S o off [] [] []
| written_now : forall off n t v l bs ps, written S o (off + Z.of_nat n) l bs ps ->
    written S o off ((n, t, v) :: l) (number (o_endianness o) n v ++ bs) ps
| written_later : forall off n t v l bs ps e, ~ known (s_world S) t -> resolves S t e v ->
    written S o (off + Z.of_nat n) l bs ps ->
    written S o off ((n, t, v) :: l) (repeat 0 n ++ bs) (APatch off (patch_type o n) e :: ps).

(** From [st] to [st'] the cells have been appended to section [k], no error has been
    reported and nothing else has changed. *)
Definition emits (S : setting) (k : nat) (st st' : xstate) (cells : list (nat * term * Z)) : Prop :=
  exists m m' bs ps, nth_error (x_sections st) k = Some m /\ nth_error (x_sections st') k = Some m' /\
    written S (x_opts st) (m_used m) cells bs ps /\
    m_data m' = m_data m ++ bs /\ Permutation (m_patches m') (m_patches m ++ ps) /\
    m_used m' = m_used m + zlen bs /\ m_pc m' = u32 (m_pc m + zlen bs / x_wordSize st) /\
    section_fine GText m' /\ same_identity m m' /\
    (forall j, j <> k -> nth_error (x_sections st') j = nth_error (x_sections st) j) /\
    st' = with_sections (x_sections st') st.

(** A section with data is current and has room for [n] more bytes; bytes are
    addressable. *)
Definition ready (st : xstate) (k : nat) (m : msect) (n : Z) : Prop :=
  current_section st k m GText /\ section_fine GText m /\ x_wordSize st = 1 /\ m_used m + n <= max_size.
Definition here (m : msect) : option asect := Some (ws_sect (m_w m)).
