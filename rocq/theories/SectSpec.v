(** Specification vocabulary for data directives and sections. *)
From Coq Require Import ZArith List Bool Permutation.
From Verif Require Import Base Arith ExprModel ObjWriteModel OptModel SectModel.
Import ListNotations.
Open Scope Z_scope.

(** The [n] bytes of a number, least significant first. *)
Fixpoint little (n : nat) (v : Z) : list Z :=
  match n with O => [] | S n' => v mod 256 :: little n' (v / 256) end.
Definition number (e : endianness) (n : nat) (v : Z) : list Z :=
  match e with LittleEndian => little n v | BigEndian => rev (little n v) end.

(** The bytes that one argument of DB (n = 1), DW (n = 2) or DL (n = 4) stands
    for.  An expression not known yet is stored as zero and recorded as a patch. *)
Definition arg_bytes (o : options) (n : nat) (a : darg) : list Z :=
  match a with
  | AExpr e => if expr_IsConstant e then number (o_endianness o) n (e_v e) else repeat 0 n
  | AString s => s
  | AEmpty => repeat (o_fill o) n
  end.
(** Padding from [off] to the next multiple of [a]. *)
Definition pad (off a : Z) : Z := (- off) mod a.
(** The bytes a directive stands for when the section holds [off] bytes. *)
Definition emitted (o : options) (off : Z) (d : directive) : list Z :=
  match d with
  | DDb l => flat_map (arg_bytes o 1) l
  | DDw l => flat_map (arg_bytes o 2) l
  | DDl l => flat_map (arg_bytes o 4) l
  | DSpace m n => repeat (o_fill o) (Z.to_nat (m * n))
  | DEven => repeat (o_fill o) (Z.to_nat (pad off 2))
  | DCnop n a => repeat (o_fill o) (Z.to_nat (pad off a + n))
  | DIncbin (Some bs) => bs
  | _ => []
  end.

(** The patches an argument leaves behind at offset [off]: DB and DW check the
    range when the value is known. *)
Definition arg_patches (o : options) (n : nat) (off : Z) (a : darg) : list apatch :=
  match a with
  | AExpr e =>
      if expr_IsConstant e then [] else
      match n, o_endianness o with
      | 1%nat, _ => match expr_CheckRange e (-128) 255 with Ok e1 => [APatch off 0 e1] | _ => [] end
      | 2%nat, LittleEndian => match expr_CheckRange e (-32768) 65535 with Ok e1 => [APatch off 1 e1] | _ => [] end
      | 2%nat, BigEndian => match expr_CheckRange e (-32768) 65535 with Ok e1 => [APatch off 2 e1] | _ => [] end
      | _, LittleEndian => [APatch off 3 e]
      | _, BigEndian => [APatch off 4 e]
      end
  | _ => []
  end.
Fixpoint args_patches (o : options) (n : nat) (off : Z) (l : list darg) : list apatch :=
  match l with
  | [] => []
  | a :: r => arg_patches o n off a ++ args_patches o n (off + zlen (arg_bytes o n a)) r
  end.
Definition new_patches (o : options) (off : Z) (d : directive) : list apatch :=
  match d with
  | DDb l => args_patches o 1 off l
  | DDw l => args_patches o 2 off l
  | DDl l => args_patches o 4 off l
  | _ => []
  end.

(** A sequence of directives; options may change on the way. *)
Fixpoint emitted_all (o : options) (off : Z) (l : list directive) : list Z :=
  match l with
  | [] => []
  | DOptions o1 :: r => emitted_all o1 off r
  | d :: r => emitted o off d ++ emitted_all o (off + zlen (emitted o off d)) r
  end.
Fixpoint patches_all (o : options) (off : Z) (l : list directive) : list apatch :=
  match l with
  | [] => []
  | DOptions o1 :: r => patches_all o1 off r
  | d :: r => new_patches o off d ++ patches_all o (off + zlen (emitted o off d)) r
  end.

(** Acceptable arguments: numbers in range, strings of bytes for DB, and nothing. *)
Definition arg_ok (n : nat) (low high : Z) (last : bool) (a : darg) : Prop :=
  match a with
  | AExpr e => e <> ENull /\ (expr_IsConstant e = true -> low <= e_v e <= high)
  | AString s => n = 1%nat /\ bytes s
  | AEmpty => n = 1%nat \/ last = false
  end.
Fixpoint args_ok (n : nat) (low high : Z) (l : list darg) : Prop :=
  match l with
  | [] => True
  | a :: r => arg_ok n low high (match r with [] => true | _ => false end) a /\ args_ok n low high r
  end.
(** Acceptable directives for a CPU whose words have [w] bytes, in a section that
    stays within [limit] bytes: whole words, and alignments that leave room. *)
Definition data_ok (w limit : Z) (d : directive) : Prop :=
  match d with
  | DDb l => w = 1 /\ args_ok 1 (-128) 255 l
  | DDw l => args_ok 2 (-32768) 65535 l
  | DDl l => args_ok 4 (- 2 ^ 31) (2 ^ 31 - 1) l
  | DSpace m n => 0 <= n /\ 0 <= m * n < 2 ^ 32 /\ (w | m * n)
  | DEven => True
  | DCnop n a => 0 <= n < 2 ^ 31 /\ 1 <= a <= 2 ^ 32 - limit /\ (w | n) /\ (w | a)
  | DIncbin (Some bs) => bytes bs /\ (w | zlen bs) /\ zlen bs < 2 ^ 32
  | DOptions o => is_byte (o_fill o)
  | DPosition _ _ => True
  | _ => False
  end.

(** The current section, its index and its type. *)
Definition current_section (st : xstate) (k : nat) (m : msect) (t : gtype) : Prop :=
  x_current st = Some k /\ nth_error (x_sections st) k = Some m /\ x_groups st (ws_group (m_w m)) = Some t.
(** The largest buffer a section can have. *)
Definition max_size : Z := 2 ^ 32 - 2 ^ 14.
(** Bookkeeping of a section: the size is the number of bytes stored (none in a
    section without data), which fit the buffer, and the counters are 32-bit. *)
Definition section_fine (t : gtype) (m : msect) : Prop :=
  is_u32 (m_pc m) /\ is_u32 (m_used m) /\ 0 <= m_alloc m <= max_size /\
  match t with
  | GText => m_used m = zlen (m_data m) /\ m_used m <= m_alloc m
  | GBss => m_data m = []
  end.
(** Everything but section [k] and the source position and options. *)
Definition rest_same (k : nat) (st st' : xstate) : Prop :=
  (forall j, j <> k -> nth_error (x_sections st') j = nth_error (x_sections st) j) /\
  x_current st' = x_current st /\ x_scope st' = x_scope st /\ x_stack st' = x_stack st /\
  x_errors st' = x_errors st.
(** A section keeps its name, group, flags and placement. *)
Definition same_identity (m m' : msect) : Prop :=
  ws_name (m_w m') = ws_name (m_w m) /\ ws_group (m_w m') = ws_group (m_w m) /\
  ws_imagePosition (m_w m') = ws_imagePosition (m_w m) /\ ws_align (m_w m') = ws_align (m_w m) /\
  ws_page (m_w m') = ws_page (m_w m) /\ set_pc 0 (ws_sect (m_w m')) = set_pc 0 (ws_sect (m_w m)).

(** The state before the first line of source. *)
Definition initial (w : Z) (banks : bool) (groups : nat -> option gtype) (o : options) : xstate :=
  XState w banks groups o 0 0 [] None None [] [].
(** Bookkeeping of all sections.  With one byte words the program counter is the
    number of bytes. *)
Definition state_fine (st : xstate) : Prop :=
  forall k m, nth_error (x_sections st) k = Some m ->
  exists t, x_groups st (ws_group (m_w m)) = Some t /\ section_fine t m /\
    (x_wordSize st = 1 -> m_pc m = m_used m).
(** A section has only been added to. *)
Definition extended (m m' : msect) : Prop :=
  ws_name (m_w m') = ws_name (m_w m) /\ ws_group (m_w m') = ws_group (m_w m) /\
  exists bs ps, m_data m' = m_data m ++ bs /\ Permutation (m_patches m') (m_patches m ++ ps).
(** Directives that select a section and write nothing. *)
Definition switching (d : directive) : Prop :=
  match d with DSection _ _ _ | DSectionName _ | DPushs | DPops => True | _ => False end.
(** Every PUSHS has its POPS. *)
Inductive nested : list directive -> Prop :=
| nested_none : nested []
| nested_other : forall d l, d <> DPushs -> d <> DPops -> nested l -> nested (d :: l)
| nested_block : forall a l, nested a -> nested l -> nested (DPushs :: a ++ DPops :: l).
(** A source made of blocks, each opening the named section of group [g] and
    containing data directives; and the directives of all blocks of one name. *)
Definition plain : kind := Kind None None None None false.
Definition program (g : nat) (blocks : list (list Z * list directive)) : list directive :=
  flat_map (fun b => DSection (fst b) g plain :: snd b) blocks.
Definition of_name (n : list Z) (blocks : list (list Z * list directive)) : list directive :=
  flat_map (fun b => if beq (fst b) n then snd b else []) blocks.
Definition no_options (d : directive) : Prop := match d with DOptions _ => False | _ => True end.
(** Directives that only reserve space, as used in sections without data. *)
Definition reserve_ok (w limit : Z) (d : directive) : Prop :=
  match d with
  | DDb l => w = 1 /\ Forall (fun a => a = AEmpty) l
  | DSpace _ _ | DEven | DCnop _ _ | DPosition _ _ => data_ok w limit d
  | _ => False
  end.
