(** Specification of symbol resolution (C18, C19), smart linking (C20) and
    patching (C10). *)
From Coq Require Import ZArith List Bool.
From Verif Require Import Base AssignModel LinkExprModel LinkModel.
Import ListNotations.
Open Scope Z_scope.

(** ** Resolution *)

(** [x] of section [d] is the first symbol satisfying [f] of the sections
    satisfying [ok], in program order. *)
Definition first_symbol (ok : lsect -> Prop) (f : lsym -> Prop) (p : program) (d : lsect) (x : lsym) : Prop :=
  exists p1 p2 ys1 ys2,
    p = p1 ++ d :: p2 /\ sc_symbols d = ys1 ++ x :: ys2 /\ ok d /\ f x /\
    (forall x', In x' ys1 -> ~ f x') /\
    (forall d' x', In d' p1 -> ok d' -> In x' (sc_symbols d') -> ~ f x').

(** The symbol that defines symbol [y] of section [s]: itself, or the export an
    import refers to.  Imports see exports of sections in use and of constants;
    file-local imports see exports of sections in use of the same file. *)
Inductive defines (p : program) (s : lsect) (y : lsym) : lsect -> lsym -> Prop :=
| def_own : ls_type y = SYM_EXPORT \/ ls_type y = SYM_LOCAL \/ ls_type y = SYM_LOCALEXPORT ->
    defines p s y s y
| def_import : forall d x, ls_type y = SYM_IMPORT ->
    first_symbol (fun d => sc_used d = true \/ s_group (sc_place d) = None)
      (fun x => ls_type x = SYM_EXPORT /\ ls_name x = ls_name y) p d x ->
    defines p s y d x
| def_localimport : forall d x, ls_type y = SYM_LOCALIMPORT ->
    first_symbol (fun d => sc_used d = true /\ sc_fileId d = sc_fileId s)
      (fun x => (ls_type x = SYM_LOCALEXPORT \/ ls_type x = SYM_EXPORT) /\ ls_name x = ls_name y) p d x ->
    defines p s y d x.

(** The address of a symbol defined in a section: its offset plus the address of
    the section when it has one. *)
Definition address (d : lsect) (x : lsym) : Z :=
  if s_cpuLocation (sc_place d) =? -1 then ls_value x else ls_value x + s_cpuLocation (sc_place d).

(** A program as read: nothing resolved, no linker-defined symbols.  A symbol is not yet
    attached to a section, or, when read from an ELF object, to the one it is listed in. *)
Definition fresh (p : program) : Prop :=
  forall s y, In s p -> In y (sc_symbols s) ->
    ls_resolved y = false /\ (ls_section y = None \/ ls_section y = Some (sc_id s) /\ s_group (sc_place s) <> None) /\
    ls_type y <> SYM_LINKER.

(** The programs that requests for symbols, in any order and number, lead to. *)
Inductive resolving (lv : program -> list Z -> res (Z * option Z)) (p0 : program) : program -> Prop :=
| resolving_none : resolving lv p0 p0
| resolving_more : forall p i j allowImports p', resolving lv p0 p ->
    getSymbol lv p i j allowImports = Ok p' -> resolving lv p0 p'.

(** What an expression sees of a symbol defined by [x] of section [d]: its
    address, its section, and whether the address is final. *)
Definition seen (y x : lsym) (d : lsect) : symview :=
  SymView (address d x) (Some (Z.to_nat (s_id (sc_place d))))
    (negb (s_cpuLocation (sc_place d) =? -1) || match s_group (sc_place d) with None => true | Some _ => false end)
    (isLocal y).

(** Symbols of a program by position. *)
Definition symbol_at (p : program) (i j : nat) (s : lsect) (y : lsym) : Prop :=
  nth_error p i = Some s /\ nth_error (sc_symbols s) j = Some y.

(** The symbols named by the byte code of an expression: operands of the symbol
    and the bank instruction. *)
Inductive mentions : list Z -> Z -> Prop :=
| mentions_here : forall b b0 b1 b2 b3 r, b = 31 \/ b = 33 ->
    mentions (b :: b0 :: b1 :: b2 :: b3 :: r) (word b0 b1 b2 b3)
| mentions_operand : forall b b0 b1 b2 b3 r id, b = 30 \/ b = 31 \/ b = 33 -> mentions r id ->
    mentions (b :: b0 :: b1 :: b2 :: b3 :: r) id
| mentions_later : forall b r id, b <> 30 -> b <> 31 -> b <> 33 -> mentions r id -> mentions (b :: r) id.

(** ** Smart linking *)

(** Section [k] is the first that satisfies [f]. *)
Definition first_section (f : lsect -> Prop) (p : program) (k : nat) (d : lsect) : Prop :=
  nth_error p k = Some d /\ f d /\ forall k' d', (k' < k)%nat -> nth_error p k' = Some d' -> ~ f d'.
Definition has_symbol (type : Z) (name : list Z) (d : lsect) : Prop :=
  exists x, In x (sc_symbols d) /\ ls_type x = type /\ ls_name x = name.
(** The first symbol of that type and name in a section. *)
Definition named (type : Z) (name : list Z) (d : lsect) (x : lsym) : Prop :=
  exists ys1 ys2, sc_symbols d = ys1 ++ x :: ys2 /\ ls_type x = type /\ ls_name x = name /\
    forall x', In x' ys1 -> ~ (ls_type x' = type /\ ls_name x' = name).
(** The section covers the address. *)
Definition covers (v fileId : Z) (d : lsect) : Prop :=
  sc_fileId d = fileId /\ s_cpuLocation (sc_place d) <= v /\
  v < s32 (s_cpuLocation (sc_place d) + s_size (sc_place d)).

(** A symbol of section [d], number [m], leads to [d] itself or, for a constant
    (in a section without group), to the section of its file that covers it. *)
Inductive home (p : program) (m : nat) (d : lsect) (x : lsym) : nat -> Prop :=
| home_section : s_group (sc_place d) <> None -> home p m d x m
| home_constant : forall k t, s_group (sc_place d) = None ->
    first_section (covers (ls_value x) (sc_fileId d)) p k t -> home p m d x k.

(** The section that a global name leads to. *)
Definition exporter (p : program) (name : list Z) (k : nat) : Prop :=
  exists m d x, first_section (has_symbol SYM_EXPORT name) p m d /\ named SYM_EXPORT name d x /\ home p m d x k.
(** The section that a name used in file [fileId] leads to: a file-local export of
    that file, or else a global one. *)
Definition local_exporter (p : program) (name : list Z) (fileId : Z) (k : nat) : Prop :=
  (exists m d x, first_section (fun d => sc_fileId d = fileId /\ has_symbol SYM_LOCALEXPORT name d) p m d /\
     named SYM_LOCALEXPORT name d x /\ home p m d x k) \/
  ((forall d, In d p -> sc_fileId d = fileId -> ~ has_symbol SYM_LOCALEXPORT name d) /\ exporter p name k).

(** Section [i] refers to section [k]. *)
Definition refers (p : program) (i k : nat) : Prop :=
  exists s y, nth_error p i = Some s /\ In y (sc_symbols s) /\
    ((ls_type y = SYM_IMPORT /\ exporter p (ls_name y) k) \/
     (ls_type y = SYM_LOCALIMPORT /\ local_exporter p (ls_name y) (sc_fileId s) k)).
Inductive reachable (p : program) (i : nat) : nat -> Prop :=
| reach_here : reachable p i i
| reach_next : forall j k, reachable p i j -> refers p j k -> reachable p i k.
(** Section [i] imports a name that no section exports. *)
Definition dangling (p : program) (i : nat) : Prop :=
  exists s y, nth_error p i = Some s /\ In y (sc_symbols s) /\ ls_type y = SYM_IMPORT /\
    forall k, ~ exporter p (ls_name y) k.
(** What is to be linked: what the entry symbol and the sections marked as root
    lead to. *)
Definition needed (p : program) (entry : list Z) (k : nat) : Prop :=
  (exists e, exporter p entry e /\ reachable p e k) \/
  (exists r s, nth_error p r = Some s /\ sc_root s = true /\ reachable p r k).

(** ** Patches *)
Definition width (type : Z) : Z :=
  match type with 0 => 1 | 1 | 2 => 2 | 3 | 4 => 4 | _ => 0 end.
(** The value fits the patch as a signed or as an unsigned number. *)
Definition fits (type v : Z) : Prop :=
  match type with
  | 0 => -128 <= v <= 255
  | 1 | 2 => -32768 <= v <= 65535
  | _ => True
  end.
(** The [n] low bytes of a value, least significant first. *)
Fixpoint low_bytes (n : nat) (v : Z) : list Z :=
  match n with O => [] | S k => v mod 256 :: low_bytes k (v / 256) end.
Definition encoding (type v : Z) : list Z :=
  match type with
  | 0 => low_bytes 1 v
  | 1 => low_bytes 2 v
  | 2 => rev (low_bytes 2 v)
  | 3 => low_bytes 4 v
  | 4 => rev (low_bytes 4 v)
  | _ => []
  end.
(** [data] with the bytes [bs] at [off]. *)
Definition replaced (data : list Z) (off : Z) (bs : list Z) : list Z :=
  firstn (Z.to_nat off) data ++ bs ++ skipn (Z.to_nat off + length bs) data.
(** [n] bytes of [data] from [off] on. *)
Definition slice (data : list Z) (off n : Z) : list Z := firstn (Z.to_nat n) (skipn (Z.to_nat off) data).

(** The number a patch stores: the value, to which a format with relocations adds
    the address of the symbol it is relative to when the relocation is against
    the symbol's section. *)
Definition stored (sectionRelative : bool) (e : entry) : Z :=
  match en_symbol e with
  | None => en_value e
  | Some y => if sectionRelative || v_local y then en_value e + v_value y else en_value e
  end.
Definition covered (q : lpatch) (k : Z) : Prop := pt_offset q <= k < pt_offset q + width (pt_type q).
Definition inside (data : list Z) (q : lpatch) : Prop :=
  0 <= pt_type q <= 4 /\ 0 <= pt_offset q /\ pt_offset q + width (pt_type q) <= zlen data.
Definition disjoint (q r : lpatch) : Prop := forall k, ~ (covered q k /\ covered r k).
