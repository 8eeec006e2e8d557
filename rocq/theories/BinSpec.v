(** Specification vocabulary for raw binary output by the assembler. *)
From Coq Require Import ZArith List Bool.
From Verif Require Import Base Arith ExprModel ObjWriteModel SectModel BinModel.
Import ListNotations.
Open Scope Z_scope.

(** How far apart the banks of a machine are in the image, and what they add to the
    address. *)
Definition bank_position (c : machine) (a : asect) : Z :=
  if a_bankfixed a then match c with MPlain => 0 | M6809 => 256 * a_bank a | MZ80 => 16384 * a_bank a end else 0.
Definition bank_origin (c : machine) (a : asect) : Z :=
  if a_bankfixed a then match c with MPlain => 0 | M6809 => 256 * a_bank a | MZ80 => if a_bank a =? 0 then 0 else 16384 end else 0.
Definition fixed_position (c : machine) (m : msect) : Z := m_position m + bank_position c (m_sect m).
(** Sections given an address; on machines with banks, also those given a bank. *)
Definition is_fixed (c : machine) (m : msect) : bool :=
  a_loadfixed (m_sect m) || (a_bankfixed (m_sect m) && match c with MPlain => false | _ => true end).
Definition alignment_of (align : Z) (m : msect) : Z := if a_aligned (m_sect m) then ws_align (m_w m) else align.

(** A section as the parser leaves it. *)
Definition good_section (align : Z) (m : msect) : Prop :=
  0 <= m_used m /\ (has_data m = true -> zlen (m_data m) = m_used m) /\
  0 <= m_position m /\ 0 <= a_cpuOrigin (m_sect m) /\ 0 <= a_bank (m_sect m) /\
  0 < alignment_of align m /\ (a_paged (m_sect m) = true -> 0 < ws_page (m_w m)) /\ 0 <= ws_page (m_w m).
(** Fixed sections end below [limit], and the other ones fit behind it even with
    the largest gaps. *)
Definition room (align : Z) (l : list msect) : Z :=
  fold_right (fun m s => m_used m + alignment_of align m + ws_page (m_w m) + s) 0 l.
Definition fits (c : machine) (align : Z) (l : list msect) : Prop :=
  exists limit, 0 <= limit /\ limit + room align l < 2 ^ 32 /\
    forall m, In m l -> is_fixed c m = true -> fixed_position c m + m_used m <= limit /\
      a_cpuOrigin (m_sect m) + bank_origin c (m_sect m) < 2 ^ 32.

(** Where a section goes. *)
Definition placed_as (wordSize : Z) (c : machine) (align : Z) (m m' : msect) : Prop :=
  m_used m' = m_used m /\ m_alloc m' = m_alloc m /\ zlen (m_data m') = zlen (m_data m) /\
  (is_fixed c m = true ->
     m_position m' = fixed_position c m /\ a_cpuOrigin (m_sect m') = a_cpuOrigin (m_sect m) + bank_origin c (m_sect m)) /\
  (is_fixed c m = false ->
     a_cpuOrigin (m_sect m') = m_position m' / wordSize /\
     ((ws_page (m_w m) | alignment_of align m) \/ (alignment_of align m | ws_page (m_w m)) \/ a_paged (m_sect m) = false ->
       (alignment_of align m | m_position m')) /\
     (a_paged (m_sect m) = true ->
       m_position m' / ws_page (m_w m) = (m_position m' + Z.max 1 (m_used m) - 1) / ws_page (m_w m))).
(** In the order of the source, and without overlap. *)
Fixpoint ordered (pos : Z) (l : list msect) : Prop :=
  match l with [] => True | m :: r => pos <= m_position m /\ ordered (m_position m + m_used m) r end.

Definition byte (l : list Z) (i : Z) : Z := nth (Z.to_nat i) l 0.
(** The bytes of an image that begins at address [base] and holds [l]. *)
Definition covers_at (base i : Z) (m : msect) : Prop :=
  has_data m = true /\ m_position m - base <= i < m_position m - base + m_used m.
Definition image_of (base : Z) (l : list msect) (out : list Z) : Prop :=
  (forall m i, In m l -> has_data m = true -> 0 <= i < m_used m ->
     0 <= m_position m - base + i < zlen out /\ byte out (m_position m - base + i) = byte (m_data m) i) /\
  (forall i, 0 <= i < zlen out -> (forall m, In m l -> ~ covers_at base i m) -> byte out i = 0) /\
  (forall m, In m l -> has_data m = true -> m_position m - base + m_used m <= zlen out) /\
  (zlen out = 0 \/ exists m, In m l /\ has_data m = true /\ zlen out = m_position m - base + m_used m).

(** The value of a hexadecimal digit, and what a Verilog file of two digits to the
    line means. *)
Definition digit_value (c : Z) : option Z :=
  if (48 <=? c) && (c <=? 57) then Some (c - 48) else if (65 <=? c) && (c <=? 70) then Some (c - 55) else None.
Fixpoint readmemh (d : list Z) : option (list Z) :=
  match d with
  | [] => Some []
  | h :: l :: nl :: r =>
      let? x := digit_value h in let? y := digit_value l in let? t := readmemh r in
      if nl =? 10 then Some (16 * x + y :: t) else None
  | _ => None
  end.

(** The numbers in a file: one byte, two or four of them with the least or the most
    significant first. *)
Definition width (type : Z) : Z := if type =? 0 then 1 else if (type =? 1) || (type =? 2) then 2 else 4.
Definition fetch (type : Z) (d : list Z) (i : Z) : Z :=
  let b := byte d in
  if type =? 0 then b i
  else if type =? 1 then b i + 256 * b (i + 1)
  else if type =? 2 then b (i + 1) + 256 * b i
  else if type =? 3 then b i + 256 * (b (i + 1) + 256 * (b (i + 2) + 256 * b (i + 3)))
  else b (i + 3) + 256 * (b (i + 2) + 256 * (b (i + 1) + 256 * b i)).
Definition representable (type z : Z) : Prop :=
  if type =? 0 then -128 <= z <= 255 else if (type =? 1) || (type =? 2) then -32768 <= z <= 65535 else True.
Definition holds_number (d : list Z) (i type z : Z) : Prop :=
  representable type z /\ fetch type d i = z mod 2 ^ (8 * width type).
(** Where a patch goes; patches do not overlap. *)
Definition touches (p : apatch) (i : Z) : Prop := ap_offset p <= i < ap_offset p + width (ap_type p).
Definition patches_apart (ps : list apatch) : Prop :=
  Forall (fun p => 0 <= ap_offset p) ps /\
  ForallOrdPairs (fun p q => forall i, touches p i -> touches q i -> False) ps.
(** An expression that is a symbol, or a symbol plus a number. *)
Definition symbol_plus (e : expr) (r : nat) (c : Z) : Prop :=
  (exists v, e = ENode TSymbol false OpNone v r ENull ENull /\ c = 0) \/
  (exists v, e = ENode TOperation false OpAdd 0 0 (ENode TSymbol false OpNone v r ENull ENull) (expr_Const c)).

(** What the parser leaves for output. *)
Definition assembled (st : bstate) : Prop :=
  0 < b_wordSize st /\ Forall (good_section (b_align st)) (b_sections st) /\
  fits (b_machine st) (b_align st) (b_sections st) /\
  Forall (fun m => patches_apart (m_patches m)) (b_sections st).
