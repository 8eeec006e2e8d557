(** What Amiga hunk files mean (AmigaDOS manual, "Amiga binary file structure"),
    independent of the model. *)
From Coq Require Import ZArith List Bool Permutation.
From Verif Require Import Base AssignModel LinkModel LinkSpec.
Import ListNotations.
Open Scope Z_scope.

(** A loaded hunk, before relocation: code, data or bss, whether it must be in chip
    memory, its size in longwords, its contents and its relocations: the hunk whose
    address is added and the offset of the longword it is added to. *)
Inductive kind : Type := Code | Data | Bss.
Record hunk : Type := Hunk {
  h_kind : kind; h_chip : bool; h_longs : Z; h_data : list Z; h_relocs : list (Z * Z) }.

(** A big endian longword. *)
Definition get_long : reader Z := fun s =>
  match s with
  | a :: b :: c :: d :: r => Some (a * 16777216 + b * 65536 + c * 256 + d, r)
  | _ => None
  end.
Fixpoint get_longs (n : nat) : reader (list Z) := fun s =>
  match n with
  | O => Some ([], s)
  | S n' => let? (v, s1) := get_long s in let? (vs, s2) := get_longs n' s1 in Some (v :: vs, s2)
  end.
Definition get_bytes (n : nat) : reader (list Z) := fun s =>
  if Nat.leb n (length s) then Some (firstn n s, skipn n s) else None.
(** The blocks of HUNK_RELOC32: a count, a hunk and that many offsets; a zero count ends
    them.  There are no more blocks than bytes. *)
Fixpoint get_relocs (fuel : nat) : reader (list (Z * Z)) := fun s =>
  match fuel with
  | O => None
  | S fuel' =>
      let? (n, s1) := get_long s in
      if n =? 0 then Some ([], s1)
      else
        let? (t, s2) := get_long s1 in
        let? (os, s3) := get_longs (Z.to_nat n) s2 in
        let? (rs, s4) := get_relocs fuel' s3 in
        Some (map (fun o => (t, o)) os ++ rs, s4)
  end.
(** What may follow the contents: HUNK_RELOC32 (1004), then HUNK_END (1010). *)
Definition get_end : reader (list (Z * Z)) := fun s =>
  let? (w, s1) := get_long s in
  if w =? 1010 then Some ([], s1)
  else if w =? 1004 then
    let? (rs, s2) := get_relocs (length s1) s1 in
    let? (e, s3) := get_long s2 in
    if e =? 1010 then Some (rs, s3) else None
  else None.
(** HUNK_CODE (1001), HUNK_DATA (1002), HUNK_BSS (1003). *)
Definition kind_of (w : Z) : option kind :=
  if w =? 1001 then Some Code else if w =? 1002 then Some Data else if w =? 1003 then Some Bss else None.
(** One hunk; [size] is its entry in the header: bit 30 asks for chip memory. *)
Definition get_hunk (size : Z) : reader hunk := fun s =>
  let? (w, s1) := get_long s in
  let? k := kind_of w in
  let? (n, s2) := get_long s1 in
  if n =? size mod 2 ^ 30 then
    let? (d, s3) := match k with Bss => Some ([], s2) | _ => get_bytes (Z.to_nat (4 * n)) s2 end in
    let? (rs, s4) := get_end s3 in
    Some (Hunk k (Z.testbit size 30) n d rs, s4)
  else None.
Fixpoint get_hunks (sizes : list Z) : reader (list hunk) := fun s =>
  match sizes with
  | [] => Some ([], s)
  | z :: r => let? (h, s1) := get_hunk z s in let? (hs, s2) := get_hunks r s1 in Some (h :: hs, s2)
  end.
(** An executable: HUNK_HEADER (1011), no resident libraries, the size of the hunk table,
    the first and last hunk, their sizes and the hunks. *)
Definition hunk_load (d : list Z) : option (list hunk) :=
  let? (w, s1) := get_long d in
  let? (names, s2) := get_long s1 in
  let? (n, s3) := get_long s2 in
  let? (first, s4) := get_long s3 in
  let? (last, s5) := get_long s4 in
  if (w =? 1011) && (names =? 0) && (first =? 0) && (last =? (n - 1) mod 2 ^ 32) then
    let? (sizes, s6) := get_longs (Z.to_nat n) s5 in
    let? (hs, rest) := get_hunks sizes s6 in
    match rest with [] => Some hs | _ => None end
  else None.

(** The longword at [o], and the bytes with the longword at [o] replaced. *)
Definition long_at (d : list Z) (o : Z) : Z :=
  let b k := nth (Z.to_nat (o + k)) d 0 in b 0 * 16777216 + b 1 * 65536 + b 2 * 256 + b 3.
Definition put_long (d : list Z) (o v : Z) : list Z :=
  firstn (Z.to_nat o) d ++ be32 (v mod 2 ^ 32) ++ skipn (Z.to_nat (o + 4)) d.
(** The contents of a hunk in memory when hunk t is loaded at [start t]. *)
Definition relocate (start : Z -> Z) (h : hunk) : list Z :=
  fold_left (fun d r => put_long d (snd r) (long_at d (snd r) + start (fst r))) (h_relocs h) (h_data h).

(** ** What is expected of a program *)
(** The sections of the file, in order: hunk number t is the t'th. *)
Definition hunks_of (p : program) : list lsect := filter (fun s => s_used (sc_place s) && match s_group (sc_place s) with Some _ => true | None => false end) p.
Definition hunk_number (p : program) (id t : Z) : Prop :=
  0 <= t /\ exists s, nth_error (hunks_of p) (Z.to_nat t) = Some s /\ s_id (sc_place s) = id.
Definition kind_for (g : ogroup) : kind :=
  if og_type g =? 0 then if Z.testbit (og_flags g) 30 then Data else Code else Bss.
(** The relocated patches of a section and the sections of their values. *)
Definition relocations (s : lsect) : list (Z * Z) :=
  concat (map (fun q => match pt_section q with Some k => if pt_type q =? 6 then [(k, pt_offset q)] else [] | None => [] end) (sc_patches s)).
(** The hunk of section [s]. *)
Record hunk_for (p : program) (s : lsect) (h : hunk) : Prop := {
  hf_kind : exists g, s_group (sc_place s) = Some g /\ h_kind h = kind_for g /\ h_chip h = Z.testbit (og_flags g) 29;
  hf_size : 4 * h_longs h - 4 < s_size (sc_place s) <= 4 * h_longs h;
  hf_data : h_kind h <> Bss -> exists d n, sc_data s = Some d /\ h_data h = d ++ repeat 0 n /\ zlen (h_data h) = 4 * h_longs h;
  hf_bss : h_kind h = Bss -> h_data h = [] /\ h_relocs h = [];
  hf_relocs : h_kind h <> Bss -> exists rs, Permutation rs (h_relocs h) /\
    Forall2 (fun a r => snd a = snd r /\ hunk_number p (fst a) (fst r)) (relocations s) rs }.

(** A program fit for a hunk file: sections have distinct ids, sizes and data agree,
    and relocated patches refer to sections in the file. *)
Record hunk_program (p : program) : Prop := {
  hp_ids : NoDup (map (fun s => s_id (sc_place s)) p);
  hp_count : zlen p < 2 ^ 32;
  hp_size : Forall (fun s => 0 <= s_size (sc_place s) < 2 ^ 31 /\ (forall d, sc_data s = Some d -> zlen d = s_size (sc_place s))) p;
  hp_text : Forall (fun s => forall g, s_group (sc_place s) = Some g -> 0 <= og_flags g /\
      (og_type g = 0 -> sc_data s <> None)) p;
  hp_patches : Forall (fun s => zlen (sc_patches s) < 2 ^ 32) p;
  hp_relocs : forall s k o, In s p -> In (k, o) (relocations s) -> is_u32 o /\ exists t, hunk_number p k t }.
