(** Specification of executable file formats (C26, C27, C28, C49, C50): what the
    machines' loaders do with a file. *)
From Coq Require Import ZArith List Bool.
From Verif Require Import Base AssignModel LinkModel.
Import ListNotations.
Open Scope Z_scope.

(** ** Memory *)
Definition memory : Type := Z -> Z.
Definition upd (m : memory) (a b : Z) : memory := fun x => if x =? a then b else m x.
Fixpoint poke (m : memory) (a : Z) (bs : list Z) : memory :=
  match bs with [] => m | b :: r => poke (upd m a b) (a + 1) r end.

(** Sections with an address, used and with contents. *)
Definition contents (s : lsect) : option (Z * list Z) :=
  match sc_data s with
  | Some d => if s_used (sc_place s) then Some (s_cpuByteLocation (sc_place s), d) else None
  | None => None
  end.
Definition loads (s : lsect) (a : Z) (d : list Z) : Prop := contents s = Some (a, d).
(** The memory [m] has all sections of [ss] at their addresses ([memory_has]), and
    is otherwise the same as [m0] ([memory_holds]). *)
Definition memory_holds (m0 m : memory) (ss : program) : Prop :=
  (forall s a d, In s ss -> loads s a d -> forall k, 0 <= k < zlen d -> m (a + k) = nth (Z.to_nat k) d 0) /\
  (forall x, (forall s a d, In s ss -> loads s a d -> ~ (a <= x < a + zlen d)) -> m x = m0 x).
Definition memory_has (m : memory) (ss : program) : Prop :=
  forall s a d, In s ss -> loads s a d -> forall k, 0 <= k < zlen d -> m (a + k) = nth (Z.to_nat k) d 0.
(** No two sections share an address. *)
Definition memory_disjoint (ss : program) : Prop :=
  ForallOrdPairs (fun s t => forall a d b e x, loads s a d -> loads t b e ->
    a <= x < a + zlen d -> b <= x < b + zlen e -> False) ss.
(** Addresses and sizes below [limit], data of the section's size. *)
Definition addresses_below (limit : Z) (s : lsect) : Prop :=
  forall a d, loads s a d -> 0 <= a < limit /\ zlen d = s_size (sc_place s) /\ zlen d < limit /\ bytes d.

(** ** Tandy Color Computer .BIN: records (type, size, address, data), big endian;
    type 0 is data, type $FF ends the file with the start address. *)
Fixpoint coco_records (fuel : nat) (d : list Z) (m : memory) : option (memory * Z) :=
  match fuel, d with
  | S k, t :: s1 :: s0 :: a1 :: a0 :: r =>
      if t =? 0 then
        match take (Z.to_nat (s1 * 256 + s0)) r with
        | Some (bs, r') => coco_records k r' (poke m (a1 * 256 + a0) bs)
        | None => None
        end
      else if t =? 255 then Some (m, a1 * 256 + a0) else None
  | _, _ => None
  end.
Definition coco_load (d : list Z) (m : memory) : option (memory * Z) := coco_records (length d) d m.

(** ** Foenix PGZ with 32 bit fields: 'z', then blocks (address, size, data),
    little endian; a block of size 0 ends the file, its address is the start
    address. *)
Fixpoint pgz_blocks (fuel : nat) (d : list Z) (m : memory) : option (memory * Z) :=
  match fuel with
  | O => None
  | S k =>
      match get32 d with
      | None => None
      | Some (a, d1) =>
          match get32 d1 with
          | None => None
          | Some (n, d2) =>
              if n =? 0 then Some (m, a)
              else match take (Z.to_nat n) d2 with
                   | Some (bs, r) => pgz_blocks k r (poke m a bs)
                   | None => None
                   end
          end
      end
  end.
Definition pgz_load (d : list Z) (m : memory) : option (memory * Z) :=
  match d with c :: r => if c =? 122 then pgz_blocks (length r) r m else None | [] => None end.

(** ** Commodore .PRG: a little endian load address, then the memory contents. *)
Definition prg_load (d : list Z) (m : memory) : option memory :=
  match d with a0 :: a1 :: r => Some (poke m (a0 + 256 * a1) r) | _ => None end.
(** A BASIC program in memory: lines of a link to the next line, a line number,
    tokens and a 0; the last link is 0.  [SYS] is token $9E, followed by a decimal
    number. *)
Fixpoint decimal_value (fuel : nat) (m : memory) (a v : Z) : option (Z * Z) :=
  match fuel with
  | O => None
  | S k => if (48 <=? m a) && (m a <=? 57) then decimal_value k m (a + 1) (v * 10 + (m a - 48)) else Some (v, a)
  end.
(** One line at [a] with statements [prefix] and SYS of a number, and nothing after
    it. *)
Definition basic_runs (m : memory) (a : Z) (prefix : list Z) (start : Z) : Prop :=
  exists e next,
    (forall k, 0 <= k < zlen prefix -> m (a + 4 + k) = nth (Z.to_nat k) prefix 0) /\
    m (a + 4 + zlen prefix) = 158 /\
    decimal_value 6 m (a + 4 + zlen prefix + 1) 0 = Some (start, e) /\ m e = 0 /\
    m a + 256 * m (a + 1) = next /\ e < next /\ (forall x, e <= x < next -> m x = 0) /\
    m next = 0 /\ m (next + 1) = 0.

(** ** Memory maps for loaded programs *)
(** Every address belongs to at most one pool, and pools end before [limit]. *)
Definition cpu_config_ok (limit : Z) (cf : config) : Prop :=
  Forall (fun p => p_loc p + p_size p < limit) (cf_pools cf) /\
  forall i j p q x, i <> j -> nth_error (cf_pools cf) i = Some p -> nth_error (cf_pools cf) j = Some q ->
    p_loc p <= x < p_loc p + p_size p -> p_loc q <= x < p_loc q + p_size q -> False.
(** Sections with contents belong to a group and have as many bytes as their size says. *)
Definition data_ok (s : lsect) : Prop :=
  forall d, sc_data s = Some d -> s_group (sc_place s) <> None /\ zlen d = s_size (sc_place s) /\ bytes d.
(** Sections in memory from [base] on are in the main image, in the same order. *)
Definition image_from (base : Z) (s : lsect) : Prop :=
  forall a d, loads s a d ->
    s_used (sc_place s) = true /\ s_assigned (sc_place s) = true /\ s_overlay (sc_place s) = 4294967295 /\
    (exists g, s_group (sc_place s) = Some g /\ og_type g <> GROUP_BSS) /\
    base <= a /\ s_imageLocation (sc_place s) = a - base.
(** A memory map in which the groups of sections with contents are in the main
    image, which starts at [base]. *)
Definition image_map (base : Z) (cf : config) (ss : program) : Prop :=
  forall s g, In s ss -> sc_data s <> None -> s_group (sc_place s) = Some g ->
    og_type g <> GROUP_BSS /\
    forall G k p, In G (cf_groups cf) -> g_name G = og_name g -> In k (g_pools G) -> nth_error (cf_pools cf) k = Some p ->
      base <= p_loc p /\ p_image p = p_loc p - base /\ p_overlay p = 4294967295.

(** ** F256 kernel user program: $F2 $56, number of 8 KiB slots, first slot, start
    address, 4 reserved bytes; the file itself is what is in the slots. *)
Definition kup_load (d : list Z) (m : memory) : option (memory * Z * Z * Z) :=
  match d with
  | 242 :: 86 :: n :: slot :: l :: h :: _ => Some (poke m (slot * 8192) d, n, slot, l + 256 * h)
  | _ => None
  end.

(** ** HC800 executable: "UC", then hunks of a type, a 16 bit size and data.  Type 0
    has the nine MMU registers, type 2 a bank number and the contents of the bank,
    type 1 is the end. *)
Fixpoint hc800_hunks (fuel : nat) (d : list Z) : option (list (Z * list Z)) :=
  match fuel, d with
  | S k, t :: l :: h :: r =>
      match take (Z.to_nat (l + 256 * h)) r with
      | None => None
      | Some (bs, r') =>
          if t =? 1 then match bs, r' with [], [] => Some [] | _, _ => None end
          else match hc800_hunks k r' with Some hs => Some ((t, bs) :: hs) | None => None end
      end
  | _, _ => None
  end.
(** The MMU registers and the banks. *)
Fixpoint hc800_banks (hs : list (Z * list Z)) : option (list (Z * list Z)) :=
  match hs with
  | [] => Some []
  | (t, bs) :: r =>
      if t =? 2 then
        match bs, hc800_banks r with
        | b :: d, Some l => Some ((b, d) :: l)
        | _, _ => None
        end
      else None
  end.
Definition hc800_load (d : list Z) : option (list Z * list (Z * list Z)) :=
  match d with
  | 85 :: 67 :: r =>
      match hc800_hunks (length r) r with
      | Some ((t, mmu) :: hs) =>
          if (t =? 0) && (zlen mmu =? 9) then
            match hc800_banks hs with Some l => Some (mmu, l) | None => None end
          else None
      | _ => None
      end
  | _ => None
  end.

(** [d] is [d0] with [ws] written to it and [fill] in the gaps. *)
Record painted (fill : Z) (d0 : list Z) (ws : list (Z * list Z)) (d : list Z) : Prop := {
  pt_write : forall a bs, In (a, bs) ws -> a + zlen bs <= zlen d /\ forall k, 0 <= k < zlen bs -> nth (Z.to_nat (a + k)) d 0 = nth (Z.to_nat k) bs 0;
  pt_rest : forall x, 0 <= x < zlen d -> (forall a bs, In (a, bs) ws -> ~ (a <= x < a + zlen bs)) ->
    nth (Z.to_nat x) d 0 = if x <? zlen d0 then nth (Z.to_nat x) d0 0 else fill;
  pt_size : zlen d = zlen d0 \/ exists a bs, In (a, bs) ws /\ a + zlen bs = zlen d }.

(** Programs for the F256: used code has contents and byte addresses below 64 KiB, and
    sections are in the order of their addresses. *)
Definition f256_program (p : program) : Prop :=
  Forall (fun s => s_used (sc_place s) = true -> (exists g, s_group (sc_place s) = Some g /\ og_type g = GROUP_TEXT) ->
    exists d, sc_data s = Some d /\ zlen d = s_size (sc_place s) /\ d <> [] /\ s_cpuLocation (sc_place s) = s_cpuByteLocation (sc_place s) /\
      0 <= s_cpuByteLocation (sc_place s) /\ s_cpuByteLocation (sc_place s) + zlen d <= 65536) p /\
  Forall (fun s => sc_data s <> None -> exists g, s_group (sc_place s) = Some g /\ og_type g = GROUP_TEXT) p /\
  ForallOrdPairs (fun s t => forall a d b e, loads s a d -> loads t b e -> a <= b) p.

(** The contents of a bank: offsets and data of its sections. *)
Fixpoint bank_sections (b : Z) (p : program) : list (Z * list Z) :=
  match p with
  | [] => []
  | s :: r =>
      match sc_data s with
      | Some d => if s_cpuBank (sc_place s) =? b then (s_imageLocation (sc_place s), d) :: bank_sections b r else bank_sections b r
      | None => bank_sections b r
      end
  end.
(** Programs for the HC800: in banks $81 to $FF all sections belong to groups, have
    contents unless they are BSS, and have their own part of the bank; banks are in
    order. *)
Definition hc800_program (p : program) : Prop :=
  Forall (fun s => 129 <= s_cpuBank (sc_place s) <= 255 -> exists g, s_group (sc_place s) = Some g /\
    (og_type g = GROUP_BSS -> sc_data s = None) /\
    (og_type g <> GROUP_BSS -> exists d, sc_data s = Some d /\ zlen d = s_size (sc_place s) /\
       0 <= s_imageLocation (sc_place s) /\ s_imageLocation (sc_place s) + s_size (sc_place s) < 65535)) p /\
  ForallOrdPairs (fun s t => 129 <= s_cpuBank (sc_place s) -> s_cpuBank (sc_place s) <= s_cpuBank (sc_place t)) p /\
  ForallOrdPairs (fun s t => forall d e x, sc_data s = Some d -> sc_data t = Some e -> s_cpuBank (sc_place s) = s_cpuBank (sc_place t) ->
    s_imageLocation (sc_place s) <= x < s_imageLocation (sc_place s) + zlen d ->
    s_imageLocation (sc_place t) <= x < s_imageLocation (sc_place t) + zlen e -> False) p.

(** ** Where a program starts: at the exported entry symbol, or at the first used code
    section. *)
Definition exported (p : program) (name : list Z) (y : lsym) : Prop :=
  exists s, In s p /\ In y (sc_symbols s) /\ ls_name y = name /\ (ls_type y = SYM_EXPORT \/ ls_type y = SYM_LINKER).
Definition code_section (s : lsect) : Prop :=
  s_used (sc_place s) = true /\ exists g, s_group (sc_place s) = Some g /\ og_type g = GROUP_TEXT.
Definition starts_at (p : program) (entry : option (list Z)) (start : Z) : Prop :=
  match entry with
  | Some name => (exists y, exported p name y) /\ forall y, exported p name y -> ls_value y = start
  | None => exists before s after, p = before ++ s :: after /\ code_section s /\ s_cpuLocation (sc_place s) = start /\
      forall t, In t before -> ~ code_section t
  end.
