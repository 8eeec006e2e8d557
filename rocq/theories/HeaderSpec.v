(** Specification of ROM headers (C23, C24, C25, C48), from the platforms'
    documentation.  Offsets are in the file. *)
From Coq Require Import ZArith List Bool.
From Verif Require Import Base.
Import ListNotations.
Open Scope Z_scope.

Definition bytes_at (d : list Z) (p n : Z) : list Z := firstn (Z.to_nat n) (skipn (Z.to_nat p) d).
Definition byte_at (d : list Z) (p : Z) : Z := nth (Z.to_nat p) d 0.

(** ** Game Boy *)
(** The logo the boot ROM compares with: $CE $ED $66 $66 ... *)
Definition gb_logo : list Z :=
  [206; 237; 102; 102; 204; 13; 0; 11; 3; 115; 0; 131; 0; 12; 0; 13;
   0; 8; 17; 31; 136; 137; 0; 14; 220; 204; 110; 230; 221; 221; 217; 153;
   187; 187; 103; 99; 110; 14; 236; 204; 221; 220; 153; 159; 187; 185; 51; 62].
(** x = 0; for each byte from $134 to $14C: x = x - byte - 1 *)
Definition gb_header_checksum (d : list Z) : Z :=
  fold_left (fun x b => (x - b - 1) mod 256) (bytes_at d 308 25) 0.
(** Sum of all bytes except the two of the checksum itself. *)
Definition gb_global_checksum (d : list Z) : Z :=
  (sum d - byte_at d 334 - byte_at d 335) mod 65536.
(** ROM sizes are 32 KiB * 2^code. *)
Definition gb_size_code (code n : Z) : Prop :=
  0 <= code /\ n <= 32768 * 2 ^ code /\ forall c, 0 <= c -> n <= 32768 * 2 ^ c -> code <= c.
Record gb_valid (d : list Z) : Prop := {
  gb_v_logo : bytes_at d 260 48 = gb_logo;
  gb_v_header : byte_at d 333 = gb_header_checksum d;
  gb_v_global : byte_at d 334 * 256 + byte_at d 335 = gb_global_checksum d;
  gb_v_size : gb_size_code (byte_at d 328) (zlen d);
  gb_v_type : 32768 < zlen d -> byte_at d 327 <> 0 }.

(** ** Mega Drive *)
Fixpoint be_words (d : list Z) : list Z :=
  match d with a :: b :: r => (a * 256 + b) :: be_words r | _ => [] end.
Definition be_value (l : list Z) : Z := fold_left (fun v b => v * 256 + b) l 0.
Record md_valid (d : list Z) : Prop := {
  md_checksum : be_value (bytes_at d 398 2) = sum (be_words (skipn 512 d)) mod 65536;
  md_end : be_value (bytes_at d 420 4) = zlen d - 1 }.

(** ** Master System: the header is the last 16 bytes before $2000, $4000 or
    $8000. *)
Definition le_value (l : list Z) : Z := fold_right (fun b v => b + 256 * v) 0 l.
Definition sms_size_codes : list (Z * Z) :=
  [(10, 8192); (11, 16384); (12, 32768); (13, 49152); (14, 65536); (15, 131072); (0, 262144); (1, 524288); (2, 1048576)].
Record sms_valid (d : list Z) (h : Z) : Prop := {
  sms_tmr : bytes_at d h 8 = [84; 77; 82; 32; 83; 69; 71; 65];
  sms_checksum : le_value (bytes_at d (h + 10) 2) = (sum (bytes_at d 0 h) + sum (skipn (Z.to_nat (h + 16)) d)) mod 65536;
  sms_size : In (byte_at d (h + 15) mod 16, zlen d) sms_size_codes }.

(** Bytes outside the listed fields keep their values. *)
Definition same_outside (fields : list (Z * Z)) (a b : list Z) : Prop :=
  zlen a = zlen b /\
  forall k, 0 <= k -> (forall p n, In (p, n) fields -> ~ (p <= k < p + n)) -> byte_at a k = byte_at b k.
