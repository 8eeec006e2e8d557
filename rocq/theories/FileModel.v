(** Files as the output writers use them: C's <stdio.h> and the helpers of the
    (absent) /repo/util/file.h.  Opening, closing, flushing and writing always
    succeed. *)
From Coq Require Import ZArith List Bool.
From Verif Require Import Base.
Import ListNotations.
Open Scope Z_scope.

Record file : Type := File { f_data : list Z; f_pos : Z }.
(** fopen with mode "w+b", and "r+b" of a file with content [d]. *)
Definition emptyFile : file := File [] 0.
Definition openFile (d : list Z) : file := File d 0.

(** Replace the bytes from [p] on.  A gap after the old end is filled with
    zeros, as POSIX has it. *)
Definition overwrite (d : list Z) (p : Z) (bs : list Z) : list Z :=
  match bs with
  | [] => d
  | _ => firstn (Z.to_nat p) (d ++ repeat 0 (Z.to_nat (p - zlen d))) ++ bs ++ skipn (Z.to_nat (p + zlen bs)) d
  end.
(** fwrite(bs, 1, n, f) *)
Definition fwrite (f : file) (bs : list Z) : file :=
  File (overwrite (f_data f) (f_pos f) bs) (f_pos f + zlen bs).
(** fseek(f, p, SEEK_SET), fseek(f, 0, SEEK_END), fseek(f, d, SEEK_CUR) *)
Definition fseek (f : file) (p : Z) : file := File (f_data f) p.
Definition fseek_end (f : file) : file := File (f_data f) (zlen (f_data f)).
Definition fseek_cur (f : file) (d : Z) : file := File (f_data f) (f_pos f + d).
Definition ftell (f : file) : Z := f_pos f.
(** fgetc: [None] is EOF. *)
Definition fgetc (f : file) : option Z * file :=
  match nth_error (f_data f) (Z.to_nat (f_pos f)) with
  | Some b => (Some b, File (f_data f) (f_pos f + 1))
  | None => (None, f)
  end.
(** util: fsize; every caller seeks before the next access. *)
Definition fsize (f : file) : Z := zlen (f_data f).
(** fputc, and util: fputlw, fputbw, fputll, fputbl (little and big endian words
    and longs), ffill. *)
Definition fputc (f : file) (c : Z) : file := fwrite f [u8 c].
Definition fputlw (f : file) (v : Z) : file := fwrite f (le16 (u16 v)).
Definition fputbw (f : file) (v : Z) : file := fwrite f (be16 (u16 v)).
Definition fputl_l (f : file) (v : Z) : file := fwrite f (le32 (u32 v)).
Definition fputbl (f : file) (v : Z) : file := fwrite f (be32 (u32 v)).
Definition ffill (f : file) (c n : Z) : file := fwrite f (repeat c (Z.to_nat n)).
