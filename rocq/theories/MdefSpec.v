(** Machine definition files as doc/LinkerMemoryLayoutFile.md describes them (for C43). *)
From Coq Require Import ZArith List Bool String Ascii.
From Verif Require Import Base Arith ExprSpec AssignModel.
Import ListNotations.
Open Scope Z_scope.

(** ** Text *)
Definition blank (c : Z) : Prop := c = 32 \/ c = 9.
(** The characters $ % + - * / ( ) [ ] : @ , . stand for themselves. *)
Definition punct (c : Z) : Prop := In c [36; 37; 43; 45; 42; 47; 40; 41; 91; 93; 58; 64; 44; 46].
Definition word_char (c : Z) : Prop := ~ blank c /\ ~ punct c /\ c <> 59 /\ c <> 10 /\ c <> 0.
Definition is_word (w : list Z) : Prop := w <> [] /\ Forall word_char w.

(** [spelled ts t]: the line [t] consists of the tokens [ts], with blanks around them
    and perhaps a comment at the end.  Two words need a blank between them. *)
Inductive spelled : list (list Z) -> list Z -> Prop :=
| sp_end : spelled [] []
| sp_comment : forall t, spelled [] (59 :: t)
| sp_blank : forall c ts t, blank c -> spelled ts t -> spelled ts (c :: t)
| sp_punct : forall c ts t, punct c -> spelled ts t -> spelled ([c] :: ts) (c :: t)
| sp_word : forall w ts t, is_word w -> match t with [] => True | c :: _ => ~ word_char c end ->
    spelled ts t -> spelled (w :: ts) (w ++ t).

(** ** Expressions *)
Inductive mexp : Type :=
| EDec (digits : list Z) | EHex (digits : list Z) | EBinary (digits : list Z)
| EAt                              (* the index of a pool in an array *)
| EParen (a : mexp) | ENeg (a : mexp) | EPlus (a : mexp)
| EBin (o : op) (a b : mexp).

Definition op_char (o : op) : Z :=
  match o with OpAdd => 43 | OpSub => 45 | OpMul => 42 | _ => 47 end.
Fixpoint mshow (e : mexp) : list (list Z) :=
  match e with
  | EDec ds => [ds]
  | EHex ds => [[36]; ds]
  | EBinary ds => [[37]; ds]
  | EAt => [[64]]
  | EParen a => [40] :: mshow a ++ [[41]]
  | ENeg a => [45] :: mshow a
  | EPlus a => [43] :: mshow a
  | EBin o a b => mshow a ++ [op_char o] :: mshow b
  end.
(** The precedences: + and - are 1, * and / are 2, signs and parentheses 3.  Operators of
    the same precedence group to the left. *)
Definition mlevel (o : op) : option nat :=
  match o with OpAdd | OpSub => Some 1%nat | OpMul | OpDiv => Some 2%nat | _ => None end.
Fixpoint mgrouped (l : nat) (e : mexp) : Prop :=
  match e with
  | EDec _ | EHex _ | EBinary _ | EAt => True
  | EParen a => mgrouped 1 a
  | ENeg a | EPlus a => mgrouped 3 a
  | EBin o a b =>
      match mlevel o with
      | Some p => (l <= p)%nat /\ mgrouped p a /\ mgrouped (S p) b
      | None => False
      end
  end.

Definition dec_digit (c : Z) : option Z := if (48 <=? c) && (c <=? 57) then Some (c - 48) else None.
Definition hex_digit (c : Z) : option Z :=
  if (48 <=? c) && (c <=? 57) then Some (c - 48)
  else if (65 <=? c) && (c <=? 70) then Some (c - 55)
  else if (97 <=? c) && (c <=? 102) then Some (c - 87) else None.
Definition bin_digit (c : Z) : option Z := if (48 <=? c) && (c <=? 49) then Some (c - 48) else None.
(** The number that digits stand for. *)
Fixpoint number_from (digit : Z -> option Z) (base v : Z) (ds : list Z) : option Z :=
  match ds with
  | [] => Some v
  | c :: r => match digit c with Some d => number_from digit base (v * base + d) r | None => None end
  end.
Definition number (digit : Z -> option Z) (base : Z) (ds : list Z) : option Z :=
  match ds with [] => None | _ => number_from digit base 0 ds end.
(** A literal is a 32 bit pattern. *)
Definition literal (n : option Z) : option Z :=
  match n with Some v => if v <? 2 ^ 32 then Some (s32 v) else None | None => None end.

(** The value, in 32 bit arithmetic; [i] is the index that @ stands for. *)
Fixpoint mvalue (i : option Z) (e : mexp) : option Z :=
  match e with
  | EDec ds => literal (number dec_digit 10 ds)
  | EHex ds => literal (number hex_digit 16 ds)
  | EBinary ds => literal (number bin_digit 2 ds)
  | EAt => match i with Some z => Some (s32 z) | None => None end
  | EParen a | EPlus a => mvalue i a
  | ENeg a => let? x := mvalue i a in inr (- x)
  | EBin o a b =>
      let? x := mvalue i a in
      let? y := mvalue i b in
      match o with
      | OpAdd => inr (x + y)
      | OpSub => inr (x - y)
      | OpMul => inr (x * y)
      | OpDiv => if y =? 0 then None else inr (Z.quot x y)
      | _ => None
      end
  end.
(** How many numbers are held at once when it is worked out from left to right. *)
Fixpoint mdepth (e : mexp) : Z :=
  match e with
  | EDec _ | EHex _ | EBinary _ | EAt => 1
  | EParen a | EPlus a => mdepth a
  | ENeg a => 1 + mdepth a
  | EBin _ a b => Z.max (mdepth a) (1 + mdepth b)
  end.
Fixpoint no_binary (e : mexp) : Prop :=
  match e with
  | EBinary _ => False
  | EDec _ | EHex _ | EAt => True
  | EParen a | ENeg a | EPlus a => no_binary a
  | EBin _ a b => no_binary a /\ no_binary b
  end.
Fixpoint starts_sign (e : mexp) : bool :=
  match e with ENeg _ | EPlus _ => true | EBin _ a _ => starts_sign a | _ => false end.

(** ** Directives *)
Record pdef : Type := PDef { d_address : mexp; d_bank : mexp; d_size : mexp; d_image : option mexp; d_overlay : option mexp }.
Inductive fmt : Type := FName (name : list Z) | FCbm (address : mexp).
Definition text (s : string) : list Z := map (fun c => Z.of_nat (nat_of_ascii c)) (list_ascii_of_string s).
Inductive mline : Type :=
| LBlank
| LPool (name : list Z) (d : pdef)
| LPools (name : list Z) (first last : mexp) (d : pdef)
| LGroup (name : list Z) (kind : option (list Z)) (pools : list (list Z))
| LSymbol (name : list Z) (e : mexp)
| LProperty (name group : list Z) (start : bool)
| LFormats (fs : list fmt).

Definition pdef_show (d : pdef) : list (list Z) :=
  mshow (d_address d) ++ mshow (d_bank d) ++ mshow (d_size d) ++
  match d_image d with Some e => mshow e | None => [] end ++
  match d_overlay d with Some e => [58] :: mshow e | None => [] end.
Definition fmt_show (f : fmt) : list (list Z) :=
  match f with FName n => [n] | FCbm e => text "CBM_PRG" :: [91] :: mshow e ++ [[93]] end.
Definition lshow (l : mline) : list (list Z) :=
  match l with
  | LBlank => []
  | LPool n d => text "POOL" :: n :: pdef_show d
  | LPools n a b d => text "POOLS" :: n :: [91] :: mshow a ++ [58] :: mshow b ++ [93] :: pdef_show d
  | LGroup n k ps => text "GROUP" :: n :: match k with Some k => [[58]; k] | None => [] end ++ ps
  | LSymbol n e => text "SYMBOL" :: n :: mshow e
  | LProperty n g b => text "SYMBOL" :: n :: g :: [46] :: [if b then text "start" else text "size"]
  | LFormats fs => text "FORMATS" :: flat_map fmt_show fs
  end.

Definition documented_formats : list (list Z) :=
  map text ["BIN"; "GAME_BOY"; "HUNK_EXE"; "HUNK_OBJ"; "MEGA_DRIVE"; "MASTER_SYSTEM"; "HC800_KERNEL"; "HC800"; "PGZ";
    "KUP"; "KUPP"; "COCO_QL"; "MEGA65_PRG"]%string.

Definition mexp_ok (e : mexp) : Prop := mgrouped 1 e /\ mdepth e <= 256.
(** The expressions of a pool follow each other without a separator, so only the first
    and the overlay may start with a sign. *)
Definition pdef_ok (d : pdef) : Prop :=
  mexp_ok (d_address d) /\ mexp_ok (d_bank d) /\ mexp_ok (d_size d) /\
  starts_sign (d_bank d) = false /\ starts_sign (d_size d) = false /\
  (forall e, d_image d = Some e -> mexp_ok e /\ starts_sign e = false) /\
  (forall e, d_overlay d = Some e -> mexp_ok e).
Definition line_ok (l : mline) : Prop :=
  match l with
  | LBlank => True
  | LPool n d => is_word n /\ pdef_ok d
  | LPools n a b d => is_word n /\ mexp_ok a /\ mexp_ok b /\ pdef_ok d
  | LGroup n k ps =>
      is_word n /\ zlen n < 255 /\ (forall w, k = Some w -> is_word w) /\ ps <> [] /\ Forall is_word ps
  | LSymbol n e => is_word n /\ zlen n < 256 /\ mexp_ok e
  | LProperty n g _ => is_word n /\ zlen n < 256 /\ is_word g /\ number dec_digit 10 g = None
  | LFormats fs =>
      fs <> [] /\ Forall (fun f => match f with FName n => In n documented_formats | FCbm e => mexp_ok e end) fs
  end.
(** Binary literals are left out: see C43_binary_refuted. *)
Definition pdef_no_binary (d : pdef) : Prop :=
  no_binary (d_address d) /\ no_binary (d_bank d) /\ no_binary (d_size d) /\
  (forall e, d_image d = Some e -> no_binary e) /\ (forall e, d_overlay d = Some e -> no_binary e).
Definition line_no_binary (l : mline) : Prop :=
  match l with
  | LBlank | LGroup _ _ _ | LProperty _ _ _ => True
  | LPool _ d => pdef_no_binary d
  | LPools _ a b d => no_binary a /\ no_binary b /\ pdef_no_binary d
  | LSymbol _ e => no_binary e
  | LFormats fs => Forall (fun f => match f with FName _ => True | FCbm e => no_binary e end) fs
  end.
(** CBM_PRG is the last format of its line: see C43_cbm_format_refuted. *)
Fixpoint cbm_last (fs : list fmt) : Prop :=
  match fs with [] => True | FName _ :: r => cbm_last r | FCbm _ :: r => r = [] end.
Definition line_cbm_last (l : mline) : Prop := match l with LFormats fs => cbm_last fs | _ => True end.

(** ** What a file defines *)
(** A symbol is a number, or a property of the group with that number. *)
Inductive symval : Type := SNumber (v : Z) | SStart (g : Z) | SSize (g : Z).
Record layout : Type := Layout {
  l_pools : list pool;
  l_names : list (list Z * list nat);  (* which pools a name stands for *)
  l_groups : list group;
  l_symbols : list (list Z * symval);
  l_formats : list (list Z);
  l_cbm : Z }.
Definition named {A : Type} (n : list Z) (l : list (list Z * A)) : option A :=
  match find (fun p => beq (fst p) n) l with Some p => Some (snd p) | None => None end.

Definition pool_of (i : option Z) (d : pdef) : option pool :=
  let? a := mvalue i (d_address d) in
  let? b := mvalue i (d_bank d) in
  let? s := mvalue i (d_size d) in
  let? im := match d_image d with Some e => mvalue i e | None => Some (-1) end in
  let? ov := match d_overlay d with Some e => mvalue i e | None => Some (-1) end in
  Some (Pool im (u32 ov) (u32 a) b (u32 s) false).
Fixpoint pools_of (is_ : list Z) (d : pdef) : option (list pool) :=
  match is_ with
  | [] => Some []
  | i :: r => let? p := pool_of (Some i) d in let? ps := pools_of r d in Some (p :: ps)
  end.
Fixpoint members (ns : list (list Z * list nat)) (ps : list (list Z)) : option (list nat) :=
  match ps with
  | [] => Some []
  | p :: r => let? ks := named p ns in let? l := members ns r in Some (ks ++ l)
  end.
Definition add_pools (n : list Z) (ps : list pool) (m : layout) : option layout :=
  match named n (l_names m) with
  | Some _ => None
  | None => Some (Layout (l_pools m ++ ps) (l_names m ++ [(n, seq (List.length (l_pools m)) (List.length ps))])
      (l_groups m) (l_symbols m) (l_formats m) (l_cbm m))
  end.
Fixpoint group_number (gs : list group) (k : Z) (n : list Z) : option Z :=
  match gs with [] => None | g :: r => if beq (g_name g) n then Some k else group_number r (k + 1) n end.
Fixpoint add_formats (fs : list fmt) (m : layout) : option layout :=
  match fs with
  | [] => Some m
  | FName n :: r => add_formats r (Layout (l_pools m) (l_names m) (l_groups m) (l_symbols m) (l_formats m ++ [n]) (l_cbm m))
  | FCbm e :: r =>
      let? v := mvalue None e in
      add_formats r (Layout (l_pools m) (l_names m) (l_groups m) (l_symbols m) (l_formats m ++ [text "CBM_PRG"]) (u32 v))
  end.
(** What a line adds.  A pool has no index; a number of 2^31 pools or more is refused. *)
Definition defines (l : mline) (m : layout) : option layout :=
  match l with
  | LBlank => Some m
  | LPool n d => let? p := pool_of None d in add_pools n [p] m
  | LPools n a b d =>
      let? x := mvalue None a in
      let? y := mvalue None b in
      let first := u32 x in
      let last := u32 y in
      if (first <=? last) && (last - first + 1 <? 2 ^ 31) && (last <? 2 ^ 32 - 1) then
        let? ps := pools_of (zseq first (Z.to_nat (last - first + 1))) d in add_pools n ps m
      else None
  | LGroup n _ ps =>
      let? ks := members (l_names m) ps in
      Some (Layout (l_pools m) (l_names m) (l_groups m ++ [Group n ks]) (l_symbols m) (l_formats m) (l_cbm m))
  | LSymbol n e =>
      let? v := mvalue None e in
      Some (Layout (l_pools m) (l_names m) (l_groups m) (l_symbols m ++ [(n, SNumber v)]) (l_formats m) (l_cbm m))
  | LProperty n g b =>
      let? k := group_number (l_groups m) 0 g in
      Some (Layout (l_pools m) (l_names m) (l_groups m)
        (l_symbols m ++ [(n, if b then SStart k else SSize k)]) (l_formats m) (l_cbm m))
  | LFormats fs => add_formats fs m
  end.
Fixpoint file_defines (ls : list mline) (m : layout) : option layout :=
  match ls with
  | [] => Some m
  | l :: r => let? m1 := defines l m in file_defines r m1
  end.
Definition nothing : layout := Layout [] [] [] [] [] 0.
