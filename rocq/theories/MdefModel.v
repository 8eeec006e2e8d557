(** Model of the machine definition file reader, xlink/machinedefinition.c. *)
From Coq Require Import ZArith List Bool String Ascii.
From Verif Require Import Base Arith LinkExprModel AssignModel ImageModel.
Import ListNotations.
Open Scope Z_scope.

(** ** Tokens *)

(** machinedefinition.c:53 DELIMITERS, and the characters of nextToken's switch. *)
Definition isBlank (c : Z) : bool := (c =? 32) || (c =? 9).
Definition punctuation : list Z := [36; 37; 43; 45; 42; 47; 40; 41; 91; 93; 58; 64; 44; 46].
Definition isPunct (c : Z) : bool := existsb (Z.eqb c) punctuation.
Definition isDelimiter (c : Z) : bool := isBlank c || (c =? 10) || (c =? 59) || isPunct c.

Fixpoint takeWord (t : list Z) : list Z * list Z :=
  match t with
  | [] => ([], [])
  | c :: r => if (c =? 0) || isDelimiter c then ([], t) else let (w, r') := takeWord r in (c :: w, r')
  end.
(** machinedefinition.c:83-121 nextToken: the token and the text behind it.  A token
    of length 0 stands for the end of the line. *)
Fixpoint nextToken (t : list Z) : list Z * list Z :=
  match t with
  | [] => ([], [])
  | c :: r =>
      if isBlank c then nextToken r
      else if (c =? 0) || (c =? 59) then ([], t)
      else if isPunct c then ([c], r)
      else takeWord t
  end.

(** The parser's state: the token, the text behind it, and the expression built so far. *)
Definition pst : Type := (list Z * list Z * list Z)%type.
Definition tk (s : pst) : list Z := fst (fst s).
Definition rest (s : pst) : list Z := snd (fst s).
Definition out (s : pst) : list Z := snd s.
Definition next (s : pst) : pst := (nextToken (rest s), out s).
Definition emit (bs : list Z) (s : pst) : pst := (fst s, out s ++ bs).
(** machinedefinition.c:123-129 tokenIs. *)
Definition tokenIs (w : list Z) (s : pst) : bool := beq w (tk s).
Definition ch (c : Z) (s : pst) : bool := tokenIs [c] s.

(** machinedefinition.c:69-82 appendConstant. *)
Definition constant (v : Z) : list Z := 30 :: le32 (u32 v).

(** ** Expressions *)

(** The globals the expression parser reads: g_parsePool, pool_index, g_parseSymbol and
    the groups. *)
Record pctx : Type := PCtx {
  x_pool : bool; x_index : Z; x_symbol : bool; x_groups : list group }.

(** machinedefinition.c:162-170: the value of a digit (char is unsigned). *)
Definition digitValue (c : Z) : option Z :=
  if (48 <=? c) && (c <=? 57) then Some (c - 48)
  else if (65 <=? c) && (c <=? 90) then Some (c - 55)
  else if (97 <=? c) && (c <=? 122) then Some (c - 87)
  else None.
(** machinedefinition.c:160-176. *)
Fixpoint digitsValue (base value : Z) (w : list Z) : option Z :=
  match w with
  | [] => Some value
  | c :: r =>
      match digitValue c with
      | Some d => if d >=? base then None else digitsValue base (u32 (value * base + d)) r
      | None => None
      end
  end.
(** machinedefinition.c:148-186 parseInteger.  The text compared on line 157 is the two
    characters %%, which no token is. *)
Definition parseInteger (s : pst) : bool * pst :=
  match tk s with
  | [] => (false, s)
  | _ =>
      let (base, s1) :=
        if ch 36 s then (16, next s) else if tokenIs [37; 37] s then (2, next s) else (10, s) in
      match digitsValue base 0 (tk s1) with
      | Some v => (true, next (emit (constant v) s1))
      | None => (false, s1)
      end
  end.

(** group.c:310-319 group_Find; the groups are numbered from 0 in the order of creation. *)
Fixpoint groupFind (gs : list group) (k : Z) (name : list Z) : option Z :=
  match gs with
  | [] => None
  | g :: r => if beq (g_name g) name then Some k else groupFind r (k + 1) name
  end.
Definition chars (s : string) : list Z := map (fun c => Z.of_nat (nat_of_ascii c)) (list_ascii_of_string s).

(** machinedefinition.c:191-237 parseExpression_4.  A property is appended, but the
    function returns false. *)
Definition parseExpression_4 (x : pctx) (s : pst) : res (bool * pst) :=
  if x_pool x && ch 64 s then Ok (true, emit (constant (x_index x)) (next s)) else
  match parseInteger s with
  | (true, s1) => Ok (true, s1)
  | (false, s1) =>
      if x_symbol x && negb (beq (tk s1) []) then
        match groupFind (x_groups x) 0 (tk s1) with
        | None => Err
        | Some k =>
            let s2 := next (emit (constant k) s1) in
            if ch 46 s2 then
              let s3 := next s2 in
              if tokenIs (chars "start") s3 then Ok (false, next (emit (constant 0 ++ [35]) s3))
              else if tokenIs (chars "size") s3 then Ok (false, next (emit (constant 1 ++ [35]) s3))
              else Err
            else Err
        end
      else Ok (false, s1)
  end.

(** machinedefinition.c:239-320 parseExpression_3, _2 and _1; loop2 and loop1 are the
    loops of the latter two.  [n] bounds the depth of calls; it runs out for no text
    (see parseExpression). *)
Fixpoint parse3 (n : nat) (x : pctx) (s : pst) : res (bool * pst) :=
  match n with
  | O => UB
  | S n =>
      if ch 43 s then parse3 n x (next s)
      else if ch 45 s then
        let! (r, s1) := parse3 n x (emit (constant 0) (next s)) in
        if (r : bool) then Ok (true, emit [0] s1) else Ok (false, s1)
      else if ch 40 s then
        let! (r, s1) := parse1 n x (next s) in
        if (r : bool) && ch 41 s1 then Ok (true, next s1) else Ok (false, s1)
      else parseExpression_4 x s
  end
with parse2 (n : nat) (x : pctx) (s : pst) : res (bool * pst) :=
  match n with
  | O => UB
  | S n =>
      let! (r, s1) := parse3 n x s in
      if (r : bool) then loop2 n x s1 else Ok (false, s1)
  end
with loop2 (n : nat) (x : pctx) (s : pst) : res (bool * pst) :=
  match n with
  | O => UB
  | S n =>
      if ch 42 s || ch 47 s then
        let! (r, s1) := parse3 n x (next s) in
        loop2 n x (if (r : bool) then emit [if ch 42 s then 7 else 8] s1 else s1)
      else Ok (true, s)
  end
with parse1 (n : nat) (x : pctx) (s : pst) : res (bool * pst) :=
  match n with
  | O => UB
  | S n =>
      let! (r, s1) := parse2 n x s in
      if (r : bool) then loop1 n x s1 else Ok (false, s1)
  end
with loop1 (n : nat) (x : pctx) (s : pst) : res (bool * pst) :=
  match n with
  | O => UB
  | S n =>
      if ch 43 s || ch 45 s then
        let! (r, s1) := parse2 n x (next s) in
        loop1 n x (if (r : bool) then emit [if ch 43 s then 1 else 0] s1 else s1)
      else Ok (true, s)
  end.
Definition parseExpression_1 (x : pctx) (s : pst) : res (bool * pst) :=
  parse1 (8 * (List.length (tk s) + List.length (rest s)) + 8) x s.

(** Position in the line: the token and what is behind it. *)
Definition pos : Type := (list Z * list Z)%type.
Definition start (p : pos) : pst := (p, []).
Definition step (p : pos) : pos := nextToken (snd p).
Definition is (w : list Z) (p : pos) : bool := beq w (fst p).

Section Eval.
(** The evaluator knows operators that the parser cannot produce. *)
Variable F : fmath.
(** patch.c:752-756 patch_EvaluateExpression: no section, no patch, no symbols. *)
Definition noContext : linkctx := LinkCtx (fun _ => UB) (fun _ => UB) (fun _ _ => UB) 0 0 0.

(** machinedefinition.c:322-340 parseExpression. *)
Definition parseExpression (x : pctx) (p : pos) : res (option Z * pos) :=
  let! (r, s) := parseExpression_1 x (start p) in
  if (r : bool) then
    let! v := calculateExpressionValue F noContext (out s) in
    match v with
    | Some e => Ok (Some (u32 (en_value e)), fst s)
    | None => Ok (None, fst s)
    end
  else Ok (None, fst s).
(** machinedefinition.c:351-358 expectExpression. *)
Definition expectExpression (x : pctx) (p : pos) : res (Z * pos) :=
  let! (v, p1) := parseExpression x p in
  match v with Some v => Ok (v, p1) | None => Err end.

(** ** Directives *)

(** machinedefinition.c:360-379 parsePool. *)
Definition parsePool (index : Z) (gs : list group) (p : pos) : res (pool * pos) :=
  let x := PCtx true index false gs in
  let! (address, p1) := expectExpression x p in
  let! (bank, p2) := expectExpression x p1 in
  let! (size, p3) := expectExpression x p2 in
  let! (image, p4) := parseExpression x p3 in
  let image := match image with Some v => v | None => UINT32_MAX end in
  if is [58] p4 then
    let! (overlay, p5) := expectExpression x (step p4) in
    Ok (Pool (s32 image) overlay address (s32 bank) size false, p5)
  else Ok (Pool (s32 image) UINT32_MAX address (s32 bank) size false, p4).

(** What has been read so far: the pools, their names, the groups, the symbols with
    their expressions, the formats, the address of CBM_PRG and pool_index. *)
Record mdef : Type := Mdef {
  m_pools : list pool;
  m_names : list (list Z * list nat);
  m_groups : list group;
  m_symbols : list (list Z * list Z);
  m_formats : list (list Z);
  m_cbm : Z;
  m_index : Z }.

Fixpoint lookup (name : list Z) (l : list (list Z * list nat)) : option (list nat) :=
  match l with
  | [] => None
  | (n, ks) :: r => if beq n name then Some ks else lookup name r
  end.
(** strmap_Insert.  Simplification: what it does to a name that is in use depends on a
    library that is not in /repo; here it is UB. *)
Definition define (name : list Z) (ps : list pool) (m : mdef) : res mdef :=
  match lookup name (m_names m) with
  | Some _ => UB
  | None =>
      Ok (Mdef (m_pools m ++ ps) (m_names m ++ [(name, seq (List.length (m_pools m)) (List.length ps))])
        (m_groups m) (m_symbols m) (m_formats m) (m_cbm m) (m_index m))
  end.

(** machinedefinition.c:381-392 parsePoolDirective. *)
Definition parsePoolDirective (m : mdef) (p : pos) : res (mdef * pos) :=
  match fst p with
  | [] => Err
  | name =>
      let! (q, p1) := parsePool (m_index m) (m_groups m) (step p) in
      let! m1 := define name [q] m in
      Ok (m1, p1)
  end.

(** symbol.h:29 MAX_SYMBOL_NAME_LENGTH. *)
Definition maxSymbolName : Z := 256.
(** machinedefinition.c:394-421 parseSymbolDirective. *)
Definition parseSymbolDirective (m : mdef) (p : pos) : res (mdef * pos) :=
  match fst p with
  | [] => Err
  | name =>
      if zlen name >=? maxSymbolName then UB else
      let! (_, s) := parseExpression_1 (PCtx false (m_index m) true (m_groups m)) (start (step p)) in
      Ok (Mdef (m_pools m) (m_names m) (m_groups m) (m_symbols m ++ [(name, out s)]) (m_formats m) (m_cbm m) (m_index m), fst s)
  end.

(** machinedefinition.c:437-441: the loop over the pools; [text] is what follows the ]. *)
Fixpoint parsePools (gs : list group) (text : list Z) (is_ : list Z) (p : pos) : res (list pool * pos) :=
  match is_ with
  | [] => Ok ([], p)
  | i :: r =>
      let! (q, p1) := parsePool i gs (nextToken text) in
      let! (qs, p2) := parsePools gs text r p1 in
      Ok (q :: qs, p2)
  end.
(** machinedefinition.c:423-444 parsePoolsDirective.  A range whose size is not positive
    as an int allocates nothing sensible: empty ranges leave the ] unread, the others
    are UB. *)
Definition parsePoolsDirective (m : mdef) (p : pos) : res (mdef * pos) :=
  match fst p with
  | [] => Err
  | name =>
      let x := PCtx false (m_index m) false (m_groups m) in
      let p1 := step p in
      if negb (is [91] p1) then Err else
      let! (first, p2) := expectExpression x (step p1) in
      if negb (is [58] p2) then Err else
      let! (last, p3) := expectExpression x (step p2) in
      if negb (is [93] p3) then Err else
      let count := s32 (last - first + 1) in
      if (count <? 0) || (last =? UINT32_MAX) then UB else
      let n := if first <=? last then Z.to_nat (last - first + 1) else O in
      let! (qs, p4) := parsePools (m_groups m) (snd p3) (zseq first n) p3 in
      let! m1 := define name qs m in
      Ok (Mdef (m_pools m1) (m_names m1) (m_groups m1) (m_symbols m1) (m_formats m1) (m_cbm m1)
            (if first <=? last then last + 1 else first), p4)
  end.

(** machinedefinition.c:463-477 and 480-486: the pools of a group, to the end of the line. *)
Fixpoint groupPools (n : nat) (names : list (list Z * list nat)) (p : pos) : res (list nat) :=
  match n with
  | O => UB
  | S n =>
      match fst p with
      | [] => Ok []
      | name =>
          match lookup name names with
          | Some ks => let! l := groupPools n names (step p) in Ok (ks ++ l)
          | None => Err
          end
      end
  end.
(** machinedefinition.c:446-491 parseGroupDirective; group.c:302 leaves a name of 255
    characters or more without its end. *)
Definition parseGroupDirective (m : mdef) (p : pos) : res (mdef * pos) :=
  match fst p with
  | [] => Err
  | name =>
      if zlen name >=? 255 then UB else
      let p1 := step p in
      let p2 := if is [58] p1 then step (step p1) else p1 in
      match fst p2 with
      | [] => Err
      | _ =>
          let! ks := groupPools (S (S (List.length (snd p2)))) (m_names m) p2 in
          Ok (Mdef (m_pools m) (m_names m) (m_groups m ++ [Group name ks]) (m_symbols m) (m_formats m) (m_cbm m) (m_index m),
              ([], []))
      end
  end.

(** machinedefinition.c:493-534 parseFormat. *)
Definition formatNames : list (list Z) :=
  map chars ["BIN"; "GAME_BOY"; "HUNK_EXE"; "HUNK_OBJ"; "MEGA_DRIVE"; "MASTER_SYSTEM"; "HC800_KERNEL"; "HC800"; "PGZ";
    "KUP"; "KUPP"; "COCO_QL"; "MEGA65_PRG"]%string.
Definition addFormat (f : list Z) (m : mdef) : mdef :=
  Mdef (m_pools m) (m_names m) (m_groups m) (m_symbols m) (m_formats m ++ [f]) (m_cbm m) (m_index m).
Definition parseFormat (m : mdef) (p : pos) : res (mdef * pos) :=
  if is (chars "CBM_PRG") p then
    let p1 := step p in
    if negb (is [91] p1) then Err else
    let! (v, p2) := expectExpression (PCtx false (m_index m) false (m_groups m)) (step p1) in
    if negb (is [93] p2) then Err else
    Ok (addFormat (chars "CBM_PRG")
          (Mdef (m_pools m) (m_names m) (m_groups m) (m_symbols m) (m_formats m) v (m_index m)), step (step p2))
  else if existsb (beq (fst p)) formatNames then Ok (addFormat (fst p) m, step p)
  else Err.
Fixpoint parseFormats (n : nat) (m : mdef) (p : pos) : res (mdef * pos) :=
  match n with
  | O => UB
  | S n =>
      match fst p with
      | [] => Ok (m, p)
      | _ => let! (m1, p1) := parseFormat m p in parseFormats n m1 p1
      end
  end.
(** machinedefinition.c:536-544 parseFormatsDirective. *)
Definition parseFormatsDirective (m : mdef) (p : pos) : res (mdef * pos) :=
  match fst p with
  | [] => Err
  | _ => parseFormats (S (S (List.length (snd p)))) m p
  end.

(** machinedefinition.c:546-580 parseLine. *)
Definition parseLine (m : mdef) (line : list Z) : res mdef :=
  let p := nextToken line in
  match fst p with
  | [] => Ok m
  | _ =>
      let! (m1, p1) :=
        if is (chars "POOL") p then parsePoolDirective m (step p)
        else if is (chars "POOLS") p then parsePoolsDirective m (step p)
        else if is (chars "GROUP") p then parseGroupDirective m (step p)
        else if is (chars "SYMBOL") p then parseSymbolDirective m (step p)
        else if is (chars "FORMATS") p then parseFormatsDirective m (step p)
        else Err in
      match fst p1 with [] => Ok m1 | _ => Err end
  end.
Fixpoint parseLines (m : mdef) (lines : list (list Z)) : res mdef :=
  match lines with
  | [] => Ok m
  | l :: r => let! m1 := parseLine m l in parseLines m1 r
  end.
(** machinedefinition.c:582-606 mdef_Read. *)
Definition mdef_Read (lines : list (list Z)) : res mdef :=
  let! m := parseLines (Mdef [] [] [] [] [] 0 0) lines in
  match m_formats m with [] => Err | _ => Ok m end.
Definition mdef_config (m : mdef) : config := Config (m_pools m) (m_groups m).
End Eval.
