(** Specification vocabulary for symbols. *)
From Coq Require Import ZArith List Bool.
From Verif Require Import Base Arith ExprModel ObjWriteModel SymModel.
Import ListNotations.
Open Scope Z_scope.

(** Local names begin with a period or a dollar sign, or end with a dollar sign. *)
Definition is_local (n : list Z) : Prop :=
  (exists r, n = 36 :: r) \/ (exists r, n = 46 :: r) \/ (exists r, n = r ++ [36]).
(** The symbol with reference [r] is [s]. *)
Definition at_ (st : sstate) (r : nat) (s : ssym) : Prop := nth_error (z_syms st) r = Some (Some s).
(** The symbol that name [n] means: a local name belongs to the current scope. *)
Definition seen (st : sstate) (n : list Z) (r : nat) (s : ssym) : Prop :=
  at_ st r s /\ s_name s = n /\ (is_local n -> s_scope s = z_scope st) /\ (~ is_local n -> s_scope s = None).

(** The state before anything is defined. *)
Definition sinitial : sstate := SState [] None None None None 0 [].

(** Symbols that cannot change any more. *)
Definition settled (t : symtype) : bool :=
  match t with SymLabel | SymEqu | SymEqus | SymMacro | SymImport | SymGroup => true | _ => false end.
(** Bookkeeping: one symbol for each scope and name, flags that fit the type, and a
    counter that is a SET symbol. *)
Definition flags_fit (s : ssym) : Prop :=
  s_modifiable s = match s_type s with SymSet | SymGlobal | SymUndefined | SymGroup => true | _ => false end /\
  s_exportable s = match s_type s with SymLabel | SymEqu | SymUndefined | SymGroup => true | _ => false end.
Definition symbols_fine (st : sstate) : Prop :=
  (forall r1 r2 s1 s2, at_ st r1 s1 -> at_ st r2 s2 -> s_name s1 = s_name s2 -> s_scope s1 = s_scope s2 -> r1 = r2) /\
  (forall r s, at_ st r s -> flags_fit s) /\
  (forall r, z_rs st = Some r -> (r < length (z_syms st))%nat /\ forall s, at_ st r s -> s_type s = SymSet).

(** What may happen to a symbol as long as it is not purged. *)
Definition evolves (s s' : ssym) : Prop :=
  s_name s' = s_name s /\ s_scope s' = s_scope s /\ s_file s' = s_file s /\
  (s_export s = true -> s_export s' = true) /\
  (s_type s = SymSet \/ s_type s = SymStructure -> s_type s' = s_type s) /\
  (settled (s_type s) = true -> s_type s' = s_type s /\ s_value s' = s_value s /\
     s_section s' = s_section s /\ s_text s' = s_text s /\ ay_groupType (s_asym s') = ay_groupType (s_asym s)).

(** ** Rules for definitions *)

(** The directives that define or export a name. *)
Definition op_name (o : sop) : option (list Z) :=
  match o with
  | OLabel n | OEqu n _ | OSet n _ | OEqus n _ | OMacro n _ | OExport n | OImport n | OGlobal n => Some n
  | _ => None
  end.
(** Which names they accept: by the type of the symbol so far. *)
Definition accepts (o : sop) (t : symtype) : bool :=
  match o, t with
  | _, SymUndefined => true
  | OLabel _, SymGlobal | OEqu _ _, SymGlobal => true
  | OSet _ _, SymSet => true
  | (OExport _ | OGlobal _), (SymLabel | SymEqu | SymGroup) => true
  | _, _ => false
  end.
Definition is_label (o : sop) : bool := match o with OLabel _ => true | _ => false end.
(** A label in a section at a fixed address is a number at once. *)
Definition fixed_address (a : asect) : bool := (a_loadfixed a || a_orgfixed a) && negb (a_bankfixed a).
(** What an accepted directive makes of the symbol. *)
Definition becomes (o : sop) (sec : option (nat * asect)) (s s' : ssym) : Prop :=
  s_name s' = s_name s /\ s_scope s' = s_scope s /\
  match o with
  | OLabel _ =>
      match sec with
      | Some (k, a) =>
          (if fixed_address a
           then s_type s' = SymEqu /\ s_value s' = s32 (a_pc a + a_cpuAdjust a + a_cpuOrigin a)
           else s_type s' = SymLabel /\ s_section s' = Some k /\ s_value s' = s32 (a_pc a)) /\
          (s_export s' = true <-> s_export s = true \/ s_type s = SymGlobal)
      | None => False
      end
  | OEqu _ v => s_type s' = SymEqu /\ s_value s' = v /\ (s_export s' = true <-> s_export s = true \/ s_type s = SymGlobal)
  | OSet _ v => s_type s' = SymSet /\ s_value s' = v /\ s_export s' = s_export s
  | OEqus _ t => s_type s' = SymEqus /\ s_text s' = t /\ s_export s' = s_export s
  | OMacro _ t => s_type s' = SymMacro /\ s_text s' = t /\ s_export s' = s_export s
  | OImport _ => s_type s' = SymImport /\ s_export s' = s_export s
  | OExport _ => s_type s' = s_type s /\ s_value s' = s_value s /\ s_section s' = s_section s /\ s_export s' = true
  | OGlobal _ =>
      match s_type s with
      | SymUndefined => s_type s' = SymGlobal /\ s_export s' = s_export s
      | _ => s_type s' = s_type s /\ s_value s' = s_value s /\ s_section s' = s_section s /\ s_export s' = true
      end
  | _ => False
  end.
(** Directives that begin a scope when the name is not local. *)
Definition begins_scope (o : sop) : bool := match o with OLabel _ | OEqu _ _ | OSet _ _ => true | _ => false end.

(** What a name means before it is used for the first time. *)
Definition fresh_symbol (st : sstate) (n : list Z) (s : ssym) : Prop :=
  s_name s = n /\ (is_local n -> s_scope s = z_scope st) /\ (~ is_local n -> s_scope s = None) /\
  s_type s = SymUndefined /\ s_export s = false /\ s_value s = 0 /\ s_section s = None /\ s_file s = z_file st.
(** The symbol a name means at [r], be it one that exists or a new one. *)
Definition meaning (st : sstate) (n : list Z) (r : nat) (s : ssym) : Prop :=
  seen st n r s \/
  ((forall q x, ~ seen st n q x) /\ r = length (z_syms st) /\ fresh_symbol st n s).
(** Whether a directive is carried out. *)
Definition accepted (o : sop) (st : sstate) (s : ssym) : bool :=
  accepts o (s_type s) && (if is_label o then match z_section st with Some _ => true | None => false end else true).

(** ** RS members *)

(** A member: its name, the size of the unit and the number of units. *)
Definition member : Type := (list Z * Z * Z)%type.
Definition m_name (m : member) : list Z := fst (fst m).
Definition m_size (m : member) : Z := snd (fst m) * snd m.
Definition member_op (m : member) : sop := ORs (fst (fst m)) (snd (fst m)) (snd m).
(** The offset of each member, from [v] on, and the size of all of them. *)
Fixpoint offsets (v : Z) (l : list member) : list Z :=
  match l with [] => [] | m :: r => v :: offsets (v + m_size m) r end.
Definition total (l : list member) : Z := fold_right (fun m a => m_size m + a) 0 l.
(** No size and no offset leaves the range of 32 bit numbers. *)
Fixpoint sizes_fit (v : Z) (l : list member) : Prop :=
  match l with [] => True | m :: r => is_s32 (m_size m) /\ is_s32 (v + m_size m) /\ sizes_fit (v + m_size m) r end.
(** In scope [c] the name is free for a member. *)
Definition available (st : sstate) (c : option nat) (n : list Z) : Prop :=
  forall q x, at_ st q x -> s_name x = n -> s_scope x = c -> s_type x = SymUndefined \/ s_type x = SymSet.
(** Name [n] of scope [c] is a SET symbol of value [v]. *)
Definition has_value (st : sstate) (c : option nat) (n : list Z) (v : Z) : Prop :=
  exists q x, at_ st q x /\ s_name x = n /\ s_scope x = c /\ s_type x = SymSet /\ s_value x = v.
(** The counter is in use, or its name is free. *)
Definition counter_is (st : sstate) (r : nat) (v : Z) : Prop :=
  z_rs st = Some r /\ exists c, at_ st r c /\ s_name c = rs_name /\ s_scope c = None /\ s_value c = v.
Definition counter_ready (st : sstate) : Prop :=
  z_rs st = None /\ available st None rs_name \/ exists r v, counter_is st r v.
(** Names that begin with a period. *)
Definition dotted (n : list Z) : Prop := exists r, n = 46 :: r.

(** ** Runs *)

(** Directives and references that only mention local names. *)
Definition only_local (o : sop) : Prop := exists n, is_local n /\ (op_name o = Some n \/ o = OUse n).
