(** C71: MOVEM of the 680x0 moves the registers listed. *)
From Coq Require Import ZArith List Bool Lia ZifyBool.
From Verif Require Import Base BaseFacts Arith ExprSpec ExprModel OptModel SectModel SectSpec InstrSpec InstrProofs X65Spec.
From Verif Require ChipProps.
From Verif Require Import M68kModel M68kMovemModel M68kMovemSpec M68kMovem.
Import ListNotations.
Open Scope list_scope.
Open Scope Z_scope.

(** A list of registers and of ranges is read to its end, reports nothing, and bit n of
    the mask is set exactly if the register of rank n is in it. *)
Theorem C71_list : forall p ps rest st, Forall part_ok (p :: ps) -> list_ends rest ->
  exists m, m68k_ParseRegisterList (list_text p ps ++ rest) st = (Some m, rest, st) /\ 0 <= m < 2 ^ 16 /\
    forall r, reg_ok r -> Z.testbit m (rank r) = in_parts (p :: ps) r.
Proof. exact list_read. Qed.
Print Assumptions C71_list.

(** A constant is the mask itself. *)
Theorem C71_constant : forall v rest st, 0 <= v < 2 ^ 16 ->
  m68k_ParseRegisterList (RTok THash :: RTok (TExpr (expr_Const v)) :: rest) st = (Some v, rest, st).
Proof.
  intros v rest st V. unfold m68k_ParseRegisterList. change (isNull (expr_Const v)) with false.
  change (expr_IsConstant (expr_Const v)) with true. change (e_v (expr_Const v)) with v.
  cbv iota. assert (B : (0 <=? v) && (v <=? 65535) = true) by lia. rewrite B. unfold u16. rewrite Z.mod_small by lia. reflexivity.
Qed.
Print Assumptions C71_constant.

(** A range whose last register comes before its first one is reported, and is no list. *)
Theorem C71_descending : forall f l rest st, reg_ok f -> reg_ok l -> rank l < rank f ->
  m68k_ParseRegisterList (part_text (Span f l) ++ rest) st = (None, rest, err_Error ERROR_OPERAND st).
Proof.
  intros f l rest st F L N.
  assert (G : getRegisterRange (part_text (Span f l) ++ rest) = (Some (rank f, rank l), rest)).
  { cbn [part_text app]. unfold getRegisterRange. rewrite !get_reg. reflexivity. }
  transitivity (ranges (S (List.length (part_text (Span f l) ++ rest))) 0 (part_text (Span f l) ++ rest) st).
  - destruct f; reflexivity.
  - cbn [ranges]. rewrite G. replace (rank l <? rank f) with true by lia. reflexivity.
Qed.
Print Assumptions C71_descending.

(** Registers to memory: two words are stored, which the processor reads as the transfer
    of exactly the registers listed, to the place and in the size written.  Missing: the
    memory operands with displacements, indices and absolute addresses. *)
Theorem C71_to_memory_partial : forall S cpu size p ps to rest k st m,
  setting_ok S (here m) -> ready st k m 4 ->
  Forall part_ok (p :: ps) -> place_ok to -> (forall n, to <> After n) ->
  exists st' w mask, handleMOVEM (s_F S) cpu size (list_text p ps ++ RTok TComma :: place_text to :: rest) st = Ok (true, rest, st') /\
    emits_seq S k st st' [(2%nat, Num w, w); (2%nat, Num mask, mask)] /\
    read_movem w mask = Some (Transfer false (size =? SIZE_LONG) to (filter (in_parts (p :: ps)) registers)).
Proof.
  intros S cpu size p ps to rest k st m SO R O P NA.
  destruct (list_read p ps (RTok TComma :: place_text to :: rest) st O I) as (mask & E & _ & B).
  destruct (emitted S size 0 to mask rest k st m P (or_introl eq_refl) (nonzero p ps mask O B) SO R) as (st' & Eo & Em).
  exists st', (opword 0 size to), (mask_word to mask). split; [|split; [exact Em|]].
  - unfold handleMOVEM. rewrite E. cbn [parse_ExpectComma negb]. rewrite place_read. cbn [bind negb].
    match goal with |- (if ?c then _ else _) = _ => replace c with false; [exact Eo|] end.
    destruct to as [n|n|n]; [| |exfalso; exact (NA n eq_refl)]; cbn [mode_of a_mode set_outer set_mode]; unfold movem_modes;
      destruct (CPUF_68020 <=? cpu); reflexivity.
  - exact (word_read 0 size to mask (p :: ps) P (or_introl eq_refl) B).
Qed.
Print Assumptions C71_to_memory_partial.

(** Memory to registers, likewise. *)
Theorem C71_from_memory_partial : forall S cpu size p ps from rest k st m,
  setting_ok S (here m) -> ready st k m 4 ->
  Forall part_ok (p :: ps) -> list_ends rest -> place_ok from -> (forall n, from <> Before n) ->
  exists st' w mask, handleMOVEM (s_F S) cpu size (place_text from :: RTok TComma :: list_text p ps ++ rest) st = Ok (true, rest, st') /\
    emits_seq S k st st' [(2%nat, Num w, w); (2%nat, Num mask, mask)] /\
    read_movem w mask = Some (Transfer true (size =? SIZE_LONG) from (filter (in_parts (p :: ps)) registers)).
Proof.
  intros S cpu size p ps from rest k st m SO R O Ends P NA.
  destruct (list_read p ps rest st O Ends) as (mask & E & _ & B).
  destruct (emitted S size 1 from mask rest k st m P (or_intror eq_refl) (nonzero p ps mask O B) SO R) as (st' & Eo & Em).
  exists st', (opword 1 size from), (mask_word from mask). split; [|split; [exact Em|]].
  - unfold handleMOVEM.
    assert (N : forall ts, m68k_ParseRegisterList (place_text from :: ts) st = (None, place_text from :: ts, st)) by (intro; destruct from; reflexivity).
    rewrite N, place_read. cbn [bind negb].
    match goal with |- (if ?c then _ else _) = _ => replace c with false end.
    + cbn [parse_ExpectComma negb]. rewrite E. exact Eo.
    + destruct from as [n|n|n]; [|exfalso; exact (NA n eq_refl)|]; cbn [mode_of a_mode set_outer set_mode]; unfold movem_modes;
        destruct (CPUF_68020 <=? cpu); reflexivity.
  - exact (word_read 1 size from mask (p :: ps) P (or_intror eq_refl) B).
Qed.
Print Assumptions C71_from_memory_partial.

(** Registers are not stored with the address incremented, nor loaded with it
    decremented: that is reported, and nothing is stored. *)
Theorem C71_refused : forall F cpu size p ps n rest st, Forall part_ok (p :: ps) ->
  handleMOVEM F cpu size (list_text p ps ++ RTok TComma :: place_text (After n) :: rest) st = Ok (true, rest, err_Error ERROR_DEST_OPERAND st) /\
  handleMOVEM F cpu size (place_text (Before n) :: rest) st = Ok (true, rest, err_Error ERROR_SOURCE_OPERAND st).
Proof.
  intros F cpu size p ps n rest st O. split; unfold handleMOVEM.
  - destruct (list_read p ps (RTok TComma :: place_text (After n) :: rest) st O I) as (mask & E & _).
    rewrite E. cbn [parse_ExpectComma negb]. rewrite place_read. cbn [bind negb].
    cbn [mode_of a_mode set_outer set_mode]; unfold movem_modes; destruct (CPUF_68020 <=? cpu); reflexivity.
  - change (m68k_ParseRegisterList (place_text (Before n) :: rest) st) with (@None Z, place_text (Before n) :: rest, st). cbv beta iota.
    rewrite place_read. cbn [bind negb].
    cbn [mode_of a_mode set_outer set_mode]; unfold movem_modes; destruct (CPUF_68020 <=? cpu); reflexivity.
Qed.
Print Assumptions C71_refused.

(** With an empty mask no instruction is stored. *)
Theorem C71_empty : forall F cpu size to rest st, place_ok to -> (forall n, to <> After n) ->
  handleMOVEM F cpu size (RTok THash :: RTok (TExpr (expr_Const 0)) :: RTok TComma :: place_text to :: rest) st = Ok (true, rest, st).
Proof.
  intros F cpu size to rest st P NA. unfold handleMOVEM. rewrite C71_constant by lia. cbn [parse_ExpectComma negb].
  rewrite place_read. cbn [bind negb].
  match goal with |- (if ?c then _ else _) = _ => replace c with false; [reflexivity|] end.
  destruct to as [n|n|n]; [| |exfalso; exact (NA n eq_refl)]; cbn [mode_of a_mode set_outer set_mode]; unfold movem_modes;
    destruct (CPUF_68020 <=? cpu); reflexivity.
Qed.
Print Assumptions C71_empty.

(** ** Cases *)
(** "MOVEM.L D0/D2-D4/D6-A1,-(A7)" and "MOVEM.W (A7)+,D0/D2-D4/D6-A1". *)
Definition exParts : list part := [Span (D 2) (D 4); Span (D 6) (A 1)].
Definition stored (size : Z) (ts : list rtoken) : option (list Z * list Z) :=
  match handleMOVEM (s_F ChipProps.exSetting) CPUF_68000 size ts ChipProps.started with
  | Ok (true, [], st) => match x_sections st with [m] => Some (m_data m, x_errors st) | _ => None end
  | _ => None
  end.
Example C71_case : exists m,
  setting_ok ChipProps.exSetting (here m) /\ ready ChipProps.started 0 m 4 /\
  Forall part_ok (One (D 0) :: exParts) /\ place_ok (Before 7) /\ place_ok (After 7) /\
  filter (in_parts (One (D 0) :: exParts)) registers = [D 0; D 2; D 3; D 4; D 6; D 7; A 0; A 1] /\
  stored SIZE_LONG (list_text (One (D 0)) exParts ++ [RTok TComma; place_text (Before 7)]) = Some ([0x48; 0xE7; 0xBB; 0xC0], []) /\
  stored SIZE_WORD (place_text (After 7) :: RTok TComma :: list_text (One (D 0)) exParts) = Some ([0x4C; 0x9F; 0x03; 0xDD], []) /\
  read_movem 0x48E7 0xBBC0 = Some (Transfer false true (Before 7) [D 0; D 2; D 3; D 4; D 6; D 7; A 0; A 1]).
Proof.
  destruct ChipProps.started_ready as (m & (A & B & C & D) & E). exists m. split; [exact E|]. split.
  { repeat split; try apply A; try apply B; try exact C. unfold max_size in *. lia. }
  split; [repeat constructor; cbn; lia|]. split; [cbn; lia|]. split; [cbn; lia|]. repeat split; reflexivity.
Qed.
