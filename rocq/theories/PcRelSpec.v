(** Specification vocabulary for PC-relative operands. *)
From Coq Require Import ZArith List Bool.
From Verif Require Import Base ExprModel.
Open Scope Z_scope.

(** Two moments in the life of one section: only the program counter moves. *)
Definition same_section (a b : asect) : Prop :=
  a_loadfixed a = a_loadfixed b /\ a_bankfixed a = a_bankfixed b /\ a_orgfixed a = a_orgfixed b /\
  a_aligned a = a_aligned b /\ a_root a = a_root b /\ a_paged a = a_paged b /\
  a_cpuOrigin a = a_cpuOrigin b /\ a_cpuAdjust a = a_cpuAdjust b /\ a_bank a = a_bank b.
(** The address at which the next byte of section [k] runs, when the linker puts the
    start of the section at [base k]; the assembler's own counters wrap around. *)
Definition runs_at (base : nat -> Z) (k : nat) (a : asect) : Z :=
  if a_loadfixed a || a_orgfixed a then s32 (a_pc a + a_cpuOrigin a + a_cpuAdjust a) else base k + a_pc a.
(** Code in a section runs where it is loaded until ORG says otherwise. *)
Definition org_fits (a : asect) : Prop := a_orgfixed a = false -> a_cpuAdjust a = 0.
