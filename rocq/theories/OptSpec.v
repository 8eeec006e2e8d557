(** Specification vocabulary for the option stack. *)
From Coq Require Import ZArith List.
From Verif Require Import OptModel.
Import ListNotations.

(** Every PUSHO has its POPO. *)
Inductive balanced : list optDirective -> Prop :=
| balanced_none : balanced []
| balanced_opt : forall s l, balanced l -> balanced (DOpt s :: l)
| balanced_machine : forall f l, balanced l -> balanced (DMachine f :: l)
| balanced_nest : forall a l, balanced a -> balanced l -> balanced (DPusho :: a ++ DPopo :: l).
