(** Where an included file is looked for, and what a makefile says. *)
From Coq Require Import Ascii String List Bool.
From Verif Require Import DepModel.
Import ListNotations.
Open Scope string_scope.
Open Scope list_scope.

(** A file is looked for beside the one it is named in, or by its name alone if there is
    none yet, and then in each directory in the order given. *)
Definition beside (w : world) (cur : option string) (name : string) : list string :=
  match cur with
  | None => [canonical w name]
  | Some f => match replaced w f name with None => [] | Some x => [x] end
  end.
(** A directory ends in one separator. *)
Fixpoint ends_in_separator (s : string) : bool :=
  match s with
  | "" => false
  | String c "" => (c =? "/")%char || (c =? "\")%char
  | String _ r => ends_in_separator r
  end.
Definition inside (w : world) (name dir : string) : string :=
  canonical w (String.append (if ends_in_separator dir then dir else String.append dir "/") name).
Definition places (w : world) (dirs : list string) (cur : option string) (name : string) : list string :=
  beside w cur name ++ map (inside w name) dirs.
(** The first of them that exists. *)
Definition located (w : world) (dirs : list string) (cur : option string) (name : string) : option string :=
  find (fexists w) (places w dirs cur name).
(** In a makefile, [target] depends on the files [l]; the empty line ends the rule. *)
Definition rule (target : string) (l : list string) : string :=
  String.append target (String.append ":" (String.append (String.concat "" (map (String.append " ") l)) (String.append newline newline))).
(** The file that is being read has said INCLUDE ONCE. *)
Definition said_once (f : string) (s : session) : Prop := exists l, s_once s = Some l /\ In f l.
