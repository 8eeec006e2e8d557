(** Specification of the librarian: a library is a finite map from module
    names to contents.  Independent of XlibModel's functions except for the
    command syntax. *)
From Coq Require Import ZArith List Bool.
From Verif Require Import Base XlibModel.
Import ListNotations.
Open Scope Z_scope.

(** [t] is the base name of path [p]: what follows the last '/' or '\'. *)
Definition base_name (p t : list Z) : Prop :=
  ~ In 47 t /\ ~ In 92 t /\
  (p = t \/ exists d, p = d ++ 47 :: t \/ p = d ++ 92 :: t).

(** Names as xlib can store them: C strings of at most 255 characters. *)
Definition name_ok (n : list Z) : Prop := cstr n /\ zlen n < 256.
(** Contents as xlib can store them. *)
Definition data_ok (d : list Z) : Prop := bytes d /\ zlen d < 2 ^ 32.
Definition module_ok (m : module) : Prop := name_ok (m_name m) /\ data_ok (m_data m).

(** The map a module list stands for. *)
Definition lookup (l : list module) (n : list Z) : option (list Z) :=
  match find (fun m => beq (m_name m) n) l with
  | Some m => Some (m_data m)
  | None => None
  end.

Definition nmap : Type := list Z -> option (list Z).
Definition upd (m : nmap) (n : list Z) (d : option (list Z)) : nmap :=
  fun x => if beq n x then d else m x.

(** Effect of one command on the map, [key] being the module name of a path. *)
Definition spec_step (key : list Z -> list Z) (m : nmap)
    (fsc : (list Z -> option (list Z)) * command) : nmap :=
  match snd fsc with
  | Add args =>
      fold_left (fun m a => match fst fsc a with
                            | Some d => upd m (key a) (Some d)
                            | None => m end) args m
  | Delete args => fold_left (fun m a => upd m (key a) None) args m
  | Extract _ | ListAll => m
  end.

(** All files a command reads have storable contents and every path is a C
    string. *)
Definition cmd_ok (fsc : (list Z -> option (list Z)) * command) : Prop :=
  (forall a d, fst fsc a = Some d -> data_ok d) /\
  match snd fsc with
  | Add args | Delete args | Extract args => Forall cstr args
  | ListAll => True
  end.

(** [key] gives the module name of every path: the first 255 characters of the
    base name. *)
Definition is_key (key : list Z -> list Z) : Prop :=
  forall p t, base_name p t -> key p = firstn 255 t.
