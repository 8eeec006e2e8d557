(** Model of the search for included files (/repo/xasm/motor/includes.c), of INCLUDE,
    INCBIN and INCLUDE ONCE as far as files are concerned
    (/repo/xasm/motor/parse_directive.c, lexer_context.c) and of the dependency file
    (/repo/xasm/motor/dependency.c). *)
From Coq Require Import Ascii String ZArith List Bool.
From Verif Require Import Base.
Import ListNotations.
Open Scope string_scope.
Open Scope list_scope.

(** The file system and the library that is not part of the project (file.h of util):
    fcanonicalizePath, freplaceFileComponent (which may give NULL), fexists, and whether
    fopen for reading succeeds. *)
Record world : Type := World {
  canonical : string -> string; replaced : string -> string -> option string; fexists : string -> bool; fopens : string -> bool }.
(** A set of strings (strcoll.h of util) is a list without duplicates. *)
Definition set_exists (x : string) (l : list string) : bool := existsb (String.eqb x) l.
Definition set_insert (x : string) (l : list string) : list string := if set_exists x l then l else l ++ [x].
Definition set_remove (x : string) (l : list string) : list string := filter (fun y => negb (String.eqb x y)) l.

(** ** includes.c *)
(** includes.c:35-43 buildFilename. *)
Definition buildFilename (w : world) (working : option string) (name : string) : option string :=
  match working with None => Some (canonical w name) | Some x => replaced w x name end.
(** includes.c:45-57 appendFilename. *)
Definition appendFilename (w : world) (directory name : string) : string := canonical w (String.append directory name).
(** includes.c:79-91, the loop of inc_FindFile. *)
Fixpoint findInPaths (w : world) (paths : list string) (name : string) : option string :=
  match paths with
  | [] => None
  | p :: r => let c := appendFilename w p name in if fexists w c then Some c else findInPaths w r name
  end.
(** includes.c:66-102 inc_FindFile; [working] is the name of the current buffer. *)
Definition inc_FindFile (w : world) (paths : list string) (working : option string) (name : string) : option string :=
  let others :=
    match findInPaths w paths name with
    | Some c => Some c
    | None => match working with
              | None => if fexists w name then Some (canonical w name) else None
              | Some _ => None
              end
    end in
  match buildFilename w working name with
  | Some c => if fexists w c then Some c else others
  | None => others
  end.
(** includes.c:104-120 inc_AddIncludePath.  The last character of an empty string is read
    out of bounds. *)
Definition inc_AddIncludePath (path : string) (paths : list string) : res (list string) :=
  match String.get (String.length path - 1) path with
  | None => UB
  | Some ch =>
      Ok (paths ++ [if (ch =? "\")%char || (ch =? "/")%char then path else String.append path "/"])
  end.
(** options.c:47-52 handleAddIncludePath for each -i. *)
Fixpoint addPaths (l : list string) (paths : list string) : res (list string) :=
  match l with [] => Ok paths | p :: r => let! q := inc_AddIncludePath p paths in addPaths r q end.

(** ** The files of a run *)
(** dependency.c:33-34: the first name and the set, if -d is given; the names of the
    buffers being read, innermost first; includeOnceFilenames (parse_directive.c:44); how
    many errors were reported; and, for the statements only, the names with which a file
    was opened, the last first, and those whose bytes INCBIN took. *)
Record session : Type := Session {
  s_dep : option (option string * list string); s_stack : list string; s_once : option (list string); s_errors : nat;
  s_opened : list string; s_binaries : list string }.
Definition set_dep d s := Session d (s_stack s) (s_once s) (s_errors s) (s_opened s) (s_binaries s).
Definition set_stack l s := Session (s_dep s) l (s_once s) (s_errors s) (s_opened s) (s_binaries s).
Definition set_once o s := Session (s_dep s) (s_stack s) o (s_errors s) (s_opened s) (s_binaries s).
Definition set_opened l s := Session (s_dep s) (s_stack s) (s_once s) (s_errors s) l (s_binaries s).
Definition err_Error (s : session) : session :=
  Session (s_dep s) (s_stack s) (s_once s) (S (s_errors s)) (s_opened s) (s_binaries s).
Definition binary (f : string) (s : session) : session :=
  Session (s_dep s) (s_stack s) (s_once s) (s_errors s) (s_opened s) (f :: s_binaries s).
Definition opened (f : string) (s : session) : session := set_opened (f :: s_opened s) s.
(** dependency.c:77-85 dep_AddDependency. *)
Definition dep_AddDependency (f : string) (s : session) : session :=
  match s_dep s with
  | None => s
  | Some (main, l) => set_dep (Some (Some (match main with None => f | Some m => m end), set_insert f l)) s
  end.
(** lexer_context.c:388-419 lexctx_ContextInit; err_Fail ends the program. *)
Definition lexctx_ContextInit (w : world) (paths : list string) (name : string) (s : session) : res session :=
  let s1 := dep_AddDependency name s in
  match inc_FindFile w paths None name with
  | Some f => if fopens w f then Ok (set_stack [f] (opened f s1)) else Err
  | None => Err
  end.
(** lexer_context.c:334-347 lexctx_ProcessIncludeFile. *)
Definition lexctx_ProcessIncludeFile (w : world) (f : string) (s : session) : res session :=
  if fopens w f then
    let s1 := dep_AddDependency f (opened f s) in Ok (set_stack (f :: s_stack s1) s1)
  else Err.
(** section.c:470-521 sect_OutputBinaryFile, without the bytes. *)
Definition sect_OutputBinaryFile (w : world) (f : string) (s : session) : res session :=
  if fopens w f then Ok (binary f (dep_AddDependency f (opened f s))) else Ok (err_Error s).
(** parse_directive.c:46-55 mayIncludeFile. *)
Definition mayIncludeFile (f : string) (s : session) : bool * session :=
  match s_once s with
  | None => (true, set_once (Some []) s)
  | Some l => (negb (set_exists f l), s)
  end.
(** lex_Context->buffer.name. *)
Definition working (s : session) : option string := match s_stack s with [] => None | f :: _ => Some f end.
(** parse_directive.c:517-532 handleFileCore with 487-509 getFilename, once the name is
    read. *)
Definition handleFileCore (w : world) (paths : list string) (process : string -> session -> res session) (name : string)
    (s : session) : res session :=
  match inc_FindFile w paths (working s) name with
  | Some f => let (may, s1) := mayIncludeFile f s in if may then process f s1 else Ok s1
  | None => Ok (err_Error s)
  end.
(** What a program does with files, in the order in which it does it: whatever else is in
    the source decides only which of these happen, and when.  [EMacro]: lexer_context.c:
    364-386 lexctx_ProcessMacro, the buffer has the name of the file the macro is defined
    in.  [EEnd]: lexer_context.c:260-275 lexctx_EndCurrentBuffer.
    [EError]: anything else that is reported. *)
Inductive event : Type := EInclude (name : string) | EIncbin (name : string) | EOnce | EMacro (file : string) | EEnd | EError.
(** parse_directive.c:534-551 handleFile and handleInclude.  The set is created by
    mayIncludeFile only; without it strset_Insert is given NULL. *)
Definition step (w : world) (paths : list string) (e : event) (s : session) : res session :=
  match e with
  | EInclude name => handleFileCore w paths (lexctx_ProcessIncludeFile w) name s
  | EIncbin name => handleFileCore w paths (sect_OutputBinaryFile w) name s
  | EOnce =>
      match s_once s, s_stack s with
      | Some l, f :: _ => Ok (set_once (Some (set_insert f l)) s)
      | _, _ => UB
      end
  | EMacro f => Ok (set_stack (f :: s_stack s) s)
  | EError => Ok (err_Error s)
  | EEnd => match s_stack s with f :: g :: r => Ok (set_stack (g :: r) s) | _ => Ok s end
  end.
Fixpoint steps (w : world) (paths : list string) (l : list event) (s : session) : res session :=
  match l with [] => Ok s | e :: r => let! s1 := step w paths e s in steps w paths r s1 end.

(** ** The dependency file *)
Definition newline : string := String (ascii_of_nat 10) "".
(** dependency.c:38-43 writeDependency and 45-50 writeTarget. *)
Definition writeDependency (f : string) : string := String.append " " f.
Definition writeTarget (f : string) : string := String.append f (String.append ":" (String.append newline newline)).
(** dependency.c:87-103 dep_WriteDependencyFile, as the characters written if the file can
    be opened.  [order] is the order in which set_ForEachElement goes through a set. *)
Definition dep_WriteDependencyFile (order : list string -> list string) (output : string) (d : option string * list string) : string :=
  let (main, l) := d in
  let l1 := match main with None => l | Some m => set_remove m l end in
  String.append (String.append output ":")
    (String.append (String.concat "" (map writeDependency (order l)))
      (String.append (String.append newline newline) (String.concat "" (map writeTarget (order l1))))).
(** xasm.c:156-158 and 225-269: a run with -d, include paths [dirs], the source file
    [name] and the output file [output].  Only an assembly without errors writes the
    dependency file. *)
Definition begin : session := Session (Some (None, [])) [] None 0 [] [].
Definition assembled (w : world) (dirs : list string) (name : string) (l : list event) : res session :=
  let! paths := addPaths dirs [] in
  let! s := lexctx_ContextInit w paths name begin in
  steps w paths l s.
Definition dependencies (order : list string -> list string) (output : string) (s : session) : option string :=
  match s_errors s, s_dep s with
  | O, Some d => Some (dep_WriteDependencyFile order output d)
  | _, _ => None
  end.
