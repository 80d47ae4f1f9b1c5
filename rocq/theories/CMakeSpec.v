(* What CMake reads in a file (cmake-language(7)) and what a project is to it. *)
From Coq Require Import String.
From Verif Require Import Txt.
From Verif Require Export CMakeModel EscapeSpec.
Local Open Scope string_scope.
Local Open Scope list_scope.
Local Open Scope Z_scope.
Local Notation length := List.length.

(** ** The language: command invocations with quoted and unquoted arguments *)
Inductive piece := Byte (b : Z) | Var (name : list Z).
Inductive arg := Quoted (ps : list piece) | Bare (ps : list piece).
Definition command : Type := list Z * list arg.

Definition isBlank (c : Z) : bool := (c =? 32) || (c =? 9) || (c =? 13).
Definition isLetter (c : Z) : bool := ((65 <=? c) && (c <=? 90)) || ((97 <=? c) && (c <=? 122)).
Definition isNumeral (c : Z) : bool := (48 <=? c) && (c <=? 57).
Definition startsName (c : Z) : bool := isLetter c || (c =? 95).
Definition inName (c : Z) : bool := startsName c || isNumeral c.
(** Letters, digits and / _ . + - *)
Definition inVar (c : Z) : bool := isLetter c || isNumeral c || (c =? 47) || (c =? 95) || (c =? 46) || (c =? 43) || (c =? 45).

(** Where the reader is: between commands, in a comment (or just behind its #), in a command's name or behind
    it, between arguments (with or without a space before), in an argument, behind a command. *)
Inductive place :=
| Line | Hash | Comment | InName (n : list Z) | AfterName (n : list Z)
| Args (n : list Z) (l : list arg) (space : bool)
| InQuoted (n : list Z) (l : list arg) (ps : list piece)
| QEscape (n : list Z) (l : list arg) (ps : list piece)
| QDollar (n : list Z) (l : list arg) (ps : list piece)
| QVar (n : list Z) (l : list arg) (ps : list piece) (v : list Z)
| InBare (n : list Z) (l : list arg) (ps : list piece)
| BDollar (n : list Z) (l : list arg) (ps : list piece)
| BVar (n : list Z) (l : list arg) (ps : list piece) (v : list Z)
| AfterCommand.

Definition quotedStep (n : list Z) (l : list arg) (ps : list piece) (c : Z) : place :=
  if c =? 34 then Args n (l ++ [Quoted ps]) false
  else if c =? 92 then QEscape n l ps
  else if c =? 36 then QDollar n l ps
  else InQuoted n l (ps ++ [Byte c]).
(** [None]: not allowed (or a form that is not described here: brackets, escapes in unquoted arguments, $ENV). *)
Definition bareStep (cs : list command) (n : list Z) (l : list arg) (ps : list piece) (c : Z) : option (list command * place) :=
  if isBlank c || (c =? 10) then Some (cs, Args n (l ++ [Bare ps]) true)
  else if c =? 41 then Some (cs ++ [(n, l ++ [Bare ps])], AfterCommand)
  else if (c =? 34) || (c =? 35) || (c =? 40) || (c =? 92) then None
  else if c =? 36 then Some (cs, BDollar n l ps)
  else Some (cs, InBare n l (ps ++ [Byte c])).
Definition step (s : list command * place) (c : Z) : option (list command * place) :=
  let '(cs, p) := s in
  match p with
  | Line =>
      if isBlank c || (c =? 10) then Some (cs, Line)
      else if c =? 35 then Some (cs, Hash)
      else if startsName c then Some (cs, InName [c]) else None
  | Hash => if c =? 91 then None else if c =? 10 then Some (cs, Line) else Some (cs, Comment)
  | Comment => if c =? 10 then Some (cs, Line) else Some (cs, Comment)
  | InName n =>
      if inName c then Some (cs, InName (n ++ [c]))
      else if isBlank c then Some (cs, AfterName n)
      else if c =? 40 then Some (cs, Args n [] true) else None
  | AfterName n => if isBlank c then Some (cs, AfterName n) else if c =? 40 then Some (cs, Args n [] true) else None
  | Args n l space =>
      if isBlank c || (c =? 10) then Some (cs, Args n l true)
      else if c =? 41 then Some (cs ++ [(n, l)], AfterCommand)
      else if negb space then None
      else if c =? 34 then Some (cs, InQuoted n l [])
      else if (c =? 35) || (c =? 40) || (c =? 91) || (c =? 92) then None
      else if c =? 36 then Some (cs, BDollar n l [])
      else Some (cs, InBare n l [Byte c])
  | InQuoted n l ps => Some (cs, quotedStep n l ps c)
  | QEscape n l ps =>
      if c =? 116 then Some (cs, InQuoted n l (ps ++ [Byte 9]))
      else if c =? 114 then Some (cs, InQuoted n l (ps ++ [Byte 13]))
      else if c =? 110 then Some (cs, InQuoted n l (ps ++ [Byte 10]))
      else if isLetter c || isNumeral c then None
      else if c =? 59 then Some (cs, InQuoted n l (ps ++ [Byte 92; Byte 59]))
      else if c =? 10 then Some (cs, InQuoted n l ps)
      else Some (cs, InQuoted n l (ps ++ [Byte c]))
  | QDollar n l ps =>
      if c =? 123 then Some (cs, QVar n l ps [])
      else if isLetter c then None
      else Some (cs, quotedStep n l (ps ++ [Byte 36]) c)
  | QVar n l ps v =>
      if c =? 125 then match v with [] => None | _ => Some (cs, InQuoted n l (ps ++ [Var v])) end
      else if inVar c then Some (cs, QVar n l ps (v ++ [c])) else None
  | InBare n l ps => bareStep cs n l ps c
  | BDollar n l ps =>
      if c =? 123 then Some (cs, BVar n l ps [])
      else if isLetter c then None
      else bareStep cs n l (ps ++ [Byte 36]) c
  | BVar n l ps v =>
      if c =? 125 then match v with [] => None | _ => Some (cs, InBare n l (ps ++ [Var v])) end
      else if inVar c then Some (cs, BVar n l ps (v ++ [c])) else None
  | AfterCommand =>
      if isBlank c then Some (cs, AfterCommand)
      else if c =? 10 then Some (cs, Line)
      else if c =? 35 then Some (cs, Hash) else None
  end.
Definition run (s : option (list command * place)) (text : list Z) : option (list command * place) :=
  fold_left (fun s c => match s with Some s => step s c | None => None end) text s.
(** The commands of a file, [None] if it is not one. *)
Definition cmakeRead (text : list Z) : option (list command) :=
  match run (Some ([], Line)) text with
  | Some (cs, Line) | Some (cs, Comment) | Some (cs, Hash) | Some (cs, AfterCommand) => Some cs
  | _ => None
  end.

(** ** The commands of a project *)
Definition bytes (s : list Z) : list piece := map Byte s.
Definition q (s : list Z) : arg := Quoted (bytes s).
Definition w (s : list Z) : arg := Bare (bytes s).
Definition v (s : list Z) : arg := Bare [Var s].
(** Paths are relative to two variables in the file that is made for bootstrapping. *)
Fixpoint behind (a p : list Z) : option (list Z) :=
  match a, p with
  | [], _ => Some p
  | x :: a, y :: p => if x =? y then behind a p else None
  | _, [] => None
  end.
Definition pathArg (f : folder) (p : list Z) : arg :=
  Quoted (if fBootstrap f then
            match behind (fPrefix f) p with
            | Some r => Var (txt "SRC_FOLDER") :: bytes r
            | None => match behind (fPath f) p with Some r => Var (txt "BUILD_FOLDER") :: bytes r | None => bytes p end
            end
          else bytes p).
(** A library: the objects of another target, a variable, or a file. *)
Inductive libKind := Objects (n : list Z) | InVariable (n : list Z) | File (p : list Z).
Definition libText (k : libKind) : list Z :=
  match k with
  | Objects n => txt "$<TARGET_OBJECTS:" ++ n ++ txt ">"
  | InVariable n => txt "${" ++ n ++ txt "}"
  | File p => p
  end.
(** A target with its libraries told apart. *)
Definition groupCommand (f : folder) (name : list Z) (t : target) (g : sources) : command :=
  (name, w (sourcesVar t) :: pathArg f (srcRoot g) :: map (pathArg f) (srcFiles g)).
Definition groupNames (t : target) : list (list Z) :=
  repeat (sourcesVar t) (match tSources t, tOthers t with [], _ :: _ => 1 | l, _ => length l end).
Definition typeArgs (t : target) : list Z * list arg :=
  match tType t with
  | HeaderOnly => (txt "add_custom_target", [w (txt "SOURCES")])
  | Lib => (txt "add_library", [])
  | ObjectLib => (txt "add_library", [w (txt "OBJECT")])
  | DLL => (txt "add_library", [w (txt "SHARED")])
  | EXE => (txt "add_executable", [])
  end.
Definition targetCommands (f : folder) (t : target) (libs : list libKind) : list command :=
  let name := w (tName t) in
  let compiled := match tType t with HeaderOnly => false | _ => true end in
  let links := match tType t with DLL | EXE => true | _ => false end in
  map (groupCommand f (txt "SetSourceFolders") t) (tSources t) ++
  map (groupCommand f (txt "SetNonParticipatingFiles") t) (tOthers t) ++
  [(fst (typeArgs t), name :: snd (typeArgs t) ++ map v (groupNames t) ++
     (if links then flat_map (fun k => match k with Objects _ => [w (libText k)] | _ => [] end) (rev libs) else []))] ++
  match tType t with EXE => [(txt "set_property", [w (txt "TARGET"); name; w (txt "PROPERTY"); w (txt "ENABLE_EXPORTS"); w (txt "TRUE")])] | _ => [] end ++
  (if match tPchInclude t with [] => true | _ => false end then []
   else map (fun g => (txt "SetPrecompiledHeader",
                       [name; w g; pathArg f (tPchSource t); q (tPchInclude t); q (tName t ++ txt ".$<CONFIG>.pch")])) (groupNames t)) ++
  (if compiled then
     [(txt "EnableCppExceptions", [name; w (if in_dec (list_eq_dec Z.eq_dec) (txt "exceptions") (tFlags t) then txt "TRUE" else txt "FALSE")]);
      (txt "target_include_directories", name :: w (txt "PRIVATE") :: map (pathArg f) (rev (tIncludes t)))] ++
     match tDefines t with
     | [] => []
     | ds => [(txt "target_compile_definitions", name :: w (txt "PRIVATE") :: map (fun d => q (fst d ++ txt "=" ++ snd d)) ds)]
     end
   else []) ++
  (if links then
     map (fun fw => (txt "find_library", [w (frameworkVar fw); w fw])) (tFrameworks t) ++
     (if match libs, tFrameworks t with [], [] => true | _, _ => false end then []
      else [(txt "target_link_libraries", name :: w (txt "PRIVATE") ::
              flat_map (fun k => match k with Objects _ => [] | InVariable n => [v n] | File p => [pathArg f p] end) (rev libs) ++
              map (fun fw => v (frameworkVar fw)) (tFrameworks t))]) ++
     match tDlls t with [] => [] | ds => [(txt "AddDLLCopyStep", name :: map q (rev ds))] end ++
     (if fBootstrap f then
        if list_eq_dec Z.eq_dec (tName t) (txt "plytool") then
          [(txt "add_custom_command", [w (txt "TARGET"); w (txt "plytool"); w (txt "POST_BUILD"); w (txt "COMMAND"); v (txt "CMAKE_COMMAND"); w (txt "-E");
            w (txt "copy_if_different"); w (txt "$<TARGET_FILE:plytool>"); Quoted [Var (txt "WORKSPACE_FOLDER")]])]
        else []
      else [])
   else []).
Definition headCommands (f : folder) : list command :=
  [(txt "cmake_minimum_required", [w (txt "VERSION"); w (txt "3.8")]);
   (txt "set", [w (txt "CMAKE_CONFIGURATION_TYPES"); q (txt "Debug;RelWithAsserts;RelWithDebInfo"); w (txt "CACHE"); w (txt "INTERNAL"); q (txt "Build configs")]);
   (txt "project", [w (fName f)])] ++
  if fBootstrap f then
    [(txt "set", [w (txt "WORKSPACE_FOLDER"); q (txt "<<<WORKSPACE_FOLDER>>>")]);
     (txt "set", [w (txt "SRC_FOLDER"); q (txt "<<<SRC_FOLDER>>>")]);
     (txt "set", [w (txt "BUILD_FOLDER"); q (txt "<<<BUILD_FOLDER>>>")]);
     (txt "include", [Quoted (Var (txt "CMAKE_CURRENT_LIST_DIR") :: bytes (txt "/Helper.cmake"))])]
  else [(txt "include", [q (fHelper f)])].
Fixpoint allCommands (f : folder) (ts : list target) (libs : list (list libKind)) : list command :=
  match ts, libs with t :: ts, l :: libs => targetCommands f t l ++ allCommands f ts libs | _, _ => [] end.

(** ** Projects whose names and paths are plain *)
Definition safeName (s : list Z) : Prop := s <> [] /\ Forall (fun c => inVar c = true /\ c <> 47) s.
(** Unescaped text: printable, without quotes, backslashes and dollars. *)
Definition plain (s : list Z) : Prop := Forall (fun c => 32 <= c < 256 /\ c <> 34 /\ c <> 92 /\ c <> 36) s.
(** Text that is escaped: quotes, backslashes, ends of lines and tabs are fine. *)
Definition escapable (s : list Z) : Prop :=
  Forall (fun c => (32 <= c < 256 \/ c = 9 \/ c = 10 \/ c = 13) /\ c <> 36) s /\ no_overlong_ascii s.
Definition plainTarget (f : folder) (t : target) (libs : list libKind) : Prop :=
  safeName (tName t) /\
  (forall g p, In g (tSources t ++ tOthers t) -> In p (srcRoot g :: srcFiles g) -> normal p = true /\ escapable p) /\
  (tPchInclude t <> [] -> normal (tPchSource t) = true /\ plain (tPchSource t) /\ plain (tPchInclude t)) /\
  (forall p, In p (tIncludes t) -> normal p = true /\ plain p) /\
  (forall d, In d (tDefines t) -> plain (fst d) /\ plain (snd d) /\ ~ In 61 (fst d) /\ ~ In 61 (snd d)) /\
  tLibs t = map libText libs /\
  (forall k, In k libs -> match k with Objects n | InVariable n => safeName n | File p => normal p = true /\ plain p end) /\
  (forall p, In p (tDlls t) -> plain p) /\ (forall fw, In fw (tFrameworks t) -> safeName fw).
Definition plainFolder (f : folder) (libs : list (list libKind)) : Prop :=
  safeName (fName f) /\ normal (fPath f) = true /\ endsSep false (fPath f) = true /\ escapable (fHelper f) /\
  Forall2 (plainTarget f) (fTargets f) libs.

(** ** What the commands build: the macros of Helper.cmake append "root/file" to a variable (for Visual C++, which
    keeps .natvis files), and the targets are made of what the variables hold *)
Definition textOf (a : arg) : list Z :=
  match a with Quoted ps | Bare ps => flat_map (fun p => match p with Byte b => [b] | Var _ => [] end) ps end.
Definition filesIn (x : list Z) (env : list (list Z * list Z)) : list (list Z) :=
  flat_map (fun e => if list_eq_dec Z.eq_dec (fst e) x then [snd e] else []) env.
Definition mem (x : list Z) (l : list (list Z)) : bool := if in_dec (list_eq_dec Z.eq_dec) x l then true else false.
Fixpoint build (env : list (list Z * list Z)) (cs : list command) : list (list Z * list (list Z)) :=
  match cs with
  | [] => []
  | (n, l) :: cs =>
    if mem n [txt "SetSourceFolders"; txt "SetNonParticipatingFiles"] then
      match l with
      | x :: root :: files => build (env ++ map (fun a => (textOf x, textOf root ++ txt "/" ++ textOf a)) files) cs
      | _ => build env cs
      end
    else if mem n [txt "add_library"; txt "add_executable"; txt "add_custom_target"] then
      match l with
      | x :: l => (textOf x, flat_map (fun a => match a with Bare [Var y] => filesIn y env | _ => [] end) l) :: build env cs
      | _ => build env cs
      end
    else build env cs
  end.
Definition fileOf (t : target) (p : list Z) : Prop :=
  exists g x, In g (tSources t ++ tOthers t) /\ In x (srcFiles g) /\ p = srcRoot g ++ txt "/" ++ x.
