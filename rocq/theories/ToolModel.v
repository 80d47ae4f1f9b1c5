(* Model of the command line of plytool (TOOL = /repo/repos/plywood/src/apps/plytool/plytool): how the arguments are
   read and what they ask for, and how the settings of a build folder change. Text is a list of bytes, the empty
   text stands for "no token" as in the source. What the commands then do with the file system is not modelled. *)
From Coq Require Import String.
From Verif Require Import Txt.
From Verif Require Export StringViewModel.
Local Open Scope string_scope.
Local Open Scope list_scope.
Local Open Scope Z_scope.

(** ConsoleUtils.h:15-19 [CommandLine]: the arguments from [index] on, [skippedOpts] and [finalized]. *)
Record cmdLine := mkLine { rest : list (list Z); skipped : list (list Z); finalized : bool }.
(** ConsoleUtils.h:17, 21-23: reading starts behind the name of the program. *)
Definition start (argv : list (list Z)) : cmdLine := mkLine (tl argv) [] false.
Inductive error :=
| UnexpectedToken (t : list Z) | UnrecognizedOption (o : list Z) | ExpectedName | UnrecognizedCommand (c : list Z) | NoFolder.
(** A result, the end of the process after an error message ([fatalError], ConsoleUtils.cpp:17-25), or a failed assertion. *)
Inductive res (A : Type) := Ok (x : A) (c : cmdLine) | Fatal (e : error) | Asserts.
Arguments Ok {A}. Arguments Fatal {A}. Arguments Asserts {A}.
Local Notation "'do' x @ c <- e ; f" := (match e with Ok x c => f | Fatal err => Fatal err | Asserts => Asserts end)
  (at level 200, x name, c name, e at level 100, f at level 200).

(** ConsoleUtils.cpp:11-15 [prefixMatch], minUnits = 2. *)
Definition prefixMatch (input cmd : list Z) : bool := if (List.length input <? 2)%nat then false else sv_startsWith cmd input.
(** ConsoleUtils.cpp:27-38 [readToken]. *)
Fixpoint readLoop (args : list (list Z)) (sk : list (list Z)) : list Z * (list (list Z) * list (list Z)) :=
  match args with
  | [] => ([], ([], sk))
  | a :: args => if sv_startsWith a (txt "-") then readLoop args (sk ++ [a]) else (a, (args, sk))
  end.
Definition readToken (c : cmdLine) : list Z * cmdLine :=
  let '(t, (r, sk)) := readLoop (rest c) (skipped c) in (t, mkLine r sk (finalized c)).
(** ConsoleUtils.cpp:40-48 [checkForSkippedOpt]; the text is empty if there is none. *)
Fixpoint takeOpt (p : list Z -> bool) (l : list (list Z)) : list Z * list (list Z) :=
  match l with
  | [] => ([], [])
  | x :: l => if p x then (x, l) else let '(y, l') := takeOpt p l in (y, x :: l')
  end.
Definition checkOpt (p : list Z -> bool) (c : cmdLine) : list Z * cmdLine :=
  let '(x, sk) := takeOpt p (skipped c) in (x, mkLine (rest c) sk (finalized c)).
Definition isNil (s : list Z) : bool := match s with [] => true | _ => false end.
(** ConsoleUtils.h:30-33. *)
Definition hasOpt (o : list Z) (c : cmdLine) : bool * cmdLine :=
  let '(x, c) := checkOpt (fun a => bytes_eqb a o) c in (negb (isNil x), c).
(** ConsoleUtils.cpp:50-56 [finalize]. *)
Definition finalize (c : cmdLine) : res unit :=
  if finalized c then Asserts
  else match skipped c with
  | o :: _ => Fatal (UnrecognizedOption o)
  | [] => Ok tt (mkLine (rest c) [] true)
  end.
(** ConsoleUtils.cpp:58-63 [ensureTerminated]. *)
Definition ensureTerminated (c : cmdLine) : res unit :=
  let '(t, c) := readToken c in if isNil t then Ok tt c else Fatal (UnexpectedToken t).

(** What a command line asks for. CommandHelpers.h:24-29 [BuildParams]. *)
Record buildParams := mkBuild { bTarget : list Z; bConfig : list Z; bAdd : bool; bAuto : bool; bShared : bool }.
Inductive action :=
| Usage (of : list Z) | Rpc
| FolderList | FolderCreate (n : list Z) | FolderDelete (n : list Z) | FolderSet (n : list Z)
| TargetList | TargetAdd (n : list Z) (shared : bool) | TargetRemove (n : list Z) | TargetSet (n : list Z) | TargetGraph
| ModuleList | ModuleUpdate
| ExternList | ExternInfo (n : list Z) | ExternSelect (n : list Z) (install : bool) | ExternSelected | ExternInstall (n : list Z)
| Generate (config : list Z) | Build (p : buildParams) | Run (p : buildParams) (doBuild : bool)
| Open | CodeGen | Bootstrap | Cleanup.

(** [ensureTerminated] and [finalize], as in Command_Folder.cpp:33-34. *)
Definition plain (a : action) (c : cmdLine) : res action :=
  do _ @ c <- ensureTerminated c; do _ @ c <- finalize c; Ok a c.
(** A name that must be there, as in Command_Folder.cpp:44-47. *)
Definition readName (c : cmdLine) : res (list Z) :=
  let '(n, c) := readToken c in if isNil n then Fatal ExpectedName else Ok n c.
(** With nothing but a name, as in Command_Folder.cpp:44-49. *)
Definition named (a : list Z -> action) (c : cmdLine) : res action := do n @ c <- readName c; plain (a n) c.
(** With a name and a flag: Command_Target.cpp:85-93 with CommandHelpers.cpp:16-18, Command_Extern.cpp:167-173. *)
Definition flagged (o : list Z) (a : list Z -> bool -> action) (c : cmdLine) : res action :=
  do n @ c <- readName c;
  do _ @ c <- ensureTerminated c;
  let '(f, c) := hasOpt o c in
  do _ @ c <- finalize c; Ok (a n f) c.
(** Command_Folder.cpp:13-111. *)
Definition command_folder (c : cmdLine) : res action :=
  let '(cmd, c) := readToken c in
  if isNil cmd then plain (Usage (txt "folder")) c
  else if prefixMatch cmd (txt "list") then plain FolderList c
  else if prefixMatch cmd (txt "create") then named FolderCreate c
  else if prefixMatch cmd (txt "delete") then named FolderDelete c
  else if prefixMatch cmd (txt "set") then named FolderSet c
  else Fatal (UnrecognizedCommand cmd).
(** Command_Target.cpp:38-188. *)
Definition command_target (hasFolder : bool) (c : cmdLine) : res action :=
  if hasFolder then
    let '(cmd, c) := readToken c in
    if isNil cmd then plain (Usage (txt "target")) c
    else if prefixMatch cmd (txt "list") then plain TargetList c
    else if prefixMatch cmd (txt "add") then flagged (txt "--shared") TargetAdd c
    else if prefixMatch cmd (txt "remove") then named TargetRemove c
    else if prefixMatch cmd (txt "set") then named TargetSet c
    else if prefixMatch cmd (txt "graph") then plain TargetGraph c
    else Fatal (UnrecognizedCommand cmd)
  else Fatal NoFolder.
(** Command_Module.cpp:16-70. *)
Definition command_module (c : cmdLine) : res action :=
  let '(cmd, c) := readToken c in
  if isNil cmd then plain (Usage (txt "module")) c
  else if prefixMatch cmd (txt "list") then plain ModuleList c
  else if prefixMatch cmd (txt "update") then plain ModuleUpdate c
  else Fatal (UnrecognizedCommand cmd).
(** Command_Extern.cpp:67-230. *)
Definition command_extern (hasFolder : bool) (c : cmdLine) : res action :=
  if hasFolder then
    let '(cmd, c) := readToken c in
    if isNil cmd then plain (Usage (txt "extern")) c
    else if prefixMatch cmd (txt "list") then plain ExternList c
    else if prefixMatch cmd (txt "info") then named ExternInfo c
    else if prefixMatch cmd (txt "select") then flagged (txt "--install") ExternSelect c
    else if prefixMatch cmd (txt "selected") then plain ExternSelected c
    else if prefixMatch cmd (txt "install") then named ExternInstall c
    else Fatal (UnrecognizedCommand cmd)
  else Fatal NoFolder.
(** Command_Generate.cpp:21-25, CommandHelpers.cpp:38-42. *)
Definition readConfig (c : cmdLine) : list Z * cmdLine :=
  let '(x, c) := checkOpt (fun a => sv_startsWith a (txt "--config=")) c in
  ((if isNil x then [] else skipn 9 x), c).
(** Command_Generate.cpp:14-32. *)
Definition command_generate (hasFolder : bool) (c : cmdLine) : res action :=
  if hasFolder then
    do _ @ c <- ensureTerminated c;
    let '(cfg, c) := readConfig c in
    do _ @ c <- finalize c; Ok (Generate cfg) c
  else Fatal NoFolder.
(** CommandHelpers.cpp:37-49 [BuildParams::extractOptions]. *)
Definition extractOptions (target : list Z) (c : cmdLine) : buildParams * cmdLine :=
  let '(cfg, c) := readConfig c in
  let '(add, c) := hasOpt (txt "--add") c in
  let '(auto, c) := hasOpt (txt "--auto") c in
  let '(sh, c) := if add || auto then hasOpt (txt "--shared") c else (false, c) in
  (mkBuild target cfg add auto sh, c).
(** Command_Build.cpp:18-22. *)
Definition command_build (c : cmdLine) : res action :=
  let '(t, c) := readToken c in
  do _ @ c <- ensureTerminated c;
  let '(p, c) := extractOptions t c in
  do _ @ c <- finalize c; Ok (Build p) c.
(** Command_Run.cpp:19-27. *)
Definition command_run (c : cmdLine) : res action :=
  let '(t, c) := readToken c in
  do _ @ c <- ensureTerminated c;
  let '(p, c) := extractOptions t c in
  let '(nb, c) := hasOpt (txt "--nobuild") c in
  do _ @ c <- finalize c; Ok (Run p (negb nb)) c.
(** Main.cpp:68-107; Command_Open.cpp:20-21, Command_CodeGen.cpp:205-206, Command_Bootstrap.cpp:16-17,
    Command_Cleanup.cpp:100-101, Command_RPC.cpp:68 (which takes no notice of the command line). *)
Definition dispatch (hasFolder : bool) (c : cmdLine) : res action :=
  let '(category, c) := readToken c in
  if isNil category then do _ @ c <- finalize c; Ok (Usage []) c
  else if bytes_eqb category (txt "rpc") then Ok Rpc c
  else if prefixMatch category (txt "folder") then command_folder c
  else if prefixMatch category (txt "target") then command_target hasFolder c
  else if prefixMatch category (txt "module") then command_module c
  else if prefixMatch category (txt "extern") then command_extern hasFolder c
  else if prefixMatch category (txt "generate") then command_generate hasFolder c
  else if prefixMatch category (txt "build") then command_build c
  else if prefixMatch category (txt "run") then command_run c
  else if prefixMatch category (txt "open") then plain Open c
  else if prefixMatch category (txt "codegen") then plain CodeGen c
  else if prefixMatch category (txt "bootstrap") then plain Bootstrap c
  else if prefixMatch category (txt "cleanup") then plain Cleanup c
  else Fatal (UnrecognizedCommand category).
Definition plytool (hasFolder : bool) (argv : list (list Z)) : res action := dispatch hasFolder (start argv).
(** ConsoleUtils.h:24-26: what the destructor asserts when [main] returns. *)
Definition endsWell (r : res action) : bool := match r with Ok _ c => finalized c | Fatal _ => true | Asserts => false end.

(** ** The settings of a build folder (BuildFolder.h [BuildFolder]: rootTargets, makeShared, activeTarget, externSelectors) *)
Record settings := mkSettings { roots : list (list Z); shared : list (list Z); active : list Z; selectors : list (list Z) }.
Definition has (l : list (list Z)) (n : list Z) : bool := existsb (fun x => bytes_eqb x n) l.
(** CommandHelpers.cpp:20-35 [AddParams::exec]. *)
Definition addTarget (makeShared : bool) (n : list Z) (s : settings) : settings * bool :=
  let '(s, ch) := if has (roots s) n then (s, false) else (mkSettings (roots s ++ [n]) (shared s) (active s) (selectors s), true) in
  let '(s, ch) := if makeShared && negb (has (shared s) n) then (mkSettings (roots s) (shared s ++ [n]) (active s) (selectors s), true) else (s, ch) in
  if bytes_eqb (active s) n then (s, ch) else (mkSettings (roots s) (shared s) n (selectors s), true).
Fixpoint eraseFirst (n : list Z) (l : list (list Z)) : option (list (list Z)) :=
  match l with
  | [] => None
  | x :: l => if bytes_eqb x n then Some l else match eraseFirst n l with Some l' => Some (x :: l') | None => None end
  end.
(** Command_Target.cpp:122-129; [None]: the target is not there. *)
Definition removeTarget (n : list Z) (s : settings) : option settings :=
  match eraseFirst n (roots s) with Some l => Some (mkSettings l (shared s) (active s) (selectors s)) | None => None end.
(** Command_Extern.cpp:185-196, where [externOf] says which extern a provider (by its name) provides. *)
Fixpoint eraseSame (externOf : list Z -> option Z) (e : Z) (l : list (list Z)) : list (list Z) :=
  match l with
  | [] => []
  | x :: l => match externOf x with
              | Some e' => if e' =? e then eraseSame externOf e l else x :: eraseSame externOf e l
              | None => x :: eraseSame externOf e l
              end
  end.
Definition selectProvider (externOf : list Z -> option Z) (n : list Z) (s : settings) : option settings :=
  match externOf n with
  | Some e => Some (mkSettings (roots s) (shared s) (active s) (eraseSame externOf e (selectors s) ++ [n]))
  | None => None
  end.
