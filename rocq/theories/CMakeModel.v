(* Model of how a project is written for CMake: SRC/build/target/ply-build-target/CMakeLists.cpp:16-242
   (SRC = /repo/repos/plywood/src), on a POSIX system, where [PosixPath::from<NativePath>] is the identity
   (Path.cpp:260-262). Text is a list of bytes; [None] is a failed assertion. *)
From Coq Require Import String.
From Verif Require Import Txt.
From Verif Require Export EscapeModel PathModel.
Local Open Scope string_scope.
Local Open Scope list_scope.
Local Open Scope Z_scope.
Local Notation length := List.length.
Local Notation "'do' x <- e ; f" := (match e with Some x => f | None => None end) (at level 200, x pattern, e at level 100, f at level 200).

(** Dependency.h:56-62 [BuildTargetType]. *)
Inductive targetType := HeaderOnly | Lib | ObjectLib | DLL | EXE.
(** Dependency.h:65-68 [SourceFilesPair]. *)
Record sources := mkSources { srcRoot : list Z; srcFiles : list (list Z) }.
(** Dependency.h:30-50 [Dependency] and 64-89 [BuildTarget], what is written. *)
Record target := mkTarget {
  tName : list Z; tType : targetType; tSources : list sources; tOthers : list sources;
  tPchSource : list Z; tPchInclude : list Z; tFlags : list (list Z); tIncludes : list (list Z);
  tDefines : list (list Z * list Z); tLibs : list (list Z); tDlls : list (list Z); tFrameworks : list (list Z) }.
(** CMakeLists.h:31-37 [CMakeBuildFolder]; [fPrefix] is the one of line 20-23 (not empty), [fHelper] the path of
    line 56-57. *)
Record folder := mkFolder {
  fName : list Z; fPath : list Z; fTargets : list target; fPrefix : list Z; fBootstrap : bool; fHelper : list Z }.

(** Path.h:124-126 [isNormalized]. *)
Definition normal (p : list Z) : bool :=
  match joinAndNormalize false [p] with Some q => bytes_eqb p q | None => false end.
(** CMakeLists.cpp:27-39 [filterPath]. *)
Definition filterPath (f : folder) (p : list Z) : option (list Z) :=
  if normal p then
    if fBootstrap f then
      if sv_startsWith p (fPrefix f) then Some (txt "${SRC_FOLDER}" ++ skipn (length (fPrefix f)) p)
      else if sv_startsWith p (fPath f) then Some (txt "${BUILD_FOLDER}" ++ skipn (length (fPath f)) p)
      else Some p
    else Some p
  else None.
Definition nl : list Z := [10].
Definition qt : list Z := [34].
(** Lines with a quoted path: escaped (as in 88, 101), or not. *)
Definition escapedLine (s : list Z) : list Z := txt "    " ++ qt ++ escapedString s 0 ++ qt ++ nl.
Definition rawLine (s : list Z) : list Z := txt "    " ++ qt ++ s ++ qt ++ nl.
Definition bareLine (s : list Z) : list Z := txt "    " ++ s ++ nl.
Definition varLine (s : list Z) : list Z := txt "    ${" ++ s ++ txt "}" ++ nl.
Fixpoint mapM {A B} (g : A -> option B) (l : list A) : option (list B) :=
  match l with [] => Some [] | x :: l => do y <- g x; do ys <- mapM g l; Some (y :: ys) end.

(** CMakeLists.cpp:82-91 and 93-104. *)
Definition sourcesVar (t : target) : list Z := sv_upperAsc (tName t) ++ txt "_SOURCES".
Definition sourceGroup (f : folder) (cmd : list Z) (t : target) (g : sources) : option (list Z) :=
  do root <- filterPath f (srcRoot g);
  do files <- mapM (filterPath f) (srcFiles g);
  Some (cmd ++ txt "(" ++ sourcesVar t ++ txt " " ++ qt ++ escapedString root 0 ++ qt ++ nl ++
        flat_map escapedLine files ++ txt ")" ++ nl).
(** CMakeLists.cpp:84, 94-96: the names in [sourceVarNames]. *)
Definition varNames (t : target) : list (list Z) :=
  let a := map (fun _ => sourcesVar t) (tSources t) in
  match a, tOthers t with [], _ :: _ => [sourcesVar t] | _, _ => a end.
(** CMakeLists.cpp:106-134. *)
Definition heading (t : target) : list Z :=
  match tType t with
  | HeaderOnly => txt "add_custom_target(" ++ tName t ++ txt " SOURCES" ++ nl
  | Lib => txt "add_library(" ++ tName t ++ nl
  | ObjectLib => txt "add_library(" ++ tName t ++ txt " OBJECT" ++ nl
  | DLL => txt "add_library(" ++ tName t ++ txt " SHARED" ++ nl
  | EXE => txt "add_executable(" ++ tName t ++ nl
  end.
Definition isObjects (lib : list Z) : bool := sv_startsWith lib (txt "$<TARGET_OBJECTS").
Definition linked (t : target) : bool := match tType t with DLL | EXE => true | _ => false end.
Definition isHeaderOnly (t : target) : bool := match tType t with HeaderOnly => true | _ => false end.
(** CMakeLists.cpp:135-150. *)
Definition addTarget (t : target) : list Z :=
  heading t ++ flat_map varLine (varNames t) ++
  (if linked t then flat_map (fun l => if isObjects l then bareLine l else []) (rev (tLibs t)) else []) ++
  txt ")" ++ nl ++
  match tType t with EXE => txt "set_property(TARGET " ++ tName t ++ txt " PROPERTY ENABLE_EXPORTS TRUE)" ++ nl | _ => [] end.
(** CMakeLists.cpp:152-161. *)
Definition precompiled (f : folder) (t : target) : option (list Z) :=
  match tPchInclude t with
  | [] => Some []
  | _ =>
    do l <- mapM (fun v => do p <- filterPath f (tPchSource t);
        Some (txt "SetPrecompiledHeader(" ++ tName t ++ txt " " ++ v ++ nl ++ rawLine p ++ rawLine (tPchInclude t) ++
              rawLine (tName t ++ txt ".$<CONFIG>.pch") ++ txt ")" ++ nl)) (varNames t);
    Some (concat l)
  end.
(** CMakeLists.cpp:163-169. *)
Definition exceptions (t : target) : list Z :=
  if isHeaderOnly t then []
  else txt "EnableCppExceptions(" ++ tName t ++ txt " " ++
       (if existsb (bytes_eqb (txt "exceptions")) (tFlags t) then txt "TRUE" else txt "FALSE") ++ txt ")" ++ nl.
(** CMakeLists.cpp:171-179. *)
Definition includeDirs (f : folder) (t : target) : option (list Z) :=
  if isHeaderOnly t then Some []
  else
    do l <- mapM (filterPath f) (rev (tIncludes t));
    Some (txt "target_include_directories(" ++ tName t ++ txt " PRIVATE" ++ nl ++ flat_map rawLine l ++ txt ")" ++ nl).
(** CMakeLists.cpp:181-191. *)
Definition noEquals (s : list Z) : bool := negb (existsb (Z.eqb 61) s).
Definition defines (t : target) : option (list Z) :=
  if isHeaderOnly t then Some []
  else match tDefines t with
  | [] => Some []
  | _ =>
    do l <- mapM (fun d : list Z * list Z => if noEquals (fst d) && noEquals (snd d) then Some (rawLine (fst d ++ txt "=" ++ snd d)) else None) (tDefines t);
    Some (txt "target_compile_definitions(" ++ tName t ++ txt " PRIVATE" ++ nl ++ concat l ++ txt ")" ++ nl)
  end.
(** CMakeLists.cpp:194-200. *)
Definition frameworkVar (fw : list Z) : list Z := sv_upperAsc fw ++ txt "_FRAMEWORK".
Definition findFramework (fw : list Z) : list Z := txt "find_library(" ++ frameworkVar fw ++ txt " " ++ fw ++ txt ")" ++ nl.
(** CMakeLists.cpp:202-220. *)
Definition linkLine (f : folder) (lib : list Z) : option (list Z) :=
  if isObjects lib then Some []
  else if sv_startsWith lib (txt "${") then Some (bareLine lib)
  else do p <- filterPath f lib; Some (rawLine p).
Definition linkLibs (f : folder) (t : target) : option (list Z) :=
  match tLibs t, tFrameworks t with
  | [], [] => Some []
  | _, _ =>
    do l <- mapM (linkLine f) (rev (tLibs t));
    Some (txt "target_link_libraries(" ++ tName t ++ txt " PRIVATE" ++ nl ++ concat l ++
          flat_map (fun fw => varLine (frameworkVar fw)) (tFrameworks t) ++ txt ")" ++ nl)
  end.
(** CMakeLists.cpp:224-231. *)
Definition copyDlls (t : target) : list Z :=
  match tDlls t with
  | [] => []
  | _ => txt "AddDLLCopyStep(" ++ tName t ++ nl ++ flat_map rawLine (rev (tDlls t)) ++ txt ")" ++ nl
  end.
(** CMakeLists.cpp:233-239. *)
Definition copyTool (f : folder) (t : target) : list Z :=
  if fBootstrap f && bytes_eqb (tName t) (txt "plytool") then
    txt "add_custom_command(TARGET plytool POST_BUILD COMMAND" ++ nl ++
    txt "   ${CMAKE_COMMAND} -E copy_if_different $<TARGET_FILE:plytool> " ++ qt ++ txt "${WORKSPACE_FOLDER}" ++ qt ++ txt ")" ++ nl
  else [].
(** CMakeLists.cpp:60-242: one target. *)
Definition writeTarget (f : folder) (t : target) : option (list Z) :=
  do src <- mapM (sourceGroup f (txt "SetSourceFolders") t) (tSources t);
  do others <- mapM (sourceGroup f (txt "SetNonParticipatingFiles") t) (tOthers t);
  do pch <- precompiled f t;
  do inc <- includeDirs f t;
  do def <- defines t;
  do link <- (if linked t then
      do l <- linkLibs f t;
      Some (flat_map findFramework (tFrameworks t) ++ l ++ copyDlls t ++ copyTool f t)
    else Some []);
  Some (nl ++ txt "# " ++ tName t ++ nl ++ concat src ++ concat others ++ addTarget t ++ pch ++ exceptions t ++ inc ++ def ++ link).
(** CMakeLists.cpp:16-58. *)
Definition preamble (f : folder) : list Z :=
  txt "cmake_minimum_required(VERSION 3.8)" ++ nl ++
  txt "set(CMAKE_CONFIGURATION_TYPES " ++ qt ++ txt "Debug;RelWithAsserts;RelWithDebInfo" ++ qt ++ txt " CACHE INTERNAL " ++
  qt ++ txt "Build configs" ++ qt ++ txt ")" ++ nl ++
  txt "project(" ++ fName f ++ txt ")" ++ nl ++
  (if fBootstrap f then
    txt "set(WORKSPACE_FOLDER " ++ qt ++ txt "<<<WORKSPACE_FOLDER>>>" ++ qt ++ txt ")" ++ nl ++
    txt "set(SRC_FOLDER " ++ qt ++ txt "<<<SRC_FOLDER>>>" ++ qt ++ txt ")" ++ nl ++
    txt "set(BUILD_FOLDER " ++ qt ++ txt "<<<BUILD_FOLDER>>>" ++ qt ++ txt ")" ++ nl ++
    txt "include(" ++ qt ++ txt "${CMAKE_CURRENT_LIST_DIR}/Helper.cmake" ++ qt ++ txt ")" ++ nl
  else txt "include(" ++ qt ++ escapedString (fHelper f) 0 ++ qt ++ txt ")" ++ nl).
Definition writeCMakeLists (f : folder) : option (list Z) :=
  if normal (fPath f) && endsSep false (fPath f) then
    do l <- mapM (writeTarget f) (fTargets f);
    Some (preamble f ++ concat l)
  else None.
