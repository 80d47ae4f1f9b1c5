(* Model of loading the repos of a workspace in the order of their dependencies.
   repos/plywood/src/build/repo/ply-build-repo/RepoRegistry.cpp:39-164.
   Simplified: what is on disk is given by two functions. [info] says how reading info.pylon of a repo
   ends and which texts its list [dependsOn] holds (a parsed file is an object whose list, if any, holds
   texts); [dll] says whether its DLL can be loaded and has the entry point. A Repo pointer is the
   repo's name, for which the map [repos] has one repo. What [registerInstantiators] does with its repo
   is C86. A message of level Fatal ends the process (ErrorHandler.h:20). *)
From Verif Require Export Base NamesModel.

(** How reading info.pylon ends (lines 56-103). *)
Inductive infoFile := NoInfo | Unreadable | Malformed | DependsOn (names : list name).
(** Why the process ends (lines 79, 91, 100, 111 and 117). *)
Inductive fatal := CantRead (repo : name) | NoSuchRepo (repo dep : name) | Duplicate (repo dep : name) | CantLoad (repo : name).

(** [repos] in order of insertion, each with [childRepos]; the repos whose [registerInstantiators] was
    called, in order; the repos for which a parse error was logged. *)
Record state := mkState { stRepos : list (name * list name); stRegistered : list name; stErrors : list name }.

Inductive result (A : Type) := Ends (why : fatal) | Deep | Returns (a : A) (s : state).
Arguments Ends {A} why.
Arguments Deep {A}.
Arguments Returns {A} a s.

Definition childRepos (s : state) (n : name) : list name :=
  match find (fun x => name_eqb (fst x) n) (stRepos s) with Some x => snd x | None => [] end.
Definition isThere (s : state) (n : name) : bool := existsb (fun x => name_eqb (fst x) n) (stRepos s).
Definition insert (s : state) (n : name) : state := mkState (stRepos s ++ [(n, [])]) (stRegistered s) (stErrors s).
Definition appendChild (s : state) (n child : name) : state :=
  mkState (map (fun x : name * list name => if name_eqb (fst x) n then (fst x, snd x ++ [child]) else x) (stRepos s)) (stRegistered s) (stErrors s).
Definition logError (s : state) (n : name) : state := mkState (stRepos s) (stRegistered s) (stErrors s ++ [n]).
Definition register (s : state) (n : name) : state := mkState (stRepos s) (stRegistered s ++ [n]) (stErrors s).

Section Load.
Variable dlls : list name.
Variable info : name -> infoFile.
Variable dll : name -> bool.

(** RepoRegistry.cpp:105-147. *)
Definition loadDll (n : name) (s : state) : result (option name) :=
  if dll n then Returns (Some n) (register s n) else Ends (CantLoad n).

(** RepoRegistry.cpp:43-148 [instantiate]; [None] is the null pointer. Fuel bounds the depth of the
    recursion. *)
Fixpoint instantiate (fuel : nat) (n : name) (s : state) : result (option name) :=
  match fuel with
  | O => Deep
  | S k =>
    if isThere s n then Returns (Some n) s
    else
      let s1 := insert s n in
      match info n with
      | Unreadable => Ends (CantRead n)
      | Malformed => Returns None (logError s1 n)
      | NoInfo => loadDll n s1
      | DependsOn names =>
        (fix loop (l : list name) (s : state) : result (option name) :=
           match l with
           | [] => loadDll n s
           | d :: l =>
             if existsb (name_eqb d) dlls then
               match instantiate k d s with
               | Returns (Some child) s2 =>
                 if existsb (name_eqb child) (childRepos s2 n) then Ends (Duplicate n d)
                 else loop l (appendChild s2 n child)
               | Returns None s2 => Returns None s2
               | r => r
               end
             else Ends (NoSuchRepo n d)
           end) names s1
      end
  end.

(** RepoRegistry.cpp:158-160: every DLL in turn; null pointers are ignored. *)
Fixpoint loadAll (fuel : nat) (l : list name) (s : state) : result unit :=
  match l with
  | [] => Returns tt s
  | n :: l =>
    match instantiate fuel n s with
    | Returns _ s1 => loadAll fuel l s1
    | Ends why => Ends why
    | Deep => Deep
    end
  end.
(** RepoRegistry.cpp:151-164 [create]. A repo is inserted before its dependencies are, so the recursion
    is not deeper than the number of DLLs and one. *)
Definition create : result unit := loadAll (S (length dlls)) dlls (mkState [] [] []).
End Load.
