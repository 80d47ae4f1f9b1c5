(* What the arguments of plytool mean, without a reader. *)
From Coq Require Import String.
From Verif Require Import Txt.
From Verif Require Export ToolModel.
Local Open Scope string_scope.
Local Open Scope list_scope.
Local Open Scope Z_scope.

(** Arguments that start with a dash are options, the others are words; their order among each other does not matter. *)
Definition isOption (a : list Z) : bool := match a with 45 :: _ => true | _ => false end.
Definition words (args : list (list Z)) : list (list Z) := filter (fun a => negb (isOption a)) args.
Definition options (args : list (list Z)) : list (list Z) := filter isOption args.
(** A name may be abbreviated to two letters or more, unless that is the beginning of another name as well. *)
Definition begins (s name : list Z) : Prop := exists r, name = s ++ r.
Definition abbr (names : list (list Z)) (s name : list Z) : Prop :=
  (2 <= List.length s)%nat /\ begins s name /\ forall m, In m names -> m <> name -> begins s m -> s = name.
Definition categories : list (list Z) :=
  [txt "folder"; txt "target"; txt "module"; txt "extern"; txt "generate"; txt "build"; txt "run"; txt "open"; txt "codegen"; txt "bootstrap"; txt "cleanup"].
Definition folderNames : list (list Z) := [txt "list"; txt "create"; txt "delete"; txt "set"].
Definition targetNames : list (list Z) := [txt "list"; txt "add"; txt "remove"; txt "set"; txt "graph"].
Definition moduleNames : list (list Z) := [txt "list"; txt "update"].
Definition externNames : list (list Z) := [txt "list"; txt "info"; txt "select"; txt "selected"; txt "install"].
(** The option for a flag that is set. *)
Definition flag (o : list Z) (b : bool) : list (list Z) := if b then [o] else [].
(** The configuration is the one given, or empty (for the current one). *)
Inductive configured : list (list Z) -> list Z -> Prop :=
| c_none : configured [] []
| c_given x : configured [txt "--config=" ++ x] x.
(** A word for the target, or none. *)
Inductive optional : list (list Z) -> list Z -> Prop :=
| o_none : optional [] []
| o_given t : optional [t] t.
(** [means ws os a]: the words [ws] with the options [os] (in any order) ask for [a]. *)
Inductive means : list (list Z) -> list (list Z) -> action -> Prop :=
| m_usage : means [] [] (Usage [])
| m_sub c name names a : abbr categories c name ->
    In (name, names) [(txt "folder", folderNames); (txt "target", targetNames); (txt "module", moduleNames); (txt "extern", externNames)] ->
    a = Usage name -> means [c] [] a
| m_word c s name names sub a : abbr categories c name -> abbr names s sub ->
    In (name, names, sub, a)
      [(txt "folder", folderNames, txt "list", FolderList); (txt "target", targetNames, txt "list", TargetList); (txt "target", targetNames, txt "graph", TargetGraph);
       (txt "module", moduleNames, txt "list", ModuleList); (txt "module", moduleNames, txt "update", ModuleUpdate);
       (txt "extern", externNames, txt "list", ExternList); (txt "extern", externNames, txt "selected", ExternSelected)] ->
    means [c; s] [] a
| m_named c s n name names sub a : abbr categories c name -> abbr names s sub ->
    In (name, names, sub, a)
      [(txt "folder", folderNames, txt "create", FolderCreate n); (txt "folder", folderNames, txt "delete", FolderDelete n); (txt "folder", folderNames, txt "set", FolderSet n);
       (txt "target", targetNames, txt "remove", TargetRemove n); (txt "target", targetNames, txt "set", TargetSet n);
       (txt "extern", externNames, txt "info", ExternInfo n); (txt "extern", externNames, txt "install", ExternInstall n)] ->
    means [c; s; n] [] a
| m_add c s n b : abbr categories c (txt "target") -> abbr targetNames s (txt "add") -> means [c; s; n] (flag (txt "--shared") b) (TargetAdd n b)
| m_select c s n b : abbr categories c (txt "extern") -> abbr externNames s (txt "select") -> means [c; s; n] (flag (txt "--install") b) (ExternSelect n b)
| m_generate c os cfg : abbr categories c (txt "generate") -> configured os cfg -> means [c] os (Generate cfg)
| m_build c ws t os oc cfg add auto sh : abbr categories c (txt "build") -> optional ws t -> configured oc cfg ->
    (sh = true -> add = true \/ auto = true) ->
    Permutation os (oc ++ flag (txt "--add") add ++ flag (txt "--auto") auto ++ flag (txt "--shared") sh) ->
    means (c :: ws) os (Build (mkBuild t cfg add auto sh))
| m_run c ws t os oc cfg add auto sh nobuild : abbr categories c (txt "run") -> optional ws t -> configured oc cfg ->
    (sh = true -> add = true \/ auto = true) ->
    Permutation os (oc ++ flag (txt "--add") add ++ flag (txt "--auto") auto ++ flag (txt "--shared") sh ++ flag (txt "--nobuild") nobuild) ->
    means (c :: ws) os (Run (mkBuild t cfg add auto sh) (negb nobuild))
| m_alone c name a : abbr categories c name ->
    In (name, a) [(txt "open", Open); (txt "codegen", CodeGen); (txt "bootstrap", Bootstrap); (txt "cleanup", Cleanup)] -> means [c] [] a.
(** Commands that need a current build folder. *)
Definition needsFolder (a : action) : bool :=
  match a with
  | Usage n => if list_eq_dec Z.eq_dec n (txt "target") then true else if list_eq_dec Z.eq_dec n (txt "extern") then true else false
  | TargetList | TargetAdd _ _ | TargetRemove _ | TargetSet _ | TargetGraph
  | ExternList | ExternInfo _ | ExternSelect _ _ | ExternSelected | ExternInstall _ | Generate _ => true
  | _ => false
  end.
(** The second word of an extern command is the beginning of two names without being one. *)
Definition ambiguous (args : list (list Z)) : Prop :=
  exists c s m m', nth_error (words args) 0 = Some c /\ begins c (txt "extern") /\ nth_error (words args) 1 = Some s /\ In m externNames /\ In m' externNames /\ m <> m' /\ begins s m /\ begins s m' /\ ~ In s externNames.
