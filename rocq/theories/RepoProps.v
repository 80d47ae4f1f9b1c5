(* C86: inside a repo, names mean what the repo and its dependencies declare; registration. *)
From Coq Require Import String.
From Verif Require Import Base Txt ScanSpec NamesModel NamesSpec NamesProofs NamesMore NamesWrite NamesProps
  RepoModel RepoSpec RepoProofs RepoReg.
Local Open Scope string_scope.
Local Open Scope list_scope.
Local Open Scope Z_scope.
Local Notation length := List.length.

(** Three repos, two of which depend on each other, and one outside. *)
Definition ex3 : registry :=
  [ Repo (txt "game") [txt "main"; txt "util"] [] [] [txt "engine"];
    Repo (txt "other") [txt "util"; txt "extra"] [txt "zlib"] [] [];
    Repo (txt "engine") [txt "render"] [txt "zlib"] [] [txt "game"] ].
Lemma ex3_unique : unique_repos ex3.
Proof.
  unfold unique_repos. cbn. constructor; [intros [H|[H|[]]]; discriminate|]. constructor; [intros [H|[]]; discriminate|].
  constructor; [intros []|constructor].
Qed.
Lemma ex3_closed : closed ex3.
Proof.
  intros a b (r & [<-|[<-|[<-|[]]]] & _ & H); cbn [rchildren In] in H.
  - destruct H as [<-|[]]. exists (nth 2 ex3 (hd (Repo [] [] [] [] []) ex3)). split; [right; right; now left|reflexivity].
  - destruct H.
  - destruct H as [<-|[]]. exists (hd (Repo [] [] [] [] []) ex3). split; [now left|reflexivity].
Qed.
Lemma ex3_wf : wf ex3.
Proof.
  split; [exact ex3_unique|]. split; [exact ex3_closed|]. split.
  - intros r [<-|[<-|[<-|[]]]]; cbn [rtargets]; repeat (constructor; [intros H; cbn in H; intuition discriminate|]); constructor.
  - intros r e p [<-|[<-|[<-|[]]]]; intros [].
Qed.
Lemma ex3_game : is_repo ex3 (txt "game").
Proof. exists (hd (Repo [] [] [] [] []) ex3). split; [now left|reflexivity]. Qed.

(** C86. A repo's scope is searched completely, each repo once, whatever the graph of dependencies,
    with cycles; a repo is found by name exactly when it is in scope. *)
Theorem C86_scope : forall reg this, unique_repos reg -> closed reg -> is_repo reg this ->
  (NoDup (visited (fun _ => false) reg this) /\ forall x, In x (visited (fun _ => false) reg this) <-> scope reg this x) /\
  (forall n r, findChildRepo reg this n = Some r <-> In r reg /\ rname r = n /\ scope reg this n) /\
  (forall n, findChildRepo reg this n = None <-> ~ scope reg this n).
Proof.
  intros reg this Hu Hc Ht. split; [now apply visited_scope|]. split.
  - intros n r. now apply findChildRepo_spec.
  - intros n. now apply findChildRepo_none.
Qed.
Print Assumptions C86_scope.
Example C86_scope_ex : visited (fun _ => false) ex3 (txt "game") = [txt "game"; txt "engine"].
Proof. vm_compute. reflexivity. Qed.

(** C86, full statement: a dependency on a module is accepted exactly when its name is a module's name
    in scope. Proved: the module found; components left over are ignored (see below). An error is
    logged exactly when none is found. *)
Theorem C86_module_dependency_partial : forall reg this s, unique_repos reg -> closed reg -> is_repo reg this -> bytes_ok s ->
  (forall t, moduleDep reg this s = Ret (Some t) false <->
     exists comps extra, spells s (comps ++ extra) /\ module_in_scope reg this comps t) /\
  (forall t l, moduleDep reg this s = Ret t l -> l = match t with Some _ => false | None => true end) /\
  moduleDep reg this s <> Crash.
Proof. exact moduleDep_spec. Qed.
Print Assumptions C86_module_dependency_partial.
Example C86_module_ex : moduleDep ex3 (txt "game") (txt "render") = Ret (Some (txt "engine", txt "render")) false /\
  moduleDep ex3 (txt "engine") (txt "game.util") = Ret (Some (txt "game", txt "util")) false /\
  moduleDep ex3 (txt "engine") (txt "util") = Ret (Some (txt "game", txt "util")) false /\
  moduleDep ex3 (txt "game") (txt "extra") = Ret None true /\ moduleDep ex3 (txt "game") (txt "other.extra") = Ret None true.
Proof. vm_compute. repeat split. Qed.
(** A misspelt dependency such as [render.opengl] is taken for [render], without a message. *)
Theorem C86_leftover_refuted : moduleDep ex3 (txt "game") (txt "render.opengl.x") = Ret (Some (txt "engine", txt "render")) false /\
  forall t, ~ module_in_scope ex3 (txt "game") [txt "render"; txt "opengl"; txt "x"] t.
Proof.
  split; [vm_compute; reflexivity|]. intros t [(r & _ & _ & E & _)|(E & _)]; discriminate.
Qed.
Print Assumptions C86_leftover_refuted.

(** C86. A dependency on an extern is accepted exactly when its name is an extern's name in scope;
    otherwise an error is logged. *)
Theorem C86_extern_dependency : forall reg this s, unique_repos reg -> closed reg -> is_repo reg this -> bytes_ok s ->
  (forall e, externDep reg this s = Ret (Some e) false <-> exists comps, spells s comps /\ extern_in_scope reg this comps e) /\
  (externDep reg this s = Ret None true <-> forall comps e, spells s comps -> ~ extern_in_scope reg this comps e).
Proof. exact externDep_spec. Qed.
Print Assumptions C86_extern_dependency.
Example C86_extern_ex : externDep ex3 (txt "game") (txt "zlib") = Ret (Some (txt "engine", 0%nat)) false /\
  externDep ex3 (txt "other") (txt "zlib") = Ret (Some (txt "other", 0%nat)) false /\
  externDep ex3 (txt "game") (txt "other.zlib") = Ret None true /\ externDep ex3 (txt "game") (txt "zlib.x") = Ret None true.
Proof. vm_compute. repeat split. Qed.

(** C86. Registering a provider: it is appended to the repo's providers for the extern its name stands
    for in scope; if there is none and the name is unqualified, or qualified by the repo itself, a new
    extern of this repo is appended first. Nothing else changes. In every other case the process ends. *)
Theorem C86_register_provider : forall reg this en pn reg', unique_repos reg -> closed reg -> is_repo reg this -> bytes_ok en ->
  (addExternProvider reg this en pn = Some reg' <-> ~ In 46 pn /\
   exists comps new e, spells en comps /\ registered reg this new e pn reg' /\
   ((new = [] /\ extern_in_scope reg this comps e) \/
    (exists n r, new = [n] /\ (forall e', ~ extern_in_scope reg this comps e') /\ In r reg /\ rname r = this /\
       e = (this, length (rexterns r)) /\ ((comps = [n] /\ ~ scope reg this n) \/ comps = [this; n])))).
Proof. exact addProvider_spec. Qed.
Print Assumptions C86_register_provider.
Definition ex3_calls : list regcall :=
  [ AddProvider (txt "engine") (txt "zlib") (txt "apt"); AddProvider (txt "game") (txt "sdl") (txt "brew");
    AddTarget (txt "game") (txt "tools"); AddProvider (txt "game") (txt "engine.zlib") (txt "apt") ].
Example C86_register_ex : option_map (fun reg => map (fun r => (rexterns r, rproviders r)) reg) (run_calls ex3 ex3_calls) =
  Some [ ([txt "sdl"], [((txt "game", 0%nat), txt "brew"); ((txt "engine", 0%nat), txt "apt")]);
         ([txt "zlib"], []); ([txt "zlib"], [((txt "engine", 0%nat), txt "apt")]) ].
Proof. vm_compute. reflexivity. Qed.

(** C86. Through any history of registrations the module names of a repo stay distinct, providers refer
    to existing externs, and the names and children of repos do not change. *)
Theorem C86_history : forall reg cs reg', unique_repos reg -> closed reg -> distinct_targets reg -> sound_providers reg ->
  Forall (call_ok reg) cs -> run_calls reg cs = Some reg' ->
  unique_repos reg' /\ closed reg' /\ distinct_targets reg' /\ sound_providers reg' /\
  map (fun r => (rname r, rchildren r)) reg' = map (fun r => (rname r, rchildren r)) reg.
Proof.
  intros reg cs reg' H1 H2 H3 H4 Hc H. destruct (wf_run reg cs reg' (conj H1 (conj H2 (conj H3 H4))) Hc H) as [(A & B & C & D) E].
  split; [exact A|]. split; [exact B|]. split; [exact C|]. split; [exact D|]. symmetry. exact E.
Qed.
Print Assumptions C86_history.
(** C86, full statement: externs of one repo stay distinct, so that every provider can be named. Proved:
    if no unqualified extern name given is ambiguous at that time. *)
Theorem C86_distinct_partial : forall reg cs reg', unique_repos reg -> closed reg -> distinct_targets reg -> sound_providers reg ->
  distinct_externs reg -> Forall (call_ok reg) cs -> unambiguous_run reg cs -> run_calls reg cs = Some reg' ->
  distinct_externs reg'.
Proof. intros reg cs reg' H1 H2 H3 H4 He Hc Ha H. exact (distinct_run reg cs reg' (conj H1 (conj H2 (conj H3 H4))) He Hc Ha H). Qed.
Print Assumptions C86_distinct_partial.
Theorem C86_nameable : forall reg r e p j, unique_repos reg -> good_names reg -> distinct_externs reg -> sound_providers reg ->
  In r reg -> first_at (fun x => x = (e, p)) (rproviders r) j ->
  exists er n, In er reg /\ rname er = fst e /\ nth_error (rexterns er) (snd e) = Some n /\
    getExternProvider reg (join [rname er; n; rname r; p]) = Ret (Some (rname r, j)) false.
Proof. exact provider_reachable. Qed.
Print Assumptions C86_nameable.
Example C86_history_ex : wf ex3 /\ distinct_externs ex3 /\ Forall (call_ok ex3) ex3_calls /\ run_calls ex3 ex3_calls <> None /\
  option_map (fun reg => getExternProvider reg (txt "engine.zlib.game.apt")) (run_calls ex3 ex3_calls) = Some (Ret (Some (txt "game", 1%nat)) false).
Proof.
  split; [exact ex3_wf|]. split.
  { intros r [<-|[<-|[<-|[]]]]; cbn [rexterns]; repeat (constructor; [intros []|]); constructor. }
  split.
  { assert (He : is_repo ex3 (txt "engine")) by (exists (nth 2 ex3 (hd (Repo [] [] [] [] []) ex3)); split; [right; right; now left|reflexivity]).
    assert (Hb : forall w, ident_b w = true -> bytes_ok w) by (intros w Hw; now apply ident_bytes, ident_by).
    constructor; [split; [exact He|apply Hb; vm_compute; reflexivity]|]. constructor; [split; [exact ex3_game|apply Hb; vm_compute; reflexivity]|].
    constructor; [exact ex3_game|]. constructor; [|constructor]. split; [exact ex3_game|].
    change (txt "engine.zlib") with (join [txt "engine"; txt "zlib"]). apply join_bytes. apply idents_by. vm_compute. reflexivity. }
  split; [vm_compute; discriminate|vm_compute; reflexivity].
Qed.

Example C86_unambiguous_ex : unambiguous_run ex3 [AddProvider (txt "other") (txt "zlib") (txt "apt")] /\
  run_calls ex3 [AddProvider (txt "other") (txt "zlib") (txt "apt")] <> None.
Proof.
  split; [|vm_compute; discriminate]. split; [|intros reg' _; exact I].
  intros n _ (r & r' & Hne & Hr & Hr' & S1 & S2 & _).
  assert (Ho : is_repo ex3 (txt "other")) by (exists (nth 1 ex3 (hd (Repo [] [] [] [] []) ex3)); split; [right; now left|reflexivity]).
  destruct (visited_scope ex3 (txt "other") ex3_unique ex3_closed Ho) as [_ V].
  apply V in S1. apply V in S2. change (visited (fun _ => false) ex3 (txt "other")) with [txt "other"] in *.
  destruct S1 as [S1|[]], S2 as [S2|[]]. apply Hne. apply (unique_eq ex3); auto; [exact ex3_unique|congruence].
Qed.

(** An ambiguous name makes a second extern of the same name, which no name finds, nor its providers. *)
Definition ex_dup : registry :=
  [ Repo (txt "game") [] [txt "zlib"] [] [txt "engine"]; Repo (txt "engine") [] [txt "zlib"] [] [] ].
Theorem C86_duplicate_extern_refuted :
  (forall reg r i i' n s, unique_repos reg -> bytes_ok s -> In r reg -> (i < i')%nat ->
   nth_error (rexterns r) i = Some n -> nth_error (rexterns r) i' = Some n ->
   (forall l, findExtern reg s <> Ret (Some (rname r, i')) l) /\
   (forall q r' p, getExternProvider reg s = Ret (Some q) false -> In r' reg -> fst q = rname r' ->
     nth_error (rproviders r') (snd q) <> Some ((rname r, i'), p))) /\
  addExternProvider ex_dup (txt "game") (txt "zlib") (txt "apt") =
    Some [ Repo (txt "game") [] [txt "zlib"; txt "zlib"] [((txt "game", 1%nat), txt "apt")] [txt "engine"];
           Repo (txt "engine") [] [txt "zlib"] [] [] ].
Proof. split; [exact shadowed_extern|vm_compute; reflexivity]. Qed.
Print Assumptions C86_duplicate_extern_refuted.
(** A provider registered twice under one name is accepted; no name finds the second. *)
Theorem C86_duplicate_provider_refuted :
  (forall reg r j j' q s, unique_repos reg -> bytes_ok s -> In r reg -> (j < j')%nat ->
   nth_error (rproviders r) j = Some q -> nth_error (rproviders r) j' = Some q ->
   getExternProvider reg s <> Ret (Some (rname r, j')) false) /\
  option_map (map rproviders) (run_calls ex3 [AddProvider (txt "other") (txt "zlib") (txt "apt"); AddProvider (txt "other") (txt "zlib") (txt "apt")]) =
    Some [[]; [((txt "other", 0%nat), txt "apt"); ((txt "other", 0%nat), txt "apt")]; []].
Proof. split; [exact shadowed_provider|vm_compute; reflexivity]. Qed.
Print Assumptions C86_duplicate_provider_refuted.
