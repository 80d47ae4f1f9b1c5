(* Specification vocabulary for lookups inside a repo and for registration. *)
From Verif Require Export Base NamesSpec RepoModel.

(** Being a child, and being in the scope of a repo: itself, its children, theirs, and so on. *)
Definition child (reg : registry) (a b : name) : Prop := exists r, In r reg /\ rname r = a /\ In b (rchildren r).
Inductive scope (reg : registry) (a : name) : name -> Prop :=
| scope_self : scope reg a a
| scope_child b c : scope reg a b -> child reg b c -> scope reg a c.

(** Children exist, and so does the repo itself. *)
Definition closed (reg : registry) : Prop := forall a b, child reg a b -> is_repo reg b.

(** Exactly one repo in the scope of [this] offers something. *)
Definition only_in_scope (offers : repo -> Prop) (reg : registry) (this : name) (r : repo) : Prop :=
  only_in (fun r' => scope reg this (rname r') /\ offers r') reg r.

(** The module and extern that components stand for inside the repo [this]: [repo.name] with a repo in
    scope; or [name], when no repo in scope is called that, and exactly one of them offers it. *)
Definition module_in_scope (reg : registry) (this : name) (comps : list name) (t : name * name) : Prop :=
  (exists r, In r reg /\ scope reg this (rname r) /\ comps = [rname r; snd t] /\ In (snd t) (rtargets r) /\ fst t = rname r) \/
  (comps = [snd t] /\ ~ scope reg this (snd t) /\
   exists r, only_in_scope (fun r' => In (snd t) (rtargets r')) reg this r /\ fst t = rname r).
Definition extern_in_scope (reg : registry) (this : name) (comps : list name) (e : ext) : Prop :=
  exists r n, In r reg /\ fst e = rname r /\ first_at (fun d => d = n) (rexterns r) (snd e) /\
  ((scope reg this (rname r) /\ comps = [rname r; n]) \/
   (comps = [n] /\ ~ scope reg this n /\ only_in_scope (fun r' => In n (rexterns r')) reg this r)).

(** No repo has two externs, or two modules, of one name. *)
Definition distinct_externs (reg : registry) : Prop := forall r, In r reg -> NoDup (rexterns r).
Definition distinct_targets (reg : registry) : Prop := forall r, In r reg -> NoDup (rtargets r).

(** The externs the providers refer to exist. *)
Definition sound_providers (reg : registry) : Prop :=
  forall r e p, In r reg -> In (e, p) (rproviders r) ->
  exists er n, In er reg /\ rname er = fst e /\ nth_error (rexterns er) (snd e) = Some n.

(** An unqualified extern name that several repos in scope declare. *)
Definition ambiguous (reg : registry) (this n : name) : Prop :=
  exists r r', r <> r' /\ In r reg /\ In r' reg /\ scope reg this (rname r) /\ scope reg this (rname r') /\
               In n (rexterns r) /\ In n (rexterns r').

(** [registered reg this new e p reg']: the repo called [this] has got the externs [new] and the
    provider [p] of the extern [e], at the ends of its lists, and nothing else has changed. *)
Definition registered (reg : registry) (this : name) (new : list name) (e : ext) (p : name) (reg' : registry) : Prop :=
  exists a r b, reg = a ++ r :: b /\ rname r = this /\
    reg' = a ++ Repo (rname r) (rtargets r) (rexterns r ++ new) (rproviders r ++ [(e, p)]) (rchildren r) :: b.

(** No call of a run gives an unqualified extern name that is ambiguous at that time. *)
Fixpoint unambiguous_run (reg : registry) (cs : list regcall) : Prop :=
  match cs with
  | [] => True
  | c :: r =>
      match c with
      | AddProvider this e p => forall n, spells e [n] -> ~ ambiguous reg this n
      | AddTarget _ _ => True
      end /\ forall reg', run_call reg c = Some reg' -> unambiguous_run reg' r
  end.
(** The texts given in a run are byte strings, and the repos calling exist. *)
Definition call_ok (reg : registry) (c : regcall) : Prop :=
  match c with
  | AddProvider this e p => is_repo reg this /\ bytes_ok e
  | AddTarget this t => is_repo reg this
  end.
