(* Specification vocabulary for names in the registry. *)
From Verif Require Export Base ScanSpec NamesModel.

(** Components written with dots between them. *)
Fixpoint join (comps : list name) : name :=
  match comps with
  | [] => []
  | [c] => c
  | c :: r => c ++ 46 :: join r
  end.

(** [spells s comps]: [s] is one or more identifiers (letters, underscore, dash, non-ASCII bytes, and
    digits except at the start) separated by dots. *)
Definition spells (s : name) (comps : list name) : Prop :=
  comps <> [] /\ Forall (ident 2) comps /\ s = join comps.

(** No two repos have the same name (they are the keys of a map). *)
Definition unique_repos (reg : registry) : Prop := NoDup (map rname reg).
Definition is_repo (reg : registry) (n : name) : Prop := exists r, In r reg /\ rname r = n.

(** The element at [i] is the first that satisfies [P]. *)
Definition first_at {A} (P : A -> Prop) (l : list A) (i : nat) : Prop :=
  (exists x, nth_error l i = Some x /\ P x) /\ forall j x, (j < i)%nat -> nth_error l j = Some x -> ~ P x.

(** [hits P reg x r]: the things a repo offers under some name, one at most per repo. The unqualified
    name picks [x] of [r] when no other repo offers anything. *)
Definition only_in (offers : repo -> Prop) (reg : registry) (r : repo) : Prop :=
  In r reg /\ offers r /\ forall r', In r' reg -> offers r' -> r' = r.

(** The module a list of components stands for: [repo.module], or [module] when that is not the name
    of a repo and exactly one repo has such a module. *)
Definition target_named (reg : registry) (comps : list name) (t : name * name) : Prop :=
  (exists r, In r reg /\ comps = [rname r; snd t] /\ In (snd t) (rtargets r) /\ fst t = rname r) \/
  (comps = [snd t] /\ ~ is_repo reg (snd t) /\
   exists r, only_in (fun r' => In (snd t) (rtargets r')) reg r /\ fst t = rname r).

(** The extern a list of components stands for. *)
Definition extern_named (reg : registry) (comps : list name) (e : ext) : Prop :=
  exists r n, In r reg /\ fst e = rname r /\ first_at (fun d => d = n) (rexterns r) (snd e) /\
  (comps = [rname r; n] \/
   (comps = [n] /\ ~ is_repo reg n /\ only_in (fun r' => In n (rexterns r')) reg r)).

(** The provider of the extern [e] a list of components stands for. *)
Definition provider_named (reg : registry) (e : ext) (comps : list name) (q : name * nat) : Prop :=
  exists r p, In r reg /\ fst q = rname r /\ first_at (fun x => x = (e, p)) (rproviders r) (snd q) /\
  (comps = [rname r; p] \/
   (comps = [p] /\ ~ is_repo reg p /\ only_in (fun r' => In (e, p) (rproviders r')) reg r)).

(** All names in the registry are identifiers. *)
Definition good_names (reg : registry) : Prop :=
  forall r, In r reg -> ident 2 (rname r) /\ Forall (ident 2) (rtargets r) /\ Forall (ident 2) (rexterns r) /\
                        Forall (fun q => ident 2 (snd q)) (rproviders r).
