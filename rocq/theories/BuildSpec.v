(* What a target gets from the targets it depends on. *)
From Verif Require Export BuildModel.

(** Graphs of dependencies: the entries before anything is handed on. *)
Definition depsOf (ns : list entry) (d : nat) : list (vis * nat) := match node ns d with Some n => deps n | None => [] end.
Definition edge (ns : list entry) (d c : nat) : Prop := exists v, In (v, c) (depsOf ns d).
(** What is visible through a dependency: itself, and all that its public dependencies show. *)
Inductive shows (ns : list entry) : nat -> nat -> Prop :=
| shows_self d : shows ns d d
| shows_step d c e : In (Public, c) (depsOf ns d) -> shows ns c e -> shows ns d e.
(** What a target is built against: itself, and all that its dependencies show. *)
Definition builds (ns : list entry) (d e : nat) : Prop := e = d \/ exists c, edge ns d c /\ shows ns c e.
(** No loops; all dependencies are there; nothing has been handed on. *)
Definition acyclic (ns : list entry) : Prop := exists rank : nat -> nat, forall d c, edge ns d c -> (rank c < rank d)%nat.
Definition closed (ns : list entry) : Prop := forall d c, edge ns d c -> node ns c <> None.
Definition fresh (ns : list entry) : Prop := forall d n, node ns d = Some n -> done n = false /\ seen n = [].
(** A key is defined once in each list. *)
Definition keyed (ns : list entry) : Prop := forall d n, node ns d = Some n -> NoDup (map fst (defs n)) /\ forall t, tgt n = Some t -> NoDup (map fst (privDefs t)).

(** An item of a public list of something visible. *)
Definition offered {A} (ns : list entry) (f : dep -> list A) (d : nat) (x : A) : Prop := exists e m, shows ns d e /\ node ns e = Some m /\ In x (f m).
(** The same, of something a dependency shows. *)
Definition received {A} (ns : list entry) (f : dep -> list A) (d : nat) (x : A) : Prop := exists c, edge ns d c /\ offered ns f c x.

(** Whether the targets are linked directly, or one is in another container. *)
Definition direct_link (ns : list entry) (d c : nat) : Prop :=
  forall n m t u, node ns d = Some n -> node ns c = Some m -> tgt n = Some t -> tgt m = Some u -> container t = container u.
(** The libraries to link with: its own and those of the dependencies linked directly; these too, unless they are headers only; and the containers
    of the others. *)
Inductive linked (ns : list entry) : nat -> text -> Prop :=
| linked_own d n x : node ns d = Some n -> In x (libs n) -> linked ns d x
| linked_more d c x : edge ns d c -> direct_link ns d c -> linked ns c x -> linked ns d x
| linked_lib d c m u : edge ns d c -> direct_link ns d c -> node ns c = Some m -> tgt m = Some u -> tkind u <> HeaderOnly -> linked ns d (libName u)
| linked_container d c m u k x t : edge ns d c -> ~ direct_link ns d c -> node ns c = Some m -> tgt m = Some u -> container u = Some k -> node ns k = Some x -> tgt x = Some t -> linked ns d (tname t).
(** Items handed on along direct links. *)
Inductive along (ns : list entry) (f : dep -> list text) : nat -> text -> Prop :=
| along_own d n x : node ns d = Some n -> In x (f n) -> along ns f d x
| along_more d c x : edge ns d c -> direct_link ns d c -> along ns f c x -> along ns f d x.

(** The definitions that a container needs: for each target in a container with a prefix that it is built against. *)
Definition linkKey (ns : list entry) (d : nat) (k : text) : Prop :=
  exists b n t m u kc, builds ns d b /\ node ns d = Some n /\ tgt n = Some t /\ node ns b = Some m /\ tgt m = Some u /\ container u = Some kc /\ prefix u <> [] /\
    k = prefix u ++ (if onat_eqb (container u) (container t) then exporting else importing).
(** No key has two values, publicly or in the target itself. *)
Definition consistent (ns : list entry) (d : nat) : Prop :=
  (forall k v v', offered ns defs d (k, v) -> offered ns defs d (k, v') -> v = v') /\
  (forall n t, node ns d = Some n -> tgt n = Some t -> forall k v v',
     In (k, v) (privDefs t) \/ received ns defs d (k, v) -> In (k, v') (privDefs t) \/ received ns defs d (k, v') -> v = v').
(** What the assertions demand: a dependency in another container is in one; a target in a container is not built against one that is in none. *)
Definition linkable (ns : list entry) (d : nat) : Prop :=
  (forall c m u, edge ns d c -> ~ direct_link ns d c -> node ns c = Some m -> tgt m = Some u -> exists k x t, container u = Some k /\ node ns k = Some x /\ tgt x = Some t) /\
  (forall n t b m u, node ns d = Some n -> tgt n = Some t -> builds ns d b -> node ns b = Some m -> tgt m = Some u -> container u = None -> container t = None).

(** The same, apart from what is handed on. *)
Definition sameTarget (t t' : target) : Prop := tkind t' = tkind t /\ tname t' = tname t /\ container t' = container t /\ prefix t' = prefix t /\ anySources t' = anySources t.
(** [n'] is [n] with all it is to get. *)
Record handed (ns : list entry) (d : nat) (n n' : dep) : Prop := mkhanded {
  hd_deps : deps n' = deps n;
  hd_done : done n' = true;
  hd_seen : NoDup (seen n') /\ forall e, In e (seen n') <-> shows ns d e;
  hd_incs : (exists more, incs n' = incs n ++ more /\ (NoDup (incs n) -> NoDup (incs n'))) /\ forall x, In x (incs n') <-> offered ns incs d x;
  hd_flags : (exists more, flags n' = flags n ++ more /\ (NoDup (flags n) -> NoDup (flags n'))) /\ forall x, In x (flags n') <-> offered ns flags d x;
  hd_defs : (exists more, defs n' = defs n ++ more) /\ NoDup (map fst (defs n')) /\ (forall k v, In (k, v) (defs n') -> offered ns defs d (k, v)) /\
            (forall k v, offered ns defs d (k, v) -> In k (map fst (defs n')));
  hd_libs : (exists more, libs n' = libs n ++ more) /\ forall x, In x (libs n') <-> linked ns d x;
  hd_dlls : (exists more, dlls n' = dlls n ++ more) /\ forall x, In x (dlls n') <-> along ns dlls d x;
  hd_frames : (exists more, frames n' = frames n ++ more) /\ forall x, In x (frames n') <-> along ns frames d x;
  hd_tgt : match tgt n, tgt n' with
    | None, None => True
    | Some t, Some t' =>
      sameTarget t t' /\
      ((exists more, privIncs t' = privIncs t ++ more /\ (NoDup (privIncs t) -> NoDup (privIncs t'))) /\ forall x, In x (privIncs t') <-> In x (privIncs t) \/ received ns incs d x) /\
      ((exists more, privFlags t' = privFlags t ++ more /\ (NoDup (privFlags t) -> NoDup (privFlags t'))) /\ forall x, In x (privFlags t') <-> In x (privFlags t) \/ received ns flags d x) /\
      (NoDup (map fst (privDefs t')) /\
       (forall k, linkKey ns d k -> In (k, one) (privDefs t')) /\
       (forall k v, ~ linkKey ns d k -> In (k, v) (privDefs t) -> In (k, v) (privDefs t')) /\
       (forall k v, ~ linkKey ns d k -> In (k, v) (privDefs t') -> In (k, v) (privDefs t) \/ received ns defs d (k, v)) /\
       (forall k v, received ns defs d (k, v) -> In k (map fst (privDefs t'))) /\
       (forall k, In k (map fst (privDefs t')) -> linkKey ns d k \/ In k (map fst (privDefs t)) \/ exists v, received ns defs d (k, v)))
    | _, _ => False
    end }.
