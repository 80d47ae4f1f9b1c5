(* What the targets of a project are. *)
From Verif Require Export BuildModel.

(** The sources that a module function asks for, in order. *)
Definition wants (cs : list call) : list (vis * nat) := flat_map (fun c => match c with CDep v s => [(v, s)] | _ => [] end) cs.
Definition callsOf (env : nat -> source) (s : nat) : list call := match env s with STarget _ f => f | SExtern _ => [] end.
Definition needs (env : nat -> source) (s s' : nat) : Prop := exists v, In (v, s') (wants (callsOf env s)).
Inductive reaches (env : nat -> source) : nat -> nat -> Prop :=
| reaches_self s : reaches env s s
| reaches_step s c x : needs env s c -> reaches env c x -> reaches env s x.
Definition isTarget (env : nat -> source) (s : nat) : bool := match env s with STarget _ _ => true | SExtern _ => false end.
(** Targets, and externs that have been selected and installed. *)
Definition present (env : nat -> source) (s : nat) : bool :=
  match env s with STarget _ _ => true | SExtern (Some (_, Some _)) => true | SExtern _ => false end.

(** What is wrong with a source: it needs itself, asks for something twice, or gives one definition two values. *)
Definition onLoop (env : nat -> source) (s : nat) : Prop := exists c, needs env s c /\ reaches env c s.
Definition twice (env : nat -> source) (s : nat) : Prop := ~ NoDup (filter (present env) (map snd (wants (callsOf env s)))).
Definition clash (env : nat -> source) (s : nat) : Prop := exists k v v', In (CDef Public k v) (callsOf env s) /\ In (CDef Public k v') (callsOf env s) /\ v <> v'.
Definition broken (env : nat -> source) (s : nat) : Prop := onLoop env s \/ twice env s \/ clash env s.

(** The directories, the last type and prefix, and the last value of each definition. *)
Definition pubDirs (cs : list call) : list text := flat_map (fun c => match c with CInc Public d => [d] | _ => [] end) cs.
Definition allDirs (cs : list call) : list text := flat_map (fun c => match c with CInc _ d => [d] | _ => [] end) cs.
Definition lastType (cs : list call) : ttype := fold_left (fun k c => match c with CType k => k | _ => k end) cs Lib.
Definition lastPrefix (cs : list call) : text := fold_left (fun p c => match c with CPrefix p => p | _ => p end) cs [].
Definition hasSources (cs : list call) : bool := existsb (fun c => match c with CSources => true | _ => false end) cs.
Definition lastDef (cs : list call) (k v : text) : Prop := exists a u b, cs = a ++ CDef u k v :: b /\ forall u' v', ~ In (CDef u' k v') b.
(** The entry with that index is for that source. *)
Definition at_ (es : list entry) (i s : nat) : Prop := exists e, nth_error es i = Some e /\ esrc e = s.
Definition atSrc (es : list entry) (o c : option nat) : Prop := match o, c with None, None => True | Some i, Some s => at_ es i s | _, _ => False end.
(** A root is a DLL unless it says otherwise; without source files there is nothing to link. *)
Definition typeOf (cs : list call) (inContainer root : bool) : ttype :=
  match lastType cs with
  | Lib => if root then DLL else if negb (hasSources cs) then HeaderOnly else if inContainer && negb (Nat.eqb (length (lastPrefix cs)) 0) then ObjectLib else Lib
  | ObjectLib => if hasSources cs then ObjectLib else HeaderOnly
  | k => k
  end.
(** The dependency for a source; [c]: what it is contained in. *)
Definition made (env : nat -> source) (es : list entry) (s : nat) (c : option nat) (root : bool) (n : dep) : Prop :=
  match env s with
  | STarget name cs =>
    ready n = true /\ done n = false /\ seen n = [] /\ libs n = [] /\ dlls n = [] /\ frames n = [] /\ flags n = [] /\
    Forall2 (fun p q => fst p = fst q /\ at_ es (snd p) (snd q)) (deps n) (filter (fun q => present env (snd q)) (wants cs)) /\
    incs n = pubDirs cs /\ NoDup (map fst (defs n)) /\ (forall k v, In (k, v) (defs n) <-> In (CDef Public k v) cs) /\
    exists t, tgt n = Some t /\ tname t = name /\ atSrc es (container t) c /\ prefix t = lastPrefix cs /\ privIncs t = allDirs cs /\ privFlags t = [] /\ anySources t = hasSources cs /\
      NoDup (map fst (privDefs t)) /\ (forall k v, In (k, v) (privDefs t) <-> lastDef cs k v) /\ tkind t = typeOf cs (match c with Some _ => true | None => false end) root
  | SExtern (Some (_, Some m)) => n = mkdep [] true false [] (incs m) (defs m) (libs m) (dlls m) (frames m) (flags m) None
  | SExtern _ => False
  end.

(** What some of the roots need. *)
Definition rooted (env : nat -> source) (rs : list (nat * bool)) (x : nat) : Prop := exists s b, In (s, b) rs /\ reaches env s x.
(** The container in use after some of the roots: the last shared one that was not needed by those before it. *)
Inductive holder (env : nat -> source) : list (nat * bool) -> option nat -> Prop :=
| holder_none : holder env [] None
| holder_new rs s : isTarget env s = true -> ~ rooted env rs s -> holder env (rs ++ [(s, true)]) (Some s)
| holder_old rs s b c : holder env rs c -> b = false \/ isTarget env s = false \/ rooted env rs s -> holder env (rs ++ [(s, b)]) c.
(** The entries for the sources that the roots need. *)
Definition entryOk (env : nat -> source) (rs : list (nat * bool)) (es : list entry) (e : entry) : Prop :=
  match edep e with
  | None => present env (esrc e) = false
  | Some n => exists a s b r c, rs = a ++ (s, b) :: r /\ reaches env s (esrc e) /\ ~ rooted env a (esrc e) /\ holder env (a ++ [(s, b)]) c /\ made env es (esrc e) c (b && Nat.eqb (esrc e) s) n
  end.
