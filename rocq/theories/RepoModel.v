(* Model of name lookup inside a repo and its children, and of registration.
   repos/plywood/src/build/repo/ply-build-repo: Repo.cpp, Repo.h:34-42, ModuleArgs.cpp:71-123.
   Simplified as in NamesModel.v: a repo pointer is the repo's name, and the registry maps names to
   repos; externs are created without the text of their messages. *)
From Verif Require Export Base NamesModel.

(** [repo->childRepos]. *)
Definition children (reg : registry) (n : name) : list name :=
  match find_repo reg n with Some r => rchildren r | None => [] end.

(** Repo.cpp:58-80 [RepoVisitor::visit], with children visited after the repo (the constructor
    leaves [preChildren] true); [stop] tells where the callback returns false. Returns the repos
    called back, in order, which is also [checkedRepos]. Fuel bounds the depth of the recursion. *)
Fixpoint visit (fuel : nat) (stop : name -> bool) (reg : registry) (r : name) (checked : list name) : list name :=
  match fuel with
  | O => checked
  | S k =>
      if existsb (name_eqb r) checked then checked
      else
        let checked1 := checked ++ [r] in
        if stop r then checked1
        else fold_left (fun c ch => visit k stop reg ch c) (children reg r) checked1
  end.
Definition visited (stop : name -> bool) (reg : registry) (this : name) : list name :=
  visit (S (length reg)) stop reg this [].

(** Repo.cpp:82-92 [findChildRepo]. *)
Definition findChildRepo (reg : registry) (this n : name) : option repo :=
  if existsb (name_eqb n) (visited (name_eqb n) reg this) then find_repo reg n else None.

(** The repos called back by a visit without stops. *)
Definition visited_repos (reg : registry) (this : name) : list repo :=
  flat_map (fun x => match find_repo reg x with Some r => [r] | None => [] end) (visited (fun _ => false) reg this).
(** Repo.cpp:103-121 [findExternRecursive] and 181-198 [findTargetInstantiatorRecursive]. *)
Definition findExternRecursive (reg : registry) (this n : name) : option ext :=
  match scan_repos (fun r => findExternImm r n) (visited_repos reg this) None false with
  | (_, true) => None
  | (e, false) => e
  end.
Definition findTargetRecursive (reg : registry) (this n : name) : option (name * name) :=
  match scan_repos (fun r => findTargetImm r n) (visited_repos reg this) None false with
  | (_, true) => None
  | (t, false) => t
  end.

(** Replace the repo called [n] by [f] of it. *)
Fixpoint update_repo (reg : registry) (n : name) (f : repo -> repo) : registry :=
  match reg with
  | [] => []
  | r :: g => if name_eqb (rname r) n then f r :: g else r :: update_repo g n f
  end.
Definition add_extern (n : name) (r : repo) : repo :=
  Repo (rname r) (rtargets r) (rexterns r ++ [n]) (rproviders r) (rchildren r).
Definition add_provider (e : ext) (p : name) (r : repo) : repo :=
  Repo (rname r) (rtargets r) (rexterns r) (rproviders r ++ [(e, p)]) (rchildren r).
Definition add_target (t : name) (r : repo) : repo :=
  Repo (rname r) (rtargets r ++ [t]) (rexterns r) (rproviders r) (rchildren r).
(** [this->externs.numItems()]. *)
Definition num_externs (reg : registry) (n : name) : nat :=
  match find_repo reg n with Some r => length (rexterns r) | None => 0%nat end.

(** Repo.cpp:164-171: a new extern of this repo. *)
Definition create_extern (reg : registry) (this n : name) : ext * registry :=
  ((this, num_externs reg this), update_repo reg this (add_extern n)).

(** Repo.cpp:123-172 [findOrCreateExtern]: the extern or null (with a logged error), the components
    left, and the registry afterwards. [comps] is not empty. *)
Definition findOrCreateExtern (reg : registry) (this : name) (comps : list name) (allowCreate : bool)
  : outcome ext * list name * registry :=
  match comps with
  | [] => (Crash, [], reg)
  | c0 :: comps1 =>
      match findChildRepo reg this c0 with
      | Some child =>
          match comps1 with
          | [] => (Ret None true, [], reg)
          | c1 :: comps2 =>
              match findExternImm child c1 with
              | Some e => (Ret (Some e) false, comps2, reg)
              | None =>
                  if name_eqb (rname child) this && allowCreate
                  then let '(e, reg') := create_extern reg this c1 in (Ret (Some e) false, comps2, reg')
                  else (Ret None true, comps2, reg)
              end
          end
      | None =>
          match findExternRecursive reg this c0 with
          | Some e => (Ret (Some e) false, comps1, reg)
          | None =>
              if allowCreate
              then let '(e, reg') := create_extern reg this c0 in (Ret (Some e) false, comps1, reg')
              else (Ret None true, comps1, reg)
          end
      end
  end.

(** Repo.cpp:24-56 [addExternProvider]; [None]: the process ends (lines 29, 34, 39, 45). *)
Definition addExternProvider (reg : registry) (this externName providerName : name) : option registry :=
  match splitName externName with
  | [] => None
  | comps =>
      match findOrCreateExtern reg this comps true with
      | (Ret (Some e) _, rest, reg') =>
          match rest with
          | [] => if existsb (Z.eqb 46) providerName then None
                  else Some (update_repo reg' this (add_provider e providerName))
          | _ => None
          end
      | _ => None
      end
  end.
(** Repo.cpp:13-22 [addTargetInstantiator]; [None]: the process ends (a duplicate). *)
Definition addTargetInstantiator (reg : registry) (this t : name) : option registry :=
  match find_repo reg this with
  | Some r => if existsb (name_eqb t) (rtargets r) then None else Some (update_repo reg this (add_target t))
  | None => None
  end.

(** ModuleArgs.cpp:71-106 [addTarget]: the module depended on. Components left over are not looked at. *)
Definition moduleDep (reg : registry) (this s : name) : outcome (name * name) :=
  match splitName s with
  | [] => Ret None true
  | c0 :: comps1 =>
      match findChildRepo reg this c0 with
      | Some child =>
          match comps1 with
          | [] => Ret None true
          | c1 :: _ => match findTargetImm child c1 with Some t => Ret (Some t) false | None => Ret None true end
          end
      | None => match findTargetRecursive reg this c0 with Some t => Ret (Some t) false | None => Ret None true end
      end
  end.
(** ModuleArgs.cpp:108-123 [addExtern]: the extern depended on. *)
Definition externDep (reg : registry) (this s : name) : outcome ext :=
  match splitName s with
  | [] => Ret None true
  | comps =>
      match findOrCreateExtern reg this comps false with
      | (Ret (Some e) l, rest, _) => match rest with [] => Ret (Some e) l | _ => Ret None true end
      | (o, _, _) => o
      end
  end.

(** One registration call made by the DLL of a repo, and a run of them. *)
Inductive regcall := AddTarget (this t : name) | AddProvider (this e p : name).
Definition run_call (reg : registry) (c : regcall) : option registry :=
  match c with
  | AddTarget this t => addTargetInstantiator reg this t
  | AddProvider this e p => addExternProvider reg this e p
  end.
Fixpoint run_calls (reg : registry) (cs : list regcall) : option registry :=
  match cs with
  | [] => Some reg
  | c :: r => match run_call reg c with Some reg' => run_calls reg' r | None => None end
  end.
