(* Model of the names of modules, externs and extern providers in plytool.
   repos/plywood/src/build/repo/ply-build-repo: DependencySource.cpp, RepoRegistry.cpp, Repo.cpp,
   ExternProvider.cpp, ModuleArgs.cpp.
   Simplified: a pointer to a module is the pair (repo name, module name); a pointer to an extern or
   to a provider is the pair (repo name, index in that repo's array). The registry's hash map of
   repos is the list of its repos in iteration order; the theorems hold for every order. Functions
   attached to modules and providers, and the texts of messages, are left out; whether a message was
   logged is kept. [ErrorHandler::log] with level Error returns to its caller; with level Fatal it
   ends the process. *)
From Verif Require Export Base ScanModel StringViewModel NumTextModel.

Definition name := list Z.

(** StringView.h [operator==]: byte by byte. *)
Fixpoint name_eqb (a b : name) : bool :=
  match a, b with
  | [], [] => true
  | x :: a', y :: b' => (x =? y) && name_eqb a' b'
  | _, _ => false
  end.

(** DependencySource.h: an extern, as (owning repo, index in [Repo::externs]). *)
Definition ext := (name * nat)%type.
Definition ext_eqb (a b : ext) : bool := name_eqb (fst a) (fst b) && Nat.eqb (snd a) (snd b).

(** Repo.h:20-45 [Repo]: its name, modules, externs, providers (extern provided, provider name) and
    child repos. *)
Record repo := Repo { rname : name; rtargets : list name; rexterns : list name;
                      rproviders : list (ext * name); rchildren : list name }.
Definition registry := list repo.

(** What a lookup does: returns a pointer or null, having logged an error or not; or fails an
    assertion. *)
Inductive outcome (A : Type) := Ret (r : option A) (logged : bool) | Crash.
Arguments Ret {A} r logged.
Arguments Crash {A}.

(** algorithm/Find.h:24-31 [find]: the first index. *)
Fixpoint find_at {A} (f : A -> bool) (l : list A) (i : nat) : option nat :=
  match l with
  | [] => None
  | x :: r => if f x then Some i else find_at f r (S i)
  end.

(** HashMap lookup by repo name: [RepoRegistry::repos.find]. *)
Definition find_repo (reg : registry) (n : name) : option repo := find (fun r => name_eqb (rname r) n) reg.

(** DependencySource.cpp:20-38 the loop of [splitName]; [start] is [getSeekPos() == 0]. Fuel: the
    number of bytes left plus one (every turn reads at least one byte). *)
Fixpoint split_loop (fuel : nat) (ins : list Z) (start : bool) (acc : list name) : option (list name) :=
  match ins with
  | [] => Some acc
  | c :: r =>
      match fuel with
      | O => None
      | S k =>
          match (if start then Some ins else if c =? 46 then Some r else None) with
          | None => None
          | Some ins1 =>
              let rest := snd (parse_identifier ins1 WithDash) in
              let id := firstn (length ins1 - length rest) ins1 in
              match id with
              | [] => None
              | _ => split_loop k rest false (acc ++ [id])
              end
          end
      end
  end.
(** DependencySource.cpp:18-45 [splitName]; the empty result comes with a logged error. *)
Definition splitName (s : name) : list name :=
  match split_loop (S (length s)) s true [] with Some l => l | None => [] end.

(** RepoRegistry.cpp:201-211, 252-264, 347-360: the loops over all repos, remembering the first hit
    and whether there was another. *)
Fixpoint scan_repos {A} (look : repo -> option A) (reg : registry) (hit : option A) (conflict : bool)
  : option A * bool :=
  match reg with
  | [] => (hit, conflict)
  | r :: reg' =>
      match look r with
      | None => scan_repos look reg' hit conflict
      | Some x => match hit with
                  | None => scan_repos look reg' (Some x) conflict
                  | Some _ => scan_repos look reg' hit true
                  end
      end
  end.

(** Repo.cpp:174-179 [findTargetInstantiatorImm]. *)
Definition findTargetImm (r : repo) (t : name) : option (name * name) :=
  if existsb (name_eqb t) (rtargets r) then Some (rname r, t) else None.
(** Repo.cpp:94-101 [findExternImm]. *)
Definition findExternImm (r : repo) (n : name) : option ext :=
  match find_at (fun d => name_eqb d n) (rexterns r) 0 with Some i => Some (rname r, i) | None => None end.

(** RepoRegistry.cpp:166-226 [findTargetInstantiator]. *)
Definition findTarget (reg : registry) (s : name) : outcome (name * name) :=
  match splitName s with
  | [] => Ret None true
  | c0 :: more =>
      match find_repo reg c0 with
      | Some r =>
          match more with
          | [] => Ret None true
          | [c1] => match findTargetImm r c1 with Some t => Ret (Some t) false | None => Ret None true end
          | _ => Ret None true
          end
      | None =>
          match more with
          | [] => match scan_repos (fun r => findTargetImm r c0) reg None false with
                  | (None, _) => Ret None true
                  | (Some _, true) => Ret None true
                  | (Some t, false) => Ret (Some t) false
                  end
          | _ => Ret None true
          end
      end
  end.

(** RepoRegistry.cpp:228-280 [findExternInternal]; also returns the components left. The message at
    line 245 reads [externName[1]], which asserts that the name has a second byte. *)
Definition findExternInternal (reg : registry) (comps : list name) : outcome ext * list name :=
  match comps with
  | [] => (Crash, comps)
  | c0 :: comps1 =>
      match find_repo reg c0 with
      | Some r =>
          match comps1 with
          | [] => (Ret None true, [])
          | c1 :: comps2 =>
              match findExternImm r c1 with
              | Some e => (Ret (Some e) false, comps2)
              | None => if (1 <? length c1)%nat then (Ret None true, comps2) else (Crash, comps2)
              end
          end
      | None =>
          match scan_repos (fun r => findExternImm r c0) reg None false with
          | (None, _) => (Ret None true, comps1)
          | (Some _, true) => (Ret None true, comps1)
          | (Some e, false) => (Ret (Some e) false, comps1)
          end
      end
  end.

(** RepoRegistry.cpp:282-295 [findExtern]. *)
Definition findExtern (reg : registry) (s : name) : outcome ext :=
  match splitName s with
  | [] => Ret None true
  | comps =>
      match findExternInternal reg comps with
      | (Ret (Some e) l, rest) => Ret (Some e) (l || match rest with [] => false | _ => true end)
      | (o, _) => o
      end
  end.

(** RepoRegistry.cpp:322-324, 350-352: the provider for [e] called [p] in one repo. *)
Definition findProviderImm (e : ext) (p : name) (r : repo) : option (name * nat) :=
  match find_at (fun q => ext_eqb (fst q) e && name_eqb (snd q) p) (rproviders r) 0 with
  | Some j => Some (rname r, j)
  | None => None
  end.

(** RepoRegistry.cpp:297-386 [getExternProvider]. With no component left an error is logged (308-312)
    and then [comps[0]] (313) fails the assertion of ArrayView.h. *)
Definition getExternProvider (reg : registry) (s : name) : outcome (name * nat) :=
  match splitName s with
  | [] => Ret None true
  | comps =>
      match findExternInternal reg comps with
      | (Crash, _) => Crash
      | (Ret None l, _) => Ret None l
      | (Ret (Some e) _, rest) =>
          match rest with
          | [] => Crash
          | p0 :: rest1 =>
              match find_repo reg p0 with
              | Some r =>
                  match rest1 with
                  | [] => Ret None true
                  | p1 :: rest2 =>
                      match findProviderImm e p1 r with
                      | None => Ret None true
                      | Some q => match rest2 with [] => Ret (Some q) false | _ => Ret None true end
                      end
                  end
              | None =>
                  match scan_repos (findProviderImm e p0) reg None false with
                  | (None, _) => Ret None true
                  | (Some _, true) => Ret None true
                  | (Some q, false) => match rest1 with [] => Ret (Some q) false | _ => Ret None true end
                  end
              end
          end
      end
  end.

(** String::format with "{}.{}" and the like. *)
Definition dotted (a b : name) : name := a ++ 46 :: b.

(** DependencySource.cpp:13-15 [getFullyQualifiedName], for a module or extern of repo [r] called [n]. *)
Definition depFullName (r n : name) : name := dotted r n.

(** The name of an extern: [extern_->name]. *)
Definition ext_name (reg : registry) (e : ext) : option name :=
  match find_repo reg (fst e) with Some r => nth_error (rexterns r) (snd e) | None => None end.

(** ExternProvider.cpp:17-25 [getFullyQualifiedName], for the provider called [p] of repo [r] for the
    extern [n] of repo [er]. *)
Definition provFullName (er n r p : name) : name :=
  if name_eqb r er then dotted (dotted r n) p else dotted (dotted (dotted er n) r) p.

(** RepoRegistry.cpp:388-400 [getShortDepSourceName], for the module or extern [n] of repo [r]: in
    either case the other repos' externs are searched. *)
Definition shortDepName (reg : registry) (r n : name) : name :=
  if existsb (fun r' => negb (name_eqb (rname r') r) &&
                        match find_at (fun d => name_eqb d n) (rexterns r') 0 with Some _ => true | None => false end) reg
  then dotted r n else n.

(** RepoRegistry.cpp:402-420 [getShortProviderName], for the provider called [p] of repo [r] for the
    extern [e], whose name is [n]. *)
Definition shortProvName (reg : registry) (e : ext) (n r p : name) : name :=
  let sn := shortDepName reg (fst e) n in
  if existsb (fun r' => negb (name_eqb (rname r') r) &&
                        match findProviderImm e p r' with Some _ => true | None => false end) reg
  then dotted (dotted sn r) p else dotted sn p.

(** RepoRegistry.cpp:34-37 [signatureToString], the signature as its high and low words; [None]: a
    failed assertion. *)
Definition sigWord (w : Z) : option name :=
  match sv_repeat [48] 16, print_u64 w 16 false with
  | Some z, Some d => sv_right (z ++ d) 16
  | _, _ => None
  end.
Definition signatureToString (hi lo : Z) : option name :=
  match sigWord hi, sigWord lo with Some a, Some b => Some (a ++ b) | _, _ => None end.
(** RepoRegistry.cpp:23-32 [parseSignatureString]. *)
Definition parseSignatureString (s : name) : option (Z * Z) :=
  if negb (Z.of_nat (length s) =? 32) then Some (0, 0)
  else match sv_left s 16, sv_subStr1 s 16 with
       | Some a, Some b =>
           match parse_u64 a 16, parse_u64 b 16 with
           | Some p, Some q => Some (pval p, pval q)
           | _, _ => None
           end
       | _, _ => None
       end.
