(* Model of the build targets (SRC = repos/plywood/src/build): how the targets of a project are instantiated
   (SRC/repo/ply-build-repo/ProjectInstantiator.cpp, ModuleArgs.cpp) and how include directories, definitions, flags and
   libraries are handed on to the targets that depend on them (SRC/target/ply-build-target/Dependency.cpp, BuildTarget.cpp).
   A Dependency* is the index of its entry in ProjectInstantiationResult::dependencies, a BuildTarget* that of the
   dependency that owns it; the map from sources to entries is a search (C17, C18). Strings are lists of bytes.
   A failed assertion, PLY_FORCE_CRASH and a null pointer are all [Crash]; running out of stack is [Deep].
   Not modelled: finding a target or extern by name, source files other than whether there are any, the tree of
   descriptions, and what is generated from the result. *)
From Coq Require Export List ZArith Bool. Export ListNotations.
From Verif Require Export Base StringViewModel PathModel.
Open Scope Z_scope.

Definition text := list Z.
(** SRC/target/ply-build-target/Dependency.h:14-17, 49-55. *)
Inductive vis := Private | Public.
Inductive ttype := HeaderOnly | Lib | ObjectLib | DLL | EXE.
(** Dependency.h:57-79. [container]: sharedContainer. *)
Record target := mktarget { tkind : ttype; tname : text; container : option nat; prefix : text;
  privIncs : list text; privDefs : list (text * text); privFlags : list text; anySources : bool }.
(** Dependency.h:31-42. [seen]: visibleDeps, [done]: hasBeenPropagated, [ready]: initialized. *)
Record dep := mkdep { deps : list (vis * nat); ready : bool; done : bool; seen : list nat; incs : list text; defs : list (text * text);
  libs : list text; dlls : list text; frames : list text; flags : list text; tgt : option target }.
Inductive res (A : Type) := Ok (a : A) | Crash | Deep.
Arguments Ok {A} a. Arguments Crash {A}. Arguments Deep {A}.
(** ProjectInstantiator.h:19-22. *)
Record entry := mkentry { esrc : nat; edep : option dep }.
(** What has been instantiated, and the messages given to TargetError. *)
Record world := mkworld { nodes : list entry; errors : list text }.
Fixpoint upd {A} (l : list A) (i : nat) (x : A) : list A :=
  match l, i with
  | [], _ => []
  | _ :: l, O => x :: l
  | y :: l, S i => y :: upd l i x
  end.
Definition node (ns : list entry) (d : nat) : option dep := match nth_error ns d with Some e => edep e | None => None end.
Definition setNode (ns : list entry) (d : nat) (n : dep) : list entry :=
  match nth_error ns d with Some e => upd ns d (mkentry (esrc e) (Some n)) | None => ns end.

(** Dependency.cpp:13-25. *)
Definition addDependency (v : vis) (c : nat) (ds : list (vis * nat)) : list (vis * nat) * bool :=
  if existsb (fun p => Nat.eqb (snd p) c) ds then
    (match v with
     | Public => (fix set ds := match ds with [] => [] | p :: ds => if Nat.eqb (snd p) c then (Public, snd p) :: ds else p :: set ds end) ds
     | Private => ds
     end, false)
  else (ds ++ [(v, c)], true).

(** Dependency.cpp:27-34. *)
Definition merge {A} (eqb : A -> A -> bool) (dst src : list A) : list A :=
  fold_left (fun d x => if existsb (eqb x) d then d else d ++ [x]) src dst.
Definition valueOf (k : text) (ds : list (text * text)) : option text := option_map snd (find (fun p => bytes_eqb (fst p) k) ds).
(** Dependency.cpp:36-51: the keys with clashing definitions too. *)
Fixpoint mergeDefines (dst src : list (text * text)) : list (text * text) * list text :=
  match src with
  | [] => (dst, [])
  | (k, v) :: src =>
    match valueOf k dst with
    | Some v' => let '(r, es) := mergeDefines dst src in (r, if bytes_eqb v' v then es else k :: es)
    | None => mergeDefines (dst ++ [(k, v)]) src
    end
  end.
(** SRC/target/ply-build-target/BuildTarget.cpp:105-125: what happens to privateDefines. *)
Fixpoint setDef (ds : list (text * text)) (k v : text) : list (text * text) :=
  match ds with
  | [] => [(k, v)]
  | (k', v') :: ds => if bytes_eqb k' k then (k', v) :: ds else (k', v') :: setDef ds k v
  end.
Definition onat_eqb (a b : option nat) : bool :=
  match a, b with Some x, Some y => Nat.eqb x y | None, None => true | _, _ => false end.
(** "$<TARGET_OBJECTS:" and ">". *)
Definition objectsHead : text := [36; 60; 84; 65; 82; 71; 69; 84; 95; 79; 66; 74; 69; 67; 84; 83; 58].
Definition libName (u : target) : text := match tkind u with ObjectLib => objectsHead ++ tname u ++ [62] | _ => tname u end.
Definition ctype_headerOnly (t : ttype) : bool := match t with HeaderOnly => true | _ => false end.
(** Dependency.cpp:87-91. *)
Definition staticLink (n m : dep) : bool :=
  match tgt n, tgt m with Some t, Some u => onat_eqb (container t) (container u) | _, _ => true end.
Definition isPublic (v : vis) : bool := match v with Public => true | Private => false end.
Definition addNew (x : text) (l : list text) : list text := if existsb (bytes_eqb x) l then l else l ++ [x].
(** Dependency.cpp:67-114: the body of the loop over the dependencies, after the call for the child [m]. [b]: buildDeps. *)
Definition absorb (ns : list entry) (v : vis) (n m : dep) (b : list nat) : option (dep * list nat * list text) :=
  let pub := isPublic v in
  let seen' := if pub then merge Nat.eqb (seen n) (seen m) else seen n in
  let b' := merge Nat.eqb b (seen m) in
  let '(tgt', e1) :=
    match tgt n with
    | Some t =>
      let '(pd, e) := mergeDefines (privDefs t) (defs m) in
      (Some (mktarget (tkind t) (tname t) (container t) (prefix t) (merge bytes_eqb (privIncs t) (incs m)) pd (merge bytes_eqb (privFlags t) (flags m)) (anySources t)), e)
    | None => (None, [])
    end in
  let '(defs', e2) := if pub then mergeDefines (defs n) (defs m) else (defs n, []) in
  let incs' := if pub then merge bytes_eqb (incs n) (incs m) else incs n in
  let flags' := if pub then merge bytes_eqb (flags n) (flags m) else flags n in
  if staticLink n m then
    let libs1 := merge bytes_eqb (libs n) (libs m) in
    let libs' := match tgt m with Some u => if ctype_headerOnly (tkind u) then libs1 else addNew (libName u) libs1 | None => libs1 end in
    Some (mkdep (deps n) (ready n) (done n) seen' incs' defs' libs' (merge bytes_eqb (dlls n) (dlls m)) (merge bytes_eqb (frames n) (frames m)) flags' tgt', b', e1 ++ e2)
  else
    match match tgt m with Some u => container u | None => None end with
    | None => None
    | Some k =>
      match node ns k with
      | Some x =>
        match tgt x with
        | Some c => Some (mkdep (deps n) (ready n) (done n) seen' incs' defs' (addNew (tname c) (libs n)) (dlls n) (frames n) flags' tgt', b', e1 ++ e2)
        | None => None
        end
      | None => None
      end
    end.
Fixpoint children (rec : world -> nat -> res world) (d : nat) (cs : list (vis * nat)) (b : list nat) (w : world) : res (world * list nat) :=
  match cs with
  | [] => Ok (w, b)
  | (v, c) :: cs =>
    match rec w c with
    | Ok w =>
      match node (nodes w) d, node (nodes w) c with
      | Some n, Some m =>
        match absorb (nodes w) v n m b with
        | Some (n', b', es) => children rec d cs b' (mkworld (setNode (nodes w) d n') (errors w ++ es))
        | None => Crash
        end
      | _, _ => Crash
      end
    | Crash => Crash
    | Deep => Deep
    end
  end.
(** "_EXPORTING", "_IMPORTING" and "1". *)
Definition exporting : text := [95; 69; 88; 80; 79; 82; 84; 73; 78; 71].
Definition importing : text := [95; 73; 77; 80; 79; 82; 84; 73; 78; 71].
Definition one : text := [49].
(** Dependency.cpp:117-138. *)
Fixpoint linkage (ns : list entry) (bs : list nat) (t : target) : option target :=
  match bs with
  | [] => Some t
  | b :: bs =>
    match node ns b with
    | None => None
    | Some x =>
      match tgt x with
      | None => linkage ns bs t
      | Some u =>
        match container u with
        | None => match container t with None => linkage ns bs t | Some _ => None end
        | Some k =>
          if (0 <? zlen (prefix u)) then
            linkage ns bs (mktarget (tkind t) (tname t) (container t) (prefix t) (privIncs t)
              (setDef (privDefs t) (prefix u ++ (if onat_eqb (container u) (container t) then exporting else importing)) one) (privFlags t) (anySources t))
          else linkage ns bs t
        end
      end
    end
  end.
(** Dependency.cpp:53-141. *)
Fixpoint propagate (fuel : nat) (w : world) (d : nat) : res world :=
  match fuel with
  | O => Deep
  | S fuel =>
    match node (nodes w) d with
    | None => Crash
    | Some n =>
      if done n then Ok w
      else
        let n0 := mkdep (deps n) (ready n) (done n) (seen n ++ [d]) (incs n) (defs n) (libs n) (dlls n) (frames n) (flags n) (tgt n) in
        match children (propagate fuel) d (deps n) [d] (mkworld (setNode (nodes w) d n0) (errors w)) with
        | Crash => Crash
        | Deep => Deep
        | Ok (w, b) =>
          match node (nodes w) d with
          | None => Crash
          | Some n =>
            match (match tgt n with Some t => option_map Some (linkage (nodes w) b t) | None => Some None end) with
            | None => Crash
            | Some t' => Ok (mkworld (setNode (nodes w) d (mkdep (deps n) (ready n) true (seen n) (incs n) (defs n) (libs n) (dlls n) (frames n) (flags n) t')) (errors w))
            end
          end
        end
    end
  end.
(** ProjectInstantiator.cpp:167-173. *)
Fixpoint propagateList (fuel : nat) (w : world) (ds : list nat) : res world :=
  match ds with
  | [] => Ok w
  | d :: ds =>
    match node (nodes w) d with
    | None => propagateList fuel w ds
    | Some _ =>
      match propagate fuel w d with
      | Ok w => propagateList fuel w ds
      | r => r
      end
    end
  end.
Definition propagateAll (fuel : nat) (w : world) : res world := propagateList fuel w (seq 0 (length (nodes w))).

(** ---- Instantiation ---- *)
(** A module function is a sequence of calls on its ModuleArgs (SRC/repo/ply-build-repo/ModuleArgs.cpp, BuildTarget.cpp:13-19, 21-60,
    105-125), with assignments to the public fields of the target. *)
Inductive call := CInc (v : vis) (dir : text) | CDef (v : vis) (k x : text) | CDep (v : vis) (s : nat) | CType (t : ttype) | CPrefix (p : text) | CSources.
(** A source is a target with its module function, or an extern: not selected, or selected with the provider and, if it is installed, the
    dependency it provides. *)
Inductive source := STarget (name : text) (f : list call) | SExtern (p : option (nat * option dep)).
Record inst := mkinst { entries : list entry; shared : option nat; unselected : list nat; uninstalled : list nat }.
Fixpoint findSrc (es : list entry) (s : nat) : option nat :=
  match es with
  | [] => None
  | e :: es => if Nat.eqb (esrc e) s then Some O else option_map S (findSrc es s)
  end.
Definition addNat (x : nat) (l : list nat) : list nat := if existsb (Nat.eqb x) l then l else l ++ [x].
Definition emptyDep : dep := mkdep [] false false [] [] [] [] [] [] [] None.
Definition setTgt (n : dep) (t : target) : dep := mkdep (deps n) (ready n) (done n) (seen n) (incs n) (defs n) (libs n) (dlls n) (frames n) (flags n) (Some t).
(** A call other than CDep on the dependency [n] with the target [t]. BuildTarget.cpp:13-19, 105-125. *)
Definition plainCall (c : call) (n : dep) (t : target) : option dep :=
  match c with
  | CInc v dir =>
    Some (mkdep (deps n) (ready n) (done n) (seen n) (if isPublic v then incs n ++ [dir] else incs n) (defs n) (libs n) (dlls n) (frames n) (flags n)
      (Some (mktarget (tkind t) (tname t) (container t) (prefix t) (privIncs t ++ [dir]) (privDefs t) (privFlags t) (anySources t))))
  | CDef v k x =>
    let t' := mktarget (tkind t) (tname t) (container t) (prefix t) (privIncs t) (setDef (privDefs t) k x) (privFlags t) (anySources t) in
    match v with
    | Private => Some (setTgt n t')
    | Public =>
      match valueOf k (defs n) with
      | Some x' => if bytes_eqb x' x then Some (setTgt n t') else None
      | None => Some (mkdep (deps n) (ready n) (done n) (seen n) (incs n) (defs n ++ [(k, x)]) (libs n) (dlls n) (frames n) (flags n) (Some t'))
      end
    end
  | CDep _ _ => Some n
  | CType k => Some (setTgt n (mktarget k (tname t) (container t) (prefix t) (privIncs t) (privDefs t) (privFlags t) (anySources t)))
  | CPrefix p => Some (setTgt n (mktarget (tkind t) (tname t) (container t) p (privIncs t) (privDefs t) (privFlags t) (anySources t)))
  | CSources => Some (setTgt n (mktarget (tkind t) (tname t) (container t) (prefix t) (privIncs t) (privDefs t) (privFlags t) true))
  end.
(** The calls of a module function; CDep is ModuleArgs.cpp:51-70. *)
Fixpoint run (rec : inst -> nat -> res (inst * option nat)) (i : nat) (cs : list call) (st : inst) : res inst :=
  match cs with
  | [] => Ok st
  | CDep v s :: cs =>
    match rec st s with
    | Ok (st, None) => run rec i cs st
    | Ok (st, Some j) =>
      match node (entries st) i with
      | None => Crash
      | Some n =>
        if existsb (fun p => Nat.eqb (snd p) j) (deps n) then Crash
        else run rec i cs (mkinst (setNode (entries st) i (mkdep (deps n ++ [(v, j)]) (ready n) (done n) (seen n) (incs n) (defs n) (libs n) (dlls n) (frames n) (flags n) (tgt n)))
               (shared st) (unselected st) (uninstalled st))
      end
    | Crash => Crash
    | Deep => Deep
    end
  | c :: cs =>
    match node (entries st) i with
    | None => Crash
    | Some n =>
      match tgt n with
      | None => Crash
      | Some t =>
        match plainCall c n t with
        | None => Crash
        | Some n' => run rec i cs (mkinst (setNode (entries st) i n') (shared st) (unselected st) (uninstalled st))
        end
      end
    end
  end.
(** ProjectInstantiator.cpp:69-105: the type of the target in the end. *)
Definition finalType (isRoot : bool) (sh : option nat) (t : target) : ttype :=
  let k :=
    match tkind t with
    | Lib => if isRoot then DLL else match sh with Some _ => if 0 <? zlen (prefix t) then ObjectLib else Lib | None => Lib end
    | k => k
    end in
  if anySources t then k else match k with Lib | ObjectLib => HeaderOnly | k => k end.
(** ProjectInstantiator.cpp:17-165. *)
Fixpoint instantiate (env : nat -> source) (fuel : nat) (st : inst) (s : nat) (isRoot : bool) : res (inst * option nat) :=
  match fuel with
  | O => Deep
  | S fuel =>
    match findSrc (entries st) s with
    | Some i =>
      match node (entries st) i with
      | Some n => if ready n then Ok (st, Some i) else Crash
      | None => Ok (st, None)
      end
    | None =>
      let i := length (entries st) in
      match env s with
      | STarget name f =>
        let sh := if isRoot then Some i else shared st in
        let t := mktarget Lib name sh [] [] [] [] false in
        let st := mkinst (entries st ++ [mkentry s (Some (setTgt emptyDep t))]) sh (unselected st) (uninstalled st) in
        match run (fun st s => instantiate env fuel st s false) i f st with
        | Ok st =>
          match node (entries st) i with
          | Some n =>
            match tgt n with
            | Some t =>
              let t' := mktarget (finalType isRoot (shared st) t) (tname t) (container t) (prefix t) (privIncs t) (privDefs t) (privFlags t) (anySources t) in
              Ok (mkinst (setNode (entries st) i (mkdep (deps n) true (done n) (seen n) (incs n) (defs n) (libs n) (dlls n) (frames n) (flags n) (Some t'))) (shared st) (unselected st) (uninstalled st), Some i)
            | None => Crash
            end
          | None => Crash
          end
        | Crash => Crash
        | Deep => Deep
        end
      | SExtern None => Ok (mkinst (entries st ++ [mkentry s None]) (shared st) (addNat s (unselected st)) (uninstalled st), None)
      | SExtern (Some (p, None)) => Ok (mkinst (entries st ++ [mkentry s None]) (shared st) (unselected st) (addNat p (uninstalled st)), None)
      | SExtern (Some (p, Some n)) =>
        Ok (mkinst (entries st ++ [mkentry s (Some (mkdep [] true false [] (incs n) (defs n) (libs n) (dlls n) (frames n) (flags n) None))]) (shared st) (unselected st) (uninstalled st), Some i)
      end
    end
  end.
(** SRC/folder/ply-build-folder/BuildFolder.cpp:164-189, ProjectInstantiator.cpp:167-173: the roots, and whether each is shared. *)
Fixpoint instantiateRoots (env : nat -> source) (fuel : nat) (st : inst) (rs : list (nat * bool)) : res inst :=
  match rs with
  | [] => Ok st
  | (s, b) :: rs =>
    match instantiate env fuel st s b with
    | Ok (st, _) => instantiateRoots env fuel st rs
    | Crash => Crash
    | Deep => Deep
    end
  end.
Definition noInst : inst := mkinst [] None [] [].
Definition instantiateAll (env : nat -> source) (fuel : nat) (rs : list (nat * bool)) : res (inst * world) :=
  match instantiateRoots env fuel noInst rs with
  | Ok st =>
    match propagateAll fuel (mkworld (entries st) []) with
    | Ok w => Ok (st, w)
    | Crash => Crash
    | Deep => Deep
    end
  | Crash => Crash
  | Deep => Deep
  end.
