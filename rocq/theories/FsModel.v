(* Model of the POSIX file system (RT/filesystem/FileSystem.cpp and impl/FileSystem_POSIX.cpp, with RT =
   repos/plywood/src/runtime/ply-runtime) on top of a file tree.
   The system calls (stat, mkdir, open, write, opendir, unlink, rmdir) are those of a kernel without symbolic links, other
   processes or permissions; in place of the latter, calls may be made to fail at will ([fault]). Paths have no zero
   byte and are shorter than 2 GB.
   [dbg]: whether assertions are compiled in. With them a failed assertion stops the program ([Dead]); without them
   it goes on, as the code then does. [junk]: the bytes of memory never written to.
   Simplifications: a closed descriptor never fails to close; the result code of the thread is the one returned. *)
From Coq Require Export List ZArith. Export ListNotations.
From Verif Require Export PathModel PathSpec.

Definition name := list Z.
(** A file with its bytes, or a directory with its entries. *)
Inductive tree := TFile (c : list Z) | TDir (es : list (name * tree)).
Fixpoint assoc (n : name) (es : list (name * tree)) : option tree :=
  match es with
  | [] => None
  | (m, t) :: es => if bytes_eqb m n then Some t else assoc n es
  end.
(** The node at a location, given by the names from the root. *)
Fixpoint get (t : tree) (l : list name) : option tree :=
  match l with
  | [] => Some t
  | n :: l =>
    match t with
    | TDir es => match assoc n es with Some u => get u l | None => None end
    | TFile _ => None
    end
  end.
Fixpoint setEntry (n : name) (u : tree) (es : list (name * tree)) : list (name * tree) :=
  match es with
  | [] => [(n, u)]
  | (m, t) :: es => if bytes_eqb m n then (m, u) :: es else (m, t) :: setEntry n u es
  end.
Fixpoint delEntry (n : name) (es : list (name * tree)) : list (name * tree) :=
  match es with
  | [] => []
  | (m, t) :: es => if bytes_eqb m n then es else (m, t) :: delEntry n es
  end.
(** Puts [u] at a location whose parent exists; removes what is there. *)
Fixpoint put (t : tree) (l : list name) (u : tree) : tree :=
  match l with
  | [] => u
  | n :: l =>
    match t with
    | TDir es => TDir (setEntry n (match assoc n es with Some v => put v l u | None => u end) es)
    | TFile _ => t
    end
  end.
Fixpoint del (t : tree) (l : list name) : tree :=
  match l with
  | [] => t
  | n :: l =>
    match t with
    | TDir es =>
      match l with
      | [] => TDir (delEntry n es)
      | _ => match assoc n es with Some v => TDir (setEntry n (del v l) es) | None => t end
      end
    | TFile _ => t
    end
  end.

(** What is at a location, given by the names from the innermost. *)
Inductive kind := KFile (c : list Z) | KDir.
Definition kindOf (t : tree) : kind := match t with TFile c => KFile c | TDir _ => KDir end.
Definition at_ (t : tree) (l : list name) : option kind := option_map kindOf (get t (rev l)).

(** Following the names of a path from a directory. [Missing]: all is there but the last name. *)
Inductive found := Found (l : list name) | Missing (dir : list name) (n : name) | NoEnt | NotDir.
Fixpoint follow (t : tree) (dir : list name) (ns : list name) : found :=
  match ns with
  | [] => Found dir
  | n :: r =>
    match at_ t dir with
    | Some KDir =>
      if bytes_eqb n [dot] then follow t dir r
      else if bytes_eqb n [dot; dot] then follow t (tl dir) r
      else match at_ t (n :: dir) with
           | Some _ => follow t (n :: dir) r
           | None => match r with [] => Missing dir n | _ => NoEnt end
           end
    | Some (KFile _) => NotDir
    | None => NoEnt
    end
  end.
Definition posixSep (c : Z) : bool := c =? slash.
Definition trailing (p : list Z) : bool := match rev p with c :: _ => posixSep c | [] => false end.
Definition startDir (cwd : list name) (p : list Z) : list name :=
  match p with c :: _ => if posixSep c then [] else cwd | [] => cwd end.
(** A path that ends in a separator has to be a directory. *)
Definition lookup (t : tree) (cwd : list name) (p : list Z) : found :=
  match p with
  | [] => NoEnt
  | _ =>
    match follow t (startDir cwd p) (names posixSep p) with
    | Found l => if trailing p then match at_ t l with Some KDir => Found l | _ => NotDir end else Found l
    | r => r
    end
  end.

Inductive errno := ENOENT | EACCES | EEXIST | EISDIR | ENOTDIR | EOTHER.
(** What the next call that changes the file system or opens a file does: work, fail, or (write only) write some bytes. *)
Inductive fault := Fine | Denied | Broken | Short (n : nat).
(** [trace]: the file trees after each change, in order: what a crash may leave behind. *)
Record fsst := mkfs { disk : tree; cwd : list name; faults : list fault; trace : list tree }.
Definition pop (s : fsst) : fsst := mkfs (disk s) (cwd s) (tl (faults s)) (trace s).
Definition change (s : fsst) (t : tree) : fsst := mkfs t (cwd s) (faults s) (trace s ++ [t]).
Definition failing (s : fsst) : option errno :=
  match faults s with Denied :: _ => Some EACCES | Broken :: _ => Some EOTHER | _ => None end.

(** RT/filesystem/FileSystem.h:32-40. *)
Inductive fsresult := Unknown | NotFound | Locked | AccessDenied | OK | AlreadyExists | Unchanged.
Inductive exists_result := ENotFound | EFile | EDirectory.
Inductive outcome (A : Type) := Ret (s : fsst) (a : A) | Dead.
Arguments Ret {A} s a. Arguments Dead {A}.

Section Fs.
Context (dbg : bool) (junk : list Z).

(** PLY_ASSERT(PLY_FSPOSIX_ALLOW_UNKNOWN_ERRORS) and the result Unknown. *)
Definition unexpected (s : fsst) {A} (a : A) : outcome A := if dbg then Dead else Ret s a.

(** impl/FileSystem_POSIX.cpp:178-187. *)
Definition exists_ (s : fsst) (p : list Z) : outcome exists_result :=
  match lookup (disk s) (cwd s) p with
  | Found l => Ret s (match at_ (disk s) l with Some KDir => EDirectory | _ => EFile end)
  | Missing _ _ | NoEnt => Ret s ENotFound
  | NotDir => unexpected s ENotFound
  end.

(** mkdir(2). *)
Definition mkdir (s : fsst) (p : list Z) : fsst * option errno :=
  match failing s with
  | Some e => (pop s, Some e)
  | None =>
    let s := pop s in
    match lookup (disk s) (cwd s) p with
    | Found _ => (s, Some EEXIST)
    | Missing dir n => (change s (put (disk s) (rev (n :: dir)) (TDir [])), None)
    | NoEnt => (s, Some ENOENT)
    | NotDir => (s, Some ENOTDIR)
    end
  end.
(** impl/FileSystem_POSIX.cpp:116-132. *)
Definition makeDir (s : fsst) (p : list Z) : outcome fsresult :=
  match mkdir s p with
  | (s, None) => Ret s OK
  | (s, Some EEXIST) | (s, Some EISDIR) => Ret s AlreadyExists
  | (s, Some _) => unexpected s Unknown
  end.

(** RT/filesystem/FileSystem.cpp:85-103. Each call is on a shorter path. *)
Fixpoint makeDirs (fuel : nat) (s : fsst) (p : list Z) : outcome fsresult :=
  match fuel with
  | O => Dead
  | S fuel =>
    if bytes_eqb p (getDriveLetter false p) then Ret s OK else
    match exists_ s p with
    | Dead => Dead
    | Ret s EDirectory => Ret s AlreadyExists
    | Ret s EFile => Ret s AccessDenied
    | Ret s ENotFound =>
      match split false p with
      | None => Dead
      | Some (first, second) =>
        if nonempty first && nonempty second then
          match makeDirs fuel s first with
          | Dead => Dead
          | Ret s OK | Ret s AlreadyExists => makeDir s p
          | Ret s r => Ret s r
          end
        else makeDir s p
      end
    end
  end.
Definition makeDirs_ (s : fsst) (p : list Z) : outcome fsresult := makeDirs (S (length p)) s p.

(** impl/FileSystem_POSIX.cpp:189-217 and RT/filesystem/FileSystem.cpp:136-146, impl/Pipe_FD.cpp:22-44. A directory can
    be opened; reading from it fails. *)
Definition loadBinary (s : fsst) (p : list Z) : outcome (fsresult * list Z) :=
  match failing s with
  | Some EACCES => Ret (pop s) (AccessDenied, [])
  | Some _ => unexpected (pop s) (Unknown, [])
  | None =>
    let s := pop s in
    match lookup (disk s) (cwd s) p with
    | Found l =>
      match at_ (disk s) l with
      | Some (KFile c) => if dbg && (2 ^ 32 <=? zlen c) then Dead else Ret s (OK, firstn (Z.to_nat (zlen c mod 2 ^ 32)) c)
      | _ => if dbg && nonempty junk then Dead else Ret s (OK, junk)
      end
    | Missing _ _ | NoEnt => Ret s (NotFound, [])
    | NotDir => unexpected s (Unknown, [])
    end
  end.

(** open(2) with O_WRONLY | O_CREAT | O_TRUNC; impl/FileSystem_POSIX.cpp:219-248. *)
Definition openForWrite (s : fsst) (p : list Z) : outcome (fsresult * list name) :=
  match failing s with
  | Some EACCES => Ret (pop s) (AccessDenied, [])
  | Some _ => unexpected (pop s) (Unknown, [])
  | None =>
    let s := pop s in
    match lookup (disk s) (cwd s) p with
    | Found l =>
      match at_ (disk s) l with
      | Some (KFile _) => Ret (change s (put (disk s) (rev l) (TFile []))) (OK, l)
      | _ => unexpected s (Unknown, [])
      end
    | Missing dir n =>
      if trailing p then unexpected s (Unknown, [])
      else Ret (change s (put (disk s) (rev (n :: dir)) (TFile []))) (OK, n :: dir)
    | NoEnt => Ret s (NotFound, [])
    | NotDir => unexpected s (Unknown, [])
    end
  end.
(** impl/Pipe_FD.cpp:64-76: whether all was written. [old]: what was written already. *)
Fixpoint writeAll (fs : list fault) (s : fsst) (l : list name) (old v : list Z) : fsst * bool :=
  match v with
  | [] => (mkfs (disk s) (cwd s) fs (trace s), true)
  | _ =>
    match fs with
    | Denied :: fs | Broken :: fs => (mkfs (disk s) (cwd s) fs (trace s), false)
    | Short n :: fs =>
      match n with
      | O => (mkfs (disk s) (cwd s) fs (trace s), false)
      | _ => writeAll fs (change s (put (disk s) (rev l) (TFile (old ++ firstn n v)))) l (old ++ firstn n v) (skipn n v)
      end
    | Fine :: _ | [] => (let s := change s (put (disk s) (rev l) (TFile (old ++ v))) in mkfs (disk s) (cwd s) (tl fs) (trace s), true)
    end
  end.

(** RT/filesystem/FileSystem.cpp:174-206. *)
Definition save (s : fsst) (p v : list Z) : outcome fsresult :=
  match loadBinary s p with
  | Dead => Dead
  | Ret s (existingResult, existing) =>
    match existingResult, bytes_eqb existing v with
    | OK, true => Ret s Unchanged
    | OK, false | NotFound, _ =>
      match split false p with
      | None => Dead
      | Some (first, _) =>
        match makeDirs_ s first with
        | Dead => Dead
        | Ret s OK | Ret s AlreadyExists =>
          match openForWrite s p with
          | Dead => Dead
          | Ret s (OK, l) => Ret (fst (writeAll (faults s) s l [] v)) OK
          | Ret s (r, _) => Ret s r
          end
        | Ret s r => Ret s r
        end
      end
    | r, _ => Ret s r
    end
  end.

(** A directory entry: its name, whether it is a directory, and its size when asked for. *)
Record dirent := mkent { ename : name; isDir : bool; esize : Z }.
Definition isTDir (t : tree) : bool := match t with TDir _ => true | TFile _ => false end.
(** impl/FileSystem_POSIX.cpp:48-107: the entry as listed, [None] if it is left out. [flags]: whether sizes are asked for.
    The size of a directory is not set. The name is joined to the path and looked up again. *)
Definition listOne (s : fsst) (flags : bool) (p : list Z) (e : name * tree) : outcome (option dirent) :=
  let '(n, t) := e in
  if flags then
    match joinAndNormalize false [p; n] with
    | None => Dead
    | Some q =>
      match lookup (disk s) (cwd s) q with
      | Missing _ _ | NoEnt => Ret s None
      | NotDir => unexpected s (Some (mkent n (isTDir t) 0))
      | Found l => Ret s (Some (mkent n (isTDir t) (if isTDir t then 0 else match at_ (disk s) l with Some (KFile c) => zlen c | _ => zlen junk end)))
      end
    end
  else Ret s (Some (mkent n (isTDir t) 0)).
Fixpoint listAll (s : fsst) (flags : bool) (p : list Z) (es : list (name * tree)) : outcome (list dirent) :=
  match es with
  | [] => Ret s []
  | e :: es =>
    match listOne s flags p e with
    | Dead => Dead
    | Ret s o =>
      match listAll s flags p es with
      | Dead => Dead
      | Ret s r => Ret s (match o with Some d => d :: r | None => r end)
      end
    end
  end.
(** impl/FileSystem_POSIX.cpp:29-46, 109-114: opendir(2) and the entries; "." and ".." are not among those of a tree. *)
Definition entries (s : fsst) (p : list Z) : outcome (fsresult * list (name * tree)) :=
  match lookup (disk s) (cwd s) p with
  | Found l =>
    match get (disk s) (rev l) with
    | Some (TDir es) => Ret s (OK, es)
    | _ => unexpected s (Unknown, [])
    end
  | Missing _ _ | NoEnt => Ret s (NotFound, [])
  | NotDir => unexpected s (Unknown, [])
  end.
Definition listDir (s : fsst) (flags : bool) (p : list Z) : outcome (list dirent) :=
  match entries s p with
  | Dead => Dead
  | Ret s (_, es) => listAll s flags p es
  end.

(** RT/filesystem/FileSystem.h:102-114. *)
Record triple := mktriple { dirPath : list Z; dirNames : list name; files : list (name * Z) }.
Record item := mkitem { ipath : list Z; inames : list name; iidx : nat }.
Record walk := mkwalk { cur : triple; stack : list item }.
(** RT/filesystem/FileSystem.cpp:25-41. *)
Definition visit (s : fsst) (flags : bool) (p : list Z) : option triple :=
  match listDir s flags p with
  | Dead => None
  | Ret _ ds => Some (mktriple p (map ename (filter isDir ds)) (map (fun d => (ename d, esize d)) (filter (fun d => negb (isDir d)) ds)))
  end.
Definition noTriple : triple := mktriple [] [] [].
(** FileSystem.cpp:60-70. *)
Fixpoint climb (s : fsst) (flags : bool) (st : list item) : option walk :=
  match st with
  | [] => Some (mkwalk noTriple [])
  | it :: rest =>
    if (iidx it <? length (inames it))%nat then
      match joinAndNormalize false [ipath it; nth (iidx it) (inames it) []] with
      | None => None
      | Some q =>
        match visit s flags q with
        | None => None
        | Some t => Some (mkwalk t (mkitem (ipath it) (inames it) (S (iidx it)) :: rest))
        end
      end
    else climb s flags rest
  end.
(** FileSystem.cpp:48-72. *)
Definition next (s : fsst) (flags : bool) (w : walk) : option walk :=
  climb s flags (match dirNames (cur w) with [] => stack w | ns => mkitem (dirPath (cur w)) ns 0 :: stack w end).
(** The loop over a walk (FileSystem.h:165-193, FileSystem.cpp:75-83): the triples seen. [edit] is what the body of the loop does to the
    list of subdirectories. [None]: an assertion, or not over after [fuel] rounds. *)
Fixpoint rounds (fuel : nat) (s : fsst) (flags : bool) (edit : triple -> list name) (w : walk) : option (list triple) :=
  match dirPath (cur w) with
  | [] => Some []
  | _ =>
    match fuel with
    | O => None
    | S fuel =>
      match next s flags (mkwalk (mktriple (dirPath (cur w)) (edit (cur w)) (files (cur w))) (stack w)) with
      | None => None
      | Some w' => option_map (cons (cur w)) (rounds fuel s flags edit w')
      end
    end
  end.
Definition walkAll (fuel : nat) (s : fsst) (flags : bool) (edit : triple -> list name) (top : list Z) : option (list triple) :=
  match visit s flags top with
  | None => None
  | Some t => rounds fuel s flags edit (mkwalk t [])
  end.

(** unlink(2), rmdir(2). *)
Definition unlink (s : fsst) (p : list Z) : fsst * bool :=
  match failing s with
  | Some _ => (pop s, false)
  | None =>
    let s := pop s in
    match lookup (disk s) (cwd s) p with
    | Found l => match at_ (disk s) l with Some (KFile _) => (change s (del (disk s) (rev l)), true) | _ => (s, false) end
    | _ => (s, false)
    end
  end.
Definition lastName (p : list Z) : name := last (names posixSep p) [].
Definition rmdir (s : fsst) (p : list Z) : fsst * bool :=
  match failing s with
  | Some _ => (pop s, false)
  | None =>
    let s := pop s in
    match lookup (disk s) (cwd s) p with
    | Found [] => (s, false)
    | Found l =>
      match get (disk s) (rev l) with
      | Some (TDir []) =>
        if bytes_eqb (lastName p) [dot] || bytes_eqb (lastName p) [dot; dot] then (s, false)
        else (change s (del (disk s) (rev l)), true)
      | _ => (s, false)
      end
    | _ => (s, false)
    end
  end.
(** impl/FileSystem_POSIX.cpp:269-291: the loop over the entries, with the call for a subdirectory. *)
Fixpoint removeEntries (rec : fsst -> list Z -> outcome fsresult) (p : list Z) (es : list (name * tree)) (s : fsst) : outcome fsresult :=
  match es with
  | [] =>
    let '(s, ok) := rmdir s p in if ok then Ret s OK else unexpected s Unknown
  | e :: es =>
    match listOne s true p e with
    | Dead => Dead
    | Ret s None => removeEntries rec p es s
    | Ret s (Some d) =>
      match joinAndNormalize false [p; ename d] with
      | None => Dead
      | Some q =>
        if isDir d then
          match rec s q with
          | Dead => Dead
          | Ret s OK => removeEntries rec p es s
          | Ret s r => Ret s r
          end
        else
          let '(s, ok) := unlink s q in
          if ok then removeEntries rec p es s else unexpected s Unknown
      end
    end
  end.
Fixpoint removeDirTree (fuel : nat) (s : fsst) (p : list Z) : outcome fsresult :=
  match fuel with
  | O => Dead
  | S fuel =>
    match entries s p with
    | Dead => Dead
    | Ret s (_, es) => removeEntries (removeDirTree fuel) p es s
    end
  end.
End Fs.

(** impl/FileSystem_Virtual.cpp:17-22. [w]: the format of the target file system. *)
Definition convertToTargetPath (w : bool) (root p : list Z) : option (list Z) :=
  if isAbsolute w p then None else joinAndNormalize w [root; from false w p].
