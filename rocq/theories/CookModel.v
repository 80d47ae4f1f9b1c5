(* Model of SRC/cook/ply-cook/CookJob.cpp and CookJob.h (SRC = repos/plywood/src): jobs that are cooked again when the files they
   depend on have changed.
   A CookJob* is an address: an index into [heap]. An address may be given out again after its job was deleted; [wish] says which.
   Simplifications: a CookJobID is a number and the B-tree of all jobs a search by it (C20); the hash maps of checked and
   deferred jobs are lists without duplicates, the latter gone through in any order [order] (C18, C19); every dependency is a file
   (Dependency_File); files do not change during a session, their times are whole seconds (st_mtime); there is no argument
   (jobArg), and unlinkFromDatabase and userData are left out; a failed call of getFileStatus means that the file is not there. *)
From Coq Require Export List ZArith Bool. Export ListNotations.
From Verif Require Export Base ListUpd.
Open Scope nat_scope.

Definition id := nat.
Definition path := nat.
Definition addr := nat.
(** A file: not there; there but impossible to open; or there with its contents. With the time of its last modification. *)
Inductive file := Gone | Shut (t : Z) | Text (t : Z) (c : Z).
Definition disk := path -> file.
(** FileSystem_POSIX.cpp:293-317. *)
Definition stat (d : disk) (p : path) : option Z := match d p with Gone => None | Shut t => Some t | Text t _ => Some t end.

(** What the cook function of a job does (CookJob.h:31, CookJobType::cook): put something into its result, open a file as a dependency, add a reference,
    or cook another job right now, holding on to it until the end. *)
Inductive prog :=
| End
| Emit (x : Z) (k : prog)
| Open (p : path) (k : option Z -> prog)
| Refer (i : id) (k : prog)
| CookNow (i : id) (k : prog).

(** CookJob.h:78-84 and CookJob.cpp:41-45; [outs] is what the cook function put in, [errs] the paths that could not be opened. *)
Record result := mkres { deps : list (path * Z); refs : list addr; outs : list Z; errs : list path }.
Definition noResult : result := mkres [] [] [] [].
(** CookJob.h:98-101, with the reference count. *)
Record job := mkjob { jid : id; count : nat; res : option result }.
(** The tracker and the context (CookJob.h:134-170), and which jobs were cooked in this session, in order. [checked]: whether up to date. *)
Record st := mkst { heap : list (option job); wish : list addr; checked : list (addr * bool); deferred : list addr; cooked : list id }.

(** Failed assertions: a loop (CookJob.cpp:199), a missing file (line 56), a double reference (line 113), deferred jobs that were not cooked (line 170).
    [Freed]: use of a deleted job. [Deep]: out of fuel. *)
Inductive why := Loop | Missing | Twice | Pending | Freed.
Inductive outcome (A : Type) := Ok (a : A) | Dead (w : why) | Deep.
Arguments Ok {A} a. Arguments Dead {A} w. Arguments Deep {A}.
Definition bind {A B} (o : outcome A) (f : A -> outcome B) : outcome B := match o with Ok a => f a | Dead w => Dead w | Deep => Deep end.
Notation "'do' x <- a ; b" := (bind a (fun x => b)) (at level 200, x pattern, a at level 100, b at level 200).

Definition getJob (s : st) (a : addr) : option job := match nth_error (heap s) a with Some o => o | None => None end.
Definition setHeap (s : st) (h : list (option job)) : st := mkst h (wish s) (checked s) (deferred s) (cooked s).
Definition setJob (s : st) (a : addr) (o : option job) : st := setHeap s (upd (heap s) a o).
Definition setChecked (s : st) (c : list (addr * bool)) : st := mkst (heap s) (wish s) c (deferred s) (cooked s).
Definition setDeferred (s : st) (l : list addr) : st := mkst (heap s) (wish s) (checked s) l (cooked s).

(** CookJob.cpp:143-155: the job with an id. *)
Fixpoint findJob (h : list (option job)) (i : id) : option addr :=
  match h with
  | [] => None
  | Some j :: h => if jid j =? i then Some 0 else option_map S (findJob h i)
  | None :: h => option_map S (findJob h i)
  end.
Definition create (s : st) (i : id) : st * addr :=
  let w := hd (length (heap s)) (wish s) in
  let s' := mkst (heap s) (tl (wish s)) (checked s) (deferred s) (cooked s) in
  match nth_error (heap s) w with
  | Some None => (setJob s' w (Some (mkjob i 1 None)), w)
  | _ => (setHeap s' (heap s ++ [Some (mkjob i 1 None)]), length (heap s))
  end.
(** Reference.h:34-38. *)
Definition inc (s : st) (a : addr) : outcome st :=
  match getJob s a with
  | Some j => Ok (setJob s a (Some (mkjob (jid j) (S (count j)) (res j))))
  | None => Dead Freed
  end.
Fixpoint incAll (s : st) (l : list addr) : outcome st :=
  match l with
  | [] => Ok s
  | a :: l => do s <- inc s a; incAll s l
  end.
(** getOrCreateCookJob, with the reference it returns. *)
Definition acquire (s : st) (i : id) : outcome (st * addr) :=
  match findJob (heap s) i with
  | Some a => do s <- inc s a; Ok (s, a)
  | None => Ok (create s i)
  end.
(** Dropping references (Reference.h:39-45). A job without any is deleted (CookJob.cpp:131-136), then the references in its result are dropped. *)
Definition refsOf (o : option result) : list addr := match o with Some r => refs r | None => [] end.
Fixpoint drop (fuel : nat) (s : st) (l : list addr) : outcome st :=
  match l with
  | [] => Ok s
  | a :: l =>
    match fuel with
    | O => Deep
    | S fuel =>
      match getJob s a with
      | None => Dead Freed
      | Some j =>
        match count j with
        | O => Dead Freed
        | S O => drop fuel (setJob s a None) (refsOf (res j) ++ l)
        | S n => drop fuel (setJob s a (Some (mkjob (jid j) n (res j)))) l
        end
      end
    end
  end.
Definition counts (h : list (option job)) : nat := fold_right (fun o n => match o with Some j => count j + n | None => n end) 0 h.
Definition dropAll (s : st) (l : list addr) : outcome st := drop (counts (heap s)) s l.

Fixpoint status (c : list (addr * bool)) (a : addr) : option bool :=
  match c with
  | [] => None
  | (b, x) :: c => if b =? a then Some x else status c a
  end.
Fixpoint mark (c : list (addr * bool)) (a : addr) : list (addr * bool) :=
  match c with
  | [] => []
  | (b, x) :: c => if b =? a then (b, true) :: c else (b, x) :: mark c a
  end.
(** HashMap::insertOrFind on the deferred jobs. *)
Definition defer (l : list addr) (a : addr) : list addr := if existsb (Nat.eqb a) l then l else l ++ [a].

Section Cook.
(** Whether assertions are on; the cook function of every id; the order in which the deferred jobs are found; the files. *)
Context (dbg : bool) (jobs : id -> prog) (order : list addr -> list addr) (d : disk).

(** CookJob.cpp:51-65 and 206-213: whether some dependency has changed. *)
Fixpoint changed (l : list (path * Z)) : outcome bool :=
  match l with
  | [] => Ok false
  | (p, t) :: l =>
    match stat d p with
    | Some t' => if (t' =? t)%Z then changed l else Ok true
    | None => if dbg then Dead Missing else if (0 =? t)%Z then changed l else Ok true
    end
  end.

(** CookJob.cpp:76-107: what a call of openFileAsDependency on [p] adds to the result, and what it returns. A time of 0 is taken for a failure. *)
Definition openFile (p : path) : Z * list path * option Z :=
  match d p with
  | Gone => (0%Z, [p], None)
  | Shut t => (0%Z, if (t =? 0)%Z then [] else [p], None)
  | Text t c => if (t =? 0)%Z then (0%Z, [], None) else (t, [], Some c)
  end.
Definition setRes (s : st) (a : addr) (f : result -> result) : outcome st :=
  match getJob s a with
  | Some (mkjob i n (Some r)) => Ok (setJob s a (Some (mkjob i n (Some (f r)))))
  | _ => Dead Freed
  end.

(** The cook function of the job at [a]. [locals]: the jobs it holds on to. *)
Fixpoint run (rec : st -> addr -> outcome st) (a : addr) (p : prog) (locals : list addr) (s : st) : outcome st :=
  match p with
  | End => dropAll s locals
  | Emit x k => do s <- setRes s a (fun r => mkres (deps r) (refs r) (outs r ++ [x]) (errs r)); run rec a k locals s
  | Open q k =>
    let '(t, e, c) := openFile q in
    do s <- setRes s a (fun r => mkres (deps r ++ [(q, t)]) (refs r) (outs r) (errs r ++ e)); run rec a (k c) locals s
  (* CookJob.cpp:109-118. The reference returned by getOrCreateCookJob is the one that is stored. *)
  | Refer i k =>
    do (s, b) <- acquire s i;
    match getJob s a with
    | Some j =>
      if existsb (Nat.eqb b) (refsOf (res j)) then Dead Twice
      else
        do s <- setRes s a (fun r => mkres (deps r) (refs r ++ [b]) (outs r) (errs r));
        run rec a k locals (match status (checked s) b with Some _ => s | None => setDeferred s (defer (deferred s) b) end)
    | None => Dead Freed
    end
  (* CookJob.h:204-209 *)
  | CookNow i k => do (s, b) <- acquire s i; do s <- rec s b; run rec a k (b :: locals) s
  end.

(** CookJob.cpp:189-237. *)
Fixpoint ensureCooked (fuel : nat) (s : st) (a : addr) : outcome st :=
  match fuel with
  | O => Deep
  | S fuel =>
    match status (checked s) a with
    | Some true => Ok s
    | Some false => Dead Loop
    | None =>
      match getJob s a with
      | None => Dead Freed
      | Some j =>
        let s := setChecked s (checked s ++ [(a, false)]) in
        do must <- match res j with None => Ok true | Some r => changed (deps r) end;
        do s <-
          (if must : bool then
             let s := setJob s a (Some (mkjob (jid j) (count j) (Some noResult))) in
             do s <- run (ensureCooked fuel) a (jobs (jid j)) [] (mkst (heap s) (wish s) (checked s) (deferred s) (cooked s ++ [jid j]));
             dropAll s (refsOf (res j))
           else Ok (setDeferred s (fold_left defer (refsOf (res j)) (deferred s))));
        match status (checked s) a with
        | Some false => Ok (setChecked s (mark (checked s) a))
        | _ => Dead Loop
        end
      end
    end
  end.
Fixpoint ensureAll (fuel : nat) (s : st) (l : list addr) : outcome st :=
  match l with
  | [] => Ok s
  | a :: l => do s <- ensureCooked fuel s a; ensureAll fuel s l
  end.
(** CookJob.cpp:239-253. *)
Fixpoint cookDeferred (fuel : nat) (s : st) : outcome st :=
  match deferred s with
  | [] => Ok s
  | _ =>
    match fuel with
    | O => Deep
    | S fuel' =>
      let l := order (deferred s) in
      do s <- incAll s l;
      do s <- ensureAll fuel (setDeferred s []) l;
      do s <- dropAll s l;
      cookDeferred fuel' s
    end
  end.
(** CookJob.cpp:262-265. *)
Definition isCooked (s : st) (a : addr) : st * bool :=
  match status (checked s) a with
  | Some x => (s, x)
  | None => (setChecked s (checked s ++ [(a, false)]), false)
  end.

(** What a program does in a session: cook a job and keep the reference, cook one and drop it, ask whether a job is cooked
    (keeping the reference it has to have), or cook the deferred jobs. *)
Inductive cmd := Cook (i : id) | CookDrop (i : id) | Ask (i : id) | Deferred.
Fixpoint commands (fuel : nat) (s : st) (held : list addr) (cs : list cmd) : outcome (st * list addr) :=
  match cs with
  | [] => Ok (s, held)
  | Cook i :: cs => do (s, a) <- acquire s i; do s <- ensureCooked fuel s a; commands fuel s (held ++ [a]) cs
  | CookDrop i :: cs => do (s, a) <- acquire s i; do s <- ensureCooked fuel s a; do s <- dropAll s [a]; commands fuel s held cs
  | Ask i :: cs => do (s, a) <- acquire s i; commands fuel (fst (isCooked s a)) (held ++ [a]) cs
  | Deferred :: cs => do s <- cookDeferred fuel s; commands fuel s held cs
  end.
(** A tracker between sessions. *)
Record tracker := mktr { theap : list (option job); roots : list addr }.
(** A session: beginCook, the commands, setRootReferences with what was kept (CookJob.cpp:138-141), endCook and the destruction of the context (line 167-171). Also
    the ids of the jobs that were cooked. *)
Definition session (fuel : nat) (w : list addr) (tr : tracker) (cs : list cmd) : outcome (tracker * list id) :=
  do (s, held) <- commands fuel (mkst (theap tr) w [] [] []) [] cs;
  do s <- dropAll s (roots tr);
  match deferred s with
  | [] => Ok (mktr (heap s) held, cooked s)
  | _ => Dead Pending
  end.
End Cook.

(** A history of sessions, each with its files, wishes, order and commands. *)
Record visit := mkvisit { files : disk; wishes : list addr; vorder : list addr -> list addr; todo : list cmd }.
Fixpoint history (dbg : bool) (jobs : id -> prog) (fuel : nat) (tr : tracker) (vs : list visit) : outcome (tracker * list (list id)) :=
  match vs with
  | [] => Ok (tr, [])
  | v :: vs =>
    do (tr, c) <- session dbg jobs (vorder v) (files v) fuel (wishes v) tr (todo v);
    do (tr, l) <- history dbg jobs fuel tr vs; Ok (tr, c :: l)
  end.
Definition noJobs : tracker := mktr [] [].
(** CookJob.cpp:255-260: the result of a job, its references as ids. *)
Definition resultOf (tr : tracker) (i : id) : option (list (path * Z) * list (option id) * list Z * list path) :=
  match findJob (theap tr) i with
  | Some a =>
    match nth_error (theap tr) a with
    | Some (Some (mkjob _ _ (Some r))) =>
      Some (deps r, map (fun b => match nth_error (theap tr) b with Some (Some j) => Some (jid j) | _ => None end) (refs r), outs r, errs r)
    | _ => None
    end
  | None => None
  end.
