(* Models of /repo/repos/plywood/src/runtime/ply-runtime/thread/RaceDetector.h, impl/ManualResetEvent_CondVar.h and
   impl/Trace_Counters.h, Trace_Counters.cpp, used by any number of threads. Every access to something shared is one step;
   a schedule chooses which thread goes next. Simplifications: one total order of all accesses (except [detector], which
   runs on the release/acquire memory of WeakMemModel); a mutex is a lock that one thread at a time holds; a condition
   variable lets a thread sleep and give up the mutex in one step, and wakes sleepers when told to or for no reason, who
   then wait for the mutex again. *)
From Verif Require Export WeakMemModel.
Open Scope nat_scope.

Definition set {A} (f : nat -> A) (i : nat) (x : A) : nat -> A := fun j => if j =? i then x else f j.

(* ---- RaceDetector ---- *)
(** The operations on one detector, in the order of their exchanges. *)
Inductive rop := Enter (t : nat) | Exit (t : nat).
(** RaceDetector.h:17-26; [None]: PLY_FORCE_CRASH. *)
Definition rstep (entered : nat) (o : rop) : option nat :=
  match o with
  | Enter _ => if negb (entered =? 0) then None else Some 1
  | Exit _ => if negb (entered =? 1) then None else Some 0
  end.
Fixpoint detect (entered : nat) (l : list rop) : option nat :=
  match l with
  | [] => Some entered
  | o :: l => match rstep entered o with Some e => detect e l | None => None end
  end.

(** The same with data that the sections use, on release/acquire memory: location 0 is m_entered, 1 the data. Each thread
    enters, uses the data and exits. *)
Inductive rmove := REnter (t : nat) | RUse (t : nat) | RExit (t : nat).
Inductive routcome := Ran (m : mem) (v : nat -> tview) | Crashed | Raced.
Definition rmstep (m : mem) (v : nat -> tview) (x : rmove) : routcome :=
  match x with
  | REnter t =>
    match rmw Acquire m (v t) 0 (fun _ => 1%Z) with
    | Some (0%Z, m, w) => Ran m (set v t w)
    | _ => Crashed
    end
  | RUse t =>
    match touch m (v t) 1 (fun x => (x + 1)%Z) with
    | Some (_, m, w) => Ran m (set v t w)
    | None => Raced
    end
  | RExit t =>
    match rmw Acquire m (v t) 0 (fun _ => 0%Z) with
    | Some (1%Z, m, w) => Ran m (set v t w)
    | _ => Crashed
    end
  end.
Fixpoint rmrun (m : mem) (v : nat -> tview) (l : list rmove) : routcome :=
  match l with
  | [] => Ran m v
  | x :: l => match rmstep m v x with Ran m v => rmrun m v l | r => r end
  end.

(* ---- ManualResetEvent_CondVar ---- *)
Inductive call := Signal | Reset | Wait.
(** Where a thread is: before taking the mutex, before the access named, asleep, woken and before taking the mutex again,
    before giving it back. *)
Inductive epc := EIdle | ELock (c : call) | ESet | EWake | EClear | ECheck | ESleep | EAgain | EUnlock (c : call).
(** What an observer sees: calls and returns; in between, the moment the event is signalled or reset, or a waiting thread
    let through. *)
Inductive note := Called (t : nat) (c : call) | Done (t : nat) (c : call) | Returned (t : nat) (c : call).
(** ManualResetEvent_CondVar.h:13-15. *)
Record estate := mke { emutex : option nat; estatus : bool; epcs : nat -> epc }.
Definition einit (b : bool) : estate := mke None b (fun _ => EIdle).
(** Begin a call, go on, or wake for no reason. *)
Inductive emove := EBegin (c : call) | EGo | ESpurious.

Definition wake (x : epc) : epc := match x with ESleep => EAgain | _ => x end.
Definition estep (s : estate) (t : nat) (m : emove) : estate * list note :=
  let go x := mke (emutex s) (estatus s) (set (epcs s) t x) in
  let take x := match emutex s with None => mke (Some t) (estatus s) (set (epcs s) t x) | Some _ => s end in
  match epcs s t, m with
  | EIdle, EBegin c => (go (ELock c), [Called t c])
  (* ManualResetEvent_CondVar.h:25, 31, 36 *)
  | ELock c, EGo => (take match c with Signal => ESet | Reset => EClear | Wait => ECheck end, [])
  (* ManualResetEvent_CondVar.h:26 *)
  | ESet, EGo => (mke (emutex s) true (set (epcs s) t EWake), [Done t Signal])
  (* ManualResetEvent_CondVar.h:27 *)
  | EWake, EGo => (mke (emutex s) (estatus s) (set (fun u => wake (epcs s u)) t (EUnlock Signal)), [])
  (* ManualResetEvent_CondVar.h:32 *)
  | EClear, EGo => (mke (emutex s) false (set (epcs s) t (EUnlock Reset)), [Done t Reset])
  (* ManualResetEvent_CondVar.h:37-39 *)
  | ECheck, EGo =>
    if estatus s then (go (EUnlock Wait), [Done t Wait])
    else (mke None (estatus s) (set (epcs s) t ESleep), [])
  | ESleep, ESpurious => (go EAgain, [])
  | EAgain, EGo => (take ECheck, [])
  (* the destructors of the guards *)
  | EUnlock c, EGo => (mke None (estatus s) (set (epcs s) t EIdle), [Returned t c])
  | _, _ => (s, [])
  end.
Fixpoint erun (s : estate) (sched : list (nat * emove)) : estate * list note :=
  match sched with
  | [] => (s, [])
  | (t, m) :: sched =>
    let (s1, l1) := estep s t m in
    let (s2, l2) := erun s1 sched in (s2, l1 ++ l2)
  end.

(* ---- Trace_Counters ---- *)
(** Trace_Counters.h:24-45 [TraceGroup]s, numbered; each is added once, by its constructor. *)
Inductive gpc := GNew | GLoad | GLink (old : option nat) | GSwap (old : option nat) | GAdded.
Record gstate := mkg { first : option nat; gnext : nat -> option nat; gpcs : nat -> gpc; ghist : list (bool * nat) }.
(** Trace_Counters.cpp:14, zero-initialised. *)
Definition ginit : gstate := mkg None (fun _ => None) (fun _ => GNew) [].
(** Go on; or let the weak compare-exchange fail although the value is the expected one. *)
Inductive gmove := GGo | GFail.
Definition same (a b : option nat) : bool :=
  match a, b with Some x, Some y => x =? y | None, None => true | _, _ => false end.
(** Trace_Counters.cpp:16-21 [addGroup], run for group [g] by the thread that constructs it. The history says where the
    calls began ([true]) and ended ([false]). *)
Definition gstep (s : gstate) (g : nat) (m : gmove) : gstate :=
  match gpcs s g, m with
  | GNew, GGo => mkg (first s) (gnext s) (set (gpcs s) g GLoad) (ghist s ++ [(true, g)])
  | GLoad, GGo => mkg (first s) (gnext s) (set (gpcs s) g (GLink (first s))) (ghist s)
  | GLink old, GGo => mkg (first s) (set (gnext s) g old) (set (gpcs s) g (GSwap old)) (ghist s)
  | GSwap old, GGo =>
    if same (first s) old then mkg (Some g) (gnext s) (set (gpcs s) g GAdded) (ghist s ++ [(false, g)])
    else mkg (first s) (gnext s) (set (gpcs s) g (GLink (first s))) (ghist s)
  | GSwap old, GFail => mkg (first s) (gnext s) (set (gpcs s) g (GLink (first s))) (ghist s)
  | _, _ => s
  end.
Definition grun (s : gstate) (sched : list (nat * gmove)) : gstate := fold_left (fun s x => gstep s (fst x) (snd x)) sched s.
(** Trace_Counters.cpp:23-28 [dumpStats]: the groups visited. [None]: still going. *)
Fixpoint visit (fuel : nat) (s : gstate) (g : option nat) : option (list nat) :=
  match g with
  | None => Some []
  | Some g => match fuel with O => None | S fuel => option_map (cons g) (visit fuel s (gnext s g)) end
  end.

(** Trace_Counters.h:53-54 [PLY_TRACE]: 32-bit counters, each added to by whole read-modify-writes. *)
Definition trace (counters : list Z) (index : nat) : list Z :=
  match nth_error counters index with
  | Some x => upd counters index ((x + 1) mod 2 ^ 32)%Z
  | None => counters
  end.
(** Trace_Counters.cpp:38-45 [dumpIfUsed]: whether the group is printed. *)
Definition printed (counters : list Z) : bool := existsb (fun x => negb (x =? 0)%Z) counters.
