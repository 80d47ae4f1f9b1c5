(* Model of /repo/repos/plywood/src/runtime/ply-runtime/thread/impl/Trace_MemLog.h and Trace_MemLog.cpp: the in-memory
   trace log, written by any number of threads. Every access to something that another thread may change is one step; a
   schedule chooses which thread goes next. The number of events in a page and the greatest number of pages are
   parameters (16384 and 4 in the source).
   Simplifications: one total order of all accesses (the release/consume pair on m_tail is taken to work, and the index
   of a page is only changed by read-modify-writes); the mutex is a lock that one thread at a time holds; an index does
   not overflow; memory is never short and a freed page is not handed out again, so that touching it is always noticed;
   the four fields of an event are written in one step (slots are shown to have one writer); every call of [log] is
   given a number, which no step depends on. *)
From Coq Require Export List Arith Bool. Export ListNotations.
Open Scope nat_scope.

(** Trace_MemLog.h:21-29 [Event]. The message is a pointer to a literal. *)
Record event := mkev { e_tid : nat; e_msg : nat; e_param1 : nat; e_param2 : nat }.

(** Trace_MemLog.h:35-43 [Page]; [None]: an event as the constructor leaves it. [p_live]: not deleted. *)
Record page := mkpage { p_next : option nat; p_index : nat; p_events : nat -> option (nat * event); p_live : bool }.
Definition new_page (index : nat) : page := mkpage None index (fun _ => None) true.

(** Where a thread is: in no call, or before the access named, with its call's number and event. *)
Inductive pc :=
| Idle
| LoadTail (c : nat * event)
| Take (c : nat * event) (p : nat)
| Lock (c : nat * event)
| Check (c : nat * event)
| Retake (c : nat * event) (p : nat)
| Grow (c : nat * event) (p : nat)
| Publish (c : nat * event) (p : nat)
| Trim (c : nat * event) (p : nat)
| Unlock (c : nat * event) (p i : nat)
| Write (c : nat * event) (p i : nat).

(** What an observer sees of the calls: their beginnings and their ends. *)
Inductive mark := Call (k : nat) | Return (k : nat).

(** Trace_MemLog.h:45-50. [made]: pages allocated so far, the n-th being number n. [freed]: something deleted was
    touched. *)
Record state := mkst {
  pages : nat -> page; made : nat; head : nat; tail : nat; num : nat; lock : option nat;
  pcs : nat -> pc; calls : list event; hist : list mark; freed : bool }.

Definition set {A} (f : nat -> A) (i : nat) (x : A) : nat -> A := fun j => if j =? i then x else f j.
Definition goto (s : state) (t : nat) (p : pc) : state :=
  mkst (pages s) (made s) (head s) (tail s) (num s) (lock s) (set (pcs s) t p) (calls s) (hist s) (freed s).
Definition put (s : state) (p : nat) (x : page) : state :=
  mkst (set (pages s) p x) (made s) (head s) (tail s) (num s) (lock s) (pcs s) (calls s) (hist s) (freed s).
Definition hold (s : state) (l : option nat) : state :=
  mkst (pages s) (made s) (head s) (tail s) (num s) l (pcs s) (calls s) (hist s) (freed s).
Definition bad (s : state) : state :=
  mkst (pages s) (made s) (head s) (tail s) (num s) (lock s) (pcs s) (calls s) (hist s) true.
Definition bump (x : page) : page := mkpage (p_next x) (S (p_index x)) (p_events x) (p_live x).

(** Trace_MemLog.cpp:20-21. *)
Definition start : state :=
  mkst (fun _ => new_page 0) 1 0 0 1 None (fun _ => Idle) [] [] false.

(** A thread calls [log], or goes on with its call. *)
Inductive move := Begin (msg param1 param2 : nat) | Go.

Section Pages.
Context (perpage maxpages : nat).

Definition step (s : state) (t : nat) (m : move) : state :=
  if freed s then s else
  match pcs s t, m with
  (* Trace_MemLog.h:58 *)
  | Idle, Begin g a b =>
    mkst (pages s) (made s) (head s) (tail s) (num s) (lock s)
      (set (pcs s) t (LoadTail (length (calls s), mkev t g a b))) (calls s ++ [mkev t g a b])
      (hist s ++ [Call (length (calls s))]) false
  (* Trace_MemLog.h:60 *)
  | LoadTail c, Go => goto s t (Take c (tail s))
  (* Trace_MemLog.h:62-66 *)
  | Take c p, Go =>
    let x := pages s p in
    if p_live x then
      goto (put s p (bump x)) t (if p_index x <? perpage then Write c p (p_index x) else Lock c)
    else bad s
  (* Trace_MemLog.cpp:28 *)
  | Lock c, Go => match lock s with None => goto (hold s (Some t)) t (Check c) | Some _ => s end
  (* Trace_MemLog.cpp:32-33 *)
  | Check c, Go =>
    let x := pages s (tail s) in
    if p_live x then
      goto s t (if p_index x <? perpage then Retake c (tail s) else Grow c (tail s))
    else bad s
  (* Trace_MemLog.cpp:34-37 *)
  | Retake c p, Go =>
    let x := pages s p in
    if p_live x then
      goto (put s p (bump x)) t (if p_index x <? perpage then Unlock c p (p_index x) else Grow c p)
    else bad s
  (* Trace_MemLog.cpp:41-46 *)
  | Grow c p, Go =>
    let x := pages s p in
    if p_live x then
      let n := made s in
      let s := put s n (new_page 1) in
      let s := put s p (mkpage (Some n) (p_index x) (p_events x) (p_live x)) in
      goto (mkst (pages s) (S n) (head s) (tail s) (num s) (lock s) (pcs s) (calls s) (hist s) (freed s)) t (Publish c n)
    else bad s
  (* Trace_MemLog.cpp:50 *)
  | Publish c n, Go =>
    goto (mkst (pages s) (made s) (head s) n (num s) (lock s) (pcs s) (calls s) (hist s) (freed s)) t (Trim c n)
  (* Trace_MemLog.cpp:51-60 *)
  | Trim c n, Go =>
    if maxpages <=? num s then
      let x := pages s (head s) in
      if p_live x then
        match p_next x with
        | Some h =>
          let s' := put s (head s) (mkpage (p_next x) (p_index x) (p_events x) false) in
          goto (mkst (pages s') (made s) h (tail s) (num s) (lock s) (pcs s) (calls s) (hist s) (freed s)) t (Unlock c n 0)
        | None => bad s
        end
      else bad s
    else goto (mkst (pages s) (made s) (head s) (tail s) (S (num s)) (lock s) (pcs s) (calls s) (hist s) (freed s)) t
           (Unlock c n 0)
  (* the destructor of the guard of Trace_MemLog.cpp:28 *)
  | Unlock c p i, Go => goto (hold s None) t (Write c p i)
  (* Trace_MemLog.h:67-70 *)
  | Write c p i, Go =>
    let x := pages s p in
    if p_live x then
      let s := put s p (mkpage (p_next x) (p_index x) (set (p_events x) i (Some c)) (p_live x)) in
      mkst (pages s) (made s) (head s) (tail s) (num s) (lock s) (set (pcs s) t Idle) (calls s)
        (hist s ++ [Return (fst c)]) false
    else bad s
  | _, _ => s
  end.

Definition run (s : state) (sched : list (nat * move)) : state := fold_left (fun s x => step s (fst x) (snd x)) sched s.
Definition runs (sched : list (nat * move)) : state := run start sched.

(** Trace_MemLog.h:103-105 [Iterator::operator*], for a page still there. *)
Definition deref (s : state) (p i : nat) : option event := option_map snd (p_events (pages s p) i).
(** Trace_MemLog.h:85-97 [Iterator::operator++]. *)
Definition next (s : state) (p i : nat) : nat * nat :=
  if perpage <=? S i then
    match p_next (pages s p) with
    | Some q => (q, 0)
    | None => (p, p_index (pages s p))
    end
  else (p, S i).
(** Trace_MemLog.h:108-115: [for (auto& e : log)], at most [fuel] times round. [None]: still going. *)
Fixpoint iterate (fuel : nat) (s : state) (p i : nat) : option (list (option event)) :=
  if (p =? tail s) && (i =? p_index (pages s (tail s))) then Some [] else
  match fuel with
  | O => None
  | S fuel => option_map (cons (deref s p i)) (let (q, j) := next s p i in iterate fuel s q j)
  end.
Definition iteration (fuel : nat) (s : state) : option (list (option event)) := iterate fuel s (head s) 0.

(** Trace_MemLog.cpp:63-71 [dumpStats]: the number printed. *)
Definition dumpStats (s : state) : nat := (num s - 1) * perpage + p_index (pages s (tail s)).

(** Trace_MemLog.cpp:73-90 [dumpEntireLog]: the events printed, in order. [fuel]: pages left to look at. *)
Fixpoint dump (fuel : nat) (s : state) (p : option nat) (skip : nat) : list (option event) :=
  match fuel, p with
  | S fuel, Some p =>
    match skip with
    | S skip => dump fuel s (p_next (pages s p)) skip
    | O => map (deref s p) (seq 0 (Nat.min perpage (p_index (pages s p)))) ++ dump fuel s (p_next (pages s p)) 0
    end
  | _, _ => []
  end.
Definition dumpEntireLog (s : state) (startPage : nat) : list (option event) := dump (made s) s (Some (head s)) startPage.

End Pages.

(** Trace_MemLog.h:32-33. *)
Definition MaxNumPages : nat := 4.
Definition EventsPerPage : nat := 2 ^ 14.
