(* Model of /repo/repos/plywood/src/runtime/ply-runtime/thread/impl/Mutex_LazyInit.h and Mutex_SpinLock.h, used by any
   number of threads. Every atomic access and every construction is one step; a schedule chooses the thread that goes next and
   what a load returns. Simplifications: the inner mutex is a lock that is constructed once, that one thread at a time
   holds, and whose unlock publishes to the next lock (std::mutex, pthread_mutex_t or SRWLOCK); a thread does not lock
   again what it holds; the destructor is not called. *)
From Verif Require Export WeakMemModel.
Open Scope nat_scope.

(** What an observer sees. *)
Inductive event := Constructed (t : nat) | Acquired (t : nat) | Used (t : nat) (v : Z) | Released (t : nat).

(** What the scheduler chooses for a thread: go on, let a load return the value at a position, use the protected
    data, or leave the critical section. *)
Inductive move := Go | At (ts : nat) | Use | Leave.

(** [Bad]: a data race, the use of a mutex that is not constructed, a second construction, or a failed assertion.
    [Stuck]: the move is not possible now (blocked, or a value the thread may not see). *)
Inductive outcome (S : Type) := Moved (s : S) (e : list event) | Stuck | Bad.
Arguments Moved {S}. Arguments Stuck {S}. Arguments Bad {S}.

(* ---- Mutex_LazyInit ---- *)
(** Locations: m_initFlag, m_spinLock, m_buffer (Mutex_LazyInit.h:16-19), and the data protected by the mutex. *)
Definition flag : nat := 0.
Definition spin : nat := 1.
Definition body : nat := 2.
Definition data : nat := 3.

Inductive lpc := Idle | Spin | Check | Construct | Publish | Unspin | Enter | Inside.
Record lthread := mklt { lview : tview; lat : lpc }.
Record lstate := mkl { lmem : mem; lths : list lthread; holder : option nat; mutex_view : view }.
Definition linit (n : nat) : lstate := mkl mem0 (repeat (mklt tv0 Idle) n) None vzero.

Definition goto (s : lstate) (t : nat) (m : mem) (v : tview) (p : lpc) : lstate :=
  mkl m (upd (lths s) t (mklt v p)) (holder s) (mutex_view s).

Definition lstep (s : lstate) (t : nat) (mv : move) : outcome lstate :=
  match nth_error (lths s) t with
  | None => Stuck
  | Some (mklt v p) =>
    match p, mv with
    (* Mutex_LazyInit.h:57 *)
    | Idle, At ts =>
      match load Acquire (lmem s) v flag ts with
      | Some (x, v) => Moved (goto s t (lmem s) v (if (x =? 0)%Z then Spin else Enter)) []
      | None => Stuck
      end
    (* Mutex_LazyInit.h:29: compareExchange that fails, then one that succeeds. *)
    | Spin, At ts =>
      match load Acquire (lmem s) v spin ts with
      | Some (x, v) => if (x =? 0)%Z then Stuck else Moved (goto s t (lmem s) v Spin) []
      | None => Stuck
      end
    | Spin, Go =>
      match rmw Acquire (lmem s) v spin (fun _ => 1%Z) with
      | Some (x, m, v) => if (x =? 0)%Z then Moved (goto s t m v Check) [] else Stuck
      | None => Stuck
      end
    (* Mutex_LazyInit.h:32 *)
    | Check, At ts =>
      match load Relaxed (lmem s) v flag ts with
      | Some (x, v) => Moved (goto s t (lmem s) v (if (x =? 0)%Z then Construct else Unspin)) []
      | None => Stuck
      end
    (* Mutex_LazyInit.h:33 *)
    | Construct, Go =>
      match touch (lmem s) v body (fun _ => 1%Z) with
      | Some (x, m, v) => if (x =? 0)%Z then Moved (goto s t m v Publish) [Constructed t] else Bad
      | None => Bad
      end
    (* Mutex_LazyInit.h:34 *)
    | Publish, Go => let '(m, v) := store Release (lmem s) v flag 1 in Moved (goto s t m v Unspin) []
    (* Mutex_LazyInit.h:36 *)
    | Unspin, Go => let '(m, v) := store Release (lmem s) v spin 0 in Moved (goto s t m v Enter) []
    (* Mutex_LazyInit.h:59 *)
    | Enter, Go =>
      match peek (lmem s) v body with
      | Some x =>
        if (x =? 0)%Z then Bad else
        match holder s with
        | Some _ => Stuck
        | None =>
          let w := mutex_view s in
          let v := mktv (vjoin (vcur v) w) (vrel v) (vjoin (vacq v) w) in
          Moved (mkl (lmem s) (upd (lths s) t (mklt v Inside)) (Some t) w) [Acquired t]
        end
      | None => Bad
      end
    (* The protected data: a counter that its user increments. *)
    | Inside, Use =>
      match touch (lmem s) v data (fun x => x + 1)%Z with
      | Some (x, m, v) => Moved (goto s t m v Inside) [Used t x]
      | None => Bad
      end
    (* Mutex_LazyInit.h:62-65 *)
    | Inside, At ts =>
      match load Relaxed (lmem s) v flag ts with
      | Some (x, v) =>
        if (x =? 0)%Z then Bad else
        Moved (mkl (lmem s) (upd (lths s) t (mklt v Idle)) None (vcur v)) [Released t]
      | None => Stuck
      end
    | _, _ => Stuck
    end
  end.

(** A schedule: impossible moves are passed over. The events come out oldest first; [None] is [Bad]. *)
Fixpoint srun {S} (step : S -> nat -> move -> outcome S) (s : S) (sched : list (nat * move)) : option (S * list event) :=
  match sched with
  | [] => Some (s, [])
  | (t, mv) :: sched =>
    match step s t mv with
    | Bad => None
    | Stuck => srun step s sched
    | Moved s e => option_map (fun r => (fst r, e ++ snd r)) (srun step s sched)
    end
  end.
Definition lrun (n : nat) (sched : list (nat * move)) := srun lstep (linit n) sched.

(* ---- Mutex_SpinLock ---- *)
Record pthread := mkpt { pview : tview; inside : bool }.
Record pstate := mkp { pmem : mem; pths : list pthread }.
Definition pinit (n : nat) : pstate := mkp mem0 (repeat (mkpt tv0 false) n).

Definition pstep (s : pstate) (t : nat) (mv : move) : outcome pstate :=
  match nth_error (pths s) t with
  | None => Stuck
  | Some (mkpt v inn) =>
    let goto m v i := mkp m (upd (pths s) t (mkpt v i)) in
    match inn, mv with
    (* Mutex_SpinLock.h:21-28: an exchange that fails, then one that succeeds. *)
    | false, At ts =>
      match load Acquire (pmem s) v spin ts with
      | Some (x, v) => if (x =? 0)%Z then Stuck else Moved (goto (pmem s) v false) []
      | None => Stuck
      end
    | false, Go =>
      match rmw Acquire (pmem s) v spin (fun _ => 1%Z) with
      | Some (x, m, v) => if (x =? 0)%Z then Moved (goto m v true) [Acquired t] else Stuck
      | None => Stuck
      end
    | true, Use =>
      match touch (pmem s) v data (fun x => x + 1)%Z with
      | Some (x, m, v) => Moved (goto m v true) [Used t x]
      | None => Bad
      end
    (* Mutex_SpinLock.h:30-32 *)
    | true, Leave => let '(m, v) := store Release (pmem s) v spin 0 in Moved (goto m v false) [Released t]
    | _, _ => Stuck
    end
  end.
Definition prun (n : nat) (sched : list (nat * move)) := srun pstep (pinit n) sched.
