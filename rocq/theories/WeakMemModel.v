(* A release/acquire memory, on which the lock and reference-count models run. It is the usual operational reading of the
   C++11 memory orders (views, as in promising semantics without promises): every location has the list of the values
   written to it, in modification order, each with the view its writer published; every thread has a view, the newest
   value of each location it is bound to see. A plain or atomic load may return any value that is not older than the
   thread's view. Simplifications: a store goes to the end of the modification order; a read-modify-write reads the last
   value; there are no consume or sequentially consistent accesses (the modelled code uses none).
   Modelled: /repo/repos/plywood/src/runtime/ply-runtime/thread/impl/Atomic_CPP11.h:13-90, std::atomic being what the
   C++ standard says. *)
From Coq Require Export List ZArith. Export ListNotations.
From Verif Require Export Base ListUpd.
Open Scope nat_scope.

Definition view := nat -> nat.
Definition vzero : view := fun _ => 0.
Definition vjoin (v w : view) : view := fun l => Nat.max (v l) (w l).
Definition vset (v : view) (l ts : nat) : view := fun x => if x =? l then Nat.max (v x) ts else v x.

(** One entry of a modification order. *)
Record msg := mkmsg { val : Z; mview : view }.
Definition mem := nat -> list msg.
Definition mem0 : mem := fun _ => [mkmsg 0 vzero].
Definition madd (m : mem) (l : nat) (x : msg) : mem := fun y => if y =? l then m y ++ [x] else m y.
Definition latest (m : mem) (l : nat) : nat := length (m l) - 1.

(** What a thread has to see, what it publishes with relaxed stores (since its last release fence), and what an acquire
    fence would add. *)
Record tview := mktv { vcur : view; vrel : view; vacq : view }.
Definition tv0 : tview := mktv vzero vzero vzero.

(** Atomic_CPP11.h:24-31. *)
Inductive order := Relaxed | Acquire | Release.
Definition is_acquire (o : order) : bool := match o with Acquire => true | _ => false end.
Definition is_release (o : order) : bool := match o with Release => true | _ => false end.

Definition seen (o : order) (t : tview) (l ts : nat) (x : msg) : tview :=
  let cur := vset (vcur t) l ts in
  let acq := vset (vacq t) l ts in
  mktv (if is_acquire o then vjoin cur (mview x) else cur) (vrel t) (vjoin acq (mview x)).

(** Atomic_CPP11.h:45-50 [load], [loadNonatomic]: the value at position [ts], if the thread may still see it. *)
Definition load (o : order) (m : mem) (t : tview) (l ts : nat) : option (Z * tview) :=
  if ts <? vcur t l then None else
  match nth_error (m l) ts with
  | Some x => Some (val x, seen o t l ts x)
  | None => None
  end.

Definition publish (o : order) (t : tview) (l ts : nat) : view := vset (if is_release o then vcur t else vrel t) l ts.
Definition wrote (t : tview) (l ts : nat) : tview := mktv (vset (vcur t) l ts) (vrel t) (vset (vacq t) l ts).
(** Atomic_CPP11.h:51-56 [store], [storeNonatomic]. *)
Definition store (o : order) (m : mem) (t : tview) (l : nat) (v : Z) : mem * tview :=
  let ts := length (m l) in
  (madd m l (mkmsg v (publish o t l ts)), wrote t l ts).

(** A read-modify-write: Atomic_CPP11.h:57-88. The new value goes on with the publication of the one it replaces (a
    release sequence). *)
Definition rmw (o : order) (m : mem) (t : tview) (l : nat) (f : Z -> Z) : option (Z * mem * tview) :=
  match nth_error (m l) (latest m l) with
  | None => None
  | Some x =>
    let ts := length (m l) in
    let t1 := seen o t l (latest m l) x in
    Some (val x, madd m l (mkmsg (f (val x)) (vjoin (mview x) (publish o t1 l ts))), wrote t1 l ts)
  end.

(** Atomic_CPP11.h:12-22: fences. *)
Definition fence_acquire (t : tview) : tview := mktv (vjoin (vcur t) (vacq t)) (vrel t) (vacq t).
Definition fence_release (t : tview) : tview := mktv (vcur t) (vcur t) (vacq t).

(** An access to ordinary memory: a data race unless the thread has to see the last such access. *)
Definition touch (m : mem) (t : tview) (l : nat) (f : Z -> Z) : option (Z * mem * tview) :=
  if vcur t l =? latest m l then
    match nth_error (m l) (latest m l) with
    | Some x => Some (val x, madd m l (mkmsg (f (val x)) vzero), wrote t l (length (m l)))
    | None => None
    end
  else None.
(** Reading without recording the access: a race only with later writes that the reader's next access would show. *)
Definition peek (m : mem) (t : tview) (l : nat) : option Z :=
  if vcur t l =? latest m l then option_map val (nth_error (m l) (latest m l)) else None.
