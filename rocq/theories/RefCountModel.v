(* Model of /repo/repos/plywood/src/runtime/ply-runtime/container/Reference.h: any number of threads copying, moving and
   dropping Reference handles, to objects that hold further handles. Every atomic update of a count and every callback is
   one step; between them any other thread may run.
   Simplifications: the object's onRefCountZero is `delete this`, and its handles are destructed with it; the handles inside
   an object are set by its constructor (moving local handles in) and not assigned later, except by [MoveField];
   Reference.h:124-128 (release) is not used. A handle is passed to another thread by moving it there while that
   thread is between operations (a queue or a lock would see to that). Counts are updated in one total order per object, as
   for every atomic variable; which other writes become visible is the subject of the second half of this file. *)
From Coq Require Export List ZArith. Export ListNotations.
From Verif Require Export Base ListUpd.
Open Scope nat_scope.

(** An object: m_refCount (Reference.h:31), the handles inside, whether it was deleted, and how often its callback was run. *)
Record obj := mkobj { count : Z; fields : list (option nat); dead : bool; zeros : nat }.

(** What a thread still has to do before its operation is over. *)
Inductive act := Inc (p : nat) | Dec (p : nat) | Zero (p : nat) | Null (i : nat) | Tail (d s : nat) | TailField (d p j : nat).
Record thr := mkthr { slots : list (option nat); pend : list act }.
Record state := mkst { objs : list obj; thrs : list thr }.
(** [n] threads with [k] null handles each. *)
Definition init (n k : nat) : state := mkst [] (repeat (mkthr (repeat None k) []) n).

(** What can be copied: a local handle, or handle [j] inside the object that a local handle refers to. *)
Inductive src := Var (i : nat) | Sub (i j : nat).
Inductive op :=
| New (d : nat) (l : list nat)        (* d = new T{std::move(l1), std::move(l2), ...} *)
| CopyCtor (d : nat) (x : src)        (* Reference d{x} *)
| MoveCtor (d s : nat)                (* Reference d{std::move(s)} *)
| Clear (i : nat)                     (* i.clear(), or its destructor *)
| CopyAssign (d : nat) (x : src)      (* d = x *)
| MoveAssign (d s : nat)              (* d = std::move(s) *)
| MoveField (d i j : nat)             (* d = std::move(i->j) *)
| Give (i t j : nat)                  (* hand i over to handle j of thread t *)
| Use (i : nat).                      (* i-> *)
Inductive move := Go | Do (o : op).

(** [Stuck]: not possible now. [Limit]: 65535 references (the upper bound asserted in Reference.h:36 and 41). [Bad]: use of a
    deleted object, or a failed lower bound of these assertions. *)
Inductive outcome := Moved (s : state) | Stuck | Bad | Limit.

Definition set_thr (s : state) (t : nat) (th : thr) : state := mkst (objs s) (upd (thrs s) t th).
Definition set_obj (s : state) (p : nat) (o : obj) : state := mkst (upd (objs s) p o) (thrs s).

(** Reference.h:34-38. *)
Definition incRef (s : state) (p : nat) : outcome :=
  match nth_error (objs s) p with
  | None => Bad
  | Some o =>
    if dead o then Bad else
    if (count o <? 0)%Z then Bad else
    if (65535 <=? count o)%Z then Limit else
    Moved (set_obj s p (mkobj (count o + 1) (fields o) (dead o) (zeros o)))
  end.
(** Reference.h:39-45, up to the callback; [rest] is what the thread does afterwards. *)
Definition decRef (s : state) (t p : nat) (sl : list (option nat)) (rest : list act) : outcome :=
  match nth_error (objs s) p with
  | None => Bad
  | Some o =>
    if dead o then Bad else
    if (count o <? 1)%Z then Bad else
    if (65535 <=? count o)%Z then Limit else
    let s := set_obj s p (mkobj (count o - 1) (fields o) (dead o) (zeros o)) in
    Moved (set_thr s t (mkthr sl (if (count o =? 1)%Z then Zero p :: rest else rest)))
  end.
(** onRefCountZero (Reference.h:43): `delete this`, which destructs the handles inside (Reference.h:85-88). *)
Definition decs (l : list (option nat)) : list act := flat_map (fun x => match x with Some p => [Dec p] | None => [] end) l.
Definition onRefCountZero (s : state) (t p : nat) (sl : list (option nat)) (rest : list act) : outcome :=
  match nth_error (objs s) p with
  | None => Bad
  | Some o =>
    if dead o then Bad else
    let s := set_obj s p (mkobj (count o) (fields o) true (S (zeros o))) in
    Moved (set_thr s t (mkthr sl (decs (fields o) ++ rest)))
  end.

(** The next part of the operation in progress. *)
Definition go (s : state) (t : nat) (th : thr) : outcome :=
  let sl := slots th in
  match pend th with
  | [] => Stuck
  | Inc p :: rest => incRef (set_thr s t (mkthr sl rest)) p
  | Dec p :: rest => decRef s t p sl rest
  | Zero p :: rest => onRefCountZero s t p sl rest
  | Null i :: rest => Moved (set_thr s t (mkthr (upd sl i None) rest))
  | Tail d x :: rest => Moved (set_thr s t (mkthr (upd (upd sl d (nth x sl None)) x None) rest))
  | TailField d p j :: rest =>
    match nth_error (objs s) p with
    | None => Bad
    | Some o =>
      if dead o then Bad else
      let s := set_obj s p (mkobj (count o) (upd (fields o) j None) (dead o) (zeros o)) in
      Moved (set_thr s t (mkthr (upd sl d (nth j (fields o) None)) rest))
    end
  end.

(** The handle to be copied. *)
Inductive source := Got (v : option nat) | NoSource | DeadSource.
Definition read (s : state) (sl : list (option nat)) (x : src) : source :=
  match x with
  | Var i => match nth_error sl i with Some v => Got v | None => NoSource end
  | Sub i j =>
    match nth_error sl i with
    | Some (Some q) =>
      match nth_error (objs s) q with
      | None => DeadSource
      | Some o => if dead o then DeadSource else match nth_error (fields o) j with Some v => Got v | None => NoSource end
      end
    | _ => NoSource
    end
  end.
Definition inc (v : option nat) : list act := match v with Some p => [Inc p] | None => [] end.
Definition dec (v : option nat) : list act := match v with Some p => [Dec p] | None => [] end.
(** Moving handles into the constructor of a new object. *)
Fixpoint take (sl : list (option nat)) (l : list nat) : list (option nat) * list (option nat) :=
  match l with
  | [] => ([], sl)
  | i :: l => let '(f, sl') := take (upd sl i None) l in (nth i sl None :: f, sl')
  end.

Definition start (s : state) (t : nat) (th : thr) (o : op) : outcome :=
  let sl := slots th in
  match o with
  (* Reference.h:74-77 and 98-105: the first reference is there before anybody else knows the object. *)
  | New d l =>
    if negb (forallb (fun i => i <? length sl) l && (d <? length sl)) then Stuck else
    let '(f, sl) := take sl l in
    let p := length (objs s) in
    Moved (mkst (objs s ++ [mkobj 1 f false 0]) (upd (thrs s) t (mkthr (upd sl d (Some p)) (dec (nth d sl None)))))
  (* Reference.h:78-81 *)
  | CopyCtor d x =>
    match read s sl x, nth_error sl d with
    | DeadSource, _ => Bad
    | Got v, Some None => Moved (set_thr s t (mkthr (upd sl d v) (inc v)))
    | _, _ => Stuck
    end
  (* Reference.h:82-84 *)
  | MoveCtor d x =>
    match nth_error sl x, nth_error sl d with
    | Some v, Some None => Moved (set_thr s t (mkthr (upd (upd sl x None) d v) []))
    | _, _ => Stuck
    end
  (* Reference.h:129-133, 85-88 *)
  | Clear i =>
    match nth_error sl i with
    | Some v => Moved (set_thr s t (mkthr sl (dec v ++ [Null i])))
    | None => Stuck
    end
  (* Reference.h:107-114 *)
  | CopyAssign d x =>
    match read s sl x, nth_error sl d with
    | DeadSource, _ => Bad
    | Got v, Some old => Moved (set_thr s t (mkthr (upd sl d v) (inc v ++ dec old)))
    | _, _ => Stuck
    end
  (* Reference.h:115-120 *)
  | MoveAssign d x =>
    match nth_error sl x, nth_error sl d with
    | Some _, Some old => Moved (set_thr s t (mkthr sl (dec old ++ [Tail d x])))
    | _, _ => Stuck
    end
  | MoveField d i j =>
    match nth_error sl i, nth_error sl d with
    | Some (Some q), Some old =>
      match nth_error (objs s) q with
      | None => Bad
      | Some o => if dead o then Bad else if j <? length (fields o) then Moved (set_thr s t (mkthr sl (dec old ++ [TailField d q j]))) else Stuck
      end
    | _, _ => Stuck
    end
  | Give i t' j =>
    match nth_error (thrs s) t', nth_error sl i with
    | Some th', Some v =>
      match pend th', nth_error (slots th') j with
      | [], Some None =>
        if t =? t' then Stuck else
        Moved (mkst (objs s) (upd (upd (thrs s) t (mkthr (upd sl i None) [])) t' (mkthr (upd (slots th') j v) [])))
      | _, _ => Stuck
      end
    | _, _ => Stuck
    end
  (* Reference.h:89-91 *)
  | Use i =>
    match nth_error sl i with
    | Some (Some p) =>
      match nth_error (objs s) p with
      | None => Bad
      | Some o => if dead o then Bad else Moved s
      end
    | _ => Stuck
    end
  end.

Definition step (s : state) (t : nat) (m : move) : outcome :=
  match nth_error (thrs s) t with
  | None => Stuck
  | Some th =>
    match m with
    | Go => go s t th
    | Do o => match pend th with [] => start s t th o | _ :: _ => Stuck end
    end
  end.

(** A schedule; impossible moves are passed over. *)
Fixpoint run (s : state) (l : list (nat * move)) : outcome :=
  match l with
  | [] => Moved s
  | (t, m) :: l =>
    match step s t m with
    | Moved s' => run s' l
    | Stuck => run s l
    | x => x
    end
  end.
