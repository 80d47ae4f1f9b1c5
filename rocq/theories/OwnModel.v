(* Model of the owning pointers of the runtime: RT/container/Owned.h, Functor.h and Subst.h:73-90
   (RT = /repo/repos/plywood/src/runtime/ply-runtime).
   Objects have members that are such pointers (a class that has other members as well has the same
   behaviour); [None] is a failing assertion, a use of freed memory or a null pointer that is followed. *)
From Coq Require Export List ZArith Bool Arith.
Export ListNotations.
Local Open Scope list_scope.
Local Notation "'do' x <- e ; f" := (match e with Some x => f | None => None end) (at level 200, x pattern, e at level 100, f at level 200).

(** Owned.h:42-45 [Owned], Owned.h:115-118 [OptionallyOwned] and Functor.h:13-33 [Functor]. *)
Inductive kind := Owning | Optional | Func.
(** The pointer is an address; the flag is the lowest bit of [ptrAndOwnedFlag] and is set for the other two kinds. *)
Record slot := mkSlot { sKind : kind; sPtr : option nat; sFlag : bool }.
Definition kindEqb (a b : kind) : bool := match a, b with Owning, Owning | Optional, Optional | Func, Func => true | _, _ => false end.
Definition ptrEqb (a b : option nat) : bool := match a, b with Some a, Some b => (a =? b)%nat | None, None => true | _, _ => false end.
(** Owned.h:48, Owned.h:121, Functor.h:36: default constructors. *)
Definition empty (k : kind) : slot := mkSlot k None (match k with Optional => false | _ => true end).

(** Objects by address, each with a number (objects are numbered in the order in which they are made) and its
    members; the variables; the numbers of the objects whose destructors have run. For a functor the object is
    its callable. *)
Record state := mkState { heap : list (nat * (nat * list slot)); vars : list slot; made : nat; gone : list nat }.
Definition start : state := mkState [] [] 0 [].
Fixpoint lookup (a : nat) (h : list (nat * (nat * list slot))) : option (nat * list slot) :=
  match h with [] => None | (b, x) :: h => if (a =? b)%nat then Some x else lookup a h end.
Fixpoint remove (a : nat) (h : list (nat * (nat * list slot))) : list (nat * (nat * list slot)) :=
  match h with [] => [] | (b, x) :: h => if (a =? b)%nat then h else (b, x) :: remove a h end.
Fixpoint upd {A} (n : nat) (x : A) (l : list A) : list A :=
  match l, n with [], _ => [] | _ :: l, O => x :: l | y :: l, S n => y :: upd n x l end.
Fixpoint change (a : nat) (x : nat * list slot) (h : list (nat * (nat * list slot))) : list (nat * (nat * list slot)) :=
  match h with [] => [] | (b, y) :: h => if (a =? b)%nat then (b, x) :: h else (b, y) :: change a x h end.

(** Where a pointer is: a variable, or a member of an object. *)
Inductive loc := LVar (n : nat) | LField (a k : nat).
Definition readAt (c : loc) (s : state) : option slot :=
  match c with
  | LVar n => nth_error (vars s) n
  | LField a k => do (_, l) <- lookup a (heap s); nth_error l k
  end.
Definition writeAt (c : loc) (x : slot) (s : state) : option state :=
  do _ <- readAt c s;
  match c with
  | LVar n => Some (mkState (heap s) (upd n x (vars s)) (made s) (gone s))
  | LField a k =>
    do (id, l) <- lookup a (heap s);
    Some (mkState (change a (id, upd k x l) (heap s)) (vars s) (made s) (gone s))
  end.
(** An expression like v->x->y: the variable, then members. *)
Fixpoint follow (c : loc) (p : list nat) (s : state) : option loc :=
  match p with
  | [] => Some c
  | k :: p =>
    do x <- readAt c s;
    do a <- sPtr x;
    do (_, l) <- lookup a (heap s);
    if (k <? length l)%nat then follow (LField a k) p s else None
  end.
Definition locate (p : list nat) (s : state) : option loc :=
  match p with [] => None | n :: p => if (n <? length (vars s))%nat then follow (LVar n) p s else None end.

(** Owned.h:58-60, Owned.h:137-141, Functor.h:45-49: the destructors. [delete] on the base class of a functor's
    wrapper frees it, and the destructor of the callable in it does not run (the base class has no virtual destructor). *)
Definition destruct1 (destroy : nat -> state -> option state) (x : slot) (s : state) : option state :=
  match sPtr x with
  | None => Some s
  | Some a =>
    match sKind x with
    | Func => do _ <- lookup a (heap s); Some (mkState (remove a (heap s)) (vars s) (made s) (gone s))
    | Owning => destroy a s
    | Optional => if sFlag x then destroy a s else Some s
    end
  end.
Fixpoint destructAll (destroy : nat -> state -> option state) (l : list slot) (s : state) : option state :=
  match l with [] => Some s | x :: l => do s <- destruct1 destroy x s; destructAll destroy l s end.
(** Subst.h:87-90 [destroyByMember] (delete): the destructor runs, then those of the members, the last first;
    then the memory is free. *)
Fixpoint destroy (fuel : nat) (a : nat) (s : state) : option state :=
  match fuel with
  | O => None
  | S f =>
    do (id, l) <- lookup a (heap s);
    do s <- destructAll (destroy f) (rev l) (mkState (heap s) (vars s) (made s) (gone s ++ [id]));
    do _ <- lookup a (heap s);
    Some (mkState (remove a (heap s)) (vars s) (made s) (gone s))
  end.
Definition destructSlot (x : slot) (s : state) : option state := destruct1 (destroy (S (length (heap s)))) x s.

(** Owned.h:66-70 [Owned::operator=(Owned&&)]. *)
Definition assignOwned (d c : loc) (s : state) : option state :=
  do x <- readAt d s;
  do y <- readAt c s;
  if ptrEqb (sPtr x) None || negb (ptrEqb (sPtr x) (sPtr y)) then
    do s <- destructSlot x s;
    do y <- readAt c s;
    do s <- writeAt c (empty Owning) s;
    writeAt d (mkSlot Owning (sPtr y) true) s
  else None.
(** Owned.h:78-82 [Owned::operator=] of a pointer. *)
Definition assignRaw (d : loc) (p : option nat) (s : state) : option state :=
  do x <- readAt d s;
  if ptrEqb (sPtr x) None || negb (ptrEqb (sPtr x) p) then
    do s <- destructSlot x s;
    writeAt d (mkSlot Owning p true) s
  else None.
(** Owned.h:99-103 [release], 104-107 [clear]. *)
Definition release (c : loc) (s : state) : option (option nat * state) :=
  do x <- readAt c s;
  do s <- writeAt c (empty (sKind x)) s;
  Some (sPtr x, s).
Definition clear (c : loc) (s : state) : option state :=
  do x <- readAt c s;
  do s <- destructSlot x s;
  writeAt c (empty Owning) s.
(** Owned.h:142-146 [OptionallyOwned::operator=] from a temporary [y] (made from an Owned, 122-127, or from a Borrowed,
    131-136). *)
Definition same (x y : slot) : bool := ptrEqb (sPtr x) (sPtr y) && Bool.eqb (sFlag x) (sFlag y).
Definition assignTemp (d : loc) (y : slot) (s : state) : option state :=
  do x <- readAt d s;
  if same x (empty Optional) || negb (same x y) then
    do s <- destructSlot x s;
    writeAt d y s
  else None.
(** Owned.h:142-146 from another one (128-130 empties it). *)
Definition assignOptional (d c : loc) (s : state) : option state :=
  do x <- readAt d s;
  do y <- readAt c s;
  if same x (empty Optional) || negb (same x y) then
    do s <- destructSlot x s;
    do y <- readAt c s;
    do s <- writeAt c (empty Optional) s;
    writeAt d y s
  else None.
(** Functor.h:50-53 [operator=]. *)
Definition assignFunc (d c : loc) (s : state) : option state :=
  do y <- readAt c s;
  do s <- writeAt d (mkSlot Func (sPtr y) true) s;
  writeAt c (empty Func) s.

Section Ops.
(** The address that the heap gives for a new object. *)
Context (fresh : list nat -> nat).
Definition alloc (l : list slot) (s : state) : nat * state :=
  let a := fresh (map fst (heap s)) in
  (a, mkState (heap s ++ [(a, (made s, l))]) (vars s) (S (made s)) (gone s)).
(** Owned.h:83-86 [create], assigned to a pointer: the temporary is empty when it ends. *)
Definition make (d : loc) (ks : list kind) (s : state) : option state :=
  let '(a, s) := alloc (map empty ks) s in assignRaw d (Some a) s.
(** A functor is made of a callable that contains pointers (moved out of [cs]), and assigned (Functor.h:40-44, 50-53). *)
Fixpoint capture (cs : list loc) (s : state) : option (list slot * state) :=
  match cs with
  | [] => Some ([], s)
  | c :: cs =>
    do x <- readAt c s;
    do s <- writeAt c (empty (sKind x)) s;
    do (l, s) <- capture cs s;
    Some (x :: l, s)
  end.
Definition makeFunc (d : loc) (cs : list loc) (s : state) : option state :=
  do (l, s) <- capture cs s;
  let '(a, s) := alloc l s in writeAt d (mkSlot Func (Some a) true) s.

(** What a client does. Begin, End: a variable (the last one ends). Make: p = Owned<T>::create(). Assign:
    p = std::move(q), of the same kind. Hand: p = std::move(q), p optional and q owned. Raw: p = q.release().
    Borrow: p = q.borrow(). Look: which object is there. *)
Inductive cmd :=
| Begin (k : kind) | End | Make (p : list nat) (ks : list kind) | Assign (p q : list nat) | Hand (p q : list nat)
| Raw (p q : list nat) | Borrow (p q : list nat) | Clear (p : list nat) | Look (p : list nat)
| MakeFunc (p : list nat) (qs : list (list nat)).
Fixpoint locateAll (ps : list (list nat)) (s : state) : option (list loc) :=
  match ps with [] => Some [] | p :: ps => do c <- locate p s; do cs <- locateAll ps s; Some (c :: cs) end.
Definition kindAt (c : loc) (s : state) : option kind := do x <- readAt c s; Some (sKind x).
Definition is (k : kind) (c : loc) (s : state) : bool := match kindAt c s with Some k' => kindEqb k k' | None => false end.
Definition step (c : cmd) (s : state) : option (list (option nat) * state) :=
  match c with
  | Begin k => Some ([], mkState (heap s) (vars s ++ [empty k]) (made s) (gone s))
  | End =>
    match rev (vars s) with
    | [] => None
    | x :: l => do s <- destructSlot x (mkState (heap s) (rev l) (made s) (gone s)); Some ([], s)
    end
  | Make p ks => do d <- locate p s; if is Owning d s then do s <- make d ks s; Some ([], s) else None
  | Assign p q =>
    do d <- locate p s; do c <- locate q s;
    do k <- kindAt d s;
    if is k c s then
      do s <- (match k with Owning => assignOwned | Optional => assignOptional | Func => assignFunc end) d c s; Some ([], s)
    else None
  | Hand p q =>
    do d <- locate p s; do c <- locate q s;
    if is Optional d s && is Owning c s then
      do (x, s) <- release c s; do s <- assignTemp d (mkSlot Optional x true) s; Some ([], s)
    else None
  | Raw p q =>
    do d <- locate p s; do c <- locate q s;
    if is Owning d s && is Owning c s then do (x, s) <- release c s; do s <- assignRaw d x s; Some ([], s) else None
  | Borrow p q =>
    do d <- locate p s; do c <- locate q s;
    if is Optional d s then do y <- readAt c s; do s <- assignTemp d (mkSlot Optional (sPtr y) false) s; Some ([], s) else None
  | Clear p => do d <- locate p s; if is Owning d s then do s <- clear d s; Some ([], s) else None
  | Look p =>
    do d <- locate p s;
    do x <- readAt d s;
    match sPtr x with
    | None => Some ([None], s)
    | Some a => do (id, _) <- lookup a (heap s); Some ([Some id], s)
    end
  | MakeFunc p qs =>
    do d <- locate p s; do cs <- locateAll qs s;
    if is Func d s then do s <- makeFunc d cs s; Some ([], s) else None
  end.
Fixpoint run (cs : list cmd) (s : state) : option (list (option nat) * state) :=
  match cs with
  | [] => Some ([], s)
  | c :: cs => do (o, s) <- step c s; do (o', s) <- run cs s; Some (o ++ o', s)
  end.
End Ops.
