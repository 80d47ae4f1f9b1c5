(* What reference counting promises, in terms of the handles and objects of a state. *)
From Verif Require Export RefCountModel.
Open Scope nat_scope.

Definition alive (s : state) (p : nat) : Prop := exists o, nth_error (objs s) p = Some o /\ dead o = false.
(** The callback of an object was called this often. *)
Definition callbacks (s : state) (p n : nat) : Prop := exists o, nth_error (objs s) p = Some o /\ zeros o = n.
(** A thread that is between operations holds the object, or an object that was not deleted does. *)
Definition held (s : state) (p : nat) : Prop :=
  exists t th, nth_error (thrs s) t = Some th /\ pend th = [] /\ In (Some p) (slots th).
Definition inside (s : state) (q p : nat) : Prop :=
  exists o, nth_error (objs s) q = Some o /\ dead o = false /\ In (Some p) (fields o).
(** No thread is in the middle of an operation. *)
Definition quiet (s : state) : Prop := forall t th, nth_error (thrs s) t = Some th -> pend th = [].
Inductive reachable (s : state) : nat -> Prop :=
| r_held p : held s p -> reachable s p
| r_inside q p : reachable s q -> inside s q p -> reachable s p.
(** No handle is moved out of an object. *)
Definition no_move_out (l : list (nat * move)) : Prop := forall t d i j, ~ In (t, Do (MoveField d i j)) l.
