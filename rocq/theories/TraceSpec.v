(* What a trace log must do, said about calls in the order an observer sees them begin and return. *)
From Coq Require Import Permutation.
From Verif Require Export TraceModel.
Open Scope nat_scope.

(** [x] stands somewhere before [y]. *)
Definition before {A} (x y : A) (l : list A) : Prop := exists a b c, l = a ++ x :: b ++ y :: c.

(** An order of the [n] calls in which each occurs once, and a call that returned before another began comes first. *)
Definition linear (n : nat) (h : list mark) (order : list nat) : Prop :=
  Permutation order (seq 0 n) /\
  forall a b, before (Return a) (Call b) h -> before a b order.

(** Nobody is in a call. *)
Definition quiet (s : state) : Prop := forall t, pcs s t = Idle.

(** The calls that had returned when call [k] began. *)
Fixpoint done_before (h : list mark) (k : nat) : list nat :=
  match h with
  | [] => []
  | Call j :: h => if j =? k then [] else done_before h k
  | Return j :: h => j :: done_before h k
  end.
(** The other calls, so far, that had not: those that call [k] may have to share the log with. *)
Definition rivals (n : nat) (h : list mark) (k : nat) : nat := n - 1 - length (done_before h k).
(** Call [k] has begun and not returned. *)
Definition running (h : list mark) (k : nat) : Prop := In (Call k) h /\ ~ In (Return k) h.
