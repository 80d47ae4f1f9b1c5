(* C48: the lazily initialised mutex and the spin lock, under release/acquire memory. *)
From Coq Require Import List ZArith Lia. Import ListNotations.
From Verif Require Import WeakMemModel LockModel LockSpec LockProofs.
Open Scope nat_scope.

(** C48: for any number of threads and every schedule, nothing goes wrong (no data race, no use of a mutex before its
    construction, no second construction, no failed assertion), and what an observer sees are the events of one lock that
    is constructed once, before it is first acquired. *)
Theorem C48_lazy_mutex : forall n sched, exists s es, lrun n sched = Some (s, es) /\ lazy_events false None 0 es.
Proof. exact lazy_lock. Qed.
Print Assumptions C48_lazy_mutex.
(** The same of the spin lock. *)
Theorem C48_spin_lock : forall n sched, exists s es, prun n sched = Some (s, es) /\ lock_events None 0 es.
Proof. exact spin_lock. Qed.
Print Assumptions C48_spin_lock.
(** Nobody is locked out for ever: from whatever point, every thread gets the lock under some schedule. *)
Theorem C48_lazy_mutex_available : forall n sched s es t, lrun n sched = Some (s, es) -> t < n ->
  exists more s' es', srun lstep s more = Some (s', es') /\ In (Acquired t) es'.
Proof. exact lazy_available. Qed.
Print Assumptions C48_lazy_mutex_available.
Theorem C48_spin_lock_available : forall n sched s es t, prun n sched = Some (s, es) -> t < n ->
  exists more s' es', srun pstep s more = Some (s', es') /\ In (Acquired t) es'.
Proof. exact spin_available. Qed.
Print Assumptions C48_spin_lock_available.

(** Two threads race to construct; thread 1 still sees the old flag after the construction, and both use the data. *)
Example C48_lazy_ex : option_map snd (lrun 2
  [(0, At 0); (1, At 0); (0, Go); (1, At 1); (0, At 0); (0, Go); (0, Go); (1, At 1); (0, Go); (0, Go); (0, Use); (0, Use);
   (1, Go); (1, At 0); (1, At 1); (1, Go); (1, Go); (0, At 1); (1, Go); (1, Use); (1, At 1); (0, At 0); (0, At 1); (0, Go)])
  = Some [Constructed 0; Acquired 0; Used 0 0; Used 0 1; Released 0; Acquired 1; Used 1 2; Released 1; Acquired 0].
Proof. vm_compute. reflexivity. Qed.
Example C48_spin_ex : option_map snd (prun 3 [(2, Go); (0, Go); (0, At 1); (2, Use); (2, Leave); (0, At 1); (1, Go); (0, Go); (1, Use); (1, Leave)])
  = Some [Acquired 2; Used 2 0; Released 2; Acquired 1; Used 1 1; Released 1].
Proof. vm_compute. reflexivity. Qed.
(** The events tell a lock from none. *)
Example C48_rejects : ~ lock_events None 0 [Acquired 0; Acquired 1] /\ ~ lazy_events false None 0 [Acquired 0] /\
  ~ lock_events None 0 [Acquired 0; Used 0 0; Released 0; Acquired 1; Used 1 0].
Proof.
  split; [|split]; intros H; repeat match goal with H : lock_events _ _ (_ :: _) |- _ => inversion H; clear H; subst | H : lazy_events _ _ _ (_ :: _) |- _ => inversion H; clear H; subst end.
Qed.
