(* What locks must do, said about the events an observer sees. *)
From Verif Require Export LockModel.
Open Scope nat_scope.

(** The events of a lock protecting a counter: [holder] holds it now, [n] is the counter. Whoever acquires it finds it
    free; only the holder uses the counter, seeing all earlier uses, and releases it. *)
Inductive lock_events : option nat -> Z -> list event -> Prop :=
| le_nil h n : lock_events h n []
| le_acquire t n es : lock_events (Some t) n es -> lock_events None n (Acquired t :: es)
| le_use t n es : lock_events (Some t) (n + 1) es -> lock_events (Some t) n (Used t n :: es)
| le_release t n es : lock_events None n es -> lock_events (Some t) n (Released t :: es).

(** The same with one construction, before the first time the lock is acquired. *)
Inductive lazy_events : bool -> option nat -> Z -> list event -> Prop :=
| lz_nil b h n : lazy_events b h n []
| lz_construct t n es : lazy_events true None n es -> lazy_events false None n (Constructed t :: es)
| lz_acquire t n es : lazy_events true (Some t) n es -> lazy_events true None n (Acquired t :: es)
| lz_use t n es : lazy_events true (Some t) (n + 1) es -> lazy_events true (Some t) n (Used t n :: es)
| lz_release t n es : lazy_events true None n es -> lazy_events true (Some t) n (Released t :: es).
