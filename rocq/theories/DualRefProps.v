(* C47: objects with strong and weak references. *)
From Verif Require Import DualRefModel DualRefSpec DualRefProofs.
Open Scope nat_scope.

(** Whatever the threads do, the partial callback begins and ends at most once and the full callback is called at most once.
    The partial callback has begun exactly when no strong reference is left, and the full callback is called only when no
    reference of either kind is left, after the partial callback has begun. *)
Theorem C47_at_most_once : forall n l s,
  proper l -> wrun (winit n) l = WMoved s ->
  times PartialBegins (log s) <= 1 /\ times PartialEnds (log s) <= 1 /\ times Full (log s) <= 1 /\
  (In PartialBegins (log s) <-> no_strong s) /\
  (In PartialEnds (log s) <-> no_strong s /\ ~ in_partial s) /\
  (In Full (log s) -> no_strong s /\ no_weak s) /\
  (log s = [] \/ exists r, log s = PartialBegins :: r).
Proof. exact callbacks_once. Qed.
Print Assumptions C47_at_most_once.

(** Once every reference is gone and the partial callback has returned, both callbacks have been called exactly once. *)
Theorem C47_both_called : forall n l s,
  proper l -> wrun (winit n) l = WMoved s -> no_strong s -> no_weak s -> ~ in_partial s ->
  times PartialBegins (log s) = 1 /\ times PartialEnds (log s) = 1 /\ times Full (log s) = 1.
Proof. exact callbacks_settle. Qed.
Print Assumptions C47_both_called.

(** The full callback comes after the partial one has returned, if no weak reference is dropped while that one runs. *)
Theorem C47_order_partial : forall n l s,
  proper l -> calm n l -> wrun (winit n) l = WMoved s ->
  In Full (log s) -> log s = [PartialBegins; PartialEnds; Full].
Proof. exact callbacks_order. Qed.
Print Assumptions C47_order_partial.

(** No assertion fails and no limit is met in the first 32766 steps of any schedule. *)
Theorem C47_defined : forall n l,
  proper l -> (Z.of_nat (length l) <= 32766)%Z -> exists s, wrun (winit n) l = WMoved s.
Proof. exact callbacks_defined. Qed.
Print Assumptions C47_defined.

(** Three threads: a strong and a weak reference are handed out, the last strong one is dropped by thread 1, the weak one by 2. *)
Definition three : list (nat * wmove) :=
  [(0, IncRef); (0, IncWeak); (0, GiveStrong 1); (0, GiveWeak 2); (0, DecRef); (1, DecRef); (1, Finish); (2, DecWeak)].
Example C47_three_ex :
  proper three /\ match wrun (winit 2) three with WMoved s => log s = [PartialBegins; PartialEnds; Full] /\ dual s = 0%Z | _ => False end.
Proof.
  split; [|vm_compute; auto].
  intros t m H. cbn in H. decompose [or] H; try contradiction; match goal with E : _ = (t, m) |- _ => injection E as <- <- end; split; discriminate.
Qed.

(** Refuted: the full callback can be called while the partial one is still running, by another thread dropping the last weak
    reference or by the partial callback itself dropping it. *)
Theorem C47_full_overtakes_refuted : forall n,
  (exists s, wrun (winit (S n)) [(0, IncWeak); (0, GiveWeak 1); (0, DecRef); (1, DecWeak)] = WMoved s /\
     log s = [PartialBegins; Full] /\ in_partial s) /\
  (exists s, wrun (winit n) [(0, IncWeak); (0, DecRef); (0, DecWeak)] = WMoved s /\ log s = [PartialBegins; Full] /\ in_partial s).
Proof.
  intros n. split; (eexists; split; [reflexivity|split; [reflexivity|]]); exists 0; eexists; exists false; split; reflexivity.
Qed.
Print Assumptions C47_full_overtakes_refuted.

(** Refuted: once the strong references are gone, no holder of a weak reference can copy it: an assertion fails. *)
Theorem C47_copy_weak_refuted : forall n l s t th,
  proper l -> wrun (winit n) l = WMoved s -> no_strong s ->
  nth_error (wths s) t = Some th -> 0 < weak th -> inpart th = None -> wstep s t CopyWeak = WAssert.
Proof. exact copy_weak_asserts. Qed.
Print Assumptions C47_copy_weak_refuted.
Example C47_copy_weak_ex : wrun (winit 0) [(0, IncWeak); (0, DecRef); (0, Finish); (0, CopyWeak)] = WAssert.
Proof. reflexivity. Qed.

(** Refuted: a strong reference made from a weak one after the strong ones are gone runs the partial callback a second time. *)
Theorem C47_upgrade_refuted : forall n, exists s,
  wrun (winit n) [(0, IncWeak); (0, DecRef); (0, Finish); (0, Upgrade); (0, DecRef)] = WMoved s /\
  log s = [PartialBegins; PartialEnds; PartialBegins].
Proof. intros n. eexists. split; reflexivity. Qed.
Print Assumptions C47_upgrade_refuted.
