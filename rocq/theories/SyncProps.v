(* C57, C61, C62: race detectors, events that stay signalled, and counted trace points. *)
From Coq Require Import List Arith ZArith Lia. Import ListNotations.
From Verif Require Import SyncModel SyncSpec SyncProofs.
Open Scope nat_scope.

(** C57: when every thread exits only what it entered, a detector lets the program go on exactly if the sections came one
    at a time. *)
Theorem C57_detects : forall l, bracketed l -> (detect 0 l <> None <-> serial l).
Proof. exact detector_exact. Qed.
Print Assumptions C57_detects.
Example C57_detects_ex : bracketed [Enter 0; Exit 0; Enter 1; Enter 0; Exit 1; Exit 0] /\
  detect 0 [Enter 0; Exit 0; Enter 1; Enter 0; Exit 1; Exit 0] = None /\
  detect 0 [Enter 0; Exit 0; Enter 1; Exit 1; Enter 0] = Some 1 /\ serial [Enter 0; Exit 0; Enter 1; Exit 1; Enter 0].
Proof.
  split; [|split; [reflexivity|split; [reflexivity|repeat constructor]]].
  intros a b t E. do 7 (destruct a as [|? a]; [cbn in *; unfold opened, closed; cbn; destruct t as [|[|t]]; cbn; lia|];
    try (injection E as <- E)); discriminate.
Qed.

(** Whoever calls it, a detector lets the program go on exactly if entering and leaving take turns, entering first: in
    particular leaving a section that nobody entered stops the program. *)
Theorem C57_turns : forall l, detect 0 l <> None <-> turns l.
Proof. exact detector_turns. Qed.
Print Assumptions C57_turns.
Example C57_turns_ex : detect 0 [Enter 0; Exit 0; Exit 0] = None /\ detect 0 [Exit 0] = None /\
  detect 0 [Enter 0; Exit 1; Enter 2] = Some 1.
Proof. repeat split. Qed.

(** Refuted: a section left by a thread that did not enter it, while the thread that did is still inside, is not noticed,
    nor is a third thread that enters then. *)
Theorem C57_stolen_refuted : forall t u v, t <> u -> detect 0 [Enter t; Exit u; Enter v] = Some 1.
Proof. intros; reflexivity. Qed.
Print Assumptions C57_stolen_refuted.
(** A thread that enters again inside its own section crashes, although nothing is shared. *)
Theorem C57_nested_refuted : forall t, detect 0 [Enter t; Enter t; Exit t; Exit t] = None.
Proof. intros; reflexivity. Qed.
Print Assumptions C57_nested_refuted.
(** Two threads whose sections come one after the other, with nothing else to order them, race on the data the sections
    use, and the detector does not see it: leaving a section releases nothing. *)
Theorem C57_race_refuted : forall t u, t <> u ->
  rmrun mem0 (fun _ => tv0) [REnter t; RUse t; RExit t; REnter u; RUse u; RExit u] = Raced /\
  detect 0 [Enter t; Exit t; Enter u; Exit u] = Some 0.
Proof. exact detector_misses. Qed.
Print Assumptions C57_race_refuted.

(** C61: whatever the schedule, every call takes effect at one moment between its beginning and its end; signal sets the
    event, reset clears it, and a waiting thread gets through only at a moment when it is set. *)
Theorem C61_atomic : forall b sched, event_notes b (fun _ => None) (snd (erun (einit b) sched)).
Proof. exact event_runs. Qed.
Print Assumptions C61_atomic.
(** No wake-up is lost: when nobody can go on, everybody is out of the event or waiting, and nobody waits for an event
    that is set. *)
Theorem C61_woken : forall b sched, let s := fst (erun (einit b) sched) in stuck s ->
  (forall t, epcs s t = EIdle \/ epcs s t = ESleep) /\ (forall t, epcs s t = ESleep -> estatus s = false).
Proof. exact event_stuck. Qed.
Print Assumptions C61_woken.
(** While the event is set and nobody is about to clear it, each thread can return from its call without any help from
    spurious wake-ups or new calls. *)
Theorem C61_available : forall b sched t, let s := fst (erun (einit b) sched) in
  estatus s = true -> (forall u, epcs s u <> EClear) ->
  exists more, (forall x, In x more -> snd x = EGo) /\ epcs (fst (erun (einit b) (sched ++ more))) t = EIdle.
Proof. exact event_available. Qed.
Print Assumptions C61_available.
Example C61_ex :
  let sched := [(0, EBegin Wait); (0, EGo); (0, EGo); (1, EBegin Signal); (1, EGo); (1, EGo)] in
  let s := fst (erun (einit false) sched) in
  epcs s 0 = ESleep /\ estatus s = true /\ epcs s 1 = EWake /\
  snd (erun (einit false) (sched ++ [(1, EGo); (1, EGo); (0, EGo); (0, EGo); (0, EGo)])) =
    [Called 0 Wait; Called 1 Signal; Done 1 Signal; Returned 1 Signal; Done 0 Wait; Returned 0 Wait].
Proof. vm_compute. repeat split. Qed.
Example C61_woken_ex : stuck (fst (erun (einit false) [(0, EBegin Wait); (0, EGo); (0, EGo)])).
Proof. intros [|[|t]]; vm_compute; reflexivity. Qed.

(** C62: whatever the schedule of the first uses of the groups, walking the list meets every group whose adding has ended
    once, the latest first, in an order in which a group added before another's adding began comes after it. *)
Theorem C62_groups : forall sched, let s := grun ginit sched in
  exists order, added_order s order /\ forall fuel, length order <= fuel -> visit fuel s (first s) = Some (rev order).
Proof. exact groups_listed. Qed.
Print Assumptions C62_groups.
Example C62_groups_ex :
  let s := grun ginit [(5, GGo); (5, GGo); (7, GGo); (7, GGo); (7, GGo); (5, GGo); (7, GGo); (5, GGo); (5, GGo); (5, GFail); (5, GGo); (5, GGo)] in
  visit 2 s (first s) = Some [5; 7] /\ ghist s = [(true, 5); (true, 7); (false, 7); (false, 5)].
Proof. vm_compute. repeat split. Qed.

(** Counters say how often each point was passed, modulo 2^32, *)
Theorem C62_counters : forall n l i, i < n ->
  nth_error (fold_left trace l (repeat 0%Z n)) i = Some (Z.of_nat (count_occ Nat.eq_dec l i) mod 2 ^ 32)%Z.
Proof. exact counters_count. Qed.
Print Assumptions C62_counters.
(** and a group is printed exactly if one of them is not zero. *)
Theorem C62_printed : forall n l,
  printed (fold_left trace l (repeat 0%Z n)) = true <->
  exists i, i < n /\ (Z.of_nat (count_occ Nat.eq_dec l i) mod 2 ^ 32 <> 0)%Z.
Proof. exact counters_printed. Qed.
Print Assumptions C62_printed.
Example C62_counters_ex : fold_left trace [1; 0; 1] (repeat 0%Z 3) = [1; 2; 0]%Z /\ printed [1; 2; 0]%Z = true.
Proof. vm_compute. split; reflexivity. Qed.
(** Refuted: a group that was used is not printed after 2^32 uses of one point. *)
Theorem C62_used_refuted : exists l, l <> [] /\ printed (fold_left trace l (repeat 0%Z 1)) = false.
Proof. exact counter_wraps. Qed.
Print Assumptions C62_used_refuted.
