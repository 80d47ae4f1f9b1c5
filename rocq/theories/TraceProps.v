(* C56: the in-memory trace log, written by any number of threads. *)
From Coq Require Import List Arith Lia. Import ListNotations.
From Verif Require Import TraceModel TraceSpec TraceProofs TraceFinal.
Open Scope nat_scope.

(** C56: whatever the sizes and the schedule, when nobody is in a call (and no deleted page was touched before) going
    through the log gives the events of the latest calls, each once, in an order that puts a call which returned before
    another began first. Nothing is missing as long as there were no more calls than the pages hold; after that at least
    all pages but one are full of the latest events. Dumping gives the same, from the page asked for, and the statistics
    give their number. *)
Theorem C56_log : forall E M, 1 <= E -> 1 <= M -> forall sched,
  let s := runs E M sched in let n := length (calls s) in
  freed s = false -> quiet s ->
  exists order d, linear n (hist s) order /\
    (n <= M * E -> d = 0) /\ n - d <= M * E /\ (0 < d -> (M - 1) * E < n - d) /\
    (forall fuel, n <= fuel -> iteration E fuel s = Some (map (fun k => nth_error (calls s) k) (skipn d order))) /\
    (forall startPage, dumpEntireLog E s startPage = map (fun k => nth_error (calls s) k) (skipn (d + startPage * E) order)) /\
    dumpStats E s = n - d.
Proof. exact log_rest. Qed.
Print Assumptions C56_log.

(** No deleted page is touched while there are no more calls than the pages hold, *)
Theorem C56_safe : forall E M, 1 <= E -> 1 <= M -> forall sched,
  length (calls (runs E M sched)) <= M * E -> freed (runs E M sched) = false.
Proof. exact safe_few. Qed.
Print Assumptions C56_safe.
(** or as long as no call takes so long that the calls not finished when it began, and those begun since, would fill
    all pages but one. *)
Theorem C56_safe_rivals : forall E M, 1 <= E -> 1 <= M -> forall sched,
  (forall pre post k, sched = pre ++ post -> running (hist (runs E M pre)) k ->
    rivals (length (calls (runs E M pre))) (hist (runs E M pre)) k < (M - 1) * E) ->
  freed (runs E M sched) = false.
Proof. exact safe_rivals. Qed.
Print Assumptions C56_safe_rivals.

(** Nobody is held up for ever: from whatever point every thread finishes its call under some schedule (unless a deleted
    page is touched). *)
Theorem C56_available : forall E M, 1 <= E -> 1 <= M -> forall sched t, freed (runs E M sched) = false ->
  exists more, freed (runs E M (sched ++ more)) = true \/ pcs (runs E M (sched ++ more)) t = Idle.
Proof. exact available. Qed.
Print Assumptions C56_available.

(** C56 fails in general: whatever the sizes, a thread that is held up while another fills the log goes on into a page
    that was deleted. *)
Theorem C56_freed_refuted : forall E M, 1 <= E -> 1 <= M -> exists sched, freed (runs E M sched) = true.
Proof. exact freed_reachable. Qed.
Print Assumptions C56_freed_refuted.

(** [dumpEntireLog] takes the lock, but that does not wait for calls under way: it shows a slot nobody has written yet
    (in the source, a null message). *)
Theorem C56_early_refuted : forall E M, 1 <= E -> 1 <= M -> let s := runs E M [(0, Begin 0 0 0); (0, Go); (0, Go)] in
  freed s = false /\ lock s = None /\ dumpEntireLog E s 0 = [None].
Proof. exact dump_early. Qed.
Print Assumptions C56_early_refuted.

(** [dumpStats] says how many events were logged; once a page has been deleted it says fewer. *)
Theorem C56_stats_refuted : forall E M, 1 <= E -> 1 <= M -> forall sched, let s := runs E M sched in
  freed s = false -> quiet s -> M * E < length (calls s) -> dumpStats E s < length (calls s).
Proof. exact stats_short. Qed.
Print Assumptions C56_stats_refuted.

(** The source's sizes are among those. *)
Example C56_sizes : 1 <= EventsPerPage /\ 1 <= MaxNumPages.
Proof. unfold EventsPerPage, MaxNumPages. split; [apply Nat.neq_0_lt_0, Nat.pow_nonzero|]; lia. Qed.
(** Three threads, pages of two events, two pages; two threads find the page full at the same time, one makes the new
    page and the other takes its second slot; the first page is deleted later. *)
Definition C56_sched : list (nat * move) :=
  [(0, Begin 7 1 2); (0, Go); (0, Go); (1, Begin 8 3 4); (1, Go); (1, Go); (1, Go); (0, Go);
   (0, Begin 9 5 6); (1, Begin 10 7 8); (2, Begin 11 9 9); (0, Go); (1, Go); (2, Go); (1, Go); (0, Go); (1, Go); (0, Go); (1, Go); (1, Go); (1, Go);
   (2, Go); (1, Go); (2, Go); (1, Go); (0, Go); (0, Go); (0, Go); (1, Go); (0, Go); (2, Go); (2, Go); (0, Go);
   (2, Go); (2, Go); (2, Go); (2, Go); (2, Go); (2, Go)].
Example C56_log_ex : let s := runs 2 2 C56_sched in
  freed s = false /\ quiet s /\ length (calls s) = 5 /\
  dumpEntireLog 2 s 0 = [Some (mkev 1 10 7 8); Some (mkev 0 9 5 6); Some (mkev 2 11 9 9)] /\ dumpStats 2 s = 3.
Proof. vm_compute. repeat split. intros [|[|[|t]]]; reflexivity. Qed.
Example C56_safe_ex : length (calls (runs 2 3 C56_sched)) <= 3 * 2.
Proof. vm_compute. lia. Qed.
Example C56_rivals_ex : let h := hist (runs 2 2 C56_sched) in rivals 5 h 1 = 4 /\ rivals 5 h 2 = 2 /\ rivals 5 h 4 = 2.
Proof. vm_compute. repeat split. Qed.
Example C56_freed_ex : exists sched, freed (runs 1 2 sched) = true.
Proof.
  exists ([(0, Begin 0 0 0); (0, Go)] ++ flat_map (fun k => (1, Begin k k k) :: repeat (1, Go) 9) [1; 2; 3] ++ [(0, Go)]).
  vm_compute. reflexivity.
Qed.
