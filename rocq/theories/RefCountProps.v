(* C46: reference counting. *)
From Coq Require Import List ZArith Lia. Import ListNotations. Open Scope nat_scope.
From Verif Require Import Base RefCountModel RefCountSpec RefCountProofs RefOrderModel RefOrderProofs.

(** C46, for any number of threads and handles, every program and every interleaving: no deleted object is used, no count goes
    below zero, no callback runs on a deleted object. *)
Theorem C46_safe : forall n k l, no_move_out l -> run (init n k) l <> Bad.
Proof. exact refs_safe. Qed.
Print Assumptions C46_safe.
(** A thread between operations can use every object it holds, and whatever is inside a live object is alive. *)
Theorem C46_alive : forall n k l s, no_move_out l -> run (init n k) l = Moved s ->
  (forall p, held s p -> alive s p) /\ (forall q p, inside s q p -> alive s p).
Proof. exact refs_alive. Qed.
Print Assumptions C46_alive.
(** The callback runs at most once, and then nobody holds the object. *)
Theorem C46_once : forall n k l s p o, no_move_out l -> run (init n k) l = Moved s -> nth_error (objs s) p = Some o ->
  (zeros o = 0 /\ dead o = false) \/ (zeros o = 1 /\ dead o = true /\ ~ held s p /\ forall q, ~ inside s q p).
Proof. exact refs_once. Qed.
Print Assumptions C46_once.
(** When no operation is in progress, the callback has run for exactly the objects that no handle leads to. *)
Theorem C46_exact : forall n k l s p o, no_move_out l -> run (init n k) l = Moved s -> quiet s -> nth_error (objs s) p = Some o ->
  (zeros o = 0 <-> reachable s p) /\ (zeros o = 1 <-> ~ reachable s p).
Proof. exact refs_exact. Qed.
Print Assumptions C46_exact.
(** Operations in progress can always be completed, unless one runs into the limit of 65535 references. *)
Theorem C46_settle : forall n k l s, no_move_out l -> run (init n k) l = Moved s ->
  exists ts, match run s (map (fun t => (t, Go)) ts) with Moved s' => quiet s' | Limit => True | _ => False end.
Proof. exact refs_settle. Qed.
Print Assumptions C46_settle.
(** Two threads: an object inside another is copied out and given away, and the outer one dropped meanwhile. *)
Definition story : list (nat * move) :=
  [(0, Do (New 1 [])); (0, Do (New 0 [1])); (0, Do (CopyCtor 1 (Sub 0 0))); (0, Go); (0, Do (Give 1 1 0)); (0, Do (CopyAssign 0 (Var 0)));
   (0, Go); (1, Do (RefCountModel.Use 0)); (0, Go); (0, Do (Clear 0)); (0, Go); (1, Do (MoveAssign 0 1)); (0, Go); (1, Go); (0, Go); (1, Go); (1, Go); (0, Go); (0, Go)].
Example C46_ex : no_move_out story /\
  (exists s, run (init 2 2) (firstn 9 story) = Moved s /\ quiet s /\ held s 0 /\ held s 1 /\ inside s 1 0 /\ callbacks s 0 0 /\ callbacks s 1 0) /\
  exists s, run (init 2 2) story = Moved s /\ quiet s /\ callbacks s 0 1 /\ callbacks s 1 1.
Proof.
  split; [intros t d i j H; cbn in H; intuition discriminate|]. split.
  - eexists. split; [vm_compute; reflexivity|]. split; [intros [|[|t]] th E; cbn in E; try (injection E as <-; reflexivity); destruct t; discriminate|].
    split; [exists 1; eexists; split; [reflexivity|]; split; [reflexivity|]; cbn; auto|]. split; [exists 0; eexists; split; [reflexivity|]; split; [reflexivity|]; cbn; auto|].
    split; [eexists; split; [reflexivity|]; split; [reflexivity|]; cbn; auto|]. split; eexists; split; reflexivity.
  - eexists. split; [vm_compute; reflexivity|]. split; [intros [|[|t]] th E; cbn in E; try (injection E as <-; reflexivity); destruct t; discriminate|].
    split; eexists; split; reflexivity.
Qed.

(** With handles moved out of objects it is false: move-assigning to a handle from inside the object it held (a list whose
    head is replaced by the next item) reads the deleted object. *)
Theorem C46_move_out_refuted : run (init 1 2) [(0, Do (New 1 [])); (0, Do (New 0 [1])); (0, Do (MoveField 0 0 0)); (0, Go); (0, Go); (0, Go); (0, Go); (0, Go)] = Bad.
Proof. reflexivity. Qed.
Print Assumptions C46_move_out_refuted.

(** Memory: with the fences of the comment in Reference.h the callback sees the construction, whichever thread runs it. *)
Theorem C46_construction_seen : forall n l, orun (oinit n) l <> ORace made_at.
Proof. exact construction_seen. Qed.
Print Assumptions C46_construction_seen.
(** It also sees all uses if every thread issues a release fence before it drops a reference. *)
Theorem C46_fenced_uses_seen : forall n l, Forall (fun x => fenced (snd x)) l -> forall k, orun (oinit n) l <> ORace k.
Proof. exact fenced_uses_seen. Qed.
Print Assumptions C46_fenced_uses_seen.
Example C46_fenced_ex : match orun (oinit 2) [(0, Make); (0, Copy 1 true); (1, RefOrderModel.Use); (1, Drop true); (0, Drop true)] with OMoved s => latest (omem s) made_at = 2 | _ => False end.
Proof. vm_compute. reflexivity. Qed.
(** But Reference drops its reference without one: the destruction then races with a use by another thread that is over. *)
Theorem C46_use_races_refuted : orun (oinit 2) [(0, Make); (0, Copy 1 true); (1, RefOrderModel.Use); (1, Drop false); (0, Drop false)] = ORace (use_at 1).
Proof. vm_compute. reflexivity. Qed.
Print Assumptions C46_use_races_refuted.
