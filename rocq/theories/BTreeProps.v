(* Property theorems for RT/container/BTree.h. *)
From Verif Require Import BTreeModel BTreeSpec BTreeProofs.

(** C20. For every order on the keys that is a strict weak order, every node capacity of at least two and
    every sequence of uses, what the tree returns is what a sorted list would return; the only calls that
    fail are popFront and front on an empty tree. *)
Theorem C20_sorted_multiset {Item Index : Type} (getIndex : Item -> Index) (less eqI : Index -> Index -> bool) (cap : nat) :
  strict_weak less -> (forall a b, eqI a b = true -> less a b = false /\ less b a = false) -> (2 <= cap)%nat ->
  forall os, match run getIndex less eqI cap None os with
  | Some (_, ys) => exists l, spec_run getIndex less [] os ys l
  | None => exists os1 o os2 t1 ys, os = os1 ++ o :: os2 /\ run getIndex less eqI cap None os1 = Some (t1, ys) /\
              spec_run getIndex less [] os1 ys [] /\ (o = PopFront \/ o = Front)
  end.
Proof. exact (fun H1 H2 H3 => runs_ok getIndex less eqI cap H1 H2 H3). Qed.
Print Assumptions C20_sorted_multiset.

(** The list of the specification is always in order. *)
Theorem C20_always_sorted {Item Index : Type} (getIndex : Item -> Index) (less : Index -> Index -> bool) (os : list (@op Item Index)) ys l :
  spec_run getIndex less [] os ys l -> sorted getIndex less l.
Proof. exact (spec_sorted getIndex less [] os ys l (SSorted_nil _)). Qed.
Print Assumptions C20_always_sorted.

Example C20_order : strict_weak Z.ltb /\ forall a b, (a =? b) = true -> (a <? b) = false /\ (b <? a) = false.
Proof. split; [split|]; intros; lia. Qed.
Example C20_ex : option_map snd (run (Index := Z) (fun x : Z => x) Z.ltb Z.eqb 2 None
   (map Insert [5; 1; 4; 2; 3; 4; 9] ++ [RemoveGE 4; All; FromGE 3; BelowBackwards 4; PopFront; Front; RemoveNth 7])) =
   Some [Done; Done; Done; Done; Done; Done; Done; Removed (Some 4); Items [1; 2; 3; 4; 5; 9]; Items [3; 4; 5; 9]; Items [3; 2; 1];
         Removed (Some 1); First 2; Removed None].
Proof. vm_compute. reflexivity. Qed.

(** BTree.h:184-186 says that items with the same key form a queue. That holds while the tree is one node... *)
Theorem C20_queue_order_partial {Item Index : Type} (getIndex : Item -> Index) (less eqI : Index -> Index -> bool) (cap : nat) :
  strict_weak less -> (forall a b, eqI a b = true -> less a b = false /\ less b a = false) -> (2 <= cap)%nat ->
  forall xs, (length xs <= cap)%nat -> exists t ys l,
    run getIndex less eqI cap None (map Insert xs ++ [All]) = Some (t, ys ++ [Items l]) /\
    forall k, filter (fun y => negb (less (getIndex y) k) && negb (less k (getIndex y))) l =
              filter (fun y => negb (less (getIndex y) k) && negb (less k (getIndex y))) xs.
Proof. exact (fun H1 H2 H3 => queue_small getIndex less eqI cap H1 H2 H3). Qed.
Print Assumptions C20_queue_order_partial.

(** ... and no longer: with the capacity of every B-tree in the repository, 8, the tenth of ten items with the
    same key comes before the fifth. *)
Theorem C20_queue_order_refuted : exists xs : list (Z * Z), length xs = 10%nat /\ Forall (fun x => fst x = 7) xs /\
  forall t ys l, run (Index := Z) fst Z.ltb Z.eqb 8 None (map Insert xs ++ [All]) = Some (t, ys ++ [Items l]) -> l <> xs.
Proof.
  exists [(7, 1); (7, 2); (7, 3); (7, 4); (7, 5); (7, 6); (7, 7); (7, 8); (7, 9); (7, 10)]. split; [reflexivity|]. split; [repeat constructor|].
  intros t ys l H. vm_compute in H. injection H as _ H. change (map (fun _ : nat => @Done (Z * Z)) (seq 0 10) ++ [Items [(7, 1); (7, 2); (7, 3); (7, 4); (7, 10); (7, 5); (7, 6); (7, 7); (7, 8); (7, 9)]] = ys ++ [Items l]) in H.
  apply app_inj_tail in H. destruct H as (_ & H). injection H as <-. discriminate.
Qed.
Print Assumptions C20_queue_order_refuted.
Example C20_queue_order_refuted_returns : exists t ys l, run (Index := Z) fst Z.ltb Z.eqb 8 None
  (map Insert [(7, 1); (7, 2); (7, 3); (7, 4); (7, 5); (7, 6); (7, 7); (7, 8); (7, 9); (7, 10)] ++ [All]) = Some (t, ys ++ [Items l]).
Proof. do 3 eexists. vm_compute. instantiate (2 := [Done; Done; Done; Done; Done; Done; Done; Done; Done; Done]). reflexivity. Qed.
