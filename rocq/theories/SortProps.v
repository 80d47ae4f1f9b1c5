(* Properties C14 (sort), C15 (filter), C51 (find). *)
From Verif Require Import SortSpec SortModel SortProofs.

(** C14: sorting terminates, trips no assertion, stays in range, permutes and sorts, for every strict
    weak ordering and every array. *)
Theorem C14_sort : forall (A : Type) (less : A -> A -> bool), strict_weak_order less ->
  forall l, exists s, sort less l = Some s /\ Permutation l s /\ sorted less s.
Proof. exact @sort_spec. Qed.
Print Assumptions C14_sort.
Example C14_ex_swo : strict_weak_order (fun a b : Z * Z => fst a <? fst b).
Proof. split; cbn; intros; lia. Qed.
Example C14_ex : sort Z.ltb [5;3;9;3;1;7;5;2] = Some [1;2;3;3;5;5;7;9].
Proof. reflexivity. Qed.

Theorem C15_filter : forall (A : Type) (f : A -> bool) l,
  exists l', ply_filter f l = Some l' /\ Permutation l' (List.filter f l).
Proof. exact @filter_spec. Qed.
Print Assumptions C15_filter.
Example C15_ex : ply_filter Z.even [1;2;3;4;5;6;7] = Some [6;2;4].
Proof. reflexivity. Qed.

Theorem C51_find : forall (A : Type) (f : A -> bool) l,
  (ply_find f l = -1 /\ Forall (fun x => f x = false) l) \/
  (exists k x, ply_find f l = Z.of_nat k /\ nth_error l k = Some x /\ f x = true /\
     forall j y, (j < k)%nat -> nth_error l j = Some y -> f y = false).
Proof. exact @find_spec. Qed.
Print Assumptions C51_find.
(** C51, full statement: also for the empty array, where [rfind] fails an assertion instead. *)
Theorem C51_rfind_partial : forall (A : Type) (f : A -> bool) l, 1 <= zlen l <= 2 ^ 31 ->
  exists r, ply_rfind f l = Some r /\
  ((r = -1 /\ Forall (fun x => f x = false) l) \/
  (exists k x, r = Z.of_nat k /\ nth_error l k = Some x /\ f x = true /\
     forall j y, (k < j)%nat -> nth_error l j = Some y -> f y = false)).
Proof. exact @rfind_spec. Qed.
Print Assumptions C51_rfind_partial.
Example C51_ex : ply_find Z.even [1;2;3;4;5] = 1 /\ ply_rfind Z.even [1;2;3;4;5] = Some 3.
Proof. split; reflexivity. Qed.
Theorem C51_rfind_empty_refuted : ply_rfind Z.even [] = None.
Proof. reflexivity. Qed.
Print Assumptions C51_rfind_empty_refuted.
