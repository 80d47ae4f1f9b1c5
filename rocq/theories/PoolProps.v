(* Property C17: pools. *)
From Verif Require Import PoolModel PoolSpec PoolProofs.

(** Any sequence of operations on an empty pool is answered as the finite-map specification allows, up to
    the first call the caller was not entitled to make (using an index that is not allocated, or a new
    item when 2^31 - 1 are in use). The run never fails before that. *)
Theorem C17_pool : forall (A : Type) (ops : list (@op A)),
  (exists p ys m, run empty_pool ops = Some (p, ys) /\ spec_run empty ops ys m) \/
  (exists ops1 o ops2 p ys m, ops = ops1 ++ o :: ops2 /\ run empty_pool ops1 = Some (p, ys) /\
     spec_run empty ops1 ys m /\ ~ allowed m o).
Proof. exact (fun A ops => @run_ok A ops empty_pool empty (@inv_empty A)). Qed.
Print Assumptions C17_pool.

Example C17_ex :
  option_map snd (run empty_pool [New 10; New 20; New 30; Del 0; Del 2; Set_ 1 21; New 40; Iterate; Del 1; New 50; Iterate; Clear]) =
  Some [Index 0; Index 1; Index 2; Done; Done; Done; Index 2; Values [(1%nat, 21); (2%nat, 40)];
        Done; Index 1; Values [(1%nat, 50); (2%nat, 40)]; Values [(1%nat, 50); (2%nat, 40)]].
Proof. vm_compute. reflexivity. Qed.
