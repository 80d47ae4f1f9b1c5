(* C39: object nodes. The hash function is any function from strings to 32-bit numbers. *)
From Coq Require Import List ZArith Lia. Import ListNotations. Open Scope Z_scope.
From Coq Require Import String.
From Verif Require Import Base Txt PylonNodeModel PylonNodeSpec PylonNodeProofs PylonNodeHistory PylonNodeMore.

(** C39, for objects that never hold more than 64 items at a time: every call returns and answers what the earlier calls
    require, and the items are the keys with their last values, in the order in which they were first set. *)
Theorem C39_history : forall (A : Type) hash rounds (ops : list (nop A)),
  (forall s, 0 <= hash s < 2 ^ 32) -> (2 <= rounds)%nat -> keys_ok ops -> never_more 64 [] ops ->
  exists o ys, object_run hash rounds ops = Some (o, ys) /\ nhistory ops ys /\ describes ops (oitems o).
Proof. exact history_small. Qed.
Print Assumptions C39_history.

(** The same of larger objects, when the calls return. Missing: calls that never return, and a removal that cuts a chain
    of the index (C18, C19 have both). *)
Theorem C39_many_partial : forall (A : Type) hash rounds (ops : list (nop A)) o ys,
  (forall s, 0 <= hash s < 2 ^ 32) -> keys_ok ops -> never_more (2 ^ 30 - 1) [] ops ->
  object_run hash rounds ops = Some (o, ys) -> HashMapModel.clob (index o) = false ->
  nhistory ops ys /\ describes ops (oitems o).
Proof. exact history_large. Qed.
Print Assumptions C39_many_partial.

(** A program with every kind of call, where all keys have the same hash. *)
Definition program : list (nop Z) :=
  [Set_ (txt "a") 1; Set_ (txt "b") 2; Set_ (txt "") 3; Set_ (txt "a") 4; Remove (txt "b"); Get (txt "a"); Get (txt "b"); Set_ (txt "b") 5; Remove (txt "zz"); List].
Example C39_history_ex :
  keys_ok program /\ never_more 64 [] program /\
  exists o, object_run (fun _ => 7) 2 program =
    Some (o, [Done; Done; Done; Done; Removed (Some 2); Got (Some 4); Got None; Done; Removed None; Listing [(txt "a", 4); (txt "", 3); (txt "b", 5)]])
    /\ HashMapModel.clob (index o) = false.
Proof.
  split; [repeat (constructor; [reflexivity|]); constructor|]. split; [apply few_calls; cbn; lia|].
  eexists. split; vm_compute; reflexivity.
Qed.
(** The statement tells right answers from wrong ones. *)
Example C39_history_rejects :
  ~ nhistory [Set_ (txt "a") 1; Get (txt "a")] [Done; Got (Some 2)] /\
  ~ nhistory [Set_ (txt "a") 1; Set_ (txt "b") 2; List] [Done; Done; Listing [(txt "b", 2); (txt "a", 1)]].
Proof. exact history_rejects. Qed.

(** Copying an object works exactly when no two of its keys have the same hash; the copy then has the same items and goes
    on like any object with these items. *)
Theorem C39_copy_partial : forall (A : Type) hash rounds (ops : list (nop A)) o ys,
  (forall s, 0 <= hash s < 2 ^ 32) -> (2 <= rounds)%nat -> keys_ok ops -> never_more 64 [] ops ->
  object_run hash rounds ops = Some (o, ys) ->
  (NoDup (map hash (map fst (oitems o))) ->
   exists c, copy hash rounds o = Some c /\ oitems c = oitems o /\
   forall more, keys_ok more -> never_more 64 (oitems o) more ->
   exists c' ys', nrun hash rounds c more = Some (c', ys') /\ nspec_run (oitems o) more ys' (oitems c')) /\
  (~ NoDup (map hash (map fst (oitems o))) -> copy hash rounds o = None).
Proof. exact copy_or_crash. Qed.
Print Assumptions C39_copy_partial.
(** Whatever the hash function, some object of two short keys cannot be copied: comparing them reads a null pointer. *)
Theorem C39_copy_refuted : forall hash rounds, (forall s, 0 <= hash s < 2 ^ 32) -> (2 <= rounds)%nat ->
  exists k k', bytes_ok k /\ bytes_ok k' /\ length k = 5%nat /\ length k' = 5%nat /\
  exists o, object_run hash rounds [Set_ k 1; Set_ k' 2] = Some (o, [Done; Done]) /\ oitems o = [(k, 1); (k', 2)] /\ copy hash rounds o = None.
Proof. exact copy_refuted. Qed.
Print Assumptions C39_copy_refuted.
Example C39_copy_ex :
  exists o c, object_run (fun s => zlen s) 2 [Set_ (txt "a") 1; Set_ (txt "bb") 2; Remove (txt "a"); Set_ (txt "c") 3] = Some (o, [Done; Done; Removed (Some 1); Done])
  /\ copy (fun s => zlen s) 2 o = Some c /\ oitems c = [(txt "bb", 2); (txt "c", 3)].
Proof. eexists. eexists. split; [vm_compute; reflexivity|]. split; vm_compute; reflexivity. Qed.
