(* Property C16: arrays behave like lists. *)
From Verif Require Import ArrayModel ArraySpec ArrayProofs.

(** C16, full statement: for every sequence of operations. Proved for every sequence in which arguments
    are in range, sizes stay within 2^31, and the two-argument quick-erase erases either the tail or a
    range that the last items can replace without overlap. No access leaves the block, no object is
    leaked or destroyed twice, and the cells past the last item hold no object. *)
Theorem C16_array_is_list_partial : forall (A : Type) (dflt : A) ops, all_allowed dflt [] ops ->
  exists a, run dflt empty_arr ops = Some a /\ num a = length (list_run dflt [] ops) /\
    (num a <= length (cells a))%nat /\ (forall i, get a i = nth_error (list_run dflt [] ops) i) /\
    Forall (fun c => c = None) (skipn (num a) (cells a)).
Proof. exact @array_refines. Qed.
Print Assumptions C16_array_is_list_partial.

Definition C16_ops : list (@op Z) :=
  [Append 1; Extend [2;3;4;5]; Insert 2 2; Assign 2 9; Erase 0 1; EraseQuick 1; EraseQuickN 0 2; Pop 1; Resize 4; Truncate].
Example C16_ex : list_run 0 [] C16_ops = [3; 4; 0; 0] /\
  option_map (fun a => (num a, cells a)) (run 0 empty_arr C16_ops) = Some (4%nat, [Some 3; Some 4; Some 0; Some 0]).
Proof. split; vm_compute; reflexivity. Qed.

Example C16_ex_allowed : all_allowed 0 [] C16_ops.
Proof. pose proof zlimit. cbn - [limit]. repeat split; lia. Qed.

(** Quick-erasing two of [1;2;3;4] at position 1 must leave 1 and 4; the array is left with two items of
    which the second is a destroyed object, and 4 is beyond the end, still alive. *)
Theorem C16_eraseQuick_overlap_refuted :
  exists a, run 0 empty_arr [Extend [1;2;3;4]; EraseQuickN 1 2] = Some a /\ num a = 2%nat /\ get a 0 = Some 1 /\ get a 1 = None /\ nth_error (cells a) 2 = Some (Some 4).
Proof. eexists. split; [vm_compute; reflexivity|]. repeat split. Qed.
Print Assumptions C16_eraseQuick_overlap_refuted.
