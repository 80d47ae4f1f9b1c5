From Verif Require Import SequenceModel SequenceSpec SequenceProofs.

(** C21. Whatever the history of appends, pops, marks and truncations, a sequence of items that fit in a block
    answers like a list, whatever its block size. *)
Theorem C21_sequence : forall (T : Type) (sz blk : Z), 1 <= sz -> sz <= blk -> 100 < blk ->
  forall (os : list (@op T)) l ys, spec_run sz [] None os = Some (l, ys) -> exists d, uses sz blk os = Some (ys, d).
Proof. intros T sz blk H1 H2 H3. exact (sequence sz blk H1 H2 H3). Qed.
Print Assumptions C21_sequence.
(* Three items to a block of 160 bytes: appending, marking, popping across blocks, truncating. *)
Definition C21_os := [AppendViews [1; 2; 3; 4; 5; 6; 7; 8]; Append 9; Mark; Append 10; Append 11; Count; Pop 1; All; TruncateToMark; Tail; Pop 4; All;
  Backwards; TruncateAt 3; Append 12; Views; Head; IsEmpty; MoveToArray; IsEmpty; Count; All].
Definition C21_ys := [Done; Done; Done; Done; Done; Num 11; Done; Items [1; 2; 3; 4; 5; 6; 7; 8; 9; 10]; Done; Item 9; Done; Items [1; 2; 3; 4; 5];
  Items [5; 4; 3; 2; 1]; Done; Done; Items [1; 2; 3; 12]; Item 1; Flag false; Moved [1; 2; 3; 12]; Flag true; Num 0; Items []].
Example C21_ex : 1 <= 50 /\ 50 <= 160 /\ 100 < 160 /\ spec_run 50 [] None C21_os = Some ([], C21_ys) /\
  uses 50 160 C21_os = Some (C21_ys, [11; 7; 8; 9; 6]).
Proof. repeat split; vm_compute; congruence. Qed.

(** C21 does not hold for items larger than a block: a sequence that holds one says that it is empty, and going
    through it asserts. The default block is of 2048 bytes. *)
Theorem C21_big_items_refuted : forall (T : Type) (sz blk : Z) (x : T), 100 < blk -> blk < sz ->
  uses sz blk [Append x; IsEmpty] = Some ([Done; Flag true], []) /\ uses sz blk [Append x; All] = None.
Proof. exact (@big_items_refuted). Qed.
Print Assumptions C21_big_items_refuted.

(** C21 does not hold for sequences of 4 GB or more: their count is taken modulo. *)
Theorem C21_count_wraps_refuted : forall (T : Type) (sz blk : Z) (xs : list T), 1 <= sz -> sz <= blk -> 100 < blk ->
  uses sz blk [AppendViews xs; Count] = Some ([Done; Num (sz * zlen xs mod 2 ^ 32 / sz)], []).
Proof. exact (@count_wraps). Qed.
Print Assumptions C21_count_wraps_refuted.
Example C21_count_wraps_ex : 65536 * (65536 * 1) mod 2 ^ 32 / 65536 = 0.
Proof. reflexivity. Qed.

(** C52. Every item appended to a sequence is destructed exactly once or moved to an array, if nothing was
    truncated. *)
Theorem C52_destructed_once_partial : forall (T : Type) (sz blk : Z), 1 <= sz -> sz <= blk -> 100 < blk ->
  forall (os : list (@op T)) l ys d, spec_run sz [] None (os ++ [Clear]) = Some (l, ys) -> existsb truncates os = false ->
  uses sz blk (os ++ [Clear]) = Some (ys, d) -> Permutation (appended os) (d ++ moved ys).
Proof. intros T sz blk H1 H2 H3. exact (lifetimes sz blk H1 H2 H3). Qed.
Print Assumptions C52_destructed_once_partial.
Definition C52_os := [AppendViews [1; 2; 3; 4; 5; 6; 7; 8]; Append 9; Pop 3; MoveToArray; Append 10; AppendViews [11; 12; 13]; Pop 2].
Example C52_ex : existsb truncates C52_os = false /\ appended C52_os = [1; 2; 3; 4; 5; 6; 7; 8; 9; 10; 11; 12; 13] /\
  uses 50 160 (C52_os ++ [Clear]) = Some ([Done; Done; Done; Moved [1; 2; 3; 4; 5; 6]; Done; Done; Done; Done], [7; 8; 9; 13; 12; 10; 11]).
Proof. repeat split; vm_compute; congruence. Qed.

(** C52 does not hold once something was truncated: the items dropped by truncate are never destructed. *)
Theorem C52_truncate_leaks_refuted :
  uses 8 2048 [AppendViews [1; 2; 3]; TruncateAt 1; All; Clear] = Some ([Done; Done; Items [1]; Done], [1]).
Proof. vm_compute. reflexivity. Qed.
Print Assumptions C52_truncate_leaks_refuted.

(** A reference saved at the end of a sequence refers, once normalised, to the item appended next: it does not. *)
Theorem C21_normalized_refuted : exists q0 q1 q2, create 150 = Some q0 /\ appendViews 50 150 3 q0 [1; 2; 3] = Some q1 /\ append 50 150 q1 4 = Some q2 /\
  advance 3 q2 (begin q2) = Some (mkw 1 1 0) /\ deref q2 (mkw 1 1 0) = Some 4 /\ deref q2 (normalized q2 (end_ q1)) = None.
Proof. exists [mkb [] 150 0], [mkb [1; 2; 3] 150 0], [mkb [4] 150 150; mkb [1; 2; 3] 150 0]. repeat split; vm_compute; congruence. Qed.
Print Assumptions C21_normalized_refuted.
