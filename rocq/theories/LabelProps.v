(* Property C10: labels. *)
From Verif Require Import LabelModel LabelSpec LabelProofs.

(** C10. Whatever the hash function: any sequence of calls that interns at most 64 different strings,
    fitting in the pool, runs to the end, and it answers like a table of distinct strings with distinct
    valid labels. *)
Theorem C10_labels : forall (hash : list Z -> Z), (forall s, 0 <= hash s < 2 ^ 32) ->
  forall (rounds : nat) (os : list lop), (2 <= rounds)%nat -> strings_ok os ->
  zlen (interned os) <= 64 -> zlen (concat (interned os)) <= 2 ^ 30 - 400 ->
  exists ys, labels_run hash rounds os = Some ys /\ lspec_run [] [] os ys.
Proof. exact labels_small. Qed.
Print Assumptions C10_labels.

(** For any number of strings, as long as the calls return (the hash map may rehash for ever, see C18). *)
Theorem C10_many_labels_partial : forall (hash : list Z -> Z), (forall s, 0 <= hash s < 2 ^ 32) ->
  forall (rounds : nat) (os : list lop) ys, strings_ok os -> labels_run hash rounds os = Some ys ->
  lspec_run [] [] os ys.
Proof. exact labels_large. Qed.
Print Assumptions C10_many_labels_partial.

(** Read off the history: interning answers a valid label; two interned strings have the same label if and
    only if they are equal; a lookup answers the label of an earlier interning of the string, and the
    invalid label if there was none; viewing a label returns its string at any later time. *)
Theorem C10_history : forall (hash : list Z -> Z), (forall s, 0 <= hash s < 2 ^ 32) ->
  forall (rounds : nat) (os : list lop) ys, strings_ok os -> labels_run hash rounds os = Some ys ->
  history os ys.
Proof. exact (fun hash Hh rounds os ys Ho E => spec_history os ys (labels_large hash Hh rounds os ys Ho E)). Qed.
Print Assumptions C10_history.

(** With every string in one bucket. *)
Example C10_ex : labels_run (fun _ => 5) 2 [Intern [97]; Intern []; Query [98]; Intern [97; 98]; Intern [97]; Query [];
    ViewOf 3; ViewOf 1; ViewOf 2; Intern (repeat 120 200); ViewOf 9; ViewOf 0] =
  Some [Lab 1; Lab 3; Lab 0; Lab 4; Lab 1; Lab 3; Str [97; 98]; Str []; Str []; Lab 7; Str (repeat 120 200); Str [97]].
Proof. vm_compute. reflexivity. Qed.
