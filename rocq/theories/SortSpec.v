(* Orders and sortedness. *)
From Verif Require Export Base.

(** A strict weak ordering: irreflexive, transitive, and with transitive incomparability. *)
Record strict_weak_order {A} (less : A -> A -> bool) : Prop := {
  swo_irrefl : forall x, less x x = false;
  swo_trans : forall x y z, less x y = true -> less y z = true -> less x z = true;
  swo_incomp : forall x y z, less x y = false -> less y x = false -> less y z = false -> less z y = false ->
                             less x z = false /\ less z x = false }.

(** No later item is less than an earlier one. *)
Definition sorted {A} (less : A -> A -> bool) (l : list A) : Prop :=
  forall i j x y, (i < j)%nat -> nth_error l i = Some x -> nth_error l j = Some y -> less y x = false.
