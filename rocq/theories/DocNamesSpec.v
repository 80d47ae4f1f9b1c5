(* What a name means in the documentation: independent of the order in which children are kept. *)
From Verif Require Import Base DocNamesModel.

(** [k] is alive and declared directly in [p] under the name [x]; a member with the name of its class is a
    constructor and declares nothing. *)
Definition declares (s : docs) (p : nat) (x : list Z) (k : nat) : Prop :=
  exists e, at_ s k = Some e /\ parentOf e = Some p /\ nameOf e = x /\
  ~ (kindOf e = Member /\ exists c, at_ s p = Some c /\ kindOf c = Class /\ nameOf c = x).

(** The innermost scope around that declares the name decides. *)
Inductive means (s : docs) : nat -> list Z -> option nat -> Prop :=
| means_here i x k : declares s i x k -> means s i x (Some k)
| means_outer i x p r : (forall k, ~ declares s i x k) -> parent_of s i = Some p -> means s p x r -> means s i x r
| means_nothing i x : (forall k, ~ declares s i x k) -> parent_of s i = None -> means s i x None.

(** Going into scopes from [i]. *)
Inductive into (s : docs) : nat -> list (list Z) -> nat -> Prop :=
| into_end i : into s i [] i
| into_child i x r k e : kind_of s i = Some Namespace \/ kind_of s i = Some Class ->
    declares s i x k -> into s k r e -> into s i (x :: r) e.

(** The names from the global namespace to [i]. *)
Inductive address (s : docs) : nat -> list (list Z) -> Prop :=
| address_top i e : at_ s i = Some e -> parentOf e = Some 0%nat -> address s i [nameOf e]
| address_in i e p a : at_ s i = Some e -> parentOf e = Some p -> address s p a -> address s i (a ++ [nameOf e]).

(** Nothing else is declared with the name of [i], or of a scope around it, beside it. *)
Inductive alone (s : docs) : nat -> Prop :=
| alone_global : alone s 0
| alone_in i e p : at_ s i = Some e -> parentOf e = Some p -> (forall k, declares s p (nameOf e) k -> k = i) ->
    alone s p -> alone s i.
