(* Text with tags: what must be copied and what must be handed over. *)
From Coq Require Import List ZArith. Import ListNotations. Open Scope Z_scope.
From Verif Require Import Base.

(** The text made of [parts], each a piece outside tags and then a tag with the given content, and a last piece. *)
Definition render (parts : list (list Z * list Z)) (last : list Z) : list Z :=
  concat (map (fun '(o, t) => o ++ [60; 37] ++ t ++ [37; 62]) parts) ++ last.

(** The two bytes [a], [b] are nowhere next to each other in that order. *)
Fixpoint never (a b : Z) (s : list Z) : Prop :=
  match s with
  | x :: ((y :: _) as s') => ~ (x = a /\ y = b) /\ never a b s'
  | _ => True
  end.
(** How many "<" the text ends with. *)
Fixpoint trailing (s : list Z) : nat :=
  match s with
  | [] => 0
  | c :: s' => if forallb (Z.eqb 60) s then length s else trailing s'
  end.
(** A piece before a tag: no "<%" in it, and an even number of "<" (none, as a rule) just before the tag. *)
Definition before_tag (o : list Z) : Prop := never 60 37 o /\ Nat.even (trailing o) = true.
