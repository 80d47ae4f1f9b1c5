(* Specification vocabulary for the integer utilities. *)
From Verif Require Export Base.

(** [r] is the least power of two that is at least [v]. *)
Definition least_pow2_above (v r : Z) : Prop :=
  (exists k, 0 <= k /\ r = 2 ^ k) /\ v <= r /\
  forall k, 0 <= k -> v <= 2 ^ k -> r <= 2 ^ k.

(** [r] is the least multiple of [a] that is at least [v]. *)
Definition least_multiple_above (v a r : Z) : Prop :=
  (a | r) /\ v <= r /\ forall m, (a | m) -> v <= m -> r <= m.

(** Number of one bits among the lowest [n] bits. *)
Fixpoint popcount (n : nat) (x : Z) : Z :=
  match n with
  | O => 0
  | S m => (if Z.testbit x (Z.of_nat m) then 1 else 0) + popcount m x
  end.

(** The bytes of an integer, least significant first. *)
Definition le_bytes32 (v : Z) : list Z := [v mod 256; (v / 256) mod 256; (v / 65536) mod 256; v / 16777216].
