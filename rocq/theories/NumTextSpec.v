(* Specification vocabulary for numbers as text: positional notation. *)
From Verif Require Export Base.

(** [char_digit c d]: the character [c] denotes the digit [d] (0-9, A-Z, a-z). *)
Definition char_digit (c d : Z) : Prop :=
  (48 <= c <= 57 /\ d = c - 48) \/ (65 <= c <= 90 /\ d = c - 55) \/ (97 <= c <= 122 /\ d = c - 87).

(** [denotes radix l n]: the characters [l] are digits below [radix], most significant first, and
    the number they denote is [n]. *)
Inductive denotes (radix : Z) : list Z -> Z -> Prop :=
| den_nil : denotes radix [] 0
| den_snoc l n c d : denotes radix l n -> char_digit c d -> d < radix ->
    denotes radix (l ++ [c]) (n * radix + d).

(** The canonical numeral of [n]: no leading zero, except "0" itself. *)
Definition canonical (radix : Z) (l : list Z) (n : Z) : Prop :=
  denotes radix l n /\ (n = 0 -> l = [48]) /\ (n <> 0 -> exists c r, l = c :: r /\ c <> 48).

(** The byte [c] cannot continue a number in this radix. *)
Definition not_digit (radix c : Z) : Prop := forall d, char_digit c d -> radix <= d.

(** [stops radix rest]: the input [rest] does not begin with a digit. *)
Definition stops (radix : Z) (rest : list Z) : Prop :=
  match rest with [] => True | c :: _ => not_digit radix c end.
