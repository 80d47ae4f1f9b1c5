(* Specification vocabulary for string views. *)
From Verif Require Export Base.

(** Lexicographic order on byte strings, by unsigned byte, a proper prefix first. *)
Inductive lex_lt : list Z -> list Z -> Prop :=
| lex_nil y b : lex_lt [] (y :: b)
| lex_head x y a b : x < y -> lex_lt (x :: a) (y :: b)
| lex_tail x a b : lex_lt a b -> lex_lt (x :: a) (x :: b).

(** [words sep s ws]: [ws] are the maximal runs of [s] free of [sep], in order. *)
Inductive words (sep : Z) : list Z -> list (list Z) -> Prop :=
| words_nil : words sep [] []
| words_sep s ws : words sep s ws -> words sep (sep :: s) ws
| words_last w : w <> [] -> ~ In sep w -> words sep w [w]
| words_cons w s ws : w <> [] -> ~ In sep w -> words sep s ws ->
    words sep (w ++ sep :: s) (w :: ws).

(** Concatenation with a separator between consecutive items. *)
Fixpoint joined (sep : list Z) (ws : list (list Z)) : list Z :=
  match ws with
  | [] => []
  | [w] => w
  | w :: r => w ++ sep ++ joined sep r
  end.

(** [first_at f s from i]: [i] is the first position at or after [from] whose byte satisfies [f]. *)
Definition first_at (f : Z -> bool) (s : list Z) (from i : Z) : Prop :=
  from <= i < zlen s /\ f (nth (Z.to_nat i) s 0) = true /\
  forall j, from <= j < i -> f (nth (Z.to_nat j) s 0) = false.

(** [last_at f s upto i]: [i] is the last position at or before [upto] whose byte satisfies [f]. *)
Definition last_at (f : Z -> bool) (s : list Z) (upto i : Z) : Prop :=
  0 <= i <= upto /\ f (nth (Z.to_nat i) s 0) = true /\
  forall j, i < j <= upto -> f (nth (Z.to_nat j) s 0) = false.
