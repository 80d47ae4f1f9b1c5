(* What the hashes must do. *)
From Verif Require Export HashModel.

(** What the calls must return: at any moment the hash of all that was appended until then, taken as one message. *)
Fixpoint expected (hash : list Z -> Z * Z) (sofar : list Z) (cs : list call) : list (Z * Z) :=
  match cs with
  | [] => []
  | Append l :: cs => expected hash (sofar ++ l) cs
  | Get :: cs => hash sofar :: expected hash sofar cs
  end.
Fixpoint appended (cs : list call) : list Z :=
  match cs with [] => [] | Append l :: cs => l ++ appended cs | Get :: cs => appended cs end.

Definition is32 (x : Z) : Prop := 0 <= x < 2 ^ 32.
Definition is64 (x : Z) : Prop := 0 <= x < 2 ^ 64.
(** Equality of floats given by their bits, none of them a NaN: 0 and -0 are equal. *)
Definition zeroFloat (x : Z) : bool := (x =? 0) || (x =? 2 ^ 31).
Definition floatEq (x y : Z) : Prop := x = y \/ zeroFloat x = true /\ zeroFloat y = true.
Definition partOk (p : part) : Prop :=
  match p with PInt x => is32 x | PInt64 x => is64 x | PFloat b => is32 b | PBytes l => bytes_ok l end.
Definition value128 (x : Z * Z) : Z := 2 ^ 64 * fst x + snd x.
(** The 128-bit hash of a message with given seeds. *)
Definition theHash (seed1 seed2 : Z) (message : list Z) : Z * Z :=
  match hash128 message seed1 seed2 with Some r => r | None => (0, 0) end.
(** The 32-bit words that a part of a key is hashed as. Bytes: groups of four, least significant first; the last one to
    three bytes together, most significant first. *)
Fixpoint groups (l : list Z) : list Z :=
  match l with
  | a :: b :: c :: d :: l => (a + 256 * b + 65536 * c + 16777216 * d) :: groups l
  | [a] => [a]
  | [a; b] => [256 * a + b]
  | [a; b; c] => [65536 * a + 256 * b + c]
  | [] => []
  end.
Definition wordsOf (p : part) : list Z :=
  match p with
  | PInt x => [x]
  | PInt64 x => [x mod 2 ^ 32; x / 2 ^ 32]
  | PFloat b => [if zeroFloat b then 0 else b]
  | PBytes l => groups l
  end.
