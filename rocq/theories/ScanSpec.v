(* Specification vocabulary for scanning. *)
From Verif Require Export Base.

(** [p] is a prefix of [l] ending with the first occurrence of [t]. *)
Definition first_occurrence (t l p : list Z) : Prop :=
  (exists a, p = a ++ t) /\ (exists b, l = p ++ b) /\
  forall p' b', l = p' ++ b' -> (exists a', p' = a' ++ t) -> (length p <= length p')%nat.

Definition occurs (t l : list Z) : Prop := exists a b, l = a ++ t ++ b.

(** A proper nonempty prefix of [t] is never directly followed by the first byte of [t]. *)
Definition no_restart (t l : list Z) : Prop :=
  forall a k b, (0 < k < length t)%nat -> l <> a ++ firstn k t ++ hd 0 t :: b.

(** Identifier characters: letters, underscore, anything outside ASCII, and optionally '$' and '-';
    digits may only follow. *)
Definition id_start (flags c : Z) : Prop :=
  (65 <= c <= 90) \/ c = 95 \/ (97 <= c <= 122) \/ 128 <= c < 256 \/
  (c = 36 /\ Z.testbit flags 0 = true) \/ (c = 45 /\ Z.testbit flags 1 = true).
Definition id_continue (flags c : Z) : Prop := id_start flags c \/ (48 <= c <= 57).

(** [ident flags w]: [w] is an identifier. *)
Definition ident (flags : Z) (w : list Z) : Prop :=
  match w with [] => False | c :: r => id_start flags c /\ Forall (id_continue flags) r end.
