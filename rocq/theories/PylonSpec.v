(* Which Pylon trees can be written and read back. *)
From Verif Require Export Base EscapeSpec PylonModel.

(** A text that survives: bytes other than 255, no control character but tab, LF and CR, no ASCII character in a longer
    (illegal) UTF-8 form. *)
Definition text_ok (s : list Z) : Prop :=
  Forall (fun b => 32 <= b < 255 \/ b = 9 \/ b = 10 \/ b = 13) s /\ no_overlong_ascii s.

(** Trees of such texts, in which the keys of each object are distinct, at most 64. *)
Inductive tree_ok : node -> Prop :=
| ok_text s : text_ok s -> tree_ok (Text s)
| ok_array l : (forall x, In x l -> tree_ok x) -> tree_ok (Array l)
| ok_object l : (forall k x, In (k, x) l -> text_ok k) -> (forall k x, In (k, x) l -> tree_ok x) -> NoDup (map fst l) -> (length l <= 64)%nat -> tree_ok (Object l).
