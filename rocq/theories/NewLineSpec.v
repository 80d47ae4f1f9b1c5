(* What the newline filter must do. *)
From Verif Require Export Base.
(** Every CR is dropped; every LF becomes the chosen line ending. *)
Definition newlines (crlf : bool) (text : list Z) : list Z :=
  flat_map (fun c => if c =? 13 then [] else if c =? 10 then if crlf then [13; 10] else [10] else [c]) text.
