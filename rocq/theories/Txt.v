(* Byte strings written as literals, for the examples. *)
From Coq Require Import ZArith List Ascii String.
Definition txt (s : string) : list Z := map (fun c => Z.of_N (N_of_ascii c)) (list_ascii_of_string s).
Arguments txt s%string.
