(* Property C09: variable-length label encoding. *)
From Verif Require Import VarintModel VarintProofs.

Theorem C09_roundtrip : forall v rest, 0 <= v < 2 ^ 32 ->
  decodeValue (encodeValue v ++ rest) = Some (v, rest) /\
  length (encodeValue v) = getEncLen v /\ (1 <= getEncLen v <= 5)%nat /\ bytes_ok (encodeValue v).
Proof. exact varint_roundtrip. Qed.
Print Assumptions C09_roundtrip.
Example C09_ex : encodeValue 300 = [130; 44] /\ decodeValue [130; 44; 7] = Some (300, [7]) /\
  length (encodeValue 0xffffffff) = 5%nat.
Proof. repeat split. Qed.

Theorem C09_shortest : forall v k, 0 <= v < 2 ^ 32 -> (1 <= k)%nat -> v < 2 ^ (7 * Z.of_nat k) ->
  (getEncLen v <= k)%nat.
Proof. exact varint_shortest. Qed.
Print Assumptions C09_shortest.

(** A stored label can be found again among other stored data: the code is prefix-free. *)
Theorem C09_prefix_free : forall v w r1 r2, 0 <= v < 2 ^ 32 -> 0 <= w < 2 ^ 32 ->
  encodeValue v ++ r1 = encodeValue w ++ r2 -> v = w /\ r1 = r2.
Proof. exact varint_prefix_free. Qed.
Print Assumptions C09_prefix_free.
