(* C64: a hash of 128 bits does not depend on how the message is given. C65: keys are hashed to 32 bits word by word. *)
From Coq Require Import String.
From Verif Require Import HashSpec HashProofs HasherProofs Txt.
Open Scope Z_scope. Open Scope list_scope.

(** C64: whatever the memory held before, and however the message is divided into appends, every [get] returns the hash of
    what was appended until then, as one call on the whole message returns it; and nothing is read or written outside of
    the buffers. *)
Theorem C64_pieces : forall seed1 seed2 data rest cs, is64 seed1 -> is64 seed2 -> List.length data = 192%nat ->
  zlen (appended cs) < 2 ^ 64 ->
  calls (init seed1 seed2 data rest) cs = Some (expected (theHash seed1 seed2) [] cs).
Proof. intros; apply pieces; assumption. Qed.
Print Assumptions C64_pieces.
Example C64_pieces_ex :
  calls (init 1 2 (repeat 7 192) [5; 5]) [Append (repeat 3 100); Get; Append (repeat 4 150); Get; Get] =
    Some [theHash 1 2 (repeat 3 100); theHash 1 2 (repeat 3 100 ++ repeat 4 150); theHash 1 2 (repeat 3 100 ++ repeat 4 150)] /\
  theHash 1 2 (repeat 3 100) <> theHash 1 2 (repeat 3 100 ++ repeat 4 150).
Proof. split; vm_compute; [reflexivity|discriminate]. Qed.

(** Every message has a hash of two words. *)
Theorem C64_total : forall message seed1 seed2, is64 seed1 -> is64 seed2 ->
  exists r, hash128 message seed1 seed2 = Some r /\ is64 (fst r) /\ is64 (snd r).
Proof. exact hash128_ok. Qed.
Print Assumptions C64_total.
Example C64_total_ex : hash128 [] 0 0 = Some (0x232706fc6bf50919, 0x8b72ee65b4e851c7) /\ hash128 [] 0 0 <> hash128 [0] 0 0.
Proof. split; vm_compute; [reflexivity|discriminate]. Qed.

(** Hashes are added like numbers of 128 bits. *)
Theorem C64_add : forall x y, is64 (fst x) -> is64 (snd x) -> is64 (fst y) -> is64 (snd y) ->
  value128 (add128 x y) = (value128 x + value128 y) mod 2 ^ 128 /\ is64 (fst (add128 x y)) /\ is64 (snd (add128 x y)).
Proof. exact add128_ok. Qed.
Print Assumptions C64_add.
Example C64_add_ex : add128 (1, 2 ^ 64 - 1) (5, 2) = (7, 1).
Proof. reflexivity. Qed.

(** Refuted: that [get], which is const, leaves the object alone, so that two threads may call it at once. *)
Theorem C64_const_refuted : exists h r h', update (init 0 0 (repeat 1 192) []) (repeat 1 193) = Some h /\
  final h = Some (r, h') /\ sdata h' <> sdata h.
Proof. exact get_writes. Qed.
Print Assumptions C64_const_refuted.

(** C65: a key made of parts is hashed as the 32-bit words of its parts, one after another. *)
Theorem C65_words : forall ps qs, Forall partOk ps -> Forall partOk qs ->
  flat_map wordsOf ps = flat_map wordsOf qs -> hashOf ps = hashOf qs.
Proof. exact hash_words. Qed.
Print Assumptions C65_words.
Example C65_words_ex : flat_map wordsOf [PInt64 (3 * 2 ^ 32 + 7); PBytes (txt "abcde")] = [7; 3; 0x64636261; 0x65] /\
  hashOf [PInt64 (3 * 2 ^ 32 + 7); PBytes (txt "abcde")] = hashOf [PInt 7; PInt 3; PBytes (txt "abcd"); PBytes (txt "e")].
Proof. split; vm_compute; reflexivity. Qed.
(** Keys that differ in exactly one of their words never have the same hash. *)
Theorem C65_one_word : forall ps qs a v u b, Forall partOk ps -> Forall partOk qs ->
  flat_map wordsOf ps = a ++ v :: b -> flat_map wordsOf qs = a ++ u :: b -> v <> u -> hashOf ps <> hashOf qs.
Proof. exact one_word. Qed.
Print Assumptions C65_one_word.
Example C65_one_word_ex : hashOf [PInt 1; PBytes (txt "tests")] <> hashOf [PInt 1; PBytes (txt "texts")].
Proof. apply (one_word _ _ [1] 0x74736574 0x74786574 [0x73]); try reflexivity; try discriminate; repeat (apply Forall_cons; [cbn; unfold is32, bytes_ok, is_byte; repeat constructor; try (intro; discriminate)|]); apply Forall_nil. Qed.
(** Different integers of 32 bits have different hashes. *)
Theorem C65_int : forall x y, is32 x -> is32 y -> hash32 x = hash32 y -> x = y.
Proof. exact hash32_inj. Qed.
Print Assumptions C65_int.
Example C65_int_ex : hash32 1 = 0x514e28b7 /\ hash32 2 = 0x30f4c306.
Proof. split; vm_compute; reflexivity. Qed.
(** Equal floats have the same hash: 0 and -0. *)
Theorem C65_float : forall a b x y, floatEq x y -> hashOf (a ++ PFloat x :: b) = hashOf (a ++ PFloat y :: b).
Proof. exact float_equal. Qed.
Print Assumptions C65_float.
Example C65_float_ex : floatEq 0 0x80000000 /\ hashOf [PInt 1; PFloat 0] = hashOf [PInt 1; PFloat 0x80000000].
Proof. split; [right; split; reflexivity|reflexivity]. Qed.

(** Refuted: that different keys have different hashes beyond chance. Strings given one after another are hashed as one
    string if the first has a multiple of four bytes; a zero byte before the last one or two bytes is not noticed; every
    64-bit integer shares its hash with another one. *)
Theorem C65_boundary_refuted : forall p q a b, (List.length a mod 4 = 0)%nat -> Forall partOk p -> Forall partOk q ->
  bytes_ok a -> bytes_ok b -> hashOf (p ++ PBytes a :: PBytes b :: q) = hashOf (p ++ PBytes (a ++ b) :: q).
Proof. exact boundary_collision. Qed.
Print Assumptions C65_boundary_refuted.
Example C65_boundary_ex : hashOf [PBytes (txt "name"); PBytes (txt "space")] = hashOf [PBytes (txt "namespac"); PBytes (txt "e")].
Proof. vm_compute. reflexivity. Qed.
Theorem C65_nul_refuted : forall p q a t, (List.length a mod 4 = 0)%nat -> (1 <= List.length t <= 2)%nat -> Forall partOk p ->
  Forall partOk q -> bytes_ok (a ++ t) -> hashOf (p ++ PBytes (a ++ t) :: q) = hashOf (p ++ PBytes (a ++ 0 :: t) :: q).
Proof. exact nul_collision. Qed.
Print Assumptions C65_nul_refuted.
Example C65_nul_ex : hashOf [PBytes [7; 7; 7; 7; 1]] = hashOf [PBytes [7; 7; 7; 7; 0; 0; 1]].
Proof. vm_compute. reflexivity. Qed.
Theorem C65_int64_refuted : forall x, is64 x -> exists y, is64 y /\ y <> x /\ hash64 y = hash64 x.
Proof. exact hash64_collision. Qed.
Print Assumptions C65_int64_refuted.
