(* Model of the variable-length integer encoding used by labels:
   RT/string/details/LabelEncoder.h (RT = /repo/repos/plywood/src/runtime/ply-runtime). *)
From Verif Require Export Base.

(** LabelEncoder.h:12-23 [decodeValue]: the loop with its accumulator; [None] is a read past the end
    of the given bytes. Returns the value and the remaining bytes. *)
Fixpoint decode_loop (value : Z) (bytes : list Z) : option (Z * list Z) :=
  match bytes with
  | [] => None
  | c :: r =>
      let value := u32 (value + Z.land c 127) in
      if Z.shiftr c 7 =? 0 then Some (value, r)
      else decode_loop (u32 (Z.shiftl value 7)) r
  end.
Definition decodeValue (bytes : list Z) : option (Z * list Z) := decode_loop 0 bytes.

(** LabelEncoder.h:25-32 [getEncLen]: a do-while loop. A u32 becomes zero after at most 5 shifts by 7,
    so 5 iterations always suffice (lemma [getEncLen_enough] shows the fuel is never exhausted). *)
Fixpoint enclen_loop (fuel : nat) (value : Z) : nat :=
  match fuel with
  | O => 0
  | S fuel => let value := Z.shiftr value 7 in
              if 0 <? value then S (enclen_loop fuel value) else 1
  end.
Definition getEncLen (value : Z) : nat := enclen_loop 5 value.

(** LabelEncoder.h:34-43 [encodeValue]: the loop; [k] is [shift / 7]. *)
Fixpoint encode_loop (value : Z) (k : nat) : list Z :=
  let shift := 7 * Z.of_nat k in
  u8 (Z.lor (Z.land (Z.shiftr value shift) 127) (Z.shiftl (if shift =? 0 then 0 else 1) 7)) ::
  match k with O => [] | S k => encode_loop value k end.
Definition encodeValue (value : Z) : list Z := encode_loop value (getEncLen value - 1).
