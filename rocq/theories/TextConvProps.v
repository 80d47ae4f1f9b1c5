(* C04: text conversion. *)
From Coq Require Import List ZArith Lia. Import ListNotations. Open Scope Z_scope.
From Verif Require Import Base TextEncodingModel TextEncodingSpec TextConvModel TextConvSpec TextConvProofs.

(** C04: converting a byte string gives the encoded points of the whole string, whatever the sizes of the output buffers:
    [space k] is the room found by the k-th request for output space. No condition on the text. *)
Theorem C04_one_shot : forall dst src space text,
  known dst -> known src -> (forall k, (0 < space k)%nat) -> bytes_ok text ->
  convertText dst src space text = Some (encoded dst (points src text)).
Proof. exact oneshot_right. Qed.
Print Assumptions C04_one_shot.
Definition few (k : nat) : nat := match (k mod 3)%nat with O => 1%nat | 1%nat => 7%nat | _ => 2%nat end.
Example C04_one_shot_ex : convertText (Enc_UTF16 false) Enc_UTF8 few [0x41; 0xe2; 0x82; 0xac; 0xf0; 0x9f; 0x98; 0x80; 0x80; 0xe2]
  = Some [0x41; 0; 0xac; 0x20; 0x3d; 0xd8; 0; 0xde; 0x80; 0; 0xe2; 0].
Proof. vm_compute. reflexivity. Qed.

(** C04: converting the text with given characters to another encoding gives the text with these characters there. *)
Theorem C04_characters : forall dst src space ps,
  known dst -> known src -> (forall k, (0 < space k)%nat) -> Forall (fits src) ps ->
  convertText dst src space (encoded src ps) = Some (encoded dst ps).
Proof. exact text_oneshot. Qed.
Print Assumptions C04_characters.
Example C04_characters_ex : Forall (fits Enc_UTF8) [0x41; 0x20ac; 0x1f600] /\ encoded Enc_UTF8 [0x41; 0x20ac; 0x1f600] = [0x41; 0xe2; 0x82; 0xac; 0xf0; 0x9f; 0x98; 0x80].
Proof. split; [|reflexivity]. rewrite Forall_forall. intros p H. cbn [In] in H. split; [unfold scalar; lia|]. intros E. apply (f_equal (fun e => encode e 0x20ac)) in E. discriminate. Qed.

(** C04: texts written in pieces, with a flush after each text, come out as if converted whole, whatever the sizes of the
    output buffers. Partial: no character may be spread over three pieces, the text may have no stray byte with three bytes
    after it, and it must be whole. *)
Theorem C04_pieces_partial : forall dst src space (texts : list (list (list Z))),
  known dst -> known src -> (forall k, (0 < space k)%nat) ->
  Forall (fun pieces => bytes_ok (concat pieces) /\ (length (pending src (concat pieces)) < 4)%nat /\
                        whole src (concat pieces) /\ cutsOk src pieces) texts ->
  piped dst src space (flat_map session texts) = Some (flat_map (fun pieces => encoded dst (points src (concat pieces))) texts).
Proof. exact pieces_right. Qed.
Print Assumptions C04_pieces_partial.
Example C04_pieces_ex :
  piped (Enc_UTF16 true) Enc_UTF8 few (flat_map session [[[0x41; 0xe2; 0x82]; [0xac]; []; [0x42; 0xf0]; [0x9f; 0x98; 0x80]]; [[0xc3]; [0xa9; 0xe2; 0x82]]])
  = Some [0; 0x41; 0x20; 0xac; 0; 0x42; 0xd8; 0x3d; 0xde; 0; 0; 0xe9; 0; 0xe2; 0; 0x82].
Proof. vm_compute. reflexivity. Qed.

(** C04: the same for a text of characters cut into pieces of which all but the last have three bytes or more. *)
Theorem C04_pieces_of_three : forall dst src space ps pieces last,
  known dst -> known src -> (forall k, (0 < space k)%nat) -> Forall (fits src) ps ->
  concat (pieces ++ [last]) = encoded src ps -> Forall (fun p => (3 <= length p)%nat) pieces ->
  piped dst src space (session (pieces ++ [last])) = Some (encoded dst ps).
Proof. exact text_pieces. Qed.
Print Assumptions C04_pieces_of_three.
Example C04_pieces_of_three_ex :
  concat ([[0x41; 0xe2; 0x82]; [0xac; 0xf0; 0x9f; 0x98]] ++ [[0x80]]) = encoded Enc_UTF8 [0x41; 0x20ac; 0x1f600]
  /\ piped (Enc_UTF16 true) Enc_UTF8 few (session [[0x41; 0xe2; 0x82]; [0xac; 0xf0; 0x9f; 0x98]; [0x80]]) = Some [0; 0x41; 0x20; 0xac; 0xd8; 0x3d; 0xde; 0].
Proof. vm_compute. split; reflexivity. Qed.

(** Byte strings in the other encodings never leave more than three bytes unfinished. *)
Theorem C04_pending_short : forall e text, known e -> e <> Enc_UTF8 -> bytes_ok text -> (length (pending e text) < 4)%nat.
Proof. exact utf16_pending. Qed.
Print Assumptions C04_pending_short.
Example C04_pending_short_ex : pending (Enc_UTF16 false) [0x41; 0; 0x3d; 0xd8; 7] = [0x3d; 0xd8; 7].
Proof. reflexivity. Qed.

(** C04: reading through the converter, with buffers of any sizes, delivers the converted text in order; a call returns
    nothing only when all of it was delivered. [offer]: what the input stream makes available. Partial: as above. *)
Theorem C04_reading_partial : forall dst src inp offer text rooms,
  known dst -> known src -> bytes_ok text -> whole src text -> (length (pending src text) < 4)%nat ->
  Forall (fun r => 0 < r)%nat rooms ->
  exists outs rest, readAll dst src inp offer text rooms = Some outs /\ encoded dst (points src text) = concat outs ++ rest /\
    (In [] outs -> rest = []) /\ Forall2 (fun out room => (length out <= room)%nat) outs rooms.
Proof. exact read_right. Qed.
Print Assumptions C04_reading_partial.
Example C04_reading_ex :
  readAll (Enc_UTF16 false) Enc_UTF8 PipeIn (fun _ => 5%nat) [0x41; 0xe2; 0x82; 0xac; 0x42; 0x43; 0xe2; 0x82] [1; 3; 4; 2; 9; 9; 9]%nat
  = Some [[0x41]; [0; 0xac; 0x20]; [0x42; 0; 0x43; 0]; [0xe2; 0]; [0x82; 0]; []; []].
Proof. vm_compute. reflexivity. Qed.

(** A character spread over three pieces loses its last byte: the euro sign written byte by byte. *)
Theorem C04_three_pieces_refuted : exists pieces,
  piped Enc_UTF8 Enc_UTF8 few (session pieces) = Some [0xc3; 0xa2] /\ encoded Enc_UTF8 (points Enc_UTF8 (concat pieces)) = concat pieces /\ concat pieces = [0xe2; 0x82; 0xac].
Proof. exists [[0xe2]; [0x82]; [0xac]]. vm_compute. repeat split; reflexivity. Qed.
Print Assumptions C04_three_pieces_refuted.

(** A stray byte followed by three more in the same piece fails an assertion; without assertions, the buffer of 4 bytes
    is overrun. *)
Theorem C04_stray_refuted : exists piece, piped Enc_UTF8 Enc_UTF8 few [Write piece] = None /\ piece = [0x80; 0x41; 0x41; 0x41; 0x41].
Proof. exists [0x80; 0x41; 0x41; 0x41; 0x41]. vm_compute. split; reflexivity. Qed.
Print Assumptions C04_stray_refuted.

(** Reading UTF-16 text with an odd byte at its end from a pipe fails an assertion. *)
Theorem C04_odd_byte_refuted : exists text, readAll Enc_UTF8 (Enc_UTF16 false) PipeIn few text [9; 9]%nat = None /\ text = [0x41; 0; 0x42].
Proof. exists [0x41; 0; 0x42]. vm_compute. split; reflexivity. Qed.
Print Assumptions C04_odd_byte_refuted.
