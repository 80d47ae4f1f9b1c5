(* Property theorems C01-C03: UTF-8 and UTF-16 decoding and encoding. *)
From Verif Require Import TextEncodingSpec TextEncodingModel TextEncodingProofs.

(** C01. Encoding any code point below 0x200000 (so every Unicode scalar value) and decoding
    gives it back, consuming exactly the bytes written, whatever follows. *)
Theorem C01_utf8_roundtrip : forall p rest, 0 <= p < 0x200000 ->
  utf8_decode (utf8_encode p ++ rest) =
  {| point := p; stat := Valid; nbytes := length (utf8_encode p) |}.
Proof. exact utf8_roundtrip. Qed.
Print Assumptions C01_utf8_roundtrip.
Example C01_case : 0 <= 0x20AC < 0x200000 /\ utf8_encode 0x20AC = [0xE2; 0x82; 0xAC].
Proof. split; [lia|reflexivity]. Qed.

(** C01. What is written is the standard shortest UTF-8 form of the code point. *)
Theorem C01_utf8_encode_shortest : forall p, 0 <= p < 0x200000 -> utf8_shortest (utf8_encode p) p.
Proof. exact utf8_encode_shortest. Qed.
Print Assumptions C01_utf8_encode_shortest.
Example C01_shortest_case : utf8_form (utf8_encode 0x1F600) 0x1F600.
Proof. apply utf8_encode_form. lia. Qed.

(** C01. The number of bytes announced for a code point is the number written. *)
Theorem C01_utf8_numBytes : forall p, length (utf8_encode p) = utf8_numBytes p.
Proof. exact utf8_encode_length. Qed.
Print Assumptions C01_utf8_numBytes.

(** C01. Conversely a valid shortest form is reproduced by re-encoding what was decoded. *)
Theorem C01_utf8_reencode : forall v, bytes_ok v -> stat (utf8_decode v) = Valid ->
  utf8_shortest (firstn (nbytes (utf8_decode v)) v) (point (utf8_decode v)) ->
  utf8_encode (point (utf8_decode v)) = firstn (nbytes (utf8_decode v)) v.
Proof. exact utf8_reencode. Qed.
Print Assumptions C01_utf8_reencode.
Example C01_reencode_case :
  let v := [0xC3; 0xA9; 0x41] in
  bytes_ok v /\ stat (utf8_decode v) = Valid /\
  utf8_shortest (firstn (nbytes (utf8_decode v)) v) (point (utf8_decode v)).
Proof.
  cbv zeta. split; [repeat constructor; unfold is_byte; lia|]. split; [reflexivity|].
  exact (utf8_encode_shortest 0xE9 ltac:(lia)).
Qed.

(** C01, finding. The decoder does not insist on the shortest form: C0 80 decodes as a valid
    code point whose own encoding is different. *)
Theorem C01_overlong_accepted_refuted : exists v, bytes_ok v /\ stat (utf8_decode v) = Valid /\
  utf8_encode (point (utf8_decode v)) <> firstn (nbytes (utf8_decode v)) v.
Proof.
  exists [0xC0; 0x80]. split; [repeat constructor; unfold is_byte; lia|].
  split; [reflexivity|]. vm_compute. discriminate.
Qed.
Print Assumptions C01_overlong_accepted_refuted.

(** C02. The decoder is defined on every byte sequence, reads only the view, yields no code
    point exactly when it consumes nothing, and consumes nothing only at the end of the view. *)
Theorem C02_utf8_progress : forall v, bytes_ok v ->
  let d := utf8_decode v in
  (0 <= point d <-> (0 < nbytes d)%nat) /\ (nbytes d <= length v)%nat /\
  (nbytes d = 0%nat <-> v = []).
Proof. exact utf8_progress. Qed.
Print Assumptions C02_utf8_progress.
Example C02_progress_case : bytes_ok [0xFF; 0x80] /\ nbytes (utf8_decode [0xFF; 0x80]) = 1%nat.
Proof. split; [repeat constructor; unfold is_byte; lia|reflexivity]. Qed.

(** C02. Valid is reported exactly for views starting with a UTF-8 sequence. *)
Theorem C02_utf8_valid_iff : forall v p n, bytes_ok v ->
  (utf8_decode v = {| point := p; stat := Valid; nbytes := n |} <->
   exists l rest, v = l ++ rest /\ utf8_form l p /\ length l = n).
Proof. exact utf8_valid_iff. Qed.
Print Assumptions C02_utf8_valid_iff.
Example C02_valid_case : exists l rest, [0xE2; 0x82; 0xAC; 0x21] = l ++ rest /\ utf8_form l 0x20AC /\ length l = 3%nat.
Proof.
  exists [0xE2; 0x82; 0xAC], [0x21]. split; [reflexivity|]. split; [|reflexivity].
  exact (utf8_encode_form 0x20AC ltac:(lia)).
Qed.

(** C02. Once the lead byte announces a length, Truncated means exactly "fewer bytes than
    announced". *)
Theorem C02_utf8_truncated_iff_partial : forall f rest k, bytes_ok (f :: rest) -> announced f = Some k ->
  (stat (utf8_decode (f :: rest)) = Truncated <-> (length (f :: rest) < k)%nat).
Proof. exact utf8_truncated_iff. Qed.
Print Assumptions C02_utf8_truncated_iff_partial.
Example C02_truncated_case : bytes_ok [0xE2; 0x82] /\ announced 0xE2 = Some 3%nat /\ (length [0xE2; 0x82] < 3)%nat.
Proof. split; [repeat constructor; unfold is_byte; lia|]. split; [reflexivity|cbn; lia]. Qed.

(** C02. A result other than Truncated does not change when more input arrives. *)
Theorem C02_utf8_stable : forall v rest, bytes_ok v ->
  stat (utf8_decode v) <> Truncated -> utf8_decode (v ++ rest) = utf8_decode v.
Proof. exact utf8_decode_ext. Qed.
Print Assumptions C02_utf8_stable.
Example C02_stable_case : stat (utf8_decode [0xC3; 0x28]) <> Truncated.
Proof. vm_compute. discriminate. Qed.

(** C02, finding. The full claim "Truncated means that more input could complete the sequence"
    is false: a stray continuation byte (or 0xF8..0xFF) is Truncated whatever follows it. *)
Theorem C02_truncated_refuted : exists v, bytes_ok v /\
  forall rest, bytes_ok rest -> stat (utf8_decode (v ++ rest)) = Truncated.
Proof.
  exists [0x80]. split; [repeat constructor; unfold is_byte; lia|].
  intros rest Hr. cbn [app]. rewrite utf8_stray_truncated; [reflexivity| |reflexivity].
  constructor; [unfold is_byte; lia|exact Hr].
Qed.
Print Assumptions C02_truncated_refuted.

(** C02. Stepping backwards over any valid sequence, whatever precedes it, gives its length. *)
Theorem C02_utf8_back : forall pre l p, utf8_form l p -> utf8_back (pre ++ l) = length l.
Proof. exact utf8_back_form. Qed.
Print Assumptions C02_utf8_back.
Example C02_back_case : utf8_form [0xF0; 0x9F; 0x98; 0x80] 0x1F600.
Proof. exact (utf8_encode_form 0x1F600 ltac:(lia)). Qed.

(** C03. UTF-16 round trip, both byte orders. *)
Theorem C03_utf16_roundtrip : forall be p rest, scalar p ->
  utf16_decode be (utf16_encode be p ++ rest) =
  {| point := p; stat := Valid; nbytes := length (utf16_encode be p) |}.
Proof. exact utf16_roundtrip. Qed.
Print Assumptions C03_utf16_roundtrip.
Example C03_case : scalar 0x1F600 /\ utf16_encode true 0x1F600 = [0xD8; 0x3D; 0xDE; 0x00].
Proof. split; [unfold scalar; lia|reflexivity]. Qed.

(** C03. The bytes written are the standard layout. *)
Theorem C03_utf16_layout : forall be p, 0 <= p < 0x110000 -> utf16_encode be p = utf16_layout be p.
Proof. exact utf16_encode_layout. Qed.
Print Assumptions C03_utf16_layout.

(** C03. Valid is reported only for scalar values in their standard layout: lone surrogates are
    never Valid. *)
Theorem C03_utf16_valid : forall be v, bytes_ok v -> stat (utf16_decode be v) = Valid ->
  scalar (point (utf16_decode be v)) /\
  exists rest, v = utf16_layout be (point (utf16_decode be v)) ++ rest /\
               nbytes (utf16_decode be v) = length (utf16_layout be (point (utf16_decode be v))).
Proof. exact utf16_valid_inv. Qed.
Print Assumptions C03_utf16_valid.
Example C03_valid_case : stat (utf16_decode false [0x3D; 0xD8; 0x00; 0xDE]) = Valid /\
  stat (utf16_decode false [0x3D; 0xD8; 0x41; 0x00]) = Invalid /\
  stat (utf16_decode false [0x00; 0xDC]) = Invalid.
Proof. repeat split. Qed.

(** C03. Progress: nothing is consumed only when fewer than two bytes remain, and four bytes
    are always enough to decide. *)
Theorem C03_utf16_progress : forall be v, bytes_ok v ->
  let d := utf16_decode be v in
  (0 <= point d <-> (0 < nbytes d)%nat) /\ (nbytes d <= length v)%nat /\
  (nbytes d = 0%nat <-> (length v < 2)%nat) /\
  (stat d = Truncated -> (length v < 4)%nat).
Proof. exact utf16_progress. Qed.
Print Assumptions C03_utf16_progress.

(** C03. Stepping backwards. *)
Theorem C03_utf16_back : forall be pre p, scalar p ->
  utf16_back be (pre ++ utf16_layout be p) = length (utf16_layout be p).
Proof. exact utf16_back_layout. Qed.
Print Assumptions C03_utf16_back.
