(* C33: the line and column reported for an offset. *)
From Coq Require Import List ZArith Lia. Import ListNotations. Open Scope Z_scope.
From Verif Require Import Base TextEncodingModel FileLocModel FileLocSpec FileLocProofs.

(** If no character straddles the multiple of 256 at or before the offset, the location is the one that a scan of the
    text from its start gives. Missing: characters across such a boundary, and the end of a text whose length is a
    multiple of 256 (both refuted below); texts of 64 MB and more. *)
Theorem C33_location_partial text offset line col start line0 col0 start0 :
  bytes_ok text -> zlen text < 2 ^ 26 ->
  scanned text offset line col start ->
  scanned text (offset - offset mod 256) line0 col0 start0 ->
  (offset mod 256 <> 0 \/ offset < zlen text \/ offset = 0) ->
  locate text offset = Some (mkl line (offset - start) col 0).
Proof. intros B N. exact (locate_ok text B N offset line col start line0 col0 start0). Qed.
Print Assumptions C33_location_partial.

(** In ASCII text: the line is one more than the number of line feeds before the offset, and the column is counted over
    the part of the line before the offset. *)
Theorem C33_ascii text offset :
  ascii text -> zlen text < 2 ^ 26 -> 0 <= offset <= zlen text ->
  (offset mod 256 <> 0 \/ offset < zlen text \/ offset = 0) ->
  let before := firstn (Z.to_nat offset) text in
  locate text offset = Some (mkl (1 + Z.of_nat (count_occ Z.eq_dec before 10)) (zlen (lastLine before)) (column (lastLine before)) 0).
Proof. exact (locate_ascii text offset). Qed.
Print Assumptions C33_ascii.

(* 300 characters in two lines: the offset is in the second chunk *)
Definition sample : list Z := repeat 97 200 ++ [10] ++ repeat 98 60 ++ [9] ++ repeat 99 50.
Example C33_ascii_ex : ascii sample /\ zlen sample = 312 /\ locate sample 290 = Some (mkl 2 89 92 0).
Proof. split; [apply ascii_of; reflexivity|split; reflexivity]. Qed.
Example C33_location_ex : exists text l c s, zlen text = 304 /\ scanned text 302 l c s /\ locate text 302 = Some (mkl l (302 - s) c 0) /\ (l, c, s) = (1, 302, 0).
Proof.
  exists (repeat 97 300 ++ [195; 169; 98; 99]), 1, 302, 0. split; [reflexivity|]. split; [|split; reflexivity].
  exact (scan_char _ 300 1 301 0 (scan_run (repeat 97 300 ++ [195; 169; 98; 99]) 300 300 (le_n _) eq_refl ltac:(cbn; lia)) eq_refl).
Qed.

(** A two-byte character across offset 256: the column of a later character is wrong. *)
Theorem C33_location_refuted :
  exists text offset line col start l i c k, bytes_ok text /\ zlen text = 261 /\ scanned text offset line col start /\ locate text offset = Some (mkl l i c k) /\ c <> col.
Proof. exact location_straddle. Qed.
Print Assumptions C33_location_refuted.

(** The end of a text of 256 bytes: the lookup is out of bounds. *)
Theorem C33_end_refuted : exists text, ascii text /\ zlen text = 256 /\ locate text 256 = None.
Proof. exact location_end. Qed.
Print Assumptions C33_end_refuted.
