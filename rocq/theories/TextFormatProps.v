(* C63: text files survive saving, detection and loading. *)
From Verif Require Import TextFormatSpec TextFormatFiles TextFormatDetect.
Open Scope Z_scope.

(** C63: however the text is cut into writes and the streams into blocks, saving writes the file of the text: mark, line
    endings and encoding of the format. In the format of plain bytes, for ASCII texts. *)
Theorem C63_save : forall fresh first sizes space f ps pieces,
  (forall k, (2 <= fresh k)%nat) -> Forall (fun n => (3 <= n)%nat) sizes -> (forall k, (0 < space k)%nat) ->
  Forall scalar ps -> (encOf f = EBytes -> bom f = false /\ Forall (fun p => p < 128) ps) ->
  concat pieces = encoded Enc_UTF8 ps ->
  exportAll fresh first sizes space f pieces = Some (theFile f ps).
Proof. exact save_right. Qed.
Print Assumptions C63_save.
Example C63_save_ex :
  exportAll (fun _ => 2%nat) 3 [3%nat; 4%nat] (fun _ => 5%nat) (mkf EUTF16le true true) [[65]; [0xe2; 0x82]; [0xac; 10]] =
    Some [0xff; 0xfe; 65; 0; 0xac; 0x20; 13; 0; 10; 0] /\
  theFile (mkf EUTF16le true true) [65; 0x20ac; 10] = [0xff; 0xfe; 65; 0; 0xac; 0x20; 13; 0; 10; 0].
Proof. split; vm_compute; reflexivity. Qed.

(** The file of a text, loaded in its format, gives the text back, however the file and the streams are cut. UTF-16 and
    plain bytes: for files that fit into a block. *)
Theorem C63_load_partial : forall cut1 cut2 rooms1 rooms2 blk f ps,
  100 < blk < 2 ^ 32 -> (forall k, (0 < rooms1 k)%nat) -> (forall k, (0 < rooms2 k)%nat) ->
  (bom f = true -> encOf f <> EBytes) -> Forall (fits (codeOf (encOf f))) ps -> zlen (theFile f ps) < 2 ^ 63 ->
  (encOf f = EUTF8 \/ zlen (theFile f ps) + 4 <= blk) ->
  loadText cut1 cut2 rooms1 rooms2 blk f (theFile f ps) = Some (inMemory ps).
Proof. intros; apply load_file; assumption. Qed.
Print Assumptions C63_load_partial.
Example C63_load_ex :
  loadText (fun _ => 3%nat) (fun _ => 2%nat) (fun _ => 4%nat) (fun _ => 5%nat) 128 (mkf EUTF16be true true)
    (theFile (mkf EUTF16be true true) [65; 0x20ac; 10; 0x1f600]) = Some (inMemory [65; 0x20ac; 10; 0x1f600]).
Proof. vm_compute. reflexivity. Qed.
(** A UTF-8 file of any size is passed on byte by byte, valid or not, without its mark and without carriage returns. *)
Theorem C63_bytes_kept : forall cut1 cut2 rooms1 rooms2 blk f file l,
  100 < blk < 2 ^ 32 -> (forall k, (0 < rooms1 k)%nat) -> (forall k, (0 < rooms2 k)%nat) ->
  encOf f = EUTF8 -> bytes_ok file -> zlen file < 2 ^ 63 -> unmarked f file l ->
  loadText cut1 cut2 rooms1 rooms2 blk f file = Some (newlines false l).
Proof. intros; apply load_utf8; assumption. Qed.
Print Assumptions C63_bytes_kept.
Example C63_bytes_kept_ex :
  loadText (fun _ => 3%nat) (fun _ => 2%nat) (fun _ => 4%nat) (fun _ => 2%nat) 128 (mkf EUTF8 false true) [0xef; 0xbb; 0xbf; 0x80; 13; 10; 65] =
    Some [0x80; 10; 65].
Proof. vm_compute. reflexivity. Qed.

(** A format is detected for every file. It has a mark exactly if the file starts with a byte order mark, and then the
    encoding is that of the mark. *)
Theorem C63_detect : forall cut1 blk file,
  100 < blk < 2 ^ 32 -> bytes_ok file -> zlen file < 2 ^ 63 -> 4003 <= blk ->
  exists f, detected cut1 blk file = Some f /\ (bom f = true <-> exists e, marked e file) /\
    (forall e, marked e file -> encOf f = e).
Proof. intros; apply detect_any; assumption. Qed.
Print Assumptions C63_detect.

(** Files with a mark load back without knowing their format, which is detected except for CRLF in a text without line
    endings in its first 4000 bytes. *)
Theorem C63_auto_mark_partial : forall cut1 cut2 rooms1 rooms2 blk f ps,
  100 < blk < 2 ^ 32 -> (forall k, (0 < rooms1 k)%nat) -> (forall k, (0 < rooms2 k)%nat) ->
  bom f = true -> encOf f <> EBytes -> Forall scalar ps -> zlen (theFile f ps) < 2 ^ 63 -> 4003 <= blk ->
  (encOf f = EUTF8 \/ zlen (theFile f ps) + 4 <= blk) ->
  loadTextAutodetect cut1 cut2 rooms1 rooms2 blk (theFile f ps) = Some (inMemory ps, found f ps).
Proof. intros; apply auto_marked; assumption. Qed.
Print Assumptions C63_auto_mark_partial.
(** So do UTF-8 files without a mark, unless the text itself starts with U+FEFF or has control characters other than
    TAB, LF and CR in its first 4000 bytes. *)
Theorem C63_auto_utf8_partial : forall cut1 cut2 rooms1 rooms2 blk cr ps, let f := mkf EUTF8 cr false in
  100 < blk < 2 ^ 32 -> (forall k, (0 < rooms1 k)%nat) -> (forall k, (0 < rooms2 k)%nat) ->
  Forall scalar ps -> ~ startsWithMark (newlines cr ps) ->
  Forall (fun p => ~ isControl p) (early Enc_UTF8 4000 (newlines cr ps)) ->
  zlen (theFile f ps) < 2 ^ 63 -> 4003 <= blk ->
  loadTextAutodetect cut1 cut2 rooms1 rooms2 blk (theFile f ps) = Some (inMemory ps, found f ps).
Proof. intros; apply auto_utf8; assumption. Qed.
Print Assumptions C63_auto_utf8_partial.
(** So do UTF-16 files without a mark, of either byte order, for ASCII texts without control characters. *)
Theorem C63_auto_utf16_partial : forall cut1 cut2 rooms1 rooms2 blk be cr ps, let f := mkf (wide be) cr false in
  100 < blk < 2 ^ 32 -> (forall k, (0 < rooms1 k)%nat) -> (forall k, (0 < rooms2 k)%nat) ->
  Forall isPlain ps -> newlines cr ps <> [] -> zlen (theFile f ps) + 4 <= blk -> 4003 <= blk ->
  loadTextAutodetect cut1 cut2 rooms1 rooms2 blk (theFile f ps) = Some (inMemory ps, found f ps).
Proof. intros; apply auto_utf16; assumption. Qed.
Print Assumptions C63_auto_utf16_partial.
Example C63_auto_ex : let auto := loadTextAutodetect (fun _ => 3%nat) (fun _ => 2%nat) (fun _ => 4%nat) (fun _ => 5%nat) 4096 in
  auto [65; 13; 10; 0xe2; 0x82; 0xac] = Some ([65; 10; 0xe2; 0x82; 0xac], mkf EUTF8 true false) /\
  auto [0; 72; 0; 105; 0; 10] = Some ([72; 105; 10], mkf EUTF16be false false) /\
  auto [72; 0; 105; 0; 13; 0; 10; 0] = Some ([72; 105; 10], mkf EUTF16le true false) /\
  auto [0xff; 0xfe; 13; 0; 10; 0] = Some ([10], mkf EUTF16le true true).
Proof. repeat split; vm_compute; reflexivity. Qed.

(** Refuted without those conditions. A file that starts with a byte that cannot start a character is not looked at
    further: it is UTF-8 with LF whatever follows, and the byte is passed on as text. *)
Theorem C63_stray_refuted : forall cut1 cut2 rooms1 rooms2 blk b l,
  100 < blk < 2 ^ 32 -> (forall k, (0 < rooms1 k)%nat) -> (forall k, (0 < rooms2 k)%nat) ->
  bytes_ok (b :: l) -> zlen (b :: l) < 2 ^ 63 -> 4003 <= blk -> announced b = None -> b < 0xfe ->
  loadTextAutodetect cut1 cut2 rooms1 rooms2 blk (b :: l) = Some (newlines false (b :: l), mkf EUTF8 false false).
Proof. intros; apply stray_lost; assumption. Qed.
Print Assumptions C63_stray_refuted.
(** A UTF-8 text that starts with U+FEFF and is saved without a mark loses that character. *)
Theorem C63_feff_refuted : forall cut1 cut2 rooms1 rooms2 blk cr ps,
  100 < blk < 2 ^ 32 -> (forall k, (0 < rooms1 k)%nat) -> (forall k, (0 < rooms2 k)%nat) ->
  Forall scalar ps -> let f := mkf EUTF8 cr false in zlen (theFile f (0xFEFF :: ps)) < 2 ^ 63 -> 4003 <= blk ->
  loadTextAutodetect cut1 cut2 rooms1 rooms2 blk (theFile f (0xFEFF :: ps)) =
    Some (inMemory ps, found (mkf EUTF8 cr true) ps).
Proof. intros; apply feff_lost; assumption. Qed.
Print Assumptions C63_feff_refuted.
(** The UTF-8 text ESC [ 0 m, without a mark, is taken for UTF-16. *)
Theorem C63_control_refuted : forall cut1 blk, 100 < blk < 2 ^ 32 -> 4003 <= blk ->
  detected cut1 blk (theFile (mkf EUTF8 false false) [27; 91; 48; 109]) = Some (mkf EUTF16le false false).
Proof. intros; apply detect_as; try assumption; [repeat constructor; discriminate|reflexivity|vm_compute; reflexivity]. Qed.
Print Assumptions C63_control_refuted.
(** The UTF-16 text U+4F60 U+597D, without a mark, is taken for UTF-8. *)
Theorem C63_ideographs_refuted : forall cut1 blk, 100 < blk < 2 ^ 32 -> 4003 <= blk ->
  detected cut1 blk (theFile (mkf EUTF16le false false) [0x4f60; 0x597d]) = Some (mkf EUTF8 false false).
Proof. intros; apply detect_as; try assumption; [repeat constructor; discriminate|reflexivity|vm_compute; reflexivity]. Qed.
Print Assumptions C63_ideographs_refuted.
(** Saving in the format of plain bytes writes UTF-8 in place of the bytes: loading encodes each byte once more. *)
Theorem C63_bytes_refuted : forall cut1 cut2 rooms1 rooms2 blk fresh first sizes space cr b ps pieces,
  100 < blk < 2 ^ 32 -> (forall k, (0 < rooms1 k)%nat) -> (forall k, (0 < rooms2 k)%nat) -> (forall k, (2 <= fresh k)%nat) ->
  Forall scalar ps -> concat pieces = encoded Enc_UTF8 ps ->
  let f := mkf EBytes cr b in let file := theFile (mkf EUTF8 cr false) ps in
  exportAll fresh first sizes space f pieces = Some file /\
  (b = false -> zlen file + 4 <= blk -> loadText cut1 cut2 rooms1 rooms2 blk f file = Some (inMemory (inMemory ps))).
Proof. intros; apply bytes_twice; assumption. Qed.
Print Assumptions C63_bytes_refuted.
Example C63_bytes_ex : inMemory [233] = [0xc3; 0xa9] /\ inMemory (inMemory [233]) = [0xc3; 0x83; 0xc2; 0xa9].
Proof. split; vm_compute; reflexivity. Qed.
(** Loading in the format of plain bytes with a mark fails an assertion. *)
Theorem C63_bytes_mark_refuted : forall cut1 cut2 rooms1 rooms2 blk cr file,
  loadText cut1 cut2 rooms1 rooms2 blk (mkf EBytes cr true) file = None.
Proof. exact bytes_mark_fails. Qed.
Print Assumptions C63_bytes_mark_refuted.
(** So does loading a UTF-16 file with an odd number of bytes. *)
Theorem C63_odd_refuted :
  loadText (fun _ => 3%nat) (fun _ => 2%nat) (fun _ => 4%nat) (fun _ => 5%nat) 128 (mkf EUTF16le false true) [0xff; 0xfe; 65] = None /\
  loadTextAutodetect (fun _ => 3%nat) (fun _ => 2%nat) (fun _ => 4%nat) (fun _ => 5%nat) 4096 [0xff; 0xfe; 65] = None.
Proof. split; vm_compute; reflexivity. Qed.
Print Assumptions C63_odd_refuted.
(** A UTF-16 file that does not fit into a block may lose a character: here the room for output is used up when two bytes
    of the first block are left, and they are skipped. *)
Theorem C63_block_refuted :
  let text := repeat 233 61 ++ [0x20ac; 0x20ac; 66; 67] in
  loadText (fun _ => 500%nat) (fun _ => 500%nat) (fun _ => 128%nat) (fun _ => 128%nat) 128 (mkf EUTF16le false false)
    (theFile (mkf EUTF16le false false) text) = Some (inMemory (repeat 233 61 ++ [0x20ac; 0x20ac; 67])).
Proof. vm_compute. reflexivity. Qed.
Print Assumptions C63_block_refuted.
