(* What saving, detecting and loading text files must do. *)
From Verif Require Export NewLineSpec TextConvSpec TextFormatModel.

(** The encoding with this name. *)
Definition codeOf (e : enc) : encoding :=
  match e with EBytes => Enc_Bytes | EUTF8 => Enc_UTF8 | EUTF16be => Enc_UTF16 true | EUTF16le => Enc_UTF16 false end.

(** The file of a text, given as a list of characters: the byte order mark U+FEFF if the format has one, then the text with
    the line endings of the format, all in its encoding. *)
Definition theFile (f : format) (ps : list Z) : list Z :=
  encoded (codeOf (encOf f)) ((if bom f then [0xFEFF] else []) ++ newlines (crlf f) ps).
(** The text as the program holds it: UTF-8 with LF line endings. *)
Definition inMemory (ps : list Z) : list Z := encoded Enc_UTF8 (newlines false ps).

(** The file starts with the byte order mark of the encoding. *)
Definition marked (e : enc) (file : list Z) : Prop := e <> EBytes /\ exists l, file = encode (codeOf e) 0xFEFF ++ l.
(** What follows the mark, if the format has one and it is there. *)
Definition unmarked (f : format) (file : list Z) (l : list Z) : Prop :=
  bom f = true /\ file = encode (codeOf (encOf f)) 0xFEFF ++ l \/ ~ (bom f = true /\ marked (encOf f) file) /\ l = file.

(** The characters that start in the first [n] bytes. *)
Fixpoint early (e : encoding) (n : Z) (ps : list Z) : list Z :=
  match ps with
  | [] => []
  | p :: ps => if n <=? 0 then [] else p :: early e (n - zlen (encode e p)) ps
  end.
(** A control character other than TAB, LF and CR. *)
Definition isControl (p : Z) : Prop := 0 <= p < 32 /\ p <> 9 /\ p <> 10 /\ p <> 13.
Definition startsWithMark (ps : list Z) : Prop := exists l, ps = 0xFEFF :: l.
(** ASCII without control characters. *)
Definition isPlain (p : Z) : Prop := 32 <= p < 127 \/ p = 9 \/ p = 10 \/ p = 13.

(** What is detected of a file in format [f]: CRLF is only seen if one of the characters looked at is a line feed. *)
Definition withMark (b : bool) (ps : list Z) : list Z := (if b then [0xFEFF] else []) ++ ps.
Definition hasLF (ps : list Z) : bool := existsb (Z.eqb 10) ps.
Definition found (f : format) (ps : list Z) : format :=
  mkf (encOf f)
      (crlf f && hasLF (early (codeOf (encOf f)) NumBytesForAutodetect (withMark (bom f) (newlines (crlf f) ps))))
      (bom f).
(** UTF-16, big or little endian. *)
Definition wide (be : bool) : enc := if be then EUTF16be else EUTF16le.
