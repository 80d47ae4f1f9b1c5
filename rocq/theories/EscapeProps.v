(* Properties C30 (XML), C31 (escaped strings), C32 (Windows arguments), C49 (format strings). *)
From Verif Require Import TextEncodingSpec TextEncodingModel EscapeSpec EscapeModel EscapeProofs.

(** C30, safety: whatever the bytes and the length limit, the output is plain text and entities. *)
Theorem C30_xml_safe : forall s m, bytes_ok s -> exists t, xml_text (xmlEscape s m) t.
Proof. exact xml_safe. Qed.
Print Assumptions C30_xml_safe.
Theorem C30_xml_no_markup : forall e s, xml_text e s -> ~ In 60 e /\ ~ In 62 e /\ ~ In 34 e.
Proof. exact xml_no_markup. Qed.
Print Assumptions C30_xml_no_markup.

(** C30, losslessness, for text without overlong forms of ASCII characters; a reader recovers a unique text. *)
Theorem C30_xml_lossless : forall s, bytes_ok s -> no_overlong_ascii s -> xml_text (xmlEscape s 0) s.
Proof. exact xml_lossless. Qed.
Print Assumptions C30_xml_lossless.
Theorem C30_xml_unescape_unique : forall e s1 s2, xml_text e s1 -> xml_text e s2 -> s1 = s2.
Proof. exact xml_text_fun. Qed.
Print Assumptions C30_xml_unescape_unique.
(* "a<é>&" *)
Example C30_ex : xmlEscape [97;60;195;169;62;38] 0 =
  [97; 38;108;116;59; 195;169; 38;103;116;59; 38;97;109;112;59].
Proof. reflexivity. Qed.
Example C30_ex_hyp : no_overlong_ascii [60; 195; 169].
Proof.
  intros pre l post p E HF Hp.
  destruct HF; unfold cont_byte in *; [reflexivity|exfalso ..];
    destruct pre as [|? [|? [|? ?]]]; cbn in E; inversion E; subst; try lia; try match goal with H : [] = ?l ++ _ |- _ => destruct l; discriminate H end.
Qed.

(** The overlong form C0 BC of '<' is not preserved. *)
Theorem C30_overlong_refuted : xmlEscape [0xC0; 0xBC] 0 = [38;108;116;59] /\
  ~ xml_text (xmlEscape [0xC0; 0xBC] 0) [0xC0; 0xBC].
Proof.
  split; [reflexivity|]. intros H.
  assert (H' : xml_text [38;108;116;59] [60]).
  { apply (xml_ent [38;108;116;59] 60 [] []); constructor. }
  pose proof (xml_text_fun _ _ _ H H'). discriminate.
Qed.
Print Assumptions C30_overlong_refuted.

(** C31, full statement: parse_quoted (quote ++ escape s ++ quote ++ rest) = (s, rest, no error) for every s and
    rest. Proved for strings without control characters other than tab, CR and LF and without overlong
    ASCII, and, for the empty string, when some other byte follows. The three exclusions are necessary. *)
Theorem C31_escaped_roundtrip_partial : forall s rest single, bytes_ok s -> no_overlong_ascii s ->
  Forall (fun b => 32 <= b \/ b = 9 \/ b = 10 \/ b = 13) s ->
  s <> [] \/ (exists c r, rest = c :: r /\ c <> 34) ->
  parse_quoted (34 :: escapedString s 0 ++ 34 :: rest) single = (s, rest, []).
Proof. exact escaped_roundtrip. Qed.
Print Assumptions C31_escaped_roundtrip_partial.
(* the six bytes: a, quote, backslash, LF, e-acute *)
Example C31_ex : escapedString [97;34;92;10;195;169] 0 = [97; 92;34; 92;92; 92;110; 195;169] /\
  parse_quoted (34 :: escapedString [97;34;92;10;195;169] 0 ++ [34; 44]) false = ([97;34;92;10;195;169], [44], []).
Proof. split; reflexivity. Qed.

(** C31. A line break before the closing quote of a single-line string is reported, and not consumed. *)
Theorem C31_line_break_reported : forall s c rest single,
  Forall (fun b => b <> 34 /\ b <> 92 /\ b <> 10 /\ b <> 13) s -> c = 10 \/ c = 13 ->
  parse_quoted (34 :: s ++ c :: rest) single = (s, c :: rest, [UnexpectedEndOfLine]).
Proof. exact line_break_rejected. Qed.
Print Assumptions C31_line_break_reported.
Example C31_line_break_ex : parse_quoted [34; 97; 98; 10; 34] true = ([97; 98], [10; 34], [UnexpectedEndOfLine]).
Proof. reflexivity. Qed.

Theorem C31_control_char_refuted :
  parse_quoted (34 :: escapedString [1] 0 ++ [34]) false = ([49], [], [BadEscapeSequence]).
Proof. reflexivity. Qed.
Print Assumptions C31_control_char_refuted.
Theorem C31_empty_at_end_refuted :
  parse_quoted (34 :: escapedString [] 0 ++ [34]) false = ([], [], [UnexpectedEndOfFile]).
Proof. reflexivity. Qed.
Print Assumptions C31_empty_at_end_refuted.

(** C32, full statement: for every argument. Proved for nonempty arguments that do not need quoting or
    do not end in a backslash; the empty argument and quoted trailing backslashes are lost. *)
Theorem C32_cmdline_roundtrip_partial : forall s rest, arg_end rest ->
  (forall a, s = a ++ [92] -> ~ In 32 s /\ ~ In 9 s /\ ~ In 10 s /\ ~ In 13 s /\ ~ In 34 s) ->
  crt_arg false 0 (cmdLineArg s ++ rest) = (s, rest).
Proof. exact cmdline_roundtrip. Qed.
Print Assumptions C32_cmdline_roundtrip_partial.
(* a b, backslash, quote, c, followed by another argument *)
Example C32_ex : cmdLineArg [97;32;98;92;34;99] = [34; 97;32;98; 92;92; 92;34; 99; 34] /\
  crt_arg false 0 (cmdLineArg [97;32;98;92;34;99] ++ [32;120]) = ([97;32;98;92;34;99], [32;120]).
Proof. split; reflexivity. Qed.
(** The argument a b followed by a backslash loses its backslash. *)
Theorem C32_trailing_backslash_refuted :
  crt_arg false 0 (cmdLineArg [97;32;98;92]) = ([97;32;98], []).
Proof. reflexivity. Qed.
Print Assumptions C32_trailing_backslash_refuted.
(** The empty argument produces no text at all, hence no argument. *)
Theorem C32_empty_refuted : cmdLineArg [] = [].
Proof. reflexivity. Qed.
Print Assumptions C32_empty_refuted.

(** C49: formatting succeeds exactly on well-formed strings with the right number of arguments, and
    then prints exactly the specified text. *)
Theorem C49_format : forall f a o, format f a = Some o <-> formats f a o.
Proof. exact format_iff. Qed.
Print Assumptions C49_format.
Theorem C49_format_literal : forall l,
  format (flat_map (fun c => if (c =? 123) || (c =? 125) then [c; c] else [c]) l) [] = Some l.
Proof. exact format_literal. Qed.
Print Assumptions C49_format_literal.
(* "x{}}}{{{}" with "1" and "23" *)
Example C49_ex : format [120;123;125;125;125;123;123;123;125] [[49];[50;51]] = Some [120;49;125;123;50;51] /\
  format [123;125] [] = None /\ format [97] [[49]] = None /\ format [125] [] = None.
Proof. repeat split. Qed.
