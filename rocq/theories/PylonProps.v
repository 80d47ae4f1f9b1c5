(* C37 and C38: Pylon text. *)
From Coq Require Import List ZArith Lia. Import ListNotations. Open Scope Z_scope.
From Coq Require Import String.
From Verif Require Import Base Txt TextEncodingModel EscapeModel EscapeSpec PylonModel PylonSpec PylonProofs PylonGrammar PylonGrammarProofs.

(** C37: every tree survives being written and parsed. Missing: texts with byte 255, with control characters or with illegal
    forms of ASCII characters (all refuted below), and objects with more than 64 properties, where the hash maps may
    loop for ever (C18). *)
Theorem C37_roundtrip_partial : forall n, tree_ok n -> parse (toString n) = Ok (Some n).
Proof. exact pylon_roundtrip. Qed.
Print Assumptions C37_roundtrip_partial.
Definition sample : node := Object [(txt "a b", Array [Text []; Object []; Text (txt "x{}"); Array []]); (txt "", Text [9; 34; 92; 195; 169])].
Example C37_ex : tree_ok sample /\ parse (toString sample) = Ok (Some sample).
Proof.
  split; [|vm_compute; reflexivity].
  assert (A : forall s, Forall (fun b => 32 <= b < 128 \/ b = 9 \/ b = 10 \/ b = 13) s -> text_ok s).
  { intros s H. split; [eapply Forall_impl; [|exact H]; intros; cbv beta in *; lia|]. intros pre l post p -> F Hp. apply Forall_app in H. destruct H as [_ H]. apply Forall_app in H. destruct H as [H _]. destruct F; inversion H; subst; unfold TextEncodingSpec.cont_byte in *; try lia; reflexivity. }
  assert (T : forall s, forallb (fun b => (32 <=? b) && (b <? 128)) s = true -> text_ok s).
  { intros s H. apply A. apply Forall_forall. intros b Hb. rewrite forallb_forall in H. specialize (H b Hb). apply andb_prop in H. destruct H. left. split; [apply Z.leb_le|apply Z.ltb_lt]; assumption. }
  apply ok_object; [| |repeat (constructor; [cbn; intuition discriminate|]); constructor|cbn; lia].
  - intros k x [E|[E|[]]]; inversion E; subst; apply T; reflexivity.
  - intros k x [E|[E|[]]]; inversion E; subst.
    + apply ok_array. intros y [<-|[<-|[<-|[<-|[]]]]]; [apply ok_text, T; reflexivity| |apply ok_text, T; reflexivity|apply ok_array; intros ? []]. apply ok_object; [intros ? ? []|intros ? ? []|constructor|cbn; lia].
    + apply ok_text. split; [apply Forall_forall; cbn; lia|]. intros pre l post p E' F Hp.
      destruct F; unfold TextEncodingSpec.cont_byte in *; [reflexivity|exfalso ..]; destruct pre as [|? [|? [|? [|? [|? ?]]]]]; cbn in E'; inversion E'; subst; try lia; try match goal with H : [] = ?l ++ _ |- _ => destruct l; discriminate H end.
Qed.

(** Byte 255 is taken for the end of the file. A tree of one text with it: *)
Theorem C37_byte_255_refuted : parse (toString (Text [97; 255; 98])) = NullRead.
Proof. reflexivity. Qed.
Print Assumptions C37_byte_255_refuted.
(** A control character is written as an escape that the parser does not know. *)
Theorem C37_control_refuted : parse (toString (Text [1])) = NullRead.
Proof. reflexivity. Qed.
Print Assumptions C37_control_refuted.
(** The overlong form C0 AA of a quote comes back as something else. *)
Theorem C37_overlong_refuted : exists m, parse (toString (Text [0xC0; 0xA2])) = Ok (Some m) /\ m <> Text [0xC0; 0xA2].
Proof. eexists. split; [reflexivity|discriminate]. Qed.
Print Assumptions C37_overlong_refuted.

(** C38. What is true: the parser loops for ever only on texts whose last byte belongs to a word, and fails an assertion only
    on texts with quotes; on all others it returns a tree, reports an error with an empty result, or reports an error and
    then reads through a null pointer. Missing: that it never does the latter three, which is false. *)
Theorem C38_parse_partial : forall s,
  (exists r, parse s = Ok r) \/ parse s = NullRead \/ parse s = Beyond \/
  (parse s = Hangs /\ exists p c, s = p ++ [c] /\ isAlnumUnit c = true) \/
  (parse s = Asserts /\ (In 34 s \/ In 39 s)).
Proof. exact parse_outcomes. Qed.
Print Assumptions C38_parse_partial.
Example C38_parse_ex : parse (txt "{ a: [1 2, b], c = x }") = Ok (Some (Object [(txt "a", Array [Text (txt "1"); Text (txt "2"); Text (txt "b")]); (txt "c", Text (txt "x"))])) /\
  parse (txt "[] []") = Ok None.
Proof. split; vm_compute; reflexivity. Qed.

(** A tree comes back exactly for the documents of the grammar in PylonGrammar.v, and it is the tree the document stands for;
    an empty result without a crash only for a value followed by something else. *)
Theorem C38_documents : forall s n, parse s = Ok (Some n) <-> document s n.
Proof. exact parse_document. Qed.
Print Assumptions C38_documents.
Theorem C38_trailing : forall s, parse s = Ok None -> exists p s' n r, s = p ++ s' /\ Forall space p /\ value_at s' n r /\ ~ document s n.
Proof. exact parse_trailing. Qed.
Print Assumptions C38_trailing.
Example C38_documents_ex : document (txt "{ a: [1 2 ]; 'c d' = """" }") (Object [(txt "a", Array [Text (txt "1"); Text (txt "2")]); (txt "c d", Text [])]) /\
  document ([39; 39; 39] ++ [97; 10; 39; 39; 13; 98] ++ [39; 39; 39]) (Text [97; 10; 39; 39; 98]).
Proof. split; apply C38_documents; vm_compute; reflexivity. Qed.

(** Every blank text is an error that ends in a null pointer read. So is an unclosed object. *)
Theorem C38_blank_refuted : forall s, Forall (fun c => c = 32 \/ c = 9 \/ c = 13 \/ c = 10) s -> parse s = NullRead.
Proof. exact parse_blank. Qed.
Print Assumptions C38_blank_refuted.
Theorem C38_unclosed_refuted : parse (txt "{ a: [1, 2") = Hangs /\ parse (txt "{ a: [1, 2 ") = NullRead.
Proof. split; reflexivity. Qed.
Print Assumptions C38_unclosed_refuted.
(** The parser loops for ever on every single word. *)
Theorem C38_word_refuted : forall s, s <> [] -> Forall (fun c => isAlnumUnit c = true) s -> ~ In 255 s -> parse s = Hangs.
Proof. exact parse_word. Qed.
Print Assumptions C38_word_refuted.
Example C38_word_ex : parse (txt "hello") = Hangs /\ parse (txt "hello ") = Ok (Some (Text (txt "hello"))).
Proof. split; reflexivity. Qed.
(** Strings with hexadecimal escapes, and strings that do not end where a key is expected, fail assertions. *)
Theorem C38_asserts_refuted : parse [34; 92; 120; 52; 49; 34] = Asserts /\ parse [123; 34; 97] = Asserts.
Proof. split; reflexivity. Qed.
Print Assumptions C38_asserts_refuted.
(** Whatever follows a byte 255 after the document is ignored. *)
Theorem C38_trailing_refuted : parse [123; 125; 255; 125; 125] = Ok (Some (Object [])).
Proof. reflexivity. Qed.
Print Assumptions C38_trailing_refuted.
