(* C90: titles of members in the documentation. *)
From Coq Require Import String.
From Verif Require Import Base Txt ScanModel ScanSpec ScanProofs EscapeSpec TitleModel TitleSpec TitleProofs TitleMore.
Local Open Scope string_scope.
Local Open Scope list_scope.
Local Open Scope Z_scope.
Local Notation length := List.length.

(** Reading a title always ends. *)
Theorem C90_ends src : exists l es, parseTitle src = Some (l, es).
Proof.
  destruct (parseTitle src) as [[l es]|] eqn:E; [eauto|]. exfalso. revert E. apply loop_ends. lia.
Qed.
Print Assumptions C90_ends.
Example C90_ends_ex : exists l es, parseTitle (txt "[[x]em") = Some (l, es) /\ length es = 4%nat.
Proof. eexists _, _. vm_compute. split; reflexivity. Qed.

(** A title is read without errors, into certain spans, if and only if it is written as titles are. *)
Theorem C90_exact src l : parseTitle src = Some (l, []) <-> title src l.
Proof. exact (title_exact src l). Qed.
Print Assumptions C90_exact.
Example C90_exact_ex : parseTitle (txt "a[strong b\]]\[c[qid d]") = Some ([(Normal, txt "a"); (Strong, txt "b]"); (Normal, txt "[c"); (QID, txt "d")], []).
Proof. vm_compute. reflexivity. Qed.
Example C90_exact_ex2 : title (txt "a[em b]") [(Normal, txt "a"); (Em, txt "b")].
Proof. apply C90_exact. vm_compute. reflexivity. Qed.
Example C90_exact_ex3 l : ~ title (txt "a[em b") l.
Proof. rewrite <- C90_exact. vm_compute. discriminate. Qed.

(** Every sequence of spans can be written. *)
Theorem C90_written l : regular l -> exists src, parseTitle src = Some (l, []).
Proof.
  intros H. destruct (writable (length l) l (le_n _) H) as [src Hs]. exists src. apply title_exact, Hs.
Qed.
Print Assumptions C90_written.
Example C90_written_ex : regular [(Em, txt "[x]"); (Normal, txt "\"); (QID, txt "y"); (Strong, txt "z")].
Proof. cbn. repeat split; try discriminate; intros H; discriminate || exact I. Qed.

(** Errors are said to be where the title is. *)
Theorem C90_places src l es : parseTitle src = Some (l, es) -> Forall (fun e => 0 <= place e <= Z.of_nat (length src)) es.
Proof.
  intros H. apply (loop_places (Z.of_nat (length src)) _ _ _ _ _ _ _ H); [lia|]. unfold zlen. lia.
Qed.
Print Assumptions C90_places.

(** A span that is not closed is told, at its bracket, and its text is kept. *)
Theorem C90_unclosed s t ty kw u v : escapes s t -> keyword ty kw -> escapes u v ->
  parseTitle (s ++ txt "[" ++ kw ++ txt " " ++ u) = Some (spanned Normal t ++ spanned ty v, [UnclosedSpan (Z.of_nat (length s))]).
Proof. exact (unclosed_ok s t ty kw u v). Qed.
Print Assumptions C90_unclosed.
Example C90_unclosed_ex : parseTitle (txt "a\[[em b\]") = Some ([(Normal, txt "a["); (Em, txt "b]")], [UnclosedSpan 3]).
Proof.
  apply (C90_unclosed (txt "a\[") (txt "a[") Em (txt "em") (txt "b\]") (txt "b]")).
  - apply escapes_byte; [vm_compute; intuition discriminate|]. apply escapes_any. constructor.
  - constructor.
  - apply escapes_byte; [vm_compute; intuition discriminate|]. apply escapes_any. constructor.
Qed.

(** A bracket that closes nothing is told, and left out. *)
Theorem C90_close s t u v : escapes s t -> escapes u v ->
  parseTitle (s ++ txt "]" ++ u) = Some (spanned Normal (t ++ v), [UnexpectedClose (Z.of_nat (length s))]).
Proof. exact (close_ok s t u v). Qed.
Print Assumptions C90_close.
Example C90_close_ex : parseTitle (txt "a]b") = Some ([(Normal, txt "ab")], [UnexpectedClose 1]).
Proof. apply (C90_close (txt "a") (txt "a") (txt "b") (txt "b")); apply escapes_byte; try (vm_compute; intuition discriminate); constructor. Qed.

(** Spans do not nest: the outer one ends where the inner one begins, which is told. *)
Theorem C90_nested s t ty kw u v ty2 kw2 u2 v2 : escapes s t -> keyword ty kw -> escapes u v -> keyword ty2 kw2 -> escapes u2 v2 ->
  parseTitle (s ++ txt "[" ++ kw ++ txt " " ++ u ++ txt "[" ++ kw2 ++ txt " " ++ u2 ++ txt "]") =
  Some (spanned Normal t ++ spanned ty v ++ spanned ty2 v2, [UnclosedSpan (Z.of_nat (length s))]).
Proof. exact (nested_ok s t ty kw u v ty2 kw2 u2 v2). Qed.
Print Assumptions C90_nested.
Example C90_nested_ex : parseTitle (txt "a[em b[strong c]") = Some ([(Normal, txt "a"); (Em, txt "b"); (Strong, txt "c")], [UnclosedSpan 1]).
Proof.
  apply (C90_nested (txt "a") (txt "a") Em (txt "em") (txt "b") (txt "b") Strong (txt "strong") (txt "c") (txt "c"));
    try (apply escapes_byte; [vm_compute; intuition discriminate|]); constructor.
Qed.

(** A type that does not exist is told, where it stands, and the text is bold. *)
Theorem C90_unknown s t w u v : escapes s t -> ident 0 w -> ~ In w [txt "strong"; txt "em"; txt "qid"] ->
  bytes_ok (w ++ txt " " ++ u ++ txt "]") -> escapes u v ->
  parseTitle (s ++ txt "[" ++ w ++ txt " " ++ u ++ txt "]") =
  Some (spanned Normal t ++ spanned Strong v, [Unrecognized w (Z.of_nat (length s) + 1)]).
Proof. exact (unknown_ok s t w u v). Qed.
Print Assumptions C90_unknown.
Example C90_unknown_ex : parseTitle (txt "a[emm b]") = Some ([(Normal, txt "a"); (Strong, txt "b")], [Unrecognized (txt "emm") 2]).
Proof.
  apply (C90_unknown (txt "a") (txt "a") (txt "emm") (txt "b") (txt "b")).
  - apply escapes_byte; [vm_compute; intuition discriminate|constructor].
  - cbn. unfold id_continue, id_start. split; [lia|]. repeat (apply Forall_cons; [lia|]). apply Forall_nil.
  - vm_compute. intuition discriminate.
  - cbn. repeat (apply Forall_cons; [unfold is_byte; lia|]). apply Forall_nil.
  - apply escapes_byte; [vm_compute; intuition discriminate|constructor].
Qed.

(** A bracket without a type is told twice, and changes nothing but that a span ends. *)
Theorem C90_untyped s t u v : escapes s t -> escapes u v -> bytes_ok u -> match u with [] => True | c :: _ => ~ id_start 0 c /\ c <> 32 end ->
  parseTitle (s ++ txt "[" ++ u) =
  Some (spanned Normal t ++ spanned Normal v, [ExpectedSpanType (Z.of_nat (length s)); ExpectedSpace [] (Z.of_nat (length s) + 1)]).
Proof. exact (untyped_ok s t u v). Qed.
Print Assumptions C90_untyped.
Example C90_untyped_ex : parseTitle (txt "a[3") = Some ([(Normal, txt "a"); (Normal, txt "3")], [ExpectedSpanType 1; ExpectedSpace [] 2]).
Proof.
  apply (C90_untyped (txt "a") (txt "a") (txt "3") (txt "3")).
  - apply escapes_byte; [vm_compute; intuition discriminate|constructor].
  - apply escapes_byte; [vm_compute; intuition discriminate|constructor].
  - cbn. repeat (apply Forall_cons; [unfold is_byte; lia|]). apply Forall_nil.
  - cbn. unfold id_start. lia.
Qed.

(** HTML shows exactly the spans: in bold, slanted, as links where there is something to link to, and with
    every special character as an entity. *)
Theorem C90_html link spans : (forall t, In t (map snd spans) -> bytes_ok t /\ no_overlong_ascii t /\ bytes_ok (link t) /\ no_overlong_ascii (link t)) ->
  shows link (writeTitle link spans) spans.
Proof. exact (title_html link spans). Qed.
Print Assumptions C90_html.
Example C90_html_ex : writeTitle (fun t => if sameText t (txt "y") then txt "/u" else []) [(Normal, txt "a<"); (Em, txt "b"); (QID, txt "x"); (QID, txt "y")] =
  txt "a&lt;<em>b</em>x<a href=" ++ [34] ++ txt "/u" ++ [34] ++ txt ">y</a>".
Proof. vm_compute. reflexivity. Qed.
