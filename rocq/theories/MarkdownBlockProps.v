(* Properties of the blocks of a Markdown document. *)
From Coq Require Import Lia String.
From Verif Require Import MarkdownBlockSpec MarkdownProofs MarkdownBlocks MarkdownTree MarkdownLayoutSpec MarkdownLayout.
Local Open Scope string_scope.
Local Open Scope list_scope.

(* ---- C71: blocks ---- *)
(** If a source is parsed, every line of it that is not only markers and white space is, once, in one paragraph, heading or
    code block, with nothing but markers and white space left out, and the blocks and the lines in them keep the order of
    the source. No block has any other text. *)
Theorem C71_text_partial : forall src doc, parse src = Some doc ->
  exists ls es order, linesOf src ls /\ Forall2 entryOf ls es /\ NoDup order /\ Forall2 (holds es) order (flat_map leaves doc) /\
    (forall e i, In e es -> target e = Some i -> In i order) /\
    (forall a e1 b e2 c i j, es = a ++ e1 :: b ++ e2 :: c -> target e1 = Some i -> target e2 = Some j -> (i <= j)%nat).
Proof. exact text_kept. Qed.
Print Assumptions C71_text_partial.
Definition C71_lines (l : list string) : list Z := List.concat (map (fun s => txt s ++ [10]) l).
Example C71_text_ex :
  parse (C71_lines ["# A *b*"; "text"; "more"; "> * q"; "> * r"; ">"; "> s"; ""; "1) x"; ""; "   y"; ""; "end"; ""; "    code"; ""; "      c2"]) =
  Some [BHeading 1 [] [Text (txt "A "); Emphasis [Text (txt "b")]]; BPara [Text (txt "text"); SoftBreak; Text (txt "more")];
        BQuote [BList (-1) false [BItem [BPara [Text (txt "q")]]; BItem [BPara [Text (txt "r")]]]; BPara [Text (txt "s")]];
        BList 1 true [BItem [BPara [Text (txt "x")]; BPara [Text (txt "y")]]]; BPara [Text (txt "end")]; BCode [txt "code" ++ [10]; [10]; txt "  c2" ++ [10]]].
Proof. vm_compute. reflexivity. Qed.
(** A document of paragraphs, headings, code, quotes in quotes and lists, written with its blocks apart by blank lines, is
    parsed as what was written; [means] says which block is which. *)
Theorem C71_written : forall l, writtenAll 0 true l -> exists doc, parse (page l) = Some doc /\ Forall2 means l doc.
Proof. exact written_read. Qed.
Print Assumptions C71_written.
Definition C71_doc : list src :=
  [Head 2 (txt "A"); Para [txt "text"; txt "more"]; Listing [txt "code"; txt "  c2"]; Quote [Items [(Bullet 42, [txt "q"]); (Bullet 42, [txt "r"])]; Quote [Para [txt "s"]]];
   Items [(Number (txt "3") 41, [txt "x"; txt "y"]); (Number (txt "10") 41, [txt "z"])]; Items [(Bullet 45, [txt "v"])]].
Example C71_written_ex : writtenAll 0 true C71_doc /\
  page C71_doc = C71_lines ["## A"; ""; "text"; "more"; ""; "    code"; "      c2"; ""; "> * q"; "> * r"; "> "; "> > s"; ""; "3) x"; "   y"; "10) z"; ""; "- v"] /\
  parse (page C71_doc) =
  Some [BHeading 2 [] [Text (txt "A")]; BPara [Text (txt "text"); SoftBreak; Text (txt "more")]; BCode [txt "code" ++ [10]; txt "  c2" ++ [10]];
        BQuote [BList (-1) false [BItem [BPara [Text (txt "q")]]; BItem [BPara [Text (txt "r")]]]; BQuote [BPara [Text (txt "s")]]];
        BList 3 false [BItem [BPara [Text (txt "x"); SoftBreak; Text (txt "y")]]; BItem [BPara [Text (txt "z")]]]; BList (-1) false [BItem [BPara [Text (txt "v")]]]].
Proof.
  split; [|split; vm_compute; reflexivity].
  assert (T : forall c t, 97 <= c <= 122 -> hugs (c :: t) -> ~ In 10 (c :: t) -> textLine (c :: t)).
  { intros c t I H N. split; [exact H|]. split; [exact N|]. apply not_special; [cbn; lia|unfold digit; lia]. }
  assert (H1 : forall c, 33 <= c -> hugs [c]) by (intros c H; exists c, c; unfold white; split; [reflexivity|split; [reflexivity|lia]]).
  assert (T1 : forall c, 97 <= c <= 122 -> textLine [c]) by (intros c H; apply T; [exact H|apply H1; lia|cbn; lia]).
  assert (W1 : textLine (txt "text")) by (apply (T 116 (txt "ext")); [lia|exists 116, 116; unfold white; split; [reflexivity|split; [reflexivity|lia]]|cbn; lia]).
  assert (W2 : textLine (txt "more")) by (apply (T 109 (txt "ore")); [lia|exists 109, 101; unfold white; split; [reflexivity|split; [reflexivity|lia]]|cbn; lia]).
  assert (C : codeLine (txt "code") /\ codeLine (txt "  c2")) by (split; (split; [cbn; lia|exists 99; unfold white; cbn; lia])).
  destruct C as (C1 & C2).
  unfold C71_doc. cbn [writtenAll written apart codeAfter].
  split; [split; [lia|split; [apply H1; cbn; lia|cbn; lia]]|]. split; [exact I|].
  split; [split; [discriminate|repeat (constructor; [assumption|]); constructor]|]. split; [exact I|].
  split; [split; [reflexivity|split; [discriminate|repeat (constructor; [assumption|]); constructor]]|]. split; [exact I|].
  assert (It : forall d m c, markOk m -> 97 <= c <= 122 -> itemOk' d (m, [[c]])) by (intros d m c Mk Hc; split; [exact Mk|]; split; [discriminate|]; split; [constructor; [apply T1, Hc|constructor]|right; reflexivity]).
  assert (Bu : forall c, In c [42; 43; 45] -> markOk (Bullet c)) by (intros c H; exact H).
  assert (Nu : markOk (Number (txt "3") 41) /\ markOk (Number (txt "10") 41)) by (split; (split; [cbn; repeat (constructor; [unfold digit; lia|]); constructor|split; [cbn; lia|cbn; lia]])). destruct Nu as (N1 & N2).
  split.
  { split; [discriminate|]. split.
    - split; [constructor; [apply It; [apply Bu; cbn; lia|vm_compute; split; discriminate]|constructor; [apply It; [apply Bu; cbn; lia|vm_compute; split; discriminate]|constructor]]|]. split; [repeat constructor|right; left; reflexivity].
    - split; [exact I|]. split; [|split; exact I]. split; [discriminate|]. split; [split; [discriminate|constructor; [apply T1; vm_compute; split; discriminate|constructor]]|split; exact I]. }
  split; [exact I|]. split.
  { split; [|split; [repeat constructor|left; reflexivity]]. constructor; [|constructor; [apply It; [exact N2|vm_compute; split; discriminate]|constructor]]. split; [exact N1|]. split; [discriminate|]. split; [constructor; [apply T1; vm_compute; split; discriminate|constructor; [apply T1; vm_compute; split; discriminate|constructor]]|left; reflexivity]. }
  split; [intros H; exact H|]. split; [|split; exact I]. split; [constructor; [apply It; [apply Bu; cbn; lia|vm_compute; split; discriminate]|constructor]|]. split; [repeat constructor|right; left; reflexivity].
Qed.
(** Refuted: every text is a document (CommonMark). These are the ones in which an assertion fails or memory is read outside of
    the string: a quote, an item or a heading that starts empty, a carriage return, code after code and a heading, and a
    paragraph after code in an item. *)
Theorem C71_total_refuted :
  parse (C71_lines [">"]) = None /\ parse (C71_lines ["* "]) = None /\ parse (C71_lines ["#"]) = None /\ parse ([13] ++ txt "a") = None /\
  parse (C71_lines ["    a"; ""; "# h"; "    b"]) = None /\ parse (C71_lines ["* a"; ""; "      code"; ""; "  b"]) = None.
Proof. repeat split; vm_compute; reflexivity. Qed.
Print Assumptions C71_total_refuted.
(** Refuted: the structure is the one of CommonMark. The text of a quote after a paragraph is in the paragraph, and the quote is
    empty; the code of a quote after code likewise; lists in lists in lists and items of several lines in quotes are flat. *)
Theorem C71_structure_refuted :
  parse (C71_lines ["a"; "> b"]) = Some [BPara [Text (txt "a"); SoftBreak; Text (txt "b")]; BQuote []] /\
  parse (C71_lines ["    a"; ""; ">     b"]) = Some [BCode [txt "a" ++ [10]; [10]; txt "b" ++ [10]]; BQuote []] /\
  parse (C71_lines ["* a"; "  * b"; "    * c"]) =
    Some [BList (-1) false [BItem [BPara [Text (txt "a")]; BList (-1) false [BItem [BPara [Text (txt "b")]]; BItem [BPara [Text (txt "c")]]]]]] /\
  parse (C71_lines ["> * a"; ">   b"]) = Some [BQuote [BList (-1) false [BItem [BPara [Text (txt "a")]]]; BPara [Text (txt "b")]]] /\
  parse (C71_lines ["* * a"; "  b"]) = Some [BList (-1) false [BItem [BPara [Text (txt "b")]]; BList (-1) false [BItem [BPara [Text (txt "a")]]]]].
Proof. repeat split; vm_compute; reflexivity. Qed.
Print Assumptions C71_structure_refuted.
