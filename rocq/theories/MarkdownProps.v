(* Properties of the Markdown parser and of the HTML converter. *)
From Coq Require Import Lia ZifyBool String.
From Verif Require Import MarkdownBlockSpec MarkdownProofs MarkdownWrite MarkdownHtml MarkdownSource.
Local Open Scope list_scope.

(* ---- C69: inline elements ---- *)
(** The lines of a paragraph or heading always give elements, without any failed assertion or access outside of a string, and
    the elements are a reading of the text: nothing is lost, added or moved. *)
Theorem C69_reading : forall lines, lines <> [] -> Forall lineOk lines ->
  exists els, expandInlineElements lines = Some els /\ saysAll els (joined lines).
Proof. exact inline_ok. Qed.
Print Assumptions C69_reading.
Example C69_reading_ex :
  Forall lineOk [txt "see [the *man"; txt "ual*](page)  and ``x ` y``"] /\
  expandInlineElements [txt "see [the *man"; txt "ual*](page)  and ``x ` y``"] =
    Some [Text (txt "see "); Link (txt "page") [Text (txt "the "); Emphasis [Text (txt "man"); SoftBreak; Text (txt "ual")]];
          Text (txt "  and "); CodeSpan (txt "x ` y")].
Proof. split; [|vm_compute; reflexivity]. repeat (constructor; [split; [discriminate|vm_compute; intuition discriminate]|]). constructor. Qed.

(** What is written is found: plain text, code, emphasis, strong emphasis and links, nested in each other to any depth. *)
Theorem C69_written : forall l, l <> [] -> Forall itemOk l ->
  expandInlineElements [spaced (map write l)] = Some (between (map meant l)).
Proof. exact write_ok. Qed.
Print Assumptions C69_written.
Definition C69_sample : list item :=
  [Em [W (txt "a"); St [W (txt "b c"); Lk [W (txt "d"); Em [W (txt "e")]; W (txt "f")] (txt "u/v.html"); W (txt "g")]; W (txt "h")]; C (txt "x*y*")].
Example C69_written_ex : C69_sample <> [] /\ Forall itemOk C69_sample /\
  spaced (map write C69_sample) = txt "*a **b c [d *e* f](u/v.html) g** h* `x*y*`" /\
  between (map meant C69_sample) =
    [Emphasis [Text (txt "a "); Strong [Text (txt "b c "); Link (txt "u/v.html") [Text (txt "d "); Emphasis [Text (txt "e")]; Text (txt " f")]; Text (txt " g")]; Text (txt " h")];
     Text (txt " "); CodeSpan (txt "x*y*")].
Proof.
  assert (Wd : forall t c d, hd_error t = Some c -> hd_error (rev t) = Some d -> (97 <=? c) && (c <=? 122) = true -> (97 <=? d) && (d <=? 122) = true ->
    forallb (fun c => ((97 <=? c) && (c <=? 122)) || (c =? 32)) t = true -> itemOk (W t)).
  { intros t c d H1 H2 H3 H4 H5. constructor. apply andb_prop in H3. apply andb_prop in H4. destruct H3, H4.
    assert (L : forall c, (97 <=? c) = true -> (c <=? 122) = true -> letter c) by (intros x K1 K2; apply Z.leb_le in K1; apply Z.leb_le in K2; unfold letter, white; repeat split; intros K; lia).
    split; [exists c; split; [exact H1|apply L; assumption]|]. split; [exists d; split; [exact H2|apply L; assumption]|].
    apply Forall_forall. intros x Hx K. rewrite forallb_forall in H5. specialize (H5 x Hx). cbn in K. repeat (destruct K as [<-|K]; [discriminate|]). destruct K. }
  assert (B1 : forall t, body [W t]) by (intros t; exists (W t), (W t); repeat split).
  assert (B3 : forall t i u, body [W t; i; W u]) by (intros t i u; exists (W t), (W u); repeat split).
  split; [discriminate|]. split; [|split; vm_compute; reflexivity].
  assert (Fg : itemOk (Lk [W (txt "d"); Em [W (txt "e")]; W (txt "f")] (txt "u/v.html"))).
  { constructor; [apply B3| |].
    - constructor; [eapply Wd; reflexivity|]. constructor; [constructor; [apply B1|]; constructor; [eapply Wd; reflexivity|constructor]|]. constructor; [eapply Wd; reflexivity|constructor].
    - repeat (constructor; [split; [reflexivity|cbn; intuition discriminate]|]). constructor. }
  constructor; [|constructor; [|constructor]].
  - constructor; [apply B3|]. constructor; [eapply Wd; reflexivity|]. constructor; [|constructor; [eapply Wd; reflexivity|constructor]].
    constructor; [apply B3|]. constructor; [eapply Wd; reflexivity|]. constructor; [exact Fg|]. constructor; [eapply Wd; reflexivity|constructor].
  - constructor; [discriminate|discriminate|]. repeat (constructor; [split; discriminate|]). constructor.
Qed.

(** Refuted: emphasis inside a word, such as "un*frigging*believable", is never found. *)
Theorem C69_intraword_refuted : forall x y, plainText x -> plainText y ->
  expandInlineElements [x ++ [42] ++ y ++ [42]] = Some [Text (x ++ [42] ++ y ++ [42])].
Proof. exact intraword. Qed.
Print Assumptions C69_intraword_refuted.
(** Refuted: a backslash in a link keeps the next character from having a meaning. It is written twice instead. *)
Theorem C69_backslash_refuted : forall x u p v, plainText x -> Forall (fun c => 32 < c /\ ~ In c [40; 41; 92]) (u ++ [p] ++ v) -> isAscPunc p = true ->
  expandInlineElements [[91] ++ x ++ [93; 40] ++ (u ++ [92] ++ [p] ++ v) ++ [41]] = Some [Link (u ++ [p] ++ [p] ++ v) [Text x]].
Proof. exact backslash. Qed.
Print Assumptions C69_backslash_refuted.
Example C69_backslash_ex : expandInlineElements [txt "[a](b\_c)"] = Some [Link (txt "b__c") [Text (txt "a")]] /\
  expandInlineElements [txt "[a](b\)c)"] = Some [Link (txt "b)") [Text (txt "a")]; Text (txt "c)")].
Proof. split; vm_compute; reflexivity. Qed.
(** Refuted: emphasis with underscores does not depend on stars inside it. It is lost when a star that closes nothing and
    emphasis with stars are both inside. *)
Theorem C69_underscore_refuted :
  expandInlineElements [txt "_a b* c d_"] = Some [Emphasis [Text (txt "a b* c d")]] /\
  expandInlineElements [txt "_a b *c* d_"] = Some [Emphasis [Text (txt "a b "); Emphasis [Text (txt "c")]; Text (txt " d")]] /\
  expandInlineElements [txt "_a b* *c* d_"] = Some [Text (txt "_a b* "); Emphasis [Text (txt "c")]; Text (txt " d_")].
Proof. repeat split; vm_compute; reflexivity. Qed.
Print Assumptions C69_underscore_refuted.
(** Refuted: links do not contain links. *)
Theorem C69_links_refuted : forall x y z d e, plainText x -> plainText y -> plainText z ->
  Forall (fun c => 32 < c /\ ~ In c [40; 41; 92]) d -> Forall (fun c => 32 < c /\ ~ In c [40; 41; 92]) e ->
  exists k, expandInlineElements [[91] ++ x ++ [32] ++ ([91] ++ y ++ [93; 40] ++ d ++ [41]) ++ [32] ++ z ++ [93; 40] ++ e ++ [41]] = Some [Link e k] /\
    In (Link d [Text y]) k.
Proof.
  intros x y z d e Hx Hy Hz Hd He. exists [Text (x ++ [32]); Link d [Text y]; Text ([32] ++ z)]. split; [|cbn; auto].
  assert (By : body [W y]) by (exists (W y), (W y); repeat split).
  assert (Bx : body [W x; Lk [W y] d; W z]) by (exists (W x), (W z); repeat split).
  assert (Ok : Forall itemOk [Lk [W x; Lk [W y] d; W z] e]).
  { constructor; [|constructor]. constructor; [exact Bx| |exact He]. constructor; [constructor; exact Hx|]. constructor; [constructor; [exact By| |exact Hd]|].
    - constructor; [constructor; exact Hy|constructor].
    - constructor; [constructor; exact Hz|constructor]. }
  pose proof (write_ok [Lk [W x; Lk [W y] d; W z] e] ltac:(discriminate) Ok) as E. cbn [map meant between flat_map app merge] in E.
  etransitivity; [|exact E]. f_equal. f_equal. cbn [map write spaced flat_map app]. repeat (rewrite ?app_nil_r, <- ?app_assoc; cbn [app]). reflexivity.
Qed.
Print Assumptions C69_links_refuted.

(* ---- C70: pages ---- *)
(** The page of a document is well formed HTML text, its tags are closed in the right order, and a reader sees exactly the
    document: the tags of its blocks and elements, and its texts character for character. *)
Theorem C70_exact_partial : forall anchors doc, Forall (blockOk (fun t => bytes_ok t /\ no_overlong_ascii t) false) doc ->
  exists h e, convertToHTML anchors doc = Some h /\ showsAll eq anchors false doc e /\ page h e /\ nest [] e.
Proof. exact html_exact. Qed.
Print Assumptions C70_exact_partial.
(** Whatever the bytes of the texts are: no text adds, hides or changes a tag. *)
Theorem C70_safe_partial : forall anchors doc, Forall (blockOk bytes_ok false) doc ->
  exists h e, convertToHTML anchors doc = Some h /\ showsAll (fun _ _ => True) anchors false doc e /\ page h e /\ nest [] e.
Proof. exact html_safe. Qed.
Print Assumptions C70_safe_partial.
(** A text has at most one reading as a page. *)
Theorem C70_one_reading : forall h e f, page h e -> page h f -> e = f.
Proof. intros h e f H. exact (page_unique h e H f). Qed.
Print Assumptions C70_one_reading.
(** From the lines of a paragraph to its page, for all bytes. *)
Theorem C70_paragraph : forall anchors lines, lines <> [] -> Forall lineOk lines -> Forall bytes_ok lines ->
  exists els h e, expandInlineElements lines = Some els /\ saysAll els (joined lines) /\
    convertToHTML anchors [BPara els] = Some h /\ showsAll (fun _ _ => True) anchors false [BPara els] e /\ page h e /\ nest [] e.
Proof. exact para_page. Qed.
Print Assumptions C70_paragraph.
(** From any source to its page. No source, whatever its bytes, can add, hide or change a tag, and there is no page only if an
    item of a tight list is empty. *)
Theorem C70_source : forall anchors src doc, Forall is_byte src -> parse src = Some doc ->
  (convertToHTML anchors doc = None <-> ~ Forall (full false) doc) /\
  forall h, convertToHTML anchors doc = Some h -> exists e, showsAll (fun _ _ => True) anchors false doc e /\ page h e /\ nest [] e.
Proof. exact source_safe. Qed.
Print Assumptions C70_source.
(** A source of ASCII characters: its page shows the texts of the document character for character. *)
Theorem C70_source_exact : forall anchors src doc h, Forall (fun c => 0 <= c <= 127) src -> parse src = Some doc -> convertToHTML anchors doc = Some h ->
  exists e, showsAll eq anchors false doc e /\ page h e /\ nest [] e.
Proof. exact source_exact. Qed.
Print Assumptions C70_source_exact.
Example C70_source_ex : Forall (fun c => 0 <= c <= 127) (txt "* <b>") /\ parse (txt "* <b>") = Some [BList (-1) false [BItem [BPara [Text (txt "<b>")]]]] /\
  convertToHTML true [BList (-1) false [BItem [BPara [Text (txt "<b>")]]]] = Some (txt "<ul>" ++ [10] ++ txt "<li>&lt;b&gt;</li>" ++ [10] ++ txt "</ul>" ++ [10]).
Proof. split; [apply Forall_forall; intros c Hc; cbn in Hc; lia|]. split; vm_compute; reflexivity. Qed.

Definition C70_sample : list block :=
  [BHeading 2 (txt "a""b") [Text (txt "A & B")];
   BList 3 false [BItem [BPara [Text (txt "x<y")]; BPara [Link (txt "u?a=1&b=2") [Emphasis [Text (txt "z")]]]]; BItem [BCode [txt "<b>" ++ [10]]]]].
Lemma C70_bytes t : forallb (fun c => (0 <=? c) && (c <=? 127)) t = true -> bytes_ok t /\ no_overlong_ascii t.
Proof.
  intros H. rewrite forallb_forall in H. assert (B : Forall (fun c => 0 <= c <= 127) t).
  { apply Forall_forall. intros c Hc. specialize (H c Hc). apply andb_prop in H. destruct H as [H1 H2]. apply Z.leb_le in H1. apply Z.leb_le in H2. auto. }
  split; [eapply Forall_impl; [|exact B]; unfold is_byte; cbn; lia|].
  intros pre l post p E F Hp. assert (Bl : Forall (fun c => 0 <= c <= 127) l) by (rewrite E in B; apply Forall_app in B; destruct B as [_ B]; apply Forall_app in B; apply B).
  destruct F; [reflexivity|..]; exfalso; inversion Bl; subst; lia.
Qed.
Example C70_sample_ok : Forall (blockOk (fun t => bytes_ok t /\ no_overlong_ascii t) false) C70_sample.
Proof.
  assert (T : forall t, forallb (fun c => (0 <=? c) && (c <=? 127)) t = true -> inlOk (fun t => bytes_ok t /\ no_overlong_ascii t) (Text t)) by (intros t H; constructor; apply C70_bytes; exact H).
  constructor; [|constructor; [|constructor]].
  - constructor; [lia|apply C70_bytes; reflexivity|constructor; [apply T; reflexivity|constructor]].
  - constructor; [lia|]. constructor; [|constructor; [|constructor]].
    + constructor; [discriminate|]. constructor; [constructor; constructor; [apply T; reflexivity|constructor]|]. constructor; [|constructor].
      constructor. constructor; [|constructor]. constructor; [apply C70_bytes; reflexivity|]. constructor; [|constructor]. constructor. constructor; [apply T; reflexivity|constructor].
    + constructor; [discriminate|]. constructor; [|constructor]. constructor. constructor; [apply C70_bytes; reflexivity|constructor].
Qed.
Example C70_sample_html : convertToHTML true C70_sample = Some (
  txt "<h2 class=""anchored""><span class=""anchor"" id=""a&quot;b"">&nbsp;</span>A &amp; B</h2>" ++ [10] ++
  txt "<ol start=""3"">" ++ [10] ++ txt "<li>x&lt;y" ++ [10] ++ txt "<a href=""u?a=1&amp;b=2""><em>z</em></a></li>" ++ [10] ++
  txt "<li>" ++ [10] ++ txt "<pre><code>&lt;b&gt;" ++ [10] ++ txt "</code></pre>" ++ [10] ++ txt "</li>" ++ [10] ++ txt "</ol>" ++ [10]).
Proof. vm_compute. reflexivity. Qed.
(** Refuted for tight lists with an empty item: the converter reads the first child of the item. The parser makes such items
    ("* * a"). *)
Theorem C70_empty_item_refuted : forall anchors start a b,
  convertToHTML anchors [BList start false (a ++ BItem [] :: b)] = None.
Proof.
  intros anchors start a b. unfold convertToHTML. cbn [map seqOpt]. assert (E : blockHTML anchors false (BList start false (a ++ BItem [] :: b)) = None); [|rewrite E; reflexivity].
  cbn [blockHTML negb]. assert (S : seqOpt (map (blockHTML anchors true) (a ++ BItem [] :: b)) = None); [|rewrite S; reflexivity].
  induction a as [|x a IH]; [reflexivity|]. cbn [app map seqOpt]. rewrite IH. destruct (blockHTML anchors true x); reflexivity.
Qed.
Print Assumptions C70_empty_item_refuted.
Example C70_empty_item_ex : exists doc, parse (txt "* * a") = Some doc /\ convertToHTML true doc = None.
Proof. exists [BList (-1) false [BItem []; BList (-1) false [BItem [BPara [Text (txt "a")]]]]]. split; vm_compute; reflexivity. Qed.
